(** Base 58. *)
From Verif Require Import BaseProofs ProtobufProofs MultibaseModel MultibaseSpec MultibaseProofs.

(** ** Positional notation *)
Fixpoint le_value (r : N) (l : list N) : N :=
  match l with [] => 0 | d :: t => d + r * le_value r t end.

Lemma be_acc r l a : fold_left (fun a d => a * r + d) l a = a * r ^ N.of_nat (length l) + be_value r l.
Proof.
  unfold be_value. revert a. induction l as [|d l IH]; intros a; cbn [fold_left length].
  - cbn. lia.
  - rewrite (IH (a * r + d)), (IH (0 * r + d)). rewrite Nat2N.inj_succ, N.pow_succ_r'. ring.
Qed.
Lemma be_value_cons r d l : be_value r (d :: l) = d * r ^ N.of_nat (length l) + be_value r l.
Proof. unfold be_value at 1. cbn [fold_left]. rewrite be_acc. f_equal. Qed.
Lemma be_value_snoc r l d : be_value r (l ++ [d]) = be_value r l * r + d.
Proof. unfold be_value. rewrite fold_left_app. reflexivity. Qed.
Lemma be_value_rev r l : be_value r (rev l) = le_value r l.
Proof.
  induction l as [|d l IH]; [reflexivity|]. cbn [rev le_value]. rewrite be_value_snoc, IH. ring.
Qed.
Lemma be_value_zeros r z l : be_value r (repeat 0 z ++ l) = be_value r l.
Proof.
  induction z as [|z IH]; cbn [repeat app]; [reflexivity|]. rewrite be_value_cons, IH. reflexivity.
Qed.

Lemma nlz_app l d : l <> [] -> no_leading_zero (l ++ [d]) <-> no_leading_zero l.
Proof. destruct l as [|x l]; [congruence|]. reflexivity. Qed.
Lemma nlz_cons_rev d l : no_leading_zero (rev (d :: l)) -> no_leading_zero (rev l).
Proof.
  cbn [rev]. destruct (rev l) as [|x t] eqn:E; [intros _; exact I|]. intros H; exact H.
Qed.
Lemma le_value_pos r l : 0 < r -> l <> [] -> no_leading_zero (rev l) -> 0 < le_value r l.
Proof.
  intros Hr. induction l as [|d l IH]; intros H0 H; [congruence|]. cbn [le_value].
  destruct l as [|d' l].
  - cbn in *. destruct d; [contradiction|lia].
  - apply nlz_cons_rev in H as H'. specialize (IH ltac:(discriminate) H'). nia.
Qed.
Lemma le_value_inj r l l' :
  1 < r -> Forall (fun d => d < r) l -> Forall (fun d => d < r) l' ->
  no_leading_zero (rev l) -> no_leading_zero (rev l') ->
  le_value r l = le_value r l' -> l = l'.
Proof.
  intros Hr H. revert l'. induction H as [|d l Hd Hl IH]; intros l' H' N N' E.
  - destruct l' as [|d' l']; [reflexivity|].
    pose proof (le_value_pos r (d' :: l') ltac:(lia) ltac:(discriminate) N'). cbn [le_value] in *. lia.
  - destruct l' as [|d' l'].
    { pose proof (le_value_pos r (d :: l) ltac:(lia) ltac:(discriminate) N). cbn [le_value] in *. lia. }
    inversion H' as [|? ? Hd' Hl']; subst. cbn [le_value] in E.
    assert (d = d' /\ le_value r l = le_value r l') as [-> E'].
    { assert (M : d = d').
      { apply (f_equal (fun x => x mod r)) in E.
        rewrite !(N.mul_comm r), !N.mod_add in E by lia. rewrite !N.mod_small in E by assumption. exact E. }
      split; [exact M|]. subst. nia. }
    f_equal. apply IH; auto; eapply nlz_cons_rev; eauto.
Qed.
Lemma be_value_inj r l l' :
  1 < r -> Forall (fun d => d < r) l -> Forall (fun d => d < r) l' ->
  no_leading_zero l -> no_leading_zero l' -> be_value r l = be_value r l' -> l = l'.
Proof.
  intros Hr H H' N N' E. rewrite <- (rev_involutive l), <- (rev_involutive l') in E.
  rewrite !be_value_rev in E. apply le_value_inj in E; rewrite ?rev_involutive; auto using Forall_rev.
  apply (f_equal (@rev _)) in E. rewrite !rev_involutive in E. exact E.
Qed.
Lemma be_value_lt l : bytes_ok l -> be_value 256 l < 256 ^ N.of_nat (length l).
Proof.
  induction 1 as [|d l Hd Hl IH]; [reflexivity|].
  rewrite be_value_cons. cbn [length]. rewrite Nat2N.inj_succ, N.pow_succ_r'.
  set (P := 256 ^ N.of_nat (length l)) in *. clearbody P. change (d < 256) in Hd. nia.
Qed.

(** ** Leading letters *)
Lemma leading_split z l :
  l = repeat z (leading z l) ++ skipn (leading z l) l /\
  (match skipn (leading z l) l with x :: _ => x <> z | [] => True end).
Proof.
  induction l as [|x l [IH1 IH2]]; [split; [reflexivity|exact I]|]. cbn [leading].
  destruct (N.eqb_spec x z) as [->|K].
  - cbn [repeat skipn app]. rewrite <- IH1. auto.
  - cbn [repeat skipn app]. auto.
Qed.
Lemma repeat_unique (x : N) z z' l l' :
  (match l with y :: _ => y <> x | [] => True end) ->
  (match l' with y :: _ => y <> x | [] => True end) ->
  repeat x z ++ l = repeat x z' ++ l' -> z = z' /\ l = l'.
Proof.
  intros H H'. revert z'. induction z as [|z IH]; intros [|z'] E; cbn [repeat app] in E.
  - auto.
  - subst l. contradiction.
  - subst l'. contradiction.
  - injection E as E. destruct (IH _ E). auto.
Qed.
Lemma nlz_head l : no_leading_zero l <-> match l with y :: _ => y <> 0 | [] => True end.
Proof. destruct l as [|[|p] l]; cbn; split; auto; try congruence; try discriminate. Qed.
Lemma leading_all b : bytes_ok b -> (leading 0 b =? length b)%nat = (be_value 256 b =? 0).
Proof.
  induction 1 as [|x l Hx H IH]; [reflexivity|]. cbn [leading length].
  rewrite be_value_cons.
  assert (P : 256 ^ N.of_nat (length l) <> 0) by (apply N.pow_nonzero; lia).
  destruct (N.eqb_spec x 0) as [->|K].
  - cbn [Nat.eqb]. rewrite IH, N.mul_0_l. reflexivity.
  - symmetry. apply N.eqb_neq. nia.
Qed.

(** ** Encoding *)
Lemma div58_ok b carry q r :
  bytes_ok b -> carry < 58 -> div58 carry b = (q, r) ->
  carry * 256 ^ N.of_nat (length b) + be_value 256 b = 58 * be_value 256 q + r /\
  r < 58 /\ bytes_ok q /\ length q = length b.
Proof.
  intros H. revert carry q r. induction H as [|x l Hx H IH]; intros carry q r Hc E; cbn [div58] in E.
  - injection E as <- <-. cbn. repeat split; try lia; try constructor.
  - change (x < 256) in Hx.
    replace (N.lor (N.shiftl carry 8) x) with (carry * 256 + x) in E.
    2:{ rewrite N.lor_comm, lor_disjoint by exact Hx. change (2 ^ 8) with 256. lia. }
    set (c := carry * 256 + x) in *.
    destruct (div58 (c mod 58) l) as [q' r'] eqn:D. injection E as <- <-.
    apply IH in D as (D1 & D2 & D3 & D4); [|apply N.mod_lt; lia].
    assert (Q : c / 58 < 256) by (apply N.div_lt_upper_bound; subst c; lia).
    change two8 with 256. rewrite (N.mod_small (c / 58)) by exact Q.
    split; [|split; [exact D2|split; [constructor; [exact Q|exact D3]|cbn [length]; lia]]].
    cbn [length]. rewrite !be_value_cons, D4, Nat2N.inj_succ, N.pow_succ_r'.
    set (P := 256 ^ N.of_nat (length l)) in *.
    assert (K : c * P = 58 * (c / 58 * P) + c mod 58 * P)
      by (rewrite (N.div_mod c 58) at 1 by lia; ring).
    assert (K2 : c * P = carry * (256 * P) + x * P) by (subst c; ring).
    clearbody c P. clear IH Hc Hx Q. generalize dependent (c / 58 * P). generalize dependent (c mod 58 * P).
    intros. clear -K K2 D1. lia.
Qed.
Lemma digits58_ok fuel b :
  bytes_ok b -> be_value 256 b < 58 ^ N.of_nat fuel ->
  le_value 58 (digits58 fuel b) = be_value 256 b /\
  Forall (fun d => d < 58) (digits58 fuel b) /\ no_leading_zero (rev (digits58 fuel b)).
Proof.
  revert b. induction fuel as [|fuel IH]; intros b H L.
  - change (58 ^ N.of_nat 0) with 1 in L. cbn. repeat split; try constructor. lia.
  - cbn [digits58]. rewrite leading_all by exact H.
    destruct (N.eqb_spec (be_value 256 b) 0) as [Z|Z].
    + cbn. repeat split; try constructor. lia.
    + destruct (div58 0 b) as [q r] eqn:D.
      apply div58_ok in D as (D1 & D2 & D3 & D4); [|exact H|lia]. rewrite N.mul_0_l, N.add_0_l in D1.
      rewrite Nat2N.inj_succ, N.pow_succ_r' in L.
      destruct (IH q D3) as (I1 & I2 & I3); [lia|].
      rewrite (N.mod_small r two8) by (unfold two8; lia). cbn [le_value].
      rewrite I1. split; [lia|]. split; [constructor; assumption|].
      cbn [rev]. destruct (digits58 fuel q) as [|y t] eqn:E.
      * cbn [rev app]. cbn in I1. apply nlz_head. lia.
      * rewrite nlz_app; [exact I3|]. intros K. apply (f_equal (@length N)) in K.
        rewrite rev_length in K. discriminate.
Qed.
Lemma fuel58 n : 256 ^ N.of_nat n <= 58 ^ N.of_nat (2 * n + 1).
Proof.
  induction n as [|n IH]; [vm_compute; congruence|].
  replace (2 * S n + 1)%nat with (S (S (2 * n + 1))) by lia.
  rewrite !Nat2N.inj_succ, !N.pow_succ_r'. lia.
Qed.
Lemma encode58_denotes b data :
  ~ pow2_base b -> bytes_ok data -> denotes58 b (encode_noprefix data b) data.
Proof.
  intros Hb H.
  assert (E : encode_noprefix data b = encode_base58 data (alphabet_of b))
    by (destruct b; try (exfalso; apply Hb; exact I); reflexivity).
  assert (R : radix b = 58) by (destruct b; try (exfalso; apply Hb; exact I); reflexivity).
  rewrite E. unfold encode_base58.
  destruct (leading_split 0 data) as [S1 S2]. set (z := leading 0 data) in *.
  set (num := skipn z data) in *.
  assert (V : be_value 256 data = be_value 256 num) by (rewrite S1; apply be_value_zeros).
  destruct (digits58_ok (2 * length data + 1) data H) as (D1 & D2 & D3).
  { eapply N.lt_le_trans; [apply be_value_lt, H|apply fuel58]. }
  exists z, (alpha (alphabet_of b) 0), num, (rev (digits58 (2 * length data + 1) data)),
    (map (alpha (alphabet_of b)) (rev (digits58 (2 * length data + 1) data))).
  rewrite be_value_rev, D1, V, <- S1. repeat split; auto.
  - apply alpha_stands. rewrite R. lia.
  - apply alpha_stands_all. rewrite R. apply Forall_rev, D2.
  - apply nlz_head, S2.
  - apply bytes_ok_skipn, H.
Qed.

(** ** Decoding *)
Lemma mul58_ok l carry :
  bytes_ok l -> carry < 256 ->
  le_value 256 (mul58 carry l) = 58 * le_value 256 l + carry /\
  bytes_ok (mul58 carry l) /\
  (no_leading_zero (rev l) -> no_leading_zero (rev (mul58 carry l))) /\
  (l <> [] -> mul58 carry l <> []).
Proof.
  intros H. revert carry. induction H as [|x l Hx H IH]; intros carry Hc; cbn [mul58].
  - destruct (N.eqb_spec carry 0) as [->|Z].
    + cbn. repeat split; auto. constructor.
    + rewrite shiftr_pow, land_255. change (2 ^ 8) with 256.
      replace (carry / 256) with 0 by lia. cbn [N.eqb le_value]. rewrite N.mod_small by exact Hc.
      repeat split; [lia|constructor; [exact Hc|constructor]| |discriminate].
      intros _. apply nlz_head. exact Z.
  - change (x < 256) in Hx.
    rewrite (N.mod_small _ two16) by (unfold two16; lia).
    rewrite shiftr_pow, land_255. change (2 ^ 8) with 256.
    set (c := carry + x * 58) in *.
    destruct (IH (c / 256)) as (I1 & I2 & I3 & I4); [subst c; lia|].
    cbn [le_value]. rewrite I1. split; [subst c; lia|].
    split; [constructor; [apply N.mod_lt; lia|exact I2]|].
    split; [|discriminate].
    intros NZ. cbn [rev]. destruct l as [|y l'].
    + cbn [rev app] in NZ. apply nlz_head in NZ. cbn [mul58].
      destruct (N.eqb_spec (c / 256) 0) as [Z|Z].
      * cbn [rev app]. apply nlz_head. subst c. lia.
      * rewrite nlz_app; [|cbn [rev]; intros K; apply (f_equal (@length N)) in K; rewrite !app_length in K; cbn in K; lia].
        cbn [mul58] in I3. destruct (N.eqb_spec (c / 256) 0) as [Z'|Z']; [congruence|].
        apply I3. exact I.
    + rewrite nlz_app.
      * apply I3. eapply nlz_cons_rev. exact NZ.
      * intros K. apply (f_equal (@rev N)) in K. rewrite rev_involutive in K. cbn [rev] in K.
        apply I4; [discriminate|exact K].
Qed.

Lemma decode58_loop_ok b s o dec out :
  (radix b <= 256) -> bytes_ok dec -> no_leading_zero (rev dec) ->
  (decode58_loop s o (inv_of b) dec = Ok out ->
   exists ds, Forall2 (stands_for b) s ds /\ bytes_ok out /\ no_leading_zero (rev out) /\
     le_value 256 out = le_value 256 dec * 58 ^ N.of_nat (length ds) + be_value 58 ds) /\
  (forall ds, Forall2 (stands_for b) s ds -> exists out, decode58_loop s o (inv_of b) dec = Ok out).
Proof.
  intros Hr. revert o dec. induction s as [|c s IH]; intros o dec H N.
  - split.
    + intros E. injection E as <-. exists []. cbn [length be_value fold_left N.of_nat].
      rewrite N.pow_0_r. repeat split; auto. unfold be_value; cbn [fold_left]. lia.
    + intros ds _. exists dec. reflexivity.
  - cbn [decode58_loop]. destruct (inv_get (inv_of b) c) as [d|] eqn:E.
    + apply table_ok in E. pose proof (stands_for_lt _ _ _ E) as Hd.
      destruct (mul58_ok dec d H ltac:(lia)) as (M1 & M2 & M3 & M4).
      destruct (IH (S o) (mul58 d dec) M2 (M3 N)) as [A B]. split.
      * intros K. destruct (A K) as (ds & A1 & A2 & A3 & A4). exists (d :: ds).
        repeat split; auto. rewrite A4, M1, be_value_cons. cbn [length].
        rewrite Nat2N.inj_succ, N.pow_succ_r'. ring.
      * intros ds K. inversion K; subst. eapply B; eauto.
    + split; [discriminate|]. intros ds K. inversion K; subst.
      assert (inv_get (inv_of b) c = Some y) by (apply table_ok; assumption). congruence.
Qed.
Lemma stands_one b c : ~ pow2_base b -> (stands_for b c 0 <-> c = ch "1").
Proof.
  intros Hb. unfold stands_for.
  destruct b; try (exfalso; apply Hb; exact I); cbn; unfold ch; cbn; split; congruence.
Qed.
Lemma Forall2_repeat {A B} (P : A -> B -> Prop) x y n : P x y -> Forall2 P (repeat x n) (repeat y n).
Proof. intros H. induction n; cbn [repeat]; constructor; auto. Qed.

Lemma rev_repeat {A} (x : A) n : rev (repeat x n) = repeat x n.
Proof.
  induction n as [|n IH]; [reflexivity|]. cbn [repeat rev]. rewrite IH. clear.
  induction n as [|n IH]; [reflexivity|]. cbn [repeat app]. f_equal. exact IH.
Qed.
Lemma decode58_sound b s data :
  ~ pow2_base b -> decode_noprefix s b = Ok data -> denotes58 b s data.
Proof.
  intros Hb.
  assert (E : decode_noprefix s b = decode_base58 s (inv_of b))
    by (destruct b; try (exfalso; apply Hb; exact I); reflexivity).
  assert (R : radix b <= 256) by (destruct b; cbn; lia).
  rewrite E. unfold decode_base58. rewrite bind_ok. intros (dec & D & K).
  assert (K' : rev (dec ++ repeat 0 (leading (ch "1") s)) = data) by congruence. subst data. clear K.
  apply decode58_loop_ok in D as (ds & D1 & D2 & D3 & D4); [|exact R|constructor|exact I].
  cbn [le_value] in D4. rewrite N.mul_0_l, N.add_0_l in D4.
  destruct (leading_split (ch "1") s) as [S1 S2].
  remember (leading (ch "1") s) as z eqn:Ez. remember (skipn z s) as cs eqn:Ecs.
  clear Ez Ecs E. subst s.
  apply Forall2_app_inv_l in D1 as (d0 & d1 & F0 & F1 & ->).
  assert (d0 = repeat 0 z) as ->.
  { eapply stands_all_fun; [exact F0|]. apply Forall2_repeat, stands_one; auto. }
  rewrite be_value_zeros in D4.
  exists z, (ch "1"), (rev dec), d1, cs.
  rewrite be_value_rev, rev_app_distr. repeat split; auto.
  - rewrite rev_repeat. reflexivity.
  - apply stands_one; auto.
  - apply nlz_head. destruct d1 as [|d d1]; [exact I|]. inversion F1; subst.
    intros ->. apply S2. apply (stands_one b); auto.
  - apply Forall_rev, D2.
Qed.

Lemma denotes58_unique_data b s data data' :
  denotes58 b s data -> denotes58 b s data' -> data = data'.
Proof.
  intros (z & one & num & ds & cs & -> & O & -> & F & N1 & N2 & B & V).
  intros (z' & one' & num' & ds' & cs' & -> & O' & E & F' & N1' & N2' & B' & V').
  assert (one' = one) as -> by (eapply stands_for_inj; eauto).
  assert (HC : forall cs ds, Forall2 (stands_for b) cs ds -> no_leading_zero ds ->
     match cs with y :: _ => y <> one | [] => True end).
  { clear -O. intros cs ds F N. destruct F as [|c d cs ds H _]; [exact I|]. intros ->.
    apply nlz_head in N. apply N. eapply stands_for_fun; eauto. }
  apply repeat_unique in E as [-> ->]; [|exact (HC _ _ F N2)|exact (HC _ _ F' N2')]. f_equal.
  assert (ds = ds') as <- by (eapply stands_all_fun; eauto).
  apply (be_value_inj 256); auto; [lia|congruence].
Qed.
Lemma denotes58_unique_text b s s' data :
  radix b <= 58 ->
  denotes58 b s data -> denotes58 b s' data -> s = s'.
Proof.
  intros Hr (z & one & num & ds & cs & -> & O & -> & F & N1 & N2 & B & V).
  intros (z' & one' & num' & ds' & cs' & E & O' & -> & F' & N1' & N2' & B' & V').
  assert (one' = one) as -> by (eapply stands_for_inj; eauto).
  apply repeat_unique in E as [-> ->]; [|apply nlz_head; assumption..]. f_equal.
  assert (HD : forall cs ds, Forall2 (stands_for b) cs ds -> Forall (fun d => d < 58) ds).
  { clear -Hr. induction 1; constructor; auto. apply stands_for_lt in H. lia. }
  assert (ds = ds') as <- by (apply (be_value_inj 58); eauto; [lia|congruence]).
  eapply stands_all_inj; eauto.
Qed.
Lemma decode58_iff b s data :
  ~ pow2_base b -> (decode_noprefix s b = Ok data <-> denotes58 b s data).
Proof.
  intros Hb. split; [apply decode58_sound, Hb|]. intros D.
  assert (E : decode_noprefix s b = decode_base58 s (inv_of b))
    by (destruct b; try (exfalso; apply Hb; exact I); reflexivity).
  assert (K : exists data', decode_noprefix s b = Ok data').
  { destruct D as (z & one & num & ds & cs & -> & O & -> & F & _).
    assert (FF : Forall2 (stands_for b) (repeat one z ++ cs) (repeat 0 z ++ ds))
      by (apply Forall2_app; [apply Forall2_repeat, O|exact F]).
    assert (R : radix b <= 256) by (destruct b; cbn; lia).
    rewrite E. unfold decode_base58.
    destruct (proj2 (decode58_loop_ok b (repeat one z ++ cs) 0 [] [] R ltac:(constructor) I) _ FF) as [out ->].
    eexists. reflexivity. }
  destruct K as [data' K]. rewrite K. f_equal.
  eapply denotes58_unique_data; [eapply decode58_sound; eauto|exact D].
Qed.
