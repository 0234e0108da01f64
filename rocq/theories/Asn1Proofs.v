(** Lemmas about the ASN.1 reader and writer. *)
From Verif Require Import Base BaseProofs BinaryModel BinarySpec BinaryProofs BinaryProofs2 Asn1Model Asn1Spec.

(** *** Induction over trees *)
Definition children (P : item -> Prop) (v : value) : Prop :=
  match v with
  | VSequence l | VSet l => Forall P l
  | VApplication _ i | VContextSpecific _ i | VPrivate _ i => P i
  | _ => True
  end.
Lemma item_ind' (P : item -> Prop) : (forall s e v, children P v -> P (Item s e v)) -> forall i, P i.
Proof.
  intros H. fix IH 1. intros [s e v]. apply H.
  assert (L : forall l, Forall P l) by (fix IHl 1; intros [|j l]; constructor; [apply IH|apply IHl]).
  destruct v; cbn [children]; auto.
Qed.
Definition encode_list := fix list (l : list item) : outcome werr bytes :=
    match l with
    | [] => Ok []
    | i :: t => let? a := encode_item i in let? b := list t in Ok (a ++ b)
    end.

(** *** Lengths *)
Lemma pow256_S n : 256 ^ N.of_nat (S n) = 256 * 256 ^ N.of_nat n.
Proof. rewrite Nat2N.inj_succ, N.pow_succ_r'. reflexivity. Qed.
Lemma lz_be m : forall n, 0 < n -> n < 256 ^ N.of_nat m ->
  exists k, (k <= m)%nat /\ 256 ^ N.of_nat k <= 256 * n /\ n < 256 ^ N.of_nat k /\
    leading_zeros (be_bytes m n) = (m - k)%nat /\ skipn (m - k) (be_bytes m n) = be_bytes k n.
Proof.
  induction m as [|m IH]; intros n P L.
  - change (256 ^ N.of_nat 0) with 1 in L. lia.
  - rewrite pow256_S in L. rewrite be_bytes_S. destruct (n <? 256 ^ N.of_nat m) eqn:E.
    + apply N.ltb_lt in E. destruct (IH n P E) as (k & K1 & K2 & K3 & K4 & K5). exists k.
      split; [lia|]. split; [exact K2|]. split; [exact K3|]. rewrite N.div_small by exact E. change (0 mod 256) with 0. cbn [leading_zeros].
      replace (S m - k)%nat with (S (m - k)) by lia. split; [lia|]. cbn [skipn]. exact K5.
    + apply N.ltb_ge in E. exists (S m). rewrite pow256_S. pose proof (pow256_pos (N.of_nat m)) as Hp.
      split; [lia|]. split; [lia|]. split; [exact L|]. rewrite Nat.sub_diag. cbn [skipn]. rewrite be_bytes_S.
      split; [|reflexivity]. assert (Hd : 1 <= n / 256 ^ N.of_nat m) by (apply N.div_le_lower_bound; lia).
      assert (Hu : n / 256 ^ N.of_nat m < 256) by (apply N.div_lt_upper_bound; lia).
      rewrite N.mod_small by exact Hu. destruct (n / 256 ^ N.of_nat m); [lia|reflexivity].
Qed.
Lemma lor_80 k : k <= 8 -> N.lor k 0x80 = 128 + k.
Proof.
  intros H. assert (X : forallb (fun k => N.lor k 0x80 =? 128 + k) (map N.of_nat (seq 0 9)) = true) by (vm_compute; reflexivity).
  rewrite forallb_forall in X. apply N.eqb_eq, X. apply in_map_iff. exists (N.to_nat k). split; [lia|]. apply in_seq. lia.
Qed.
Lemma encode_length_spec n : n < two64 ->
  (n < 128 /\ encode_length n = [n]) \/
  (128 <= n /\ exists k, (1 <= k <= 8)%nat /\ 256 ^ N.of_nat k <= 256 * n /\ n < 256 ^ N.of_nat k /\ encode_length n = (128 + N.of_nat k) :: be_bytes k n).
Proof.
  intros B. unfold encode_length. destruct (n <? 128) eqn:E; [left; split; [lia|reflexivity]|]. right. split; [lia|].
  destruct (lz_be 8 n ltac:(lia) B) as (k & K1 & K2 & K3 & K4 & K5).
  assert (K0 : (1 <= k)%nat) by (destruct k; [change (256 ^ N.of_nat 0) with 1 in K3; lia|lia]).
  exists k. split; [lia|]. split; [exact K2|]. split; [exact K3|]. rewrite K4, K5.
  replace (8 - (8 - k))%nat with k by lia. replace (k =? 0)%nat with false by (symmetry; apply Nat.eqb_neq; lia). rewrite lor_80 by lia. reflexivity.
Qed.
Lemma lor_low a b : b < 256 -> N.lor (a * 256) b = a * 256 + b.
Proof.
  intros H. rewrite N.lor_comm, N.add_comm. change 256 with (2 ^ 8). rewrite <- (N.shiftl_mul_pow2 a 8) at 1. apply lor_disjoint. exact H.
Qed.
Lemma length_loop_ok n v pre s post :
  length s = n -> v < 2 ^ (32 - 8 * N.of_nat n) -> (n <= 4)%nat -> bytes_ok s -> fits (pre ++ s ++ post) ->
  length_loop n v (at_pos pre (s ++ post)) =
  (Ok (v * 256 ^ N.of_nat n + of_be_bytes s), at_pos (pre ++ s) post).
Proof.
  revert v pre s. induction n as [|n IH]; intros v pre s L V Hn B F; cbn [length_loop].
  - destruct s; [|discriminate]. rewrite app_nil_r. change (256 ^ N.of_nat 0) with 1.
    change (of_be_bytes []) with 0. rewrite N.mul_1_r, N.add_0_r. reflexivity.
  - destruct s as [|b s]; [discriminate|]. injection L as L.
    unfold rbind. cbn [app] in *. rewrite u8_ok by auto.
    apply bytes_ok_cons in B. destruct B as [Hb B].
    assert (Hp : 2 ^ (32 - 8 * N.of_nat n) = 256 * 2 ^ (32 - 8 * N.of_nat (S n))).
    { change 256 with (2 ^ 8). rewrite <- N.pow_add_r. f_equal. lia. }
    assert (Hle : 2 ^ (32 - 8 * N.of_nat n) <= two32).
    { change two32 with (2 ^ 32). apply N.pow_le_mono_r; lia. }
    assert (Hs : N.shiftl v 8 mod two32 = v * 256).
    { rewrite N.shiftl_mul_pow2. change (2 ^ 8) with 256. apply N.mod_small. lia. }
    rewrite Hs, lor_low by exact Hb. rewrite IH; auto; try lia.
    2:{ rewrite <- app_assoc. exact F. }
    rewrite <- app_assoc. cbn [app]. f_equal. f_equal.
    change (b :: s) with ([b] ++ s). rewrite of_be_app, of_be_single, pow256_S, L. nia.
Qed.
Lemma long_first k : k <= 127 -> (N.land (128 + k) 0x80 =? 0) = false /\ N.land (128 + k) 0x7f = k.
Proof.
  intros H. assert (X : forallb (fun k => negb (N.land (128 + k) 0x80 =? 0) && (N.land (128 + k) 0x7f =? k)) (map N.of_nat (seq 0 128)) = true) by (vm_compute; reflexivity).
  rewrite forallb_forall in X. specialize (X k). rewrite andb_true_iff, negb_true_iff, N.eqb_eq in X. apply X.
  apply in_map_iff. exists (N.to_nat k). split; [lia|]. apply in_seq. lia.
Qed.
Lemma short_first k : k < 128 -> (N.land k 0x80 =? 0) = true /\ N.land k 0x7f = k.
Proof.
  intros H. assert (X : forallb (fun k => (N.land k 0x80 =? 0) && (N.land k 0x7f =? k)) (map N.of_nat (seq 0 128)) = true) by (vm_compute; reflexivity).
  rewrite forallb_forall in X. specialize (X k). rewrite andb_true_iff, N.eqb_eq in X. rewrite N.eqb_eq in *. apply X.
  apply in_map_iff. exists (N.to_nat k). split; [lia|]. apply in_seq. lia.
Qed.
Lemma length_form_read s n pre post : length_form s n -> bytes_ok s -> fits (pre ++ s ++ post) ->
  read_length (at_pos pre (s ++ post)) = (Ok n, at_pos (pre ++ s) post).
Proof.
  intros [[-> L]|(d & -> & L & ->)] B F.
  - unfold read_length, rbind. cbn [app] in *. rewrite u8_ok by exact F. destruct (short_first n L) as [-> ->]. reflexivity.
  - unfold read_length, rbind. cbn [app] in *. rewrite u8_ok by exact F. destruct (long_first (blen d) ltac:(lia)) as [-> ->].
    replace (blen d =? 0x7f) with false by lia. replace (blen d =? 0) with false by lia. replace (4 <? blen d) with false by lia.
    apply bytes_ok_cons in B. destruct B as [_ B].
    rewrite length_loop_ok; [|unfold blen; lia|apply N.neq_0_lt_0, N.pow_nonzero; lia|lia|exact B|rewrite <- app_assoc; exact F].
    rewrite N.mul_0_l, N.add_0_l, <- app_assoc. reflexivity.
Qed.
Lemma length_loop_inv n : forall v pre rest x r', length_loop n v (at_pos pre rest) = (x, r') -> bytes_ok rest ->
  v < 2 ^ (32 - 8 * N.of_nat n) -> (n <= 4)%nat ->
  x <> Panic /\ exists s post, rest = s ++ post /\ r' = at_pos (pre ++ s) post /\
    (forall m, x = Ok m -> length s = n /\ m = v * 256 ^ N.of_nat n + of_be_bytes s).
Proof.
  induction n as [|n IH]; intros v pre rest x r'; cbn [length_loop].
  - intros H _ _ _. injection H as <- <-. split; [discriminate|]. exists [], rest. rewrite app_nil_r. split; [reflexivity|]. split; [reflexivity|].
    intros m X. injection X as <-. split; [reflexivity|]. change (256 ^ N.of_nat 0) with 1. change (of_be_bytes []) with 0. lia.
  - unfold rbind. destruct (read_u8 (at_pos pre rest)) as [y r1] eqn:E. intros H B V Hn.
    apply take_inv in E. destruct E as [(e & -> & ->)|(s & post & -> & L & -> & ->)].
    + injection H as <- <-. split; [discriminate|]. exists [], rest. rewrite app_nil_r. split; [reflexivity|]. split; [reflexivity|discriminate].
    + destruct s as [|b [|]]; cbn in L; try lia. rewrite ?of_be_single in H.
      apply bytes_ok_app in B. destruct B as [B1 B2]. apply bytes_ok_cons in B1. destruct B1 as [Hb _].
      assert (Hp : 2 ^ (32 - 8 * N.of_nat n) = 256 * 2 ^ (32 - 8 * N.of_nat (S n))).
      { change 256 with (2 ^ 8). rewrite <- N.pow_add_r. f_equal. lia. }
      assert (Hle : 2 ^ (32 - 8 * N.of_nat n) <= two32).
      { change two32 with (2 ^ 32). apply N.pow_le_mono_r; lia. }
      assert (Hs : N.shiftl v 8 mod two32 = v * 256).
      { rewrite N.shiftl_mul_pow2. change (2 ^ 8) with 256. apply N.mod_small. lia. }
      rewrite Hs, lor_low in H by exact Hb. apply IH in H; [|exact B2|lia|lia]. destruct H as (P & s' & post' & -> & -> & M).
      split; [exact P|]. exists (b :: s'), post'. split; [reflexivity|]. rewrite <- app_assoc. split; [reflexivity|].
      intros m X. destruct (M m X) as [L1 ->]. split; [cbn; lia|]. change (b :: s') with ([b] ++ s'). rewrite of_be_app, of_be_single, pow256_S, L1. nia.
Qed.
Lemma read_length_inv pre rest x r' : read_length (at_pos pre rest) = (x, r') -> bytes_ok rest ->
  x <> Panic /\ exists s post, rest = s ++ post /\ r' = at_pos (pre ++ s) post /\ forall n, x = Ok n -> length_form s n.
Proof.
  unfold read_length, rbind. destruct (read_u8 (at_pos pre rest)) as [y r1] eqn:E. intros H B.
  apply take_inv in E. destruct E as [(e & -> & ->)|(s & post & -> & L & -> & ->)].
  - injection H as <- <-. split; [discriminate|]. exists [], rest. rewrite app_nil_r. split; [reflexivity|]. split; [reflexivity|discriminate].
  - destruct s as [|b [|]]; cbn in L; try lia. rewrite of_be_single in H. apply bytes_ok_app in B. destruct B as [B1 B2].
    apply bytes_ok_cons in B1. destruct B1 as [Hb _]. destruct (b <? 128) eqn:Eb.
    + destruct (short_first b ltac:(lia)) as [Q1 Q2]. rewrite Q1, Q2 in H. injection H as <- <-. split; [discriminate|].
      exists [b], post. split; [reflexivity|]. split; [reflexivity|]. intros n X. injection X as <-. left. split; [reflexivity|lia].
    + assert (exists k, b = 128 + k /\ k < 128) as (k & -> & Hk) by (exists (b - 128); lia).
      destruct (long_first k ltac:(lia)) as [Q1 Q2]. rewrite Q1, Q2 in H.
      assert (Bad : forall e, (@rfail N e) (at_pos (pre ++ [128 + k]) post) = (x, r') -> x <> Panic /\ exists s post0, [128 + k] ++ post = s ++ post0 /\ r' = at_pos (pre ++ s) post0 /\ forall n, x = Ok n -> length_form s n).
      { intros e X. injection X as <- <-. split; [discriminate|]. exists [128 + k], post. split; [reflexivity|]. split; [reflexivity|discriminate]. }
      destruct (k =? 0x7f) eqn:K1; [apply (Bad _ H)|]. destruct (k =? 0) eqn:K2; [apply (Bad _ H)|]. destruct (4 <? k) eqn:K3; [apply (Bad _ H)|].
      apply length_loop_inv in H; [|exact B2|apply N.neq_0_lt_0, N.pow_nonzero; lia|lia]. destruct H as (P & s' & post' & -> & -> & M).
      split; [exact P|]. exists ((128 + k) :: s'), post'. split; [reflexivity|]. rewrite <- app_assoc. split; [reflexivity|].
      intros n X. destruct (M n X) as [L1 ->]. right. exists s'. assert (k = blen s') as -> by (unfold blen; lia). split; [reflexivity|]. split; [lia|]. lia.
Qed.
Lemma encode_length_form n : n < two32 -> length_form (encode_length n) n /\ bytes_ok (encode_length n) /\ (1 <= length (encode_length n))%nat.
Proof.
  intros H. assert (B : n < two64) by (unfold two32, two64 in *; lia). destruct (encode_length_spec n B) as [[L ->]|(L & k & K & K1 & K2 & ->)].
  - split; [left; auto|]. split; [constructor; [change (n < 256); lia|constructor]|cbn; lia].
  - assert (K4 : (k <= 4)%nat).
    { destruct (Nat.le_gt_cases k 4) as [X|X]; [exact X|exfalso]. assert (256 ^ N.of_nat 5 <= 256 ^ N.of_nat k) by (apply N.pow_le_mono_r; lia).
      change (256 ^ N.of_nat 5) with (256 * two32) in H0. lia. }
    split; [|split; [constructor; [change (128 + N.of_nat k < 256); lia|apply be_bytes_ok]|cbn [length]; lia]].
    right. exists (be_bytes k n). rewrite blen_be. split; [reflexivity|]. split; [lia|]. symmetry. apply of_be_be_bytes. exact K2.
Qed.

(** *** Identifiers *)
Definition id_byte (c : class) (f : form) (tag : N) : N :=
  N.lor (N.lor (N.shiftl match c with CUniversal => 0 | CApplication => 1 | CContext => 2 | CPrivate => 3 end 6)
               (N.shiftl match f with FPrimitive => 0 | FConstructed => 1 end 5)) tag.
Lemma identifier_ok c f tag pre post : tag <= 30 -> fits (pre ++ id_byte c f tag :: post) ->
  read_identifier (at_pos pre (id_byte c f tag :: post)) =
  (Ok {| id_class := c; id_form := f; id_tag := tag |}, at_pos (pre ++ [id_byte c f tag]) post).
Proof.
  intros H F. unfold read_identifier, rbind. rewrite u8_ok by exact F.
  set (ceq := fun c d => match c, d with CUniversal, CUniversal | CApplication, CApplication | CContext, CContext | CPrivate, CPrivate => true | _, _ => false end).
  set (feq := fun c d => match c, d with FPrimitive, FPrimitive | FConstructed, FConstructed => true | _, _ => false end).
  assert (X : forallb (fun c => forallb (fun f => forallb (fun tag =>
     let first := id_byte c f tag in
     ceq (match N.land first 0x80 =? 0x80, N.land first 0x40 =? 0x40 with
             | false, false => CUniversal | false, true => CApplication
             | true, false => CContext | true, true => CPrivate end) c &&
     feq (if N.land first 0x20 =? 0x20 then FConstructed else FPrimitive) f &&
     (N.land first 0x1f =? tag) && negb (N.land first 0x1f =? 0x1f)) (map N.of_nat (seq 0 31))) [FPrimitive; FConstructed]) [CUniversal; CApplication; CContext; CPrivate] = true)
    by (vm_compute; reflexivity).
  rewrite forallb_forall in X. specialize (X c ltac:(destruct c; cbn; auto)). cbv beta in X.
  rewrite forallb_forall in X. specialize (X f ltac:(destruct f; cbn; auto)). cbv beta in X.
  rewrite forallb_forall in X. specialize (X tag). cbv beta zeta in X.
  assert (I : In tag (map N.of_nat (seq 0 31))) by (apply in_map_iff; exists (N.to_nat tag); split; [lia|apply in_seq; lia]).
  specialize (X I). rewrite !andb_true_iff in X. destruct X as [[[X1 X2] X3] X4]. apply negb_true_iff in X4. apply N.eqb_eq in X3.
  rewrite X4. unfold rret. rewrite X3. f_equal. f_equal. f_equal.
  - destruct (N.land (id_byte c f tag) 128 =? 128), (N.land (id_byte c f tag) 64 =? 64), c; cbn in X1; congruence.
  - destruct (N.land (id_byte c f tag) 32 =? 32), f; cbn in X2; congruence.
Qed.
Lemma encode_raw_ok c f tag data : tag <= 30 -> encode_raw c f tag data = Ok (id_byte c f tag :: encode_length (blen data) ++ data).
Proof. intros H. unfold encode_raw, encode_identifier. replace (30 <? tag) with false by lia. reflexivity. Qed.

(** *** Object identifiers *)
Lemma land_127 b : b < 128 -> N.lor b 128 = 128 + b /\ N.land (128 + b) 0x7f = b /\ (N.land (128 + b) 0x80 =? 0) = false.
Proof.
  intros H. assert (X : forallb (fun k => N.lor k 128 =? 128 + k) (map N.of_nat (seq 0 128)) = true) by (vm_compute; reflexivity).
  rewrite forallb_forall in X. specialize (X b). rewrite N.eqb_eq in X.
  split; [apply X; apply in_map_iff; exists (N.to_nat b); split; [lia|apply in_seq; lia]|]. destruct (long_first b ltac:(lia)). auto.
Qed.
Lemma lor_low7 a b : b < 128 -> N.lor (a * 128) b = a * 128 + b.
Proof. intros H. rewrite N.lor_comm, N.add_comm. change 128 with (2 ^ 7). rewrite <- (N.shiftl_mul_pow2 a 7) at 1. apply lor_disjoint. exact H. Qed.
Lemma var_step F acc b pre post : fits (pre ++ b :: post) -> acc * 128 < two64 ->
  var_loop (S F) acc (at_pos pre (b :: post)) =
  (let value := acc * 128 + N.land b 0x7f in if N.land b 0x80 =? 0 then rret value else var_loop F value) (at_pos (pre ++ [b]) post).
Proof.
  intros Ff A. cbn [var_loop]. unfold rbind at 1. rewrite u8_ok by exact Ff.
  rewrite N.shiftl_mul_pow2. change (2 ^ 7) with 128. rewrite N.mod_small by exact A. rewrite lor_low7; [reflexivity|].
  change 127 with (N.ones 7). rewrite N.land_ones. apply N.mod_lt. discriminate.
Qed.
Lemma groups_cons fuel : forall v h, var_groups (S fuel) v h <> [].
Proof. intros v h. cbn [var_groups]. destruct (128 <=? v); discriminate. Qed.
Lemma cont_groups fuel : forall v F pre post, v < 128 ^ N.of_nat fuel -> v < two64 -> (0 < fuel)%nat ->
  fits (pre ++ rev (var_groups fuel v 128) ++ post) ->
  var_loop (length (var_groups fuel v 128) + F) 0 (at_pos pre (rev (var_groups fuel v 128) ++ post)) =
  var_loop F v (at_pos (pre ++ rev (var_groups fuel v 128)) post).
Proof.
  induction fuel as [|fuel IH]; intros v F pre post V V2 P Ff; [lia|]. cbn [var_groups] in *. destruct (128 <=? v) eqn:E.
  - rewrite Nat2N.inj_succ, N.pow_succ_r' in V. rewrite shiftr_pow in *. change (2 ^ 7) with 128 in *.
    assert (Hf : (0 < fuel)%nat) by (destruct fuel; [change (128 ^ N.of_nat 0) with 1 in V; lia|lia]).
    change 127 with (N.ones 7) in *. rewrite N.land_ones in *. change (2 ^ 7) with 128 in *.
    assert (Hm : v mod 128 < 128) by (apply N.mod_lt; discriminate). destruct (land_127 _ Hm) as (Q1 & Q2 & Q3). rewrite Q1 in *.
    cbn [rev length] in *. rewrite <- app_assoc in *. cbn [app] in *. rewrite Nat.add_succ_comm.
    rewrite IH; [|apply N.div_lt_upper_bound; lia|apply N.div_lt_upper_bound; lia|exact Hf|exact Ff].
    rewrite var_step; [|rewrite <- app_assoc; exact Ff|pose proof (N.div_mod v 128); lia].
    rewrite Q2, Q3. cbv zeta. rewrite <- app_assoc. f_equal. pose proof (N.div_mod v 128). lia.
  - destruct (land_127 v ltac:(lia)) as (Q1 & Q2 & Q3). rewrite Q1 in *. cbn [rev app length] in *.
    change (1 + F)%nat with (S F). rewrite var_step by (try exact Ff; reflexivity). rewrite Q2, Q3. cbv zeta. rewrite N.mul_0_l, N.add_0_l. reflexivity.
Qed.
Lemma read_var_ok v pre post : v < two64 -> fits (pre ++ write_var_u64 v ++ post) ->
  read_var_u64 (at_pos pre (write_var_u64 v ++ post)) = (Ok v, at_pos (pre ++ write_var_u64 v) post).
Proof.
  intros V F. unfold read_var_u64. rewrite remaining_at, app_length. unfold write_var_u64 in *. rewrite rev_length.
  change (var_groups 10 v 0) with (if 128 <=? v then N.lor (N.land v 0x7f) 0 :: var_groups 9 (N.shiftr v 7) 0x80 else [N.lor v 0]) in *.
  rewrite !N.lor_0_r in *. destruct (128 <=? v) eqn:E.
  - rewrite shiftr_pow in *. change 127 with (N.ones 7) in *. rewrite N.land_ones in *. change (2 ^ 7) with 128 in *.
    assert (Hm : v mod 128 < 128) by (apply N.mod_lt; discriminate). destruct (short_first _ Hm) as (Q1 & Q2).
    cbn [rev] in *. rewrite <- app_assoc in *. cbn [app] in *. cbn [length].
    replace (S (S (length (var_groups 9 (v / 128) 128)) + length post)) with (length (var_groups 9 (v / 128) 128) + S (S (length post)))%nat by lia.
    rewrite cont_groups; [|apply N.div_lt_upper_bound; [discriminate|]; apply N.lt_le_trans with two64; [exact V|vm_compute; discriminate]|apply N.div_lt_upper_bound; lia|lia|exact F].
    rewrite var_step; [|rewrite <- app_assoc; exact F|pose proof (N.div_mod v 128); lia].
    rewrite Q1, Q2. cbv zeta. unfold rret. rewrite <- app_assoc. f_equal. f_equal. pose proof (N.div_mod v 128). lia.
  - cbn [rev app length] in *. destruct (short_first v ltac:(lia)) as (Q1 & Q2). rewrite var_step by (try exact F; reflexivity).
    rewrite Q1, Q2. reflexivity.
Qed.
Lemma write_var_length v : (1 <= length (write_var_u64 v))%nat.
Proof. unfold write_var_u64. rewrite rev_length. destruct (var_groups 10 v 0) eqn:E; [destruct (groups_cons 9 v 0 E)|cbn; lia]. Qed.


(** *** Whole items *)
Lemma read_raw fuel c f tag data pre post v : tag <= 30 -> blen data < two32 ->
  let h := id_byte c f tag :: encode_length (blen data) in
  fits (pre ++ (h ++ data) ++ post) ->
  read_contents (read_item fuel) {| id_class := c; id_form := f; id_tag := tag |} (blen data) (at_pos (pre ++ h) data) = Ok v ->
  read_item (S fuel) (at_pos pre ((h ++ data) ++ post)) = (Ok (Item (length pre) (length (pre ++ h ++ data)) v), at_pos (pre ++ h ++ data) post).
Proof.
  intros T L h F R. destruct (encode_length_form _ L) as (LF & LB & _). cbn [read_item]. unfold rbind at 1.
  unfold h in *. cbn [app] in *. rewrite <- !app_assoc in *. rewrite identifier_ok by assumption.
  unfold rbind at 1. rewrite (length_form_read _ _ _ _ LF LB) by (rewrite <- app_assoc; exact F).
  unfold rbind at 1. rewrite nested_ok by (rewrite <- !app_assoc; exact F).
  unfold rbind, rlift. rewrite <- !app_assoc. cbn [app]. rewrite R. reflexivity.
Qed.
Lemma remaining_data_at pre s : fst (remaining_data (at_pos pre s)) = Ok s.
Proof.
  unfold remaining_data. cbn [at_pos r_buf r_off fst]. pose proof (@index_range_at berr pre s []) as X. rewrite !app_nil_r in X. rewrite app_length in X. rewrite app_length. exact X.
Qed.
Lemma read_text_at pre s : utf8_valid s = true -> read_text (at_pos pre s) = Ok s.
Proof. intros U. unfold read_text. rewrite remaining_data_at. cbn [bind]. rewrite U. reflexivity. Qed.
Lemma until_arcs l : forall fuel pre, Forall (fun x => x < two64) l -> (length (concat (map write_var_u64 l)) < fuel)%nat -> fits (pre ++ concat (map write_var_u64 l)) ->
  until_empty fuel read_var_u64 (at_pos pre (concat (map write_var_u64 l))) = Ok l.
Proof.
  induction l as [|x l IH]; intros fuel pre B L F; (destruct fuel as [|fuel]; [lia|]); cbn [until_empty map concat] in *; rewrite !remaining_at.
  - reflexivity.
  - inversion B as [|? ? B1 B2]; subst. pose proof (write_var_length x). rewrite app_length in *.
    replace (0 <? length (write_var_u64 x) + length (concat (map write_var_u64 l)))%nat with true by (symmetry; apply Nat.ltb_lt; lia).
    rewrite read_var_ok by assumption. rewrite remaining_at.
    replace (length (concat (map write_var_u64 l)) =? length (write_var_u64 x) + length (concat (map write_var_u64 l)))%nat with false by (symmetry; apply Nat.eqb_neq; lia).
    rewrite IH; [reflexivity|exact B2|lia|rewrite <- app_assoc; exact F].
Qed.
Lemma read_oid_at arcs pre : oid_ok arcs -> fits (pre ++ encode_arcs arcs) -> read_object_identifier (at_pos pre (encode_arcs arcs)) = Ok arcs.
Proof.
  intros O F. unfold read_object_identifier. rewrite remaining_at. destruct arcs as [|a [|b rest]]; [cbn [encode_arcs length until_empty]; rewrite remaining_at; reflexivity|destruct O|].
  cbn [oid_ok encode_arcs] in *. destruct O as (O1 & O2 & O3).
  change (write_var_u64 (a * 40 + b) ++ concat (map write_var_u64 rest)) with (concat (map write_var_u64 (a * 40 + b :: rest))) in *.
  rewrite until_arcs; [|constructor; assumption|lia|exact F]. cbn [bind arcs_of]. f_equal.
  assert (E1 : (a * 40 + b) / 40 = a) by (rewrite N.add_comm, N.div_add by discriminate; rewrite (N.div_small b 40) by exact O1; reflexivity).
  assert (E2 : (a * 40 + b) mod 40 = b) by (rewrite N.add_comm, N.mod_add by discriminate; apply N.mod_small; exact O1).
  rewrite E1, E2. reflexivity.
Qed.

Definition reads_back (i : item) : Prop := forall d, encode_item i = Ok d -> every node_ok i -> blen d < two32 ->
  (2 <= length d)%nat /\
  forall fuel pre post, (length d <= fuel)%nat -> fits (pre ++ d ++ post) ->
  exists j, read_item fuel (at_pos pre (d ++ post)) = (Ok j, at_pos (pre ++ d) post) /\
    erase j = erase (drop_true i) /\ item_start j = length pre /\ item_stop j = length (pre ++ d).
Definition every_list (p : value -> Prop) := fix all (l : list item) : Prop := match l with [] => True | i :: t => every p i /\ all t end.
Lemma every_list_Forall p l : every_list p l <-> Forall (every p) l.
Proof. induction l as [|i l IH]; [split; [constructor|reflexivity]|]. cbn [every_list]. rewrite IH. split; [intros []; constructor; auto|intros H; inversion H; auto]. Qed.
Lemma until_items l : Forall reads_back l -> forall d, encode_list l = Ok d -> Forall (every node_ok) l -> blen d < two32 ->
  forall fuel lf pre, (length d <= fuel)%nat -> (length d < lf)%nat -> fits (pre ++ d) ->
  exists js, until_empty lf (read_item fuel) (at_pos pre d) = Ok js /\ map erase js = map erase (map drop_true l).
Proof.
  induction l as [|i l IH]; intros RB d E EV L fuel lf pre Lf Ll F; (destruct lf as [|lf]; [lia|]); cbn [until_empty].
  - cbn [encode_list] in E. injection E as <-. rewrite remaining_at. exists []. split; reflexivity.
  - change (encode_list (i :: l)) with (let? a := encode_item i in let? b := encode_list l in Ok (a ++ b)) in E.
    apply bind_ok in E. destruct E as (a & Ea & E). apply bind_ok in E. destruct E as (b & Eb & E). assert (d = a ++ b) as -> by congruence. clear E.
    inversion RB as [|? ? R1 R2]; subst. inversion EV as [|? ? V1 V2]; subst. rewrite blen_app in L. rewrite app_length in *.
    destruct (R1 a Ea V1 ltac:(lia)) as (L2 & R). destruct (R fuel pre b ltac:(lia) F) as (j & Rj & Ej & _ & _).
    rewrite remaining_at, app_length. replace (0 <? length a + length b)%nat with true by (symmetry; apply Nat.ltb_lt; lia).
    rewrite Rj, remaining_at. replace (length b =? length a + length b)%nat with false by (symmetry; apply Nat.eqb_neq; lia).
    destruct (IH R2 b Eb V2 ltac:(lia) fuel lf (pre ++ a) ltac:(lia) ltac:(lia)) as (js & Rl & El); [rewrite <- app_assoc; exact F|].
    rewrite Rl. exists (j :: js). split; [reflexivity|]. cbn [map]. rewrite Ej, El. reflexivity.
Qed.
Lemma encode_oid s e arcs : oid_ok arcs -> encode_item (Item s e (VOid arcs)) = encode_raw CUniversal FPrimitive 6 (encode_arcs arcs).
Proof.
  intros O. cbn [encode_item]. replace (arcs_overflow arcs) with false; [reflexivity|].
  destruct arcs as [|a [|b t]]; [reflexivity|reflexivity|]. destruct O as (_ & O & _). symmetry. apply N.leb_gt. exact O.
Qed.
Lemma reads_back_raw s e v c f tag data w :
  tag <= 30 ->
  (encode_item (Item s e v) = encode_raw c f tag data) ->
  (blen data < two32 -> forall fuel pre, (length data + 2 <= fuel)%nat -> fits (pre ++ data) ->
    exists v', read_contents (read_item (pred fuel)) {| id_class := c; id_form := f; id_tag := tag |} (blen data) (at_pos pre data) = Ok v' /\ erase (Item 0 0 v') = w) ->
  w = erase (drop_true (Item s e v)) ->
  forall d, encode_item (Item s e v) = Ok d -> blen d < two32 ->
  (2 <= length d)%nat /\
  forall fuel pre post, (length d <= fuel)%nat -> fits (pre ++ d ++ post) ->
  exists j, read_item fuel (at_pos pre (d ++ post)) = (Ok j, at_pos (pre ++ d) post) /\
    erase j = erase (drop_true (Item s e v)) /\ item_start j = length pre /\ item_stop j = length (pre ++ d).
Proof.
  intros T E R W d Ed L. rewrite E, encode_raw_ok in Ed by exact T. apply (f_equal (fun o => match o with Ok d => d | _ => [] end)) in Ed. cbn beta iota in Ed.
  assert (Ld : blen data < two32) by (rewrite <- Ed in L; change (id_byte c f tag :: ?x) with ([id_byte c f tag] ++ x) in L; rewrite !blen_app in L; lia).
  destruct (encode_length_form _ Ld) as (_ & _ & Le).
  assert (Lg : (length data + 2 <= length d)%nat) by (rewrite <- Ed; cbn [length]; rewrite app_length; lia). split; [lia|].
  intros fuel pre post Lf F. destruct fuel as [|fuel]; [lia|]. change (id_byte c f tag :: encode_length (blen data) ++ data) with ((id_byte c f tag :: encode_length (blen data)) ++ data) in Ed.
  rewrite <- Ed in F |- *.
  destruct (R Ld (S fuel) (pre ++ id_byte c f tag :: encode_length (blen data)) ltac:(lia)) as (v' & Rv & Ev).
  { rewrite <- app_assoc. unfold fits in *. rewrite !blen_app in *. lia. }
  cbn [pred] in Rv. eexists. split; [apply read_raw; [exact T|exact Ld|exact F|exact Rv]|].
  split; [rewrite <- W, <- Ev; reflexivity|]. split; reflexivity.
Qed.
Lemma reads_back_all i : reads_back i.
Proof.
  induction i as [s e v CH] using item_ind'. intros d Ed EV L. cbn [every] in EV. destruct EV as [NV EV].
  destruct v; cbn [children node_ok] in *.
  - refine (reads_back_raw s e (VBoolean b) CUniversal FPrimitive 1 [0] (Item 0 0 (VBoolean false)) _ eq_refl _ eq_refl d Ed L); [lia|].
    intros _ fuel pre _ F. exists (VBoolean false). split; [|reflexivity]. unfold read_contents. cbn [id_class id_form id_tag]. rewrite remaining_at.
    rewrite u8_ok by exact F. reflexivity.
  - refine (reads_back_raw s e (VInteger d0) CUniversal FPrimitive 2 d0 _ _ eq_refl _ eq_refl d Ed L); [lia|].
    intros _ fuel pre _ F. exists (VInteger d0). split; [|reflexivity]. unfold read_contents. cbn [id_class id_form id_tag]. rewrite remaining_data_at. reflexivity.
  - refine (reads_back_raw s e (VBitString unused d0) CUniversal FPrimitive 3 (unused :: d0) _ _ eq_refl _ eq_refl d Ed L); [lia|].
    intros _ fuel pre _ F. exists (VBitString unused d0). split; [|reflexivity]. unfold read_contents. cbn [id_class id_form id_tag].
    unfold rbind. rewrite u8_ok by exact F. pose proof (remaining_data_at (pre ++ [unused]) d0) as X. destruct (remaining_data (at_pos (pre ++ [unused]) d0)) as [y r]. cbn [fst] in X. subst y. reflexivity.
  - refine (reads_back_raw s e (VOctetString d0) CUniversal FPrimitive 4 d0 _ _ eq_refl _ eq_refl d Ed L); [lia|].
    intros _ fuel pre _ F. exists (VOctetString d0). split; [|reflexivity]. unfold read_contents. cbn [id_class id_form id_tag]. rewrite remaining_data_at. reflexivity.
  - refine (reads_back_raw s e VNull CUniversal FPrimitive 5 [] _ _ eq_refl _ eq_refl d Ed L); [lia|].
    intros _ fuel pre _ F. exists VNull. split; [|reflexivity]. unfold read_contents. cbn [id_class id_form id_tag]. rewrite remaining_at. reflexivity.
  - refine (reads_back_raw s e (VOid arcs) CUniversal FPrimitive 6 (encode_arcs arcs) _ _ (encode_oid _ _ _ NV) _ eq_refl d Ed L); [lia|].
    intros _ fuel pre _ F. exists (VOid arcs). split; [|reflexivity]. unfold read_contents. cbn [id_class id_form id_tag]. rewrite read_oid_at by assumption. reflexivity.
  - refine (reads_back_raw s e (VPrintableString s0) CUniversal FPrimitive 19 s0 _ _ eq_refl _ eq_refl d Ed L); [lia|].
    intros _ fuel pre _ F. exists (VPrintableString s0). split; [|reflexivity]. unfold read_contents. cbn [id_class id_form id_tag]. rewrite read_text_at by exact NV. reflexivity.
  - refine (reads_back_raw s e (VUtf8String s0) CUniversal FPrimitive 12 s0 _ _ eq_refl _ eq_refl d Ed L); [lia|].
    intros _ fuel pre _ F. exists (VUtf8String s0). split; [|reflexivity]. unfold read_contents. cbn [id_class id_form id_tag]. rewrite read_text_at by exact NV. reflexivity.
  - refine (reads_back_raw s e (VUtcTime s0) CUniversal FPrimitive 23 s0 _ _ eq_refl _ eq_refl d Ed L); [lia|].
    intros _ fuel pre _ F. exists (VUtcTime s0). split; [|reflexivity]. unfold read_contents. cbn [id_class id_form id_tag]. rewrite read_text_at by exact NV. reflexivity.
  - refine (reads_back_raw s e (VGeneralizedTime s0) CUniversal FPrimitive 24 s0 _ _ eq_refl _ eq_refl d Ed L); [lia|].
    intros _ fuel pre _ F. exists (VGeneralizedTime s0). split; [|reflexivity]. unfold read_contents. cbn [id_class id_form id_tag]. rewrite read_text_at by exact NV. reflexivity.
  - change (encode_item (Item s e (VSequence l))) with (let? d := encode_list l in encode_raw CUniversal FConstructed 16 d) in Ed.
    destruct (encode_list l) as [ld|x|] eqn:El; try discriminate. cbn [bind] in Ed.
    refine (reads_back_raw s e (VSequence l) CUniversal FConstructed 16 ld _ _ _ _ eq_refl d _ L); [lia| | |].
    + change (encode_item (Item s e (VSequence l))) with (let? d := encode_list l in encode_raw CUniversal FConstructed 16 d). rewrite El. reflexivity.
    + intros Lx fuel pre Lf F. destruct (until_items l CH ld El (proj1 (every_list_Forall _ _) EV) Lx (pred fuel) (S (length ld)) pre ltac:(lia) ltac:(lia) F) as (js & Rj & Ej).
      exists (VSequence js). unfold read_contents. cbn [id_class id_form id_tag]. rewrite remaining_at, Rj. split; [reflexivity|]. cbn [erase drop_true]. rewrite Ej. reflexivity.
    + change (encode_item (Item s e (VSequence l))) with (let? d := encode_list l in encode_raw CUniversal FConstructed 16 d). rewrite El. exact Ed.
  - change (encode_item (Item s e (VSet l))) with (let? d := encode_list l in encode_raw CUniversal FConstructed 17 d) in Ed.
    destruct (encode_list l) as [ld|x|] eqn:El; try discriminate. cbn [bind] in Ed.
    refine (reads_back_raw s e (VSet l) CUniversal FConstructed 17 ld _ _ _ _ eq_refl d _ L); [lia| | |].
    + change (encode_item (Item s e (VSet l))) with (let? d := encode_list l in encode_raw CUniversal FConstructed 17 d). rewrite El. reflexivity.
    + intros Lx fuel pre Lf F. destruct (until_items l CH ld El (proj1 (every_list_Forall _ _) EV) Lx (pred fuel) (S (length ld)) pre ltac:(lia) ltac:(lia) F) as (js & Rj & Ej).
      exists (VSet js). unfold read_contents. cbn [id_class id_form id_tag]. rewrite remaining_at, Rj. split; [reflexivity|]. cbn [erase drop_true]. rewrite Ej. reflexivity.
    + change (encode_item (Item s e (VSet l))) with (let? d := encode_list l in encode_raw CUniversal FConstructed 17 d). rewrite El. exact Ed.
  - cbn [encode_item] in Ed. destruct (encode_item i) as [ld|x|] eqn:El; try discriminate. cbn [bind] in Ed.
    assert (T : tag <= 30). { unfold encode_raw, encode_identifier in Ed. destruct (30 <? tag) eqn:X; [discriminate|lia]. }
    refine (reads_back_raw s e (VApplication tag i) CApplication FConstructed tag ld _ T _ _ eq_refl d _ L).
    + cbn [encode_item]. rewrite El. reflexivity.
    + intros Lx fuel pre Lf F. destruct (CH ld El EV Lx) as (_ & R). rewrite <- (app_nil_r ld) in F. destruct (R (pred fuel) pre [] ltac:(lia) F) as (j & Rj & Ej & _).
      rewrite app_nil_r in Rj. exists (VApplication tag j). unfold read_contents. cbn [id_class id_form id_tag]. rewrite Rj. split; [reflexivity|]. cbn [erase drop_true]. rewrite Ej. reflexivity.
    + cbn [encode_item]. rewrite El. exact Ed.
  - cbn [encode_item] in Ed. destruct (encode_item i) as [ld|x|] eqn:El; try discriminate. cbn [bind] in Ed.
    assert (T : tag <= 30). { unfold encode_raw, encode_identifier in Ed. destruct (30 <? tag) eqn:X; [discriminate|lia]. }
    refine (reads_back_raw s e (VContextSpecific tag i) CContext FConstructed tag ld _ T _ _ eq_refl d _ L).
    + cbn [encode_item]. rewrite El. reflexivity.
    + intros Lx fuel pre Lf F. destruct (CH ld El EV Lx) as (_ & R). rewrite <- (app_nil_r ld) in F. destruct (R (pred fuel) pre [] ltac:(lia) F) as (j & Rj & Ej & _).
      rewrite app_nil_r in Rj. exists (VContextSpecific tag j). unfold read_contents. cbn [id_class id_form id_tag]. rewrite Rj. split; [reflexivity|]. cbn [erase drop_true]. rewrite Ej. reflexivity.
    + cbn [encode_item]. rewrite El. exact Ed.
  - cbn [encode_item] in Ed. destruct (encode_item i) as [ld|x|] eqn:El; try discriminate. cbn [bind] in Ed.
    assert (T : tag <= 30). { unfold encode_raw, encode_identifier in Ed. destruct (30 <? tag) eqn:X; [discriminate|lia]. }
    refine (reads_back_raw s e (VPrivate tag i) CPrivate FConstructed tag ld _ T _ _ eq_refl d _ L).
    + cbn [encode_item]. rewrite El. reflexivity.
    + intros Lx fuel pre Lf F. destruct (CH ld El EV Lx) as (_ & R). rewrite <- (app_nil_r ld) in F. destruct (R (pred fuel) pre [] ltac:(lia) F) as (j & Rj & Ej & _).
      rewrite app_nil_r in Rj. exists (VPrivate tag j). unfold read_contents. cbn [id_class id_form id_tag]. rewrite Rj. split; [reflexivity|]. cbn [erase drop_true]. rewrite Ej. reflexivity.
    + cbn [encode_item]. rewrite El. exact Ed.
  - discriminate.
Qed.
