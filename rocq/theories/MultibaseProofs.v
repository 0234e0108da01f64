(** Proofs about the power-of-two bases. *)
From Verif Require Import BaseProofs ProtobufProofs MultibaseModel MultibaseSpec.

(** ** The tables *)
Definition inv_of (b : base) : bytes :=
  match b with
  | Base16 => base16_lower_inv | Base16Upper => base16_upper_inv
  | Base32 | Base32Pad => base32_lower_inv | Base32Upper | Base32PadUpper => base32_upper_inv
  | Base58BTC => base58_btc_inv | Base58Flickr => base58_flickr_inv
  | Base64 | Base64Pad => base64_alphabet_inv
  | Base64URL | Base64URLPad => base64_url_alphabet_inv
  end.
Definition table_check1 (b : base) : bool :=
  forallb (fun c => match inv_get (inv_of b) c with
                    | None => true
                    | Some d => match nth_error (ascii_bytes (letters b)) (N.to_nat d) with
                                | Some c' => c' =? c | None => false end
                    end) all256 && (length (inv_of b) <=? 256)%nat.
Definition table_check2 (b : base) : bool :=
  forallb (fun d => match nth_error (ascii_bytes (letters b)) (N.to_nat d) with
                    | None => true
                    | Some c => match inv_get (inv_of b) c with
                                | Some d' => d' =? d | None => false end
                    end) all256 && (length (ascii_bytes (letters b)) <=? 256)%nat.
Lemma table_ok b c d : inv_get (inv_of b) c = Some d <-> stands_for b c d.
Proof.
  assert (T : table_check1 b = true /\ table_check2 b = true)
    by (destruct b; split; vm_compute; reflexivity).
  destruct T as [T1 T2]. apply andb_true_iff in T1 as [T1 L1], T2 as [T2 L2].
  apply Nat.leb_le in L1, L2. unfold stands_for. split; intros H.
  - assert (Hc : c < 256).
    { unfold inv_get in H. destruct (nth_error (inv_of b) (N.to_nat c)) eqn:E; [|discriminate].
      assert (nth_error (inv_of b) (N.to_nat c) <> None) as E' by congruence.
      apply nth_error_Some in E'. lia. }
    pose proof (byte_sweep _ T1 c Hc) as K. cbv beta in K. rewrite H in K.
    destruct (nth_error _ _) as [c'|]; [|discriminate]. apply N.eqb_eq in K. congruence.
  - assert (Hd : d < 256).
    { assert (nth_error (ascii_bytes (letters b)) (N.to_nat d) <> None) as E' by congruence.
      apply nth_error_Some in E'. lia. }
    pose proof (byte_sweep _ T2 d Hd) as K. cbv beta in K. rewrite H in K.
    destruct (inv_get _ _) as [d'|]; [|discriminate]. apply N.eqb_eq in K. congruence.
Qed.

Definition radix (b : base) : N :=
  match b with
  | Base16 | Base16Upper => 16
  | Base32 | Base32Upper | Base32Pad | Base32PadUpper => 32
  | Base64 | Base64Pad | Base64URL | Base64URLPad => 64
  | Base58BTC | Base58Flickr => 58
  end.
Lemma stands_for_lt b c d : stands_for b c d -> d < radix b.
Proof.
  unfold stands_for. intros H.
  assert (nth_error (ascii_bytes (letters b)) (N.to_nat d) <> None) as E' by congruence.
  apply nth_error_Some in E'.
  assert (L : length (ascii_bytes (letters b)) = N.to_nat (radix b)) by (destruct b; reflexivity).
  lia.
Qed.
Lemma stands_for_ex b d : d < radix b -> exists c, stands_for b c d.
Proof.
  unfold stands_for. intros H.
  assert (L : length (ascii_bytes (letters b)) = N.to_nat (radix b)) by (destruct b; reflexivity).
  destruct (nth_error (ascii_bytes (letters b)) (N.to_nat d)) as [c|] eqn:E; [eauto|].
  apply nth_error_None in E. lia.
Qed.
Lemma stands_for_fun b c d d' : stands_for b c d -> stands_for b c d' -> d = d'.
Proof. rewrite <- !table_ok. congruence. Qed.
Lemma stands_for_inj b c c' d : stands_for b c d -> stands_for b c' d -> c = c'.
Proof. unfold stands_for. congruence. Qed.
Lemma stands_for_not_pad b d : ~ stands_for b (ch "=") d.
Proof. rewrite <- table_ok. destruct b; vm_compute; discriminate. Qed.
Lemma stands_all_fun b cs ds ds' :
  Forall2 (stands_for b) cs ds -> Forall2 (stands_for b) cs ds' -> ds = ds'.
Proof.
  intros H. revert ds'. induction H; intros ds' H'; inversion H'; subst; [reflexivity|].
  f_equal; [eapply stands_for_fun; eauto|auto].
Qed.
Lemma stands_all_inj b cs cs' ds :
  Forall2 (stands_for b) cs ds -> Forall2 (stands_for b) cs' ds -> cs = cs'.
Proof.
  intros H. revert cs'. induction H; intros ds' H'; inversion H'; subst; [reflexivity|].
  f_equal; [eapply stands_for_inj; eauto|auto].
Qed.

Definition alphabet_of (b : base) : bytes := ascii_bytes (letters b).
Lemma alpha_stands b d : d < radix b -> stands_for b (alpha (alphabet_of b) d) d.
Proof.
  intros H. destruct (stands_for_ex b d H) as [c Hc]. unfold stands_for in *.
  unfold alpha, alphabet_of. rewrite Hc. f_equal. symmetry. apply nth_error_nth. exact Hc.
Qed.
Lemma alpha_stands_all b ds :
  Forall (fun d => d < radix b) ds -> Forall2 (stands_for b) (map (alpha (alphabet_of b)) ds) ds.
Proof.
  induction 1; cbn [map]; constructor; auto. apply alpha_stands; assumption.
Qed.

(** ** Bits *)
Lemma app_same_length {A} (a a' x x' : list A) :
  length a = length a' -> a ++ x = a' ++ x' -> a = a' /\ x = x'.
Proof.
  revert a'. induction a as [|y a IH]; intros [|y' a'] L E; try discriminate; [auto|].
  injection L as L. injection E as -> E. destruct (IH a' L E) as [-> ->]. auto.
Qed.
Lemma bits_length k v : length (bits k v) = k.
Proof. induction k; cbn [bits length]; auto. Qed.
Lemma bit_string_length k l : length (bit_string k l) = (k * length l)%nat.
Proof.
  unfold bit_string. induction l; cbn [flat_map length]; [lia|].
  rewrite app_length, bits_length, IHl. lia.
Qed.
Lemma bit_string_app k l l' : bit_string k (l ++ l') = bit_string k l ++ bit_string k l'.
Proof. apply flat_map_app. Qed.
Lemma bits_inj k v w : v < 2 ^ N.of_nat k -> w < 2 ^ N.of_nat k -> bits k v = bits k w -> v = w.
Proof.
  intros Hv Hw H. apply N.bits_inj. intros i.
  destruct (N.lt_ge_cases i (N.of_nat k)) as [Hi|Hi].
  - assert (K : forall k', bits k' v = bits k' w -> i < N.of_nat k' -> N.testbit v i = N.testbit w i).
    { clear. induction k'; intros H Hi; [lia|]. cbn [bits] in H. injection H as H1 H2.
      destruct (N.eq_dec i (N.of_nat k')) as [->|]; [exact H1|apply IHk'; [exact H2|lia]]. }
    apply (K k); assumption.
  - assert (Z : forall x, x < 2 ^ N.of_nat k -> N.testbit x i = false).
    { intros x Hx. destruct (N.eq_dec x 0) as [->|Hx0]; [apply N.bits_0|].
      apply N.bits_above_log2. apply N.lt_le_trans with (N.of_nat k); [|exact Hi].
      apply N.log2_lt_pow2; lia. }
    rewrite !Z by assumption. reflexivity.
Qed.
Lemma bit_string_inj k l l' :
  (0 < k)%nat ->
  Forall (fun d => d < 2 ^ N.of_nat k) l -> Forall (fun d => d < 2 ^ N.of_nat k) l' ->
  bit_string k l = bit_string k l' -> l = l'.
Proof.
  intros Hk H. revert l'. induction H as [|d l Hd Hl IH]; intros l' H' E.
  - destruct l' as [|d' l']; [reflexivity|]. apply (f_equal (@length bool)) in E.
    rewrite !bit_string_length in E. cbn [length] in E. lia.
  - destruct l' as [|d' l'].
    { apply (f_equal (@length bool)) in E. rewrite !bit_string_length in E. cbn [length] in E. lia. }
    inversion H'; subst. cbn [bit_string flat_map] in E.
    assert (E1 : bits k d = bits k d' /\ bit_string k l = bit_string k l').
    { apply app_same_length; [rewrite !bits_length; reflexivity|exact E]. }
    destruct E1 as [E1 E2]. f_equal; [eapply bits_inj; eauto|apply IH; auto].
Qed.

(** ** The decoder *)
Fixpoint val (l : list bool) (a : N) : N :=
  match l with [] => a | b :: t => val t (2 * a + N.b2n b) end.
Definition packed (l : list bool) : N := val l 0 * 2 ^ (8 - N.of_nat (length l)).

Lemma pack_step cur b : (length cur < 8)%nat ->
  N.lor (packed cur) (shl8 (N.b2n b) (7 - N.of_nat (length cur))) = packed (cur ++ [b]).
Proof.
  intros H.
  do 8 (destruct cur as [|[] cur]; [destruct b; vm_compute; reflexivity|..]);
    exfalso; cbn [length] in H; lia.
Qed.
Lemma pack_full cur : length cur = 8%nat -> bits 8 (packed cur) = cur /\ packed cur < 256.
Proof.
  intros H.
  do 8 (destruct cur as [|[] cur]; [discriminate|..]);
    (destruct cur; [split; vm_compute; reflexivity|discriminate]).
Qed.

Definition repr (st : dec_state) (B : list bool) : Prop :=
  let '(out, byte, shift) := st in
  exists cur, B = bit_string 8 out ++ cur /\ shift = N.of_nat (length cur) /\
    (length cur < 8)%nat /\ byte = packed cur /\ bytes_ok out.

Lemma repr_bit st B b i :
  repr st B -> repr (dec_bit b st i) (B ++ [N.testbit b (7 - N.of_nat i)]).
Proof.
  destruct st as [[out byte] shift]. intros (cur & -> & -> & L & -> & O).
  unfold dec_bit. cbn [repr].
  assert (E : N.land (N.shiftr b (7 - N.of_nat i)) 1 = N.b2n (N.testbit b (7 - N.of_nat i))).
  { rewrite land_1, <- N.bit0_mod, N.shiftr_spec'. f_equal. }
  rewrite E, pack_step by exact L.
  set (x := N.testbit b _).
  assert (L' : length (cur ++ [x]) = S (length cur)) by (rewrite app_length; cbn [length]; lia).
  destruct (Nat.eq_dec (length cur) 7) as [E7|E7].
  - rewrite E7. change ((N.of_nat 7 + 1) mod 8) with 0. cbn [N.eqb repr].
    destruct (pack_full (cur ++ [x])) as [P1 P2]; [lia|].
    exists []. rewrite bit_string_app. cbn [bit_string flat_map].
    rewrite P1, !app_nil_r, <- app_assoc. repeat split; try reflexivity; try (cbn; lia).
    apply bytes_ok_app. split; [exact O|]. constructor; [exact P2|constructor].
  - replace ((N.of_nat (length cur) + 1) mod 8) with (N.of_nat (S (length cur))) by lia.
    destruct (N.eqb_spec (N.of_nat (S (length cur))) 0) as [K|K]; [lia|]. cbn [repr].
    exists (cur ++ [x]). rewrite L', app_assoc. repeat split; auto. lia.
Qed.
Lemma repr_char k st B b :
  (k <= 8)%nat -> repr st B -> repr (fold_left (dec_bit b) (seq (8 - k) k) st) (B ++ bits k b).
Proof.
  intros Hk. revert st B. induction k as [|k IH]; intros st B H.
  - cbn [seq fold_left bits]. rewrite app_nil_r. exact H.
  - cbn [seq fold_left bits].
    replace (S (8 - S k)) with (8 - k)%nat by lia.
    change (N.testbit b (N.of_nat k) :: bits k b) with ([N.testbit b (N.of_nat k)] ++ bits k b).
    rewrite app_assoc. apply IH; [lia|].
    replace (N.of_nat k) with (7 - N.of_nat (8 - S k)) by lia.
    apply repr_bit. exact H.
Qed.

Lemma basen_loop_ok b s o st B st' :
  (char_bits b <= 8)%nat -> repr st B ->
  decode_basen_loop s o (char_bits b) (inv_of b) (padded b) st = Ok st' ->
  exists ds, Forall2 (stands_for b) (body b s) ds /\ repr st' (B ++ bit_string (char_bits b) ds).
Proof.
  intros Hk. revert o st B. induction s as [|c s IH]; intros o st B R H.
  - injection H as <-. exists []. cbn [bit_string flat_map]. rewrite app_nil_r.
    split; [|exact R]. unfold body. destruct (padded b); constructor.
  - cbn [decode_basen_loop] in H. unfold body in *. cbn [until_pad].
    destruct (padded b && (c =? ch "=")) eqn:P.
    + apply andb_true_iff in P as [P1 P2]. rewrite P1, P2. injection H as <-.
      exists []. cbn [bit_string flat_map]. rewrite app_nil_r. split; [constructor|exact R].
    + destruct (inv_get (inv_of b) c) as [d|] eqn:E; [|discriminate].
      apply (IH _ _ (B ++ bits (char_bits b) d)) in H as (ds & H1 & H2).
      * exists (d :: ds). cbn [bit_string flat_map]. rewrite app_assoc. split; [|exact H2].
        apply table_ok in E. destruct (padded b); cbn [andb] in P; [rewrite P|]; constructor; auto.
      * apply repr_char; assumption.
Qed.
Lemma basen_loop_complete b s o st B ds :
  (char_bits b <= 8)%nat -> repr st B ->
  Forall2 (stands_for b) (body b s) ds ->
  exists st', decode_basen_loop s o (char_bits b) (inv_of b) (padded b) st = Ok st' /\
              repr st' (B ++ bit_string (char_bits b) ds).
Proof.
  intros Hk. revert o st B ds. induction s as [|c s IH]; intros o st B ds R H.
  - exists st. assert (ds = []) as ->.
    { unfold body in H. destruct (padded b); inversion H; reflexivity. }
    cbn [bit_string flat_map]. rewrite app_nil_r. auto.
  - cbn [decode_basen_loop]. unfold body in *. cbn [until_pad] in H.
    destruct (padded b) eqn:Pb; cbn [andb].
    + destruct (c =? ch "=").
      * inversion H; subst. exists st. cbn [bit_string flat_map]. rewrite app_nil_r. auto.
      * inversion H as [|? d ? ds' Hd Hds]; subst. apply table_ok in Hd as Hd'. rewrite Hd'.
        cbn [bit_string flat_map]. rewrite app_assoc. apply IH; [|exact Hds].
        apply repr_char; assumption.
    + inversion H as [|? d ? ds' Hd Hds]; subst. apply table_ok in Hd as Hd'. rewrite Hd'.
      cbn [bit_string flat_map]. rewrite app_assoc. apply IH; [|exact Hds].
      apply repr_char; assumption.
Qed.
Lemma repr_init : repr ([], 0, 0) [].
Proof. exists []. repeat split; try (cbn; lia); try reflexivity. constructor. Qed.

Lemma decode_basen_loose b s data :
  pow2_base b ->
  decode_basen s (char_bits b) (inv_of b) (padded b) = Ok data <-> loosely_denotes b s data.
Proof.
  intros Hb. assert (Hk : (char_bits b <= 8)%nat) by (destruct b; cbn; lia).
  unfold decode_basen. split.
  - rewrite bind_ok. intros (st & H & E).
    apply (basen_loop_ok b s 0 _ []) in H as (ds & H1 & H2); [|exact Hk|exact repr_init].
    destruct st as [[out byte] shift]. cbn [fst] in E. injection E as <-.
    destruct H2 as (cur & H2 & _ & L & _ & O). cbn [app] in H2.
    exists ds, cur. auto.
  - intros (ds & left & H1 & H2 & L & O).
    destruct (basen_loop_complete b s 0 _ [] ds Hk repr_init H1) as (st & -> & R).
    cbn [bind]. destruct st as [[out byte] shift]. cbn [fst].
    destruct R as (cur & R & _ & L' & _ & O'). cbn [app] in R. rewrite H2 in R.
    f_equal. symmetry.
    assert (N : length data = length out).
    { apply (f_equal (@length bool)) in R. rewrite !app_length, !bit_string_length in R. lia. }
    apply (bit_string_inj 8); [lia|exact O|exact O'|].
    apply app_same_length in R; [tauto|]. rewrite !bit_string_length. lia.
Qed.

Lemma decode_noprefix_basen b s :
  pow2_base b -> decode_noprefix s b = decode_basen s (char_bits b) (inv_of b) (padded b).
Proof. destruct b; cbn; intros H; try reflexivity; contradiction. Qed.

Lemma loose_iff b s data :
  pow2_base b -> (decode_noprefix s b = Ok data <-> loosely_denotes b s data).
Proof. intros H. rewrite decode_noprefix_basen by exact H. apply decode_basen_loose, H. Qed.

(** ** Strict denotation *)
Lemma until_pad_app b cs ds rest :
  Forall2 (stands_for b) cs ds -> until_pad (cs ++ ch "=" :: rest) = cs.
Proof.
  induction 1 as [|c d cs ds H _ IH]; cbn [app until_pad].
  - rewrite N.eqb_refl. reflexivity.
  - destruct (N.eqb_spec c (ch "=")) as [->|]; [apply stands_for_not_pad in H; contradiction|].
    f_equal. exact IH.
Qed.
Lemma until_pad_none b cs ds : Forall2 (stands_for b) cs ds -> until_pad cs = cs.
Proof.
  induction 1 as [|c d cs ds H _ IH]; cbn [until_pad]; [reflexivity|].
  destruct (N.eqb_spec c (ch "=")) as [->|]; [apply stands_for_not_pad in H; contradiction|].
  f_equal. exact IH.
Qed.
Lemma strict_loose b s data : pow2_base b -> strictly_denotes b s data -> loosely_denotes b s data.
Proof.
  intros Hb (cs & ds & zeros & pad & -> & H & B & Z & O & P).
  assert (Hk : (char_bits b <= 8)%nat) by (destruct b; cbn; lia).
  exists ds, (repeat false zeros). rewrite repeat_length. split; [|split; [|split]]; auto; [|lia].
  unfold body. destruct (padded b).
  - destruct pad; cbn [repeat].
    + rewrite app_nil_r, (until_pad_none _ _ _ H). exact H.
    + rewrite (until_pad_app _ _ _ _ H). exact H.
  - subst pad. cbn [repeat]. rewrite app_nil_r. exact H.
Qed.
Lemma group_pos b : (0 < group b)%nat. Proof. destruct b; cbn; lia. Qed.
Lemma strict_unique b s s' data :
  pow2_base b -> strictly_denotes b s data -> strictly_denotes b s' data -> s = s'.
Proof.
  intros Hb (cs & ds & z & p & -> & H & B & Z & O & P) (cs' & ds' & z' & p' & -> & H' & B' & Z' & O' & P').
  assert (Hk : (0 < char_bits b)%nat) by (destruct b; cbn in *; lia || contradiction).
  assert (Rx : radix b = 2 ^ N.of_nat (char_bits b)) by (destruct b; reflexivity || contradiction).
  assert (L : length (bit_string (char_bits b) ds) = length (bit_string (char_bits b) ds')).
  { rewrite B, B', !app_length, !repeat_length.
    pose proof (bit_string_length (char_bits b) ds) as L1. rewrite B, app_length, repeat_length in L1.
    pose proof (bit_string_length (char_bits b) ds') as L2. rewrite B', app_length, repeat_length in L2.
    destruct (Nat.lt_trichotomy (length ds) (length ds')) as [K|[K|K]]; nia. }
  rewrite B, B', !app_length, !repeat_length in L. assert (z' = z) as -> by lia.
  assert (D : ds = ds').
  { apply (bit_string_inj (char_bits b)); [exact Hk| | |congruence].
    - clear -H Rx. induction H; constructor; auto. rewrite <- Rx. eapply stands_for_lt; eauto.
    - clear -H' Rx. induction H'; constructor; auto. rewrite <- Rx. eapply stands_for_lt; eauto. }
  subst ds'. assert (cs = cs') as <- by (eapply stands_all_inj; eauto).
  destruct (padded b).
  - destruct P as [P1 P2], P' as [P1' P2'].
    f_equal. f_equal.
    pose proof (group_pos b) as G.
    apply Nat.mod_divides in P2 as [x Hx]; [|lia]. apply Nat.mod_divides in P2' as [y Hy]; [|lia]. clear - Hx Hy P1 P1'. destruct (Nat.lt_trichotomy x y) as [K|[K|K]]; nia.
  - congruence.
Qed.
