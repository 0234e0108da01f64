(** Lemmas about the common vocabulary. *)
From Verif Require Export Base.

Lemma bind_ok {E A B} (x : outcome E A) (f : A -> outcome E B) b :
  bind x f = Ok b <-> exists a, x = Ok a /\ f a = Ok b.
Proof.
  destruct x as [a|e|]; cbn [bind]; split.
  - intros H; exists a; auto.
  - intros (a' & H & H'); inversion H; subst; auto.
  - discriminate.
  - intros (a' & H & _); discriminate.
  - discriminate.
  - intros (a' & H & _); discriminate.
Qed.

(** A property of all bytes, decided by running it on the 256 values. *)
Definition all256 : list N := map N.of_nat (seq 0 256).
Lemma in_all256 b : b < 256 -> In b all256.
Proof.
  intros H. unfold all256. apply in_map_iff. exists (N.to_nat b).
  split; [lia|]. apply in_seq. lia.
Qed.
Lemma byte_sweep (P : N -> bool) :
  forallb P all256 = true -> forall b, b < 256 -> P b = true.
Proof.
  intros H b Hb. rewrite forallb_forall in H. apply H, in_all256, Hb.
Qed.

Lemma bytes_okb_spec l : bytes_okb l = true <-> bytes_ok l.
Proof.
  unfold bytes_okb, bytes_ok. rewrite forallb_forall, Forall_forall.
  split; intros H x Hx; specialize (H x Hx); unfold byte_ok in *; lia.
Qed.

Lemma bytes_ok_nil : bytes_ok [].
Proof. constructor. Qed.
Lemma bytes_ok_cons b l : bytes_ok (b :: l) <-> b < 256 /\ bytes_ok l.
Proof.
  unfold bytes_ok; split.
  - intros H; inversion H; auto.
  - intros [H1 H2]; constructor; auto.
Qed.
Lemma bytes_ok_app a b : bytes_ok (a ++ b) <-> bytes_ok a /\ bytes_ok b.
Proof. unfold bytes_ok. apply Forall_app. Qed.
Lemma bytes_ok_firstn n l : bytes_ok l -> bytes_ok (firstn n l).
Proof.
  intros H. rewrite <- (firstn_skipn n l) in H. apply bytes_ok_app in H. tauto.
Qed.
Lemma bytes_ok_skipn n l : bytes_ok l -> bytes_ok (skipn n l).
Proof.
  intros H. rewrite <- (firstn_skipn n l) in H. apply bytes_ok_app in H. tauto.
Qed.
Lemma bytes_ok_rev l : bytes_ok l -> bytes_ok (rev l).
Proof. unfold bytes_ok. apply Forall_rev. Qed.

Lemma blen_app a b : blen (a ++ b) = blen a + blen b.
Proof. unfold blen. rewrite app_length. lia. Qed.
Lemma blen_nil : blen [] = 0.
Proof. reflexivity. Qed.
Lemma blen_cons x l : blen (x :: l) = 1 + blen l.
Proof. unfold blen. cbn [length]. lia. Qed.

(** ** Masks and shifts *)
Lemma land_127 b : N.land b 127 = b mod 128.
Proof. change 127 with (N.ones 7). rewrite N.land_ones. reflexivity. Qed.
Lemma land_255 b : N.land b 255 = b mod 256.
Proof. change 255 with (N.ones 8). rewrite N.land_ones. reflexivity. Qed.
Lemma land_7 b : N.land b 7 = b mod 8.
Proof. change 7 with (N.ones 3). rewrite N.land_ones. reflexivity. Qed.
Lemma land_15 b : N.land b 15 = b mod 16.
Proof. change 15 with (N.ones 4). rewrite N.land_ones. reflexivity. Qed.
Lemma land_63 b : N.land b 63 = b mod 64.
Proof. change 63 with (N.ones 6). rewrite N.land_ones. reflexivity. Qed.
Lemma land_31 b : N.land b 31 = b mod 32.
Proof. change 31 with (N.ones 5). rewrite N.land_ones. reflexivity. Qed.
Lemma land_1 b : N.land b 1 = b mod 2.
Proof. change 1 with (N.ones 1) at 1. rewrite N.land_ones. reflexivity. Qed.

Lemma shiftr_pow n v : N.shiftr v n = v / 2 ^ n.
Proof. apply N.shiftr_div_pow2. Qed.

Lemma top_bit_clear b : b < 256 -> (N.land b 128 =? 0) = (b <? 128).
Proof.
  intros H. apply (byte_sweep (fun b => Bool.eqb (N.land b 128 =? 0) (b <? 128))) in H;
    [|vm_compute; reflexivity].
  apply Bool.eqb_prop in H. exact H.
Qed.

(** Disjoint bits: [|] is [+]. *)
Lemma land_disjoint a b k : a < 2 ^ k -> N.land a (N.shiftl b k) = 0.
Proof.
  intros H. apply N.bits_inj_0. intros i. rewrite N.land_spec.
  destruct (N.lt_ge_cases i k) as [Hi|Hi].
  - rewrite N.shiftl_spec_low by lia. apply andb_false_r.
  - replace (N.testbit a i) with false; [reflexivity|].
    symmetry. destruct (N.eq_dec a 0) as [->|Ha]; [apply N.bits_0|].
    apply N.bits_above_log2. apply N.log2_lt_pow2 in H; lia.
Qed.
Lemma lor_disjoint a b k : a < 2 ^ k -> N.lor a (N.shiftl b k) = a + b * 2 ^ k.
Proof.
  intros H.
  rewrite <- N.lxor_lor by (apply land_disjoint; exact H).
  rewrite <- N.add_nocarry_lxor by (apply land_disjoint; exact H).
  rewrite N.shiftl_mul_pow2. reflexivity.
Qed.
Lemma lor_128 s : s < 128 -> N.lor s 128 = s + 128.
Proof.
  intros H. change 128 with (N.shiftl 1 7) at 1. rewrite lor_disjoint by exact H. lia.
Qed.

(** ** Endianness *)
Lemma le_bytes_length n v : length (le_bytes n v) = n.
Proof. revert v; induction n as [|n IH]; intros v; cbn [le_bytes length]; auto. Qed.
Lemma be_bytes_length n v : length (be_bytes n v) = n.
Proof. unfold be_bytes. rewrite rev_length. apply le_bytes_length. Qed.
Lemma le_bytes_ok n v : bytes_ok (le_bytes n v).
Proof.
  revert v; induction n as [|n IH]; intros v; cbn [le_bytes]; [constructor|].
  apply bytes_ok_cons. split; [apply N.mod_lt; discriminate|apply IH].
Qed.
Lemma be_bytes_ok n v : bytes_ok (be_bytes n v).
Proof. apply bytes_ok_rev, le_bytes_ok. Qed.

Lemma pow256_S n : 256 ^ N.of_nat (S n) = 256 * 256 ^ N.of_nat n.
Proof. rewrite Nat2N.inj_succ, N.pow_succ_r'. reflexivity. Qed.

Lemma of_le_le_bytes n v : v < 256 ^ N.of_nat n -> of_le_bytes (le_bytes n v) = v.
Proof.
  revert v; induction n as [|n IH]; intros v H.
  - cbn in *. lia.
  - cbn [le_bytes of_le_bytes]. rewrite IH.
    + pose proof (N.div_mod v 256). lia.
    + rewrite pow256_S in H. apply N.div_lt_upper_bound; [lia|exact H].
Qed.
Lemma of_be_be_bytes n v : v < 256 ^ N.of_nat n -> of_be_bytes (be_bytes n v) = v.
Proof.
  intros H. unfold of_be_bytes, be_bytes. rewrite rev_involutive. apply of_le_le_bytes, H.
Qed.
Lemma of_le_bytes_lt l : bytes_ok l -> of_le_bytes l < 256 ^ N.of_nat (length l).
Proof.
  induction l as [|b l IH]; intros H.
  - cbn. lia.
  - apply bytes_ok_cons in H as [Hb Hl]. specialize (IH Hl).
    cbn [of_le_bytes length]. rewrite pow256_S. lia.
Qed.
Lemma of_be_bytes_lt l : bytes_ok l -> of_be_bytes l < 256 ^ N.of_nat (length l).
Proof.
  intros H. unfold of_be_bytes. rewrite <- (rev_length l). apply of_le_bytes_lt, bytes_ok_rev, H.
Qed.
Lemma le_of_le_bytes l : bytes_ok l -> le_bytes (length l) (of_le_bytes l) = l.
Proof.
  induction l as [|b l IH]; intros H; [reflexivity|].
  apply bytes_ok_cons in H as [Hb Hl].
  cbn [length le_bytes of_le_bytes].
  replace ((b + 256 * of_le_bytes l) mod 256) with b.
  - replace ((b + 256 * of_le_bytes l) / 256) with (of_le_bytes l).
    + rewrite IH by exact Hl. reflexivity.
    + apply N.div_unique with b; lia.
  - apply N.mod_unique with (of_le_bytes l); lia.
Qed.
Lemma be_of_be_bytes l : bytes_ok l -> be_bytes (length l) (of_be_bytes l) = l.
Proof.
  intros H. unfold be_bytes, of_be_bytes. rewrite <- (rev_length l).
  rewrite le_of_le_bytes by (apply bytes_ok_rev, H). apply rev_involutive.
Qed.

(** ** Lists *)
Lemma bytes_eqb_eq a b : bytes_eqb a b = true <-> a = b.
Proof.
  revert b; induction a as [|x a IH]; intros [|y b]; cbn [bytes_eqb]; split; intros H;
    try discriminate; auto.
  - apply andb_true_iff in H as [H1 H2]. apply N.eqb_eq in H1. apply IH in H2. subst; auto.
  - inversion H; subst. rewrite N.eqb_refl. cbn. apply IH; reflexivity.
Qed.
Lemma bytes_eqb_refl a : bytes_eqb a a = true.
Proof. apply bytes_eqb_eq; reflexivity. Qed.

Lemma skipn_app_length {A} (a b : list A) : skipn (length a) (a ++ b) = b.
Proof. induction a; cbn; auto. Qed.
Lemma firstn_app_length {A} (a b : list A) : firstn (length a) (a ++ b) = a.
Proof. induction a as [|x a IH]; cbn; [reflexivity|]. f_equal. exact IH. Qed.

Lemma get_range_some {A} (l : list A) s e r :
  get_range l s e = Some r <->
  (s <= e <= length l)%nat /\ r = firstn (e - s) (skipn s l).
Proof.
  unfold get_range.
  destruct (Nat.leb_spec s e); destruct (Nat.leb_spec e (length l)); cbn [andb];
    split; intros H'; try discriminate; try (destruct H'; lia).
  - inversion H'; auto.
  - destruct H' as [_ ->]; reflexivity.
Qed.
Lemma get_range_length {A} (l : list A) s e r :
  get_range l s e = Some r -> length r = (e - s)%nat.
Proof.
  intros H. apply get_range_some in H as [H ->].
  rewrite firstn_length, skipn_length. lia.
Qed.
Lemma get_range_app {A} (a b c : list A) :
  get_range (a ++ b ++ c) (length a) (length a + length b) = Some b.
Proof.
  apply get_range_some. rewrite !app_length. split; [lia|].
  rewrite skipn_app_length. replace (length a + length b - length a)%nat with (length b) by lia.
  rewrite firstn_app_length. reflexivity.
Qed.

Lemma skipn_skipn' {A} (n m : nat) (l : list A) : skipn n (skipn m l) = skipn (m + n) l.
Proof.
  revert l; induction m as [|m IH]; intros l; cbn [Nat.add skipn]; [reflexivity|].
  destruct l; [rewrite !skipn_nil; reflexivity|]. apply IH.
Qed.
