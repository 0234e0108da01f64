(** Lemmas about QUIC packets. *)
From Verif Require Import Base BaseProofs BinaryModel BinarySpec BinaryProofs BinaryProofs2 MessageProofs TlsCodesModel TlsTypesModel TlsRecordModel TlsRecordSpec TlsRecordProofs TlsClientSpec
  QuicModel QuicSpec.
From Coq Require Import Lia ZArith ZifyBool ZifyNat ZifyN.
Ltac Zify.zify_post_hook ::= Z.div_mod_to_equations.
Local Open Scope list_scope. Local Open Scope N_scope.

(** *** Header protection *)
Lemma land_3 b : N.land b 3 = b mod 4.
Proof. change 3 with (N.ones 2). rewrite N.land_ones. reflexivity. Qed.
Lemma mask_first_facts b m : b < 256 -> m < 256 ->
  mask_first b m < 256 /\ mask_first (mask_first b m) m = b /\ mask_first b m = N.lxor b (if 128 <=? b then m mod 16 else m mod 32).
Proof.
  intros Hb Hm.
  assert (X : forallb (fun b => forallb (fun m => (mask_first b m <? 256) && (mask_first (mask_first b m) m =? b) &&
    (mask_first b m =? N.lxor b (if 128 <=? b then m mod 16 else m mod 32))) all256) all256 = true) by (vm_compute; reflexivity).
  rewrite forallb_forall in X. specialize (X b (in_all256 b Hb)). cbv beta in X. rewrite forallb_forall in X. specialize (X m (in_all256 m Hm)). cbv beta in X.
  rewrite !andb_true_iff, N.ltb_lt, !N.eqb_eq in X. tauto.
Qed.
Lemma xor_at_app pre x post m : length x = length m -> xor_at (pre ++ x ++ post) (length pre) m = pre ++ xor_bytes x m ++ post.
Proof.
  intros L. unfold xor_at. rewrite firstn_app_length, skipn_app_length. f_equal. f_equal.
  - f_equal. rewrite <- L. apply firstn_app_length.
  - rewrite <- skipn_skipn', skipn_app_length, <- L. apply skipn_app_length.
Qed.
Lemma xor_twice a : forall m, length a = length m -> xor_bytes (xor_bytes a m) m = a.
Proof.
  induction a as [|x a IH]; intros [|y m] L; cbn [xor_bytes length] in *; try discriminate; [reflexivity|].
  rewrite IH by lia. rewrite N.lxor_assoc, N.lxor_nilpotent, N.lxor_0_r. reflexivity.
Qed.
Lemma between_16 p a : BinarySpec.between p (a + 4) (a + 20) = firstn 16 (skipn (a + 4) p).
Proof. unfold BinarySpec.between. f_equal. lia. Qed.
Lemma get_sample_ok p off : blen p < two64 -> off + 20 <= blen p -> get_sample p off = Ok (BinarySpec.between p (N.to_nat off + 4) (N.to_nat off + 20)).
Proof.
  intros F L. unfold get_sample. destruct (N.leb_spec two64 (off + 20)); [lia|]. destruct (N.ltb_spec (blen p) (off + 20)); [lia|].
  rewrite between_16. do 3 f_equal. lia.
Qed.
Lemma sample_rest b mid pn rest : (length pn <= 4)%nat ->
  BinarySpec.between (b :: mid ++ pn ++ rest) (1 + length mid + 4) (1 + length mid + 20) = firstn 16 (skipn (4 - length pn) rest).
Proof.
  intros L. rewrite between_16. f_equal. change (b :: mid ++ pn ++ rest) with ((b :: mid) ++ pn ++ rest).
  rewrite <- skipn_skipn'. change (1 + length mid)%nat with (length (b :: mid)). rewrite skipn_app_length.
  rewrite skipn_app, skipn_all2 by lia. reflexivity.
Qed.
Lemma mask_parts (mask : bytes) n : length mask = 16%nat -> (n <= 15)%nat -> exists (m0 : N) (m more : bytes), mask = m0 :: m ++ more /\ length m = n.
Proof.
  intros L Ln. destruct mask as [|m0 t]; [discriminate|]. exists m0, (firstn n t), (skipn n t).
  rewrite firstn_skipn. split; [reflexivity|]. rewrite firstn_length. cbn [length] in L. lia.
Qed.
Lemma mask_number_ok b mid pn rest m0 m more : length m = length pn ->
  mask_number (b :: mid ++ pn ++ rest) (N.of_nat (1 + length mid)) (N.of_nat (length pn)) (m0 :: m ++ more) =
  (Ok tt, b :: mid ++ xor_bytes pn m ++ rest).
Proof.
  intros L. unfold mask_number. destruct (N.ltb_spec (blen (b :: mid ++ pn ++ rest)) (N.of_nat (1 + length mid) + N.of_nat (length pn))).
  - unfold blen in *. cbn [length] in *. rewrite !app_length in *. lia.
  - f_equal. rewrite !Nat2N.id. change (skipn 1 (m0 :: m ++ more)) with (m ++ more). rewrite <- L, firstn_app_length.
    change (b :: mid ++ pn ++ rest) with ((b :: mid) ++ pn ++ rest). change (1 + length mid)%nat with (length (b :: mid)).
    rewrite xor_at_app by (symmetry; exact L). reflexivity.
Qed.
Definition the_sample (n : nat) (rest : bytes) : bytes := firstn 16 (skipn (4 - n) rest).
Lemma hp_sample b mid pn rest : blen (b :: mid ++ pn ++ rest) < two64 -> (length pn <= 4)%nat -> (20 <= length pn + length rest)%nat ->
  get_sample (b :: mid ++ pn ++ rest) (N.of_nat (1 + length mid)) = Ok (the_sample (length pn) rest).
Proof.
  intros F Lp L. rewrite get_sample_ok; [|exact F|unfold blen; cbn [length]; rewrite !app_length; lia].
  rewrite Nat2N.id, sample_rest by lia. reflexivity.
Qed.
Lemma split_packet (p : bytes) off n : (1 <= off)%nat -> (off + n <= length p)%nat -> exists (b : N) (mid pn rest : bytes),
  p = b :: mid ++ pn ++ rest /\ (1 + length mid)%nat = off /\ length pn = n.
Proof.
  intros H1 H2. destruct p as [|b t]; [cbn in H2; lia|]. cbn [length] in H2.
  exists b, (firstn (off - 1) t), (firstn n (skipn (off - 1) t)), (skipn n (skipn (off - 1) t)).
  rewrite !firstn_skipn. split; [reflexivity|]. rewrite !firstn_length, skipn_length. lia.
Qed.
Lemma sample_same n p q off b mid pn rest : p = b :: mid ++ pn ++ rest -> (1 + length mid)%nat = off -> length pn = n -> (n <= 4)%nat -> q = the_sample n rest ->
  BinarySpec.between p (off + 4) (off + 20) = q.
Proof. intros -> <- <- L ->. apply sample_rest. exact L. Qed.
Lemma sample_length n rest : (n <= 4)%nat -> (20 <= n + length rest)%nat -> length (the_sample n rest) = 16%nat.
Proof. intros A L. unfold the_sample. rewrite firstn_length, skipn_length. lia. Qed.
Section Hp.
Context (B : bytes -> bytes -> bytes) (s : endpoint_secrets).
Lemma hp_add b mid pn rest m0 m more : blen (b :: mid ++ pn ++ rest) < two64 -> (length pn <= 4)%nat -> (20 <= length pn + length rest)%nat ->
  N.of_nat (length pn) = b mod 4 + 1 -> B (q_hp s) (the_sample (length pn) rest) = m0 :: m ++ more -> length m = length pn ->
  add_header_protection B (b :: mid ++ pn ++ rest) (N.of_nat (1 + length mid)) s = (Ok tt, mask_first b m0 :: mid ++ xor_bytes pn m ++ rest).
Proof.
  intros F Lp L E M Lm. unfold add_header_protection. rewrite hp_sample by assumption. cbv zeta. rewrite M, land_3, <- E. apply mask_number_ok. exact Lm.
Qed.
Lemma hp_remove b mid pn rest m0 m more : blen (b :: mid ++ pn ++ rest) < two64 -> (length pn <= 4)%nat -> (20 <= length pn + length rest)%nat ->
  N.of_nat (length pn) = mask_first b m0 mod 4 + 1 -> B (q_hp s) (the_sample (length pn) rest) = m0 :: m ++ more -> length m = length pn ->
  remove_header_protection B (b :: mid ++ pn ++ rest) (N.of_nat (1 + length mid)) s = (Ok tt, mask_first b m0 :: mid ++ xor_bytes pn m ++ rest).
Proof.
  intros F Lp L E M Lm. unfold remove_header_protection. rewrite hp_sample by assumption. cbv zeta. rewrite M, land_3, <- E. apply mask_number_ok. exact Lm.
Qed.

(** Both directions at once: what is added, and what is removed. *)
Lemma add_total p off : block_ok B -> bytes_ok p -> blen p < two64 -> 1 <= off -> off + 20 <= blen p ->
  exists b mid pn rest m0 m more, p = b :: mid ++ pn ++ rest /\ N.of_nat (1 + length mid) = off /\ N.of_nat (length pn) = b mod 4 + 1 /\ b < 256 /\ m0 < 256 /\
    (20 <= length pn + length rest)%nat /\
    B (q_hp s) (the_sample (length pn) rest) = m0 :: m ++ more /\ length m = length pn /\
    add_header_protection B p off s = (Ok tt, mask_first b m0 :: mid ++ xor_bytes pn m ++ rest).
Proof.
  intros BK PK F H1 H2. destruct p as [|b0 t]; [unfold blen in H2; cbn in H2; lia|].
  destruct (split_packet (b0 :: t) (N.to_nat off) (N.to_nat (b0 mod 4 + 1))) as (b & mid & pn & rest & E & Lm & Lp); [lia|unfold blen in H2; lia|].
  assert (b = b0) by congruence. subst b.
  assert (Lr : (20 <= length pn + length rest)%nat). { rewrite E in H2. unfold blen in H2. cbn [length] in H2. rewrite !app_length in H2. lia. }
  assert (Lp4 : (length pn <= 4)%nat) by lia.
  destruct (BK (q_hp s) (the_sample (length pn) rest) (sample_length _ _ Lp4 Lr)) as [BL BO].
  destruct (mask_parts _ (length pn) BL ltac:(lia)) as (m0 & m & more & M & Lmm).
  exists b0, mid, pn, rest, m0, m, more. rewrite M in BO. apply bytes_ok_cons in BO. rewrite E in PK. apply bytes_ok_cons in PK.
  assert (Eo : N.of_nat (1 + length mid) = off) by lia.
  do 8 (split; [first [exact E|tauto|assumption|lia]|]). rewrite E, <- Eo. apply hp_add with (more := more); try assumption; [rewrite <- E; exact F|lia].
Qed.
Lemma remove_total p off : block_ok B -> bytes_ok p -> blen p < two64 -> 1 <= off -> off + 20 <= blen p ->
  exists b mid pn rest m0 m more, p = b :: mid ++ pn ++ rest /\ N.of_nat (1 + length mid) = off /\ N.of_nat (length pn) = mask_first b m0 mod 4 + 1 /\ b < 256 /\ m0 < 256 /\
    (20 <= length pn + length rest)%nat /\
    B (q_hp s) (the_sample (length pn) rest) = m0 :: m ++ more /\ length m = length pn /\
    remove_header_protection B p off s = (Ok tt, mask_first b m0 :: mid ++ xor_bytes pn m ++ rest).
Proof.
  intros BK PK F H1 H2. destruct p as [|b0 t]; [unfold blen in H2; cbn in H2; lia|].
  set (sam := BinarySpec.between (b0 :: t) (N.to_nat off + 4) (N.to_nat off + 20)).
  assert (LS : length sam = 16%nat). { unfold sam. rewrite between_16, firstn_length, skipn_length. unfold blen in H2. lia. }
  destruct (BK (q_hp s) sam LS) as [BL BO]. destruct (B (q_hp s) sam) as [|m0 mask] eqn:M; [discriminate|].
  apply bytes_ok_cons in BO. destruct BO as [Hm0 BO]. apply bytes_ok_cons in PK. destruct PK as [Hb PK].
  destruct (split_packet (b0 :: t) (N.to_nat off) (N.to_nat (mask_first b0 m0 mod 4 + 1))) as (b & mid & pn & rest & E & Lm & Lp); [lia|unfold blen in H2; lia|].
  assert (b = b0) by congruence. subst b.
  assert (Lr : (20 <= length pn + length rest)%nat). { rewrite E in H2. unfold blen in H2. cbn [length] in H2. rewrite !app_length in H2. lia. }
  assert (Lp4 : (length pn <= 4)%nat) by lia.
  assert (ES : sam = the_sample (length pn) rest). { unfold sam. exact (sample_same (length pn) _ _ _ b0 mid pn rest E Lm eq_refl Lp4 eq_refl). }
  exists b0, mid, pn, rest, m0, (firstn (length pn) mask), (skipn (length pn) mask).
  assert (Eo : N.of_nat (1 + length mid) = off) by lia.
  assert (MM : B (q_hp s) (the_sample (length pn) rest) = m0 :: firstn (length pn) mask ++ skipn (length pn) mask) by (rewrite <- ES, M, firstn_skipn; reflexivity).
  assert (LM : length (firstn (length pn) mask) = length pn) by (rewrite firstn_length; cbn [length] in BL; lia).
  do 8 (split; [first [exact E|exact MM|assumption|lia]|]). rewrite E, <- Eo. eapply hp_remove; try eassumption; [rewrite <- E; exact F|lia].
Qed.
Lemma mask_masked b mid pn rest m0 m more : b < 256 -> m0 < 256 -> N.of_nat (length pn) = b mod 4 + 1 ->
  B (q_hp s) (the_sample (length pn) rest) = m0 :: m ++ more -> length m = length pn ->
  masked B (q_hp s) (1 + length mid) (b :: mid ++ pn ++ rest) (mask_first b m0 :: mid ++ xor_bytes pn m ++ rest).
Proof.
  intros Hb Hm0 E M Lm. exists b, mid, pn, rest, m0, m, more. split; [reflexivity|]. split; [reflexivity|]. split; [exact E|].
  split; [rewrite sample_rest by lia; exact M|]. split; [exact Lm|]. rewrite (proj2 (proj2 (mask_first_facts b m0 Hb Hm0))). reflexivity.
Qed.
End Hp.
