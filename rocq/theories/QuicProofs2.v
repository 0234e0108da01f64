(** Lemmas about QUIC packets: protection of the payload. *)
From Verif Require Import Base BaseProofs BinaryModel BinarySpec BinaryProofs BinaryProofs2 MessageProofs MessageProofs2 TlsCodesModel TlsTypesModel TlsRecordModel TlsRecordSpec TlsRecordProofs TlsClientSpec
  QuicModel QuicSpec QuicProofs.
From Coq Require Import Lia ZArith ZifyBool ZifyNat ZifyN.
Ltac Zify.zify_post_hook ::= Z.div_mod_to_equations.
Local Open Scope list_scope. Local Open Scope N_scope.

Lemma xor_comm a : forall b, xor_bytes a b = xor_bytes b a.
Proof. induction a as [|x a IH]; intros [|y b]; cbn [xor_bytes]; try reflexivity. rewrite IH, N.lxor_comm. reflexivity. Qed.
Lemma xor_zeros a : xor_bytes (zeros (length a)) a = a.
Proof. unfold zeros. induction a as [|x a IH]; cbn [length repeat xor_bytes]; [reflexivity|]. rewrite IH, N.lxor_0_l. reflexivity. Qed.
Lemma quic_nonce_make s pn : length (q_iv s) = 12%nat -> quic_nonce s pn = make_nonce (q_iv s) pn.
Proof.
  intros L. unfold quic_nonce, make_nonce. pose proof (firstn_skipn 4 (q_iv s)) as E.
  assert (L1 : length (firstn 4 (q_iv s)) = 4%nat) by (rewrite firstn_length; lia).
  assert (L2 : length (skipn 4 (q_iv s)) = 8%nat) by (rewrite skipn_length; lia).
  set (a := firstn 4 (q_iv s)) in *. set (c := skipn 4 (q_iv s)) in *. rewrite <- E.
  pose proof (xor_at_app a c [] (be_bytes 8 pn) ltac:(rewrite be_bytes_length; exact L2)) as X. rewrite app_nil_r, L1 in X. rewrite X, app_nil_r.
  rewrite xor_app by (unfold zeros; rewrite repeat_length; lia). rewrite xor_comm. f_equal. rewrite <- L1. symmetry. apply xor_zeros.
Qed.
Lemma quic_nonce_rfc s pn : secrets_ok s -> pn < two64 -> quic_nonce s pn = rfc_nonce (q_iv s) pn.
Proof. intros (_ & L & O) H. rewrite quic_nonce_make by exact L. apply nonce_rfc; assumption. Qed.
Lemma slice_number_fold l : forall a k, bytes_ok l -> a < 256 ^ N.of_nat k -> (k + length l <= 8)%nat ->
  fold_left (fun a x => N.lor (N.shiftl a 8 mod two64) x) l a = a * 256 ^ N.of_nat (length l) + of_be_bytes l.
Proof.
  induction l as [|x l IH]; intros a k O A L.
  - cbn [fold_left length]. unfold of_be_bytes. cbn. lia.
  - apply bytes_ok_cons in O. destruct O as [Hx O]. cbn [fold_left length] in *.
    assert (E : N.lor (N.shiftl a 8 mod two64) x = a * 256 + x).
    { rewrite N.mod_small.
      - rewrite N.lor_comm, lor_disjoint by exact Hx. change (2 ^ 8) with 256. lia.
      - rewrite N.shiftl_mul_pow2. change (2 ^ 8) with 256. change two64 with (256 ^ 8).
        assert (256 ^ N.of_nat k <= 256 ^ 7) by (apply N.pow_le_mono_r; lia). change (256 ^ 8) with (256 ^ 7 * 256). nia. }
    rewrite E, (IH (a * 256 + x) (S k)); [|exact O|rewrite pow256_S; nia|lia].
    change (x :: l) with ([x] ++ l). rewrite of_be_app, of_be_single, pow256_S. ring.
Qed.
Lemma slice_number l : bytes_ok l -> (length l <= 8)%nat -> u64_from_slice l = of_be_bytes l.
Proof. intros O L. unfold u64_from_slice. rewrite (slice_number_fold l 0 0) by (auto; reflexivity || lia). lia. Qed.

Section Packet.
Context (P : primitives) (B : bytes -> bytes -> bytes) (a : aead_alg) (s : endpoint_secrets).
Hypothesis A : aead_ok P.
Hypothesis BK : block_ok B.
Hypothesis SK : secrets_ok s.
Hypothesis AL : key_len a = 16%nat.
Lemma rfc_nonce_length pn : pn < two64 -> length (rfc_nonce (q_iv s) pn) = 12%nat.
Proof. destruct SK as (_ & L & O). intros H. rewrite <- nonce_rfc by assumption. apply nonce_length. exact L. Qed.
Lemma encrypt_in_place_rfc pn h d : pn < two64 -> encrypt_in_place P a (q_key s) (quic_nonce s pn) h d = of_option CDecryptionFailed (seal P a (q_key s) (rfc_nonce (q_iv s) pn) h d).
Proof.
  intros H. unfold encrypt_in_place. rewrite quic_nonce_rfc by assumption. destruct SK as (K & _ & _). rewrite K, AL, rfc_nonce_length by exact H. reflexivity.
Qed.
Lemma decrypt_in_place_rfc pn h d : pn < two64 -> decrypt_in_place P a (q_key s) (quic_nonce s pn) h d = of_option CDecryptionFailed (unseal P a (q_key s) (rfc_nonce (q_iv s) pn) h d).
Proof.
  intros H. unfold decrypt_in_place. rewrite quic_nonce_rfc by assumption. destruct SK as (K & _ & _). rewrite K, AL, rfc_nonce_length by exact H. reflexivity.
Qed.
Lemma header_open h off pn : header_of h off pn -> bytes_ok h -> exists b mid n, h = b :: mid ++ be_bytes n pn /\ off = (1 + length mid)%nat /\ N.of_nat n = b mod 4 + 1 /\
  pn < 256 ^ N.of_nat n /\ b < 256 /\ pn < two64 /\ (n <= 4)%nat.
Proof.
  intros (b & mid & n & -> & <- & N4 & H) O. apply bytes_ok_cons in O. exists b, mid, n. do 5 (split; [first [reflexivity|tauto]|]). split; [|lia].
  eapply N.lt_le_trans; [exact H|]. change two64 with (256 ^ 8). apply N.pow_le_mono_r; lia.
Qed.
Lemma encrypt_ok h off pn d c : header_of h off pn -> bytes_ok h -> blen h + blen d + 16 < two64 -> (20 <= length h - off + length d + 16)%nat ->
  seal P a (q_key s) (rfc_nonce (q_iv s) pn) h d = Some c ->
  exists b mid n m0 m more, h = b :: mid ++ be_bytes n pn /\ off = (1 + length mid)%nat /\ N.of_nat n = b mod 4 + 1 /\ b < 256 /\ m0 < 256 /\ (20 <= n + length c)%nat /\
    B (q_hp s) (the_sample n c) = m0 :: m ++ more /\ length m = n /\
    encrypt_payload P B pn h (N.of_nat off) d (blen d + 16) s a = Ok (mask_first b m0 :: mid ++ xor_bytes (be_bytes n pn) m ++ c).
Proof.
  intros H O F L E. destruct (header_open _ _ _ H O) as (b & mid & n & Eh & Eo & N4 & Hp & Hb & H64 & n4).
  destruct (A a (q_key s) (rfc_nonce (q_iv s) pn) h d c) as [_ Lc]; [destruct SK; lia|apply rfc_nonce_length; exact H64|exact E|].
  assert (Ln : length (be_bytes n pn) = n) by apply be_bytes_length.
  assert (Lh : length h = (off + n)%nat) by (rewrite Eh, Eo; cbn [length]; rewrite app_length, Ln; reflexivity).
  assert (L20 : (20 <= n + length c)%nat). { unfold blen in Lc. unfold bytes in *. lia. }
  destruct (BK (q_hp s) (the_sample n c) (sample_length n c n4 L20)) as [BL BO].
  destruct (mask_parts _ n BL ltac:(lia)) as (m0 & m & more & M & Lm). rewrite M in BO. apply bytes_ok_cons in BO.
  exists b, mid, n, m0, m, more. do 8 (split; [first [assumption|tauto]|]). unfold encrypt_payload. cbv zeta.
  change (N.of_nat (tag_len a)) with 16. rewrite N.eqb_refl. cbn [negb]. rewrite encrypt_in_place_rfc, E by exact H64. cbn [of_option map_err from_crypt bind].
  rewrite Lc, N.eqb_refl. cbn [negb].
  rewrite Eh, Eo. change ((b :: mid ++ be_bytes n pn) ++ c) with (b :: (mid ++ be_bytes n pn) ++ c). rewrite <- app_assoc.
  rewrite (hp_add B s b mid (be_bytes n pn) c m0 m more); rewrite ?Ln; try assumption; [reflexivity|].
  unfold blen. cbn [length]. rewrite !app_length, Ln. unfold blen in *. rewrite Eh in F. cbn [length] in F. rewrite app_length, Ln in F. unfold bytes in *. lia.
Qed.
Lemma sample_more n c extra : (n <= 4)%nat -> (20 <= n + length c)%nat -> the_sample n (c ++ extra) = the_sample n c.
Proof.
  intros H L. unfold the_sample. rewrite skipn_app. replace (4 - n - length c)%nat with 0%nat by lia. rewrite skipn_O.
  rewrite firstn_app, skipn_length. replace (16 - (length c - (4 - n)))%nat with 0%nat by lia. rewrite firstn_O, app_nil_r. reflexivity.
Qed.
Lemma xor_xor_be n pn m : length m = n -> xor_bytes (xor_bytes (be_bytes n pn) m) m = be_bytes n pn.
Proof. intros L. apply xor_twice. rewrite be_bytes_length. lia. Qed.
(** What decryption does once the header is known. *)
Lemma decrypt_known packet off len b mid pnb rest :
  remove_header_protection B packet (N.of_nat off) s = (Ok tt, b :: mid ++ pnb ++ rest) -> off = (1 + length mid)%nat -> N.of_nat (length pnb) = b mod 4 + 1 ->
  bytes_ok pnb -> N.of_nat off + len < two64 ->
  (len < blen pnb \/ blen pnb + blen rest < len -> decrypt_payload P B packet (N.of_nat off) len s a = Panic) /\
  (forall c extra, rest = c ++ extra -> len = blen pnb + blen c -> decrypt_payload P B packet (N.of_nat off) len s a =
     match unseal P a (q_key s) (rfc_nonce (q_iv s) (of_be_bytes pnb)) (b :: mid ++ pnb) c with Some d => Ok (of_be_bytes pnb, d) | None => Err (QCrypt CDecryptionFailed) end).
Proof.
  intros R Eo E4 O F. unfold decrypt_payload. rewrite R. cbv zeta. cbn [hd]. change 0x03 with 3. rewrite land_3, <- E4. split.
  - intros D. replace (_ || _ || _) with true; [reflexivity|]. symmetry. rewrite !orb_true_iff, N.leb_le, !N.ltb_lt.
    unfold blen in *. cbn [length]. rewrite !app_length. lia.
  - intros c extra -> El. replace (_ || _ || _) with false.
    2:{ symmetry. rewrite !orb_false_iff, N.leb_gt, !N.ltb_ge. unfold blen in *. cbn [length]. rewrite !app_length. lia. }
    replace (N.to_nat (N.of_nat off + N.of_nat (length pnb))) with (length (b :: mid ++ pnb)) by (cbn [length]; rewrite app_length; lia).
    replace (N.to_nat (N.of_nat off + len)) with (length (b :: mid ++ pnb) + length c)%nat by (cbn [length]; rewrite app_length; unfold blen in *; lia).
    replace (N.to_nat (N.of_nat off)) with (length (b :: mid)) by (cbn [length]; lia).
    replace (b :: mid ++ pnb ++ c ++ extra) with ((b :: mid ++ pnb) ++ c ++ extra) by (cbn [app]; rewrite <- app_assoc; reflexivity).
    assert (X0 : index_range (E := qerr) ((b :: mid ++ pnb) ++ c ++ extra) 0 (length (b :: mid ++ pnb)) = Ok (b :: mid ++ pnb)) by exact (index_range_at [] (b :: mid ++ pnb) (c ++ extra)).
    rewrite X0. cbn [bind].
    rewrite <- app_length, index_range_at.
    replace ((b :: mid ++ pnb) ++ c ++ extra) with ((b :: mid) ++ pnb ++ c ++ extra) by (cbn [app]; rewrite <- app_assoc; reflexivity).
    change (b :: mid ++ pnb) with ((b :: mid) ++ pnb). rewrite app_length. rewrite <- app_length, index_range_at. cbn [bind].
    rewrite slice_number by (auto; lia).
    assert (of_be_bytes pnb < two64). { eapply N.lt_le_trans; [apply of_be_bytes_lt, O|]. change two64 with (256 ^ 8). apply N.pow_le_mono_r; lia. }
    rewrite decrypt_in_place_rfc by assumption. destruct (unseal P a (q_key s) _ _ c); reflexivity.
Qed.
Lemma decrypt_encrypted h off pn d c extra : header_of h off pn -> bytes_ok h -> blen h + blen d + 16 + blen extra < two64 -> (20 <= length h - off + length d + 16)%nat ->
  seal P a (q_key s) (rfc_nonce (q_iv s) pn) h d = Some c ->
  exists packet, encrypt_payload P B pn h (N.of_nat off) d (blen d + 16) s a = Ok packet /\ masked B (q_hp s) off (h ++ c) packet /\
    decrypt_payload P B (packet ++ extra) (N.of_nat off) (blen h - N.of_nat off + blen d + 16) s a = Ok (pn, d).
Proof.
  intros H O F L E. destruct (encrypt_ok h off pn d c H O ltac:(lia) L E) as (b & mid & n & m0 & m & more & Eh & Eo & N4 & Hb & Hm0 & L20 & M & Lm & R).
  destruct (header_open _ _ _ H O) as (b' & mid' & n' & Eh' & Eo' & N4' & Hp & _ & H64 & n4).
  assert (b' = b /\ n' = n). { rewrite Eh in Eh'. assert (b' = b) by congruence. subst b'. split; [reflexivity|lia]. } destruct H0 as [-> ->].
  destruct (A a (q_key s) (rfc_nonce (q_iv s) pn) h d c) as [U Lc]; [destruct SK; lia|apply rfc_nonce_length; exact H64|exact E|].
  assert (Ln : length (be_bytes n pn) = n) by apply be_bytes_length.
  eexists. split; [exact R|]. split.
  - rewrite Eh, Eo. change ((b :: mid ++ be_bytes n pn) ++ c) with (b :: (mid ++ be_bytes n pn) ++ c). rewrite <- app_assoc.
    apply mask_masked with (more := more); rewrite ?Ln; assumption.
  - destruct (mask_first_facts b m0 Hb Hm0) as (F1 & F2 & F3).
    assert (Lx : length (xor_bytes (be_bytes n pn) m) = n) by (rewrite xor_length, Ln; [reflexivity|lia]).
    assert (Lh : blen h = N.of_nat off + N.of_nat n) by (rewrite Eh, Eo; unfold blen; cbn [length]; rewrite app_length, Ln; lia).
    assert (RM : remove_header_protection B ((mask_first b m0 :: mid ++ xor_bytes (be_bytes n pn) m ++ c) ++ extra) (N.of_nat off) s = (Ok tt, b :: mid ++ be_bytes n pn ++ c ++ extra)).
    { cbn [app]. rewrite <- !app_assoc, Eo. rewrite (hp_remove B s (mask_first b m0) mid (xor_bytes (be_bytes n pn) m) (c ++ extra) m0 m more).
      - rewrite F2, xor_xor_be by exact Lm. reflexivity.
      - unfold blen in *. cbn [length]. rewrite !app_length, Lx. lia.
      - lia.
      - rewrite app_length. lia.
      - rewrite F2, Lx. exact N4.
      - rewrite Lx, sample_more by assumption. exact M.
      - lia. }
    destruct (decrypt_known _ off (blen h - N.of_nat off + blen d + 16) b mid (be_bytes n pn) (c ++ extra) RM Eo ltac:(rewrite Ln; exact N4) (be_bytes_ok _ _) ltac:(lia)) as [_ X].
    rewrite (X c extra eq_refl) by (rewrite blen_be; lia). rewrite of_be_be_bytes by exact Hp. rewrite <- Eh, U. reflexivity.
Qed.
End Packet.
