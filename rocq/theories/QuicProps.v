(** Properties C63-C67 and C82-C87: QUIC. *)
From Verif Require Import Base BaseProofs BinaryModel BinarySpec BinaryProofs BinaryProofs2 MessageProofs MessageProofs2 TlsCodesModel TlsTypesModel TlsTypesSpec TlsTypesProofs TlsTypesProofs2 TlsTypesProofs3 TlsTypesProps
  TlsRecordModel TlsRecordSpec TlsRecordProofs TlsRecordProps TlsClientSpec TlsClientProps QuicModel QuicSpec QuicProofs QuicProofs2 QuicProofs3 QuicProofs4 QuicProofs5 QuicProofs6.
From Coq Require Import Lia ZArith ZifyBool ZifyNat ZifyN Permutation.
Ltac Zify.zify_post_hook ::= Z.div_mod_to_equations.
Local Open Scope string_scope. Local Open Scope list_scope. Local Open Scope N_scope.

Lemma toy_block_ok : block_ok toy_block.
Proof. intros k d _. split; [apply be_bytes_length|apply be_bytes_ok]. Qed.
Definition toy_secrets : endpoint_secrets := {| q_key := repeat 5 16; q_iv := [1; 2; 3; 4; 5; 6; 7; 8; 9; 10; 11; 12]; q_hp := repeat 7 16 |}.
Lemma toy_secrets_ok : secrets_ok toy_secrets.
Proof. repeat split; repeat constructor. Qed.

(** *** C63: header protection *)
(** Every packet with a sample is protected as RFC 9001 says. *)
Theorem C63_added B p off s : block_ok B -> bytes_ok p -> fits p -> 1 <= off -> off + 20 <= blen p ->
  exists q, add_header_protection B p off s = (Ok tt, q) /\ masked B (q_hp s) (N.to_nat off) p q.
Proof.
  intros BK O F L1 L2. destruct (add_total B s p off BK O F L1 L2) as (b & mid & pn & rest & m0 & m & more & -> & <- & Lp & Lb & Lm & Lr & E & El & R).
  eexists. split; [exact R|]. rewrite Nat2N.id. eapply mask_masked; eassumption.
Qed.
Print Assumptions C63_added.
(** Every packet with a sample is the protected form of what the removal makes of it. *)
Theorem C63_removed B p off s : block_ok B -> bytes_ok p -> fits p -> 1 <= off -> off + 20 <= blen p ->
  exists q, remove_header_protection B p off s = (Ok tt, q) /\ masked B (q_hp s) (N.to_nat off) q p.
Proof.
  intros BK O F L1 L2. destruct (remove_total B s p off BK O F L1 L2) as (b & mid & pn & rest & m0 & m & more & -> & <- & Lp & Lb & Lm & Lr & E & El & R).
  eexists. split; [exact R|]. rewrite Nat2N.id. destruct (mask_first_facts b m0 Lb Lm) as (M1 & M2 & _).
  assert (X : masked B (q_hp s) (1 + length mid) (mask_first b m0 :: mid ++ xor_bytes pn m ++ rest) (mask_first (mask_first b m0) m0 :: mid ++ xor_bytes (xor_bytes pn m) m ++ rest)).
  { apply (mask_masked B s _ _ _ _ m0 m more); rewrite ?xor_length by lia; try assumption; unfold bytes in *; lia. }
  rewrite M2, xor_twice in X by lia. exact X.
Qed.
Print Assumptions C63_removed.
(** Each undoes the other. *)
Theorem C63_inverse B p off s : block_ok B -> bytes_ok p -> fits p -> 1 <= off -> off + 20 <= blen p ->
  (exists q, add_header_protection B p off s = (Ok tt, q) /\ remove_header_protection B q off s = (Ok tt, p)) /\
  (exists q, remove_header_protection B p off s = (Ok tt, q) /\ add_header_protection B q off s = (Ok tt, p)).
Proof.
  intros BK O F L1 L2. split.
  - destruct (add_total B s p off BK O F L1 L2) as (b & mid & pn & rest & m0 & m & more & -> & <- & Lp & Lb & Lm & Lr & E & El & R).
    eexists. split; [exact R|]. destruct (mask_first_facts b m0 Lb Lm) as (M1 & M2 & _). unfold bytes in *.
    assert (Lx : length (xor_bytes pn m) = length pn) by (apply xor_length; lia).
    pose proof (hp_remove B s (mask_first b m0) mid (xor_bytes pn m) rest m0 m more) as H. rewrite Lx, M2, (xor_twice pn m (eq_sym El)) in H.
    apply H; [unfold fits, blen in *; cbn [length] in *; rewrite !app_length in *; rewrite Lx; exact F|clear H; lia|exact Lr|exact Lp|exact E|exact El].
  - destruct (remove_total B s p off BK O F L1 L2) as (b & mid & pn & rest & m0 & m & more & -> & <- & Lp & Lb & Lm & Lr & E & El & R).
    eexists. split; [exact R|]. destruct (mask_first_facts b m0 Lb Lm) as (M1 & M2 & _). unfold bytes in *.
    assert (Lx : length (xor_bytes pn m) = length pn) by (apply xor_length; lia).
    pose proof (hp_add B s (mask_first b m0) mid (xor_bytes pn m) rest m0 m more) as H. rewrite Lx, M2, (xor_twice pn m (eq_sym El)) in H.
    apply H; [unfold fits, blen in *; cbn [length] in *; rewrite !app_length in *; rewrite Lx; exact F|clear H; lia|exact Lr|exact Lp|exact E|exact El].
Qed.
Print Assumptions C63_inverse.
(** A packet without a sample is refused and left as it was. *)
Theorem C63_short B p off s : off + 20 < two64 -> blen p < off + 20 ->
  add_header_protection B p off s = (Err (QText "Insufficient data for sample"), p) /\
  remove_header_protection B p off s = (Err (QText "Insufficient data for sample"), p).
Proof.
  intros L1 L2. unfold add_header_protection, remove_header_protection, get_sample.
  replace (two64 <=? off + 20) with false by (symmetry; apply N.leb_gt; exact L1). replace (blen p <? off + 20) with true by (symmetry; apply N.ltb_lt; exact L2).
  split; reflexivity.
Qed.
Print Assumptions C63_short.
Example C63_sample : block_ok toy_block /\ let p := [0xc1; 9; 8; 1; 2] ++ repeat 77 30 in
  exists q, add_header_protection toy_block p 3 toy_secrets = (Ok tt, q) /\ q <> p /\ firstn 2 (skipn 1 q) = [9; 8] /\ skipn 5 q = repeat 77 30 /\
    remove_header_protection toy_block q 3 toy_secrets = (Ok tt, p).
Proof. split; [exact toy_block_ok|]. eexists. split; [vm_compute; reflexivity|]. split; [discriminate|]. split; [reflexivity|]. split; [reflexivity|]. vm_compute. reflexivity. Qed.

(** *** C64: packet protection *)
(** A packet is protected as RFC 9001 says, and opened again, whatever follows it. *)
Theorem C64_round_trip_partial P B a s h off pn d c extra : aead_ok P -> block_ok B -> secrets_ok s -> key_len a = 16%nat ->
  header_of h off pn -> bytes_ok h -> blen h + blen d + 16 + blen extra < two64 -> (20 <= length h - off + length d + 16)%nat ->
  seal P a (q_key s) (rfc_nonce (q_iv s) pn) h d = Some c ->
  exists packet, encrypt_payload P B pn h (N.of_nat off) d (blen d + 16) s a = Ok packet /\ packet_of P B a s h off pn d packet /\
    decrypt_payload P B (packet ++ extra) (N.of_nat off) (blen h - N.of_nat off + blen d + 16) s a = Ok (pn, d).
Proof.
  intros A BK SK AL HO OH L1 L2 E. destruct (decrypt_encrypted P B a s A BK SK AL h off pn d c extra HO OH L1 L2 E) as (packet & E1 & M & D).
  exists packet. split; [exact E1|]. split; [exists c; auto|exact D].
Qed.
Print Assumptions C64_round_trip_partial.
(** What it returns was opened with the packet number and the header of the packet. *)
Theorem C64_opened P B a s packet off len pn d : block_ok B -> secrets_ok s -> key_len a = 16%nat -> bytes_ok packet -> fits packet -> (1 <= off)%nat ->
  decrypt_payload P B packet (N.of_nat off) len s a = Ok (pn, d) ->
  exists h c extra, masked B (q_hp s) off (h ++ c ++ extra) packet /\ header_of h off pn /\ N.of_nat off + len = blen h + blen c /\
    unseal P a (q_key s) (rfc_nonce (q_iv s) pn) h c = Some d.
Proof.
  intros BK SK AL O F L1 E. unfold fits in F.
  destruct (N.lt_ge_cases (blen packet) (N.of_nat off + 20)) as [S|S].
  { unfold decrypt_payload in E. unfold remove_header_protection, get_sample in E. destruct (two64 <=? _); [discriminate|]. replace (blen packet <? _) with true in E by (symmetry; apply N.ltb_lt; exact S). discriminate. }
  destruct (remove_total B s packet (N.of_nat off) BK O F ltac:(lia) S) as (b & mid & pnb & rest & m0 & m & more & -> & Eo & Lp & Lb & Lm & Lr & EB & El & R).
  destruct (mask_first_facts b m0 Lb Lm) as (M1 & M2 & _).
  assert (Lx : length (xor_bytes pnb m) = length pnb) by (apply xor_length; lia).
  assert (Off : off = (1 + length mid)%nat) by lia.
  assert (MK : masked B (q_hp s) off (mask_first b m0 :: mid ++ xor_bytes pnb m ++ rest) (b :: mid ++ pnb ++ rest)).
  { rewrite Off. replace (b :: mid ++ pnb ++ rest) with (mask_first (mask_first b m0) m0 :: mid ++ xor_bytes (xor_bytes pnb m) m ++ rest) by (rewrite M2, xor_twice by lia; reflexivity).
    apply (mask_masked B s _ _ _ _ m0 m more); rewrite ?Lx; try assumption; unfold bytes in *; lia. }
  assert (On : bytes_ok (xor_bytes pnb m)).
  { apply xor_ok. - rewrite bytes_ok_cons, !bytes_ok_app in O. tauto.
    - destruct (BK (q_hp s) (the_sample (length pnb) rest)) as [_ OB]; [apply sample_length; unfold bytes in *; lia|]. rewrite EB, bytes_ok_cons, bytes_ok_app in OB. tauto. }
  destruct (N.lt_ge_cases (N.of_nat off + len) two64) as [L64|L64].
  2:{ unfold decrypt_payload in E. rewrite R in E. replace (two64 <=? N.of_nat off + len) with true in E by (symmetry; apply N.leb_le; exact L64). discriminate. }
  destruct (decrypt_known P B a s SK AL _ off len _ _ _ _ R Off) as [D1 D2]; [rewrite Lx; exact Lp|exact On|exact L64|].
  destruct (N.lt_ge_cases len (blen (xor_bytes pnb m))) as [X|X1]; [rewrite D1 in E by auto; discriminate|].
  destruct (N.lt_ge_cases (blen (xor_bytes pnb m) + blen rest) len) as [X|X2]; [rewrite D1 in E by auto; discriminate|].
  set (n := N.to_nat (len - blen (xor_bytes pnb m))). assert (Ln : length (firstn n rest) = n) by (apply firstn_length_le; unfold n, blen in *; lia).
  specialize (D2 (firstn n rest) (skipn n rest) (eq_sym (firstn_skipn _ _))). rewrite D2 in E by (unfold blen at 2; rewrite Ln; unfold n; lia).
  destruct (unseal P a (q_key s) _ _ _) as [d'|] eqn:U; [|discriminate]. assert (of_be_bytes (xor_bytes pnb m) = pn /\ d' = d) as [<- <-] by (split; congruence).
  exists (mask_first b m0 :: mid ++ xor_bytes pnb m), (firstn n rest), (skipn n rest). split.
  - rewrite firstn_skipn. cbn [app]. rewrite <- app_assoc. exact MK.
  - split; [|split].
    + exists (mask_first b m0), mid, (length pnb). split; [rewrite <- Lx at 1; rewrite be_of_be_bytes by exact On; reflexivity|]. split; [auto|]. split; [exact Lp|].
      rewrite <- Lx. apply of_be_bytes_lt. exact On.
    + unfold blen at 2. rewrite Ln. unfold n. unfold blen. cbn [length]. rewrite app_length. unfold blen in X1. lia.
    + exact U.
Qed.
Print Assumptions C64_opened.
(** No two packet numbers share a nonce. *)
Theorem C64_nonces s n m : secrets_ok s -> n < two64 -> m < two64 -> quic_nonce s n = quic_nonce s m -> n = m.
Proof. intros SK L1 L2. rewrite !quic_nonce_make by apply SK. intros E. apply (nonce_injective (q_iv s)); try assumption; apply SK. Qed.
Print Assumptions C64_nonces.
(** The full statement is false: it panics exactly when the length is less than that of the
    packet number or leads past the packet. *)
Theorem C64_bad_length_refuted P B a s packet off len : block_ok B -> secrets_ok s -> key_len a = 16%nat -> bytes_ok packet -> fits packet -> (1 <= off)%nat ->
  N.of_nat off + 20 <= blen packet -> N.of_nat off + len < two64 ->
  exists n, 1 <= n <= 4 /\ (decrypt_payload P B packet (N.of_nat off) len s a = Panic <-> len < n \/ blen packet < N.of_nat off + len).
Proof.
  intros BK SK AL O F L1 S L64. unfold fits in F.
  destruct (remove_total B s packet (N.of_nat off) BK O F ltac:(lia) S) as (b & mid & pnb & rest & m0 & m & more & -> & Eo & Lp & Lb & Lm & Lr & EB & El & R).
  assert (Lx : length (xor_bytes pnb m) = length pnb) by (apply xor_length; lia).
  assert (Off : off = (1 + length mid)%nat) by lia.
  assert (On : bytes_ok (xor_bytes pnb m)).
  { apply xor_ok. - rewrite bytes_ok_cons, !bytes_ok_app in O. tauto.
    - destruct (BK (q_hp s) (the_sample (length pnb) rest)) as [_ OB]; [apply sample_length; unfold bytes in *; lia|]. rewrite EB, bytes_ok_cons, bytes_ok_app in OB. tauto. }
  destruct (decrypt_known P B a s SK AL _ off len _ _ _ _ R Off) as [D1 D2]; [rewrite Lx; exact Lp|exact On|exact L64|].
  assert (LP : blen (b :: mid ++ pnb ++ rest) = N.of_nat off + blen pnb + blen rest) by (unfold blen; cbn [length]; rewrite !app_length; lia).
  assert (LX : blen (xor_bytes pnb m) = blen pnb) by (unfold blen; rewrite Lx; reflexivity).
  exists (blen pnb). split; [unfold blen; lia|]. rewrite LX in *. split.
  - intros E. destruct (N.lt_ge_cases len (blen pnb)) as [X|X1]; [auto|]. right.
    destruct (N.lt_ge_cases (blen pnb + blen rest) len) as [X|X2]; [lia|]. exfalso.
    set (n := N.to_nat (len - blen pnb)). assert (Ln : length (firstn n rest) = n) by (apply firstn_length_le; unfold n, blen in *; lia).
    specialize (D2 (firstn n rest) (skipn n rest) (eq_sym (firstn_skipn _ _))). rewrite D2 in E by (unfold blen at 2; rewrite Ln; unfold n; lia).
    destruct (unseal P a (q_key s) _ _ _); discriminate.
  - intros [X|X]; apply D1; lia.
Qed.
Print Assumptions C64_bad_length_refuted.
Definition quic_sample_header : bytes := [0xc1; 0; 0; 0; 1; 0x12; 0x34].
Example C64_sample : secrets_ok toy_secrets /\ header_of quic_sample_header 5 0x1234 /\
  exists packet, encrypt_payload toy toy_block 0x1234 quic_sample_header 5 [10; 20; 30] 19 toy_secrets AES_128_GCM = Ok packet /\ length packet = 26%nat /\
    decrypt_payload toy toy_block (packet ++ [1; 2]) 5 21 toy_secrets AES_128_GCM = Ok (0x1234, [10; 20; 30]) /\
    decrypt_payload toy toy_block packet 5 20 toy_secrets AES_128_GCM = Err (QCrypt CDecryptionFailed) /\
    decrypt_payload toy toy_block packet 5 1 toy_secrets AES_128_GCM = Panic /\
    decrypt_payload toy toy_block packet 5 22 toy_secrets AES_128_GCM = Panic.
Proof.
  split; [exact toy_secrets_ok|]. split; [exists 0xc1, [0; 0; 0; 1], 2%nat; do 3 (split; [reflexivity|]); reflexivity|].
  eexists. split; [vm_compute; reflexivity|]. split; [reflexivity|]. split; [vm_compute; reflexivity|]. split; [vm_compute; reflexivity|]. split; vm_compute; reflexivity.
Qed.

(** *** C65: transport parameters *)
(** A list is read exactly from the bytes that mean it; nothing makes the decoder panic. *)
Theorem C65_decoder d l : bytes_ok d -> fits d ->
  (decode_list d = Ok l <-> exists xs, d = concat (map wire_param_bytes xs) /\ Forall wire_param_ok xs /\ Forall2 (fun x p => means (wp_id x) (wp_value x) p) xs l) /\
  decode_list d <> Panic.
Proof.
  intros O F. split; [|apply decode_list_total, O]. split.
  - intros E. unfold decode_list in E. rewrite new_at_pos in E. destruct (decode_loop_inv _ _ _ _ O E) as (xs & W & -> & ->).
    exists xs. split; [reflexivity|]. split; [exact W|]. apply decoded_forall2; [apply values_ok, O|reflexivity].
  - intros (xs & -> & W & M). unfold decode_list. rewrite new_at_pos. pose proof (values_ok _ O) as V. apply (decoded_forall2 xs l V) in M. subst l.
    apply decode_loop_ok; [exact W|exact V|exact F|lia].
Qed.
Print Assumptions C65_decoder.
(** A list is written in the shortest way. *)
Theorem C65_encoder l xs : Forall2 (fun p x => sent_as p (fst x) (snd x) /\ blen (snd x) < two62) l xs ->
  encode_list l = concat (map (fun x => wire_param_bytes (shortest (fst x) (snd x))) xs).
Proof. intros F. unfold encode_list. rewrite (encode_items l xs [] F). reflexivity. Qed.
Print Assumptions C65_encoder.
(** What is written is read back, for the parameters that can be told apart. *)
Theorem C65_round_trip_partial l : Forall canonical l -> bytes_ok (encode_list l) -> fits (encode_list l) -> decode_list (encode_list l) = Ok l.
Proof.
  intros C O F.
  assert (X : exists xs, Forall2 (fun p x => sent_as p (fst x) (snd x) /\ blen (snd x) < two62) l xs /\ Forall (fun x => fst x < two62 /\ blen (snd x) < two62) xs /\
    Forall2 (fun p x => bytes_ok (snd x) -> decoded (fst x) (snd x) = p) l xs).
  { clear O F. induction C as [|p l Cp C IH]; [exists []; repeat constructor|]. destruct IH as (xs & F1 & F2 & F3). destruct (sent_exists p Cp) as (id & d & S & L1 & L2 & D).
    exists ((id, d) :: xs). repeat split; constructor; auto. }
  destruct X as (xs & F1 & F2 & F3). rewrite (C65_encoder l xs F1) in *.
  rewrite <- (map_map (fun x => shortest (fst x) (snd x)) wire_param_bytes) in *.
  unfold decode_list. rewrite new_at_pos. pose proof (values_ok _ O) as V. rewrite decode_loop_ok; [|clear -F2| exact V|exact F|lia].
  - f_equal. rewrite map_map. cbn [shortest wp_id wp_value]. clear -F3 V. induction F3 as [|p x l xs H F3 IH]; [reflexivity|]. cbn [map] in *. inversion V as [|? ? V1 V2]; subst. rewrite IH by exact V2. rewrite H by exact V1. reflexivity.
  - apply Forall_map. eapply Forall_impl; [|exact F2]. intros x [H1 H2]. split; cbn [shortest wp_id wp_id_width wp_len_width wp_value]; apply width_ok; assumption.
Qed.
Print Assumptions C65_round_trip_partial.
(** What is read is written back as the same bytes just if these were the shortest. *)
Theorem C65_rewritten d xs : d = concat (map wire_param_bytes xs) -> Forall wire_param_ok xs -> bytes_ok d -> fits d ->
  exists l, decode_list d = Ok l /\ (encode_list l = d <-> Forall minimal xs).
Proof. apply minimal_again. Qed.
Print Assumptions C65_rewritten.
(** The full statement is false: the identifier the server must send is not recognised, and
    the high bits of a number that does not fit are dropped. *)
Theorem C65_lost_refuted d v p : bytes_ok d -> blen d < two62 -> fits (encode_list [POriginalId d]) -> two62 <= v < two64 ->
  decode_list (encode_list [POriginalId d]) = Ok [PUnknown 0 d] /\ decode_list (encode_list [PNumber p v]) = Ok [PNumber p (v mod two62)].
Proof.
  intros O L F V. split.
  - assert (E : encode_list [POriginalId d] = concat (map wire_param_bytes [shortest 0 d])) by (apply (C65_encoder _ [(0, d)]); repeat constructor; auto).
    rewrite E in *. unfold decode_list. rewrite new_at_pos. rewrite decode_loop_ok; [reflexivity| | |exact F|lia].
    + constructor; [|constructor]. split; cbn [shortest wp_id wp_id_width wp_len_width wp_value]; apply width_ok; [reflexivity|exact L].
    + repeat constructor. exact O.
  - assert (FO : form_ok 8 (v mod two62)) by (split; [cbn; auto|change (2 ^ (8 * N.of_nat 8 - 2)) with two62; apply N.mod_lt; discriminate]).
    assert (X : exists id, In (id, p) param_ids /\ encode_list [PNumber p v] = snd (encode_varint id v [])).
    { destruct p; [exists 1|exists 3|exists 4|exists 5|exists 6|exists 7|exists 8|exists 9|exists 14]; (split; [cbn [In param_ids]; auto 20|]);
        unfold encode_list; cbn [write_items param_encode]; unfold wbind; destruct (encode_varint _ v []) as [[[]|e|] o]; reflexivity. }
    destruct X as (id & I & ->). unfold encode_varint. rewrite write_quic_large by exact V. cbn [snd app]. pose proof (ids_small id p I) as Ls.
    change (be_bytes 8 (3 * 2 ^ 62 + v mod two62)) with (quic_form 8 (v mod two62)).
    rewrite encode_raw_ok by (exact Ls || (rewrite blen_form; reflexivity)). cbn [snd app].
    assert (E : wire_param_bytes (shortest id (quic_form 8 (v mod two62))) = concat (map wire_param_bytes [shortest id (quic_form 8 (v mod two62))])) by (cbn [map concat]; rewrite app_nil_r; reflexivity).
    rewrite E. unfold decode_list. rewrite new_at_pos. rewrite decode_loop_ok.
    + cbn [map shortest wp_id wp_value]. f_equal. f_equal. symmetry. apply means_decoded; [apply be_bytes_ok|]. apply MNumber; assumption.
    + constructor; [|constructor]. split; cbn [shortest wp_id wp_id_width wp_len_width wp_value]; apply width_ok; [exact Ls|rewrite blen_form; reflexivity].
    + constructor; [apply be_bytes_ok|constructor].
    + rewrite <- E. unfold fits. cbn [app]. unfold wire_param_bytes, shortest. cbn [wp_id wp_id_width wp_len_width wp_value]. rewrite !blen_app, !blen_form.
      unfold quic_width. repeat match goal with |- context [if ?c then _ else _] => destruct c end; reflexivity.
    + lia.
Qed.
Print Assumptions C65_lost_refuted.
Example C65_sample : let l := [PNumber PMaxData 70000; PSourceId [1; 2; 3]; PUnknown 0x40 [9]; PInvalid 4 [1; 2]] in
  Forall canonical l /\ decode_list (encode_list l) = Ok l /\ encode_list l = [4; 4; 128; 1; 17; 112; 15; 3; 1; 2; 3; 64; 64; 1; 9; 4; 2; 1; 2] /\
  decode_list [4; 4; 128; 0; 0; 7] = Ok [PNumber PMaxData 7] /\ encode_list [PNumber PMaxData 7] = [4; 1; 7] /\
  (exists e, decode_list [4; 9; 1] = Err e).
Proof.
  cbn zeta. split.
  - repeat constructor.
    + intros H; cbn in H; intuition discriminate.
    + eapply MBadNumber; [right; right; left; reflexivity|]. intros w v [I LV] E. cbn [In] in I. assert (L : length [1; 2] = w) by (rewrite E; apply quic_form_length).
      destruct I as [<-|[<-|[<-|[<-|[]]]]]; try discriminate L. change (2 ^ (8 * N.of_nat 2 - 2)) with 16384 in LV. apply (f_equal (hd 0)) in E. unfold quic_form in E. cbn [hd] in E. rewrite be2 in E. cbn [hd] in E. change (quic_tag 2 * 2 ^ (8 * N.of_nat 2 - 2)) with 16384 in E. lia.
  - do 4 (split; [vm_compute; reflexivity|]). eexists. vm_compute. reflexivity.
Qed.

(** *** C66: the crypto stream *)
(** Whatever parts of a message arrive in whatever order, the data is the message as far as
    they reach without a gap. *)
Theorem C66_prefix_partial msg fs s : Forall (part_of msg) fs -> crypto_run crypto_new fs = Ok s ->
  reach fs (blen (cs_data s)) /\ exists rest, msg = cs_data s ++ rest.
Proof.
  intros F R. destruct (run_inv_crypto msg fs [] crypto_new s F (new_inv msg) (Forall_nil _) R) as [I ST]. apply inv_reach; assumption.
Qed.
Print Assumptions C66_prefix_partial.
(** Parts that share no byte never make it panic. *)
Theorem C66_disjoint msg fs : Forall (part_of msg) fs -> ForallOrdPairs disjoint fs -> Forall (fun f => cf_data f <> []) fs ->
  exists s, crypto_run crypto_new fs = Ok s.
Proof. intros F D NE. apply (run_no_panic msg fs [] crypto_new F D NE (new_inv msg)). Qed.
Print Assumptions C66_disjoint.
(** All pieces of a message in any order give the message, with none left over. *)
Theorem C66_all_orders pieces fs : Forall (fun d => d <> []) pieces -> Permutation (cut 0 pieces) fs ->
  exists s, crypto_run crypto_new fs = Ok s /\ cs_data s = concat pieces /\ cs_pending s = [].
Proof.
  intros NE PM. pose proof (cut_part pieces [] []) as CP. cbn [app] in CP. rewrite app_nil_r in CP. change (blen []) with 0 in CP.
  assert (F : Forall (part_of (concat pieces)) fs) by (eapply Permutation_Forall; [exact PM|exact CP]).
  assert (D : ForallOrdPairs disjoint fs) by (eapply pairs_perm; [exact disjoint_sym|exact PM|apply cut_disjoint]).
  assert (N0 : Forall (fun f => cf_data f <> []) fs) by (eapply Permutation_Forall; [exact PM|apply cut_nonempty, NE]).
  destruct (C66_disjoint _ fs F D N0) as [s R]. exists s. split; [exact R|].
  destruct (run_inv_crypto _ fs [] crypto_new s F (new_inv _) (Forall_nil _) R) as [I ST]. destruct (inv_reach _ _ _ I ST) as [[R1 R2] [rest E]].
  assert (L : blen (concat pieces) <= blen (cs_data s)).
  { destruct (N.le_gt_cases (blen (concat pieces)) (blen (cs_data s))) as [|G]; [assumption|]. exfalso.
    destruct (cut_covers pieces 0 (blen (cs_data s)) ltac:(lia) ltac:(lia)) as (f & If & C1 & C2). specialize (R2 f (Permutation_in _ PM If) C1). lia. }
  assert (rest = []) as -> by (apply (f_equal blen) in E; rewrite blen_app in E; destruct rest; [reflexivity|rewrite blen_cons in E; lia]).
  rewrite app_nil_r in E. split; [auto|].
  destruct I as (used & rest & Pm & _ & _ & _). destruct (cs_pending s) as [|f l] eqn:EP; [reflexivity|]. exfalso.
  unfold settled in ST. rewrite EP in ST. inversion ST as [|? ? H1 _]; subst.
  assert (If : In f fs) by (apply (Permutation_in _ (Permutation_sym Pm)), in_or_app; right; left; reflexivity).
  rewrite Forall_forall in F. destruct (F f If) as (a & b & Ea & Eb). apply (f_equal blen) in Ea. rewrite !blen_app in Ea. lia.
Qed.
Print Assumptions C66_all_orders.
(** The full statement is false: a retransmission of a part before the last panics. *)
Theorem C66_duplicate_refuted a b c : blen [a; b] = 2 /\
  crypto_run crypto_new [{| cf_start := 0; cf_data := [a; b] |}; {| cf_start := 2; cf_data := [c] |}; {| cf_start := 0; cf_data := [a; b] |}] = Panic.
Proof. split; reflexivity. Qed.
Print Assumptions C66_duplicate_refuted.
Example C66_sample : crypto_run crypto_new [{| cf_start := 3; cf_data := [4; 5] |}; {| cf_start := 0; cf_data := [1; 2] |}; {| cf_start := 1; cf_data := [2; 3] |}] =
  Ok {| cs_pending := []; cs_data := [1; 2; 3; 4; 5] |}.
Proof. reflexivity. Qed.
