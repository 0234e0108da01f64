(** C55, C56, C57 (the nonces), C62: TLS records. *)
From Verif Require Import Base BaseProofs MplexModel BinaryProofs MessageProofs MessageProofs2 ProtobufProofs TlsCodesModel TlsTypesModel
  TlsTypesProofs TlsTypesProofs2 TlsRecordModel TlsRecordSpec TlsRecordProofs.
Local Open Scope N_scope.
Ltac Zify.zify_post_hook ::= Z.div_mod_to_equations.

(** *** C55: records survive any segmentation *)
(** Whatever pieces the bytes come in and whenever records are taken: the records taken are
    the first ones of the input, in order and unchanged, and nothing is lost. *)
Theorem C55_any_segmentation ws rest os : Forall wire_ok ws -> incomplete rest -> fed os = concat (map wire ws) ++ rest ->
  exists k, (k <= length ws)%nat /\ popped (fst (rrun receiver_new os)) = map as_received (firstn k ws) /\
            rr_in (snd (rrun receiver_new os)) = concat (map wire (skipn k ws)) ++ rest.
Proof. intros O I E. apply run_records; [exact E|exact O|exact I]. Qed.
Print Assumptions C55_any_segmentation.
(** And once there is no record to take, all of them have been taken. *)
Theorem C55_none_is_held_back ws rest os : Forall wire_ok ws -> incomplete rest -> fed os = concat (map wire ws) ++ rest ->
  let r := snd (rrun receiver_new os) in
  (forall x, fst (pop_record r) <> Done (Ok (Some x))) ->
  popped (fst (rrun receiver_new os)) = map as_received ws /\ rr_in r = rest.
Proof.
  intros O I E r N0. destruct (C55_any_segmentation ws rest os O I E) as (k & K1 & K2 & K3). fold r in K3.
  destruct (skipn k ws) as [|w tl] eqn:S0.
  - assert (firstn k ws = ws) as W by (rewrite <- (firstn_skipn k ws) at 2; rewrite S0, app_nil_r; reflexivity). rewrite W in K2. auto.
  - exfalso. assert (Ow : wire_ok w) by (rewrite <- (firstn_skipn k ws), S0 in O; apply Forall_app in O; destruct O as [_ O]; inversion O; assumption).
    cbn [map concat] in K3. rewrite <- app_assoc in K3. apply (N0 (as_received w)). rewrite (pop_wire r w _ Ow K3). reflexivity.
Qed.
Print Assumptions C55_none_is_held_back.
(** What comes instead of a record: waiting; the end, cleanly or inside a record; a length
    that is not permitted, whatever else. *)
Theorem C55_what_comes_instead r : incomplete (rr_in r) ->
  rr_in (snd (pop_record r)) = rr_in r /\
  fst (pop_record r) =
    match declared (rr_in r), rr_state r with
    | _, RError e => match declared (rr_in r) with Some n => if 16640 <? n then Done (Err TInvalidPlaintextRecord) else Done (Err e) | None => Done (Err e) end
    | Some n, _ => if 16640 <? n then Done (Err TInvalidPlaintextRecord)
                   else match rr_state r with RActive => Wait | _ => Done (Err TInvalidPlaintextRecord) end
    | None, RActive => Wait
    | None, REof => Done (Ok None)
    end.
Proof.
  intros I. destruct (pop_incomplete r I) as [P1 P2]. split; [exact P2|]. rewrite P1. unfold no_record.
  destruct (declared (rr_in r)) as [n|]; [destruct (16640 <? n)|]; destruct (rr_state r); reflexivity.
Qed.
Print Assumptions C55_what_comes_instead.
(** A record cut off inside its header is not noticed: one to four bytes before the end are
    dropped without an error. *)
Theorem C55_truncated_header_refuted d : (0 < length d < 5)%nat ->
  popped (fst (rrun receiver_new [Feed d; Finish; Pop])) = [] /\ In (Done (Ok None)) (fst (rrun receiver_new [Feed d; Finish; Pop])).
Proof.
  intros L. destruct d as [|a [|b [|c [|e [|f d]]]]]; cbn [length] in L; try lia; (split; [reflexivity|]); cbn; auto.
Qed.
Print Assumptions C55_truncated_header_refuted.
(** ChangeCipherSpec records, and only they, are passed over. *)
Theorem C55_change_cipher_spec_is_skipped ws rest s : Forall wire_ok ws -> incomplete rest ->
  match find (fun w => negb (w_type w =? 20)) ws with
  | Some w => exists before after, ws = before ++ w :: after /\ Forall (fun w => w_type w = 20) before /\
      receive_record_ignore_cc {| rr_in := concat (map wire ws) ++ rest; rr_state := s |} =
      (Done (Ok (Some (as_received w))), {| rr_in := concat (map wire after) ++ rest; rr_state := s |})
  | None => receive_record_ignore_cc {| rr_in := concat (map wire ws) ++ rest; rr_state := s |} = pop_record {| rr_in := rest; rr_state := s |}
  end.
Proof.
  intros O I. assert (L : (length ws <= length (concat (map wire ws)))%nat).
  { clear O I. induction ws as [|w ws IH]; [apply Nat.le_refl|]. cbn [map concat length]. rewrite app_length, wire_length. lia. }
  unfold receive_record_ignore_cc. cbn [rr_in]. rewrite app_length. apply (pop_skips_ccs ws rest s O I). lia.
Qed.
Print Assumptions C55_change_cipher_spec_is_skipped.
(** It always comes to a result. *)
Theorem C55_no_panic r : fst (receive_record_ignore_cc r) <> Done Panic.
Proof. apply ignore_cc_not_panic. apply Nat.lt_succ_diag_r. Qed.
Print Assumptions C55_no_panic.
Definition sample_records : list wire_record :=
  [{| w_type := 20; w_version := 771; w_fragment := [1] |}; {| w_type := 23; w_version := 771; w_fragment := [7; 8; 9] |}; {| w_type := 22; w_version := 769; w_fragment := [] |}].
Example C55_sample : let d := concat (map wire sample_records) ++ [23; 3; 3; 0; 4; 1] in
  Forall wire_ok sample_records /\ incomplete [23; 3; 3; 0; 4; 1] /\
  popped (fst (rrun receiver_new [Feed (firstn 7 d); Pop; Pop; Feed (firstn 1 (skipn 7 d)); Pop; Feed (skipn 8 d); Pop; Pop; Pop])) = map as_received sample_records /\
  fst (rrun receiver_new [Feed [23; 3; 3; 65; 1]; Pop]) = [Done (Err TInvalidPlaintextRecord)] /\
  fst (rrun receiver_new [Feed [23; 3; 3; 0; 1]; Finish; Pop]) = [Done (Err TInvalidPlaintextRecord)].
Proof. split; [repeat constructor; cbn; lia|]. split; [right; cbn; lia|]. repeat split. Qed.

(** *** C56: protected records *)
(** What is sent is the record RFC 8446 prescribes, without padding. *)
Theorem C56_sent_records P k seq content ct : aead_ok P -> key_ok k -> seq < two64 ->
  encrypt_record P content ct k seq =
    if 16384 <? blen content then Err TInvalidPlaintextRecord
    else match protect P k seq (inner_plaintext content (content_type_to ct) 0) with Some raw => Ok raw | None => Err TEncryptionFailed end.
Proof.
  intros A K S. unfold encrypt_record, max_plaintext. destruct (16384 <? blen content) eqn:B; [reflexivity|].
  unfold inner_plaintext. cbn [repeat]. rewrite app_nil_r. set (inner := content ++ [content_type_to ct]).
  assert (L : blen inner = blen content + 1) by (unfold inner; rewrite blen_app; reflexivity).
  rewrite encrypt_traffic_protect by (auto; lia).
  destruct (protect P k seq inner) as [raw|] eqn:E.
  - destruct (protect_length P k seq inner raw A K E) as (c & -> & Lc & U). unfold protect in E.
    destruct (seal P (k_alg k) (k_key k) (rfc_nonce (k_iv k) seq) ([23; 3; 3] ++ be_bytes 2 (blen inner + 16)) inner) as [c'|]; [|discriminate E].
    assert (c' = c) as -> by (apply (app_inv_head ([23; 3; 3] ++ be_bytes 2 (blen inner + 16))); congruence).
    cbn [bind]. unfold encode_record. f_equal. rewrite Lc. rewrite N.mod_small by (change two16 with 65536; lia). rewrite <- app_assoc. reflexivity.
  - unfold protect in E. destruct (seal P (k_alg k) (k_key k) (rfc_nonce (k_iv k) seq) ([23; 3; 3] ++ be_bytes 2 (blen inner + 16)) inner); [discriminate E|reflexivity].
Qed.
Print Assumptions C56_sent_records.
(** A protected record, with any padding, gives back its content and type. *)
Theorem C56_round_trip P k seq content t pad raw : aead_ok P -> key_ok k -> seq < two64 ->
  0 < t -> blen content + 1 + N.of_nat pad + 16 <= 16640 ->
  protect P k seq (inner_plaintext content t pad) = Some raw ->
  decrypt_message P seq k raw =
    match message_from_raw content (content_type_from t) with Ok m => Ok (m, content) | Err _ => Err TInvalidMessageRecord | Panic => Panic end.
Proof.
  intros A K S T L E. unfold decrypt_message.
  assert (Li : blen (inner_plaintext content t pad) = blen content + 1 + N.of_nat pad).
  { unfold inner_plaintext. rewrite !blen_app. unfold blen at 2 3. rewrite repeat_length. cbn [length]. lia. }
  rewrite (decrypt_protected P k seq (inner_plaintext content t pad) raw A K S ltac:(rewrite Li; lia) E). cbn [bind]. rewrite strip_inner by lia. rewrite rev_involutive.
  destruct (message_from_raw content (content_type_from t)); reflexivity.
Qed.
Print Assumptions C56_round_trip.
(** A record with nothing but padding is refused. *)
Theorem C56_all_zero P k seq n raw : aead_ok P -> key_ok k -> seq < two64 -> N.of_nat n + 16 <= 16640 ->
  protect P k seq (repeat 0 n) = Some raw -> decrypt_message P seq k raw = Err TInvalidPlaintextRecord.
Proof.
  intros A K S L E. unfold decrypt_message. rewrite (decrypt_protected P k seq (repeat 0 n) raw A K S); [|unfold blen; rewrite repeat_length; lia|exact E].
  cbn [bind]. rewrite rev_repeat, <- (app_nil_r (repeat 0 n)), drop_zeros_repeat. reflexivity.
Qed.
Print Assumptions C56_all_zero.
(** Nothing else is accepted: what is accepted was opened by the AEAD, whole, under the nonce
    of this sequence number, with the header as additional data. *)
Theorem C56_only_what_opens P k seq raw m content : key_ok k -> seq < two64 ->
  decrypt_message P seq k raw = Ok (m, content) ->
  exists header c t pad, raw = header ++ c /\ length header = 5%nat /\ declared raw = Some (blen c) /\ blen c <= 16640 /\
    unseal P (k_alg k) (k_key k) (rfc_nonce (k_iv k) seq) header c = Some (inner_plaintext content t pad) /\
    t <> 0 /\ message_from_raw content (content_type_from t) = Ok m.
Proof.
  intros (K1 & K2 & K3) S H. unfold decrypt_message in H. apply bind_ok in H. destruct H as (plain & D & H). unfold decrypt_traffic in D.
  destruct raw as [|b0 [|b1 [|b2 [|b3 [|b4 rest]]]]]; try discriminate D. cbn [ciphertext_from_raw] in D. rewrite of_be2 in D. unfold max_ciphertext in D.
  destruct (16640 <? 256 * b3 + b4) eqn:B1; [discriminate D|]. destruct (blen rest <? 256 * b3 + b4) eqn:B2; [discriminate D|]. cbn iota in D.
  destruct (negb (5 + N.to_nat (256 * b3 + b4) =? length (b0 :: b1 :: b2 :: b3 :: b4 :: rest))%nat) eqn:B3; [discriminate D|].
  apply negb_false_iff, Nat.eqb_eq in B3. cbn [length] in B3. assert (Lr : N.to_nat (256 * b3 + b4) = length rest) by lia. rewrite Lr, firstn_all in D.
  apply map_err_ok in D. unfold decrypt_in_place in D. rewrite K1, Nat.eqb_refl in D. cbn [negb] in D. rewrite (nonce_length _ _ K2) in D.
  change (nonce_len (k_alg k)) with 12%nat in D. cbn [Nat.eqb negb] in D. rewrite (nonce_rfc _ _ K2 K3 S) in D. apply of_option_ok in D.
  destruct (drop_zeros_form (rev plain)) as (pad & F1 & F2). destruct (drop_zeros (rev plain)) as [|t body] eqn:Z0; [discriminate H|].
  apply bind_ok in H. destruct H as (m' & M & H). assert (m' = m /\ rev body = content) as [-> <-] by (split; congruence). apply map_err_ok in M.
  exists [b0; b1; b2; b3; b4], rest, t, pad. split; [reflexivity|]. split; [reflexivity|]. split; [cbn [declared]; f_equal; unfold blen; lia|]. split; [unfold blen; lia|].
  split; [|split; [intros ->; exact F2|exact M]]. cbn [firstn] in D. rewrite D. f_equal.
  rewrite <- (rev_involutive plain), F1, rev_app_distr, rev_repeat. cbn [rev]. unfold inner_plaintext. rewrite <- app_assoc. reflexivity.
Qed.
Print Assumptions C56_only_what_opens.
(** The toy AEAD satisfies what is assumed. *)
Lemma toy_aead_ok : aead_ok toy.
Proof.
  intros a k n d m c _ _ H. cbn [seal toy] in H. assert (c = m ++ toy_tag k n d m) as -> by congruence.
  assert (Lt : length (toy_tag k n d m) = 16%nat) by apply be_bytes_length. split.
  - cbn [unseal toy]. rewrite app_length, Lt. replace (length m + 16 - 16)%nat with (length m) by lia. rewrite firstn_app_length, bytes_eqb_refl. reflexivity.
  - rewrite blen_app. unfold blen at 2. rewrite Lt. reflexivity.
Qed.
Example C56_sample : key_ok toy_key /\ aead_ok toy /\
  (exists raw, protect toy toy_key 5 (inner_plaintext [104; 105; 0] 23 3) = Some raw /\ length raw = 28%nat /\
     decrypt_message toy 5 toy_key raw = Ok (MApplicationData [104; 105; 0], [104; 105; 0]) /\
     decrypt_message toy 6 toy_key raw = Err TDecryptionFailed) /\
  (exists raw, encrypt_record toy [1; 0] CtAlert toy_key 0 = Ok raw /\ decrypt_message toy 0 toy_key raw = Ok (MAlert {| a_level := AlWarning; a_description := AdCloseNotify |}, [1; 0])).
Proof.
  split; [repeat split; repeat constructor|]. split; [exact toy_aead_ok|]. split.
  - eexists. split; [vm_compute; reflexivity|]. split; [reflexivity|]. split; vm_compute; reflexivity.
  - eexists. split; [vm_compute; reflexivity|]. vm_compute. reflexivity.
Qed.

(** *** C57: nonces *)
(** The nonce is the one of RFC 8446, and an injective function of the sequence number. *)
Theorem C57_nonce_of_the_rfc iv seq : length iv = 12%nat -> bytes_ok iv -> seq < two64 -> make_nonce iv seq = rfc_nonce iv seq.
Proof. apply nonce_rfc. Qed.
Print Assumptions C57_nonce_of_the_rfc.
Theorem C57_nonce_injective iv s1 s2 : length iv = 12%nat -> bytes_ok iv -> s1 < two64 -> s2 < two64 -> make_nonce iv s1 = make_nonce iv s2 -> s1 = s2.
Proof. apply nonce_injective. Qed.
Print Assumptions C57_nonce_injective.
Example C57_sample : make_nonce (k_iv toy_key) 256 = [1; 2; 3; 4; 5; 6; 7; 8; 9; 10; 10; 12] /\ make_nonce (k_iv toy_key) 257 <> make_nonce (k_iv toy_key) 256.
Proof. split; [reflexivity|discriminate]. Qed.

(** *** C62: Finished values *)
(** A value of the hash's length is accepted exactly when it is the right one; any other
    length panics. *)
Theorem C62_when_it_panics_partial P h k thash v : (byte_len h <= length (k_raw k))%nat ->
  exists fk, derive_secret P h (k_raw k) (ascii_bytes "finished") [] = Ok fk /\
    (length v = byte_len h -> verify_finished P h k thash v = if bytes_eqb (hmac P h fk thash) v then Ok tt else Err TFinishedVerificationFailed) /\
    (length v <> byte_len h <-> verify_finished P h k thash v = Panic).
Proof.
  intros L. unfold derive_secret, hkdf_expand_label, hkdf_expand, verify_finished.
  assert ((length (k_raw k) <? byte_len h)%nat = false) as B1 by (apply Nat.ltb_ge; lia). assert ((255 * byte_len h <? byte_len h)%nat = false) as B2 by (apply Nat.ltb_ge; lia).
  unfold derive_secret, hkdf_expand_label, hkdf_expand. rewrite B1, B2. eexists. split; [reflexivity|]. cbn [internal map_err bind]. unfold hmac_verify. split.
  - intros E. rewrite E, Nat.eqb_refl. reflexivity.
  - destruct (length v =? byte_len h)%nat eqn:E.
    + apply Nat.eqb_eq in E. split; [contradiction|]. intros H. exfalso. cbn [internal map_err bind] in H. match type of H with (if ?c then _ else _) = _ => destruct c; discriminate H end.
    + apply Nat.eqb_neq in E. split; [reflexivity|intros _; exact E].
Qed.
Print Assumptions C62_when_it_panics_partial.
Theorem C62_panics_refuted : exists k thash v, verify_finished toy SHA256 k thash v = Panic.
Proof. exists toy_key, (repeat 1 32), [1; 2; 3]. reflexivity. Qed.
Print Assumptions C62_panics_refuted.
Example C62_sample : verify_finished toy SHA256 toy_key (repeat 1 32) (repeat 2 32) = Err TFinishedVerificationFailed /\
  exists fk, derive_secret toy SHA256 (k_raw toy_key) (ascii_bytes "finished") [] = Ok fk /\
             verify_finished toy SHA256 toy_key (repeat 1 32) (hmac toy SHA256 fk (repeat 1 32)) = Ok tt.
Proof. split; [vm_compute; reflexivity|]. eexists. split; vm_compute; reflexivity. Qed.
