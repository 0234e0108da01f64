(** Proofs for C113: every check of the client accepts what an authentic server sent. *)
From Verif Require Import Base BaseProofs MplexModel BinaryModel BinaryProofs MessageProofs MessageProofs2 ProtobufProofs Asn1Model X509Model TlsCodesModel TlsTypesModel
  TlsTypesSpec TlsTypesProofs TlsTypesProofs2 TlsTypesProofs3 TlsRecordModel TlsRecordSpec TlsRecordProofs TlsRecordProps TlsClientModel TlsClientSpec TlsClientProofs TlsClientProofs2 TlsClientProofs3 TlsHonestProofs.
Local Open Scope string_scope. Local Open Scope list_scope. Local Open Scope N_scope.
Ltac Zify.zify_post_hook ::= Z.div_mod_to_equations.

(** *** Keys *)
Lemma byte_len_small h : (12 <= byte_len h)%nat /\ (byte_len h <= 64)%nat.
Proof. destruct h; cbn; lia. Qed.
Lemma label_total P h prk lb label ctx len : lb = ascii_bytes label -> blen (ascii_bytes "tls13 " ++ ascii_bytes label) < 256 -> blen ctx < 256 -> (length prk >= byte_len h)%nat -> (len <= 64)%nat ->
  hkdf_expand_label P h prk lb ctx len = Ok (expand_label P h prk label ctx len).
Proof.
  intros -> L1 L2 L3 L4. unfold hkdf_expand_label, hkdf_expand, expand_label. pose proof (byte_len_small h). destruct (length prk <? byte_len h)%nat eqn:B1; [lia|].
  destruct (255 * byte_len h <? len)%nat eqn:B2; [lia|]. rewrite !N.mod_small by (change two16 with 65536 || change two8 with 256; lia). reflexivity.
Qed.
Lemma key_total P raw h a : (length raw >= byte_len h)%nat ->
  key_new P raw h a = Ok {| k_raw := raw; k_alg := a; k_key := expand_label P h raw "key" [] (key_len a); k_iv := expand_label P h raw "iv" [] 12 |}.
Proof.
  intros L. unfold key_new. rewrite (label_total P h raw _ "key" [] (key_len a) eq_refl ltac:(reflexivity) ltac:(reflexivity) L ltac:(destruct a; cbn; lia)). cbn [bind].
  rewrite (label_total P h raw _ "iv" [] 12 eq_refl ltac:(reflexivity) ltac:(reflexivity) L ltac:(lia)). reflexivity.
Qed.
Lemma expand_length P h s l c n : sizes_ok P -> length (expand_label P h s l c n) = n.
Proof. intros (_ & _ & A). apply A. Qed.
Lemma derived_total P h prk secret : sizes_ok P -> (length prk >= byte_len h)%nat -> get_derived_prk P h prk secret = Ok (next_secret P h prk secret) /\ length (next_secret P h prk secret) = byte_len h.
Proof.
  intros S L. unfold get_derived_prk, derive_secret. pose proof (byte_len_small h).
  rewrite (label_total P h prk _ "derived" (digest P h []) (byte_len h) eq_refl ltac:(reflexivity) (digest_small P h [] S) L ltac:(lia)). split; [reflexivity|].
  unfold next_secret. apply S.
Qed.
Lemma derive_total P c t prk label lc ls : sizes_ok P -> ts_alg t = c_hash c -> (length prk >= byte_len (c_hash c))%nat ->
  ascii_bytes lc = ascii_bytes "c " ++ ascii_bytes label ++ ascii_bytes " traffic" -> ascii_bytes ls = ascii_bytes "s " ++ ascii_bytes label ++ ascii_bytes " traffic" ->
  blen (ascii_bytes label) < 200 ->
  derive_from P c t prk (ascii_bytes label) =
    Ok {| t_client := traffic_key P (c_hash c) (c_aead c) prk lc (ts_data t); t_server := traffic_key P (c_hash c) (c_aead c) prk ls (ts_data t) |}.
Proof.
  intros S T L E1 E2 Ll. unfold derive_from, derive_secret, get_hash. rewrite T. pose proof (byte_len_small (c_hash c)).
  rewrite (label_total P (c_hash c) prk _ lc (digest P (c_hash c) (ts_data t)) (byte_len (c_hash c)) (eq_sym E1) ltac:(rewrite E1, !blen_app; change (blen (ascii_bytes "tls13 ")) with 6; change (blen (ascii_bytes "c ")) with 2; change (blen (ascii_bytes " traffic")) with 8; lia)
    (digest_small P _ _ S) L ltac:(lia)). cbn [bind].
  rewrite key_total by (rewrite expand_length by exact S; lia). cbn [bind].
  rewrite (label_total P (c_hash c) prk _ ls (digest P (c_hash c) (ts_data t)) (byte_len (c_hash c)) (eq_sym E2) ltac:(rewrite E2, !blen_app; change (blen (ascii_bytes "tls13 ")) with 6; change (blen (ascii_bytes "s ")) with 2; change (blen (ascii_bytes " traffic")) with 8; lia)
    (digest_small P _ _ S) L ltac:(lia)). cbn [bind].
  rewrite key_total by (rewrite expand_length by exact S; lia). reflexivity.
Qed.
Lemma share_total l k : (exists before x after, l = before ++ x :: after /\ is_share x k /\ Forall (fun y => forall k', ~ is_share y k') before) -> x25519_share l = Some k.
Proof.
  intros (before & x & after & -> & X & F). induction F as [|y before Y F IH]; cbn [app x25519_share].
  - rewrite X. reflexivity.
  - destruct y as [ | | | | | | | | | | | | | |[g q]| ]; try exact IH. cbn [ks_group ks_key]. destruct g; try exact IH. destruct (Y q). reflexivity.
Qed.
Lemma hs_length P h secret : sizes_ok P -> length (handshake_secret P h secret) = byte_len h.
Proof. intros S. unfold handshake_secret, next_secret. apply S. Qed.
Lemma hello_honest P cfg private hello p b0 sh h a share secret : sizes_ok P -> suite_of (sh_suite sh) h a -> share_of sh share -> agree P private share = Some secret ->
  on_server_hello P cfg private (hello ++ b0) p (Some (MHandshake (HServerHello sh))) =
    EHelloReceived cfg p
      {| se_client := 0; se_server := 0; se_enc := {| e_secrets := {| t_client := traffic_key P h a (handshake_secret P h secret) "c hs traffic" (hello ++ b0);
           t_server := traffic_key P h a (handshake_secret P h secret) "s hs traffic" (hello ++ b0) |}; e_ciphers := {| c_hash := h; c_aead := a |} |} |}
      {| ts_alg := h; ts_data := hello ++ b0 |} (handshake_secret P h secret) StServerHello.
Proof.
  intros S Su Sh Ag. unfold on_server_hello. assert (C : ciphers_from sh = Ok {| c_hash := h; c_aead := a |}) by (unfold ciphers_from; destruct Su as [(-> & -> & ->)|(-> & -> & ->)]; reflexivity).
  rewrite C. cbn [ec_try c_hash]. unfold handshake_encryption, shared_secret. rewrite (share_total _ _ Sh), Ag. cbn [of_option bind c_hash].
  assert (Lz : length (get_zero_prk P h) = byte_len h) by (unfold get_zero_prk; apply S).
  destruct (derived_total P h (get_zero_prk P h) secret S ltac:(lia)) as [D1 D2]. rewrite D1. cbn [internal map_err bind].
  rewrite (derive_total P {| c_hash := h; c_aead := a |} {| ts_alg := h; ts_data := hello ++ b0 |} (next_secret P h (get_zero_prk P h) secret) "hs" "c hs traffic" "s hs traffic" S eq_refl ltac:(cbn [c_hash]; lia) eq_refl eq_refl ltac:(reflexivity)).
  reflexivity.
Qed.

(** *** Certificates *)
Lemma rbind_ok {A B} (m : rd A) (k : A -> rd B) r b r' : rbind m k r = (Ok b, r') -> exists a r1, m r = (Ok a, r1) /\ k a r1 = (Ok b, r').
Proof. unfold rbind. destruct (m r) as [[a|e|] r1]; intros H; try discriminate H. eauto. Qed.
Lemma list_loop_all {A} (Q : A -> Prop) (item : rd A) : (forall r a r', item r = (Ok a, r') -> Q a) ->
  forall fuel r l, list_loop fuel item r = Some (Ok l) -> Forall Q l.
Proof.
  intros HQ. induction fuel as [|fuel IH]; intros r l H; [discriminate H|]. cbn [list_loop] in H.
  destruct (0 <? remaining r)%nat; [|injection H as <-; constructor].
  destruct (item r) as [[a|e|] r1] eqn:E; try discriminate H. destruct (r_off r =? r_off r1)%nat; [discriminate H|].
  destruct (list_loop fuel item r1) as [[l1|e|]|] eqn:E1; try discriminate H. injection H as <-. constructor; [exact (HQ _ _ _ E)|exact (IH _ _ E1)].
Qed.
Lemma entry_certificate r e r' : read_certificate_entry r = (Ok e, r') -> certificate_from_bytes (en_data e) = Ok (en_certificate e).
Proof.
  unfold read_certificate_entry. intros H. apply rbind_ok in H. destruct H as (d & r1 & _ & H). apply rbind_ok in H. destruct H as (c & r2 & H1 & H).
  apply rbind_ok in H. destruct H as (x & r3 & _ & H). unfold rret in H. injection H as <- _. cbn [en_data en_certificate]. unfold rlift in H1.
  destruct (certificate_from_bytes d); injection H1; congruence.
Qed.
Lemma certificates_in content c : handshake_in content (HCertificate c) -> Forall (fun e => certificate_from_bytes (en_data e) = Ok (en_certificate e)) (ct_list c).
Proof.
  unfold handshake_in, message_from_raw. intros H. apply bind_ok in H. destruct H as (hs & H & E). assert (hs = HCertificate c) as -> by congruence. clear E.
  destruct (read_handshake (new_reader content)) as [x r'] eqn:R. cbn [fst] in H. subst x. unfold read_handshake in R. apply rbind_ok in R. destruct R as (t & r1 & _ & R).
  unfold read_handshake_body in R. apply rbind_ok in R. destruct R as (len & r2 & _ & R).
  assert (Other : forall (A : Type) (m : rd A) (f : A -> handshake), (forall a, f a <> HCertificate c) -> (do x <- m; rret (f x)) r2 = (Ok (HCertificate c), r') -> False).
  { intros A m f Nf X. apply rbind_ok in X. destruct X as (y & r3 & _ & X). unfold rret in X. injection X as X _. exact (Nf _ X). }
  repeat match type of R with (if ?b then _ else _) _ = _ => destruct b end;
    try (exfalso; refine (Other _ _ _ _ R); intros ?; discriminate); try discriminate R.
  apply rbind_ok in R. destruct R as (c' & r3 & R & E). unfold rret in E. injection E as -> _. unfold read_certificates in R.
  apply rbind_ok in R. destruct R as (cx & r4 & _ & R). apply rbind_ok in R. destruct R as (l & r5 & R & E). unfold rret in E. injection E as <- _. cbn [ct_list].
  unfold read_len24_list in R. apply rbind_ok in R. destruct R as (n & r6 & _ & R). unfold read_fixed_list in R. apply rbind_ok in R. destruct R as (inner & r7 & _ & R). unfold rlift in R.
  destruct (list_loop (S (remaining inner)) read_certificate_entry inner) as [o|] eqn:Lp; [|discriminate R]. assert (o = Ok l) as -> by (injection R; congruence).
  exact (list_loop_all _ _ entry_certificate _ _ _ Lp).
Qed.
Lemma oid_eqb_refl o : oid_eqb o o = true.
Proof. induction o as [|x o IH]; [reflexivity|]. cbn [oid_eqb]. rewrite N.eqb_refl, IH. reflexivity. Qed.
Lemma range_total {A} (before x after : list A) : get_range (before ++ x ++ after) (length before) (length (before ++ x)) = Some x.
Proof.
  unfold get_range. rewrite !app_length. destruct (length before <=? length before + length x)%nat eqn:B1; [|lia].
  destruct (length before + length x <=? length before + (length x + length after))%nat eqn:B2; [|lia]. cbn [andb]. f_equal.
  replace (length before + length x - length before)%nat with (length x) by lia. rewrite skipn_app_length, firstn_app_length. reflexivity.
Qed.
Lemma certificate_honest P ca cert parsed : certificate_from_bytes cert = Ok parsed -> issued_by P ca cert -> verify_certificate P ca cert = Ok tt.
Proof.
  intros Cp (ic & item & ti & ai & si & g & a & unused & sg & signed & H1 & H2 & H3 & H4 & H5 & H6 & (before & after & H7 & H8 & H9) & H10).
  unfold verify_certificate, bad_cert. rewrite H1, H2. cbn [map_err bind]. unfold as_exact_sequence, as_sequence. rewrite H3. cbn [bind length Nat.eqb negb map_err elem nth_error].
  unfold certificate_from_bytes in Cp. rewrite H2 in Cp. unfold certificate_from, as_exact_sequence, as_sequence in Cp. rewrite H3 in Cp. cbn [bind length Nat.eqb negb elem nth_error] in Cp.
  destruct (tbs_from ti) as [tb|e|]; try discriminate Cp. cbn [bind map_err]. rewrite H4. cbn [bind map_err]. unfold as_bit_string. rewrite H5. cbn [bind map_err].
  assert (Ca : certificate_alg (al_oid g) = Some a).
  { cbn [In] in H6. repeat destruct H6 as [H6|H6]; try contradiction; injection H6 as <- <-; reflexivity. }
  rewrite Ca. unfold index_range. rewrite H7, H8, H9, range_total. cbn [bind bs_bytes]. rewrite H10. reflexivity.
Qed.
Lemma signature_honest P k hash cv (key_info : spki) : bs_bytes (sp_key key_info) = k -> signed_by P k "TLS 1.3, server CertificateVerify" hash cv ->
  verify_transcript P cv hash key_info EpServer = Ok tt.
Proof.
  intros <- (a & H1 & H2). unfold verify_transcript, rsa_verify. assert (Sc : scheme_alg (cv_algorithm cv) = Some a).
  { cbn [In] in H1. repeat destruct H1 as [H1|H1]; try contradiction; injection H1 as <- <-; reflexivity. }
  rewrite Sc. unfold verify_input. rewrite H2. reflexivity.
Qed.
Lemma finished_honest P h k thash : sizes_ok P -> (forall h k d, length (hmac P h k d) = byte_len h) -> (length (k_raw k) >= byte_len h)%nat ->
  verify_finished P h k thash (hmac P h (expand_label P h (k_raw k) "finished" [] (byte_len h)) thash) = Ok tt.
Proof.
  intros S M L. unfold verify_finished, derive_secret. pose proof (byte_len_small h). rewrite (label_total P h (k_raw k) _ "finished" [] (byte_len h) eq_refl ltac:(reflexivity) ltac:(reflexivity) L ltac:(lia)).
  cbn [internal map_err bind]. unfold hmac_verify. rewrite M, Nat.eqb_refl. cbn [internal map_err bind]. rewrite bytes_eqb_refl. reflexivity.
Qed.
Lemma application_honest P cfg h a secret t ck k prk ee cr certs leaf more cv vh fin fh ca : sizes_ok P -> (forall h k d, length (hmac P h k d) = byte_len h) ->
  ts_alg t = h -> prk = handshake_secret P h secret -> (length (k_raw k) >= byte_len h)%nat ->
  fin = hmac P h (expand_label P h (k_raw k) "finished" [] (byte_len h)) fh ->
  ct_list certs = leaf :: more -> certificate_from_bytes (en_data leaf) = Ok (en_certificate leaf) -> trusted cfg (en_data leaf) ca -> issued_by P ca (en_data leaf) ->
  signed_by P (bs_bytes (sp_key (tb_key (ce_tbs (en_certificate leaf))))) "TLS 1.3, server CertificateVerify" vh cv ->
  application_secrets P t cfg prk {| sm_extensions := ee; sm_request := cr; sm_certificate := Some certs; sm_verify := Some (cv, vh); sm_finished := (fin, fh) |}
    {| e_secrets := {| t_client := ck; t_server := k |}; e_ciphers := {| c_hash := h; c_aead := a |} |} =
  Ok {| t_client := traffic_key P h a (master_secret P h secret) "c ap traffic" (ts_data t); t_server := traffic_key P h a (master_secret P h secret) "s ap traffic" (ts_data t) |}.
Proof.
  intros S M T Ep Lk Ef El Ec Tr Is Sg. unfold application_secrets. cbn [e_ciphers c_hash e_secrets t_server sm_finished fst snd sm_certificate sm_verify].
  assert (Lp : length prk = byte_len h) by (rewrite Ep; apply hs_length; exact S).
  destruct (derived_total P h prk (zeros (byte_len h)) S ltac:(lia)) as [D1 D2]. rewrite D1. cbn [internal map_err bind].
  rewrite (derive_total P {| c_hash := h; c_aead := a |} t (next_secret P h prk (zeros (byte_len h))) "ap" "c ap traffic" "s ap traffic" S T ltac:(cbn [c_hash]; lia) eq_refl eq_refl ltac:(reflexivity)). cbn [internal map_err bind c_hash c_aead].
  rewrite Ef, (finished_honest P h k fh S M Lk). cbn [bind]. rewrite El. cbn [bind].
  assert (Ca : match cf_server cfg with SaNone => Err TCACertificateUnavailable | SaAuthority v => Ok v | SaSelfSigned => Ok (en_data leaf) end = (Ok ca : tls bytes)).
  { destruct Tr as [->|[-> ->]]; reflexivity. }
  rewrite Ca. cbn [bind]. rewrite (certificate_honest P ca (en_data leaf) _ Ec Is). cbn [bind]. rewrite (signature_honest P _ vh cv _ eq_refl Sg). cbn [bind].
  unfold master_secret. rewrite <- Ep. reflexivity.
Qed.

(** *** What the client sends *)
Lemma message_encoded m d : handshake_ok m -> handshake_writable m -> handshake_fits m -> is_message d m -> encode_handshake m = Ok d.
Proof.
  intros O W F (t & b & E & ->). unfold encode_handshake. destruct (write_handshake_ok m t b [] O W E) as [[_ X]|[B _]]; [rewrite X; reflexivity|contradiction].
Qed.
Lemma flight_honest P cfg h ck k a t content : sizes_ok P -> ts_alg t = h -> (length (k_raw ck) >= byte_len h)%nat ->
  client_flight P cfg h ck (ts_data t) content -> blen content <= 16384 ->
  exists out fin t', content = out ++ fin /\
    match cf_client cfg with
    | CaNone => Ok ([], t)
    | CaCertificate cert k =>
      let? c := client_certificate cert in let? v := client_verify P (transcript_update t c) k in
      Ok (c ++ v, transcript_update (transcript_update t c) v)
    end = Ok (out, t') /\
    client_finished P t' {| e_secrets := {| t_client := ck; t_server := k |}; e_ciphers := {| c_hash := h; c_aead := a |} |} = Ok fin.
Proof.
  intros S T Lk (out & fin & -> & Mf & Mo) B.
  assert (Fin : forall t', ts_alg t' = h -> ts_data t' = ts_data t ++ out ->
    client_finished P t' {| e_secrets := {| t_client := ck; t_server := k |}; e_ciphers := {| c_hash := h; c_aead := a |} |} = Ok fin).
  { intros t' T1 T2. unfold client_finished. cbn [e_ciphers c_hash e_secrets t_client]. unfold derive_secret. pose proof (byte_len_small h).
    rewrite (label_total P h (k_raw ck) _ "finished" [] (byte_len h) eq_refl ltac:(reflexivity) ltac:(reflexivity) Lk ltac:(lia)). cbn [internal map_err bind hmac_sign].
    unfold get_hash. rewrite T1, T2. apply message_encoded; [exact Logic.I|exact Logic.I|exact Logic.I|exact Mf]. }
  destruct (cf_client cfg) as [|cert ky].
  - subst out. exists [], fin, t. split; [reflexivity|]. split; [reflexivity|]. apply Fin; [exact T|rewrite app_nil_r; reflexivity].
  - destruct Mo as (c & v & parsed & cv & -> & Pc & Mc & Mv & Sg). rewrite !blen_app in B.
    exists (c ++ v), fin, (transcript_update (transcript_update t c) v). split; [reflexivity|].
    assert (Ec : client_certificate cert = Ok c).
    { unfold client_certificate. rewrite Pc. cbn [map_err bind]. apply message_encoded; [cbn; repeat constructor; exact Pc|cbn; repeat constructor| |exact Mc].
      destruct Mc as (tc & bc & Ep & ->). cbn [handshake_parts ct_context ct_list map] in Ep. apply some_pair in Ep. destruct Ep as [<- <-].
      unfold handshake_bytes, vecs, entry_bytes, vec in B. cbn [en_data en_extensions map concat] in B. rewrite blen_cons, !blen_app in B.
      cbn [handshake_fits ct_context ct_list map concat]. unfold fit, entry_bytes, extensions_fit, extensions_bytes, fit, vecs, vec. cbn [en_data en_extensions map concat]. rewrite !blen_app.
      change (256 ^ N.of_nat 1) with 256. change (256 ^ N.of_nat 3) with 16777216. change (256 ^ N.of_nat 2) with 65536. 
      change (blen (be_bytes 3 (blen cert))) with 3. change (blen (be_bytes 2 (blen []))) with 2. change (blen []) with 0.
      assert (Bc : blen cert <= 16384).
      { clear - B. repeat match type of B with context [blen (be_bytes ?a ?b)] => generalize dependent (blen (be_bytes a b)); intros end. lia. }
      split; [lia|]. split; [|lia]. constructor; [|constructor]. split; [change (blen cert < 16777216); lia|]. split; [constructor|reflexivity]. }
    assert (Ev : client_verify P (transcript_update t c) ky = Ok v).
    { unfold client_verify, get_hash. cbn [ts_alg ts_data transcript_update]. rewrite T. unfold verify_input. unfold client_signed in Sg. cbv zeta in Sg.
      assert (Fv : handshake_fits (HCertificateVerify cv)).
      { destruct Mv as (tc & bc & Ep & ->). cbn [handshake_parts] in Ep. apply some_pair in Ep. destruct Ep as [<- <-]. unfold handshake_bytes, vec in B. rewrite !blen_cons, !blen_app in B.
        cbn [handshake_fits]. unfold fit. change (256 ^ N.of_nat 2) with 65536. lia. }
      destruct ky as [kk|kk]; destruct Sg as [S1 S2]; [unfold rsa_sign|]; rewrite S2; cbn [bind];
        (match goal with |- encode_handshake (HCertificateVerify ?x) = _ => assert (x = cv) as -> by (destruct cv; cbn in *; congruence) end);
        (apply message_encoded; [left; rewrite S1; cbn; tauto|exact Logic.I|exact Fv|exact Mv]). }
    rewrite Ec. cbn [bind]. rewrite Ev. cbn [bind]. split; [reflexivity|]. apply Fin; [exact T|]. cbn [ts_data transcript_update]. rewrite app_assoc. reflexivity.
Qed.
