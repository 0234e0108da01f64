(** Model of src/tls/protocol/client_state.rs and src/tls/protocol/client.rs: the TLS client.

    As in TlsRecordModel.v the primitives are parameters and the transport is an oracle.  The
    random numbers (client random, session identifier, private key) are parameters; failures
    of the random generator are left out.  A panic inside a step of the handshake is the state
    [EPanic].  Names of messages, log output and wake-ups (TlsWakeModel.v) are left out; errors are not turned
    into [io::Error]. *)
From Verif Require Import Base MplexModel BinaryModel Asn1Model X509Model TlsCodesModel TlsTypesModel TlsRecordModel.
Local Open Scope string_scope. Local Open Scope list_scope. Local Open Scope N_scope.

(** ** client_state.rs *)
(** client_state.rs:12-62 [ClientState] and its parts: what has been received; with
    CertificateVerify and Finished comes the hash of the transcript before them. *)
Inductive client_state :=
| StServerHello
| StExtensions (ee : list extension)
| StRequest (ee : list extension) (cr : certificate_request)
| StCertificate (ee : list extension) (cr : option certificate_request) (c : certificates)
| StVerify (ee : list extension) (cr : option certificate_request) (c : option certificates) (cv : certificate_verify * bytes)
| StFinished (ee : list extension) (cr : option certificate_request) (c : option certificates)
             (cv : option (certificate_verify * bytes)) (fin : bytes * bytes).
(** client_state.rs:65-174 [on_hash_and_handshake]. *)
Definition on_handshake (s : client_state) (hash : bytes) (h : handshake) : tls client_state :=
  match s, h with
  | StServerHello, HEncryptedExtensions ee => Ok (StExtensions ee)
  | StExtensions ee, HCertificateRequest cr => Ok (StRequest ee cr)
  | StExtensions ee, HCertificate c => Ok (StCertificate ee None c)
  | StExtensions ee, HCertificateVerify v => Ok (StVerify ee None None (v, hash))
  | StExtensions ee, HFinished v => Ok (StFinished ee None None None (v, hash))
  | StRequest ee cr, HCertificate c => Ok (StCertificate ee (Some cr) c)
  | StRequest ee cr, HCertificateVerify v => Ok (StVerify ee (Some cr) None (v, hash))
  | StRequest ee cr, HFinished v => Ok (StFinished ee (Some cr) None None (v, hash))
  | StCertificate ee cr c, HCertificateVerify v => Ok (StVerify ee cr (Some c) (v, hash))
  | StCertificate ee cr c, HFinished v => Ok (StFinished ee cr (Some c) None (v, hash))
  | StVerify ee cr c cv, HFinished v => Ok (StFinished ee cr c (Some cv) (v, hash))
  | _, _ => Err TUnexpectedMessage
  end.

(** ** client.rs *)
(** client.rs:76-97 [ServerAuth], [ClientKey], [ClientAuth], [ClientConfig]. *)
Inductive server_auth := SaNone | SaAuthority (cert : bytes) | SaSelfSigned.
Inductive client_key := CkRsa (k : bytes) | CkEc (k : bytes).
Inductive client_auth := CaNone | CaCertificate (cert : bytes) (k : client_key).
Record config := { cf_client : client_auth; cf_server : server_auth; cf_name : option bytes }.
(** client.rs:99-170 [make_client_hello]. *)
Definition make_client_hello (random session public : bytes) (name : option bytes) (protocols : list bytes) : client_hello :=
  {| ch_version := 0x0303; ch_random := random; ch_session := session;
     ch_suites := [CsTLSAES128GCMSHA256; CsTLSAES256GCMSHA384; CsUnknown 0x00ff];
     ch_compression := [0];
     ch_extensions :=
       [XPointFormats [PfUncompressed; PfANSIX962CompressedPrime; PfANSIX962CompressedChar2];
        XSupportedGroups [NcX25519; NcSecp256r1; NcX448; NcSecp521r1; NcSecp384r1];
        XNextProtocol []; XAlpn protocols; XEncryptThenMac; XExtendedMasterSecret; XPostHandshakeAuth;
        XSignatureAlgorithms
          [SsEcdsaSecp256r1Sha256; SsEcdsaSecp384r1Sha384; SsEcdsaSecp521r1Sha512; SsEd25519; SsEd448;
           SsRsaPssPssSha256; SsRsaPssPssSha384; SsRsaPssPssSha512;
           SsRsaPssRsaeSha256; SsRsaPssRsaeSha384; SsRsaPssRsaeSha512;
           SsRsaPkcs1Sha256; SsRsaPkcs1Sha384; SsRsaPkcs1Sha512];
        XSupportedVersions [2; 3; 4]; XPskModes [PmPskDheKe];
        XKeyShareClient [{| ks_group := NgX25519; ks_key := public |}]]
       ++ match name with Some n => [XServerName [HostName n]] | None => [] end |}.
(** client.rs:242-255 [append_handshake] and the first lines of 332-350: the encoded message. *)
Definition encode_handshake (h : handshake) : tls bytes :=
  match write_handshake h [] with
  | (Ok _, d) => Ok d
  | (Err _, _) => Err TMessageEncodingFailed
  | (Panic, _) => Panic
  end.
(** client.rs:179-192 [append_finished]: the bytes appended. *)
Definition client_finished (P : primitives) (t : transcript) (e : encryption) : tls bytes :=
  let? finished_key := internal (derive_secret P (c_hash (e_ciphers e)) (k_raw (t_client (e_secrets e))) (ascii_bytes "finished") []) in
  let? verify_data := internal (hmac_sign P (c_hash (e_ciphers e)) finished_key (get_hash P t)) in
  encode_handshake (HFinished verify_data).
(** client.rs:194-213 [append_certificate]. *)
Definition client_certificate (cert : bytes) : tls bytes :=
  let? c := map_err (fun _ => TInvalidCertificate) (certificate_from_bytes cert) in
  encode_handshake (HCertificate {| ct_context := []; ct_list := [{| en_data := cert; en_certificate := c; en_extensions := [] |}] |}).
(** client.rs:305-315 [make_verify_transcript_input]. *)
Inductive endpoint := EpClient | EpServer.
Definition verify_input (ep : endpoint) (thash : bytes) : bytes :=
  repeat 0x20 64 ++
  ascii_bytes match ep with EpClient => "TLS 1.3, client CertificateVerify" | EpServer => "TLS 1.3, server CertificateVerify" end
  ++ [0] ++ thash.
(** client.rs:215-240 [append_verify]. *)
Definition client_verify (P : primitives) (t : transcript) (k : client_key) : tls bytes :=
  let input := verify_input EpClient (get_hash P t) in
  let? cv := match k with
             | CkRsa k => let? s := rsa_sign P k input SsRsaPssRsaeSha256 in Ok {| cv_algorithm := SsRsaPssRsaeSha256; cv_signature := s |}
             | CkEc k => let? s := sign_ed25519 P k input in Ok {| cv_algorithm := SsEd25519; cv_signature := s |}
             end in
  encode_handshake (HCertificateVerify cv).
(** client.rs:275-293: the algorithm that goes with an object identifier. *)
Fixpoint oid_eqb (a b : list N) : bool :=
  match a, b with [], [] => true | x :: a, y :: b => (x =? y) && oid_eqb a b | _, _ => false end.
Definition certificate_alg (oid : list N) : option sig_alg :=
  if oid_eqb oid [1; 2; 840; 113549; 1; 1; 11] then Some (RsaPkcs1 SHA256)
  else if oid_eqb oid [1; 2; 840; 113549; 1; 1; 12] then Some (RsaPkcs1 SHA384)
  else if oid_eqb oid [1; 2; 840; 113549; 1; 1; 13] then Some (RsaPkcs1 SHA512)
  else if oid_eqb oid [1; 2; 840; 10045; 4; 3; 2] then Some EcdsaP256Sha256
  else if oid_eqb oid CRYPTO_ED25519 then Some Ed25519Sig
  else None.
(** client.rs:257-303 [verify_certificate]. *)
Definition bad_cert {E A} (r : outcome E A) : tls A := map_err (fun _ => TInvalidCertificate) r.
Definition verify_certificate (P : primitives) (ca target : bytes) : tls unit :=
  let? ca_cert := bad_cert (certificate_from_bytes ca) in
  let? item := bad_cert (fst (read_der (new_reader target))) in
  let? elements := bad_cert (as_exact_sequence item 3) in
  let? e0 := bad_cert (elem elements 0) in let? _ := bad_cert (tbs_from e0) in
  let? e1 := bad_cert (elem elements 1) in let? g := bad_cert (algorithm_from e1) in
  let? e2 := bad_cert (elem elements 2) in let? signature := bad_cert (as_bit_string e2) in
  match certificate_alg (al_oid g) with
  | None => Err TUnsupportedCertificateSignatureAlgorithm
  | Some a =>
    let? tbs_data := index_range target (item_start e0) (item_stop e0) in
    if sig_verify P a (bs_bytes (sp_key (tb_key (ce_tbs ca_cert)))) tbs_data (bs_bytes signature) then Ok tt
    else Err TVerifyCertificateFailed
  end.
(** client.rs:317-330 [verify_transcript]. *)
Definition verify_transcript (P : primitives) (cv : certificate_verify) (thash : bytes) (k : spki) (ep : endpoint) : tls unit :=
  rsa_verify P (cv_algorithm cv) (bs_bytes (sp_key k)) (verify_input ep thash) (cv_signature cv).
(** client.rs:762-773 [get_handshake_encryption]: the secret and the keys. *)
Definition handshake_encryption (P : primitives) (c : ciphers) (t : transcript) (s : server_hello) (private : bytes)
  : tls (bytes * traffic_secrets) :=
  let? secret := of_option TGetSharedSecretFailed (shared_secret P private s) in
  let? prk := internal (get_derived_prk P (c_hash c) (get_zero_prk P (c_hash c)) secret) in
  let? secrets := internal (derive_from P c t prk (ascii_bytes "hs")) in
  Ok (prk, secrets).
(** client.rs:775-783 [ServerMessages]. *)
Record server_messages := {
  sm_extensions : list extension; sm_request : option certificate_request; sm_certificate : option certificates;
  sm_verify : option (certificate_verify * bytes); sm_finished : bytes * bytes }.
(** client.rs:792-845 [ReceiveServerMessages::poll].  Fuel: each round takes a record. *)
Fixpoint receive_messages (fuel : nat) (P : primitives) (r : record_receiver) (se : sequence_encryption) (t : transcript) (s : client_state)
  : poll (tls server_messages) * record_receiver * sequence_encryption * transcript * client_state :=
  match s with
  | StFinished ee cr c cv fin =>
    (Done (Ok {| sm_extensions := ee; sm_request := cr; sm_certificate := c; sm_verify := cv; sm_finished := fin |}), r, se, t, s)
  | _ =>
    match fuel with
    | O => (Done Panic, r, se, t, s)
    | S fuel =>
      let hash := get_hash P t in
      let '(x, r', n, ts) := receive_encrypted_message P r (se_server se) (se_enc se) (Some t) in
      let se' := {| se_client := se_client se; se_server := n; se_enc := se_enc se |} in
      let t' := match ts with Some t' => t' | None => t end in
      match x with
      | Wait => (Wait, r', se', t', s)
      | Done (Err e) => (Done (Err e), r', se', t', s)
      | Done Panic => (Done Panic, r', se', t', s)
      | Done (Ok None) => (Done (Err TUnexpectedEOF), r', se', t', s)
      | Done (Ok (Some (MHandshake h))) =>
        match on_handshake s hash h with
        | Ok s' => receive_messages fuel P r' se' t' s'
        | Err e => (Done (Err e), r', se', t', s)
        | Panic => (Done Panic, r', se', t', s)
        end
      | Done (Ok (Some _)) => (Done (Err TUnexpectedMessage), r', se', t', s)
      end
    end
  end.
(** client.rs:847-906 [compute_application_secrets]. *)
Definition application_secrets (P : primitives) (t : transcript) (cfg : config) (prk : bytes) (sm : server_messages) (e : encryption)
  : tls traffic_secrets :=
  let h := c_hash (e_ciphers e) in
  let? new_prk := internal (get_derived_prk P h prk (zeros (byte_len h))) in
  let? secrets := internal (derive_from P (e_ciphers e) t new_prk (ascii_bytes "ap")) in
  let? _ := verify_finished P h (t_server (e_secrets e)) (snd (sm_finished sm)) (fst (sm_finished sm)) in
  let? first := match sm_certificate sm with
                | Some c => match ct_list c with v :: _ => Ok v | [] => Err TEmptyCertificateList end
                | None => Err TMissingCertificateMessage
                end in
  let? ca := match cf_server cfg with
             | SaNone => Err TCACertificateUnavailable
             | SaAuthority v => Ok v
             | SaSelfSigned => Ok (en_data first)
             end in
  let? _ := verify_certificate P ca (en_data first) in
  let? _ := match sm_verify sm with
            | Some (cv, thash) => verify_transcript P cv thash (tb_key (ce_tbs (en_certificate first))) EpServer
            | None => Err TMissingCertificateVerifyMessage
            end in
  Ok secrets.

(** *** The connection *)
(** client.rs:908-923 [EstablishedConnection], [new]. *)
Record connection := { cn_plain : plaintext_stream; cn_seq : sequence_encryption; cn_in : bytes; cn_read : read_state }.
Definition connection_new (p : plaintext_stream) (se : sequence_encryption) : connection :=
  {| cn_plain := p; cn_seq := se; cn_in := []; cn_read := RActive |}.
Definition set_plain (c : connection) (p : plaintext_stream) : connection :=
  {| cn_plain := p; cn_seq := cn_seq c; cn_in := cn_in c; cn_read := cn_read c |}.
Definition set_write (c : connection) (w : write_state) : connection :=
  set_plain c {| ps_receiver := ps_receiver (cn_plain c); ps_out := ps_out (cn_plain c); ps_write := w |}.
(** client.rs:925-942 [append_record]. *)
Definition append_record (P : primitives) (c : connection) (data : bytes) (ct : content_type) : tls unit * connection :=
  match encrypt_record P data ct (t_client (e_secrets (se_enc (cn_seq c)))) (se_client (cn_seq c)) with
  | Ok rec =>
    let p := cn_plain c in
    let c' := set_plain c {| ps_receiver := ps_receiver p; ps_out := ps_out p ++ rec; ps_write := ps_write p |} in
    match incr (se_client (cn_seq c)) with
    | Ok n => (Ok tt, {| cn_plain := cn_plain c';
                         cn_seq := {| se_client := n; se_server := se_server (cn_seq c); se_enc := se_enc (cn_seq c) |};
                         cn_in := cn_in c; cn_read := cn_read c |})
    | Err e => (Err e, c')
    | Panic => (Panic, c')
    end
  | Err e => (Err e, set_write c (WsError e))
  | Panic => (Panic, c)
  end.
(** client.rs:944-946 [append_application_data]; 948-960 [append_close_notify]. *)
Definition append_application_data (P : primitives) (c : connection) (data : bytes) := append_record P c data CtApplicationData.
Definition append_close_notify (P : primitives) (c : connection) :=
  append_record P c [alert_level_to AlWarning; alert_description_to AdCloseNotify] CtAlert.
(** client.rs:963-965 [poll_flush_encrypted]: also what the transport took. *)
Definition flush_encrypted (c : connection) (w : list wanswer) : poll (tls unit) * connection * list wanswer * bytes :=
  let '(x, p, w', sent) := stream_flush (cn_plain c) w in (x, set_plain c p, w', sent).
(** client.rs:972-1021: the loop of [poll_fill_incoming]; each round asks the transport. *)
Definition set_read (c : connection) (s : read_state) : connection :=
  {| cn_plain := cn_plain c; cn_seq := cn_seq c; cn_in := cn_in c; cn_read := s |}.
Definition with_receiver (c : connection) (r : record_receiver) : connection :=
  set_plain c {| ps_receiver := r; ps_out := ps_out (cn_plain c); ps_write := ps_write (cn_plain c) |}.
Definition with_server_seq (c : connection) (n : N) : connection :=
  {| cn_plain := cn_plain c; cn_seq := {| se_client := se_client (cn_seq c); se_server := n; se_enc := se_enc (cn_seq c) |};
     cn_in := cn_in c; cn_read := cn_read c |}.
Definition with_in (c : connection) (d : bytes) : connection :=
  {| cn_plain := cn_plain c; cn_seq := cn_seq c; cn_in := d; cn_read := cn_read c |}.
Fixpoint fill_loop (fuel : nat) (P : primitives) (c : connection) (answers : list answer) : poll (tls unit) * connection * list answer :=
  match fuel with
  | O => (Done Panic, c, answers)
  | S fuel =>
    let '(x, r, answers') := poll_recv (ps_receiver (cn_plain c)) answers in
    let c := with_receiver c r in
    match x with
    | Wait => (Wait, c, answers')
    | Done (Err e) => (Done (Err e), set_read c (RError e), answers')
    | Done Panic => (Done Panic, c, answers')
    | Done (Ok _) =>
      let '(x, r, n, _) := receive_encrypted_message P r (se_server (cn_seq c)) (se_enc (cn_seq c)) None in
      let c := with_server_seq (with_receiver c r) n in
      match x with
      | Wait => (Wait, c, answers')
      | Done (Err e) => (Done (Err e), c, answers')
      | Done Panic => (Done Panic, c, answers')
      | Done (Ok (Some (MHandshake (HNewSessionTicket _)))) => fill_loop fuel P c answers'
      | Done (Ok (Some (MApplicationData d))) => (Done (Ok tt), with_in c (cn_in c ++ d), answers')
      | Done (Ok (Some (MAlert a))) =>
        match a_description a with
        | AdCloseNotify => (Done (Ok tt), set_read c REof, answers')
        | _ => (Done (Err (TUnexpectedAlert a)), set_read c (RError (TUnexpectedAlert a)), answers')
        end
      | Done (Ok (Some _)) => (Done (Err TUnexpectedMessage), set_read c (RError TUnexpectedMessage), answers')
      | Done (Ok None) => (Done (Err TUnexpectedEOF), set_read c (RError TUnexpectedEOF), answers')
      end
    end
  end.
(** client.rs:967-1023 [poll_fill_incoming].  Fuel: a round takes an answer of the transport. *)
Definition fill_incoming (P : primitives) (c : connection) (answers : list answer) : poll (tls unit) * connection * list answer :=
  match cn_in c with
  | [] => fill_loop (S (length answers)) P c answers
  | _ => (Done (Ok tt), c, answers)
  end.
(** client.rs:1026-1050 [poll_read], into a buffer with room for [room] bytes. *)
Definition conn_read (P : primitives) (c : connection) (room : nat) (answers : list answer) : poll (tls bytes) * connection * list answer :=
  match cn_read c with
  | REof => (Done (Ok []), c, answers)
  | RError e => (Done (Err e), c, answers)
  | RActive =>
    let '(x, c', answers') := fill_incoming P c answers in
    match x with
    | Wait => (Wait, c', answers')
    | Done (Err e) => (Done (Err e), c', answers')
    | Done Panic => (Done Panic, c', answers')
    | Done (Ok _) =>
      let amt := Nat.min (length (cn_in c')) room in
      (Done (Ok (firstn amt (cn_in c'))), with_in c' (skipn amt (cn_in c')), answers')
    end
  end.
(** client.rs:1052-1080 [poll_write]. *)
Definition conn_write (P : primitives) (c : connection) (data : bytes) (w : list wanswer) : poll (tls nat) * connection * list wanswer * bytes :=
  match ps_write (cn_plain c) with
  | WsError e => (Done (Err e), c, w, [])
  | WsShutdown => (Done (Err (TIo BrokenPipe)), c, w, [])
  | WsActive =>
    let '(x, c, w, sent) := flush_encrypted c w in
    match x with
    | Done (Err e) => (Done (Err e), c, w, sent)
    | Done Panic => (Done Panic, c, w, sent)
    | Wait => (Wait, c, w, sent)
    | Done (Ok _) =>
      let amt := Nat.min (length data) (N.to_nat max_plaintext) in
      match append_application_data P c (firstn amt data) with
      | (Ok _, c) => (Done (Ok amt), c, w, sent)
      | (Err e, c) => (Done (Err e), c, w, sent)
      | (Panic, c) => (Done Panic, c, w, sent)
      end
    end
  end.
(** client.rs:1082-1099 [poll_flush]. *)
Definition conn_flush (c : connection) (w : list wanswer) : poll (tls unit) * connection * list wanswer * bytes :=
  match ps_write (cn_plain c) with
  | WsError e => (Done (Err e), c, w, [])
  | WsShutdown => (Done (Err (TIo BrokenPipe)), c, w, [])
  | WsActive => flush_encrypted c w
  end.
(** client.rs:1125-1143: the second half of [poll_shutdown]; the answer to the transport's
    [poll_shutdown] comes after those to its writes. *)
Definition shutdown_rest (c : connection) (w : list wanswer) : poll (tls unit) * connection * list wanswer * bytes :=
  let '(x, c, w, sent) := flush_encrypted c w in
  match x with
  | Wait => (Wait, c, w, sent)
  | Done (Err e) => (Done (Err e), c, w, sent)
  | Done Panic => (Done Panic, c, w, sent)
  | Done (Ok _) =>
    match w with
    | [] => (Wait, c, [], sent)
    | WPending :: w => (Wait, c, w, sent)
    | WError e :: w => (Done (Err (TIo e)), c, w, sent)
    | WOk _ :: w => (Done (Ok tt), set_write c (WsError (TIo BrokenPipe)), w, sent)
    end
  end.
(** client.rs:1101-1144 [poll_shutdown]. *)
Definition conn_shutdown (P : primitives) (c : connection) (w : list wanswer) : poll (tls unit) * connection * list wanswer * bytes :=
  match ps_write (cn_plain c) with
  | WsError e => (Done (Err e), c, w, [])
  | WsShutdown => shutdown_rest c w
  | WsActive =>
    match append_close_notify P c with
    | (Err e, c) => (Done (Err e), c, w, [])
    | (Panic, c) => (Done Panic, c, w, [])
    | (Ok _, c) => shutdown_rest (set_write c WsShutdown) w
    end
  end.

(** *** The handshake *)
(** client.rs:404-411 [ECState] with 521-526, 551-556, 615-622, 718-722, 753-755. *)
Inductive ec_state :=
| EBegin (cfg : config) (private : bytes) (ts : bytes) (p : plaintext_stream)
| EHelloSent (cfg : config) (private : bytes) (ts : bytes) (p : plaintext_stream)
| EHelloReceived (cfg : config) (p : plaintext_stream) (se : sequence_encryption) (t : transcript) (prk : bytes) (s : client_state)
| EMessagesReceived (p : plaintext_stream) (se : sequence_encryption) (secrets : traffic_secrets)
| EDone (c : connection)
| EError (e : tls_error)
| EPanic.
(** A [match] that returns [ECState::Error] on an error. *)
Definition ec_try {A} (r : tls A) (k : A -> ec_state) : ec_state :=
  match r with Ok a => k a | Err e => EError e | Panic => EPanic end.
(** client.rs:486-519 [make_initial_state] with 332-350 [append_plaintext_handshake]; 352-366
    [establish_connection]. *)
Definition establish (P : primitives) (random session private : bytes) (cfg : config) (protocols : list bytes) : ec_state :=
  ec_try (encode_handshake (HClientHello (make_client_hello random session (public_of P private) (cf_name cfg) protocols)))
    (fun fragment => EBegin cfg private fragment
       {| ps_receiver := receiver_new; ps_out := encode_record CtHandshake 0x0301 fragment; ps_write := WsActive |}).
(** client.rs:571-612 [AfterSendClientHello::on_opt_message]. *)
Definition on_server_hello (P : primitives) (cfg : config) (private ts : bytes) (p : plaintext_stream) (m : option message) : ec_state :=
  match m with
  | Some (MHandshake (HServerHello sh)) =>
    ec_try (ciphers_from sh) (fun c =>
    let t := {| ts_alg := c_hash c; ts_data := ts |} in
    ec_try (handshake_encryption P c t sh private) (fun '(prk, secrets) =>
    EHelloReceived cfg p {| se_client := 0; se_server := 0; se_enc := {| e_secrets := secrets; e_ciphers := c |} |} t prk StServerHello))
  | Some _ => EError TUnexpectedMessage
  | None => EError TUnexpectedEOF
  end.
(** client.rs:668-715 [on_server_messages]. *)
Definition on_server_messages (P : primitives) (cfg : config) (p : plaintext_stream) (se : sequence_encryption) (t : transcript)
  (prk : bytes) (sm : server_messages) : ec_state :=
  ec_try (application_secrets P t cfg prk sm (se_enc se)) (fun secrets =>
  ec_try (match cf_client cfg with
          | CaNone => Ok ([], t)
          | CaCertificate cert k =>
            let? c := client_certificate cert in
            let? v := client_verify P (transcript_update t c) k in
            Ok (c ++ v, transcript_update (transcript_update t c) v)
          end) (fun '(out, t) =>
  ec_try (client_finished P t (se_enc se)) (fun fin =>
  ec_try (encrypt_record P (out ++ fin) CtHandshake (t_client (e_secrets (se_enc se))) (se_client se)) (fun rec =>
  ec_try (incr (se_client se)) (fun n =>
  EMessagesReceived {| ps_receiver := ps_receiver p; ps_out := ps_out p ++ rec; ps_write := ps_write p |}
    {| se_client := n; se_server := se_server se; se_enc := se_enc se |} secrets))))).
(** client.rs:737-750 [AfterReceiveServerMessages::on_data_sent]. *)
Definition on_finished_sent (p : plaintext_stream) (se : sequence_encryption) (secrets : traffic_secrets) : ec_state :=
  EDone (connection_new p
    {| se_client := 0; se_server := 0; se_enc := {| e_secrets := secrets; e_ciphers := e_ciphers (se_enc se) |} |}).
(** client.rs:428-449 [poll_step] with 529-535, 559-565, 625-662, 725-731: whether it is ready,
    the next state, the answers left and what was sent. *)
Definition poll_step (P : primitives) (s : ec_state) (w : list wanswer) : bool * ec_state * list wanswer * bytes :=
  match s with
  | EBegin cfg private ts p =>
    let '(x, p, w, sent) := stream_flush p w in
    match x with
    | Done (Ok _) => (true, EHelloSent cfg private ts p, w, sent)
    | Done (Err e) => (true, EError e, w, sent)
    | Done Panic => (true, EPanic, w, sent)
    | Wait => (false, EBegin cfg private ts p, w, sent)
    end
  | EHelloSent cfg private ts p =>
    let '(x, r, ts) := receive_plaintext_message (ps_receiver p) ts in
    let p := {| ps_receiver := r; ps_out := ps_out p; ps_write := ps_write p |} in
    match x with
    | Done (Ok m) => (true, on_server_hello P cfg private ts p m, w, [])
    | Done (Err e) => (true, EError e, w, [])
    | Done Panic => (true, EPanic, w, [])
    | Wait => (false, EHelloSent cfg private ts p, w, [])
    end
  | EHelloReceived cfg p se t prk st =>
    let '(x, r, se, t, st) := receive_messages (S (length (rr_in (ps_receiver p)))) P (ps_receiver p) se t st in
    let p := {| ps_receiver := r; ps_out := ps_out p; ps_write := ps_write p |} in
    match x with
    | Done (Ok sm) => (true, on_server_messages P cfg p se t prk sm, w, [])
    | Done (Err e) => (true, EError e, w, [])
    | Done Panic => (true, EPanic, w, [])
    | Wait => (false, EHelloReceived cfg p se t prk st, w, [])
    end
  | EMessagesReceived p se secrets =>
    let '(x, p, w, sent) := stream_flush p w in
    match x with
    | Done (Ok _) => (true, on_finished_sent p se secrets, w, sent)
    | Done (Err e) => (true, EError e, w, sent)
    | Done Panic => (true, EPanic, w, sent)
    | Wait => (false, EMessagesReceived p se secrets, w, sent)
    end
  | other => (true, other, w, [])
  end.
(** client.rs:451-484 [want_recv], [do_poll_recv]: in two states the transport is asked for
    more first; [None]: nothing is asked. *)
Definition ec_recv (s : ec_state) (answers : list answer) : option (poll (tls unit) * ec_state * list answer) :=
  match s with
  | EHelloSent cfg private ts p =>
    let '(x, r, answers) := poll_recv (ps_receiver p) answers in
    Some (x, EHelloSent cfg private ts {| ps_receiver := r; ps_out := ps_out p; ps_write := ps_write p |}, answers)
  | EHelloReceived cfg p se t prk st =>
    let '(x, r, answers) := poll_recv (ps_receiver p) answers in
    Some (x, EHelloReceived cfg {| ps_receiver := r; ps_out := ps_out p; ps_write := ps_write p |} se t prk st, answers)
  | _ => None
  end.
(** client.rs:375-401 [EstablishConnection::poll]: the result, the state kept (none when it is
    over), the answers left, what was sent.  Fuel: a state is left at most once. *)
Fixpoint ec_poll (fuel : nat) (P : primitives) (s : ec_state) (answers : list answer) (w : list wanswer)
  : poll (tls connection) * option ec_state * list answer * list wanswer * bytes :=
  match fuel with
  | O => (Done Panic, None, answers, w, [])
  | S fuel =>
    match s with
    | EDone c => (Done (Ok c), None, answers, w, [])
    | EError e => (Done (Err e), None, answers, w, [])
    | EPanic => (Done Panic, None, answers, w, [])
    | _ =>
      let step s answers :=
        let '(ready, s, w, sent) := poll_step P s w in
        if ready then let '(x, s, answers, w, more) := ec_poll fuel P s answers w in (x, s, answers, w, sent ++ more)
        else (Wait, Some s, answers, w, sent) in
      match ec_recv s answers with
      | Some (Done (Err e), s, answers) => (Done (Err e), None, answers, w, [])
      | Some (_, s, answers) => step s answers
      | None => step s answers
      end
    end
  end.
Definition establish_poll (P : primitives) (s : ec_state) (answers : list answer) (w : list wanswer) := ec_poll 7 P s answers w.
