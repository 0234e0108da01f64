(** Model of what a failed TLS connection tells: src/tls/error.rs and src/crypto/error.rs (the
    texts), with the names that [UnexpectedMessage] carries, which TlsClientModel.v leaves out:
    src/tls/protocol/client_state.rs 65-174 and client.rs 375-449, 571-612, 792-845, 967-1050.
    The other steps are those of TlsClientModel.v.  The texts of [std::io::ErrorKind] and of
    ring's [KeyRejected] are given. *)
From Coq Require Import String Ascii.
From Verif Require Import Base MplexModel BinaryModel Asn1Model X509Model TlsCodesModel TlsTypesModel TlsRecordModel TlsClientModel
  ChatModel NamesModel DebugModel.
Local Open Scope string_scope. Local Open Scope list_scope. Local Open Scope N_scope.

(** error.rs:8-39 [TLSError]: [FUnexpected] is [UnexpectedMessage] with its name, the others
    are those of [tls_error]. *)
Inductive full_error := FUnexpected (name : string) | FOther (e : tls_error).
(** What TlsClientModel.v keeps of an error. *)
Definition erase (e : full_error) : tls_error := match e with FUnexpected _ => TUnexpectedMessage | FOther e => e end.
Definition full (A : Type) := outcome full_error A.

(** client_state.rs:65-174 [on_hash_and_handshake]. *)
Definition on_handshake_full (s : client_state) (hash : bytes) (h : handshake) : full client_state :=
  match s, h with
  | StServerHello, HEncryptedExtensions ee => Ok (StExtensions ee)
  | StExtensions ee, HCertificateRequest cr => Ok (StRequest ee cr)
  | StExtensions ee, HCertificate c => Ok (StCertificate ee None c)
  | StExtensions ee, HCertificateVerify v => Ok (StVerify ee None None (v, hash))
  | StExtensions ee, HFinished v => Ok (StFinished ee None None None (v, hash))
  | StRequest ee cr, HCertificate c => Ok (StCertificate ee (Some cr) c)
  | StRequest ee cr, HCertificateVerify v => Ok (StVerify ee (Some cr) None (v, hash))
  | StRequest ee cr, HFinished v => Ok (StFinished ee (Some cr) None None (v, hash))
  | StCertificate ee cr c, HCertificateVerify v => Ok (StVerify ee cr (Some c) (v, hash))
  | StCertificate ee cr c, HFinished v => Ok (StFinished ee cr (Some c) None (v, hash))
  | StVerify ee cr c cv, HFinished v => Ok (StFinished ee cr c (Some cv) (v, hash))
  | _, _ => Err (FUnexpected (handshake_name h))
  end.
(** client.rs:792-845 [ReceiveServerMessages::poll]. *)
Fixpoint receive_full (fuel : nat) (P : primitives) (r : record_receiver) (se : sequence_encryption) (t : transcript) (s : client_state)
  : poll (full server_messages) * record_receiver * sequence_encryption * transcript * client_state :=
  match s with
  | StFinished ee cr c cv fin =>
    (Done (Ok {| sm_extensions := ee; sm_request := cr; sm_certificate := c; sm_verify := cv; sm_finished := fin |}), r, se, t, s)
  | _ =>
    match fuel with
    | O => (Done Panic, r, se, t, s)
    | S fuel =>
      let hash := get_hash P t in
      let '(x, r', n, ts) := receive_encrypted_message P r (se_server se) (se_enc se) (Some t) in
      let se' := {| se_client := se_client se; se_server := n; se_enc := se_enc se |} in
      let t' := match ts with Some t' => t' | None => t end in
      match x with
      | Wait => (Wait, r', se', t', s)
      | Done (Err e) => (Done (Err (FOther e)), r', se', t', s)
      | Done Panic => (Done Panic, r', se', t', s)
      | Done (Ok None) => (Done (Err (FOther TUnexpectedEOF)), r', se', t', s)
      | Done (Ok (Some (MHandshake h))) =>
        match on_handshake_full s hash h with
        | Ok s' => receive_full fuel P r' se' t' s'
        | Err e => (Done (Err e), r', se', t', s)
        | Panic => (Done Panic, r', se', t', s)
        end
      | Done (Ok (Some m)) => (Done (Err (FUnexpected (message_name m))), r', se', t', s)
      end
    end
  end.
(** client.rs:404-411 [ECState]: [FFailed] is [Error], the others are those of [ec_state]. *)
Inductive ec_full := FState (s : ec_state) | FFailed (e : full_error).
Definition erase_state (s : ec_full) : ec_state := match s with FState s => s | FFailed e => EError (erase e) end.
(** client.rs:571-612 [on_opt_message]. *)
Definition on_server_hello_full (P : primitives) (cfg : config) (private ts : bytes) (p : plaintext_stream) (m : option message) : ec_full :=
  match m with
  | Some (MHandshake (HServerHello _)) | None => FState (on_server_hello P cfg private ts p m)
  | Some m => FFailed (FUnexpected (message_name m))
  end.
(** client.rs:428-449 [poll_step]; where the name of a message is not at stake, as in
    [TlsClientModel.poll_step]. *)
Definition poll_step_full (P : primitives) (s : ec_state) (w : list wanswer) : bool * ec_full * list wanswer * bytes :=
  match s with
  | EHelloSent cfg private ts p =>
    let '(x, r, ts) := receive_plaintext_message (ps_receiver p) ts in
    let p := {| ps_receiver := r; ps_out := ps_out p; ps_write := ps_write p |} in
    match x with
    | Done (Ok m) => (true, on_server_hello_full P cfg private ts p m, w, [])
    | Done (Err e) => (true, FFailed (FOther e), w, [])
    | Done Panic => (true, FState EPanic, w, [])
    | Wait => (false, FState (EHelloSent cfg private ts p), w, [])
    end
  | EHelloReceived cfg p se t prk st =>
    let '(x, r, se, t, st) := receive_full (S (length (rr_in (ps_receiver p)))) P (ps_receiver p) se t st in
    let p := {| ps_receiver := r; ps_out := ps_out p; ps_write := ps_write p |} in
    match x with
    | Done (Ok sm) => (true, FState (on_server_messages P cfg p se t prk sm), w, [])
    | Done (Err e) => (true, FFailed e, w, [])
    | Done Panic => (true, FState EPanic, w, [])
    | Wait => (false, FState (EHelloReceived cfg p se t prk st), w, [])
    end
  | _ => let '(ready, s, w, sent) := poll_step P s w in (ready, FState s, w, sent)
  end.
(** client.rs:375-401 [EstablishConnection::poll]. *)
Fixpoint ec_poll_full (fuel : nat) (P : primitives) (s : ec_full) (answers : list answer) (w : list wanswer)
  : poll (full connection) * option ec_full * list answer * list wanswer * bytes :=
  match fuel with
  | O => (Done Panic, None, answers, w, [])
  | S fuel =>
    match s with
    | FFailed e => (Done (Err e), None, answers, w, [])
    | FState (EError e) => (Done (Err (FOther e)), None, answers, w, [])
    | FState (EDone c) => (Done (Ok c), None, answers, w, [])
    | FState EPanic => (Done Panic, None, answers, w, [])
    | FState s =>
      let step s answers :=
        let '(ready, s, w, sent) := poll_step_full P s w in
        if ready then let '(x, s, answers, w, more) := ec_poll_full fuel P s answers w in (x, s, answers, w, sent ++ more)
        else (Wait, Some s, answers, w, sent) in
      match ec_recv s answers with
      | Some (Done (Err e), s, answers) => (Done (Err (FOther e)), None, answers, w, [])
      | Some (_, s, answers) => step s answers
      | None => step s answers
      end
    end
  end.
Definition establish_poll_full (P : primitives) (s : ec_full) (answers : list answer) (w : list wanswer) := ec_poll_full 7 P s answers w.
(** The polls of the handshake, one after the other, until it is over; with the answers of the
    transport to each.  None: it is not over yet. *)
Fixpoint establish_full (P : primitives) (s : ec_full) (polls : list (list answer * list wanswer)) : option (full connection) :=
  match polls with
  | [] => None
  | (answers, w) :: polls =>
    match establish_poll_full P s answers w with
    | (Done x, _, _, _, _) => Some x
    | (Wait, Some s, _, _, _) => establish_full P s polls
    | (Wait, None, _, _, _) => Some Panic (* does not happen *)
    end
  end.

(** client.rs:967-1023 [poll_fill_incoming], also the name that is kept with the error in the
    state of the reader (1007-1018). *)
Fixpoint fill_full (fuel : nat) (P : primitives) (c : connection) (answers : list answer)
  : poll (full unit) * connection * option string * list answer :=
  match fuel with
  | O => (Done Panic, c, None, answers)
  | S fuel =>
    let '(x, r, answers') := poll_recv (ps_receiver (cn_plain c)) answers in
    let c := with_receiver c r in
    match x with
    | Wait => (Wait, c, None, answers')
    | Done (Err e) => (Done (Err (FOther e)), set_read c (RError e), None, answers')
    | Done Panic => (Done Panic, c, None, answers')
    | Done (Ok _) =>
      let '(x, r, n, _) := receive_encrypted_message P r (se_server (cn_seq c)) (se_enc (cn_seq c)) None in
      let c := with_server_seq (with_receiver c r) n in
      match x with
      | Wait => (Wait, c, None, answers')
      | Done (Err e) => (Done (Err (FOther e)), c, None, answers')
      | Done Panic => (Done Panic, c, None, answers')
      | Done (Ok (Some (MHandshake (HNewSessionTicket _)))) => fill_full fuel P c answers'
      | Done (Ok (Some (MApplicationData d))) => (Done (Ok tt), with_in c (cn_in c ++ d), None, answers')
      | Done (Ok (Some (MAlert a))) =>
        match a_description a with
        | AdCloseNotify => (Done (Ok tt), set_read c REof, None, answers')
        | _ => (Done (Err (FOther (TUnexpectedAlert a))), set_read c (RError (TUnexpectedAlert a)), None, answers')
        end
      | Done (Ok (Some m)) =>
        (Done (Err (FUnexpected (message_name m))), set_read c (RError TUnexpectedMessage), Some (message_name m), answers')
      | Done (Ok None) => (Done (Err (FOther TUnexpectedEOF)), set_read c (RError TUnexpectedEOF), None, answers')
      end
    end
  end.
(** client.rs:1026-1050 [poll_read]; [kept] is the name kept with an error. *)
Definition read_full (P : primitives) (c : connection) (kept : option string) (room : nat) (answers : list answer)
  : poll (full bytes) * connection * option string * list answer :=
  match cn_read c with
  | REof => (Done (Ok []), c, kept, answers)
  | RError e => (Done (Err match kept with Some name => FUnexpected name | None => FOther e end), c, kept, answers)
  | RActive =>
    let '(x, c', kept, answers') :=
      match cn_in c with [] => fill_full (S (length answers)) P c answers | _ => (Done (Ok tt), c, None, answers) end in
    match x with
    | Wait => (Wait, c', kept, answers')
    | Done (Err e) => (Done (Err e), c', kept, answers')
    | Done Panic => (Done Panic, c', kept, answers')
    | Done (Ok _) =>
      let amt := Nat.min (length (cn_in c')) room in
      (Done (Ok (firstn amt (cn_in c'))), with_in c' (skipn amt (cn_in c')), kept, answers')
    end
  end.

(** *** The texts *)
(** crypto/error.rs:4-12: the derived [Debug], and 14-18 [Display]. *)
Definition crypt_error_name (e : crypt_error) : string :=
  match e with
  | CInvalidPrkLength => "InvalidPrkLength" | CInvalidLength => "InvalidLength" | CInvalidKeyLength => "InvalidKeyLength"
  | CInvalidNonceLength => "InvalidNonceLength" | CEncryptionFailed => "EncryptionFailed" | CDecryptionFailed => "DecryptionFailed"
  end.
(** types/alert.rs:3-8, 42-72, 156-160: the derived [Debug]. *)
Definition alert_level_debug (l : alert_level) : dbg :=
  match l with
  | AlWarning => dtext (ascii_bytes "Warning") | AlFatal => dtext (ascii_bytes "Fatal") | AlUnknown n => dtuple "Unknown" [dnumber n]
  end.
Definition description_name (d : alert_description) : string :=
  match d with
  | AdCloseNotify => "CloseNotify" | AdUnexpectedMessage => "UnexpectedMessage" | AdBadRecordMac => "BadRecordMac"
  | AdRecordOverflow => "RecordOverflow" | AdHandshakeFailure => "HandshakeFailure" | AdBadCertificate => "BadCertificate"
  | AdUnsupportedCertificate => "UnsupportedCertificate" | AdCertificateRevoked => "CertificateRevoked"
  | AdCertificateExpired => "CertificateExpired" | AdCertificateUnknown => "CertificateUnknown"
  | AdIllegalParameter => "IllegalParameter" | AdUnknownCa => "UnknownCa" | AdAccessDenied => "AccessDenied"
  | AdDecodeError => "DecodeError" | AdDecryptError => "DecryptError" | AdProtocolVersion => "ProtocolVersion"
  | AdInsufficientSecurity => "InsufficientSecurity" | AdInternalError => "InternalError"
  | AdInappropriateFallback => "InappropriateFallback" | AdUserCanceled => "UserCanceled"
  | AdMissingExtension => "MissingExtension" | AdUnsupportedExtension => "UnsupportedExtension"
  | AdUnrecognizedName => "UnrecognizedName" | AdBadCertificateStatusResponse => "BadCertificateStatusResponse"
  | AdUnknownPskIdentity => "UnknownPskIdentity" | AdCertificateRequired => "CertificateRequired"
  | AdNoApplicationProtocol => "NoApplicationProtocol" | AdUnknown _ => "Unknown"
  end.
Definition description_debug (d : alert_description) : dbg :=
  match d with AdUnknown n => dtuple "Unknown" [dnumber n] | _ => dtext (ascii_bytes (description_name d)) end.
Definition alert_debug (a : alert) : dbg :=
  dstruct "Alert" [("level", alert_level_debug (a_level a)); ("description", description_debug (a_description a))].
(** error.rs:8: the names of the variants. *)
Definition variant (e : tls_error) : string :=
  match e with
  | TEncryptionFailed => "EncryptionFailed" | TDecryptionFailed => "DecryptionFailed" | TMessageEncodingFailed => "MessageEncodingFailed"
  | TUnexpectedMessage => "UnexpectedMessage" | TUnexpectedEOF => "UnexpectedEOF" | TUnexpectedAlert _ => "UnexpectedAlert"
  | TInvalidPlaintextRecord => "InvalidPlaintextRecord" | TInvalidMessageRecord => "InvalidMessageRecord" | TInternal _ => "Internal"
  | TFinishedVerificationFailed => "FinishedVerificationFailed" | TUnsupportedCipherSuite => "UnsupportedCipherSuite"
  | TUnsupportedSignatureScheme => "UnsupportedSignatureScheme" | TVerifyCertificateFailed => "VerifyCertificateFailed"
  | TVerifyTranscriptFailed => "VerifyTranscriptFailed" | TRsaKeyRejected => "RsaKeyRejected" | TSignatureFailed => "SignatureFailed"
  | TSignatureVerificationFailed => "SignatureVerificationFailed" | TInvalidCertificate => "InvalidCertificate"
  | TUnsupportedCertificateSignatureAlgorithm => "UnsupportedCertificateSignatureAlgorithm" | TRandomFillFailed => "RandomFillFailed"
  | TEphemeralPrivateKeyGenerationFailed => "EphemeralPrivateKeyGenerationFailed" | TComputePublicKeyFailed => "ComputePublicKeyFailed"
  | TGetSharedSecretFailed => "GetSharedSecretFailed" | TEmptyCertificateList => "EmptyCertificatList"
  | TMissingCertificateMessage => "MissingCertificateMessage" | TMissingCertificateVerifyMessage => "MissingCertificateVerifyMessage"
  | TCACertificateUnavailable => "CACertificateUnavailable" | TInvalidKey => "InvalidKey" | TIo _ => "IOError"
  | TReceiveInWrongPlace => "ReceiveInWrongPlace"
  end.
Section Texts.
(** [{:?}] of an [ErrorKind], the text of an [io::Error] made from one, and [{:?}] of the
    reason of ring. *)
Context (kind_debug kind_text : ioerr -> bytes) (rejected : bytes).
(** error.rs:8: the derived [Debug]; a name is quoted, and none of them needs escapes. *)
Definition error_debug (e : full_error) : dbg :=
  match e with
  | FUnexpected name => dtuple "UnexpectedMessage" [dtext ([34] ++ ascii_bytes name ++ [34])]
  | FOther e =>
    match e with
    | TUnexpectedAlert a => dtuple "UnexpectedAlert" [alert_debug a]
    | TInternal c => dtuple "Internal" [dtext (ascii_bytes (crypt_error_name c))]
    | TRsaKeyRejected => dtuple "RsaKeyRejected" [dtext rejected]
    | TIo k => dtuple "IOError" [dtext (kind_debug k)]
    | _ => dtext (ascii_bytes (variant e))
    end
  end.
(** error.rs:51-55 [Display]. *)
Definition error_text (e : full_error) : bytes := plain (error_debug e).
(** error.rs:41-49 [From<TLSError> for io::Error] and the [Display] of the result. *)
Definition io_text (e : full_error) : bytes :=
  match e with
  | FOther (TIo k) => kind_text k
  | FOther TUnexpectedEOF => kind_text UnexpectedEof
  | _ => error_text e
  end.
End Texts.
(** client_state.rs:21-32 [Display for ClientState] and client.rs:413-425 [Display for ECState]. *)
Definition client_state_text (s : client_state) : string :=
  match s with
  | StServerHello => "ReceivedServerHello" | StExtensions _ => "ReceivedEncryptedExtensions" | StRequest _ _ => "ReceivedCertificateRequest"
  | StCertificate _ _ _ => "ReceivedCertificate" | StVerify _ _ _ _ => "ReceivedCertificateVerify" | StFinished _ _ _ _ _ => "ReceivedFinished"
  end.
Definition ec_state_text (s : ec_state) : bytes :=
  match s with
  | EBegin _ _ _ _ => ascii_bytes "ECStateBegin" | EHelloSent _ _ _ _ => ascii_bytes "AfterSendClientHello"
  | EHelloReceived _ _ _ _ _ st => ascii_bytes "AfterReceiveServerHello " ++ ascii_bytes (client_state_text st)
  | EMessagesReceived _ _ _ => ascii_bytes "AfterReceiveServerMessages" | EDone _ => ascii_bytes "Done" | EError _ => ascii_bytes "Error"
  | EPanic => []
  end.
