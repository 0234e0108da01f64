(** Model of src/tls/types/extension.rs, handshake.rs, alert.rs and record.rs: reading and
    writing TLS messages.

    Simplifications: text is its bytes; the text of an error about a certificate is left
    out; a handshake message in memory keeps the same parts as the code's. *)
From Verif Require Import Base BinaryModel Asn1Model X509Model TlsCodesModel.
Local Open Scope string_scope. Local Open Scope list_scope. Local Open Scope N_scope.

(** *** Code points on the wire *)
(** extension.rs:108-140 [SignatureScheme]. *)
Definition read_signature_scheme : rd signature_scheme := do c <- read_u16; rret (signature_scheme_from c).
Definition write_signature_scheme (x : signature_scheme) : wr := write_u16 (signature_scheme_to x).
(** extension.rs:219-256 [NamedGroup]. *)
Definition read_named_group : rd named_group := do c <- read_u16; rret (named_group_from c).
Definition write_named_group (x : named_group) : wr := write_u16 (named_group_to x).
(** extension.rs:310-385 [NamedCurve]. *)
Definition read_named_curve : rd named_curve := do c <- read_u16; rret (named_curve_from c).
Definition write_named_curve (x : named_curve) : wr := write_u16 (named_curve_to x).
(** extension.rs:395-418 [ECPointFormat]. *)
Definition read_point_format : rd point_format := do c <- read_u8; rret (point_format_from c).
Definition write_point_format (x : point_format) : wr := write_u8 (point_format_to x).
(** extension.rs:426-447 [PskKeyExchangeMode]. *)
Definition read_psk_mode : rd psk_mode := do c <- read_u8; rret (psk_mode_from c).
Definition write_psk_mode (x : psk_mode) : wr := write_u8 (psk_mode_to x).
(** handshake.rs:147-173 [CipherSuite]. *)
Definition read_cipher_suite : rd cipher_suite := do c <- read_u16; rret (cipher_suite_from c).
Definition write_cipher_suite (x : cipher_suite) : wr := write_u16 (cipher_suite_to x).
(** alert.rs:28-41 [AlertLevel], 142-155 [AlertDescription]. *)
Definition read_alert_level : rd alert_level := do c <- read_u8; rret (alert_level_from c).
Definition write_alert_level (x : alert_level) : wr := write_u8 (alert_level_to x).
Definition read_alert_description : rd alert_description := do c <- read_u8; rret (alert_description_from c).
Definition write_alert_description (x : alert_description) : wr := write_u8 (alert_description_to x).
(** alert.rs:158-161 [Alert]. *)
Record alert := { a_level : alert_level; a_description : alert_description }.
(** alert.rs:197-204, 206-212. *)
Definition read_alert : rd alert :=
  do l <- read_alert_level; do d <- read_alert_description; rret {| a_level := l; a_description := d |}.
Definition write_alert (a : alert) : wr := write_alert_level (a_level a);; write_alert_description (a_description a).

(** *** Parts of extensions *)
(** extension.rs:9-22 [ProtocolName], its data. *)
Definition read_protocol_name : rd bytes := do n <- read_u8; read_fixed n.
Definition write_protocol_name (d : bytes) : wr := write_len8_bytes d.
(** extension.rs:142-145 [ServerName]. *)
Inductive server_name := HostName (s : bytes) | OtherName (code : N) (data : bytes).
(** extension.rs:147-165. *)
Definition read_server_name : rd server_name :=
  do t <- read_u8;
  do n <- read_u16;
  do inner <- read_nested n;
  if t =? 0 then
    do d <- rlift (fst (read_fixed n inner)); if utf8_valid d then rret (HostName d) else rfail BInvalidUTF8
  else do d <- rlift (fst (read_fixed n inner)); rret (OtherName t d).
(** extension.rs:167-180. *)
Definition write_server_name (x : server_name) : wr :=
  match x with
  | HostName s => write_u8 0;; write_len16_bytes s
  | OtherName c d => write_u8 c;; write_len16_bytes d
  end.
(** extension.rs:459-462 [KeyShareEntry]. *)
Record key_share := { ks_group : named_group; ks_key : bytes }.
(** extension.rs:464-480. *)
Definition read_key_share : rd key_share :=
  do g <- read_named_group; do n <- read_u16; do k <- read_fixed n; rret {| ks_group := g; ks_key := k |}.
Definition write_key_share (k : key_share) : wr := write_named_group (ks_group k);; write_len16_bytes (ks_key k).
(** extension.rs:488-504 [DistinguishedName], its data. *)
Definition read_distinguished_name : rd bytes := read_len16_bytes.

(** *** Extensions *)
(** extension.rs:530-547 [Extension]; 515-527 [TransportParameters] is its bytes. *)
Inductive extension :=
| XAlpn (names : list bytes) | XSignatureAlgorithms (l : list signature_scheme) | XServerName (l : list server_name)
| XSupportedGroups (l : list named_curve) | XPointFormats (l : list point_format)
| XUnknown (code : N) (data : bytes) | XEncryptThenMac | XExtendedMasterSecret | XNextProtocol (data : bytes)
| XPostHandshakeAuth | XSupportedVersions (data : bytes) | XPskModes (l : list psk_mode)
| XAuthorities (l : list bytes) | XKeyShareClient (l : list key_share) | XKeyShareServer (k : key_share)
| XTransportParameters (data : bytes).
(** extension.rs:575-580 [ExtensionContext]. *)
Inductive context := InClientHello | InServerHello | InCertificate.
(** extension.rs:602-681 [from_binary2], after the type and the length: the rest of the
    match, on the nested reader. *)
Definition extension_body (ctx : context) (t len : N) : rd extension :=
  if t =? 0 then
    match ctx with
    | InClientHello => do l <- read_len16_list read_server_name; rret (XServerName l)
    | _ => if 0 <? len then rfail (BPlain "Expected empty extension data") else rret (XServerName [])
    end
  else if t =? 10 then do l <- read_len16_list read_named_curve; rret (XSupportedGroups l)
  else if t =? 11 then do l <- read_len8_list read_point_format; rret (XPointFormats l)
  else if t =? 16 then do l <- read_len16_list read_protocol_name; rret (XAlpn l)
  else if t =? 13 then do l <- read_len16_list read_signature_scheme; rret (XSignatureAlgorithms l)
  else if t =? 22 then do _ <- expect_eof; rret XEncryptThenMac
  else if t =? 23 then do _ <- expect_eof; rret XExtendedMasterSecret
  else if t =? 49 then do _ <- expect_eof; rret XPostHandshakeAuth
  else if t =? 43 then do d <- remaining_data; rret (XSupportedVersions d)
  else if t =? 13172 then do d <- remaining_data; rret (XNextProtocol d)
  else if t =? 45 then do l <- read_len8_list read_psk_mode; rret (XPskModes l)
  else if t =? 47 then do l <- read_len16_list read_distinguished_name; rret (XAuthorities l)
  else if t =? 51 then
    match ctx with
    | InServerHello => do k <- read_key_share; rret (XKeyShareServer k)
    | InClientHello => do l <- read_len16_list read_key_share; rret (XKeyShareClient l)
    | InCertificate => rfail (BPlain "KeyShare extension not supported in certificates")
    end
  else if t =? 57 then do d <- remaining_data; rret (XTransportParameters d)
  else do d <- remaining_data; rret (XUnknown t d).
(** extension.rs:595-681 [from_binary2]. *)
Definition read_extension (ctx : context) : rd extension :=
  do t <- read_u16;
  do len <- read_u16;
  do inner <- read_nested len;
  rlift (fst (extension_body ctx t len inner)).
(** extension.rs:589-591: the loop.  Fuel: every round reads at least four bytes or fails;
    [Panic] for running out is excluded by the theorems. *)
Fixpoint extensions_loop (fuel : nat) (ctx : context) (r : reader) : outcome berr (list extension) :=
  match fuel with
  | O => Panic
  | S fuel =>
    if (0 <? remaining r)%nat then
      match read_extension ctx r with
      | (Ok x, r') => let? l := extensions_loop fuel ctx r' in Ok (x :: l)
      | (Err e, _) => Err e
      | (Panic, _) => Panic
      end
    else Ok []
  end.
(** extension.rs:582-593 [read_extensions]; the same code stands in handshake.rs:217-222,
    360-365 and 388-393. *)
Definition read_extensions (ctx : context) : rd (list extension) :=
  do n <- read_u16;
  do inner <- read_nested n;
  rlift (extensions_loop (S (remaining inner)) ctx inner).
(** extension.rs:685-752 [Extension::to_binary]; [unimplemented!] panics. *)
Definition write_extension (x : extension) : wr :=
  match x with
  | XAlpn l => write_u16 16;; write_u16_nested (write_len16_list write_protocol_name l)
  | XSignatureAlgorithms l => write_u16 13;; write_u16_nested (write_len16_list write_signature_scheme l)
  | XServerName l => write_u16 0;; write_u16_nested (write_len16_list write_server_name l)
  | XSupportedGroups l => write_u16 10;; write_u16_nested (write_len16_list write_named_curve l)
  | XPointFormats l => write_u16 11;; write_u16_nested (write_len8_list write_point_format l)
  | XUnknown c d => write_u16 c;; write_u16_nested (write_raw d)
  | XEncryptThenMac => write_u16 22;; write_u16_nested wret
  | XExtendedMasterSecret => write_u16 23;; write_u16_nested wret
  | XNextProtocol d => write_u16 13172;; write_u16_nested (write_raw d)
  | XPostHandshakeAuth => write_u16 49;; write_u16_nested wret
  | XSupportedVersions d => write_u16 43;; write_u16_nested (write_raw d)
  | XPskModes l => write_u16 45;; write_u16_nested (write_len8_list write_psk_mode l)
  | XAuthorities _ => write_u16 47;; (fun d => (Panic, d))
  | XKeyShareClient l => write_u16 51;; write_u16_nested (write_len16_list write_key_share l)
  | XKeyShareServer k => write_u16 51;; write_u16_nested (write_key_share k)
  | XTransportParameters d => write_u16 57;; write_u16_nested (write_raw d)
  end.

(** *** Handshake messages *)
(** handshake.rs:188-195 [ClientHello]. *)
Record client_hello := {
  ch_version : N; ch_random : bytes; ch_session : bytes; ch_suites : list cipher_suite;
  ch_compression : bytes; ch_extensions : list extension }.
(** handshake.rs:211-213: one byte for each count. *)
Fixpoint read_n_u8 (n : nat) : rd bytes :=
  match n with O => rret [] | S n => do b <- read_u8; do l <- read_n_u8 n; rret (b :: l) end.
(** handshake.rs:197-235. *)
Definition read_client_hello : rd client_hello :=
  do v <- read_u16;
  do random <- read_fixed 32;
  do session <- read_len8_bytes;
  do suites <- read_len16_list read_cipher_suite;
  do n <- read_u8;
  do inner <- read_nested n;
  do compression <- rlift (fst (read_n_u8 (N.to_nat n) inner));
  do exts <- read_extensions InClientHello;
  rret {| ch_version := v; ch_random := random; ch_session := session; ch_suites := suites;
          ch_compression := compression; ch_extensions := exts |}.
(** handshake.rs:238-248. *)
Definition write_client_hello (h : client_hello) : wr :=
  write_u16 (ch_version h);;
  write_raw (ch_random h);;
  write_len8_bytes (ch_session h);;
  write_len16_list write_cipher_suite (ch_suites h);;
  write_len8_bytes (ch_compression h);;
  write_len16_list write_extension (ch_extensions h).
(** handshake.rs:264-271 [ServerHello]. *)
Record server_hello := {
  sh_version : N; sh_random : bytes; sh_session : bytes; sh_suite : cipher_suite;
  sh_compression : N; sh_extensions : list extension }.
(** handshake.rs:286-308. *)
Definition read_server_hello : rd server_hello :=
  do v <- read_u16;
  do random <- read_fixed 32;
  do session <- read_len8_bytes;
  do suite <- read_cipher_suite;
  do compression <- read_u8;
  do exts <- read_extensions InServerHello;
  rret {| sh_version := v; sh_random := random; sh_session := session; sh_suite := suite;
          sh_compression := compression; sh_extensions := exts |}.
(** handshake.rs:310-320. *)
Definition write_server_hello (h : server_hello) : wr :=
  write_u16 (sh_version h);;
  write_raw (sh_random h);;
  write_len8_bytes (sh_session h);;
  write_cipher_suite (sh_suite h);;
  write_u8 (sh_compression h);;
  write_len16_list write_extension (sh_extensions h).
(** handshake.rs:349-352 [CertificateRequest]. *)
Record certificate_request := { cr_context : bytes; cr_extensions : list extension }.
(** handshake.rs:354-372. *)
Definition read_certificate_request : rd certificate_request :=
  do c <- read_len8_bytes; do e <- read_extensions InCertificate; rret {| cr_context := c; cr_extensions := e |}.
(** handshake.rs:375-379 [CertificateEntry]. *)
Record certificate_entry := { en_data : bytes; en_certificate : certificate; en_extensions : list extension }.
(** handshake.rs:381-401. *)
Definition read_certificate_entry : rd certificate_entry :=
  do d <- read_len24_bytes;
  do c <- rlift (match certificate_from_bytes d with Ok c => Ok c | Err _ => Err (BString "") | Panic => Panic end);
  do e <- read_extensions InCertificate;
  rret {| en_data := d; en_certificate := c; en_extensions := e |}.
(** handshake.rs:403-409. *)
Definition write_certificate_entry (e : certificate_entry) : wr :=
  write_len24_bytes (en_data e);; write_len16_list write_extension (en_extensions e).
(** handshake.rs:421-424 [Certificate]. *)
Record certificates := { ct_context : bytes; ct_list : list certificate_entry }.
(** handshake.rs:426-446. *)
Definition read_certificates : rd certificates :=
  do c <- read_len8_bytes; do l <- read_len24_list read_certificate_entry; rret {| ct_context := c; ct_list := l |}.
Definition write_certificates (c : certificates) : wr :=
  write_len8_bytes (ct_context c);; write_len24_list write_certificate_entry (ct_list c).
(** handshake.rs:449-452 [CertificateVerify]. *)
Record certificate_verify := { cv_algorithm : signature_scheme; cv_signature : bytes }.
(** handshake.rs:454-470. *)
Definition read_certificate_verify : rd certificate_verify :=
  do a <- read_signature_scheme; do s <- read_len16_bytes; rret {| cv_algorithm := a; cv_signature := s |}.
Definition write_certificate_verify (v : certificate_verify) : wr :=
  write_signature_scheme (cv_algorithm v);; write_len16_bytes (cv_signature v).
(** handshake.rs:493-499 [NewSessionTicket]. *)
Record session_ticket := {
  st_lifetime : N; st_age_add : N; st_nonce : bytes; st_ticket : bytes; st_extensions : list extension }.
(** handshake.rs:501-519. *)
Definition read_session_ticket : rd session_ticket :=
  do l <- read_u32;
  do a <- read_u32;
  do n <- read_len8_bytes;
  do t <- read_len16_bytes;
  do e <- read_extensions InServerHello;
  rret {| st_lifetime := l; st_age_add := a; st_nonce := n; st_ticket := t; st_extensions := e |}.
(** handshake.rs:8-20 [Handshake].  [Finished] is its data, [EncryptedExtensions] its list. *)
Inductive handshake :=
| HClientHello (h : client_hello) | HServerHello (h : server_hello) | HEndOfEarlyData
| HEncryptedExtensions (l : list extension) | HCertificateRequest (r : certificate_request)
| HCertificate (c : certificates) | HCertificateVerify (v : certificate_verify) | HFinished (data : bytes)
| HNewSessionTicket (t : session_ticket) | HKeyUpdate | HUnknown (t : N) (data : bytes).
(** handshake.rs:48-63 [from_binary2]; the declared length is used for unknown types only.
    326-332 [EndOfEarlyData] is an error, 537-543 [KeyUpdate] is [unimplemented!]. *)
Definition read_handshake_body (t : N) : rd handshake :=
  do len <- read_u24;
  if t =? 1 then do h <- read_client_hello; rret (HClientHello h)
  else if t =? 2 then do h <- read_server_hello; rret (HServerHello h)
  else if t =? 5 then rfail (BPlain "EndOfEarlyData::from_binary(): Not implemented")
  else if t =? 8 then do l <- read_extensions InServerHello; rret (HEncryptedExtensions l)
  else if t =? 13 then do r <- read_certificate_request; rret (HCertificateRequest r)
  else if t =? 11 then do c <- read_certificates; rret (HCertificate c)
  else if t =? 15 then do v <- read_certificate_verify; rret (HCertificateVerify v)
  else if t =? 20 then do d <- remaining_data; rret (HFinished d)
  else if t =? 4 then do s <- read_session_ticket; rret (HNewSessionTicket s)
  else if t =? 24 then rpanic
  else do d <- read_fixed len; rret (HUnknown t d).
(** handshake.rs:22-29 [Handshake::from_binary]. *)
Definition read_handshake : rd handshake := do t <- read_u8; read_handshake_body t.
(** handshake.rs:65-107 [inner_to_binary]: the type's code and the writer. *)
Definition handshake_writer (h : handshake) : option (N * wr) :=
  match h with
  | HClientHello h => Some (1, write_client_hello h)
  | HServerHello h => Some (2, write_server_hello h)
  | HCertificate c => Some (11, write_certificates c)
  | HCertificateVerify v => Some (15, write_certificate_verify v)
  | HFinished d => Some (20, write_raw d)
  | _ => None
  end.
(** handshake.rs:110-119 [Handshake::to_binary]; [unimplemented!] panics. *)
Definition write_handshake (h : handshake) : wr := fun d =>
  match handshake_writer h with
  | None => (Panic, d)
  | Some (code, w) =>
    match w [] with
    | (Ok _, temp) => (write_u8 code;; write_u24 (blen temp mod two32);; write_raw temp) d
    | (Err e, _) => (Err e, d)
    | (Panic, _) => (Panic, d)
    end
  end.

(** *** Messages *)
(** record.rs:49-56 [Message]. *)
Inductive message :=
| MInvalid | MChangeCipherSpec | MAlert (a : alert) | MHandshake (h : handshake) | MApplicationData (d : bytes)
| MUnknown (code : N).
(** record.rs:81-90 [Message::from_raw]. *)
Definition message_from_raw (d : bytes) (ct : content_type) : outcome berr message :=
  match ct with
  | CtInvalid => Ok MInvalid
  | CtChangeCipherSpec => Ok MChangeCipherSpec
  | CtAlert => let? a := fst (read_alert (new_reader d)) in Ok (MAlert a)
  | CtHandshake => let? h := fst (read_handshake (new_reader d)) in Ok (MHandshake h)
  | CtApplicationData => Ok (MApplicationData d)
  | CtUnknown c => Ok (MUnknown c)
  end.
(** record.rs:59-68 [content_type]. *)
Definition message_content_type (m : message) : content_type :=
  match m with
  | MInvalid => CtInvalid | MChangeCipherSpec => CtChangeCipherSpec | MAlert _ => CtAlert
  | MHandshake _ => CtHandshake | MApplicationData _ => CtApplicationData | MUnknown c => CtUnknown c
  end.
(** record.rs:172-185 [TLSOutputPlaintext]: its encoding. *)
Definition encode_record (ct : content_type) (version : N) (fragment : bytes) : bytes :=
  [content_type_to ct] ++ be_bytes 2 version ++ be_bytes 2 (blen fragment mod two16) ++ fragment.
