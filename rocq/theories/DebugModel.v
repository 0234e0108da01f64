(** Model of the debug texts of TLS messages: the [fmt::Debug] implementations of
    src/tls/types/extension.rs and src/tls/types/handshake.rs (written out or derived), on
    top of a model of the formatter's [debug_struct], [debug_tuple] and [debug_list].

    Texts are lists of bytes.  Writing to the formatter is taken to succeed.
    [String::from_utf8_lossy] is a parameter. *)
From Coq Require Import String Ascii.
From Verif Require Import Base UtilModel Asn1ToolModel HexDumpModel ChatModel TlsCodesModel TlsTypesModel.
Local Open Scope string_scope. Local Open Scope list_scope. Local Open Scope N_scope.

(** *** The formatter *)
(** What an implementation of [Debug] writes: its own text (in the forms [{:?}] and [{:#?}]),
    a named field, or a group: [debug_struct], [debug_tuple], [debug_list]. *)
Inductive group := GStruct | GTuple | GList.
Inductive dbg :=
| DText (plain alternate : bytes)
| DNamed (name : bytes) (value : dbg)
| DGroup (g : group) (name : bytes) (items : list dbg).
(** A text that is the same in both forms. *)
Definition dtext (t : bytes) : dbg := DText t t.

(** The form [{:?}]: everything on one line. *)
Definition plain_open (g : group) : bytes := match g with GStruct => ascii_bytes " { " | GTuple => ascii_bytes "(" | GList => ascii_bytes "[" end.
Definition plain_close (g : group) : bytes := match g with GStruct => ascii_bytes " }" | GTuple => ascii_bytes ")" | GList => ascii_bytes "]" end.
(** A group without items: a structure or a tuple is only its name. *)
Definition empty_group (g : group) : bytes := match g with GList => ascii_bytes "[]" | _ => [] end.
Fixpoint commas (l : list bytes) : bytes :=
  match l with [] => [] | [x] => x | x :: t => x ++ ascii_bytes ", " ++ commas t end.
Fixpoint plain (d : dbg) : bytes :=
  match d with
  | DText p _ => p
  | DNamed n v => n ++ ascii_bytes ": " ++ plain v
  | DGroup g n items =>
    match items with
    | [] => n ++ empty_group g
    | _ => n ++ plain_open g ++ commas (map plain items) ++ plain_close g
    end
  end.

(** The form [{:#?}]: [PadAdapter] writes four spaces before the first byte of every line;
    [start] says that the next byte is the first of its line. *)
Fixpoint pad (start : bool) (s : bytes) : bytes :=
  match s with
  | [] => []
  | c :: t => (if start then ascii_bytes "    " else []) ++ c :: pad (c =? 10) t
  end.
Definition pretty_open (g : group) : bytes := match g with GStruct => ascii_bytes " {" | GTuple => ascii_bytes "(" | GList => ascii_bytes "[" end.
Definition pretty_close (g : group) : bytes := match g with GStruct => ascii_bytes "}" | GTuple => ascii_bytes ")" | GList => ascii_bytes "]" end.
Fixpoint pretty (d : dbg) : bytes :=
  match d with
  | DText _ a => a
  | DNamed n v => n ++ ascii_bytes ": " ++ pretty v
  | DGroup g n items =>
    match items with
    | [] => n ++ empty_group g
    | _ => n ++ pretty_open g ++ [10] ++ flat_map (fun i => pad true (pretty i ++ [44; 10])) items ++ pretty_close g
    end
  end.

(** *** Numbers, bytes and vectors *)
(** [Debug] of an unsigned integer; of a [Vec<u8>]; of [BinaryData] (util.rs:14-18). *)
Definition dnumber (n : N) : dbg := dtext (decimal n).
Definition dvec {A} (f : A -> dbg) (l : list A) : dbg := DGroup GList [] (map f l).
Definition dbinary (d : bytes) : dbg := dtext (to_hex d).
Definition dstruct (name : string) (fields : list (string * dbg)) : dbg :=
  DGroup GStruct (ascii_bytes name) (map (fun f => DNamed (ascii_bytes (fst f)) (snd f)) fields).
Definition dtuple (name : string) (items : list dbg) : dbg := DGroup GTuple (ascii_bytes name) items.

(** *** extension.rs *)
(** extension.rs:24-29 [ProtocolName]. *)
Definition protocol_text (lossy : bytes -> bytes) (d : bytes) : bytes := escape_string (lossy d).
(** extension.rs:80-101 [SignatureScheme]. *)
Definition scheme_text (x : signature_scheme) : bytes :=
  match x with
  | SsRsaPkcs1Sha256 => ascii_bytes "RsaPkcs1Sha256" | SsRsaPkcs1Sha384 => ascii_bytes "RsaPkcs1Sha384"
  | SsRsaPkcs1Sha512 => ascii_bytes "RsaPkcs1Sha512" | SsEcdsaSecp256r1Sha256 => ascii_bytes "EcdsaSecp256r1Sha256"
  | SsEcdsaSecp384r1Sha384 => ascii_bytes "EcdsaSecp384r1Sha384" | SsEcdsaSecp521r1Sha512 => ascii_bytes "EcdsaSecp521r1Sha512"
  | SsRsaPssRsaeSha256 => ascii_bytes "RsaPssRsaeSha256" | SsRsaPssRsaeSha384 => ascii_bytes "RsaPssRsaeSha384"
  | SsRsaPssRsaeSha512 => ascii_bytes "RsaPssRsaeSha512" | SsEd25519 => ascii_bytes "Ed25519" | SsEd448 => ascii_bytes "Ed448"
  | SsRsaPssPssSha256 => ascii_bytes "RsaPssPssSha256" | SsRsaPssPssSha384 => ascii_bytes "RsaPssPssSha384"
  | SsRsaPssPssSha512 => ascii_bytes "RsaPssPssSha512" | SsRsaPkcs1Sha1 => ascii_bytes "RsaPkcs1Sha1" | SsEcdsaSha1 => ascii_bytes "EcdsaSha1"
  | SsUnknown code => hex_padded 4 code
  end.
(** extension.rs:182-189 [ServerName]. *)
Definition name_text (x : server_name) : bytes :=
  match x with
  | HostName s => escape_string s
  | OtherName code _ => ascii_bytes "<other " ++ decimal code ++ ascii_bytes ">"
  end.
(** extension.rs:258-274 [NamedGroup]. *)
Definition group_text (x : named_group) : bytes :=
  match x with
  | NgSecp256r1 => ascii_bytes "Secp256r1" | NgSecp384r1 => ascii_bytes "Secp384r1" | NgSecp521r1 => ascii_bytes "Secp521r1"
  | NgX25519 => ascii_bytes "X25519" | NgX448 => ascii_bytes "X448" | NgFfdhe2048 => ascii_bytes "Ffdhe2048"
  | NgFfdhe3072 => ascii_bytes "Ffdhe3072" | NgFfdhe4096 => ascii_bytes "Ffdhe4096" | NgFfdhe6144 => ascii_bytes "Ffdhe6144"
  | NgFfdhe8192 => ascii_bytes "Ffdhe8192"
  | NgUnknown code => decimal code
  end.
(** extension.rs:276-308 [NamedCurve], derived. *)
Definition curve_text (x : named_curve) : bytes :=
  match x with
  | NcSect163k1 => ascii_bytes "Sect163k1" | NcSect163r1 => ascii_bytes "Sect163r1" | NcSect163r2 => ascii_bytes "Sect163r2"
  | NcSect193r1 => ascii_bytes "Sect193r1" | NcSect193r2 => ascii_bytes "Sect193r2" | NcSect233k1 => ascii_bytes "Sect233k1"
  | NcSect233r1 => ascii_bytes "Sect233r1" | NcSect239k1 => ascii_bytes "Sect239k1" | NcSect283k1 => ascii_bytes "Sect283k1"
  | NcSect283r1 => ascii_bytes "Sect283r1" | NcSect409k1 => ascii_bytes "Sect409k1" | NcSect409r1 => ascii_bytes "Sect409r1"
  | NcSect571k1 => ascii_bytes "Sect571k1" | NcSect571r1 => ascii_bytes "Sect571r1" | NcSecp160k1 => ascii_bytes "Secp160k1"
  | NcSecp160r1 => ascii_bytes "Secp160r1" | NcSecp160r2 => ascii_bytes "Secp160r2" | NcSecp192k1 => ascii_bytes "Secp192k1"
  | NcSecp192r1 => ascii_bytes "Secp192r1" | NcSecp224k1 => ascii_bytes "Secp224k1" | NcSecp224r1 => ascii_bytes "Secp224r1"
  | NcSecp256k1 => ascii_bytes "Secp256k1" | NcSecp256r1 => ascii_bytes "Secp256r1" | NcSecp384r1 => ascii_bytes "Secp384r1"
  | NcSecp521r1 => ascii_bytes "Secp521r1" | NcX25519 => ascii_bytes "X25519" | NcX448 => ascii_bytes "X448"
  | NcArbitraryExplicitPrimeCurves => ascii_bytes "ArbitraryExplicitPrimeCurves"
  | NcArbitraryExplicitChar2Curves => ascii_bytes "ArbitraryExplicitChar2Curves"
  | NcOther code => plain (dtuple "Other" [dnumber code])
  end.
(** extension.rs:387-393 [ECPointFormat], derived. *)
Definition point_text (x : point_format) : bytes :=
  match x with
  | PfUncompressed => ascii_bytes "Uncompressed" | PfANSIX962CompressedPrime => ascii_bytes "ANSIX962CompressedPrime"
  | PfANSIX962CompressedChar2 => ascii_bytes "ANSIX962CompressedChar2"
  | PfOther code => plain (dtuple "Other" [dnumber code])
  end.
(** extension.rs:449-457 [PskKeyExchangeMode]. *)
Definition psk_text (x : psk_mode) : bytes :=
  match x with
  | PmPskKe => ascii_bytes "PSK-only key establishment" | PmPskDheKe => ascii_bytes "PSK with (EC)DHE key establishment"
  | PmUnknown code => decimal code
  end.
(** extension.rs:482-486 [KeyShareEntry]. *)
Definition share_text (k : key_share) : bytes := group_text (ks_group k) ++ ascii_bytes " " ++ to_hex (ks_key k).
(** extension.rs:549-573 [Extension].  The vectors are written with a fresh [{:?}], so the
    text is the same in both forms.  [DistinguishedName] (492-496) and [TransportParameters]
    (509-513) are the hexadecimal text of their bytes. *)
Definition extension_text (lossy : bytes -> bytes) (x : extension) : bytes :=
  match x with
  | XAlpn l => ascii_bytes "ApplicationLayerProtocolNegotiation " ++ plain (dvec (fun d => dtext (protocol_text lossy d)) l)
  | XSignatureAlgorithms l => ascii_bytes "SignatureAlgorithms " ++ plain (dvec (fun s => dtext (scheme_text s)) l)
  | XServerName l => ascii_bytes "ServerName " ++ plain (dvec (fun s => dtext (name_text s)) l)
  | XSupportedGroups l => ascii_bytes "SupportedGroups " ++ plain (dvec (fun s => dtext (curve_text s)) l)
  | XPointFormats l => ascii_bytes "ECPointFormats " ++ plain (dvec (fun s => dtext (point_text s)) l)
  | XUnknown id data => ascii_bytes "Unknown(" ++ decimal id ++ ascii_bytes ") " ++ to_hex data
  | XEncryptThenMac => ascii_bytes "EncryptThenMac"
  | XExtendedMasterSecret => ascii_bytes "ExtendedMasterSecret"
  | XNextProtocol v => ascii_bytes "NextProtocolNegotiation " ++ plain (dvec dnumber v)
  | XPostHandshakeAuth => ascii_bytes "PostHandshakeAuth"
  | XSupportedVersions v => ascii_bytes "SupportedVersions " ++ plain (dvec dnumber v)
  | XPskModes l => ascii_bytes "PskKeyExchangeModes " ++ plain (dvec (fun s => dtext (psk_text s)) l)
  | XAuthorities l => ascii_bytes "CertificateAuthorities " ++ plain (dvec dbinary l)
  | XKeyShareClient l => ascii_bytes "KeyShareClientHello " ++ plain (dvec (fun s => dtext (share_text s)) l)
  | XKeyShareServer k => ascii_bytes "KeyShareServerHello " ++ share_text k
  | XTransportParameters d => ascii_bytes "TransportParameters " ++ to_hex d
  end.
Definition dextension (lossy : bytes -> bytes) (x : extension) : dbg := dtext (extension_text lossy x).

(** *** handshake.rs *)
(** handshake.rs:175-186 [CipherSuite]. *)
Definition suite_text (x : cipher_suite) : bytes :=
  match x with
  | CsTLSAES128GCMSHA256 => ascii_bytes "TLS_AES_128_GCM_SHA256" | CsTLSAES256GCMSHA384 => ascii_bytes "TLS_AES_256_GCM_SHA384"
  | CsTLSCHACHA20POLY1305SHA256 => ascii_bytes "TLS_CHACHA20_POLY1305_SHA256" | CsTLSAES128CCMSHA256 => ascii_bytes "TLS_AES_128_CCM_SHA256"
  | CsTLSAES128CCM8SHA256 => ascii_bytes "TLS_AES_128_CCM_8_SHA256"
  | CsUnknown code => ascii_bytes "0x" ++ hex_padded 4 code
  end.
Definition dsuite (x : cipher_suite) : dbg := dtext (suite_text x).
(** handshake.rs:250-261 [ClientHello]. *)
Definition dclient_hello (lossy : bytes -> bytes) (h : client_hello) : dbg :=
  dstruct "ClientHello" [
    ("legacy_version", dnumber (ch_version h)); ("random", dbinary (ch_random h));
    ("legacy_session_id", dbinary (ch_session h)); ("cipher_suites", dvec dsuite (ch_suites h));
    ("legacy_compression_methods", dvec dnumber (ch_compression h));
    ("extensions", dvec (dextension lossy) (ch_extensions h))].
(** handshake.rs:273-284 [ServerHello]. *)
Definition dserver_hello (lossy : bytes -> bytes) (h : server_hello) : dbg :=
  dstruct "ServerHello" [
    ("legacy_version", dnumber (sh_version h)); ("random", dbinary (sh_random h));
    ("legacy_session_id_echo", dbinary (sh_session h)); ("cipher_suite", dsuite (sh_suite h));
    ("legacy_compression_method", dnumber (sh_compression h));
    ("extensions", dvec (dextension lossy) (sh_extensions h))].
(** handshake.rs:334-337 [EncryptedExtensions], derived. *)
Definition dencrypted (lossy : bytes -> bytes) (l : list extension) : dbg :=
  dstruct "EncryptedExtensions" [("extensions", dvec (dextension lossy) l)].
(** handshake.rs:348-352 [CertificateRequest], derived. *)
Definition drequest (lossy : bytes -> bytes) (r : certificate_request) : dbg :=
  dstruct "CertificateRequest" [
    ("certificate_request_context", dvec dnumber (cr_context r)); ("extensions", dvec (dextension lossy) (cr_extensions r))].
(** handshake.rs:411-418 [CertificateEntry]: the certificate read from the data is left out. *)
Definition dentry (lossy : bytes -> bytes) (e : certificate_entry) : dbg :=
  dstruct "CertificateEntry" [
    ("data", DText (dump_plain (en_data e)) (dump_alternate (en_data e))); ("extensions", dvec (dextension lossy) (en_extensions e))].
(** handshake.rs:420-424 [Certificate], derived. *)
Definition dcertificates (lossy : bytes -> bytes) (c : certificates) : dbg :=
  dstruct "Certificate" [
    ("certificate_request_context", dvec dnumber (ct_context c)); ("certificate_list", dvec (dentry lossy) (ct_list c))].
(** handshake.rs:448-452 [CertificateVerify], derived. *)
Definition dverify (v : certificate_verify) : dbg :=
  dstruct "CertificateVerify" [("algorithm", dtext (scheme_text (cv_algorithm v))); ("signature", dvec dnumber (cv_signature v))].
(** handshake.rs:472-475 [Finished], derived. *)
Definition dfinished (d : bytes) : dbg := dstruct "Finished" [("verify_data", dvec dnumber d)].
(** handshake.rs:521-531 [NewSessionTicket]. *)
Definition dticket (lossy : bytes -> bytes) (t : session_ticket) : dbg :=
  dstruct "NewSessionTicket" [
    ("ticket_lifetime", dnumber (st_lifetime t)); ("ticket_age_add", dnumber (st_age_add t));
    ("ticket_nonce", dbinary (st_nonce t)); ("ticket", dbinary (st_ticket t));
    ("extensions", dvec (dextension lossy) (st_extensions t))].
(** handshake.rs:7-20 [Handshake], derived; 322-324 [EndOfEarlyData] and 533-535 [KeyUpdate]
    have no fields. *)
Definition dhandshake (lossy : bytes -> bytes) (h : handshake) : dbg :=
  match h with
  | HClientHello h => dtuple "ClientHello" [dclient_hello lossy h]
  | HServerHello h => dtuple "ServerHello" [dserver_hello lossy h]
  | HEndOfEarlyData => dtuple "EndOfEarlyData" [dstruct "EndOfEarlyData" []]
  | HEncryptedExtensions l => dtuple "EncryptedExtensions" [dencrypted lossy l]
  | HCertificateRequest r => dtuple "CertificateRequest" [drequest lossy r]
  | HCertificate c => dtuple "Certificate" [dcertificates lossy c]
  | HCertificateVerify v => dtuple "CertificateVerify" [dverify v]
  | HFinished d => dtuple "Finished" [dfinished d]
  | HNewSessionTicket t => dtuple "NewSessionTicket" [dticket lossy t]
  | HKeyUpdate => dtuple "KeyUpdate" [dstruct "KeyUpdate" []]
  | HUnknown t data => dtuple "Unknown" [dnumber t; dvec dnumber data]
  end.
(** The texts of a handshake message: [{:?}] and [{:#?}]. *)
Definition handshake_plain (lossy : bytes -> bytes) (h : handshake) : bytes := plain (dhandshake lossy h).
Definition handshake_pretty (lossy : bytes -> bytes) (h : handshake) : bytes := pretty (dhandshake lossy h).
