(** Model of the names of TLS messages and of the texts of errors:
    src/tls/types/alert.rs 162-195, handshake.rs 31-47, record.rs 69-80, 97-105;
    src/util/binary.rs 31-56; src/formats/asn1/value.rs 207-254 and the accessors 122-204;
    src/ipfs/types/cid.rs 96-123; src/ipfs/fs.rs 54-73; src/formats/protobuf/varint.rs 72-76. *)
From Coq Require Import String.
From Verif Require Import Base VarintModel BinaryModel Asn1Model CidModel ProtobufModel UnixfsModel ChatModel TlsCodesModel TlsTypesModel.
Local Open Scope string_scope. Local Open Scope list_scope. Local Open Scope N_scope.

(** alert.rs:163-194 [Alert::name]. *)
Definition alert_name (a : alert) : string :=
  match a_description a with
  | AdCloseNotify => "Alert.CloseNotify" | AdUnexpectedMessage => "Alert.UnexpectedMessage" | AdBadRecordMac => "Alert.BadRecordMac"
  | AdRecordOverflow => "Alert.RecordOverflow" | AdHandshakeFailure => "Alert.HandshakeFailure" | AdBadCertificate => "Alert.BadCertificate"
  | AdUnsupportedCertificate => "Alert.UnsupportedCertificate" | AdCertificateRevoked => "Alert.CertificateRevoked"
  | AdCertificateExpired => "Alert.CertificateExpired" | AdCertificateUnknown => "Alert.CertificateUnknown"
  | AdIllegalParameter => "Alert.IllegalParameter" | AdUnknownCa => "Alert.UnknownCa" | AdAccessDenied => "Alert.AccessDenied"
  | AdDecodeError => "Alert.DecodeError" | AdDecryptError => "Alert.DecryptError" | AdProtocolVersion => "Alert.ProtocolVersion"
  | AdInsufficientSecurity => "Alert.InsufficientSecurity" | AdInternalError => "Alert.InternalError"
  | AdInappropriateFallback => "Alert.InappropriateFallback" | AdUserCanceled => "Alert.UserCanceled"
  | AdMissingExtension => "Alert.MissingExtension" | AdUnsupportedExtension => "Alert.UnsupportedExtension"
  | AdUnrecognizedName => "Alert.UnrecognizedName" | AdBadCertificateStatusResponse => "Alert.BadCertificateStatusResponse"
  | AdUnknownPskIdentity => "Alert.UnknownPskIdentity" | AdCertificateRequired => "Alert.CertificateRequired"
  | AdNoApplicationProtocol => "Alert.NoApplicationProtocol" | AdUnknown _ => "Alert.Unknown"
  end.
(** handshake.rs:32-46 [Handshake::name]. *)
Definition handshake_name (h : handshake) : string :=
  match h with
  | HClientHello _ => "Handshake.ClientHello" | HServerHello _ => "Handshake.ServerHello" | HEndOfEarlyData => "Handshake.EndOfEarlyData"
  | HEncryptedExtensions _ => "Handshake.EncryptedExtensions" | HCertificateRequest _ => "Handshake.CertificateRequest"
  | HCertificate _ => "Handshake.Certificate" | HCertificateVerify _ => "Handshake.CertificateVerify" | HFinished _ => "Handshake.Finished"
  | HNewSessionTicket _ => "Handshake.NewSessionTicket" | HKeyUpdate => "Handshake.KeyUpdate" | HUnknown _ _ => "Handshake.Unknown"
  end.
(** record.rs:70-79 [Message::name]. *)
Definition message_name (m : message) : string :=
  match m with
  | MInvalid => "Invalid" | MChangeCipherSpec => "ChangeCipherSpec" | MAlert a => alert_name a | MHandshake h => handshake_name h
  | MApplicationData _ => "ApplicationData" | MUnknown _ => "Unknown"
  end.

(** binary.rs:31-56 [Display for BinaryError]; the texts of the errors of the standard
    library ([utf8], for invalid text) and of boxed errors ([other]) are given. *)
Definition binary_error_text (utf8 other : bytes) (e : berr) : bytes :=
  match e with
  | BPlain s | BString s => ascii_bytes s
  | BOther => other
  | BInvalidUTF8 => utf8
  | BUnexpectedEOF offset expected => ascii_bytes "Unexpcted EOF at offset " ++ decimal (N.of_nat offset) ++ ascii_bytes "; expected " ++ decimal expected ++ ascii_bytes " bytes"
  | BSizeOverflow offset requested => ascii_bytes "Arithmetic overflow at offset " ++ decimal (N.of_nat offset) ++ ascii_bytes "; requested " ++ decimal requested ++ ascii_bytes " bytes"
  | BExpectedEOF offset remaining => ascii_bytes "Unexpected additional " ++ decimal (N.of_nat remaining) ++ ascii_bytes " bytes at offset " ++ decimal (N.of_nat offset)
  | BNothingConsumed offset => ascii_bytes "Reader consumed no data at offset " ++ decimal (N.of_nat offset)
  | BValueTooLarge => ascii_bytes "Value too large"
  end.

(** asn1/value.rs:207-218 [TypeError], with the ranges. *)
Inductive type_error :=
| TSequence (start fin : nat) | TExactSequence (start fin : nat) (expected actual : nat) | TSet (start fin : nat) | TExactSet (start fin : nat) (expected actual : nat)
| TOid (start fin : nat) | TBitString (start fin : nat) | TOctetString (start fin : nat) | TInteger (start fin : nat) | TString (start fin : nat) | TBoolean (start fin : nat).
(** [{:?}] of a [Range<usize>]. *)
Definition range_text (start fin : nat) : bytes := decimal (N.of_nat start) ++ [46; 46] ++ decimal (N.of_nat fin).
(** asn1/value.rs:229-253 [Display for TypeError]. *)
Definition type_error_text (e : type_error) : bytes :=
  match e with
  | TSequence s f => ascii_bytes "Expected a sequence at " ++ range_text s f
  | TExactSequence s f e a => ascii_bytes "Expected a sequence of " ++ decimal (N.of_nat e) ++ ascii_bytes " items, got " ++ decimal (N.of_nat a) ++ ascii_bytes " at " ++ range_text s f
  | TSet s f => ascii_bytes "Expected a set at " ++ range_text s f
  | TExactSet s f e a => ascii_bytes "Expected a set of " ++ decimal (N.of_nat e) ++ ascii_bytes " items, got " ++ decimal (N.of_nat a) ++ ascii_bytes " at " ++ range_text s f
  | TOid s f => ascii_bytes "Expected an object identifier at " ++ range_text s f
  | TBitString s f => ascii_bytes "Expected a bit string at " ++ range_text s f
  | TOctetString s f => ascii_bytes "Expected an octet string at " ++ range_text s f
  | TInteger s f => ascii_bytes "Expected an integer at " ++ range_text s f
  | TString s f => ascii_bytes "Expected a string at " ++ range_text s f
  | TBoolean s f => ascii_bytes "Expected a boolean at " ++ range_text s f
  end.
(** asn1/value.rs:122-204, the accessors, with the errors' ranges (X509Model.v keeps only
    the kinds). *)
Definition acc_sequence (i : item) : outcome type_error (list item) :=
  match item_value i with VSequence l => Ok l | _ => Err (TSequence (item_start i) (item_stop i)) end.
Definition acc_exact_sequence (count : nat) (i : item) : outcome type_error (list item) :=
  let? l := acc_sequence i in
  if (length l =? count)%nat then Ok l else Err (TExactSequence (item_start i) (item_stop i) count (length l)).
Definition acc_set (i : item) : outcome type_error (list item) :=
  match item_value i with VSet l => Ok l | _ => Err (TSet (item_start i) (item_stop i)) end.
Definition acc_exact_set (count : nat) (i : item) : outcome type_error (list item) :=
  let? l := acc_set i in
  if (length l =? count)%nat then Ok l else Err (TExactSet (item_start i) (item_stop i) count (length l)).
Definition acc_oid (i : item) : outcome type_error (list N) :=
  match item_value i with VOid l => Ok l | _ => Err (TOid (item_start i) (item_stop i)) end.
Definition acc_bit_string (i : item) : outcome type_error (N * bytes) :=
  match item_value i with VBitString u d => Ok (u, d) | _ => Err (TBitString (item_start i) (item_stop i)) end.
Definition acc_octet_string (i : item) : outcome type_error bytes :=
  match item_value i with VOctetString d => Ok d | _ => Err (TOctetString (item_start i) (item_stop i)) end.
Definition acc_integer (i : item) : outcome type_error bytes :=
  match item_value i with VInteger d => Ok d | _ => Err (TInteger (item_start i) (item_stop i)) end.
Definition acc_string (i : item) : outcome type_error bytes :=
  match item_value i with VPrintableString s | VUtf8String s => Ok s | _ => Err (TString (item_start i) (item_stop i)) end.
Definition acc_boolean (i : item) : outcome type_error bool :=
  match item_value i with VBoolean b => Ok b | _ => Err (TBoolean (item_start i) (item_stop i)) end.

(** varint.rs:72-76 [Display for DecodeError]: the derived name. *)
Definition varint_error_text (e : decode_error) : string :=
  match e with Overflow => "Overflow" | MissingFinalByte => "MissingFinalByte" | MisplacedFinalByte => "MisplacedFinalByte" end.
(** cid.rs:96-123 [Display for CIDParseError]. *)
Definition cid_error_text (e : cid_error) : string :=
  match e with
  | CEmpty => "Empty CID" | CUnsupportedVersion => "Unsupported version" | CInvalidCodec => "Missing or invalid codec"
  | CInvalidHashType => "Missing or invalid hash type" | CInvalidHashSize => "Missing or invalid hash size" | CHashSizeMismatch => "Hash size mismatch"
  end.
(** fs.rs:54-73 [Display for DecodeError]; [debug] is [{:?}] of a string and [other] the
    text of a protobuf error. *)
Definition fs_error_text (debug : bytes -> bytes) (other : from_pb_error -> bytes) (e : fs_error) : bytes :=
  match e with
  | DMissingData => ascii_bytes "DAG-PB bytes field is None"
  | DEntryMissingFilename index => ascii_bytes "Directory entry " ++ decimal (N.of_nat index) ++ ascii_bytes " has no filename"
  | DEntryMissingSize index => ascii_bytes "Directory entry " ++ decimal (N.of_nat index) ++ ascii_bytes " has no size"
  | DEntryDuplicateFilename name => ascii_bytes "Directory has duplicate filename: " ++ debug name
  | DFileDataAndLinks => ascii_bytes "Node marked as type File, but has data and links present"
  | DOther e => other e
  | DUnimplemented op => ascii_bytes "Unimplemented: " ++ ascii_bytes op
  end.
