(** Model of the TLS code points: the enumerations of src/tls/types/record.rs, alert.rs,
    handshake.rs and extension.rs with their conversions from and to raw codes.

    Names are the code's names with a prefix for the type; the [Debug] output is left out.
    Where the code converts while reading or writing ([from_binary], [to_binary]), the
    conversion is separated here from the reading or writing of the number. *)
From Verif Require Import Base.

(** record.rs:16 [ContentType]. *)
Inductive content_type :=
  | CtInvalid | CtChangeCipherSpec | CtAlert | CtHandshake | CtApplicationData | CtUnknown (code : N).
(** record.rs:28-33: from the raw code. *)
Definition content_type_from (code : N) : content_type :=
  if code =? 0 then CtInvalid else if code =? 20 then CtChangeCipherSpec else if code =? 21 then CtAlert else
  if code =? 22 then CtHandshake else if code =? 23 then CtApplicationData else CtUnknown code.
(** record.rs:39-44: to the raw code. *)
Definition content_type_to (x : content_type) : N :=
  match x with
  | CtInvalid => 0 | CtChangeCipherSpec => 20 | CtAlert => 21 | CtHandshake => 22 | CtApplicationData => 23 | CtUnknown code => code
  end.
(** alert.rs:4 [AlertLevel]. *)
Inductive alert_level :=
  | AlWarning | AlFatal | AlUnknown (code : N).
(** alert.rs:13-15: from the raw code. *)
Definition alert_level_from (code : N) : alert_level :=
  if code =? 1 then AlWarning else if code =? 2 then AlFatal else AlUnknown code.
(** alert.rs:21-23: to the raw code. *)
Definition alert_level_to (x : alert_level) : N :=
  match x with
  | AlWarning => 1 | AlFatal => 2 | AlUnknown code => code
  end.
(** alert.rs:43 [AlertDescription]. *)
Inductive alert_description :=
  | AdCloseNotify | AdUnexpectedMessage | AdBadRecordMac | AdRecordOverflow | AdHandshakeFailure
  | AdBadCertificate | AdUnsupportedCertificate | AdCertificateRevoked | AdCertificateExpired
  | AdCertificateUnknown | AdIllegalParameter | AdUnknownCa | AdAccessDenied | AdDecodeError | AdDecryptError
  | AdProtocolVersion | AdInsufficientSecurity | AdInternalError | AdInappropriateFallback | AdUserCanceled
  | AdMissingExtension | AdUnsupportedExtension | AdUnrecognizedName | AdBadCertificateStatusResponse
  | AdUnknownPskIdentity | AdCertificateRequired | AdNoApplicationProtocol | AdUnknown (code : N).
(** alert.rs:77-104: from the raw code. *)
Definition alert_description_from (code : N) : alert_description :=
  if code =? 0 then AdCloseNotify else if code =? 10 then AdUnexpectedMessage else
  if code =? 20 then AdBadRecordMac else if code =? 22 then AdRecordOverflow else
  if code =? 40 then AdHandshakeFailure else if code =? 42 then AdBadCertificate else
  if code =? 43 then AdUnsupportedCertificate else if code =? 44 then AdCertificateRevoked else
  if code =? 45 then AdCertificateExpired else if code =? 46 then AdCertificateUnknown else
  if code =? 47 then AdIllegalParameter else if code =? 48 then AdUnknownCa else
  if code =? 49 then AdAccessDenied else if code =? 50 then AdDecodeError else
  if code =? 51 then AdDecryptError else if code =? 70 then AdProtocolVersion else
  if code =? 71 then AdInsufficientSecurity else if code =? 80 then AdInternalError else
  if code =? 86 then AdInappropriateFallback else if code =? 90 then AdUserCanceled else
  if code =? 109 then AdMissingExtension else if code =? 110 then AdUnsupportedExtension else
  if code =? 112 then AdUnrecognizedName else if code =? 113 then AdBadCertificateStatusResponse else
  if code =? 115 then AdUnknownPskIdentity else if code =? 116 then AdCertificateRequired else
  if code =? 120 then AdNoApplicationProtocol else AdUnknown code.
(** alert.rs:110-137: to the raw code. *)
Definition alert_description_to (x : alert_description) : N :=
  match x with
  | AdCloseNotify => 0 | AdUnexpectedMessage => 10 | AdBadRecordMac => 20 | AdRecordOverflow => 22
  | AdHandshakeFailure => 40 | AdBadCertificate => 42 | AdUnsupportedCertificate => 43
  | AdCertificateRevoked => 44 | AdCertificateExpired => 45 | AdCertificateUnknown => 46
  | AdIllegalParameter => 47 | AdUnknownCa => 48 | AdAccessDenied => 49 | AdDecodeError => 50
  | AdDecryptError => 51 | AdProtocolVersion => 70 | AdInsufficientSecurity => 71 | AdInternalError => 80
  | AdInappropriateFallback => 86 | AdUserCanceled => 90 | AdMissingExtension => 109
  | AdUnsupportedExtension => 110 | AdUnrecognizedName => 112 | AdBadCertificateStatusResponse => 113
  | AdUnknownPskIdentity => 115 | AdCertificateRequired => 116 | AdNoApplicationProtocol => 120 | AdUnknown code => code
  end.
(** handshake.rs:138 [CipherSuite]. *)
Inductive cipher_suite :=
  | CsTLSAES128GCMSHA256 | CsTLSAES256GCMSHA384 | CsTLSCHACHA20POLY1305SHA256 | CsTLSAES128CCMSHA256
  | CsTLSAES128CCM8SHA256 | CsUnknown (code : N).
(** handshake.rs:151-156: from the raw code. *)
Definition cipher_suite_from (code : N) : cipher_suite :=
  if code =? 0x1301 then CsTLSAES128GCMSHA256 else if code =? 0x1302 then CsTLSAES256GCMSHA384 else
  if code =? 0x1303 then CsTLSCHACHA20POLY1305SHA256 else if code =? 0x1304 then CsTLSAES128CCMSHA256 else
  if code =? 0x1305 then CsTLSAES128CCM8SHA256 else CsUnknown code.
(** handshake.rs:164-169: to the raw code. *)
Definition cipher_suite_to (x : cipher_suite) : N :=
  match x with
  | CsTLSAES128GCMSHA256 => 0x1301 | CsTLSAES256GCMSHA384 => 0x1302 | CsTLSCHACHA20POLY1305SHA256 => 0x1303
  | CsTLSAES128CCMSHA256 => 0x1304 | CsTLSAES128CCM8SHA256 => 0x1305 | CsUnknown code => code
  end.
(** extension.rs:32 [SignatureScheme]. *)
Inductive signature_scheme :=
  | SsRsaPkcs1Sha256 | SsRsaPkcs1Sha384 | SsRsaPkcs1Sha512 | SsEcdsaSecp256r1Sha256 | SsEcdsaSecp384r1Sha384
  | SsEcdsaSecp521r1Sha512 | SsRsaPssRsaeSha256 | SsRsaPssRsaeSha384 | SsRsaPssRsaeSha512 | SsEd25519 | SsEd448
  | SsRsaPssPssSha256 | SsRsaPssPssSha384 | SsRsaPssPssSha512 | SsRsaPkcs1Sha1 | SsEcdsaSha1
  | SsUnknown (code : N).
(** extension.rs:55-76: from the raw code. *)
Definition signature_scheme_from (code : N) : signature_scheme :=
  if code =? 0x0401 then SsRsaPkcs1Sha256 else if code =? 0x0501 then SsRsaPkcs1Sha384 else
  if code =? 0x0601 then SsRsaPkcs1Sha512 else if code =? 0x0403 then SsEcdsaSecp256r1Sha256 else
  if code =? 0x0503 then SsEcdsaSecp384r1Sha384 else if code =? 0x0603 then SsEcdsaSecp521r1Sha512 else
  if code =? 0x0804 then SsRsaPssRsaeSha256 else if code =? 0x0805 then SsRsaPssRsaeSha384 else
  if code =? 0x0806 then SsRsaPssRsaeSha512 else if code =? 0x0807 then SsEd25519 else
  if code =? 0x0808 then SsEd448 else if code =? 0x0809 then SsRsaPssPssSha256 else
  if code =? 0x080a then SsRsaPssPssSha384 else if code =? 0x080b then SsRsaPssPssSha512 else
  if code =? 0x0201 then SsRsaPkcs1Sha1 else if code =? 0x0203 then SsEcdsaSha1 else SsUnknown code.
(** extension.rs:115-136: to the raw code. *)
Definition signature_scheme_to (x : signature_scheme) : N :=
  match x with
  | SsRsaPkcs1Sha256 => 0x0401 | SsRsaPkcs1Sha384 => 0x0501 | SsRsaPkcs1Sha512 => 0x0601
  | SsEcdsaSecp256r1Sha256 => 0x0403 | SsEcdsaSecp384r1Sha384 => 0x0503 | SsEcdsaSecp521r1Sha512 => 0x0603
  | SsRsaPssRsaeSha256 => 0x0804 | SsRsaPssRsaeSha384 => 0x0805 | SsRsaPssRsaeSha512 => 0x0806
  | SsEd25519 => 0x0807 | SsEd448 => 0x0808 | SsRsaPssPssSha256 => 0x0809 | SsRsaPssPssSha384 => 0x080a
  | SsRsaPssPssSha512 => 0x080b | SsRsaPkcs1Sha1 => 0x0201 | SsEcdsaSha1 => 0x0203 | SsUnknown code => code
  end.
(** extension.rs:193 [NamedGroup]. *)
Inductive named_group :=
  | NgSecp256r1 | NgSecp384r1 | NgSecp521r1 | NgX25519 | NgX448 | NgFfdhe2048 | NgFfdhe3072 | NgFfdhe4096
  | NgFfdhe6144 | NgFfdhe8192 | NgUnknown (code : N).
(** extension.rs:224-234: from the raw code. *)
Definition named_group_from (code : N) : named_group :=
  if code =? 0x0017 then NgSecp256r1 else if code =? 0x0018 then NgSecp384r1 else
  if code =? 0x0019 then NgSecp521r1 else if code =? 0x001D then NgX25519 else
  if code =? 0x001E then NgX448 else if code =? 0x0100 then NgFfdhe2048 else
  if code =? 0x0101 then NgFfdhe3072 else if code =? 0x0102 then NgFfdhe4096 else
  if code =? 0x0103 then NgFfdhe6144 else if code =? 0x0104 then NgFfdhe8192 else NgUnknown code.
(** extension.rs:242-252: to the raw code. *)
Definition named_group_to (x : named_group) : N :=
  match x with
  | NgSecp256r1 => 0x0017 | NgSecp384r1 => 0x0018 | NgSecp521r1 => 0x0019 | NgX25519 => 0x001D
  | NgX448 => 0x001E | NgFfdhe2048 => 0x0100 | NgFfdhe3072 => 0x0101 | NgFfdhe4096 => 0x0102
  | NgFfdhe6144 => 0x0103 | NgFfdhe8192 => 0x0104 | NgUnknown code => code
  end.
(** extension.rs:277 [NamedCurve]. *)
Inductive named_curve :=
  | NcSect163k1 | NcSect163r1 | NcSect163r2 | NcSect193r1 | NcSect193r2 | NcSect233k1 | NcSect233r1
  | NcSect239k1 | NcSect283k1 | NcSect283r1 | NcSect409k1 | NcSect409r1 | NcSect571k1 | NcSect571r1
  | NcSecp160k1 | NcSecp160r1 | NcSecp160r2 | NcSecp192k1 | NcSecp192r1 | NcSecp224k1 | NcSecp224r1
  | NcSecp256k1 | NcSecp256r1 | NcSecp384r1 | NcSecp521r1 | NcX25519 | NcX448 | NcArbitraryExplicitPrimeCurves
  | NcArbitraryExplicitChar2Curves | NcOther (code : N).
(** extension.rs:315-344: from the raw code. *)
Definition named_curve_from (code : N) : named_curve :=
  if code =? 1 then NcSect163k1 else if code =? 2 then NcSect163r1 else if code =? 3 then NcSect163r2 else
  if code =? 4 then NcSect193r1 else if code =? 5 then NcSect193r2 else if code =? 6 then NcSect233k1 else
  if code =? 7 then NcSect233r1 else if code =? 8 then NcSect239k1 else if code =? 9 then NcSect283k1 else
  if code =? 10 then NcSect283r1 else if code =? 11 then NcSect409k1 else if code =? 12 then NcSect409r1 else
  if code =? 13 then NcSect571k1 else if code =? 14 then NcSect571r1 else if code =? 15 then NcSecp160k1 else
  if code =? 16 then NcSecp160r1 else if code =? 17 then NcSecp160r2 else if code =? 18 then NcSecp192k1 else
  if code =? 19 then NcSecp192r1 else if code =? 20 then NcSecp224k1 else if code =? 21 then NcSecp224r1 else
  if code =? 22 then NcSecp256k1 else if code =? 23 then NcSecp256r1 else if code =? 24 then NcSecp384r1 else
  if code =? 25 then NcSecp521r1 else if code =? 29 then NcX25519 else if code =? 30 then NcX448 else
  if code =? 0xFF01 then NcArbitraryExplicitPrimeCurves else
  if code =? 0xFF02 then NcArbitraryExplicitChar2Curves else NcOther code.
(** extension.rs:352-381: to the raw code. *)
Definition named_curve_to (x : named_curve) : N :=
  match x with
  | NcSect163k1 => 1 | NcSect163r1 => 2 | NcSect163r2 => 3 | NcSect193r1 => 4 | NcSect193r2 => 5
  | NcSect233k1 => 6 | NcSect233r1 => 7 | NcSect239k1 => 8 | NcSect283k1 => 9 | NcSect283r1 => 10
  | NcSect409k1 => 11 | NcSect409r1 => 12 | NcSect571k1 => 13 | NcSect571r1 => 14 | NcSecp160k1 => 15
  | NcSecp160r1 => 16 | NcSecp160r2 => 17 | NcSecp192k1 => 18 | NcSecp192r1 => 19 | NcSecp224k1 => 20
  | NcSecp224r1 => 21 | NcSecp256k1 => 22 | NcSecp256r1 => 23 | NcSecp384r1 => 24 | NcSecp521r1 => 25
  | NcX25519 => 29 | NcX448 => 30 | NcArbitraryExplicitPrimeCurves => 0xFF01
  | NcArbitraryExplicitChar2Curves => 0xFF02 | NcOther code => code
  end.
(** extension.rs:388 [ECPointFormat]. *)
Inductive point_format :=
  | PfUncompressed | PfANSIX962CompressedPrime | PfANSIX962CompressedChar2 | PfOther (code : N).
(** extension.rs:400-403: from the raw code. *)
Definition point_format_from (code : N) : point_format :=
  if code =? 0 then PfUncompressed else if code =? 1 then PfANSIX962CompressedPrime else
  if code =? 2 then PfANSIX962CompressedChar2 else PfOther code.
(** extension.rs:411-414: to the raw code. *)
Definition point_format_to (x : point_format) : N :=
  match x with
  | PfUncompressed => 0 | PfANSIX962CompressedPrime => 1 | PfANSIX962CompressedChar2 => 2 | PfOther code => code
  end.
(** extension.rs:420 [PskKeyExchangeMode]. *)
Inductive psk_mode :=
  | PmPskKe | PmPskDheKe | PmUnknown (code : N).
(** extension.rs:431-433: from the raw code. *)
Definition psk_mode_from (code : N) : psk_mode :=
  if code =? 0 then PmPskKe else if code =? 1 then PmPskDheKe else PmUnknown code.
(** extension.rs:441-443: to the raw code. *)
Definition psk_mode_to (x : psk_mode) : N :=
  match x with
  | PmPskKe => 0 | PmPskDheKe => 1 | PmUnknown code => code
  end.
