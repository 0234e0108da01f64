(** Model of src/bin/x509.rs, the certificate generator and the part of the printer that reads.

    Files are their contents ([None]: cannot be read).  [RsaKeyPair] of the ring crate is a
    parameter: a function from DER to an optional key pair, which is a public key and a signing
    function that may fail.  Texts of errors, console output and the printing of the parsed
    certificate are left out; writing the output file is assumed to succeed. *)
From Verif Require Import Base UtilModel PemModel Asn1Model X509Model.
Local Open Scope string_scope. Local Open Scope list_scope. Local Open Scope N_scope.

(** ring: [RsaKeyPair], its public key and [sign] with RSA_PKCS1_SHA256. *)
Record rsa_keypair := { rk_public : bytes; rk_sign : bytes -> option bytes }.
(** How a command ends: [GLoop] is decode_pem never returning. *)
Inductive command A := GOk (a : A) | GErr | GPanic | GLoop.
Arguments GOk {A} a. Arguments GErr {A}. Arguments GPanic {A}. Arguments GLoop {A}.
Definition gbind {A B} (x : command A) (k : A -> command B) : command B :=
  match x with GOk a => k a | GErr => GErr | GPanic => GPanic | GLoop => GLoop end.
Definition some_or {A} (x : option A) : command A := match x with Some a => GOk a | None => GErr end.
Definition ok_or {E A} (x : outcome E A) : command A := match x with Ok a => GOk a | Err _ => GErr | Panic => GPanic end.
(** bin/x509.rs:98-103, 110-115, 242-243: read a file and take the data under a label. *)
Definition read_pem (file : option bytes) (label : bytes) : command bytes :=
  gbind (some_or file) (fun l => match decode_pem_with_label l label with POk d _ => GOk d | PErr _ => GErr | PLoop => GLoop end).

(** crypto/x509.rs:12-36: the object identifiers used. *)
Definition CRYPTO_RSA_ENCRYPTION : list N := [1; 2; 840; 113549; 1; 1; 1].
Definition CRYPTO_SHA_256_WITH_RSA_ENCRYPTION : list N := [1; 2; 840; 113549; 1; 1; 11].
Definition X509_COMMON_NAME : list N := [2; 5; 4; 3].
Definition X509_COUNTRY_NAME : list N := [2; 5; 4; 6].
Definition X509_ORGANIZATION_NAME : list N := [2; 5; 4; 10].
Definition X509_KEY_USAGE : list N := [2; 5; 29; 15].
Definition X509_BASIC_CONSTRAINTS : list N := [2; 5; 29; 19].
Definition X509_AUTHORITY_KEY_IDENTIFIER : list N := [2; 5; 29; 35].
Definition with_null (oid : list N) : algorithm := {| al_oid := oid; al_params := Some (item_of VNull) |}.
(** bin/x509.rs:127-186: the certificate before it is signed. *)
Definition ca_tbs (serial aki basic usage key : bytes) : tbs :=
  {| tb_version := V3; tb_serial := serial; tb_signature := with_null CRYPTO_SHA_256_WITH_RSA_ENCRYPTION;
     tb_issuer :=
       [{| rdn_id := X509_COUNTRY_NAME; rdn_value := item_of (VPrintableString (ascii_bytes "US")) |};
        {| rdn_id := X509_ORGANIZATION_NAME; rdn_value := item_of (VUtf8String (ascii_bytes "My Personal CA")) |};
        {| rdn_id := X509_COMMON_NAME; rdn_value := item_of (VUtf8String (ascii_bytes "my.personal.ca")) |}];
     tb_validity := {| va_before := TUtc (ascii_bytes "210515162539Z"); va_after := TUtc (ascii_bytes "220312162539Z") |};
     tb_subject := [{| rdn_id := X509_COMMON_NAME; rdn_value := item_of (VUtf8String (ascii_bytes "client")) |}];
     tb_key := {| sp_alg := with_null CRYPTO_RSA_ENCRYPTION; sp_key := {| bs_unused := 0; bs_bytes := key |} |};
     tb_issuer_id := None; tb_subject_id := None;
     tb_extensions :=
       [{| ex_id := X509_AUTHORITY_KEY_IDENTIFIER; ex_critical := false; ex_data := aki |};
        {| ex_id := X509_BASIC_CONSTRAINTS; ex_critical := false; ex_data := basic |};
        {| ex_id := X509_KEY_USAGE; ex_critical := false; ex_data := usage |}] |}.
(** bin/x509.rs:223-238 [wrap_signature]. *)
Definition wrap_signature (t : tbs) (a : algorithm) (v : bit_string) : command bytes :=
  ok_or (encode_item (item_of (VSequence [tbs_to t; algorithm_to a; bits_to v]))).
(** bin/x509.rs:194-221 [sign_tbs_certificate]. *)
Definition ca_sign_tbs (t : tbs) (signer : rsa_keypair) : command bytes :=
  gbind (ok_or (encode_item (tbs_to t))) (fun encoded =>
  gbind (some_or (rk_sign signer encoded)) (fun signature =>
  wrap_signature t (with_null CRYPTO_SHA_256_WITH_RSA_ENCRYPTION) {| bs_unused := 0; bs_bytes := signature |})).
(** bin/x509.rs:82-192 [generate]: the contents of the output file. *)
Definition generate (from_der : bytes -> option rsa_keypair) (subject signer : option bytes) : command bytes :=
  gbind (some_or (from_hex (ascii_bytes "00fece0a9eaa3eddc3"))) (fun serial =>
  gbind (some_or (from_hex (ascii_bytes "3050a143a441303f310b300906035504061302555331173015060355040a0c0e4d7920506572736f6e" ++
                            ascii_bytes "616c2043413117301506035504030c0e6d792e706572736f6e616c2e6361820900d7c3d885fa68751d"))) (fun aki =>
  gbind (some_or (from_hex (ascii_bytes "3000"))) (fun basic =>
  gbind (some_or (from_hex (ascii_bytes "030204f0"))) (fun usage =>
  gbind (read_pem subject (ascii_bytes "RSA PRIVATE KEY")) (fun sd =>
  gbind (some_or (from_der sd)) (fun sk =>
  gbind (read_pem signer (ascii_bytes "RSA PRIVATE KEY")) (fun cd =>
  gbind (some_or (from_der cd)) (fun ck =>
  gbind (ca_sign_tbs (ca_tbs serial aki basic usage (rk_public sk)) ck) (fun d =>
  GOk (encode_pem d (ascii_bytes "CERTIFICATE"))))))))))).
(** bin/x509.rs:240-250 [print]: the certificate that is printed. *)
Definition print_parsed (file : option bytes) : command certificate :=
  gbind (read_pem file (ascii_bytes "CERTIFICATE")) (fun d => ok_or (certificate_from_bytes d)).
