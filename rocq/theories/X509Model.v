(** Model of src/crypto/x509.rs (certificates to and from ASN.1 items), of the accessors of
    src/formats/asn1/value.rs and of src/libp2p/tls.rs (generating a certificate).

    Simplifications: a [TypeError] keeps its kind but not the byte range it carries; text is
    its bytes; the printing functions are in X509PrintModel.v. *)
From Verif Require Import Base ProtobufModel BinaryModel Asn1Model IdentifyModel.
Local Open Scope string_scope. Local Open Scope list_scope. Local Open Scope N_scope.

(** x509.rs:52-57 [ParseError]. *)
Inductive perror := XPlain (s : string) | XType (s : string) | XReader (e : berr).
Definition px := outcome perror.

(** *** value.rs *)
(** value.rs:122-134 [as_sequence_iter], [as_sequence]. *)
Definition as_sequence (i : item) : px (list item) := match item_value i with VSequence l => Ok l | _ => Err (XType "ExpectedSequence") end.
(** value.rs:136-144 [as_exact_sequence]. *)
Definition as_exact_sequence (i : item) (count : nat) : px (list item) :=
  let? l := as_sequence i in if negb (length l =? count)%nat then Err (XType "ExpectedExactSequence") else Ok l.
(** value.rs:146-151 [as_set]. *)
Definition as_set (i : item) : px (list item) := match item_value i with VSet l => Ok l | _ => Err (XType "ExpectedSet") end.
(** value.rs:153-161 [as_exact_set]. *)
Definition as_exact_set (i : item) (count : nat) : px (list item) :=
  let? l := as_set i in if negb (length l =? count)%nat then Err (XType "ExpectedExactSet") else Ok l.
(** value.rs:163-168 [as_object_identifier]. *)
Definition as_oid (i : item) : px (list N) := match item_value i with VOid a => Ok a | _ => Err (XType "ExpectedObjectIdentifier") end.
(** value.rs:45-49 [BitString]. *)
Record bit_string := { bs_unused : N; bs_bytes : bytes }.
(** value.rs:170-175 [as_bit_string]. *)
Definition as_bit_string (i : item) : px bit_string :=
  match item_value i with VBitString u d => Ok {| bs_unused := u; bs_bytes := d |} | _ => Err (XType "ExpectedBitString") end.
(** value.rs:177-182 [as_octet_string]. *)
Definition as_octet_string (i : item) : px bytes := match item_value i with VOctetString d => Ok d | _ => Err (XType "ExpectedOctetString") end.
(** value.rs:184-189 [as_integer]. *)
Definition as_integer (i : item) : px bytes := match item_value i with VInteger d => Ok d | _ => Err (XType "ExpectedInteger") end.
(** [it.next().ok_or(..)?] on a slice iterator. *)
Definition next (msg : string) (it : list item) : px (item * list item) :=
  match it with [] => Err (XPlain msg) | e :: t => Ok (e, t) end.
(** [elements[k]]: panics when out of range. *)
Definition elem (l : list item) (k : nat) : px item := match nth_error l k with Some e => Ok e | None => Panic end.

(** *** x509.rs *)
(** x509.rs:87-90 [AlgorithmIdentifier]. *)
Record algorithm := { al_oid : list N; al_params : option item }.
(** x509.rs:93-109 [AlgorithmIdentifier::from_asn1]. *)
Definition algorithm_from (i : item) : px algorithm :=
  let? it := as_sequence i in
  let? p := next "Missing algorithm" it in
  let (e, it) := p in
  let? a := as_oid e in
  match it with
  | [] => Ok {| al_oid := a; al_params := None |}
  | [e] => Ok {| al_oid := a; al_params := Some e |}
  | _ => Err (XPlain "Unexpected value")
  end.
(** x509.rs:111-118 [AlgorithmIdentifier::to_asn1]. *)
Definition algorithm_to (a : algorithm) : item :=
  item_of (VSequence (item_of (VOid (al_oid a)) :: match al_params a with Some p => [p] | None => [] end)).
(** x509.rs:176-180 [Version]. *)
Inductive version := V1 | V2 | V3.
(** x509.rs:183-195 [Version::from_asn1]. *)
Definition version_from (i : item) : px version :=
  let? d := as_integer i in
  if negb (length d =? 1)%nat then Err (XPlain "Invalid version")
  else match d with
       | 0 :: _ => Ok V1 | 1 :: _ => Ok V2 | 2 :: _ => Ok V3
       | [] => Panic
       | _ => Err (XPlain "Invalid version")
       end.
(** x509.rs:197-203 [Version::to_asn1]. *)
Definition version_to (v : version) : item := item_of (VInteger [match v with V1 => 0 | V2 => 1 | V3 => 2 end]).
(** x509.rs:207-210 [RelativeDistinguishedName]. *)
Record rdn := { rdn_id : list N; rdn_value : item }.
(** x509.rs:213-220 [RelativeDistinguishedName::from_asn1]. *)
Definition rdn_from (i : item) : px rdn :=
  let? s := as_exact_set i 1 in
  let? e := elem s 0 in
  let? l := as_exact_sequence e 2 in
  let? a := elem l 0 in
  let? id := as_oid a in
  let? v := elem l 1 in
  Ok {| rdn_id := id; rdn_value := v |}.
(** x509.rs:222-229 [RelativeDistinguishedName::to_asn1]. *)
Definition rdn_to (r : rdn) : item :=
  item_of (VSet [item_of (VSequence [item_of (VOid (rdn_id r)); rdn_value r])]).
(** The loops of x509.rs:241-243 and 470-472. *)
Fixpoint each {A} (f : item -> px A) (l : list item) : px (list A) :=
  match l with
  | [] => Ok []
  | i :: t => let? a := f i in let? r := each f t in Ok (a :: r)
  end.
(** x509.rs:233-246 [Name::from_asn1]; a name is its parts. *)
Definition name_from (i : item) : px (list rdn) := let? l := as_sequence i in each rdn_from l.
(** x509.rs:248-254 [Name::to_asn1]. *)
Definition name_to (n : list rdn) : item := item_of (VSequence (map rdn_to n)).
(** x509.rs:257-280 [UTCTime], [GeneralizedTime], [Time]. *)
Inductive time := TUtc (s : bytes) | TGeneralized (s : bytes).
(** x509.rs:283-289 [Time::from_asn1]. *)
Definition time_from (i : item) : px time :=
  match item_value i with
  | VUtcTime s => Ok (TUtc s)
  | VGeneralizedTime s => Ok (TGeneralized s)
  | _ => Err (XPlain "Expected a UTCTime or GeneralizedTime")
  end.
(** x509.rs:291-296 [Time::to_asn1]. *)
Definition time_to (t : time) : item := item_of match t with TUtc s => VUtcTime s | TGeneralized s => VGeneralizedTime s end.
(** x509.rs:299-302 [Validity]. *)
Record validity := { va_before : time; va_after : time }.
(** x509.rs:305-310 [Validity::from_asn1]. *)
Definition validity_from (i : item) : px validity :=
  let? l := as_exact_sequence i 2 in
  let? a := elem l 0 in let? b := time_from a in
  let? c := elem l 1 in let? d := time_from c in
  Ok {| va_before := b; va_after := d |}.
(** x509.rs:312-316 [Validity::to_asn1]. *)
Definition validity_to (v : validity) : item := item_of (VSequence [time_to (va_before v); time_to (va_after v)]).
(** x509.rs:319-322 [SubjectPublicKeyInfo]. *)
Record spki := { sp_alg : algorithm; sp_key : bit_string }.
(** x509.rs:325-333 [SubjectPublicKeyInfo::from_asn1]. *)
Definition spki_from (i : item) : px spki :=
  let? l := as_exact_sequence i 2 in
  let? a := elem l 0 in let? b := algorithm_from a in
  let? c := elem l 1 in let? d := as_bit_string c in
  Ok {| sp_alg := b; sp_key := d |}.
Definition bits_to (b : bit_string) : item := item_of (VBitString (bs_unused b) (bs_bytes b)).
(** x509.rs:335-339 [SubjectPublicKeyInfo::to_asn1]. *)
Definition spki_to (s : spki) : item := item_of (VSequence [algorithm_to (sp_alg s); bits_to (sp_key s)]).
(** x509.rs:351-355 [Extension]. *)
Record extension := { ex_id : list N; ex_critical : bool; ex_data : bytes }.
(** x509.rs:358-372 [Extension::from_asn1]. *)
Definition extension_from (i : item) : px extension :=
  let? it := as_sequence i in
  let? p := next "Missing element" it in
  let (e, it) := p in
  let? id := as_oid e in
  let? p := next "Missing element" it in
  let (e, it) := p in
  match item_value e with
  | VBoolean b =>
    let? p := next "Missing element" it in
    let? d := as_octet_string (fst p) in Ok {| ex_id := id; ex_critical := b; ex_data := d |}
  | _ => let? d := as_octet_string e in Ok {| ex_id := id; ex_critical := false; ex_data := d |}
  end.
(** x509.rs:374-382 [Extension::to_asn1]. *)
Definition extension_to (x : extension) : item :=
  item_of (VSequence (item_of (VOid (ex_id x)) ::
    (if ex_critical x then [item_of (VBoolean (ex_critical x))] else []) ++ [item_of (VOctetString (ex_data x))])).
(** x509.rs:391-402 [TBSCertificate]. *)
Record tbs := {
  tb_version : version; tb_serial : bytes; tb_signature : algorithm; tb_issuer : list rdn; tb_validity : validity;
  tb_subject : list rdn; tb_key : spki; tb_issuer_id : option bytes; tb_subject_id : option bytes; tb_extensions : list extension }.
(** x509.rs:405-432 [TBSCertificate::to_asn1]. *)
Definition tbs_to (t : tbs) : item :=
  item_of (VSequence [
    item_of (VContextSpecific 0 (version_to (tb_version t)));
    item_of (VInteger (tb_serial t));
    algorithm_to (tb_signature t);
    name_to (tb_issuer t);
    validity_to (tb_validity t);
    name_to (tb_subject t);
    spki_to (tb_key t);
    item_of (VContextSpecific 3 (item_of (VSequence (map extension_to (tb_extensions t)))))]).
(** x509.rs:434-493 [TBSCertificate::from_asn1]. *)
Definition tbs_from (i : item) : px tbs :=
  let? it := as_sequence i in
  let? p := next "Missing version" it in
  let (e, it) := p in
  let? p := match item_value e with
            | VContextSpecific 0 child =>
              let? v := version_from child in
              let? p := next "Missing serial_number" it in Ok (v, p)
            | _ => Ok (V1, (e, it))
            end in
  let '(v, (e, it)) := p in
  let? serial := as_integer e in
  let? p := next "Missing signature" it in let (e, it) := p in
  let? signature := algorithm_from e in
  let? p := next "Missing issuer" it in let (e, it) := p in
  let? issuer := name_from e in
  let? p := next "Missing validity" it in let (e, it) := p in
  let? vali := validity_from e in
  let? p := next "Missing subject" it in let (e, it) := p in
  let? subject := name_from e in
  let? p := next "Missing subject_public_key_info" it in let (e, it) := p in
  let? key := spki_from e in
  let? exts := match it with
               | [] => Ok []
               | e :: _ =>
                 match item_value e with
                 | VContextSpecific 3 c => let? l := as_sequence c in each extension_from l
                 | _ => Err (XPlain "Unexpected value for extension")
                 end
               end in
  match it with
  | _ :: _ :: _ => Err (XPlain "Unexpected value")
  | _ => Ok {| tb_version := v; tb_serial := serial; tb_signature := signature; tb_issuer := issuer; tb_validity := vali;
               tb_subject := subject; tb_key := key; tb_issuer_id := None; tb_subject_id := None; tb_extensions := exts |}
  end.
(** x509.rs:134-138 [Certificate]. *)
Record certificate := { ce_tbs : tbs; ce_alg : algorithm; ce_value : bit_string }.
(** x509.rs:147-165 [Certificate::from_asn1]. *)
Definition certificate_from (i : item) : px certificate :=
  let? l := as_exact_sequence i 3 in
  let? a := elem l 0 in let? t := tbs_from a in
  let? b := elem l 1 in let? g := algorithm_from b in
  let? c := elem l 2 in
  let? v := match item_value c with
            | VBitString u d => Ok {| bs_unused := u; bs_bytes := d |}
            | _ => Err (XPlain "Certificate: Expected elements[2] to be a bit string")
            end in
  Ok {| ce_tbs := t; ce_alg := g; ce_value := v |}.
(** x509.rs:167-173 [Certificate::to_asn1]. *)
Definition certificate_to (c : certificate) : item :=
  item_of (VSequence [tbs_to (ce_tbs c); algorithm_to (ce_alg c); bits_to (ce_value c)]).
(** x509.rs:141-145 [Certificate::from_bytes]. *)
Definition certificate_from_bytes (d : bytes) : px certificate :=
  match fst (read_der (new_reader d)) with
  | Ok i => certificate_from i
  | Err e => Err (XReader e)
  | Panic => Panic
  end.

(** *** libp2p/tls.rs *)
(** x509.rs:43 [CRYPTO_ED25519]; x509.rs:13 [X509_SERIAL_NUMBER]; tls.rs:154. *)
Definition CRYPTO_ED25519 : list N := [1; 3; 101; 112].
Definition X509_SERIAL_NUMBER : list N := [2; 5; 4; 5].
Definition LIBP2P_EXT : list N := [1; 3; 6; 1; 4; 1; 53594; 1; 1].
Definition ed25519 : algorithm := {| al_oid := CRYPTO_ED25519; al_params := None |}.
(** An Ed25519 key pair of ring: its public key and its signing function, both arbitrary. *)
Record keypair := { kp_public : bytes; kp_sign : bytes -> bytes }.
Definition key_info (k : keypair) : spki := {| sp_alg := ed25519; sp_key := {| bs_unused := 0; bs_bytes := kp_public k |} |}.
(** tls.rs:84-108 [make_signature]. *)
Definition make_signature (x509 host : keypair) : outcome werr bytes :=
  let? info := encode_item (spki_to (key_info x509)) in
  Ok (kp_sign host (ascii_bytes "libp2p-tls-handshake:" ++ info)).
(** tls.rs:67-82 [generate_libp2p_ext]. *)
Definition generate_libp2p_ext (public signature : bytes) : outcome werr bytes :=
  encode_item (item_of (VSequence [
    item_of (VOctetString (key_to_pb {| pk_type := KEd25519; pk_data := public |}));
    item_of (VOctetString signature)])).
(** tls.rs:114-159: the certificate's body; the two formatted times are parameters. *)
Definition own_name : list rdn := [{| rdn_id := X509_SERIAL_NUMBER; rdn_value := item_of (VPrintableString (ascii_bytes "1")) |}].
Definition own_tbs (x509 : keypair) (ext before after : bytes) : tbs :=
  {| tb_version := V3; tb_serial := [1]; tb_signature := ed25519; tb_issuer := own_name;
     tb_validity := {| va_before := TGeneralized before; va_after := TGeneralized after |};
     tb_subject := own_name; tb_key := key_info x509; tb_issuer_id := None; tb_subject_id := None;
     tb_extensions := [{| ex_id := LIBP2P_EXT; ex_critical := true; ex_data := ext |}] |}.
(** tls.rs:165-199 [sign_tbs_certificate], [wrap_signature]. *)
Definition sign_tbs_certificate (t : tbs) (x509 : keypair) : outcome werr bytes :=
  let? e := encode_item (tbs_to t) in
  encode_item (item_of (VSequence [tbs_to t; algorithm_to ed25519; bits_to {| bs_unused := 0; bs_bytes := kp_sign x509 e |}])).
(** tls.rs:57-65 and 110-163 [generate_certificate], [generate_certificate_inner]. *)
Definition generate_certificate (x509 host : keypair) (before after : bytes) : outcome werr bytes :=
  let? signature := make_signature x509 host in
  let? ext := generate_libp2p_ext (kp_public host) signature in
  sign_tbs_certificate (own_tbs x509 ext before after) x509.
