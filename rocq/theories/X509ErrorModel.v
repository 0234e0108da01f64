(** Model of the errors of src/crypto/x509.rs: 52-83 ([ParseError] and its text) and 92-493
    (the [from_asn1] functions), with the byte ranges that the errors of
    src/formats/asn1/value.rs 122-189 carry.  X509Model.v models the same functions but keeps
    only the kind of a [TypeError]; X509ErrorProps.v proves that the two agree.

    Simplifications: text is its bytes; the [{:?}] text of a [ParseError] (derived, the name of
    the case around the text below) is not modelled. *)
From Coq Require Import String.
From Verif Require Import Base ProtobufModel BinaryModel Asn1Model NamesModel X509Model.
Local Open Scope string_scope. Local Open Scope list_scope. Local Open Scope N_scope.

(** x509.rs:51-56 [ParseError]. *)
Inductive parse_error := PePlain (s : string) | PeType (e : type_error) | PeReader (e : berr).
Definition pex := outcome parse_error.
(** x509.rs:60-68 [Display for ParseError]; reader.rs:51-58 [Display for Error] passes the
    text of its inner error on.  [utf8] and [other] are the texts of the standard library's
    and of boxed errors. *)
Definition parse_error_text (utf8 other : bytes) (e : parse_error) : bytes :=
  match e with
  | PePlain s => ascii_bytes s
  | PeType e => type_error_text e
  | PeReader e => binary_error_text utf8 other e
  end.
(** x509.rs:76-80 [From<TypeError>]: [?] on an accessor. *)
Definition typed {A} (x : outcome type_error A) : pex A := map_err PeType x.
(** [it.next().ok_or(..)?] on a slice iterator. *)
Definition next_item (msg : string) (it : list item) : pex (item * list item) :=
  match it with [] => Err (PePlain msg) | e :: t => Ok (e, t) end.
(** [elements[k]]: panics when out of range. *)
Definition element (l : list item) (k : nat) : pex item := match nth_error l k with Some e => Ok e | None => Panic end.
(** x509.rs:93-109 [AlgorithmIdentifier::from_asn1]. *)
Definition parse_algorithm (i : item) : pex algorithm :=
  let? it := typed (acc_sequence i) in
  let? p := next_item "Missing algorithm" it in
  let (e, it) := p in
  let? a := typed (acc_oid e) in
  match it with
  | [] => Ok {| al_oid := a; al_params := None |}
  | [e] => Ok {| al_oid := a; al_params := Some e |}
  | _ => Err (PePlain "Unexpected value")
  end.
(** x509.rs:183-195 [Version::from_asn1]. *)
Definition parse_version (i : item) : pex version :=
  let? d := typed (acc_integer i) in
  if negb (length d =? 1)%nat then Err (PePlain "Invalid version")
  else match d with
       | 0 :: _ => Ok V1 | 1 :: _ => Ok V2 | 2 :: _ => Ok V3
       | [] => Panic
       | _ => Err (PePlain "Invalid version")
       end.
(** x509.rs:213-220 [RelativeDistinguishedName::from_asn1]. *)
Definition parse_rdn (i : item) : pex rdn :=
  let? s := typed (acc_exact_set 1 i) in
  let? e := element s 0 in
  let? l := typed (acc_exact_sequence 2 e) in
  let? a := element l 0 in
  let? id := typed (acc_oid a) in
  let? v := element l 1 in
  Ok {| rdn_id := id; rdn_value := v |}.
(** The loops of x509.rs:241-243 and 470-472. *)
Fixpoint parse_each {A} (f : item -> pex A) (l : list item) : pex (list A) :=
  match l with
  | [] => Ok []
  | i :: t => let? a := f i in let? r := parse_each f t in Ok (a :: r)
  end.
(** x509.rs:238-245 [Name::from_asn1]. *)
Definition parse_name (i : item) : pex (list rdn) := let? l := typed (acc_sequence i) in parse_each parse_rdn l.
(** x509.rs:283-289 [Time::from_asn1]. *)
Definition parse_time (i : item) : pex time :=
  match item_value i with
  | VUtcTime s => Ok (TUtc s)
  | VGeneralizedTime s => Ok (TGeneralized s)
  | _ => Err (PePlain "Expected a UTCTime or GeneralizedTime")
  end.
(** x509.rs:305-310 [Validity::from_asn1]. *)
Definition parse_validity (i : item) : pex validity :=
  let? l := typed (acc_exact_sequence 2 i) in
  let? a := element l 0 in let? b := parse_time a in
  let? c := element l 1 in let? d := parse_time c in
  Ok {| va_before := b; va_after := d |}.
(** x509.rs:325-333 [SubjectPublicKeyInfo::from_asn1]. *)
Definition parse_spki (i : item) : pex spki :=
  let? l := typed (acc_exact_sequence 2 i) in
  let? a := element l 0 in let? b := parse_algorithm a in
  let? c := element l 1 in
  let? d := typed (acc_bit_string c) in
  Ok {| sp_alg := b; sp_key := {| bs_unused := fst d; bs_bytes := snd d |} |}.
(** x509.rs:358-372 [Extension::from_asn1]. *)
Definition parse_extension (i : item) : pex extension :=
  let? it := typed (acc_sequence i) in
  let? p := next_item "Missing element" it in
  let (e, it) := p in
  let? id := typed (acc_oid e) in
  let? p := next_item "Missing element" it in
  let (e, it) := p in
  match item_value e with
  | VBoolean b =>
    let? p := next_item "Missing element" it in
    let? d := typed (acc_octet_string (fst p)) in Ok {| ex_id := id; ex_critical := b; ex_data := d |}
  | _ => let? d := typed (acc_octet_string e) in Ok {| ex_id := id; ex_critical := false; ex_data := d |}
  end.
(** x509.rs:434-493 [TBSCertificate::from_asn1]. *)
Definition parse_tbs (i : item) : pex tbs :=
  let? it := typed (acc_sequence i) in
  let? p := next_item "Missing version" it in
  let (e, it) := p in
  let? p := match item_value e with
            | VContextSpecific 0 child =>
              let? v := parse_version child in
              let? p := next_item "Missing serial_number" it in Ok (v, p)
            | _ => Ok (V1, (e, it))
            end in
  let '(v, (e, it)) := p in
  let? serial := typed (acc_integer e) in
  let? p := next_item "Missing signature" it in let (e, it) := p in
  let? signature := parse_algorithm e in
  let? p := next_item "Missing issuer" it in let (e, it) := p in
  let? issuer := parse_name e in
  let? p := next_item "Missing validity" it in let (e, it) := p in
  let? vali := parse_validity e in
  let? p := next_item "Missing subject" it in let (e, it) := p in
  let? subject := parse_name e in
  let? p := next_item "Missing subject_public_key_info" it in let (e, it) := p in
  let? key := parse_spki e in
  let? exts := match it with
               | [] => Ok []
               | e :: _ =>
                 match item_value e with
                 | VContextSpecific 3 c => let? l := typed (acc_sequence c) in parse_each parse_extension l
                 | _ => Err (PePlain "Unexpected value for extension")
                 end
               end in
  match it with
  | _ :: _ :: _ => Err (PePlain "Unexpected value")
  | _ => Ok {| tb_version := v; tb_serial := serial; tb_signature := signature; tb_issuer := issuer; tb_validity := vali;
               tb_subject := subject; tb_key := key; tb_issuer_id := None; tb_subject_id := None; tb_extensions := exts |}
  end.
(** x509.rs:147-165 [Certificate::from_asn1]. *)
Definition parse_certificate (i : item) : pex certificate :=
  let? l := typed (acc_exact_sequence 3 i) in
  let? a := element l 0 in let? t := parse_tbs a in
  let? b := element l 1 in let? g := parse_algorithm b in
  let? c := element l 2 in
  let? v := match item_value c with
            | VBitString u d => Ok {| bs_unused := u; bs_bytes := d |}
            | _ => Err (PePlain "Certificate: Expected elements[2] to be a bit string")
            end in
  Ok {| ce_tbs := t; ce_alg := g; ce_value := v |}.
(** x509.rs:141-145 [Certificate::from_bytes]. *)
Definition parse_certificate_bytes (d : bytes) : pex certificate :=
  match fst (read_der (new_reader d)) with
  | Ok i => parse_certificate i
  | Err e => Err (PeReader e)
  | Panic => Panic
  end.
