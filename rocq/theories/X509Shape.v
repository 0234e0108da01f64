(** Small specification for C92: which items are a certificate, and which one, following the
    ASN.1 module of RFC 5280. *)
From Verif Require Import Base Asn1Model X509Model.

Definition is_oid (i : item) (a : list N) : Prop := item_value i = VOid a.
(** AlgorithmIdentifier ::= SEQUENCE { OBJECT IDENTIFIER, ANY OPTIONAL } *)
Definition is_algorithm (i : item) (a : algorithm) : Prop :=
  exists o, is_oid o (al_oid a) /\ item_value i = VSequence (o :: match al_params a with None => [] | Some p => [p] end).
(** Version ::= INTEGER { v1(0), v2(1), v3(2) } *)
Definition is_version (i : item) (v : version) : Prop := item_value i = VInteger [match v with V1 => 0 | V2 => 1 | V3 => 2 end].
(** RelativeDistinguishedName ::= SET OF SEQUENCE { OBJECT IDENTIFIER, ANY }, of one. *)
Definition is_rdn (i : item) (r : rdn) : Prop :=
  exists e o, item_value i = VSet [e] /\ item_value e = VSequence [o; rdn_value r] /\ is_oid o (rdn_id r).
(** Name ::= SEQUENCE OF RelativeDistinguishedName *)
Definition is_name (i : item) (n : list rdn) : Prop := exists l, item_value i = VSequence l /\ Forall2 is_rdn l n.
(** Time ::= CHOICE { UTCTime, GeneralizedTime }; Validity ::= SEQUENCE { Time, Time } *)
Definition is_time (i : item) (t : time) : Prop := item_value i = match t with TUtc s => VUtcTime s | TGeneralized s => VGeneralizedTime s end.
Definition is_validity (i : item) (v : validity) : Prop :=
  exists a b, item_value i = VSequence [a; b] /\ is_time a (va_before v) /\ is_time b (va_after v).
Definition is_bits (i : item) (b : bit_string) : Prop := item_value i = VBitString (bs_unused b) (bs_bytes b).
(** SubjectPublicKeyInfo ::= SEQUENCE { AlgorithmIdentifier, BIT STRING } *)
Definition is_spki (i : item) (s : spki) : Prop :=
  exists a b, item_value i = VSequence [a; b] /\ is_algorithm a (sp_alg s) /\ is_bits b (sp_key s).
(** Extension ::= SEQUENCE { OBJECT IDENTIFIER, BOOLEAN DEFAULT FALSE, OCTET STRING }, but with
    more elements behind. *)
Definition is_extension (i : item) (x : extension) : Prop :=
  exists o flag d more, item_value i = VSequence (o :: flag ++ d :: more) /\ is_oid o (ex_id x) /\ item_value d = VOctetString (ex_data x) /\
    (flag = [] /\ ex_critical x = false \/ exists b, flag = [b] /\ item_value b = VBoolean (ex_critical x)).
(** TBSCertificate; the unique identifiers are not accepted. *)
Definition is_tbs (i : item) (t : tbs) : Prop :=
  exists ver se sg is va su sp ext,
    item_value i = VSequence (ver ++ [se; sg; is; va; su; sp] ++ ext) /\
    (ver = [] /\ tb_version t = V1 \/ exists e c, ver = [e] /\ item_value e = VContextSpecific 0 c /\ is_version c (tb_version t)) /\
    item_value se = VInteger (tb_serial t) /\ is_algorithm sg (tb_signature t) /\ is_name is (tb_issuer t) /\ is_validity va (tb_validity t) /\
    is_name su (tb_subject t) /\ is_spki sp (tb_key t) /\ tb_issuer_id t = None /\ tb_subject_id t = None /\
    (ext = [] /\ tb_extensions t = [] \/
     exists e c l, ext = [e] /\ item_value e = VContextSpecific 3 c /\ item_value c = VSequence l /\ Forall2 is_extension l (tb_extensions t)).
(** Certificate ::= SEQUENCE { TBSCertificate, AlgorithmIdentifier, BIT STRING } *)
Definition is_certificate (i : item) (c : certificate) : Prop :=
  exists a b d, item_value i = VSequence [a; b; d] /\ is_tbs a (ce_tbs c) /\ is_algorithm b (ce_alg c) /\ is_bits d (ce_value c).
