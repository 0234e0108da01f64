(** Model of the printing of certificates: src/crypto/x509.rs 120-130, 340-343, 383-387 and
    495-557, and src/bin/x509.rs 240-257. *)
From Verif Require Import Base UtilModel Asn1Model X509Model CaModel ChatModel Asn1ToolModel.
Local Open Scope string_scope. Local Open Scope list_scope. Local Open Scope N_scope.

(** The names of a registry. *)
Definition names := list (list N * string * option string).
(** formats/asn1/value.rs:101-120 [type_str]. *)
Definition type_str (i : item) : string :=
  match item_value i with
  | VBoolean _ => "Boolean" | VInteger _ => "Integer" | VBitString _ _ => "BitString" | VOctetString _ => "OctetString" | VNull => "Null"
  | VOid _ => "ObjectIdentifier" | VPrintableString _ => "PrintableString" | VUtf8String _ => "UTF8String" | VUtcTime _ => "UTCTime"
  | VGeneralizedTime _ => "GeneralizedTime" | VSequence _ => "Sequence" | VSet _ => "Set" | VApplication _ _ => "Application"
  | VContextSpecific _ _ => "ContextSpecific" | VPrivate _ _ => "Private" | VUnknown _ _ => "Unknown"
  end.
(** formats/asn1/value.rs:191-197 [as_string]. *)
Definition as_string (i : item) : option bytes := match item_value i with VPrintableString s | VUtf8String s => Some s | _ => None end.
(** x509.rs:121-130 [AlgorithmIdentifier::to_string]. *)
Definition algorithm_text (reg : names) (a : algorithm) : bytes :=
  get_long_name reg (al_oid a) ++ [32] ++ match al_params a with Some p => ascii_bytes (type_str p) | None => ascii_bytes "None" end.
(** [str::to_uppercase] of the registered short names, which are ASCII. *)
Definition upper (s : bytes) : bytes := map (fun c => if (97 <=? c) && (c <=? 122) then c - 32 else c) s.
(** x509.rs:495-519 [name_to_simple_string], one part. *)
Definition part_text (reg : names) (r : rdn) : bytes :=
  match lookup_short_name reg (rdn_id r) with
  | Some short => upper short
  | None => match lookup_long_name reg (rdn_id r) with Some long => long | None => [63] end
  end ++ [61] ++ match as_string (rdn_value r) with Some s => s | None => [63] end.
(** x509.rs:495-519 [name_to_simple_string]. *)
Definition name_text (reg : names) (n : list rdn) : bytes :=
  match n with
  | [] => []
  | r :: n => part_text reg r ++ flat_map (fun r => [44; 32] ++ part_text reg r) n
  end.
(** x509.rs:521-526 [time_to_str]. *)
Definition time_text (t : time) : bytes := match t with TUtc s | TGeneralized s => s end.
(** [println!] of each text. *)
Definition println (texts : list bytes) : bytes := flat_map (fun t => t ++ [10]) texts.
(** x509.rs:340-343 [SubjectPublicKeyInfo::print]. *)
Definition spki_lines (reg : names) (indent : bytes) (k : spki) : list bytes :=
  [indent ++ ascii_bytes "algorithm = " ++ algorithm_text reg (sp_alg k);
   indent ++ ascii_bytes "subject_public_key = <" ++ decimal (blen (bs_bytes (sp_key k))) ++ ascii_bytes " bytes>"].
(** x509.rs:383-387 [Extension::print]. *)
Definition extension_lines (reg : names) (indent : bytes) (x : extension) : list bytes :=
  [indent ++ ascii_bytes "id = " ++ get_long_name reg (ex_id x);
   indent ++ ascii_bytes "critical = " ++ ascii_bytes (if ex_critical x then "true" else "false");
   indent ++ ascii_bytes "value = <" ++ decimal (blen (ex_data x)) ++ ascii_bytes " bytes>"].
(** x509.rs:543-546: the extensions from number [i] on. *)
Fixpoint extensions_lines (reg : names) (indent : bytes) (i : N) (l : list extension) : list bytes :=
  match l with
  | [] => []
  | x :: l => (indent ++ ascii_bytes "extensions[" ++ decimal i ++ ascii_bytes "] =") :: extension_lines reg (indent ++ ascii_bytes "    ") x ++ extensions_lines reg indent (i + 1) l
  end.
Definition version_text (v : version) : string := match v with V1 => "V1" | V2 => "V2" | V3 => "V3" end.
(** x509.rs:528-547 [print_tbs_certificate]. *)
Definition tbs_lines (reg : names) (indent : bytes) (t : tbs) : list bytes :=
  [indent ++ ascii_bytes "version = " ++ ascii_bytes (version_text (tb_version t));
   indent ++ ascii_bytes "serial_number = " ++ to_hex (tb_serial t);
   indent ++ ascii_bytes "signature = " ++ algorithm_text reg (tb_signature t);
   indent ++ ascii_bytes "issuer = " ++ name_text reg (tb_issuer t);
   indent ++ ascii_bytes "validity =";
   indent ++ ascii_bytes "    not before = " ++ time_text (va_before (tb_validity t));
   indent ++ ascii_bytes "    not after = " ++ time_text (va_after (tb_validity t));
   indent ++ ascii_bytes "subject = " ++ name_text reg (tb_subject t);
   indent ++ ascii_bytes "subject_public_key_info ="] ++
  spki_lines reg (indent ++ ascii_bytes "    ") (tb_key t) ++ extensions_lines reg indent 0 (tb_extensions t).
(** x509.rs:549-557 [print_certificate]. *)
Definition certificate_lines (reg : names) (c : certificate) : list bytes :=
  [ascii_bytes "Certificate"; ascii_bytes "    tbs_certificate"] ++ tbs_lines reg (ascii_bytes "        ") (ce_tbs c) ++
  [ascii_bytes "    signature_algorithm = " ++ algorithm_text reg (ce_alg c);
   ascii_bytes "    signature_value = <" ++ decimal (blen (bs_bytes (ce_value c))) ++ ascii_bytes " bytes>"].
Definition certificate_text (reg : names) (c : certificate) : bytes := println (certificate_lines reg c).
(** bin/x509.rs:240-257 [print]. *)
Definition print_tool (file : option bytes) : command bytes := gbind (print_parsed file) (fun c => GOk (certificate_text x509_names c)).
