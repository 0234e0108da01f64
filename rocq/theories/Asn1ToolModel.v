(** Model of src/bin/asn1.rs (the re-encoder), src/formats/asn1/printer.rs and the texts of
    value.rs.

    Printed text is a list of bytes (UTF-8); [escape_string] only changes ASCII characters, so it
    is applied to the bytes of a string.  The printer's registry is a function from an object
    identifier to its long name; descriptors are never added and are left out.  Writing to the
    console and to the output file is assumed to succeed. *)
From Verif Require Import Base BinaryModel UtilModel PemModel Asn1Model CaModel ChatModel.
Local Open Scope string_scope. Local Open Scope list_scope. Local Open Scope N_scope.

(** bin/asn1.rs:32-39: the input file, PEM if it begins with a dash, read as one item. *)
Definition tool_read (file : bytes) : command item :=
  gbind (match file with
         | b :: _ => if b =? 45 then match decode_pem file with POk p _ => GOk (snd p) | PErr _ => GErr | PLoop => GLoop end else GOk file
         | [] => GOk file
         end) (fun data => ok_or (fst (read_der (new_reader data)))).
(** bin/asn1.rs:51-55: what is written to the output file. *)
Definition reencode (file : bytes) : command bytes := gbind (tool_read file) (fun i => ok_or (encode_item i)).

(** *** value.rs *)
(** [{:x}] of a [usize].  Fuel: more than the number of digits. *)
Fixpoint hex_loop (fuel : nat) (n : N) : bytes :=
  match fuel with
  | O => []
  | S fuel => if n <? 16 then [lower_hex_digit n] else hex_loop fuel (n / 16) ++ [lower_hex_digit (n mod 16)]
  end.
Definition hex_number (n : N) : bytes := hex_loop (S (N.to_nat (N.log2 n))) n.
(** value.rs:33-43 [Display for ObjectIdentifier]. *)
Fixpoint oid_text_from (first : bool) (arcs : list N) : bytes :=
  match arcs with
  | [] => []
  | a :: t => (if first then [] else ascii_bytes ".") ++ decimal a ++ oid_text_from false t
  end.
Definition oid_text (arcs : list N) : bytes := oid_text_from true arcs.
(** value.rs:51-58 [Debug for BitString]: [{:02x}] of the position of every byte. *)
Definition bit_string_debug (unused : N) (d : bytes) : bytes :=
  flat_map (fun i => let n := N.of_nat i in (if n <? 16 then ascii_bytes "0" else []) ++ hex_number n) (seq 0 (length d)) ++
  ascii_bytes " (unused " ++ decimal unused ++ ascii_bytes ")".

(** *** printer.rs *)
(** printer.rs:76-81 [Printer]. *)
Record printer := { pr_truncate : bool; pr_registry : list N -> option bytes; pr_ranges : bool }.
(** printer.rs:93-103 [bytes_to_string]. *)
Definition bytes_to_string (p : printer) (d : bytes) : bytes :=
  if pr_truncate p && (16 <? length d)%nat then to_hex (firstn 16 d) ++ ascii_bytes "..." else to_hex d.
(** The branches of the tree, as UTF-8: U+251C U+2500 U+2500, U+2514 U+2500 U+2500, U+2502. *)
Definition branch : bytes := [226; 148; 156; 226; 148; 128; 226; 148; 128; 32].
Definition corner : bytes := [226; 148; 148; 226; 148; 128; 226; 148; 128; 32].
Definition bar : bytes := [226; 148; 130; 32; 32; 32].
Definition blank : bytes := [32; 32; 32; 32].
(** value.rs:9-28: derived [Debug] of [Identifier]. *)
Definition class_text (c : class) : string := match c with CUniversal => "Universal" | CApplication => "Application" | CContext => "ContextSpecific" | CPrivate => "Private" end.
Definition form_text (f : form) : string := match f with FPrimitive => "Primitive" | FConstructed => "Constructed" end.
Definition identifier_text (i : identifier) : bytes :=
  ascii_bytes "Identifier { class: " ++ ascii_bytes (class_text (id_class i)) ++ ascii_bytes ", form: " ++ ascii_bytes (form_text (id_form i)) ++
  ascii_bytes ", tag: " ++ decimal (id_tag i) ++ ascii_bytes " }".
(** printer.rs:130-196: the text of an item's own line, without its line end. *)
Definition own_text (p : printer) (v : value) : bytes :=
  match v with
  | VBoolean b => ascii_bytes "BOOLEAN " ++ ascii_bytes (if b then "true" else "false")
  | VInteger d => ascii_bytes "INTEGER " ++ bytes_to_string p d
  | VBitString u d => ascii_bytes "BIT STRING " ++ bytes_to_string p d ++ ascii_bytes " (" ++ decimal (blen d) ++ ascii_bytes " bytes, " ++ decimal u ++ ascii_bytes " unused bits)"
  | VOctetString d => ascii_bytes "OCTET STRING " ++ bytes_to_string p d ++ ascii_bytes " (" ++ decimal (blen d) ++ ascii_bytes " bytes)"
  | VNull => ascii_bytes "NULL"
  | VOid arcs =>
    ascii_bytes "OBJECT " ++ match pr_registry p arcs with
                             | Some name => name ++ ascii_bytes " (" ++ oid_text arcs ++ ascii_bytes ")"
                             | None => oid_text arcs
                             end
  | VPrintableString s => ascii_bytes "PrintableString " ++ escape_string s
  | VUtf8String s => ascii_bytes "UTF8String " ++ escape_string s
  | VUtcTime s => ascii_bytes "UTCTime " ++ escape_string s
  | VGeneralizedTime s => ascii_bytes "GeneralizedTime " ++ escape_string s
  | VSequence _ => ascii_bytes "Sequence"
  | VSet _ => ascii_bytes "Set"
  | VApplication t _ => ascii_bytes "Application (" ++ decimal t ++ ascii_bytes ")"
  | VContextSpecific t _ => ascii_bytes "ContextSpecific (" ++ decimal t ++ ascii_bytes ")"
  | VPrivate t _ => ascii_bytes "Private (" ++ decimal t ++ ascii_bytes ")"
  | VUnknown i len => ascii_bytes "Unknown " ++ identifier_text i ++ ascii_bytes ", len = " ++ decimal len
  end.
(** printer.rs:105-128 [print_list], [print_single_child] and 130-196 [print_item]. *)
Fixpoint print_item (p : printer) (i : item) (prefix indent : bytes) : bytes :=
  let (s, e, v) := i in
  let fix print_list (l : list item) : bytes :=
    match l with
    | [] => []
    | i :: t =>
      (if (0 <? length t)%nat then print_item p i (indent ++ branch) (indent ++ bar) else print_item p i (indent ++ corner) (indent ++ blank)) ++ print_list t
    end in
  prefix ++ (if pr_ranges p then ascii_bytes "[" ++ hex_number (N.of_nat s) ++ ascii_bytes ".." ++ hex_number (N.of_nat e) ++ ascii_bytes "] " else []) ++
  own_text p v ++ [10] ++
  match v with
  | VSequence l | VSet l => print_list l
  | VApplication _ i | VContextSpecific _ i | VPrivate _ i => print_item p i (indent ++ corner) (indent ++ blank)
  | _ => []
  end.
(** printer.rs:198-200 [print]. *)
Definition print_tree (p : printer) (i : item) : bytes := print_item p i [] [].

(** crypto/x509.rs:559-590 [populate_registry]: the calls of [add] and [add2] in order. *)
Definition x509_names : list (list N * string * option string) := [
  ([2; 5; 4; 3], "commonName", Some "cn");
  ([2; 5; 4; 4], "surname", Some "sn");
  ([2; 5; 4; 5], "serialNumber", None);
  ([2; 5; 4; 6], "countryName", Some "c");
  ([2; 5; 4; 7], "localityName", Some "l");
  ([2; 5; 4; 8], "stateOrProvinceName", Some "st");
  ([2; 5; 4; 9], "streetAddress", Some "street");
  ([2; 5; 4; 10], "organizationName", Some "o");
  ([2; 5; 4; 11], "organizationalUnitName", Some "ou");
  ([2; 5; 29; 35], "authorityKeyIdentifier", None);
  ([2; 5; 29; 14], "subjectKeyIdentifier", None);
  ([2; 5; 29; 17], "subjectAltName", None);
  ([2; 5; 29; 15], "keyUsage", None);
  ([2; 5; 29; 37], "extKeyUsage", None);
  ([2; 5; 29; 31], "cRLDistributionPoints", None);
  ([2; 5; 29; 32], "certificatePolicies", None);
  ([2; 5; 29; 19], "basicConstraints", None);
  ([1; 3; 6; 1; 5; 5; 7; 1; 1], "authorityInfoAccess", None);
  ([1; 2; 840; 113549; 1; 1; 11], "sha256WithRSAEncryption", None);
  ([1; 2; 840; 113549; 1; 1; 12], "sha384WithRSAEncryption", None);
  ([1; 2; 840; 113549; 1; 1; 13], "sha512WithRSAEncryption", None);
  ([1; 2; 840; 113549; 1; 1; 14], "sha224WithRSAEncryption", None);
  ([1; 2; 840; 113549; 1; 1; 1], "rsaEncryption", None);
  ([1; 2; 840; 10045; 2; 1], "ecPublicKey", None);
  ([1; 2; 840; 10045; 4; 3; 1], "ecdsa-with-SHA224", None);
  ([1; 2; 840; 10045; 4; 3; 2], "ecdsa-with-SHA256", None);
  ([1; 2; 840; 10045; 4; 3; 3], "ecdsa-with-SHA384", None);
  ([1; 2; 840; 10045; 4; 3; 4], "ecdsa-with-SHA512", None);
  ([1; 2; 840; 10045; 3; 1; 7], "prime256v1", None);
  ([1; 3; 101; 112], "ED25519", None)].
(** printer.rs:26-48 [add], [add2], [lookup_long_name], [lookup_short_name]: a later entry replaces an earlier one. *)
Definition lookup_long_name (names : list (list N * string * option string)) (oid : list N) : option bytes :=
  match find (fun e => bytes_eqb (fst (fst e)) oid) (rev names) with Some e => Some (ascii_bytes (snd (fst e))) | None => None end.
Fixpoint lookup_short (names : list (list N * string * option string)) (oid : list N) : option bytes :=
  match names with
  | [] => None
  | (o, _, Some s) :: t => if bytes_eqb o oid then Some (ascii_bytes s) else lookup_short t oid
  | _ :: t => lookup_short t oid
  end.
Definition lookup_short_name (names : list (list N * string * option string)) (oid : list N) : option bytes := lookup_short (rev names) oid.
(** printer.rs:50-62 [get_long_name], [get_short_name]. *)
Definition get_long_name names oid := match lookup_long_name names oid with Some s => s | None => oid_text oid end.
Definition get_short_name names oid := match lookup_short_name names oid with Some s => s | None => oid_text oid end.
