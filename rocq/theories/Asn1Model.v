(** Model of src/formats/asn1: value.rs, reader.rs and writer.rs.

    Simplifications: [asn1::reader::Error] is merged with [BinaryError] ([Plain] becomes
    [BPlain], [InvalidUTF8String] becomes [BInvalidUTF8]); writing into a [Vec] cannot fail,
    so a writer is the bytes it appends or an error; the recursion of the reader is bounded
    by fuel (depth), and running out of fuel is [Panic], which the theorems exclude. *)
From Verif Require Import Base BinaryModel.
Local Open Scope string_scope. Local Open Scope list_scope. Local Open Scope N_scope.

(** value.rs:10-29 [Class], [Form], [Identifier]. *)
Inductive class := CUniversal | CApplication | CContext | CPrivate.
Inductive form := FPrimitive | FConstructed.
Record identifier := { id_class : class; id_form : form; id_tag : N }.
(** value.rs:62-90 [Value], [Item]: text as its bytes, an object identifier as its arcs. *)
Inductive item := Item (start stop : nat) (v : value)
with value :=
| VBoolean (b : bool) | VInteger (d : bytes) | VBitString (unused : N) (d : bytes) | VOctetString (d : bytes)
| VNull | VOid (arcs : list N) | VPrintableString (s : bytes) | VUtf8String (s : bytes)
| VUtcTime (s : bytes) | VGeneralizedTime (s : bytes)
| VSequence (l : list item) | VSet (l : list item)
| VApplication (tag : N) (i : item) | VContextSpecific (tag : N) (i : item) | VPrivate (tag : N) (i : item)
| VUnknown (id : identifier) (len : N).
Definition item_start (i : item) : nat := let (s, _, _) := i in s.
Definition item_stop (i : item) : nat := let (_, e, _) := i in e.
Definition item_value (i : item) : value := let (_, _, v) := i in v.
(** value.rs:92-96: [Item::from(Value)]. *)
Definition item_of (v : value) : item := Item 0 0 v.

(** *** reader.rs *)
(** reader.rs:67-93 [read_identifier]. *)
Definition read_identifier : rd identifier :=
  do first <- read_u8;
  let cls := match N.land first 0x80 =? 0x80, N.land first 0x40 =? 0x40 with
             | false, false => CUniversal | false, true => CApplication
             | true, false => CContext | true, true => CPrivate end in
  let frm := if N.land first 0x20 =? 0x20 then FConstructed else FPrimitive in
  let bits51 := N.land first 0x1f in
  if bits51 =? 0x1f then rfail (BPlain "Unsupported: tag >= 31")
  else rret {| id_class := cls; id_form := frm; id_tag := bits51 |}.
(** reader.rs:114-118: the loop of [read_length]; the length is a u32. *)
Fixpoint length_loop (n : nat) (length : N) : rd N :=
  match n with
  | O => rret length
  | S n => do b <- read_u8; length_loop n (N.lor ((N.shiftl length 8) mod two32) b)
  end.
(** reader.rs:95-122 [read_length]. *)
Definition read_length : rd N :=
  do first <- read_u8;
  if N.land first 0x80 =? 0 then rret (N.land first 0x7f)
  else
    let noctets := N.land first 0x7f in
    if noctets =? 0x7f then rfail (BPlain "noctets is 127")
    else if noctets =? 0 then rfail (BPlain "Unsupported: Indefinite form")
    else if 4 <? noctets then rfail (BPlain "noctets cannot fit in u32")
    else length_loop (N.to_nat noctets) 0.
(** reader.rs:139-149 [read_var_u64].  Fuel: each round reads a byte. *)
Fixpoint var_loop (fuel : nat) (value : N) : rd N :=
  match fuel with
  | O => rpanic
  | S fuel =>
    do b <- read_u8;
    let value := N.lor ((N.shiftl value 7) mod two64) (N.land b 0x7f) in
    if N.land b 0x80 =? 0 then rret value else var_loop fuel value
  end.
Definition read_var_u64 : rd N := fun r => var_loop (S (remaining r)) 0 r.
(** reader.rs:124-137 and 151-184: the loops of [read_item_list] and [read_object_identifier]:
    read until nothing remains, refusing to make no progress. *)
Fixpoint until_empty {A} (fuel : nat) (one : rd A) (r : reader) : outcome berr (list A) :=
  match fuel with
  | O => Panic
  | S fuel =>
    if (0 <? remaining r)%nat then
      match one r with
      | (Ok a, r') =>
        if (remaining r' =? remaining r)%nat then Err (BPlain "Value consumed 0 bytes")
        else let? l := until_empty fuel one r' in Ok (a :: l)
      | (Err e, _) => Err e
      | (Panic, _) => Panic
      end
    else Ok []
  end.
(** reader.rs:168-174: the first number stands for two arcs. *)
Definition arcs_of (parts : list N) : list N :=
  match parts with [] => [] | p :: t => p / 40 :: p mod 40 :: t end.
Definition read_object_identifier (contents : reader) : outcome berr (list N) :=
  let? parts := until_empty (S (remaining contents)) read_var_u64 contents in Ok (arcs_of parts).
(** reader.rs: [String::from_utf8(contents.remaining_data().to_vec())]. *)
Definition read_text (contents : reader) : outcome berr bytes :=
  let? d := fst (remaining_data contents) in if utf8_valid d then Ok d else Err BInvalidUTF8.
(** reader.rs:196-361 [read_value], with [item] the recursive call of [read_item] (186-194). *)
Definition read_contents (one : rd item) (id : identifier) (len : N) (c : reader) : outcome berr value :=
  match id_class id with
  | CUniversal =>
    match id_tag id, id_form id with
    | 1, FConstructed => Err (BPlain "Boolean: incorrect form")
    | 1, FPrimitive =>
      if negb (remaining c =? 1)%nat then Err (BPlain "Boolean: incorrect length")
      else let? b := fst (read_u8 c) in
           if b =? 0 then Ok (VBoolean false) else if b =? 255 then Ok (VBoolean true)
           else Err (BPlain "Boolean value must be all zeros or ones")
    | 2, FConstructed => Err (BPlain "Integer: incorrect form")
    | 2, FPrimitive => let? d := fst (remaining_data c) in Ok (VInteger d)
    | 3, FConstructed => Err (BPlain "BitString: incorrect form")
    | 3, FPrimitive =>
      fst ((do unused <- read_u8; do d <- remaining_data; rret (VBitString unused d)) c)
    | 4, FConstructed => Err (BPlain "Octet string: incorrect form")
    | 4, FPrimitive => let? d := fst (remaining_data c) in Ok (VOctetString d)
    | 5, FConstructed => Err (BPlain "Null: incorrect form")
    | 5, FPrimitive => if negb (remaining c =? 0)%nat then Err (BPlain "Null: incorrect length") else Ok VNull
    | 6, FConstructed => Err (BPlain "Object identifier: incorrect form")
    | 6, FPrimitive => let? a := read_object_identifier c in Ok (VOid a)
    | 12, FConstructed => Err (BPlain "UTF8String: incorrect form")
    | 12, FPrimitive => let? s := read_text c in Ok (VUtf8String s)
    | 16, FPrimitive => Err (BPlain "Sequence: incorrect form")
    | 16, FConstructed => let? l := until_empty (S (remaining c)) one c in Ok (VSequence l)
    | 17, FPrimitive => Err (BPlain "Set: incorrect form")
    | 17, FConstructed => let? l := until_empty (S (remaining c)) one c in Ok (VSet l)
    | 19, FConstructed => Err (BPlain "PrintableString: incorrect form")
    | 19, FPrimitive => let? s := read_text c in Ok (VPrintableString s)
    | 23, FConstructed => Err (BPlain "UTCTime: incorrect form")
    | 23, FPrimitive => let? s := read_text c in Ok (VUtcTime s)
    | 24, FConstructed => Err (BPlain "GeneralizedTime: incorrect form")
    | 24, FPrimitive => let? s := read_text c in Ok (VGeneralizedTime s)
    | _, _ => Ok (VUnknown id len)
    end
  | cls =>
    match id_form id with
    | FPrimitive => Ok (VUnknown id len)
    | FConstructed =>
      let? i := fst (one c) in
      Ok (match cls with
          | CApplication => VApplication (id_tag id) i
          | CContext => VContextSpecific (id_tag id) i
          | _ => VPrivate (id_tag id) i
          end)
    end
  end.
(** reader.rs:186-200 [read_item] and the head of [read_value]. *)
Fixpoint read_item (fuel : nat) : rd item :=
  match fuel with
  | O => rpanic
  | S fuel => fun r =>
    let start := r_off r in
    (do id <- read_identifier;
     do len <- read_length;
     do c <- read_nested len;
     do v <- rlift (read_contents (read_item fuel) id len c);
     fun r => (Ok (Item start (r_off r) v), r)) r
  end.
(** Reading with enough fuel for any input. *)
Definition read_der : rd item := fun r => read_item (S (remaining r)) r.

(** *** writer.rs *)
(** writer.rs:21-25: how many leading zero bytes there are. *)
Fixpoint leading_zeros (l : bytes) : nat := match l with 0 :: t => S (leading_zeros t) | _ => 0 end.
(** writer.rs:10-40 [encode_length]. *)
Definition encode_length (length : N) : bytes :=
  if length <? 128 then [length]
  else
    let b := be_bytes 8 length in
    let skip := leading_zeros b in
    let nbytes := (8 - skip)%nat in
    if (nbytes =? 0)%nat then [N.lor 1 0x80; 0]
    else N.lor (N.of_nat nbytes) 0x80 :: skipn skip b.
Inductive werr := WInvalidData.
(** writer.rs:42-65 [encode_identifier]. *)
Definition encode_identifier (c : class) (f : form) (tag : N) : outcome werr bytes :=
  if 30 <? tag then Err WInvalidData
  else
    let cls := match c with CUniversal => 0 | CApplication => 1 | CContext => 2 | CPrivate => 3 end in
    let frm := match f with FPrimitive => 0 | FConstructed => 1 end in
    Ok [N.lor (N.lor (N.shiftl cls 6) (N.shiftl frm 5)) tag].
(** writer.rs:67-78 [encode_raw]. *)
Definition encode_raw (c : class) (f : form) (tag : N) (data : bytes) : outcome werr bytes :=
  let? i := encode_identifier c f tag in Ok (i ++ encode_length (blen data) ++ data).
(** writer.rs:80-91 [write_var_u64]: least significant group first, then reversed.  Fuel 10
    is enough for a u64. *)
Fixpoint var_groups (fuel : nat) (value highbit : N) : bytes :=
  match fuel with
  | O => []
  | S fuel =>
    if 128 <=? value then N.lor (N.land value 0x7f) highbit :: var_groups fuel (N.shiftr value 7) 0x80
    else [N.lor value highbit]
  end.
Definition write_var_u64 (value : N) : bytes := rev (var_groups 10 value 0).
(** writer.rs:121-135: the contents of an object identifier; the sum of line 127 does not fit
    in a u64 (overflow panics, as in debug builds). *)
Definition arcs_overflow (arcs : list N) : bool :=
  match arcs with first :: second :: _ => two64 <=? first * 40 + second | _ => false end.
Definition encode_arcs (arcs : list N) : bytes :=
  match arcs with
  | first :: second :: rest => write_var_u64 (first * 40 + second) ++ concat (map write_var_u64 rest)
  | _ => []
  end.
(** writer.rs:93-178 [encode_item_list], [encode_item]. *)
Fixpoint encode_item (i : item) : outcome werr bytes :=
  let fix list (l : list item) : outcome werr bytes :=
    match l with
    | [] => Ok []
    | i :: t => let? a := encode_item i in let? b := list t in Ok (a ++ b)
    end in
  let (_, _, v) := i in
  match v with
  | VBoolean _ => encode_raw CUniversal FPrimitive 1 [0]
  | VInteger d => encode_raw CUniversal FPrimitive 2 d
  | VBitString unused d => encode_raw CUniversal FPrimitive 3 (unused :: d)
  | VOctetString d => encode_raw CUniversal FPrimitive 4 d
  | VNull => encode_raw CUniversal FPrimitive 5 []
  | VOid arcs => if arcs_overflow arcs then Panic else encode_raw CUniversal FPrimitive 6 (encode_arcs arcs)
  | VPrintableString s => encode_raw CUniversal FPrimitive 19 s
  | VUtf8String s => encode_raw CUniversal FPrimitive 12 s
  | VUtcTime s => encode_raw CUniversal FPrimitive 23 s
  | VGeneralizedTime s => encode_raw CUniversal FPrimitive 24 s
  | VSequence l => let? d := list l in encode_raw CUniversal FConstructed 16 d
  | VSet l => let? d := list l in encode_raw CUniversal FConstructed 17 d
  | VApplication tag i => let? d := encode_item i in encode_raw CApplication FConstructed tag d
  | VContextSpecific tag i => let? d := encode_item i in encode_raw CContext FConstructed tag d
  | VPrivate tag i => let? d := encode_item i in encode_raw CPrivate FConstructed tag d
  | VUnknown _ _ => Err WInvalidData
  end.
