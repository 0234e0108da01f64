(** Model of src/formats/bencoding/mod.rs: the bencode parser.

    Simplifications: the [path] strings carried for error messages and kept in locations
    are not modelled (they do not influence what is parsed), error texts are replaced by
    constructors, and the native stack is unbounded (a deeply nested input makes the real
    parser recurse that deeply). *)
From Verif Require Import Base.

(** bencoding/mod.rs:39-43 [Location], without the path. *)
Record location := { l_start : nat; l_end : nat }.
(** bencoding/mod.rs:51-104 [ByteString], [Integer], [List], [Dictionary], [Value].  A
    [BTreeMap<String, Value>] is a list of entries in increasing key order. *)
Inductive value :=
| VBytes (loc : location) (data : bytes)
| VInt (loc : location) (n : N)
| VList (loc : location) (items : list value)
| VDict (loc : location) (entries : list (bytes * value)).
(** bencoding/mod.rs:107-114 [Value::loc]. *)
Definition loc_of (v : value) : location :=
  match v with
  | VBytes l _ | VInt l _ | VList l _ | VDict l _ => l
  end.

(** [str] comparison: lexicographic on bytes. *)
Fixpoint bytes_ltb (a b : bytes) : bool :=
  match a, b with
  | [], [] => false
  | [], _ :: _ => true
  | _ :: _, [] => false
  | x :: a', y :: b' => if x =? y then bytes_ltb a' b' else x <? y
  end.
(** [BTreeMap::insert]. *)
Fixpoint map_insert {A} (k : bytes) (v : A) (m : list (bytes * A)) : list (bytes * A) :=
  match m with
  | [] => [(k, v)]
  | (k', v') :: t =>
    if bytes_ltb k k' then (k, v) :: m
    else if bytes_eqb k k' then (k, v) :: t
    else (k', v') :: map_insert k v t
  end.
(** [BTreeMap::get]. *)
Fixpoint map_get {A} (k : bytes) (m : list (bytes * A)) : option A :=
  match m with
  | [] => None
  | (k', v) :: t => if bytes_eqb k k' then Some v else map_get k t
  end.

(** bencoding/mod.rs:213-224 [ParseError]: offset and a message; [POutOfFuel] does not
    exist in the code and is excluded by the theorems. *)
Inductive perr :=
| PExpectedDigit (o : nat) | PBadInteger (o : nat) | PExpectedByte (o : nat) (b : N)
| PIntegerOverflow (o : nat) | PBeyondEnd (o : nat) | PPrematureEnd (o : nat)
| PBadUtf8 (o : nat) | PUnknownType (o : nat) (b : N)
| POutOfFuel.

(** bencoding/mod.rs:248-255 [peek]. *)
Definition peek (data : bytes) (off : nat) : option N := nth_error data off.
(** bencoding/mod.rs:257-261 [advance]. *)
Definition advance (data : bytes) (off : nat) : nat := if (off <? length data)%nat then S off else off.
Definition is_digit (b : N) : bool := (48 <=? b) && (b <=? 57).

(** bencoding/mod.rs:265-271: the loop over digits in [parse_usize].  [fuel] is the number
    of bytes left, enough since every round advances by one. *)
Fixpoint skip_digits (fuel : nat) (data : bytes) (off : nat) : nat :=
  match fuel with
  | O => off
  | S fuel =>
    match peek data off with
    | None => off
    | Some b => if is_digit b then skip_digits fuel data (advance data off) else off
    end
  end.
(** [str::parse::<usize>] on a text of digits only: [None] when it exceeds u64::MAX. *)
Fixpoint parse_decimal_from (acc : N) (s : bytes) : option N :=
  match s with
  | [] => Some acc
  | c :: t =>
    let acc' := 10 * acc + (c - 48) in
    if two64 <=? acc' then None else parse_decimal_from acc' t
  end.
Definition parse_decimal (s : bytes) : option N := parse_decimal_from 0 s.

(** bencoding/mod.rs:263-284 [parse_usize].  ASCII digits are always valid UTF-8, so the
    error branch of line 278 is unreachable. *)
Definition parse_usize (data : bytes) (off : nat) : outcome perr (N * nat) :=
  let start := off in
  let e := skip_digits (length data - off) data off in
  if (e =? start)%nat then Err (PExpectedDigit e)
  else
    let? s := index_range data start e in
    match parse_decimal s with
    | Some v => Ok (v, e)
    | None => Err (PBadInteger start)
    end.
(** bencoding/mod.rs:286-299 [expect_byte]. *)
Definition expect_byte (data : bytes) (off : nat) (byte : N) : outcome perr nat :=
  match peek data off with
  | None => Err (PExpectedByte off byte)
  | Some b => if negb (b =? byte) then Err (PExpectedByte off byte) else Ok (advance data off)
  end.
(** bencoding/mod.rs:301-314 [parse_byte_string]. *)
Definition parse_byte_string (data : bytes) (off : nat) : outcome perr (bytes * nat) :=
  let? (size, off) := parse_usize data off in
  let? off := expect_byte data off 58 in
  let e := N.of_nat off + size in
  if two64 <=? e then Err (PIntegerOverflow off)
  else if blen data <? e then Err (PBeyondEnd off)
  else
    let? s := index_range data off (N.to_nat e) in
    Ok (s, N.to_nat e).
(** bencoding/mod.rs:338-343 [parse_utf8_string]. *)
Definition parse_utf8_string (data : bytes) (off : nat) : outcome perr (bytes * nat) :=
  let? (s, off') := parse_byte_string data off in
  if utf8_valid s then Ok (s, off') else Err (PBadUtf8 off).
(** bencoding/mod.rs:365-370 [parse_integer]. *)
Definition parse_integer (data : bytes) (off : nat) : outcome perr (N * nat) :=
  let? off := expect_byte data off 105 in
  let? (v, off) := parse_usize data off in
  let? off := expect_byte data off 101 in
  Ok (v, off).

Definition mkloc (s e : nat) : location := {| l_start := s; l_end := e |}.
(** bencoding/mod.rs:372-398 [parse_value] (and [parse_node]), with the loops of
    [parse_list] (316-336) and [parse_dict] (345-363). *)
Fixpoint parse_value (fuel : nat) (data : bytes) (off : nat) : outcome perr (value * nat) :=
  match fuel with
  | O => Err POutOfFuel
  | S fuel =>
    match peek data off with
    | None => Err (PPrematureEnd off)
    | Some b =>
      if b =? 105 then
        let? (v, e) := parse_integer data off in Ok (VInt (mkloc off e) v, e)
      else if b =? 108 then
        let? off1 := expect_byte data off 108 in
        let? (l, e) := parse_items fuel data off1 in
        Ok (VList (mkloc off e) l, e)
      else if b =? 100 then
        let? off1 := expect_byte data off 100 in
        let? (m, e) := parse_entries fuel data off1 [] in
        Ok (VDict (mkloc off e) m, e)
      else if is_digit b then
        let? (s, e) := parse_byte_string data off in Ok (VBytes (mkloc off e) s, e)
      else Err (PUnknownType off b)
    end
  end
with parse_items (fuel : nat) (data : bytes) (off : nat) : outcome perr (list value * nat) :=
  match fuel with
  | O => Err POutOfFuel
  | S fuel =>
    match peek data off with
    | None => Err (PPrematureEnd off)
    | Some b =>
      if b =? 101 then Ok ([], advance data off)
      else
        let? (v, off1) := parse_value fuel data off in
        let? (l, off2) := parse_items fuel data off1 in
        Ok (v :: l, off2)
    end
  end
with parse_entries (fuel : nat) (data : bytes) (off : nat) (m : list (bytes * value))
  : outcome perr (list (bytes * value) * nat) :=
  match fuel with
  | O => Err POutOfFuel
  | S fuel =>
    match peek data off with
    | None => Err (PPrematureEnd off)
    | Some b =>
      if b =? 101 then Ok (m, advance data off)
      else
        let? (k, off1) := parse_utf8_string data off in
        let? (v, off2) := parse_value fuel data off1 in
        parse_entries fuel data off2 (map_insert k v m)
    end
  end.

(** Enough fuel for the value at an offset: two steps a byte. *)
Definition fuel_for (data : bytes) : nat := 2 * length data + 2.
(** The value at the front and how far it extends. *)
Definition parse_prefix (data : bytes) : outcome perr (value * nat) :=
  parse_value (fuel_for data) data 0.
(** bencoding/mod.rs:410-413 [parse]: what follows the value is ignored. *)
Definition parse (data : bytes) : outcome perr value :=
  let? (v, _) := parse_prefix data in Ok v.

(** bencoding/mod.rs:14-19, 117-160: the accessors of [Value]; [ValueError] by kind. *)
Inductive verr := VNotType (l : location) | VBadUtf8 (l : location) | VMissingKey (l : location) (k : bytes).
Definition as_byte_string (v : value) : outcome verr bytes :=
  match v with VBytes _ d => Ok d | _ => Err (VNotType (loc_of v)) end.
Definition as_string (v : value) : outcome verr bytes :=
  let? d := as_byte_string v in
  if utf8_valid d then Ok d else Err (VBadUtf8 (loc_of v)).
Definition as_integer (v : value) : outcome verr N :=
  match v with VInt _ n => Ok n | _ => Err (VNotType (loc_of v)) end.
Definition as_list (v : value) : outcome verr (list value) :=
  match v with VList _ l => Ok l | _ => Err (VNotType (loc_of v)) end.
Definition as_dictionary (v : value) : outcome verr (location * list (bytes * value)) :=
  match v with VDict l m => Ok (l, m) | _ => Err (VNotType (loc_of v)) end.
(** bencoding/mod.rs:88-96 [get_required]. *)
Definition get_required (d : location * list (bytes * value)) (key : bytes) : outcome verr value :=
  of_option (VMissingKey (fst d) key) (map_get key (snd d)).
