(** Model of src/formats/protobuf/protobuf.rs: the reader, the writer and the typed
    accessors. *)
From Verif Require Import Base VarintModel.
Local Open Scope string_scope. Local Open Scope list_scope. Local Open Scope N_scope.

(** ** Varint views (protobuf.rs:9-50) *)
(** protobuf.rs:10-12 [VarInt::to_u64]. *)
Definition vi_to_u64 (b : bytes) : outcome decode_error N := decode_u64 b.
(** protobuf.rs:14-22 [VarInt::to_u32]. *)
Definition vi_to_u32 (b : bytes) : outcome decode_error N :=
  let? v := decode_u64 b in
  if 4294967295 <? v then Err Overflow else Ok v.
(** protobuf.rs:24-27 [VarInt::to_i64] ([as i64] reinterprets). *)
Definition vi_to_i64 (b : bytes) : outcome decode_error Z :=
  let? v := decode_u64 b in Ok (u64_as_i64 v).
(** protobuf.rs:29-32 [VarInt::to_i32] ([as i32] keeps the low 32 bits). *)
Definition vi_to_i32 (b : bytes) : outcome decode_error Z :=
  let? v := decode_u64 b in Ok (u64_as_i32 v).
(** protobuf.rs:34-37 [VarInt::to_i64_zigzag]. *)
Definition vi_to_i64_zigzag (b : bytes) : outcome decode_error Z :=
  let? v := vi_to_u64 b in
  Ok (Z.lxor (u64_as_i64 (N.shiftr v 1)) (- Z.of_N (N.land v 1)))%Z.
(** protobuf.rs:39-42 [VarInt::to_i32_zigzag]. *)
Definition vi_to_i32_zigzag (b : bytes) : outcome decode_error Z :=
  let? v := vi_to_u32 b in
  Ok (Z.lxor (u64_as_i32 (N.shiftr v 1)) (- Z.of_N (N.land v 1)))%Z.
(** protobuf.rs:44-46 [VarInt::to_usize] (usize is 64 bits). *)
Definition vi_to_usize (b : bytes) : outcome decode_error N := decode_u64 b.
(** protobuf.rs:48-50 [VarInt::to_bool]. *)
Definition vi_to_bool (b : bytes) : outcome decode_error bool :=
  let? v := vi_to_u64 b in Ok (negb (v =? 0)).

(** ** Field data and accessors (protobuf.rs:116-262) *)
(** protobuf.rs:106-114 [ReadCase]. *)
Inductive read_case := CFieldTag | CVarInt | CBits32 | CBits64 | CBytesLength | CBytes.
(** protobuf.rs:116-120 [FieldDataError] (the [FromUtf8Error] payload is dropped). *)
Inductive field_data_error :=
| FPlain (msg : string) | FDecode (e : decode_error) | FInvalidUTF8String.
(** protobuf.rs:4-7, 141-146 [FieldData]. *)
Inductive field_data :=
| FVarInt (b : bytes) | FBits32 (b : bytes) | FBits64 (b : bytes) | FBytes (b : bytes).

Definition not_varint {A} : outcome field_data_error A := Err (FPlain "Not a varint").
Definition not_bytes {A} : outcome field_data_error A := Err (FPlain "Not a byte array").
Definition not_bits32 {A} : outcome field_data_error A := Err (FPlain "Not a bits32").
Definition not_bits64 {A} : outcome field_data_error A := Err (FPlain "Not a bits64").

(** protobuf.rs:170-175 [FieldData::to_bool]. *)
Definition fd_to_bool (d : field_data) : outcome field_data_error bool :=
  match d with FVarInt b => map_err FDecode (vi_to_bool b) | _ => not_varint end.
(** protobuf.rs:149-154, 177-179 [FieldData::to_bytes]. *)
Definition fd_to_bytes (d : field_data) : outcome field_data_error bytes :=
  match d with FBytes b => Ok b | _ => not_bytes end.
(** protobuf.rs:101-103, 181-183 [FieldData::to_float]: a float is modelled by its
    32-bit pattern. *)
Definition fd_to_float (d : field_data) : outcome field_data_error N :=
  match d with FBits32 b => Ok (of_le_bytes b) | _ => not_bits32 end.
(** protobuf.rs:87-89, 185-187 [FieldData::to_double]: 64-bit pattern. *)
Definition fd_to_double (d : field_data) : outcome field_data_error N :=
  match d with FBits64 b => Ok (of_le_bytes b) | _ => not_bits64 end.
(** protobuf.rs:189-194 [FieldData::to_fixed32]. *)
Definition fd_to_fixed32 (d : field_data) : outcome field_data_error N :=
  match d with FBits32 b => Ok (of_le_bytes b) | _ => not_bits32 end.
(** protobuf.rs:196-201 [FieldData::to_fixed64]. *)
Definition fd_to_fixed64 (d : field_data) : outcome field_data_error N :=
  match d with FBits64 b => Ok (of_le_bytes b) | _ => not_bits64 end.
(** protobuf.rs:203-208 [FieldData::to_int32]. *)
Definition fd_to_int32 (d : field_data) : outcome field_data_error Z :=
  match d with FVarInt b => map_err FDecode (vi_to_i32 b) | _ => not_varint end.
(** protobuf.rs:210-215 [FieldData::to_int64]. *)
Definition fd_to_int64 (d : field_data) : outcome field_data_error Z :=
  match d with FVarInt b => map_err FDecode (vi_to_i64 b) | _ => not_varint end.
(** protobuf.rs:217-222 [FieldData::to_sfixed32]. *)
Definition fd_to_sfixed32 (d : field_data) : outcome field_data_error Z :=
  match d with FBits32 b => Ok (u64_as_i32 (of_le_bytes b)) | _ => not_bits32 end.
(** protobuf.rs:224-229 [FieldData::to_sfixed64]. *)
Definition fd_to_sfixed64 (d : field_data) : outcome field_data_error Z :=
  match d with FBits64 b => Ok (u64_as_i64 (of_le_bytes b)) | _ => not_bits64 end.
(** protobuf.rs:231-236 [FieldData::to_sint32]. *)
Definition fd_to_sint32 (d : field_data) : outcome field_data_error Z :=
  match d with FVarInt b => map_err FDecode (vi_to_i32_zigzag b) | _ => not_varint end.
(** protobuf.rs:238-243 [FieldData::to_sint64]. *)
Definition fd_to_sint64 (d : field_data) : outcome field_data_error Z :=
  match d with FVarInt b => map_err FDecode (vi_to_i64_zigzag b) | _ => not_varint end.
(** protobuf.rs:72-76, 245-247 [FieldData::to_string]: a Rust [String] is modelled
    by its bytes, which are valid UTF-8. *)
Definition fd_to_string (d : field_data) : outcome field_data_error bytes :=
  match d with
  | FBytes b => if utf8_valid b then Ok b else Err FInvalidUTF8String
  | _ => not_bytes
  end.
(** protobuf.rs:249-254 [FieldData::to_uint32]. *)
Definition fd_to_uint32 (d : field_data) : outcome field_data_error N :=
  match d with FVarInt b => map_err FDecode (vi_to_u32 b) | _ => not_varint end.
(** protobuf.rs:256-261 [FieldData::to_uint64]. *)
Definition fd_to_uint64 (d : field_data) : outcome field_data_error N :=
  match d with FVarInt b => map_err FDecode (vi_to_u64 b) | _ => not_varint end.

(** ** The writer (protobuf.rs:343-439).  A writer is the bytes written so far; the
    mutating methods return the new value. *)
Definition VARINT_TYPE : N := 0.
Definition BITS64_TYPE : N := 1.
Definition LENGTH_TYPE : N := 2.
Definition BITS32_TYPE : N := 5.

(** protobuf.rs:358 the assertion [field_type & !3 == 0] of [write_tag]. *)
Definition tag_assert (field_type : N) : bool :=
  N.land field_type (two64 - 1 - 3) =? 0.
(** protobuf.rs:359-360 the rest of [write_tag]; [field_number] is a u32, so the
    shift stays within 64 bits. *)
Definition put_tag (w : bytes) (field_number field_type : N) : bytes :=
  w ++ encode_u64 (N.lor (N.shiftl field_number 3 mod two64) field_type).
(** protobuf.rs:357-361 [write_tag]. *)
Definition write_tag (w : bytes) (field_number field_type : N) : outcome unit bytes :=
  if tag_assert field_type then Ok (put_tag w field_number field_type) else Panic.

(** protobuf.rs:376-379 [write_uint64].  The assertion of [write_tag] holds for the
    constants 0, 1 and 2 (lemma [tag_assert_ok]), so these writers are total. *)
Definition write_uint64 (w : bytes) (field_number value : N) : bytes :=
  put_tag w field_number VARINT_TYPE ++ encode_u64 value.
(** protobuf.rs:364-366 [write_int32]: [value as u64] sign-extends. *)
Definition write_int32 (w : bytes) (field_number : N) (value : Z) : bytes :=
  write_uint64 w field_number (int_as_u64 value).
(** protobuf.rs:368-370 [write_int64]. *)
Definition write_int64 (w : bytes) (field_number : N) (value : Z) : bytes :=
  write_uint64 w field_number (int_as_u64 value).
(** protobuf.rs:372-374 [write_uint32]. *)
Definition write_uint32 (w : bytes) (field_number value : N) : bytes :=
  write_uint64 w field_number value.
(** protobuf.rs:391-393 [write_bool]. *)
Definition write_bool (w : bytes) (field_number : N) (value : bool) : bytes :=
  write_uint64 w field_number (if value then 1 else 0).
(** protobuf.rs:395-408 [write_fixed64], [write_sfixed64], [write_double]:
    big-endian bytes (doubles by bit pattern). *)
Definition write_fixed64 (w : bytes) (field_number value : N) : bytes :=
  put_tag w field_number BITS64_TYPE ++ be_bytes 8 value.
Definition write_sfixed64 (w : bytes) (field_number : N) (value : Z) : bytes :=
  put_tag w field_number BITS64_TYPE ++ be_bytes 8 (int_as_u64 value).
Definition write_double (w : bytes) (field_number bits : N) : bytes :=
  put_tag w field_number BITS64_TYPE ++ be_bytes 8 bits.
(** protobuf.rs:410-423 [write_fixed32], [write_sfixed32], [write_float]: the tag
    type is 5, so the assertion of [write_tag] decides. *)
Definition write_sfixed32 (w : bytes) (field_number : N) (value : Z) : outcome unit bytes :=
  let? w1 := write_tag w field_number BITS32_TYPE in
  Ok (w1 ++ be_bytes 4 (Z.to_N (value mod Z.of_N two32))).
Definition write_fixed32 (w : bytes) (field_number : N) (value : Z) : outcome unit bytes :=
  write_sfixed32 w field_number value.
Definition write_float (w : bytes) (field_number bits : N) : outcome unit bytes :=
  let? w1 := write_tag w field_number BITS32_TYPE in
  Ok (w1 ++ be_bytes 4 bits).
(** protobuf.rs:426-428 [write_usize]. *)
Definition write_usize (w : bytes) (field_number value : N) : bytes :=
  write_uint64 w field_number value.
(** protobuf.rs:430-434 [write_bytes]. *)
Definition write_bytes (w : bytes) (field_number : N) (b : bytes) : bytes :=
  put_tag w field_number LENGTH_TYPE ++ encode_usize (blen b) ++ b.
(** protobuf.rs:436-438 [write_string]: a string is its UTF-8 bytes. *)
Definition write_string (w : bytes) (field_number : N) (s : bytes) : bytes :=
  write_bytes w field_number s.

(** ** The reader (protobuf.rs:296-540) *)
(** protobuf.rs:322-329 [ReadError]. *)
Inductive read_error :=
| EndOfFile (offset : nat) (case : read_case)
| InvalidTag | InvalidLength
| LengthOverflow (offset : nat)
| UnknownWireType (offset : nat) (ty : N).

(** protobuf.rs:447-450 [PBufReader]. *)
Record pb_reader := { rd_offset : nat; rd_data : bytes }.
(** protobuf.rs:453-455 [PBufReader::new]. *)
Definition reader_new (data : bytes) : pb_reader := {| rd_offset := 0; rd_data := data |}.
Definition at_offset (r : pb_reader) (o : nat) : pb_reader :=
  {| rd_offset := o; rd_data := rd_data r |}.

(** The methods below return the value and the reader afterwards.  The reader left
    behind by an error is not modelled: every caller returns the error at once. *)

(** protobuf.rs:485-501 [read_varint]. *)
Definition rd_varint (r : pb_reader) (case : read_case)
  : outcome read_error (bytes * pb_reader) :=
  match scan_varint (skipn (rd_offset r) (rd_data r)) with
  | None => Err (EndOfFile (rd_offset r) case)
  | Some n =>
    match get_range (rd_data r) (rd_offset r) (rd_offset r + n) with
    | Some slice => Ok (slice, at_offset r (rd_offset r + n))
    | None => Panic
    end
  end.

(** protobuf.rs:524-539 [read].  The requested length is a usize that may be far
    larger than the data, so the bound is checked before it becomes an index. *)
Definition rd_read (r : pb_reader) (nbytes : N) (case : read_case)
  : outcome read_error (bytes * pb_reader) :=
  let e := N.of_nat (rd_offset r) + nbytes in
  if two64 <=? e then Err (LengthOverflow (rd_offset r))
  else if e <=? blen (rd_data r) then
    match get_range (rd_data r) (rd_offset r) (N.to_nat e) with
    | Some slice => Ok (slice, at_offset r (N.to_nat e))
    | None => Err (EndOfFile (rd_offset r) case)
    end
  else Err (EndOfFile (rd_offset r) case).

(** protobuf.rs:510-515 [read_32bit], 517-522 [read_64bit]: [copy_from_slice] into
    an array panics unless the lengths agree. *)
Definition rd_fixed (r : pb_reader) (n : nat) (case : read_case)
  : outcome read_error (bytes * pb_reader) :=
  let? x := rd_read r (N.of_nat n) case in
  if (length (fst x) =? n)%nat then Ok x else Panic.

(** protobuf.rs:503-508 [read_length_delimited]. *)
Definition rd_length_delimited (r : pb_reader) : outcome read_error (bytes * pb_reader) :=
  let? x := rd_varint r CBytesLength in
  let? nbytes := map_err (fun _ => InvalidLength) (vi_to_usize (fst x)) in
  rd_read (snd x) nbytes CBytes.

(** protobuf.rs:296-302 [FieldRef]. *)
Record field_ref := {
  fr_offset : nat; fr_tag : N; fr_number : N; fr_wire_type : N; fr_data : field_data }.

(** protobuf.rs:457-483 [read_field]. *)
Definition rd_field (r : pb_reader) : outcome read_error (option (field_ref * pb_reader)) :=
  if (length (rd_data r) <=? rd_offset r)%nat then Ok None
  else
    let start := rd_offset r in
    let? x := rd_varint r CFieldTag in
    let? tag := map_err (fun _ => InvalidTag) (vi_to_u64 (fst x)) in
    let wire_type := N.land tag 7 in
    let r1 := snd x in
    let? y :=
      (if wire_type =? 0 then
         let? d := rd_varint r1 CVarInt in Ok (FVarInt (fst d), snd d)
       else if wire_type =? 1 then
         let? d := rd_fixed r1 8 CBits64 in Ok (FBits64 (fst d), snd d)
       else if wire_type =? 2 then
         let? d := rd_length_delimited r1 in Ok (FBytes (fst d), snd d)
       else if wire_type =? 5 then
         let? d := rd_fixed r1 4 CBits32 in Ok (FBits32 (fst d), snd d)
       else Err (UnknownWireType start wire_type)) in
    Ok (Some ({| fr_offset := start; fr_tag := tag; fr_number := N.shiftr tag 3;
                 fr_wire_type := wire_type; fr_data := fst y |}, snd y)).

(** ** Message decoding (protobuf.rs:542-589) *)
(** protobuf.rs:550-558 [FromPBError]. *)
Inductive from_pb_error :=
| PPlain (msg : string) | PRead (e : read_error) | PDecode (e : decode_error)
| PInvalidUTF8String | PMissingField (name : string) | PDuplicateField (name : string)
| POutOfFuel.
(** protobuf.rs:581-589 [From<FieldDataError>]. *)
Definition from_fd_error (e : field_data_error) : from_pb_error :=
  match e with
  | FPlain s => PPlain s
  | FDecode d => PDecode d
  | FInvalidUTF8String => PInvalidUTF8String
  end.

(** The loop [while let Some(field) = reader.read_field()? { match field.field_number
    ... }] that every [from_pb] in the code base runs, with the loop body as a
    parameter.  It only looks at the field number and the data.  Fuel is one more
    than the data length; [POutOfFuel] is never returned (lemma [pb_loop_fuel]). *)
Fixpoint pb_loop {S : Type} (body : S -> N -> field_data -> outcome from_pb_error S)
    (fuel : nat) (r : pb_reader) (s : S) : outcome from_pb_error S :=
  match fuel with
  | O => Err POutOfFuel
  | Datatypes.S fuel' =>
    let? f := map_err PRead (rd_field r) in
    match f with
    | None => Ok s
    | Some (fr, r') =>
      let? s' := body s (fr_number fr) (fr_data fr) in
      pb_loop body fuel' r' s'
    end
  end.
Definition pb_parse {S : Type} (body : S -> N -> field_data -> outcome from_pb_error S)
    (data : bytes) (s : S) : outcome from_pb_error S :=
  pb_loop body (Datatypes.S (length data)) (reader_new data) s.

(** [field.data.to_xxx()?] inside a [from_pb]. *)
Definition access {A} (x : outcome field_data_error A) : outcome from_pb_error A :=
  map_err from_fd_error x.
