(** Model of src/formats/protobuf/varint.rs and of the varint scanning helper of
    src/formats/protobuf/protobuf.rs. *)
From Verif Require Import Base.

(** varint.rs:51-63 [encode_u64]: emit seven bits at a time, least significant
    first, top bit set on all but the last byte.  The [loop] is recursion on fuel;
    [N.size value + 1] iterations always suffice (lemma [encode_u64_eq] is the
    loop's own equation, with no fuel).  The appended bytes are returned. *)
Fixpoint encode_loop (fuel : nat) (value : N) : bytes :=
  match fuel with
  | O => []
  | S fuel' =>
    let seven := N.land value 127 in
    let value' := N.shiftr value 7 in
    if negb (value' =? 0) then N.lor seven 128 :: encode_loop fuel' value'
    else [seven]
  end.
Definition encode_u64 (value : N) : bytes := encode_loop (S (N.to_nat (N.size value))) value.

(** varint.rs:47-49 [encode_usize]. *)
Definition encode_usize (value : N) : bytes := encode_u64 value.

(** varint.rs:66-70 [DecodeError]. *)
Inductive decode_error := Overflow | MissingFinalByte | MisplacedFinalByte.

(** varint.rs:80-107 [decode_u64]: the [for] loop with its accumulator [res] and
    [shift]; [i + 1 == data.len()] is "no bytes follow".  [seven_bits << shift]
    is only reached with [shift <= 63]; bits shifted out of 64 are lost. *)
Fixpoint decode_loop (res shift : N) (data : bytes) : outcome decode_error N :=
  match data with
  | [] => Err MissingFinalByte
  | b :: rest =>
    let seven_bits := N.land b 127 in
    let last := N.land b 128 =? 0 in
    if 64 <=? shift then Err Overflow
    else if (shift =? 63) && (1 <? b) then Err Overflow
    else
      let res' := N.lor res (N.shiftl seven_bits shift mod two64) in
      if last then
        match rest with
        | [] => Ok res'
        | _ => Err MisplacedFinalByte
        end
      else decode_loop res' (shift + 7) rest
  end.
Definition decode_u64 (data : bytes) : outcome decode_error N := decode_loop 0 0 data.

(** varint.rs:4-8 [DecoderResult], 10-21 [U64Decoder]. *)
Inductive decoder_result := Finished (v : N) | DOverflow | Pending.
Record u64_decoder := { dec_res : N; dec_shift : N }.
Definition decoder_new : u64_decoder := {| dec_res := 0; dec_shift := 0 |}.

(** [u64::checked_shl]: [None] when the shift is 64 or more, otherwise the shifted
    value with the overflowing bits dropped. *)
Definition checked_shl64 (x s : N) : option N :=
  if s <? 64 then Some (N.shiftl x s mod two64) else None.

(** varint.rs:23-37 [U64Decoder::input]. *)
Definition decoder_input (d : u64_decoder) (b : N) : u64_decoder * decoder_result :=
  match checked_shl64 (N.land b 127) (dec_shift d) with
  | None => (d, DOverflow)
  | Some x =>
    let d' := {| dec_res := N.lor (dec_res d) x; dec_shift := dec_shift d + 7 |} in
    if N.land b 128 =? 0 then (d', Finished (dec_res d')) else (d', Pending)
  end.

(** A driver of the incremental decoder: feed bytes until it stops.  Returns the
    decoder's verdict and the number of bytes it was fed. *)
Fixpoint feed (d : u64_decoder) (data : bytes) : decoder_result * nat :=
  match data with
  | [] => (Pending, O)
  | b :: rest =>
    match decoder_input d b with
    | (d', Pending) => let '(r, n) := feed d' rest in (r, S n)
    | (_, r) => (r, 1%nat)
    end
  end.

(** The scanning loop of protobuf.rs:54-66 ([VarInt::read_from]) and
    protobuf.rs:487-499 ([PBufReader::read_varint]) over [data[offset..]]: the
    number of bytes up to and including the first one with a clear top bit. *)
Fixpoint scan_varint (rest : bytes) : option nat :=
  match rest with
  | [] => None
  | b :: t =>
    if N.land b 128 =? 0 then Some 1%nat
    else option_map S (scan_varint t)
  end.

(** protobuf.rs:52-69 [VarInt::read_from]: the slice and the new offset; when the
    data ends first the offset has been moved to the end and [None] is returned. *)
Definition read_from (data : bytes) (offset : nat) : option bytes * nat :=
  match scan_varint (skipn offset data) with
  | Some n => (get_range data offset (offset + n), (offset + n)%nat)
  | None => (None, Nat.max offset (length data))
  end.
