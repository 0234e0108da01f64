(** C05-C08: protobuf scalars, messages, reader safety, fixed-width fields. *)
From Verif Require Import Base BaseProofs VarintModel VarintSpec.
From Verif Require Import ProtobufModel ProtobufSpec ProtobufOps ProtobufProofs ProtobufProofs2.

(** C05: writing one integer or boolean of any type and reading the bytes yields one
    field with that number whose accessor of the same type returns the value. *)
Theorem C05_scalars_round_trip :
  forall o, op_ok o -> (forall n b, o <> OBytes n b) -> (forall n s, o <> OString n s) ->
    exists f, pb_parse collect (apply_op [] o) [] = Ok [f] /\ op_reads o f.
Proof. exact write_read_one. Qed.
Print Assumptions C05_scalars_round_trip.

(** C05: the zig-zag accessors invert the zig-zag map on every i64 and i32. *)
Theorem C05_zigzag64 :
  forall z, (- 2 ^ 63 <= z < 2 ^ 63)%Z ->
    fd_to_sint64 (FVarInt (encode_u64 (zigzag z))) = Ok z.
Proof. exact fd_sint64. Qed.
Print Assumptions C05_zigzag64.
Theorem C05_zigzag32 :
  forall z, (- 2 ^ 31 <= z < 2 ^ 31)%Z ->
    fd_to_sint32 (FVarInt (encode_u64 (zigzag z))) = Ok z.
Proof. exact fd_sint32. Qed.
Print Assumptions C05_zigzag32.

Example C05_case :
  op_ok (OInt32 7 (-5)) /\
  apply_op [] (OInt32 7 (-5)) = [56; 251; 255; 255; 255; 255; 255; 255; 255; 255; 1] /\
  fd_to_sint32 (FVarInt (encode_u64 (zigzag (-2147483648)))) = Ok (-2147483648)%Z.
Proof. split; [cbn; lia|]. split; vm_compute; reflexivity. Qed.

(** C06: any sequence of writes reads back as the same fields, in the same order,
    with the same numbers and values, and nothing else. *)
Theorem C06_message_round_trip :
  forall ops, Forall op_ok ops -> fits (fold_left apply_op ops []) ->
    exists fs, pb_parse collect (fold_left apply_op ops []) [] = Ok fs /\
               Forall2 op_reads ops fs.
Proof. exact write_read_ops. Qed.
Print Assumptions C06_message_round_trip.

(** C06: more generally the reader accepts exactly the byte strings of the wire
    grammar and returns their (unique) list of fields. *)
Theorem C06_reader_is_the_grammar :
  forall data fs, bytes_ok data -> fits data ->
    (pb_parse collect data [] = Ok fs <-> wire_message data fs).
Proof. exact parse_collect. Qed.
Print Assumptions C06_reader_is_the_grammar.

Example C06_case :
  let ops := [OUint64 1 300; OString 2 (ascii_bytes "hi"); OInt64 3 (-1); OBytes 2 []] in
  Forall op_ok ops /\ fits (fold_left apply_op ops []) /\
  pb_parse collect (fold_left apply_op ops []) [] =
    Ok [(1, FVarInt [172; 2]); (2, FBytes [104; 105]);
        (3, FVarInt [255;255;255;255;255;255;255;255;255;1]); (2, FBytes [])].
Proof.
  cbv zeta. split; [|split; [reflexivity|vm_compute; reflexivity]].
  repeat constructor; try (vm_compute; reflexivity); try (vm_compute; congruence).
Qed.

(** C07: one read from any position: it never panics, reports the end exactly at the
    end, and otherwise moves strictly forward within the input and returns a payload
    that is the input slice ending at the new position and starting after the tag. *)
Theorem C07_field_in_bounds :
  forall data off, bytes_ok data -> fits data -> (off <= length data)%nat ->
    let r := {| rd_offset := off; rd_data := data |} in
    rd_field r <> Panic /\
    (rd_field r = Ok None <-> off = length data) /\
    (forall fr r', rd_field r = Ok (Some (fr, r')) ->
       rd_data r' = data /\ (off < rd_offset r' <= length data)%nat /\
       exists a, (off < a)%nat /\
                 get_range data a (rd_offset r') = Some (payload (fr_data fr))).
Proof. exact field_in_bounds. Qed.
Print Assumptions C07_field_in_bounds.

(** C07: reading all fields terminates on every input, either with fields that tile
    the whole input or with a read error. *)
Theorem C07_reader_total :
  forall data, bytes_ok data -> fits data ->
    (exists fs, pb_parse collect data [] = Ok fs /\ wire_message data fs) \/
    (exists e, pb_parse collect data [] = Err (PRead e)).
Proof. exact parse_total. Qed.
Print Assumptions C07_reader_total.

Example C07_case :
  pb_parse collect [10; 2; 104; 105; 8; 1] [] = Ok [(1, FBytes [104; 105]); (1, FVarInt [1])] /\
  pb_parse collect [10; 200; 1; 104] [] = Err (PRead (EndOfFile 3 CBytes)) /\
  pb_parse collect [11] [] = Err (PRead (UnknownWireType 0 3)) /\
  pb_parse collect [10; 255;255;255;255;255;255;255;255;255;1] [] = Err (PRead (LengthOverflow 11)).
Proof. vm_compute. auto. Qed.

(** C08: a fixed64 value is not read back unchanged ... *)
Theorem C08_fixed64_refuted :
  exists n v, n < 2 ^ 32 /\ v < 2 ^ 64 /\
    exists d w, pb_parse collect (write_fixed64 [] n v) [] = Ok [(n, d)] /\
                fd_to_fixed64 d = Ok w /\ w <> v.
Proof. exact fixed64_refuted. Qed.
Print Assumptions C08_fixed64_refuted.

(** C08: ... what is read back is the value with its eight bytes reversed ... *)
Theorem C08_fixed64_byte_swapped :
  forall n v, n < 2 ^ 32 -> v < 2 ^ 64 ->
    pb_parse collect (write_fixed64 [] n v) [] = Ok [(n, FBits64 (be_bytes 8 v))] /\
    fd_to_fixed64 (FBits64 (be_bytes 8 v)) = Ok (of_le_bytes (rev (le_bytes 8 v))).
Proof. exact fixed64_swapped. Qed.
Print Assumptions C08_fixed64_byte_swapped.

(** C08: ... and every 32-bit fixed-width write panics. *)
Theorem C08_fixed32_refuted :
  forall w n z bits,
    write_fixed32 w n z = Panic /\ write_sfixed32 w n z = Panic /\ write_float w n bits = Panic.
Proof. exact fixed32_panics. Qed.
Print Assumptions C08_fixed32_refuted.

Example C08_case : fd_to_fixed64 (FBits64 (be_bytes 8 258)) = Ok 144396663052566528.
Proof. reflexivity. Qed.
