(** C01-C04: variable-length integers. *)
From Verif Require Import Base BaseProofs VarintModel VarintSpec VarintProofs VarintProofs2.

(** C01: encoding any u64 and decoding the bytes gives the number back. *)
Theorem C01_varint_round_trip :
  forall v, v < 2 ^ 64 -> decode_u64 (encode_u64 v) = Ok v.
Proof. exact decode_encode. Qed.
Print Assumptions C01_varint_round_trip.

(** C01: the encoding is 1 to 10 bytes, it is a byte string, it means [v], and no
    other varint meaning [v] is shorter. *)
Theorem C01_varint_minimal :
  forall v, v < 2 ^ 64 ->
    (1 <= length (encode_u64 v) <= 10)%nat /\
    bytes_ok (encode_u64 v) /\
    well_terminated (encode_u64 v) /\ base128_value (encode_u64 v) = v /\
    forall l, bytes_ok l -> well_terminated l -> base128_value l = v ->
              (length (encode_u64 v) <= length l)%nat.
Proof. exact encode_summary. Qed.
Print Assumptions C01_varint_minimal.

(** C01: two numbers never share an encoding. *)
Theorem C01_varint_injective :
  forall v w, encode_u64 v = encode_u64 w -> v = w.
Proof. exact encode_inj. Qed.
Print Assumptions C01_varint_injective.

Example C01_case : encode_u64 300 = [172; 2] /\ 300 < 2 ^ 64 /\
  length (encode_u64 (2 ^ 64 - 1)) = 10%nat.
Proof. vm_compute. auto. Qed.

(** C02: decoding succeeds exactly on well-terminated strings of at most ten bytes
    whose base-128 value fits 64 bits, and returns that value. *)
Theorem C02_varint_decode_exact :
  forall data v, bytes_ok data ->
    (decode_u64 data = Ok v <->
     well_terminated data /\ (length data <= 10)%nat /\
     base128_value data = v /\ v < 2 ^ 64).
Proof. exact decode_u64_ok. Qed.
Print Assumptions C02_varint_decode_exact.

(** C02: which error is reported when, for every byte string. *)
Theorem C02_varint_decode_errors :
  forall data, bytes_ok data ->
    (decode_u64 data = Err MissingFinalByte <->
       Forall (fun b => 128 <= b) data /\ (length data <= 9)%nat) /\
    (decode_u64 data = Err MisplacedFinalByte <->
       exists p q v, data = p ++ q /\ q <> [] /\ decode_u64 p = Ok v) /\
    decode_u64 data <> Panic.
Proof. exact decode_errors. Qed.
Print Assumptions C02_varint_decode_errors.

Example C02_case :
  bytes_ok [172; 2] /\ well_terminated [172; 2] /\ decode_u64 [172; 2] = Ok 300 /\
  decode_u64 [172] = Err MissingFinalByte /\
  decode_u64 [172; 2; 7] = Err MisplacedFinalByte /\
  decode_u64 [255;255;255;255;255;255;255;255;255;2] = Err Overflow.
Proof.
  split; [apply bytes_okb_spec; reflexivity|]. split; [|vm_compute; auto].
  exists [172], 2. repeat split; repeat constructor; lia.
Qed.

(** C03: whenever the slice decoder accepts [l], feeding its bytes one at a time
    (with anything behind) stops exactly at the end of [l] with the same number. *)
Theorem C03_incremental_agrees_partial :
  forall l v rest, bytes_ok l -> decode_u64 l = Ok v ->
    feed decoder_new (l ++ rest) = (Finished v, length l).
Proof. exact feed_decode. Qed.
Print Assumptions C03_incremental_agrees_partial.

(** C03: what the incremental decoder does on every byte string: it finishes at the
    first final byte among the first ten with the base-128 value modulo 2^64, asks
    for more while it has seen at most ten continuation bytes, and reports overflow
    on the eleventh byte. *)
Theorem C03_incremental_exact :
  forall data, bytes_ok data ->
    (forall l rest, data = l ++ rest -> well_terminated l -> (length l <= 10)%nat ->
       feed decoder_new data = (Finished (base128_value l mod 2 ^ 64), length l)) /\
    (Forall (fun b => 128 <= b) data -> (length data <= 10)%nat ->
       feed decoder_new data = (Pending, length data)) /\
    (forall l rest, data = l ++ rest -> Forall (fun b => 128 <= b) l ->
       length l = 10%nat -> rest <> [] ->
       feed decoder_new data = (DOverflow, 11%nat)).
Proof. exact feed_exact. Qed.
Print Assumptions C03_incremental_exact.

(** C03: the two decoders disagree: a ten-byte varint worth 2^64 is an overflow for
    the slice decoder and the number zero for the incremental one. *)
Theorem C03_incremental_agrees_refuted :
  exists l, bytes_ok l /\ well_terminated l /\ base128_value l = 2 ^ 64 /\
    decode_u64 l = Err Overflow /\ feed decoder_new l = (Finished 0, 10%nat).
Proof. exact feed_refuted. Qed.
Print Assumptions C03_incremental_agrees_refuted.

Example C03_case : feed decoder_new [172; 2; 99] = (Finished 300, 2%nat).
Proof. reflexivity. Qed.

(** C04: reading a varint at any position consumes exactly its encoding. *)
Theorem C04_varint_self_delimiting :
  forall before v after,
    read_from (before ++ encode_u64 v ++ after) (length before) =
    (Some (encode_u64 v), (length before + length (encode_u64 v))%nat).
Proof. exact read_from_encode. Qed.
Print Assumptions C04_varint_self_delimiting.

(** C04: concatenated encodings are read back as the same numbers, with the offset
    left at the first byte that follows. *)
Theorem C04_varint_sequence :
  forall before vs after, Forall (fun v => v < 2 ^ 64) vs ->
    read_many (length vs) (before ++ concat (map encode_u64 vs) ++ after) (length before) =
    Some (vs, (length before + length (concat (map encode_u64 vs)))%nat).
Proof. exact read_many_concat. Qed.
Print Assumptions C04_varint_sequence.

Example C04_case : read_many 3 (concat (map encode_u64 [1; 300; 70000]) ++ [9; 9]) 0 =
  Some ([1; 300; 70000], 6%nat).
Proof. reflexivity. Qed.
