(** What a CID's binary form is, independently of the code. *)
From Verif Require Import Base VarintSpec ProtobufSpec CidModel.

(** A codec / hash function that is a value the parser could have produced: a known
    one, or an unknown number that is not one of the known ones. *)
Definition codec_ok (c : multi_codec) : Prop :=
  match c with
  | CUnknown v => v < 2 ^ 64 /\ v <> 0x55 /\ v <> 0x70 /\ v <> 0x71 /\ v <> 0x72
  | _ => True
  end.
Definition hash_ok (h : multi_hash) : Prop :=
  match h with
  | HUnknown v => v < 2 ^ 64 /\ v <> 0x11 /\ v <> 0x12 /\ v <> 0xb220 /\ v <> 0x1e
  | _ => True
  end.
(** A CID with values of their Rust types; a version-0 CID must be in standard form. *)
Definition cid_ok (c : cid) : Prop :=
  bytes_ok (cid_hash c) /\ codec_ok (cid_codec c) /\ hash_ok (cid_hash_type c) /\
  (cid_ver c = CIDv0 ->
     cid_codec c = CDagPB /\ cid_hash_type c = HSha2256 /\ length (cid_hash c) = 32%nat).

(** The binary grammar: version 0 is 0x12 0x20 and a 32-byte digest; version 1 is the
    byte 1, three varints (codec, hash function, digest size) and the digest. *)
Definition cid_wire (b : bytes) (c : cid) : Prop :=
  match cid_ver c with
  | CIDv0 => b = 0x12 :: 0x20 :: cid_hash c /\ length (cid_hash c) = 32%nat /\
             cid_codec c = CDagPB /\ cid_hash_type c = HSha2256
  | CIDv1 => exists lc lh ls,
      b = 1 :: lc ++ lh ++ ls ++ cid_hash c /\
      is_varint lc (codec_num (cid_codec c)) /\ is_varint lh (hash_num (cid_hash_type c)) /\
      is_varint ls (N.of_nat (length (cid_hash c))) /\
      codec_ok (cid_codec c) /\ hash_ok (cid_hash_type c)
  end.
