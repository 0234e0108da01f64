(** Model of src/ipfs/types/cid.rs, binary form.  (Text form: CidTextModel.v.) *)
From Verif Require Import Base VarintModel ProtobufModel.

(** cid.rs:8-12 [CIDVersion]. *)
Inductive cid_version := CIDv0 | CIDv1.
(** cid.rs:15-22 [MultiCodec]. *)
Inductive multi_codec := CRaw | CDagPB | CDagCBOR | CLibP2PKey | CUnknown (v : N).
(** cid.rs:25-33 [MultiCodec::from_u64]. *)
Definition codec_of (v : N) : multi_codec :=
  if v =? 0x55 then CRaw else if v =? 0x70 then CDagPB
  else if v =? 0x71 then CDagCBOR else if v =? 0x72 then CLibP2PKey else CUnknown v.
(** cid.rs:35-43 [MultiCodec::to_u64]. *)
Definition codec_num (c : multi_codec) : N :=
  match c with
  | CRaw => 0x55 | CDagPB => 0x70 | CDagCBOR => 0x71 | CLibP2PKey => 0x72
  | CUnknown v => v
  end.
(** cid.rs:47-53 [MultiHash]. *)
Inductive multi_hash := HSha1 | HSha2256 | HBlake2b256 | HBlake3 | HUnknown (v : N).
(** cid.rs:56-64 [MultiHash::from_u64]. *)
Definition hash_of (v : N) : multi_hash :=
  if v =? 0x11 then HSha1 else if v =? 0x12 then HSha2256
  else if v =? 0xb220 then HBlake2b256 else if v =? 0x1e then HBlake3 else HUnknown v.
(** cid.rs:66-74 [MultiHash::to_u64]. *)
Definition hash_num (h : multi_hash) : N :=
  match h with
  | HSha1 => 0x11 | HSha2256 => 0x12 | HBlake2b256 => 0xb220 | HBlake3 => 0x1e
  | HUnknown v => v
  end.

(** cid.rs:131-136 [CID]. *)
Record cid := {
  cid_ver : cid_version; cid_codec : multi_codec;
  cid_hash_type : multi_hash; cid_hash : bytes }.

(** cid.rs:86-95 [CIDParseError]; the text error payload (multibase.rs [DecodeError])
    is kept as a parameter-free tag here and is refined in CidTextModel.v. *)
Inductive cid_error :=
| CEmpty | CUnsupportedVersion | CInvalidCodec | CInvalidHashType
| CInvalidHashSize | CHashSizeMismatch.

(** cid.rs:162-164 [CID::is_cid_v0]. *)
Definition is_cid_v0 (b : bytes) : bool :=
  (length b =? 34)%nat &&
  match b with
  | b0 :: b1 :: _ => (b0 =? 0x12) && (b1 =? 0x20)
  | _ => false
  end.

(** cid.rs:207-215 [CID::to_bytes_v1]. *)
Definition cid_to_bytes_v1 (c : cid) : bytes :=
  [1] ++ encode_u64 (codec_num (cid_codec c)) ++ encode_u64 (hash_num (cid_hash_type c)) ++
  encode_usize (blen (cid_hash c)) ++ cid_hash c.

(** cid.rs:192-205 [CID::to_bytes]. *)
Definition cid_to_bytes (c : cid) : bytes :=
  match cid_ver c, cid_codec c, cid_hash_type c, (length (cid_hash c) =? 32)%nat with
  | CIDv0, CDagPB, HSha2256, true => [0x12; 0x20] ++ cid_hash c
  | _, _, _, _ => cid_to_bytes_v1 c
  end.

(** The shape [match VarInt::read_from(..., &mut offset) { Some(v) => v.to_u64().map_err(..)?,
    None => return Err(..) }] of cid.rs:229-232, 236-239, 243-246, 288-305: the number
    and the new offset. *)
Definition cid_varint (b : bytes) (offset : nat) (e : cid_error) : outcome cid_error (N * nat) :=
  match read_from b offset with
  | (Some v, offset') => let? n := map_err (fun _ => e) (decode_u64 v) in Ok (n, offset')
  | (None, _) => Err e
  end.

(** cid.rs:217-264 [CID::from_bytes_v1]. *)
Definition cid_from_bytes_v1 (b : bytes) : outcome cid_error cid :=
  match b with
  | [] => Err CEmpty
  | version :: _ =>
    if negb (version =? 1) then Err CUnsupportedVersion
    else
      let? (codec, o1) := cid_varint b 1 CInvalidCodec in
      let? (hash, o2) := cid_varint b o1 CInvalidHashType in
      let? (size, o3) := cid_varint b o2 CInvalidHashSize in
      let hash_end := N.of_nat o3 + size in
      if two64 <=? hash_end then Err CHashSizeMismatch
      else if negb (hash_end =? blen b) then Err CHashSizeMismatch
      else
        let? h := index_range b o3 (N.to_nat hash_end) in
        Ok {| cid_ver := CIDv1; cid_codec := codec_of codec;
              cid_hash_type := hash_of hash; cid_hash := h |}
  end.

(** cid.rs:178-190 [CID::from_bytes]. *)
Definition cid_from_bytes (b : bytes) : outcome cid_error cid :=
  if is_cid_v0 b then
    let? h := index_range b 2 (length b) in
    Ok {| cid_ver := CIDv0; cid_codec := CDagPB; cid_hash_type := HSha2256; cid_hash := h |}
  else cid_from_bytes_v1 b.

(** cid.rs:269-274 [CIDPrefix]. *)
Record cid_prefix := {
  cp_ver : cid_version; cp_codec : multi_codec; cp_hash_type : multi_hash; cp_hash_size : N }.

(** cid.rs:276-308 [CIDPrefix::from_bytes]. *)
Definition cid_prefix_from_bytes (b : bytes) : outcome cid_error cid_prefix :=
  match b with
  | [] => Err CEmpty
  | v :: _ =>
    let? version := (if v =? 0 then Ok CIDv0 else if v =? 1 then Ok CIDv1
                     else Err CUnsupportedVersion) in
    let? (codec, o1) := cid_varint b 1 CInvalidCodec in
    let? (hash, o2) := cid_varint b o1 CInvalidHashType in
    let? (size, o3) := cid_varint b o2 CInvalidHashSize in
    Ok {| cp_ver := version; cp_codec := codec_of codec;
          cp_hash_type := hash_of hash; cp_hash_size := size |}
  end.
