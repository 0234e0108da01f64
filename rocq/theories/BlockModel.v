(** Model of src/ipfs/bitswap/block.rs. *)
From Verif Require Import Base VarintModel CidModel.
Local Open Scope string_scope. Local Open Scope list_scope. Local Open Scope N_scope.

(** block.rs:23-55 [get_block_cid]; SHA2-256 and BLAKE2b-256 (crates sha2, blake2) are
    parameters. *)
Definition get_block_cid (sha256 blake2b256 : bytes -> bytes) (prefix : cid_prefix) (data : bytes)
  : outcome string cid :=
  match cp_hash_type prefix with
  | HSha1 => Err "Unsupported hash algorithm: Sha1"
  | HSha2256 =>
      Ok {| cid_ver := cp_ver prefix; cid_codec := cp_codec prefix;
            cid_hash_type := HSha2256; cid_hash := sha256 data |}
  | HBlake2b256 =>
      Ok {| cid_ver := cp_ver prefix; cid_codec := cp_codec prefix;
            cid_hash_type := HBlake2b256; cid_hash := blake2b256 data |}
  | HBlake3 => Err "Unsupported hash algorithm: Blake3"
  | HUnknown _ => Err "Unsupported hash algorithm: Unknown"
  end.
