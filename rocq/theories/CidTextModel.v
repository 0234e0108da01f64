(** Model of src/ipfs/types/cid.rs, text form. *)
From Verif Require Import Base CidModel MultibaseModel.
Local Open Scope string_scope. Local Open Scope list_scope. Local Open Scope N_scope.

(** cid.rs:86-95 [CIDParseError]: [DecodeError(..)] or one of the others. *)
Inductive cid_text_error := TDecode (e : mb_error) | TParse (e : cid_error).

(** cid.rs:149-159 [Display for CID]. *)
Definition cid_to_string (c : cid) : bytes :=
  let b := cid_to_bytes c in
  if is_cid_v0 b then encode_noprefix b Base58BTC else encode b Base32.

(** [cid_str.starts_with("Qm")]. *)
Definition starts_with_Qm (s : bytes) : bool :=
  match s with q :: m :: _ => (q =? ch "Q") && (m =? ch "m") | _ => false end.
(** cid.rs:166-176 [CID::from_string]. *)
Definition cid_from_string (s : bytes) : outcome cid_text_error cid :=
  if (length s =? 46)%nat && starts_with_Qm s then
    let? b := map_err TDecode (decode_noprefix s Base58BTC) in
    map_err TParse (cid_from_bytes b)
  else
    let? b := map_err TDecode (decode s) in
    map_err TParse (cid_from_bytes_v1 b).
