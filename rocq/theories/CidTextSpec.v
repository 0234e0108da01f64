(** What text denotes which CID. *)
From Verif Require Import Base CidModel CidSpec MultibaseModel MultibaseSpec.
(** Version 0: the base-58 text of its 34 bytes.  Version 1: a base code, then text
    that reads as its bytes in that base. *)
Definition cid_text (s : bytes) (c : cid) : Prop :=
  match cid_ver c with
  | CIDv0 => exists data, denotes Base58BTC s data /\ cid_wire data c
  | CIDv1 => exists b t data, s = base_code b :: t /\ reads_as b t data /\ cid_wire data c
  end.
