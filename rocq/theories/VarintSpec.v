(** What a base-128 varint means, independently of the code. *)
From Verif Require Import Base.

(** Little-endian base-128 value of a byte string; the top bit of each byte is a
    continuation marker and does not contribute. *)
Fixpoint base128_value (l : bytes) : N :=
  match l with
  | [] => 0
  | b :: t => b mod 128 + 128 * base128_value t
  end.

(** Continuation bytes (top bit set) followed by one final byte (top bit clear). *)
Definition well_terminated (l : bytes) : Prop :=
  exists pre last, l = pre ++ [last] /\ Forall (fun b => 128 <= b) pre /\ last < 128.
