(** The protobuf wire format as a grammar, independent of the reader and writer. *)
From Verif Require Import Base VarintSpec ProtobufModel.

(** [l] is a varint denoting the 64-bit number [v]. *)
Definition is_varint (l : bytes) (v : N) : Prop :=
  well_terminated l /\ (length l <= 10)%nat /\ base128_value l = v /\ v < 2 ^ 64.

(** Wire type of a payload. *)
Definition wire_type (d : field_data) : N :=
  match d with FVarInt _ => 0 | FBits64 _ => 1 | FBytes _ => 2 | FBits32 _ => 5 end.

(** [body] is the wire form of the payload [d]. *)
Definition wire_payload (body : bytes) (d : field_data) : Prop :=
  match d with
  | FVarInt l => body = l /\ well_terminated l
  | FBits64 p => body = p /\ length p = 8%nat
  | FBits32 p => body = p /\ length p = 4%nat
  | FBytes p => exists lb, body = lb ++ p /\ is_varint lb (N.of_nat (length p))
  end.

(** [f] is the wire form of field number [n] with payload [d]: a tag varint worth
    [8 n + wire type], then the payload. *)
Definition wire_field (f : bytes) (n : N) (d : field_data) : Prop :=
  exists t body, f = t ++ body /\ is_varint t (8 * n + wire_type d) /\ wire_payload body d.

(** A message is a concatenation of fields. *)
Inductive wire_message : bytes -> list (N * field_data) -> Prop :=
| wm_nil : wire_message [] []
| wm_cons f n d rest fs :
    wire_field f n d -> wire_message rest fs -> wire_message (f ++ rest) ((n, d) :: fs).

(** Running a loop body over a list of fields, stopping at the first error. *)
Fixpoint run_fields {S} (body : S -> N -> field_data -> outcome from_pb_error S)
    (fs : list (N * field_data)) (s : S) : outcome from_pb_error S :=
  match fs with
  | [] => Ok s
  | (n, d) :: fs' => bind (body s n d) (run_fields body fs')
  end.

(** The zig-zag map of the protobuf language guide. *)
Definition zigzag (z : Z) : N := if (z <? 0)%Z then Z.to_N (- 2 * z - 1) else Z.to_N (2 * z).
