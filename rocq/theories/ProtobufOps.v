(** A small language of writes, used to state what a sequence of writes reads back as. *)
From Verif Require Import Base ProtobufModel.

(** One call of a writer method: field number and value. *)
Inductive wop :=
| OInt32 (n : N) (z : Z) | OInt64 (n : N) (z : Z)
| OUint32 (n : N) (v : N) | OUint64 (n : N) (v : N) | OUsize (n : N) (v : N)
| OBool (n : N) (b : bool) | OBytes (n : N) (b : bytes) | OString (n : N) (s : bytes).

(** The call itself. *)
Definition apply_op (w : bytes) (o : wop) : bytes :=
  match o with
  | OInt32 n z => write_int32 w n z
  | OInt64 n z => write_int64 w n z
  | OUint32 n v => write_uint32 w n v
  | OUint64 n v => write_uint64 w n v
  | OUsize n v => write_usize w n v
  | OBool n b => write_bool w n b
  | OBytes n b => write_bytes w n b
  | OString n s => write_string w n s
  end.

(** The arguments are values of their Rust types. *)
Definition op_ok (o : wop) : Prop :=
  match o with
  | OInt32 n z => n < 2 ^ 32 /\ (- 2 ^ 31 <= z < 2 ^ 31)%Z
  | OInt64 n z => n < 2 ^ 32 /\ (- 2 ^ 63 <= z < 2 ^ 63)%Z
  | OUint32 n v => n < 2 ^ 32 /\ v < 2 ^ 32
  | OUint64 n v | OUsize n v => n < 2 ^ 32 /\ v < 2 ^ 64
  | OBool n b => n < 2 ^ 32 /\ True
  | OBytes n b => n < 2 ^ 32 /\ bytes_ok b
  | OString n s => n < 2 ^ 32 /\ bytes_ok s /\ utf8_valid s = true
  end.
Definition op_number (o : wop) : N :=
  match o with
  | OInt32 n _ | OInt64 n _ | OUint32 n _ | OUint64 n _ | OUsize n _
  | OBool n _ | OBytes n _ | OString n _ => n
  end.

(** The field read back carries the same number, and the accessor of the same type
    returns the value written. *)
Definition op_reads (o : wop) (f : N * field_data) : Prop :=
  fst f = op_number o /\
  match o with
  | OInt32 _ z => fd_to_int32 (snd f) = Ok z
  | OInt64 _ z => fd_to_int64 (snd f) = Ok z
  | OUint32 _ v => fd_to_uint32 (snd f) = Ok v
  | OUint64 _ v | OUsize _ v => fd_to_uint64 (snd f) = Ok v
  | OBool _ b => fd_to_bool (snd f) = Ok b
  | OBytes _ b => fd_to_bytes (snd f) = Ok b
  | OString _ s => fd_to_string (snd f) = Ok s
  end.

(** The bytes of a field's payload. *)
Definition payload (d : field_data) : bytes :=
  match d with FVarInt b | FBits32 b | FBits64 b | FBytes b => b end.
