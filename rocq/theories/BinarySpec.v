(** What the binary reader and writer should do, stated without the model's functions
    except for the types of readers and results. *)
From Verif Require Import Base BinaryModel.

(** A reader whose offset is inside its buffer. *)
Definition in_bounds (r : reader) : Prop := (r_off r <= length (r_buf r))%nat.
(** A reading operation is well behaved: from a reader in bounds it does not panic, it
    leaves the buffer alone and moves the offset forwards only and not past the end. *)
Definition well_behaved {A} (m : rd A) : Prop :=
  forall r, in_bounds r ->
    fst (m r) <> Panic /\ r_buf (snd (m r)) = r_buf r /\
    (r_off r <= r_off (snd (m r)))%nat /\ in_bounds (snd (m r)).
(** In addition, when it fails the offset has not moved. *)
Definition atomic {A} (m : rd A) : Prop :=
  forall r e, in_bounds r -> fst (m r) = Err e -> snd (m r) = r.

(** The input bytes between two offsets. *)
Definition between (b : bytes) (s e : nat) : bytes := firstn (e - s) (skipn s b).

(** The primitive reads. *)
Inductive rop :=
| RNum (width : nat)           (** [read_u8], [read_u16], [read_u24], [read_u32], [read_u64] *)
| RQuic                        (** [read_quic_varint] *)
| RFixed (n : N)               (** [read_fixed], any usize length *)
| RLen (width : nat).          (** [read_len8_bytes], [read_len16_bytes], [read_len24_bytes] *)

(** The shapes of data that the reader and the writer agree about. *)
Inductive shape :=
| SNum (width : nat)           (** a number of 1, 2, 3, 4 or 8 bytes *)
| SQuic                        (** a QUIC varint *)
| SFixed (n : N)               (** that many raw bytes *)
| SBytes (width : nat)         (** bytes with a length prefix of 1, 2 or 3 bytes *)
| SPair (a b : shape)
| SList (width : nat) (s : shape). (** a list with a length prefix of 1, 2 or 3 bytes *)

Fixpoint val (s : shape) : Type :=
  match s with
  | SNum _ | SQuic => N
  | SFixed _ | SBytes _ => bytes
  | SPair a b => (val a * val b)%type
  | SList _ s => list (val s)
  end.

(** The shapes there are functions for. *)
Fixpoint shape_ok (s : shape) : Prop :=
  match s with
  | SNum w => In w [1; 2; 3; 4; 8]%nat
  | SQuic => True
  | SFixed n => n < two64
  | SBytes w => In w [1; 2; 3]%nat
  | SPair a b => shape_ok a /\ shape_ok b
  | SList w s => In w [1; 2; 3]%nat /\ shape_ok s
  end.

(** The values of the Rust types ([u24]: a u32 below 2^24; QUIC: below 2^62). *)
Fixpoint val_ok (s : shape) : val s -> Prop :=
  match s with
  | SNum w => fun v => v < 256 ^ N.of_nat w
  | SQuic => fun v => v < two62
  | SFixed n => fun b => bytes_ok b /\ blen b = n
  | SBytes w => fun b => bytes_ok b
  | SPair a b => fun x => val_ok a (fst x) /\ val_ok b (snd x)
  | SList w s => fun l => Forall (val_ok s) l
  end.

(** RFC 9000 section 16: two bits of length, then the number in the remaining bits. *)
Definition quic_width (v : N) : nat :=
  if v <? 64 then 1%nat else if v <? 16384 then 2%nat
  else if v <? 1073741824 then 4%nat else 8%nat.
Definition quic_tag (w : nat) : N :=
  match w with 1%nat => 0 | 2%nat => 1 | 4%nat => 2 | _ => 3 end.
Definition quic_enc (v : N) : bytes :=
  let w := quic_width v in
  be_bytes w (quic_tag w * 2 ^ (8 * N.of_nat w - 2) + v).

(** The bytes of a value. *)
Fixpoint enc (s : shape) : val s -> bytes :=
  match s with
  | SNum w => fun v => be_bytes w v
  | SQuic => fun v => quic_enc v
  | SFixed n => fun b => b
  | SBytes w => fun b => be_bytes w (blen b) ++ b
  | SPair a b => fun x => enc a (fst x) ++ enc b (snd x)
  | SList w s => fun l => let p := concat (map (enc s) l) in be_bytes w (blen p) ++ p
  end.

(** Every length fits its prefix. *)
Fixpoint lengths_fit (s : shape) : val s -> Prop :=
  match s with
  | SNum _ | SQuic | SFixed _ => fun _ => True
  | SBytes w => fun b => blen b < 256 ^ N.of_nat w
  | SPair a b => fun x => lengths_fit a (fst x) /\ lengths_fit b (snd x)
  | SList w s => fun l => Forall (lengths_fit s) l /\
                          blen (concat (map (enc s) l)) < 256 ^ N.of_nat w
  end.
(** No list element is encoded as nothing at all (the reader refuses such elements). *)
Fixpoint elements_nonempty (s : shape) : val s -> Prop :=
  match s with
  | SNum _ | SQuic | SFixed _ | SBytes _ => fun _ => True
  | SPair a b => fun x => elements_nonempty a (fst x) /\ elements_nonempty b (snd x)
  | SList w s => fun l => Forall (fun x => elements_nonempty s x /\ enc s x <> []) l
  end.

(** The function the code offers for each shape. *)
Definition read_num (w : nat) : rd N :=
  match w with
  | 1%nat => read_u8 | 2%nat => read_u16 | 3%nat => read_u24 | 4%nat => read_u32 | _ => read_u64
  end.
Definition read_bytes (w : nat) : rd bytes :=
  match w with
  | 1%nat => read_len8_bytes | 2%nat => read_len16_bytes | _ => read_len24_bytes
  end.
Definition read_list {A} (w : nat) (item : rd A) : rd (list A) :=
  match w with
  | 1%nat => read_len8_list item | 2%nat => read_len16_list item | _ => read_len24_list item
  end.
Fixpoint read_shape (s : shape) : rd (val s) :=
  match s with
  | SNum w => read_num w
  | SQuic => read_quic_varint
  | SFixed n => read_fixed n
  | SBytes w => read_bytes w
  | SPair a b => do x <- read_shape a; do y <- read_shape b; rret (x, y)
  | SList w s => read_list w (read_shape s)
  end.
Definition write_num (w : nat) : N -> wr :=
  match w with
  | 1%nat => write_u8 | 2%nat => write_u16 | 3%nat => write_u24 | 4%nat => write_u32 | _ => write_u64
  end.
Definition write_bytes (w : nat) : bytes -> wr :=
  match w with
  | 1%nat => write_len8_bytes | 2%nat => write_len16_bytes | _ => write_len24_bytes
  end.
Definition write_list {A} (w : nat) (item : A -> wr) : list A -> wr :=
  match w with
  | 1%nat => write_len8_list item | 2%nat => write_len16_list item | _ => write_len24_list item
  end.
Fixpoint write_shape (s : shape) : val s -> wr :=
  match s with
  | SNum w => write_num w
  | SQuic => write_quic_varint
  | SFixed n => write_raw
  | SBytes w => write_bytes w
  | SPair a b => fun x => write_shape a (fst x);; write_shape b (snd x)
  | SList w s => write_list w (write_shape s)
  end.

(** A primitive read as the code offers it: the bytes or the number it returns. *)
Definition run_rop (o : rop) (r : reader) : outcome berr (N + bytes) * reader :=
  match o with
  | RNum w => (do v <- read_num w; rret (inl v)) r
  | RQuic => (do v <- read_quic_varint; rret (inl v)) r
  | RFixed n => (do b <- read_fixed n; rret (inr b)) r
  | RLen w => (do b <- read_bytes w; rret (inr b)) r
  end.
(** What a successful primitive read may return, given the input bytes it consumed. *)
Definition rop_value (o : rop) (consumed : bytes) (v : N + bytes) : Prop :=
  match o, v with
  | RNum w, inl n => length consumed = w /\ n = of_be_bytes consumed
  | RQuic, inl n =>
    match consumed with
    | [] => False
    | b :: _ => length consumed = N.to_nat (2 ^ (b / 64)) /\
                n = of_be_bytes consumed mod (2 ^ (8 * N.of_nat (length consumed) - 2))
    end
  | RFixed k, inr b => b = consumed /\ blen b = k
  | RLen w, inr b => consumed = firstn w consumed ++ b /\ length (firstn w consumed) = w /\
                     of_be_bytes (firstn w consumed) = blen b
  | _, _ => False
  end.
Definition rop_ok (o : rop) : Prop :=
  match o with
  | RNum w => In w [1; 2; 3; 4; 8]%nat
  | RQuic => True
  | RFixed n => n < two64
  | RLen w => In w [1; 2; 3]%nat
  end.

(** A writing operation only appends. *)
Definition appends (m : wr) : Prop :=
  forall d, exists s, snd (m d) = d ++ s.
