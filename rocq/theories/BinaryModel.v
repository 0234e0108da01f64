(** Model of src/util/binary.rs: the big-endian reader and writer used by the TLS, QUIC
    and BitTorrent code. *)
From Verif Require Import Base.
Local Open Scope string_scope. Local Open Scope list_scope. Local Open Scope N_scope.

(** binary.rs:13-23 [BinaryError].  [Other] and [InvalidUTF8String] carry no payload. *)
Inductive berr :=
| BPlain (s : string) | BString (s : string) | BOther | BInvalidUTF8
| BUnexpectedEOF (offset : nat) (expected : N) | BSizeOverflow (offset : nat) (requested : N)
| BExpectedEOF (offset : nat) (remaining : nat) | BNothingConsumed (offset : nat)
| BValueTooLarge.

(** binary.rs:69-72 [BinaryReader]. *)
Record reader := { r_buf : bytes; r_off : nat }.
(** A reading operation: its result and the reader afterwards ([&mut self]). *)
Definition rd (A : Type) : Type := reader -> outcome berr A * reader.
Definition rret {A} (a : A) : rd A := fun r => (Ok a, r).
Definition rfail {A} (e : berr) : rd A := fun r => (Err e, r).
Definition rpanic {A} : rd A := fun r => (Panic, r).
(** The [?] operator in a method taking [&mut self]. *)
Definition rbind {A B} (m : rd A) (k : A -> rd B) : rd B := fun r =>
  match m r with
  | (Ok a, r') => k a r'
  | (Err e, r') => (Err e, r')
  | (Panic, r') => (Panic, r')
  end.
Notation "'do' x <- m ; k" := (rbind m (fun x => k))
  (at level 200, x pattern, m at level 100, k at level 200, right associativity).
(** A computation that does not touch the reader. *)
Definition rlift {A} (x : outcome berr A) : rd A := fun r => (x, r).

(** binary.rs:75-77 [new]. *)
Definition new_reader (b : bytes) : reader := {| r_buf := b; r_off := 0 |}.
(** binary.rs:79-81 [new_at]. *)
Definition new_reader_at (b : bytes) (o : nat) : reader := {| r_buf := b; r_off := o |}.
(** binary.rs:87-89 [remaining]; nat subtraction saturates. *)
Definition remaining (r : reader) : nat := length (r_buf r) - r_off r.
(** binary.rs:91-93 [remaining_data]. *)
Definition remaining_data : rd bytes := fun r =>
  (index_range (r_buf r) (r_off r) (length (r_buf r)), r).
(** binary.rs:95-103 [expect_eof]. *)
Definition expect_eof : rd unit := fun r =>
  if (0 <? remaining r)%nat then (Err (BExpectedEOF (r_off r) (remaining r)), r) else (Ok tt, r).

(** binary.rs:105-111 [check_available]; [size] is a usize. *)
Definition check_available (size : N) (r : reader) : outcome berr nat :=
  let next := N.of_nat (r_off r) + size in
  if two64 <=? next then Err (BSizeOverflow (r_off r) size)
  else if next <=? blen (r_buf r) then Ok (N.to_nat next)
  else Err (BUnexpectedEOF (r_off r) size).

Definition set_off (r : reader) (o : nat) : reader := {| r_buf := r_buf r; r_off := o |}.

(** The common shape of the reading methods: check, take a value computed from the slice
    [buf[offset..next]], set the offset. *)
Definition take {A} (size : N) (f : bytes -> A) : rd A := fun r =>
  match check_available size r with
  | Ok next =>
    match index_range (r_buf r) (r_off r) next with
    | Ok s => (Ok (f s), set_off r next)
    | Err e => (Err e, r)
    | Panic => (Panic, r)
    end
  | Err e => (Err e, r)
  | Panic => (Panic, r)
  end.

(** binary.rs:113-118 [read_nested]: a reader over [buf[0..end]] starting at the offset. *)
Definition read_nested (size : N) : rd reader := fun r =>
  match check_available size r with
  | Ok e =>
    match index_range (r_buf r) 0 e with
    | Ok s => (Ok (new_reader_at s (r_off r)), set_off r e)
    | Err e => (Err e, r)
    | Panic => (Panic, r)
    end
  | Err e => (Err e, r)
  | Panic => (Panic, r)
  end.
(** binary.rs:120-125 [read_fixed]. *)
Definition read_fixed (size : N) : rd bytes := take size (fun s => s).
(** binary.rs:145-150 [read_u8]. *)
Definition read_u8 : rd N := take 1 of_be_bytes.
(** binary.rs:152-158 [read_u16]. *)
Definition read_u16 : rd N := take 2 of_be_bytes.
(** binary.rs:160-169 [read_u24]: a zero byte and the three bytes, as a u32. *)
Definition read_u24 : rd N := take 3 (fun s => of_be_bytes (0 :: s)).
(** binary.rs:171-177 [read_u32]. *)
Definition read_u32 : rd N := take 4 of_be_bytes.
(** binary.rs:179-185 [read_u64]. *)
Definition read_u64 : rd N := take 8 of_be_bytes.

(** binary.rs:139-141: the loop of [read_quic_varint]. *)
Fixpoint quic_loop (n : nat) (v : N) : rd N :=
  match n with
  | O => rret v
  | S n => do b <- read_u8; quic_loop n ((N.shiftl v 8) mod two64 + b)
  end.
(** binary.rs:127-143 [read_quic_varint]. *)
Definition read_quic_varint : rd N :=
  do v <- read_u8;
  let prefix := N.shiftr v 6 in
  let length := N.shiftl 1 prefix in
  quic_loop (N.to_nat (length - 1)) (N.land v 0x3f).

(** binary.rs:187-190, 192-195, 197-200 [read_len8_bytes], [read_len16_bytes],
    [read_len24_bytes]. *)
Definition read_len8_bytes : rd bytes := do len <- read_u8; read_fixed len.
Definition read_len16_bytes : rd bytes := do len <- read_u16; read_fixed len.
Definition read_len24_bytes : rd bytes := do len <- read_u24; read_fixed len.

(** binary.rs:224-231: the loop of [read_fixed_list] on the nested reader.  Fuel: every
    round consumes at least a byte or fails; running out of fuel is excluded by the
    theorems ([None]). *)
Fixpoint list_loop {A} (fuel : nat) (item : rd A) (inner : reader) : option (outcome berr (list A)) :=
  match fuel with
  | O => None
  | S fuel =>
    if (0 <? remaining inner)%nat then
      match item inner with
      | (Ok a, inner') =>
        if (r_off inner =? r_off inner')%nat then Some (Err (BNothingConsumed (r_off inner)))
        else match list_loop fuel item inner' with
             | Some (Ok l) => Some (Ok (a :: l))
             | x => x
             end
      | (Err e, _) => Some (Err e)
      | (Panic, _) => Some Panic
      end
    else Some (Ok [])
  end.
(** binary.rs:221-233 [read_fixed_list].  If [item] moved the offset backwards the loop
    need not end; the model says [Panic] then. *)
Definition read_fixed_list {A} (item : rd A) (len : N) : rd (list A) :=
  do inner <- read_nested len;
  rlift (match list_loop (S (remaining inner)) item inner with Some x => x | None => Panic end).
(** binary.rs:206-209, 211-214, 216-219 [read_len8_list] etc. *)
Definition read_len8_list {A} (item : rd A) : rd (list A) :=
  do len <- read_u8; read_fixed_list item len.
Definition read_len16_list {A} (item : rd A) : rd (list A) :=
  do len <- read_u16; read_fixed_list item len.
Definition read_len24_list {A} (item : rd A) : rd (list A) :=
  do len <- read_u24; read_fixed_list item len.

(** binary.rs:236-238 [BinaryWriter]: its [data].  A writing operation: result and the
    buffer afterwards. *)
Definition wr : Type := bytes -> outcome berr unit * bytes.
Definition wret : wr := fun d => (Ok tt, d).
Definition wbind (m k : wr) : wr := fun d =>
  match m d with
  | (Ok _, d') => k d'
  | (Err e, d') => (Err e, d')
  | (Panic, d') => (Panic, d')
  end.
Notation "m ;; k" := (wbind m k) (at level 61, right associativity).
(** binary.rs:291-293 [write_raw]. *)
Definition write_raw (b : bytes) : wr := fun d => (Ok tt, d ++ b).
(** binary.rs:251-253 [write_u8], 255-257 [write_u16]. *)
Definition write_u8 (v : N) : wr := write_raw [v].
Definition write_u16 (v : N) : wr := write_raw (be_bytes 2 v).
(** binary.rs:259-261 [write_u24]: the last three of the four bytes of a u32. *)
Definition write_u24 (v : N) : wr := write_raw (skipn 1 (be_bytes 4 v)).
(** binary.rs:263-265 [write_u32], 267-269 [write_u64]. *)
Definition write_u32 (v : N) : wr := write_raw (be_bytes 4 v).
Definition write_u64 (v : N) : wr := write_raw (be_bytes 8 v).

(** [value_bytes[i] |= m]. *)
Definition or_at (i : nat) (m : N) (l : bytes) : bytes :=
  firstn i l ++ match skipn i l with [] => [] | x :: t => N.lor x m :: t end.
(** binary.rs:271-289 [write_quic_varint]. *)
Definition write_quic_varint (value : N) : wr :=
  let value_bytes := be_bytes 8 value in
  if value <=? 63 then write_raw (skipn 7 value_bytes)
  else if value <=? 16383 then write_raw (skipn 6 (or_at 6 0x40 value_bytes))
  else if value <=? 1073741823 then write_raw (skipn 4 (or_at 4 0x80 value_bytes))
  else write_raw (or_at 0 0xc0 value_bytes).

(** binary.rs:295-304 [write_len8_bytes]. *)
Definition write_len8_bytes (b : bytes) : wr := fun d =>
  if 255 <? blen b then (Err BValueTooLarge, d)
  else (write_u8 (blen b mod two8);; write_raw b) d.
(** binary.rs:306-315 [write_len16_bytes]. *)
Definition write_len16_bytes (b : bytes) : wr := fun d =>
  if 65535 <? blen b then (Err BValueTooLarge, d)
  else (write_u16 (blen b mod two16);; write_raw b) d.
(** binary.rs:317-326 [write_len24_bytes]. *)
Definition write_len24_bytes (b : bytes) : wr := fun d =>
  if two24 <=? blen b then (Err BValueTooLarge, d)
  else (write_u24 (blen b mod two32);; write_raw b) d.

(** binary.rs:396-398: the element encoders in turn. *)
Fixpoint write_items {A} (item : A -> wr) (items : list A) : wr :=
  match items with
  | [] => wret
  | x :: t => item x;; write_items item t
  end.
(** binary.rs:394-401 [write_list_inner]: also the number of bytes written. *)
Definition write_list_inner {A} (item : A -> wr) (items : list A) (d : bytes)
  : outcome berr N * bytes :=
  match write_items item items d with
  | (Ok _, d') => (Ok (blen d' - blen d), d')
  | (Err e, d') => (Err e, d')
  | (Panic, d') => (Panic, d')
  end.
(** [self.data[len_offset] = ...; self.data[len_offset + 1] = ...]. *)
Definition patch (d : bytes) (at_ : nat) (b : bytes) : bytes :=
  firstn at_ d ++ b ++ skipn (at_ + length b) d.
(** binary.rs:328-345, 347-367, 369-392 [write_len8_list], [write_len16_list],
    [write_len24_list]: the common code, with the reserved width, the largest length and
    the length's bytes. *)
Definition write_len_list {A} (width : nat) (max : N) (lenb : N -> bytes)
    (item : A -> wr) (items : list A) : wr := fun d =>
  let len_offset := length d in
  match write_list_inner item items (d ++ repeat 0 width) with
  | (Err e, d') => (Err e, firstn len_offset d')
  | (Ok len, d') =>
    if max <? len then (Err BValueTooLarge, firstn len_offset d')
    else (Ok tt, patch d' len_offset (lenb len))
  | (Panic, d') => (Panic, d')
  end.
Definition write_len8_list {A} (item : A -> wr) (items : list A) : wr :=
  write_len_list 1 255 (fun len => [len mod two8]) item items.
Definition write_len16_list {A} (item : A -> wr) (items : list A) : wr :=
  write_len_list 2 65535 (fun len => be_bytes 2 (len mod two16)) item items.
Definition write_len24_list {A} (item : A -> wr) (items : list A) : wr :=
  write_len_list 3 16777215 (fun len => skipn 1 (be_bytes 4 (len mod two32))) item items.

(** binary.rs:407-429 [write_u16_nested]: no check that the length fits. *)
Definition write_u16_nested (f : wr) : wr := fun d =>
  let len_offset := length d in
  match f (d ++ [0; 0]) with
  | (Ok _, d') =>
    let len := blen d' - (N.of_nat len_offset + 2) in
    (Ok tt, patch d' len_offset (be_bytes 2 (len mod two16)))
  | (Err e, d') => (Err e, firstn len_offset d')
  | (Panic, d') => (Panic, d')
  end.
