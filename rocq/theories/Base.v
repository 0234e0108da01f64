(** Common vocabulary of the model: bytes, machine integers, outcomes. *)
From Coq Require Export String Ascii NArith ZArith List Lia Bool.
From Coq Require Export ZifyBool ZifyNat ZifyN.
Export ListNotations.
Open Scope N_scope.
Open Scope list_scope.

(* ------------------------------------------------------------------ *)
(** ** Outcomes

    [Result<A, E>] of Rust together with the possibility that the code panics
    (slice index out of range, failed assertion, overflow in a checked build,
    [unimplemented!()]). *)
Inductive outcome (E A : Type) : Type :=
| Ok (a : A)
| Err (e : E)
| Panic.
Arguments Ok {E A} a.
Arguments Err {E A} e.
Arguments Panic {E A}.

Definition bind {E A B} (x : outcome E A) (f : A -> outcome E B) : outcome E B :=
  match x with
  | Ok a => f a
  | Err e => Err e
  | Panic => Panic
  end.

(** The [?] operator. *)
Notation "'let?' x := e 'in' k" :=
  (bind e (fun x => k)) (at level 200, x pattern, right associativity).

Definition map_err {E F A} (g : E -> F) (x : outcome E A) : outcome F A :=
  match x with
  | Ok a => Ok a
  | Err e => Err (g e)
  | Panic => Panic
  end.

Definition of_option {E A} (e : E) (x : option A) : outcome E A :=
  match x with
  | Some a => Ok a
  | None => Err e
  end.

(* ------------------------------------------------------------------ *)
(** ** Machine integers and byte strings *)

(** [u8] *)
Definition byte_ok (b : N) : Prop := b < 256.
(** [&[u8]] / [Vec<u8>] *)
Definition bytes := list N.
Definition bytes_ok (l : bytes) : Prop := Forall byte_ok l.
Definition bytes_okb (l : bytes) : bool := forallb (fun b => b <? 256) l.

(** 2^64, 2^32 as literals, so that nothing unfolds a power. *)
Definition two8  : N := 256.
Definition two16 : N := 65536.
Definition two24 : N := 16777216.
Definition two32 : N := 4294967296.
Definition two62 : N := 4611686018427387904.
Definition two63 : N := 9223372036854775808.
Definition two64 : N := 18446744073709551616.
Definition u64_ok (v : N) : Prop := v < two64.
Definition u32_ok (v : N) : Prop := v < two32.
Definition i64_ok (z : Z) : Prop := (-9223372036854775808 <= z < 9223372036854775808)%Z.
Definition i32_ok (z : Z) : Prop := (-2147483648 <= z < 2147483648)%Z.

(** Length of a buffer as a [usize] value. *)
Definition blen (l : bytes) : N := N.of_nat (length l).
(** Every buffer that exists in memory is shorter than 2^64 bytes. *)
Definition fits (l : bytes) : Prop := blen l < two64.

(** Rust's [as i64] on a [u64], [as i32] on a [u64] (truncating). *)
Definition u64_as_i64 (v : N) : Z :=
  if v <? two63 then Z.of_N v else (Z.of_N v - 18446744073709551616)%Z.
Definition u64_as_i32 (v : N) : Z :=
  let w := v mod two32 in
  if w <? 2147483648 then Z.of_N w else (Z.of_N w - 4294967296)%Z.
(** [as u64] on an [i32] or [i64] (sign extending). *)
Definition int_as_u64 (z : Z) : N := Z.to_N (z mod 18446744073709551616)%Z.

(** [slice.get(start..end)] *)
Definition get_range {A} (l : list A) (s e : nat) : option (list A) :=
  if ((s <=? e) && (e <=? length l))%nat then Some (firstn (e - s) (skipn s l)) else None.

(** [slice[start..end]]: panics when out of range. *)
Definition index_range {E A} (l : list A) (s e : nat) : outcome E (list A) :=
  match get_range l s e with
  | Some r => Ok r
  | None => Panic
  end.

(** Big-endian and little-endian integers of a given number of bytes
    ([to_be_bytes], [from_be_bytes], [to_le_bytes], [from_le_bytes]). *)
Fixpoint le_bytes (n : nat) (v : N) : bytes :=
  match n with
  | O => []
  | S n' => v mod 256 :: le_bytes n' (v / 256)
  end.
Fixpoint of_le_bytes (l : bytes) : N :=
  match l with
  | [] => 0
  | b :: t => b + 256 * of_le_bytes t
  end.
Definition be_bytes (n : nat) (v : N) : bytes := rev (le_bytes n v).
Definition of_be_bytes (l : bytes) : N := of_le_bytes (rev l).

(** ASCII text as bytes ([b"..."] literals, [str::as_bytes]). *)
Fixpoint ascii_bytes (s : string) : bytes :=
  match s with
  | EmptyString => []
  | String c t => N_of_ascii c :: ascii_bytes t
  end.

(** Boolean equality of byte strings. *)
Fixpoint bytes_eqb (a b : bytes) : bool :=
  match a, b with
  | [], [] => true
  | x :: a', y :: b' => (x =? y) && bytes_eqb a' b'
  | _, _ => false
  end.

(** [String::from_utf8] succeeds exactly on well-formed UTF-8
    (the table of RFC 3629 / Unicode D92 that the Rust standard library uses). *)
Definition in_range (lo hi b : N) : bool := (lo <=? b) && (b <=? hi).
Definition cont (b : N) : bool := in_range 128 191 b.
Fixpoint utf8_valid (l : bytes) : bool :=
  match l with
  | [] => true
  | b0 :: t =>
    if b0 <? 128 then utf8_valid t
    else match t with
    | [] => false
    | b1 :: t1 =>
      if in_range 194 223 b0 then cont b1 && utf8_valid t1
      else match t1 with
      | [] => false
      | b2 :: t2 =>
        if b0 =? 224 then in_range 160 191 b1 && cont b2 && utf8_valid t2
        else if in_range 225 236 b0 || in_range 238 239 b0
             then cont b1 && cont b2 && utf8_valid t2
        else if b0 =? 237 then in_range 128 159 b1 && cont b2 && utf8_valid t2
        else match t2 with
        | [] => false
        | b3 :: t3 =>
          if b0 =? 240 then in_range 144 191 b1 && cont b2 && cont b3 && utf8_valid t3
          else if in_range 241 243 b0 then cont b1 && cont b2 && cont b3 && utf8_valid t3
          else if b0 =? 244 then in_range 128 143 b1 && cont b2 && cont b3 && utf8_valid t3
          else false
        end
      end
    end
  end.
