(** Model of src/util/id.rs: identities that are pointers to counted allocations.

    [Id] is an [Arc<()>]; an [Arc] is the address of an allocation with a counter.  The
    allocator is any: it gives some address that is not in use, and may give one that was
    used before.  Simplifications: memory does not run out, and a counter does not overflow
    (the library aborts the program at 2^63). *)
From Coq Require Import String Ascii.
From Verif Require Import Base.
Local Open Scope string_scope. Local Open Scope list_scope. Local Open Scope N_scope.

(** id.rs:6 [Id]: the address. *)
Definition id := N.
(** id.rs:14-18 [PartialEq]: the same pointer. *)
Definition id_eq (a b : id) : bool := a =? b.
(** id.rs:29-33 [Ord]: the pointers as numbers; 23-27 [PartialOrd]. *)
Definition id_cmp (a b : id) : comparison := N.compare a b.
Definition id_partial_cmp (a b : id) : option comparison := Some (id_cmp a b).
(** id.rs:35-45 [Display] and [Debug]: [{:p}], lower case hexadecimal without leading zeros. *)
Definition hex_digit (d : N) : N := if d <? 10 then 48 + d else 87 + d.
Fixpoint hexadecimal_loop (fuel : nat) (n : N) : bytes :=
  match fuel with
  | O => []
  | S fuel => if n <? 16 then [hex_digit n] else hexadecimal_loop fuel (n / 16) ++ [hex_digit (n mod 16)]
  end.
Definition hexadecimal (n : N) : bytes := hexadecimal_loop (S (N.to_nat (N.log2 n))) n.
Definition id_text (a : id) : bytes := ascii_bytes "0x" ++ hexadecimal a.

(** The allocations in use with their counters, and the identities ever made; [None] was
    dropped. *)
Record world := { w_heap : list (N * N); w_ids : list (option id) }.
Definition empty_world : world := {| w_heap := []; w_ids := [] |}.
Fixpoint count_of (a : N) (heap : list (N * N)) : option N :=
  match heap with [] => None | (b, n) :: heap => if a =? b then Some n else count_of a heap end.
Fixpoint set_count (a n : N) (heap : list (N * N)) : list (N * N) :=
  match heap with [] => [] | (b, m) :: heap => if a =? b then (b, n) :: heap else (b, m) :: set_count a n heap end.
Fixpoint release (a : N) (heap : list (N * N)) : list (N * N) :=
  match heap with [] => [] | (b, m) :: heap => if a =? b then heap else (b, m) :: release a heap end.
Fixpoint forget (i : nat) (l : list (option id)) : list (option id) :=
  match l, i with
  | [], _ => []
  | _ :: l, O => None :: l
  | x :: l, S i => x :: forget i l
  end.
Inductive action := ANew | AClone (i : nat) | ADrop (i : nat).
(** id.rs:8-12 [Default]: an allocation; 5 [Clone]: the counter is raised; a drop lowers it,
    and the last one frees the allocation. *)
Inductive step (w : world) : action -> world -> Prop :=
| step_new a : a <> 0 -> count_of a (w_heap w) = None ->
    step w ANew {| w_heap := (a, 1) :: w_heap w; w_ids := w_ids w ++ [Some a] |}
| step_clone i a n : nth_error (w_ids w) i = Some (Some a) -> count_of a (w_heap w) = Some n ->
    step w (AClone i) {| w_heap := set_count a (n + 1) (w_heap w); w_ids := w_ids w ++ [Some a] |}
| step_drop i a n : nth_error (w_ids w) i = Some (Some a) -> count_of a (w_heap w) = Some n ->
    step w (ADrop i) {| w_heap := if n =? 1 then release a (w_heap w) else set_count a (n - 1) (w_heap w); w_ids := forget i (w_ids w) |}.
Inductive runs : list action -> world -> Prop :=
| runs_none : runs [] empty_world
| runs_step l w x w' : runs l w -> step w x w' -> runs (l ++ [x]) w'.
