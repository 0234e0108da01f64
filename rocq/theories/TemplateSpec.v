(** Small specification for exact texts: a template as in Rust's [format!], with [{}] for the
    arguments in order, and pieces with a separator between them. *)
From Coq Require Import String Ascii.
From Verif Require Import Base.
Local Open Scope string_scope. Local Open Scope list_scope. Local Open Scope N_scope.

Fixpoint fill (t : string) (args : list bytes) : bytes :=
  match t with
  | EmptyString => []
  | String "{" (String "}" t) => match args with a :: args => a ++ fill t args | [] => fill t [] end
  | String c t => N_of_ascii c :: fill t args
  end.
Fixpoint apart (sep : bytes) (l : list bytes) : bytes :=
  match l with [] => [] | [x] => x | x :: l => x ++ sep ++ apart sep l end.
(** A list in brackets. *)
Definition listed (l : list bytes) : bytes := fill "[{}]" [apart (ascii_bytes ", ") l].
(** Lines, each with a line end. *)
Definition text_of (l : list bytes) : bytes := flat_map (fun x => x ++ [10]) l.
Example fill_case : fill "a {} b {}, {" [ascii_bytes "xy"; []] = ascii_bytes "a xy b , {".
Proof. reflexivity. Qed.
