(** Small specification for C116: a party of a conversation over length-prefixed messages as a
    program that says and hears, and two parties joined by two byte pipes. *)
From Verif Require Import Base VarintModel MplexModel LpioModel LpioSpec.

(** A party: finished, about to write, or waiting for a message. *)
CoInductive prog (R : Type) : Type :=
| Stop (r : R)
| Say (b : bytes) (k : prog R)
| Hear (k : outcome ioerr (option bytes) -> prog R).
Arguments Stop {R}. Arguments Say {R}. Arguments Hear {R}.

(** The party alone, with everything it will ever read given beforehand. *)
Inductive runs {R} : prog R -> list item -> R -> bytes -> list item -> Prop :=
| runs_stop r src : runs (Stop r) src r [] src
| runs_say b k src r out src' : runs k src r out src' -> runs (Say b k) src r (b ++ out) src'
| runs_hear k src m lim src1 r out src' : read_opt_message None src = (Some m, lim, src1) ->
    runs (k m) src1 r out src' -> runs (Hear k) src r out src'.

(** Two parties; for each the bytes that have reached it and are unread, and the bytes that
    are under way to it. *)
Record net (A B : Type) := mknet
  { pa : prog A; a_has : bytes; a_way : bytes; pb : prog B; b_has : bytes; b_way : bytes }.
Arguments mknet {A B}. Arguments pa {A B}. Arguments a_has {A B}. Arguments a_way {A B}.
Arguments pb {A B}. Arguments b_has {A B}. Arguments b_way {A B}.

(** What the bytes that have arrived so far already decide about the next message, while the
    pipe stays open. *)
Definition heard (has : bytes) : option (outcome ioerr (option bytes) * bytes) :=
  match flat_message has with
  | (Ok (Some m), rest) => Some (Ok (Some m), rest)
  | (Err InvalidData, rest) => Some (Err InvalidData, rest)
  | _ => None
  end.
(** One thing happens: a party writes, a party takes a message that has arrived, or one byte
    arrives.  Nothing says which of the possible things comes first. *)
Inductive step {A B} : net A B -> net A B -> Prop :=
| a_says b k ha wa q hb wb : step (mknet (Say b k) ha wa q hb wb) (mknet k ha wa q hb (wb ++ b))
| b_says b k p ha wa hb wb : step (mknet p ha wa (Say b k) hb wb) (mknet p ha (wa ++ b) k hb wb)
| a_hears k m rest ha wa q hb wb : heard ha = Some (m, rest) -> step (mknet (Hear k) ha wa q hb wb) (mknet (k m) rest wa q hb wb)
| b_hears k m rest p ha wa hb wb : heard hb = Some (m, rest) -> step (mknet p ha wa (Hear k) hb wb) (mknet p ha wa (k m) rest wb)
| a_gets x p ha wa q hb wb : step (mknet p ha (x :: wa) q hb wb) (mknet p (ha ++ [x]) wa q hb wb)
| b_gets x p ha wa q hb wb : step (mknet p ha wa q hb (x :: wb)) (mknet p ha wa q (hb ++ [x]) wb).
Inductive steps {A B} : nat -> net A B -> net A B -> Prop :=
| steps_0 s : steps 0 s s
| steps_S n s t u : step s t -> steps n t u -> steps (S n) s u.
Definition stuck {A B} (s : net A B) : Prop := forall t, ~ step s t.
Definition meet {A B} (p : prog A) (q : prog B) : net A B := mknet p [] [] q [] [].
(** Whatever the order in which things happen, the conversation comes to an end, and always to
    this one. *)
Definition always_ends {A B} (s t : net A B) : Prop :=
  stuck t /\ exists n, forall m u, steps m s u -> (m <= n)%nat /\ steps (n - m) u t.
