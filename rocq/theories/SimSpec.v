(** Specifications for the simulator model. *)
From Verif Require Import Base MplexModel SimModel.
From Coq Require Import Permutation.
Local Open Scope string_scope. Local Open Scope list_scope. Local Open Scope N_scope.

(** *** Channels *)
Inductive channel_op (M : Type) := OSend (m : M) (ds : list draw) | ORecv.
Arguments OSend {M}. Arguments ORecv {M}.
(** A run: the channel at the end and what was received. *)
Fixpoint channel_run {M} (p : channel_params) (ops : list (channel_op M)) (c : channel M) : outcome unit (channel M * list (in_transit M)) :=
  match ops with
  | [] => Ok (c, [])
  | OSend m ds :: ops => let? c := channel_send p m ds c in channel_run p ops c
  | ORecv :: ops =>
    let '(x, c) := channel_recv c in
    let? r := channel_run p ops c in
    Ok (fst r, match x with Some x => x :: snd r | None => snd r end)
  end.
(** What is sent in it. *)
Definition sends {M} (ops : list (channel_op M)) : list (M * list draw) := flat_map (fun o => match o with OSend m ds => [(m, ds)] | ORecv => [] end) ops.
(** [x] is before [y] in the order of receiving. *)
Definition earlier {M} (x y : in_transit M) : Prop := mt_time x < mt_time y \/ (mt_time x = mt_time y /\ mt_priority x < mt_priority y).
(** The copies of a message that get through: those up to the first one lost. *)
Definition copies {M} (p : channel_params) (send_time : N) (m : M) (ds : list draw) (xs : list (in_transit M)) : Prop :=
  exists n, (n = length ds \/ exists d, nth_error ds n = Some d /\ dr_lost d = true) /\
    Forall2 (fun d x => dr_lost d = false /\ mt_message x = m /\ mt_priority x = dr_priority d /\
      mt_time x = send_time + latency_min p + (if latency_min p <=? latency_max p then dr_extra d else 0)) (firstn n ds) xs.
(** The copies of all messages, the [k]th being sent [inv_bandwidth] after the one before. *)
Fixpoint all_copies {M} (p : channel_params) (k : N) (l : list (M * list draw)) (xss : list (list (in_transit M))) : Prop :=
  match l, xss with
  | [], [] => True
  | (m, ds) :: l, xs :: xss => copies p (k * inv_bandwidth p) m ds xs /\ all_copies p (k + 1) l xss
  | _, _ => False
  end.
(** The least element, if there is one. *)
Definition least (l : list N) (r : option N) : Prop :=
  match r with None => l = [] | Some n => In n l /\ Forall (fun x => n <= x) l end.
Definition present {A} (l : list (option A)) : list A := flat_map (fun x => match x with Some a => [a] | None => [] end) l.
Definition other (s : side) : side := match s with FirstSide => SecondSide | SecondSide => FirstSide end.

(** *** Clocks *)
(** The steps of setters, between which those of waiters may come. *)
Inductive clock_event := EWrite (t : N) | ENotify | ERead (task : nat) (target : N) | EPush (task : nat) (target : N).
(** The clock, the setters that have not yet notified, the waiters that found it too early and
    have not yet left their waker, and what each kept waker waits for. *)
Record clock_world := { cw_clock : clock; cw_writing : nat; cw_reading : list (nat * N); cw_waits : list (nat * N) }.
Definition clock_start : clock_world := {| cw_clock := {| ck_time := 0; ck_wakers := []; ck_woken := [] |}; cw_writing := 0; cw_reading := []; cw_waits := [] |}.
Inductive clock_step : clock_world -> clock_event -> clock_world -> Prop :=
| CWrite w t : clock_step w (EWrite t) {| cw_clock := clock_write t (cw_clock w); cw_writing := S (cw_writing w); cw_reading := cw_reading w; cw_waits := cw_waits w |}
| CNotify w n : cw_writing w = S n -> clock_step w ENotify {| cw_clock := clock_notify (cw_clock w); cw_writing := n; cw_reading := cw_reading w; cw_waits := [] |}
| CReady w task target : target <= ck_time (cw_clock w) -> clock_step w (ERead task target) w
| CEarly w task target : ck_time (cw_clock w) < target ->
    clock_step w (ERead task target) {| cw_clock := cw_clock w; cw_writing := cw_writing w; cw_reading := cw_reading w ++ [(task, target)]; cw_waits := cw_waits w |}
| CPush w task target a b : cw_reading w = a ++ (task, target) :: b ->
    clock_step w (EPush task target) {| cw_clock := clock_push task (cw_clock w); cw_writing := cw_writing w; cw_reading := a ++ b; cw_waits := cw_waits w ++ [(task, target)] |}.
Inductive clock_runs : clock_world -> list clock_event -> clock_world -> Prop :=
| CDone w : clock_runs w [] w
| CMore w e w' es w'' : clock_step w e w' -> clock_runs w' es w'' -> clock_runs w (e :: es) w''.
(** No time is written while a waiter is between its two steps. *)
Inductive quiet_runs : clock_world -> list clock_event -> clock_world -> Prop :=
| QDone w : quiet_runs w [] w
| QMore w e w' es w'' : clock_step w e w' -> (forall t, e = EWrite t -> cw_reading w = []) -> quiet_runs w' es w'' -> quiet_runs w (e :: es) w''.

(** *** The protocol *)
(** Any schedule: who steps, at what time, with which random numbers. *)
Fixpoint world_run (prm : channel_params) (l : list (side * N * list (list draw))) (w : world) : outcome unit world :=
  match l with
  | [] => Ok w
  | (s, now, rs) :: l => let? w := step_side s prm now rs w in world_run prm l w
  end.
(** The first [n] messages in order. *)
Definition in_order (n : N) : list (N * N) := map (fun k => (N.of_nat k, N.of_nat k)) (seq 0 (N.to_nat n)).
(** The steps of [main]. *)
Fixpoint schedule (n : nat) (now : N) (rs : N -> side -> list (list draw)) : list (side * N * list (list draw)) :=
  match n with
  | O => []
  | S n => (FirstSide, now, rs now FirstSide) :: (SecondSide, now, rs now SecondSide) :: schedule n (now + 1) rs
  end.
(** The random numbers are such that at most two copies are sent, [extra] bounding the latency. *)
Definition draws_ok (extra : N) (rs : list (list draw)) : Prop := Forall (fun ds => (length ds <= 2)%nat /\ Forall (fun d => dr_extra d <= extra) ds) rs.
(** The first copy of the first message sent with these random numbers gets through. *)
Definition through (rs : list (list draw)) : Prop := match rs with [] => True | [] :: _ => False | (d :: _) :: _ => dr_lost d = false end.
(** [good_sends inv n rs g]: among the times [0], [inv], [2 * inv], ... before [n] there are [g]
    at which what either side sends first gets through. *)
Inductive good_sends (inv : N) (rs : N -> side -> list (list draw)) : N -> N -> Prop :=
| GStart : good_sends inv rs 0 0
| GGood k g : good_sends inv rs (k * inv) g -> through (rs (k * inv) FirstSide) -> through (rs (k * inv) SecondSide) -> good_sends inv rs (k * inv + 1) (g + 1)
| GTick n g : good_sends inv rs n g -> good_sends inv rs (n + 1) g.
