(** Model of src/sim and of the stop-and-wait protocol in src/bin/netsim.rs.

    Random numbers are inputs: whether a message is doubled, and for each copy the part of the
    latency above the least, whether it is lost, and its priority.  The floating point numbers
    they come from are not modelled.  The trace is in SimLogModel.v.  Arithmetic overflow panics
    (debug builds). *)
From Verif Require Import Base MplexModel.
Local Open Scope string_scope. Local Open Scope list_scope. Local Open Scope N_scope.

(** An addition of [u64]s. *)
Definition add64 {E} (a b : N) : outcome E N := if a + b <? two64 then Ok (a + b) else Panic.

(** ** mod.rs:10-20 [opt_min] *)
Definition opt_min (l : list (option N)) : option N :=
  fold_left (fun res v => match v, res with None, _ => res | Some v, None => Some v | Some v, Some r => Some (N.min r v) end) l None.

(** ** network.rs *)
(** network.rs:6-22 [ChannelParameters], those that are not probabilities. *)
Record channel_params := { latency_min : N; latency_max : N; inv_bandwidth : N }.
(** network.rs:24-29 [MessageInTransit]. *)
Record in_transit (M : Type) := { mt_no : N; mt_time : N; mt_priority : N; mt_message : M }.
Arguments mt_no {M}. Arguments mt_time {M}. Arguments mt_priority {M}. Arguments mt_message {M}. Arguments Build_in_transit {M}.
(** network.rs:37-44 [Channel]. *)
Record channel (M : Type) := { ch_messages : list (in_transit M); ch_next_no : N; ch_next_send : N }.
Arguments ch_messages {M}. Arguments ch_next_no {M}. Arguments ch_next_send {M}. Arguments Build_channel {M}.
(** network.rs:47-56 [new]. *)
Definition channel_new {M} : channel M := {| ch_messages := []; ch_next_no := 0; ch_next_send := 0 |}.
(** The random numbers for one copy. *)
Record draw := { dr_extra : N; dr_lost : bool; dr_priority : N }.
(** network.rs:70-96: the loop over the copies; it ends at the first one lost. *)
Fixpoint send_copies {M} (p : channel_params) (send_time : N) (m : M) (ds : list draw) (c : channel M) : outcome unit (channel M) :=
  match ds with
  | [] => Ok c
  | d :: ds =>
    let? next := add64 (ch_next_no c) 1 in
    let? latency := if latency_min p <=? latency_max p then add64 (latency_min p) (dr_extra d) else Ok (latency_min p) in
    let? recv_time := add64 send_time latency in
    if dr_lost d then Ok {| ch_messages := ch_messages c; ch_next_no := next; ch_next_send := ch_next_send c |}
    else send_copies p send_time m ds
      {| ch_messages := ch_messages c ++ [{| mt_no := ch_next_no c; mt_time := recv_time; mt_priority := dr_priority d; mt_message := m |}];
         ch_next_no := next; ch_next_send := ch_next_send c |}
  end.
(** network.rs:62-97 [send]; [ds] has one or two elements. *)
Definition channel_send {M} (p : channel_params) (m : M) (ds : list draw) (c : channel M) : outcome unit (channel M) :=
  let send_time := ch_next_send c in
  let? next := add64 (ch_next_send c) (inv_bandwidth p) in
  send_copies p send_time m ds {| ch_messages := ch_messages c; ch_next_no := ch_next_no c; ch_next_send := next |}.
(** network.rs:99-116 [next_recv_time]. *)
Definition next_recv_time {M} (c : channel M) : option N :=
  fold_left (fun res x => match res with None => Some (mt_time x) | Some n => if mt_time x <? n then Some (mt_time x) else res end) (ch_messages c) None.
(** network.rs:124-138: the index of the message to receive, scanning from index [i]. *)
Fixpoint best_index {M} (t : N) (i : nat) (best : option (nat * N)) (l : list (in_transit M)) : option (nat * N) :=
  match l with
  | [] => best
  | x :: l =>
    best_index t (S i)
      (if mt_time x =? t then
         match best with
         | None => Some (i, mt_priority x)
         | Some (j, pr) => if mt_priority x <? pr then Some (i, mt_priority x) else best
         end
       else best) l
  end.
(** network.rs:118-150 [recv]. *)
Definition channel_recv {M} (c : channel M) : option (in_transit M) * channel M :=
  match next_recv_time c with
  | None => (None, c)
  | Some t =>
    match best_index t 0 None (ch_messages c) with
    | None => (None, c)
    | Some (i, _) =>
      (nth_error (ch_messages c) i,
       {| ch_messages := firstn i (ch_messages c) ++ skipn (S i) (ch_messages c); ch_next_no := ch_next_no c; ch_next_send := ch_next_send c |})
    end
  end.
(** network.rs:159-200 [make_pair] and the methods of [Endpoint]: the two channels, and which of
    them the endpoints send to. *)
Record pair (M : Type) := { p_fst : channel M; p_snd : channel M }.
Arguments p_fst {M}. Arguments p_snd {M}. Arguments Build_pair {M}.
Inductive side := FirstSide | SecondSide.
Definition pair_new {M} : pair M := {| p_fst := channel_new; p_snd := channel_new |}.
Definition send_channel {M} (s : side) (p : pair M) : channel M := match s with FirstSide => p_fst p | SecondSide => p_snd p end.
Definition recv_channel {M} (s : side) (p : pair M) : channel M := match s with FirstSide => p_snd p | SecondSide => p_fst p end.
Definition set_send {M} (s : side) (c : channel M) (p : pair M) : pair M :=
  match s with FirstSide => {| p_fst := c; p_snd := p_snd p |} | SecondSide => {| p_fst := p_fst p; p_snd := c |} end.
Definition set_recv {M} (s : side) (c : channel M) (p : pair M) : pair M :=
  match s with FirstSide => {| p_fst := p_fst p; p_snd := c |} | SecondSide => {| p_fst := c; p_snd := p_snd p |} end.
Definition endpoint_send {M} (s : side) (prm : channel_params) (m : M) (ds : list draw) (p : pair M) : outcome unit (pair M) :=
  let? c := channel_send prm m ds (send_channel s p) in Ok (set_send s c p).
Definition endpoint_recv {M} (s : side) (p : pair M) : option (in_transit M) * pair M :=
  let '(m, c) := channel_recv (recv_channel s p) in (m, set_recv s c p).
Definition next_event_time {M} (s : side) (p : pair M) : option N :=
  opt_min [Some (ch_next_send (send_channel s p)); next_recv_time (recv_channel s p)].

(** ** clock.rs *)
(** clock.rs:6-9 [ClockImpl]: the time and the tasks whose wakers are kept; [woken] are those
    that were woken.  The mutex makes each of the following a single step. *)
Record clock := { ck_time : N; ck_wakers : list nat; ck_woken : list nat }.
(** clock.rs:39, 44: the time is changed. *)
Definition clock_write (t : N) (c : clock) : clock := {| ck_time := t; ck_wakers := ck_wakers c; ck_woken := ck_woken c |}.
(** clock.rs:12-16, 40, 45 [notify_waiters]. *)
Definition clock_notify (c : clock) : clock := {| ck_time := ck_time c; ck_wakers := []; ck_woken := ck_woken c ++ ck_wakers c |}.
(** clock.rs:60: a waker is kept. *)
Definition clock_push (task : nat) (c : clock) : clock := {| ck_time := ck_time c; ck_wakers := ck_wakers c ++ [task]; ck_woken := ck_woken c |}.
(** clock.rs:38-41 [set]; 43-46 [advance_by]; 55-63 [poll_wait_until], each without
    interruption. *)
Definition clock_set (t : N) (c : clock) : clock := clock_notify (clock_write t c).
Definition clock_advance (d : N) (c : clock) : outcome unit clock := let? t := add64 (ck_time c) d in Ok (clock_notify (clock_write t c)).
Definition clock_poll (task : nat) (target : N) (c : clock) : poll unit * clock :=
  if target <=? ck_time c then (Done tt, c) else (Wait, clock_push task c).

(** ** netsim.rs *)
(** netsim.rs:21-51: the delay and the messages; the data is kept as the number in it. *)
Definition retransmit_delay : N := 1000.
Inductive message := MData (seq data : N) | MAck (ack : N).
(** netsim.rs:53-61 [Peer]; [pe_accepted] are the messages reported as "(ok)", in order. *)
Record peer := { pe_seq : N; pe_count : N; pe_ack : N; pe_retransmit : option N; pe_accepted : list (N * N) }.
(** netsim.rs:64-74 [new]. *)
Definition peer_new (count : N) : peer := {| pe_seq := 0; pe_count := count; pe_ack := 0; pe_retransmit := None; pe_accepted := [] |}.
(** netsim.rs:82-133: what is done with a message: the peer and what it sends. *)
Definition on_message (m : message) (p : peer) : outcome unit (peer * option message) :=
  match m with
  | MData seq data =>
    if pe_ack p <? seq then Ok (p, None)
    else if pe_ack p =? seq then
      let? a := add64 seq 1 in
      Ok ({| pe_seq := pe_seq p; pe_count := pe_count p; pe_ack := a; pe_retransmit := pe_retransmit p; pe_accepted := pe_accepted p ++ [(seq, data)] |}, Some (MAck a))
    else Ok (p, Some (MAck (pe_ack p)))
  | MAck ack =>
    if pe_ack p <? ack then Ok ({| pe_seq := pe_seq p; pe_count := pe_count p; pe_ack := ack; pe_retransmit := None; pe_accepted := pe_accepted p |}, None)
    else Ok (p, None)
  end.
(** netsim.rs:81-134: the loop.  The random numbers for what is sent are taken from a list,
    nothing being sent doubled or lost when it ends.  Fuel: what is pending can only become
    less as the peer sends to the other channel. *)
Definition next_draws (l : list (list draw)) : list draw * list (list draw) :=
  match l with [] => ([{| dr_extra := 0; dr_lost := false; dr_priority := 0 |}], []) | d :: l => (d, l) end.
Fixpoint recv_loop (fuel : nat) (s : side) (prm : channel_params) (rs : list (list draw)) (p : peer) (w : pair message) : outcome unit (peer * pair message * list (list draw)) :=
  match fuel with
  | O => Panic
  | S fuel =>
    match endpoint_recv s w with
    | (None, w) => Ok (p, w, rs)
    | (Some m, w) =>
      let? x := on_message (mt_message m) p in
      match x with
      | (p, None) => recv_loop fuel s prm rs p w
      | (p, Some reply) =>
        let '(d, rs) := next_draws rs in
        let? w := endpoint_send s prm reply d w in
        recv_loop fuel s prm rs p w
      end
    end
  end.
(** netsim.rs:76-78 [can_send]. *)
Definition can_send (s : side) (now : N) (w : pair message) : bool := ch_next_send (send_channel s w) <=? now.
(** netsim.rs:136-144: the sequence number after the check for a retransmission. *)
Definition after_retransmit (s : side) (now : N) (p : peer) (w : pair message) : N :=
  match pe_retransmit p with
  | Some t => if (now <=? t) && can_send s now w then pe_ack p else pe_seq p
  | None => pe_seq p
  end.
(** netsim.rs:80-187 [step]. *)
Definition peer_step (s : side) (prm : channel_params) (now : N) (rs : list (list draw)) (p : peer) (w : pair message) : outcome unit (peer * pair message * list (list draw)) :=
  let? x := recv_loop (S (length (ch_messages (recv_channel s w)))) s prm rs p w in
  let '(p, w, rs) := x in
  let seq := after_retransmit s now p w in
  if (pe_ack p =? seq) && can_send s now w && (seq <? pe_count p) then
    let '(d, rs) := next_draws rs in
    let? w := endpoint_send s prm (MData seq seq) d w in
    let? seq := add64 seq 1 in
    let? t := add64 now retransmit_delay in
    Ok ({| pe_seq := seq; pe_count := pe_count p; pe_ack := pe_ack p; pe_retransmit := Some t; pe_accepted := pe_accepted p |}, w, rs)
  else Ok ({| pe_seq := seq; pe_count := pe_count p; pe_ack := pe_ack p; pe_retransmit := pe_retransmit p; pe_accepted := pe_accepted p |}, w, rs).
(** netsim.rs:221-253: the two peers; [main] steps first the producer, then the consumer. *)
Record world := { wd_first : peer; wd_second : peer; wd_pair : pair message }.
Definition step_side (s : side) (prm : channel_params) (now : N) (rs : list (list draw)) (w : world) : outcome unit world :=
  match s with
  | FirstSide => let? x := peer_step FirstSide prm now rs (wd_first w) (wd_pair w) in
                 let '(p, q, _) := x in Ok {| wd_first := p; wd_second := wd_second w; wd_pair := q |}
  | SecondSide => let? x := peer_step SecondSide prm now rs (wd_second w) (wd_pair w) in
                  let '(p, q, _) := x in Ok {| wd_first := wd_first w; wd_second := p; wd_pair := q |}
  end.
Definition world_new (count1 count2 : N) : world := {| wd_first := peer_new count1; wd_second := peer_new count2; wd_pair := pair_new |}.
(** netsim.rs:247-251: the loop of [main], from time [now] on. *)
Fixpoint main_loop (n : nat) (prm : channel_params) (now : N) (rs : N -> side -> list (list draw)) (w : world) : outcome unit world :=
  match n with
  | O => Ok w
  | S n =>
    let? w := step_side FirstSide prm now (rs now FirstSide) w in
    let? w := step_side SecondSide prm now (rs now SecondSide) w in
    main_loop n prm (now + 1) rs w
  end.
(** netsim.rs:227-233: its parameters. *)
Definition main_params : channel_params := {| latency_min := 200; latency_max := 600; inv_bandwidth := 523 |}.
