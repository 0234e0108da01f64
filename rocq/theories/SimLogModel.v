(** Model of the trace that src/bin/netsim.rs prints: src/sim/simulation.rs:43-60 and the calls
    of [trace] in src/sim/network.rs and src/bin/netsim.rs, on top of SimModel.v.

    The functions are those of SimModel.v with the lines they print; what has been printed
    stays printed when a function panics. *)
From Verif Require Import Base ChatModel BencodePathModel SimModel.
Local Open Scope string_scope. Local Open Scope list_scope. Local Open Scope N_scope.

(** What a line is about.  The channels are named by who sends on them. *)
Inductive verdict := Future | Fine | Duplicate.
Inductive ack_verdict := News | DupAck | Stale.
Inductive event :=
| LSend (from : side) (no : N) (m : message)
| LDrop (from : side) (no : N) (m : message)
| LRecv (from : side) (no : N) (m : message)
| LData (who : side) (v : verdict) (seq data : N)
| LAck (who : side) (v : ack_verdict) (ack : N)
| LRetransmit (who : side) (seq : N).
(** A line: the time and what it is about. *)
Definition entry : Type := N * event.
(** A computation with what it prints. *)
Definition logged (A : Type) : Type := list entry * outcome unit A.
Definition silent {A} (r : outcome unit A) : logged A := ([], r).
Definition say (now : N) (e : event) : logged unit := ([(now, e)], Ok tt).
Definition then_ {A B} (m : logged A) (k : A -> logged B) : logged B :=
  match snd m with
  | Ok a => (fst m ++ fst (k a), snd (k a))
  | Err e => (fst m, Err e)
  | Panic => (fst m, Panic)
  end.
Notation "'let!' x := m 'in' k" := (then_ m (fun x => k)) (at level 200, x name, m at level 100, k at level 200).
Definition other (s : side) : side := match s with FirstSide => SecondSide | SecondSide => FirstSide end.

(** network.rs:70-96, with the traces of 83 and 89. *)
Fixpoint send_copies_said (now : N) (s : side) (p : channel_params) (send_time : N) (m : message) (ds : list draw) (c : channel message) : logged (channel message) :=
  match ds with
  | [] => silent (Ok c)
  | d :: ds =>
    let! next := silent (add64 (ch_next_no c) 1) in
    let! latency := silent (if latency_min p <=? latency_max p then add64 (latency_min p) (dr_extra d) else Ok (latency_min p)) in
    let! recv_time := silent (add64 send_time latency) in
    if dr_lost d then
      let! _ := say now (LDrop s (ch_next_no c) m) in
      silent (Ok {| ch_messages := ch_messages c; ch_next_no := next; ch_next_send := ch_next_send c |})
    else
      let! _ := say now (LSend s (ch_next_no c) m) in
      send_copies_said now s p send_time m ds
        {| ch_messages := ch_messages c ++ [{| mt_no := ch_next_no c; mt_time := recv_time; mt_priority := dr_priority d; mt_message := m |}];
           ch_next_no := next; ch_next_send := ch_next_send c |}
  end.
(** network.rs:62-97 [send]; 181-183 [Endpoint::send]. *)
Definition endpoint_send_said (now : N) (s : side) (prm : channel_params) (m : message) (ds : list draw) (w : pair message) : logged (pair message) :=
  let c := send_channel s w in
  let! next := silent (add64 (ch_next_send c) (inv_bandwidth prm)) in
  let! c := send_copies_said now s prm (ch_next_send c) m ds {| ch_messages := ch_messages c; ch_next_no := ch_next_no c; ch_next_send := next |} in
  silent (Ok (set_send s c w)).
(** netsim.rs:82-133 with the traces of 87-105 and 123-129.  The answer is sent after them. *)
Definition on_message_said (now : N) (s : side) (m : message) (p : peer) : logged (peer * option message) :=
  match m with
  | MData seq data =>
    let! _ := say now (LData s (if pe_ack p <? seq then Future else if pe_ack p =? seq then Fine else Duplicate) seq data) in silent (on_message m p)
  | MAck ack =>
    let! _ := say now (LAck s (if pe_ack p <? ack then News else if pe_ack p =? ack then DupAck else Stale) ack) in silent (on_message m p)
  end.
(** netsim.rs:81-134; network.rs:146 traces every message received. *)
Fixpoint recv_loop_said (fuel : nat) (now : N) (s : side) (prm : channel_params) (rs : list (list draw)) (p : peer) (w : pair message) : logged (peer * pair message * list (list draw)) :=
  match fuel with
  | O => silent Panic
  | S fuel =>
    match endpoint_recv s w with
    | (None, w) => silent (Ok (p, w, rs))
    | (Some m, w) =>
      let! _ := say now (LRecv (other s) (mt_no m) (mt_message m)) in
      let! x := on_message_said now s (mt_message m) p in
      match x with
      | (p, None) => recv_loop_said fuel now s prm rs p w
      | (p, Some reply) =>
        let '(d, rs) := next_draws rs in
        let! w := endpoint_send_said now s prm reply d w in
        recv_loop_said fuel now s prm rs p w
      end
    end
  end.
(** netsim.rs:136-144: the check for a retransmission, with the trace of 141. *)
Definition retransmit_said (now : N) (s : side) (p : peer) (w : pair message) : logged N :=
  match pe_retransmit p with
  | Some t => if (now <=? t) && can_send s now w then let! _ := say now (LRetransmit s (pe_ack p)) in silent (Ok (pe_ack p)) else silent (Ok (pe_seq p))
  | None => silent (Ok (pe_seq p))
  end.
(** netsim.rs:80-187 [step]. *)
Definition peer_step_said (s : side) (prm : channel_params) (now : N) (rs : list (list draw)) (p : peer) (w : pair message) : logged (peer * pair message * list (list draw)) :=
  let! x := recv_loop_said (S (length (ch_messages (recv_channel s w)))) now s prm rs p w in
  let '(p, w, rs) := x in
  let! seq := retransmit_said now s p w in
  if (pe_ack p =? seq) && can_send s now w && (seq <? pe_count p) then
    let '(d, rs) := next_draws rs in
    let! w := endpoint_send_said now s prm (MData seq seq) d w in
    let! seq := silent (add64 seq 1) in
    let! t := silent (add64 now retransmit_delay) in
    silent (Ok ({| pe_seq := seq; pe_count := pe_count p; pe_ack := pe_ack p; pe_retransmit := Some t; pe_accepted := pe_accepted p |}, w, rs))
  else silent (Ok ({| pe_seq := seq; pe_count := pe_count p; pe_ack := pe_ack p; pe_retransmit := pe_retransmit p; pe_accepted := pe_accepted p |}, w, rs)).
Definition step_side_said (s : side) (prm : channel_params) (now : N) (rs : list (list draw)) (w : world) : logged world :=
  match s with
  | FirstSide => let! x := peer_step_said FirstSide prm now rs (wd_first w) (wd_pair w) in
                 let '(p, q, _) := x in silent (Ok {| wd_first := p; wd_second := wd_second w; wd_pair := q |})
  | SecondSide => let! x := peer_step_said SecondSide prm now rs (wd_second w) (wd_pair w) in
                  let '(p, q, _) := x in silent (Ok {| wd_first := wd_first w; wd_second := p; wd_pair := q |})
  end.
(** netsim.rs:247-251: the loop of [main], from time [now] on. *)
Fixpoint main_loop_said (n : nat) (prm : channel_params) (now : N) (rs : N -> side -> list (list draw)) (w : world) : logged world :=
  match n with
  | O => silent (Ok w)
  | S n =>
    let! w := step_side_said FirstSide prm now (rs now FirstSide) w in
    let! w := step_side_said SecondSide prm now (rs now SecondSide) w in
    main_loop_said n prm (now + 1) rs w
  end.

(** ** The text *)
(** The formats [{:05}] and [{:03}]. *)
Definition zero_padded (width : nat) (n : N) : bytes := let t := decimal n in repeat 48 (width - length t) ++ t.
(** The format [{:<12}], of the names below (netsim.rs:240-244: all ASCII). *)
Definition padded12 (name : bytes) : bytes := name ++ repeat 32 (12 - length name).
Definition channel_name (from : side) : bytes := match from with FirstSide => ascii_bytes "p->c" | SecondSide => ascii_bytes "c->p" end.
Definition peer_name (who : side) : bytes := match who with FirstSide => ascii_bytes "producer" | SecondSide => ascii_bytes "consumer" end.
(** netsim.rs:45-50 [description]. *)
Definition description (m : message) : bytes :=
  match m with
  | MData seq _ => ascii_bytes "Data(seq = " ++ decimal seq ++ ascii_bytes ")"
  | MAck ack => ascii_bytes "Ack(ack = " ++ decimal ack ++ ascii_bytes ")"
  end.
(** simulation.rs:50-60: the messages of a channel. *)
Definition channel_text (what : string) (no : N) (m : message) : bytes := ascii_bytes what ++ decimal no ++ ascii_bytes ": " ++ description m.
(** netsim.rs:153: the data is "Message " and a number; [{:?}] puts it in quotes. *)
Definition data_text (data : N) : bytes := [34] ++ ascii_bytes "Message " ++ decimal data ++ [34].
Definition component (e : event) : bytes :=
  match e with LSend s _ _ | LDrop s _ _ | LRecv s _ _ => channel_name s | LData s _ _ _ | LAck s _ _ | LRetransmit s _ => peer_name s end.
Definition event_text (e : event) : bytes :=
  match e with
  | LSend _ no m => channel_text "send " no m
  | LDrop _ no m => channel_text "drop " no m
  | LRecv _ no m => channel_text "recv " no m
  | LData _ v seq data =>
    ascii_bytes "received message with seq = " ++ decimal seq ++ ascii_bytes ", data = " ++ data_text data ++
    ascii_bytes match v with Future => " [FUTURE]" | Fine => " (ok)" | Duplicate => " [DUP]" end
  | LAck _ v ack => ascii_bytes "received ack with ack_no = " ++ decimal ack ++ ascii_bytes match v with News => "" | DupAck => " [DUP]" | Stale => " [STALE]" end
  | LRetransmit _ seq => ascii_bytes "Triggering retransmit of seq " ++ decimal seq
  end.
(** simulation.rs:43-48 [trace]. *)
Definition entry_text (x : entry) : bytes :=
  line (zero_padded 5 (fst x / 1000) ++ ascii_bytes "." ++ zero_padded 3 (fst x mod 1000) ++ ascii_bytes " " ++ padded12 (component (snd x)) ++ ascii_bytes " " ++ event_text (snd x)).
(** netsim.rs:225-253 [main]: what it prints, with [n] for [max_time] = 100000. *)
Definition netsim_text (n : nat) (rs : N -> side -> list (list draw)) : bytes :=
  let m := main_loop_said n main_params 0 rs (world_new 5 0) in
  flat_map entry_text (fst m) ++ match snd m with Ok _ => line (ascii_bytes "Done") | _ => [] end.
