(** Model of the wake-ups of src/tls/protocol/stream.rs and client.rs, which TlsRecordModel.v
    and TlsClientModel.v leave out: for each polled operation, what happens to the waker of the
    task.  The functions follow the code of the operations once more and use the models of
    their results; [Woken]: [wake_by_ref] is called; [ReaderKeeps], [WriterKeeps]: the
    transport answers "pending" and so keeps the waker until it can go on. *)
From Verif Require Import Base MplexModel TlsCodesModel TlsTypesModel TlsRecordModel TlsClientModel.

Inductive wake := Woken | ReaderKeeps | WriterKeeps.

(** stream.rs:183-211 [poll_receive_data]: data wakes the task at once (line 201). *)
Definition recv_wakes (answers : list answer) : list wake :=
  match answers with
  | [] | APending :: _ => [ReaderKeeps]
  | ARead (_ :: _) :: _ => [Woken]
  | ARead [] :: _ | AError _ :: _ => []
  end.
(** stream.rs:287-313 [PlaintextStream::poll_flush]. *)
Fixpoint flush_wakes (out : bytes) (answers : list wanswer) : list wake :=
  match out with
  | [] => match answers with [] | WPending :: _ => [WriterKeeps] | _ => [] end
  | _ =>
    match answers with
    | [] | WPending :: _ => [WriterKeeps]
    | WError _ :: _ => []
    | WOk n :: t => flush_wakes (skipn n out) t
    end
  end.
(** client.rs:428-449 [poll_step]: two of the states flush. *)
Definition step_wakes (s : ec_state) (w : list wanswer) : list wake :=
  match s with
  | EBegin _ _ _ p | EMessagesReceived p _ _ => flush_wakes (ps_out p) w
  | _ => []
  end.
(** client.rs:375-401 [EstablishConnection::poll]. *)
Fixpoint ec_wakes (fuel : nat) (P : primitives) (s : ec_state) (answers : list answer) (w : list wanswer) : list wake :=
  match fuel with
  | O => []
  | S fuel =>
    match s with
    | EDone _ | EError _ | EPanic => []
    | _ =>
      let step s answers :=
        let '(ready, s', w', _) := poll_step P s w in
        step_wakes s w ++ (if ready then ec_wakes fuel P s' answers w' else []) in
      match ec_recv s answers with
      | Some (Done (Err _), _, _) => recv_wakes answers
      | Some (_, s', answers') => recv_wakes answers ++ step s' answers'
      | None => step s answers
      end
    end
  end.
Definition establish_wakes (P : primitives) (s : ec_state) (answers : list answer) (w : list wanswer) : list wake := ec_wakes 7 P s answers w.

(** client.rs:972-1021: the loop of [poll_fill_incoming]: where it waits, it wakes the task
    itself (lines 979 and 991). *)
Fixpoint fill_wakes (fuel : nat) (P : primitives) (c : connection) (answers : list answer) : list wake :=
  match fuel with
  | O => []
  | S fuel =>
    let '(x, r, answers') := poll_recv (ps_receiver (cn_plain c)) answers in
    recv_wakes answers ++
    match x with
    | Wait => [Woken]
    | Done (Ok _) =>
      let c := with_receiver c r in
      let '(x, r, n, _) := receive_encrypted_message P r (se_server (cn_seq c)) (se_enc (cn_seq c)) None in
      match x with
      | Wait => [Woken]
      | Done (Ok (Some (MHandshake (HNewSessionTicket _)))) => fill_wakes fuel P (with_server_seq (with_receiver c r) n) answers'
      | _ => []
      end
    | Done _ => []
    end
  end.
(** client.rs:967-971, 1026-1050 [poll_read]. *)
Definition read_wakes (P : primitives) (c : connection) (answers : list answer) : list wake :=
  match cn_read c, cn_in c with
  | RActive, [] => fill_wakes (S (length answers)) P c answers
  | _, _ => []
  end.
(** client.rs:1052-1080 [poll_write] and 1082-1099 [poll_flush]. *)
Definition write_wakes (c : connection) (w : list wanswer) : list wake :=
  match ps_write (cn_plain c) with WsActive => flush_wakes (ps_out (cn_plain c)) w | _ => [] end.
(** client.rs:1101-1144 [poll_shutdown]. *)
Definition shutdown_rest_wakes (c : connection) (w : list wanswer) : list wake :=
  let '(x, _, w', _) := flush_encrypted c w in
  flush_wakes (ps_out (cn_plain c)) w ++
  match x with Done (Ok _) => match w' with [] | WPending :: _ => [WriterKeeps] | _ => [] end | _ => [] end.
Definition shutdown_wakes (P : primitives) (c : connection) (w : list wanswer) : list wake :=
  match ps_write (cn_plain c) with
  | WsError _ => []
  | WsShutdown => shutdown_rest_wakes c w
  | WsActive =>
    match append_close_notify P c with
    | (Ok _, c) => shutdown_rest_wakes (set_write c WsShutdown) w
    | _ => []
    end
  end.
