(** C132: two mplex connections at the two ends of one TLS connection. *)
From Verif Require Import Base MplexModel MplexProps MplexSendProps MplexStreamSpec MplexPairProps TlsRecordModel TlsRecordSpec TlsClientModel TlsClientSpec SecureMplexModel.
Ltac Zify.zify_post_hook ::= Z.div_mod_to_equations.

(** One end: the mplex connection, the errors remembered by the writers, the TLS connection. *)
Record secured := { sc_shared : shared; sc_errs : stream_id -> option ioerr; sc_conn : connection }.
(** One call of the application at one end: what it made mplex ask of the TLS connection, and
    what that answered; what came back to the application; the bytes received from, and sent
    to, the network during the call. *)
Record entry := { en_side : side; en_call : node_call; en_ops : list cop; en_results : list cres;
  en_reads : list answer; en_writes : list wanswer; en_event : node_event; en_rx : bytes; en_tx : bytes }.
(** Reads from the TLS connection, with the answers (frame.rs:184-199). *)
Inductive read_calls : list cop -> list cres -> list answer -> Prop :=
| read_calls_none : read_calls [] [] []
| read_calls_one net x a os rs l : read_answer x = Some a -> read_calls os rs l ->
    read_calls (CRead frame_room net :: os) (RRead x :: rs) (a :: l).
(** Writes to it of what is queued, [out], and a flush when nothing is (frame.rs:205-224). *)
Inductive write_calls : bytes -> list cop -> list cres -> list wanswer -> Prop :=
| write_calls_none out : write_calls out [] [] []
| write_calls_one out net x a os rs l : out <> [] -> write_answer x = Some a ->
    write_calls match a with WOk n => skipn n out | _ => out end os rs l ->
    write_calls out (CWrite out net :: os) (RWrite x :: rs) (a :: l)
| write_calls_flush net x a os rs l : flush_answer x = Some a -> write_calls [] os rs l ->
    write_calls [] (CFlush net :: os) (RFlush x :: rs) (a :: l).
(** What is queued when a call comes to write: connect has queued its frame before. *)
Definition to_drain (s : shared) (c : send_call) : bytes :=
  let out := fs_out (sh_frames s) in match c with CallConnect name => append_new out (sh_next s) name | _ => out end.
Definition transport_calls (s : shared) (e : entry) : Prop :=
  match en_call e with
  | NSend c => en_reads e = [] /\ write_calls (to_drain s c) (en_ops e) (en_results e) (en_writes e)
  | _ => en_writes e = [] /\ read_calls (en_ops e) (en_results e) (en_reads e)
  end.
(** A call: mplex does what it does with a transport (C115) that gives these answers, no more
    and no fewer; and they are the answers of the TLS connection. *)
Definition on_transport (s : secured) (reads : list answer) (writes : list wanswer) (sent : bytes) : node :=
  {| nd_shared := sc_shared s; nd_errs := sc_errs s; nd_in := reads; nd_out := writes; nd_sent := sent |}.
Definition secured_step (P : primitives) (s : secured) (e : entry) (s' : secured) : Prop :=
  crun P (sc_conn s) (en_ops e) = (en_results e, sc_conn s', en_rx e, en_tx e) /\ transport_calls (sc_shared s) e /\
  exists sent, forall ins outs before,
    node_step (on_transport s (en_reads e ++ ins) (en_writes e ++ outs) before) (en_call e) = (en_event e, on_transport s' ins outs (before ++ sent)).
Definition same_side (x y : side) : bool := match x, y with SideA, SideA | SideB, SideB => true | _, _ => false end.
(** Calls at both ends in the order in which they happen. *)
Inductive stack (P : primitives) (start : side -> secured) : list entry -> (side -> secured) -> Prop :=
| stack_none : stack P start [] start
| stack_step es st e s' : stack P start es st -> secured_step P (st (en_side e)) e s' ->
    stack P start (es ++ [e]) (fun y => if same_side y (en_side e) then s' else st y).
Definition of_side (x : side) (es : list entry) : list entry := filter (fun e => same_side x (en_side e)) es.
Definition trace_of (x : side) (es : list entry) : trace := map (fun e => (en_call e, en_event e)) (of_side x es).
Definition rx_of (x : side) (es : list entry) : bytes := concat (map en_rx (of_side x es)).
Definition tx_of (x : side) (es : list entry) : bytes := concat (map en_tx (of_side x es)).
Definition ops_of (x : side) (es : list entry) : list cop := flat_map en_ops (of_side x es).

(** Before mplex, the connection was established ([fresh]) and used for the negotiations:
    [pr_ops].  The keys are those of the two directions. *)
Record preamble := { pr_conn : connection; pr_ops : list cop; pr_results : list cres; pr_rx : bytes; pr_tx : bytes }.
(** All the network has given to an end, and all the records an end has made: sent or still
    buffered. *)
Definition all_received (pre : side -> preamble) (x : side) (es : list entry) : bytes :=
  rr_in (ps_receiver (cn_plain (pr_conn (pre x)))) ++ pr_rx (pre x) ++ rx_of x es.
Definition all_made (pre : side -> preamble) (st : side -> secured) (x : side) (es : list entry) : bytes :=
  pr_tx (pre x) ++ tx_of x es ++ ps_out (cn_plain (sc_conn (st x))).
Definition begins (P : primitives) (key_of : side -> key) (pre : side -> preamble) (start : side -> secured) : Prop :=
  forall x, key_ok (key_of x) /\ fresh (key_of x) (key_of (opposite x)) (pr_conn (pre x)) /\
    crun P (pr_conn (pre x)) (pr_ops (pre x)) = (pr_results (pre x), sc_conn (start x), pr_rx (pre x), pr_tx (pre x)) /\
    accepted (pr_ops (pre x)) (pr_results (pre x)) = returned (pr_results (pre (opposite x))) /\
    sc_shared (start x) = shared_new /\ sc_errs (start x) = (fun _ => None).
(** The network: honest (in order, whatever pieces and delays) ... *)
Definition honest (pre : side -> preamble) (es : list entry) (st : side -> secured) : Prop :=
  forall x, exists future, all_made pre st (opposite x) es = all_received pre x es ++ future.
(** ... or whatever it likes, except that it cannot forge: a record it gives to an end that
    opens under one of the numbers tried so far is what the other end has made as the record
    of that number. *)
Definition unforged (P : primitives) (key_of : side -> key) (pre : side -> preamble) (es : list entry) (st : side -> secured) : Prop :=
  forall x consumed rest raws raw n content type pieces closed,
    all_received pre x es = consumed ++ rest -> carries consumed raws -> In raw raws -> (N.to_nat n < length raws)%nat -> opens P (key_of (opposite x)) n raw content type ->
    Forall (fun d => blen d <= 16384) pieces -> protected P (key_of (opposite x)) 0 (sent_list pieces closed) = Some (all_made pre st (opposite x) es) ->
    nth_error (sent_list pieces closed) (N.to_nat n) = Some (content, type).
(** What the applications give are bytes; sizes as in C115 and C59. *)
Definition call_bytes (c : node_call) : bytes :=
  match c with NSend (CallConnect (Some name)) => name | NSend (CallWrite _ buf) => buf | _ => [] end.
Definition moderate (pre : side -> preamble) (es : list entry) : Prop :=
  N.of_nat (length es) < 2 ^ 60 /\ Forall (fun e => modest_call (en_call e) /\ bytes_ok (call_bytes (en_call e))) es /\
  forall x, N.of_nat (length (pr_ops (pre x) ++ ops_of x es)) < two64 /\
    blen (rr_in (ps_receiver (cn_plain (pr_conn (pre x))))) + blen (offered (pr_ops (pre x) ++ ops_of x es)) < two64 /\
    blen (flat_map (fun e => returned (en_results e)) (of_side x es)) < 2 ^ 64.
(** A session over TLS, with a network of which [net] holds at any time. *)
Definition secure_session (P : primitives) (key_of : side -> key) (net : list entry -> (side -> secured) -> Prop) (pre : side -> preamble) (start : side -> secured) (es : list entry) (st : side -> secured) : Prop :=
  aead_ok P /\ begins P key_of pre start /\ stack P start es st /\ moderate pre es /\
  (forall p q st', es = p ++ q -> stack P start p st' -> net p st') /\ (forall x, proper [] (trace_of x es)).
