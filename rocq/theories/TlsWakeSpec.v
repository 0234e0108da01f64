(** Small specification for C125: an executor that polls a task only after it was woken, and a
    transport that has answers ready or keeps the waker. *)
From Verif Require Import Base MplexModel TlsRecordModel TlsClientModel TlsClientSpec TlsWakeModel.

Definition mem (k : wake) (l : list wake) : bool :=
  existsb (fun x => match x, k with Woken, Woken | ReaderKeeps, ReaderKeeps | WriterKeeps, WriterKeeps => true | _, _ => false end) l.

(** A handshake under the executor.  [x_reads], [x_writes]: what the transport has ready;
    [x_reader], [x_writer]: it keeps the waker; [x_ready]: the task was woken and will be
    polled.  [x_polls], [x_got]: the polls so far and all bytes that arrived, for reference. *)
Record exec := {
  x_task : option ec_state; x_result : option (tls connection);
  x_reads : list answer; x_writes : list wanswer; x_reader : bool; x_writer : bool; x_ready : bool;
  x_polls : list (list answer * list wanswer); x_got : bytes }.
Definition exec_start (s : ec_state) : exec :=
  {| x_task := Some s; x_result := None; x_reads := []; x_writes := []; x_reader := false; x_writer := false; x_ready := true;
     x_polls := []; x_got := [] |}.

(** The transport has something for the task: it wakes it if it kept the waker, and keeps it
    no longer. *)
Inductive xstep (P : primitives) : exec -> exec -> Prop :=
| x_arrives X a : a <> APending ->
    xstep P X {| x_task := x_task X; x_result := x_result X; x_reads := x_reads X ++ [a]; x_writes := x_writes X;
                 x_reader := false; x_writer := x_writer X; x_ready := x_ready X || x_reader X; x_polls := x_polls X; x_got := x_got X ++ data_of a |}
| x_drains X a : a <> WPending ->
    xstep P X {| x_task := x_task X; x_result := x_result X; x_reads := x_reads X; x_writes := x_writes X ++ [a];
                 x_reader := x_reader X; x_writer := false; x_ready := x_ready X || x_writer X; x_polls := x_polls X; x_got := x_got X |}
(** A poll.  Wakers kept from earlier polls are taken as forgotten (the worst case). *)
| x_polled X s x s' reads writes sent : x_ready X = true -> x_task X = Some s ->
    establish_poll P s (x_reads X) (x_writes X) = (x, s', reads, writes, sent) ->
    let wk := establish_wakes P s (x_reads X) (x_writes X) in
    xstep P X {| x_task := match x with Wait => s' | Done _ => None end; x_result := match x with Wait => None | Done r => Some r end;
                 x_reads := reads; x_writes := writes; x_reader := mem ReaderKeeps wk; x_writer := mem WriterKeeps wk; x_ready := mem Woken wk;
                 x_polls := x_polls X ++ [(x_reads X, x_writes X)]; x_got := x_got X |}.
Inductive xruns (P : primitives) (X : exec) : exec -> Prop :=
| xr_refl : xruns P X X
| xr_step Y Z : xruns P X Y -> xstep P Y Z -> xruns P X Z.

(** An operation of an established connection, without the transport's answers. *)
Inductive pending_op := OpRead (room : nat) | OpWrite (data : bytes) | OpFlush | OpShutdown.
(** Does it wait?  The connection and the answers after the poll, the wake-ups. *)
Definition op_poll (P : primitives) (c : connection) (o : pending_op) (reads : list answer) (writes : list wanswer)
  : bool * connection * list answer * list wanswer * list wake :=
  match o with
  | OpRead room => let '(x, c', reads') := conn_read P c room reads in (match x with Wait => true | _ => false end, c', reads', writes, read_wakes P c reads)
  | OpWrite data => let '(x, c', writes', _) := conn_write P c data writes in (match x with Wait => true | _ => false end, c', reads, writes', write_wakes c writes)
  | OpFlush => let '(x, c', writes', _) := conn_flush c writes in (match x with Wait => true | _ => false end, c', reads, writes', write_wakes c writes)
  | OpShutdown => let '(x, c', writes', _) := conn_shutdown P c writes in (match x with Wait => true | _ => false end, c', reads, writes', shutdown_wakes P c writes)
  end.
