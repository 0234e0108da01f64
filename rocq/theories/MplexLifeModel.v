(** The handles of an mplex connection and their lifetimes: src/libp2p/mplex/stream.rs 82-99,
    286-333, 340-358, 393-403, 449-455, 504-522.  MplexModel.v has what each operation does to
    the shared state; here is who can do it: a program holds an [Acceptor], a [Connector],
    futures of streams being opened, and the two halves of streams.

    Left out: the use of the sending half (it only changes the bytes to send, see [Output] in
    MplexStreamSpec.v; [CSend] stands for any of it), and a [Connect] dropped before it was
    polled, which has done nothing. *)
From Verif Require Import Base MplexModel MplexStreamSpec.

(** The program's handles.  Two accepted streams may have the same id. *)
Record world := { wo_shared : shared; wo_answers : list answer; wo_readers : list stream_id; wo_writers : list stream_id; wo_connects : list stream_id }.
(** stream.rs:369-380 [Mplex::new], [split]. *)
Definition world_new (answers : list answer) : world :=
  {| wo_shared := shared_new; wo_answers := answers; wo_readers := []; wo_writers := []; wo_connects := [] |}.
Inductive call :=
| CAccept (t : task)                              (* poll of [Accept] *)
| CConnect (name : option bytes) (w : list wanswer) (* first poll of a new [Connect] *)
| CAgain (i : stream_id) (w : list wanswer)       (* another poll of a pending one *)
| CGiveUp (i : stream_id)                         (* drop of a pending one *)
| CRead (i : stream_id) (t : task) (room : nat)
| CDropReader (i : stream_id) | CDropWriter (i : stream_id)
| CSend (out : bytes).
Definition holds (i : stream_id) (l : list stream_id) : bool := existsb (sid_eqb i) l.
Fixpoint without (i : stream_id) (l : list stream_id) : list stream_id :=
  match l with [] => [] | k :: l => if sid_eqb i k then l else k :: without i l end.
Definition with_shared (w : world) (s : shared) : world :=
  {| wo_shared := s; wo_answers := wo_answers w; wo_readers := wo_readers w; wo_writers := wo_writers w; wo_connects := wo_connects w |}.
(** stream.rs:510-522 [Stream::new]: both halves. *)
Definition with_stream (w : world) (i : stream_id) : world :=
  {| wo_shared := wo_shared w; wo_answers := wo_answers w; wo_readers := i :: wo_readers w; wo_writers := i :: wo_writers w; wo_connects := wo_connects w |}.
Definition with_connects (w : world) (l : list stream_id) : world :=
  {| wo_shared := wo_shared w; wo_answers := wo_answers w; wo_readers := wo_readers w; wo_writers := wo_writers w; wo_connects := l |}.
(** stream.rs:306-332 [Connect::poll]; [known] as in [connect_poll].  With an error the future
    is over and goes away; nothing is undone. *)
Definition do_connect (w : world) (known : option stream_id) (name : option bytes) (wa : list wanswer) : event * world :=
  let '(r, i, s, _, _) := connect_poll (wo_shared w) known name wa in
  let w := with_shared w s in
  match r, i with
  | Wait, Some i => (EvWait, with_connects w (i :: wo_connects w))
  | Wait, None => (EvStuck, w) (* does not happen *)
  | Done (Ok i), _ => (EvConnected i, with_stream w i)
  | Done (Err e), _ => (EvError e, w)
  | Done Panic, _ => (EvPanic, w)
  end.
(** One call; [None] if the program does not hold the handle it needs. *)
Definition do_call (w : world) (c : call) : option (event * world) :=
  match c with
  | CAccept t =>
    (* 286-297 [Accept::poll], 340-349 [poll_accept_stream] *)
    let '(e, s, a) := perform (wo_shared w) (wo_answers w) (Accept t) in
    let w' := {| wo_shared := s; wo_answers := a; wo_readers := wo_readers w; wo_writers := wo_writers w; wo_connects := wo_connects w |} in
    Some (e, match e with EvAccepted i => with_stream w' i | _ => w' end)
  | CConnect name wa => Some (do_connect w None name wa)
  | CAgain i wa => if holds i (wo_connects w) then Some (do_connect (with_connects w (without i (wo_connects w))) (Some i) None wa) else None
  | CGiveUp i => if holds i (wo_connects w) then Some (EvDone, with_connects w (without i (wo_connects w))) else None
  | CRead i t room =>
    (* 405-414 [poll_read] of [StreamReader], 524-534 of [Stream] *)
    if holds i (wo_readers w) then
      let '(e, s, a) := perform (wo_shared w) (wo_answers w) (Read i t room) in
      Some (e, {| wo_shared := s; wo_answers := a; wo_readers := wo_readers w; wo_writers := wo_writers w; wo_connects := wo_connects w |})
    else None
  | CDropReader i =>
    (* 398-403 [Drop for StreamReader] *)
    if holds i (wo_readers w) then
      Some (EvDone, {| wo_shared := remove_reader (wo_shared w) i; wo_answers := wo_answers w; wo_readers := without i (wo_readers w); wo_writers := wo_writers w; wo_connects := wo_connects w |})
    else None
  | CDropWriter i =>
    (* 450-455 [Drop for StreamWriter] *)
    if holds i (wo_writers w) then
      Some (EvDone, {| wo_shared := remove_writer (wo_shared w) i; wo_answers := wo_answers w; wo_readers := wo_readers w; wo_writers := without i (wo_writers w); wo_connects := wo_connects w |})
    else None
  | CSend out => Some (EvDone, with_shared w (with_out (wo_shared w) out))
  end.
Fixpoint do_calls (w : world) (cs : list call) : option (list event * world) :=
  match cs with
  | [] => Some ([], w)
  | c :: cs =>
    match do_call w c with
    | Some (e, w) => match do_calls w cs with Some (es, w) => Some (e :: es, w) | None => None end
    | None => None
    end
  end.
