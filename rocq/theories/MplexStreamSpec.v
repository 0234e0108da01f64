(** What an application does with an mplex connection, and what it observes: used by the
    statements of C39, C41 and C75. *)
From Verif Require Import Base MplexModel MplexProofs2.

(** One call by the application.  [Output] stands for any use of the sending side: those
    operations change only the outgoing data (see [writer_ops_only_output]). *)
Inductive action :=
| Accept (t : task) | Read (i : stream_id) (t : task) (room : nat) | Connect (name : option bytes)
| DropReader (i : stream_id) | DropWriter (i : stream_id) | Output (out : bytes).
Inductive event :=
| EvAccepted (i : stream_id) | EvNoMoreStreams | EvBytes (i : stream_id) (room : nat) (b : bytes) | EvConnected (i : stream_id)
| EvWait | EvError (e : ioerr) | EvPanic | EvDone | EvStuck.

Definition perform (s : shared) (answers : list answer) (a : action) : event * shared * list answer :=
  match a with
  | Accept t =>
    match poll_accept_id s t answers with
    | (r, s', answers') =>
      (match r with
       | None => EvStuck | Some Wait => EvWait | Some (Done (Err e)) => EvError e | Some (Done Panic) => EvPanic
       | Some (Done (Ok (Some i))) => EvAccepted i | Some (Done (Ok None)) => EvNoMoreStreams
       end, s', answers')
    end
  | Read i t room =>
    match poll_read s i t room answers with
    | (r, s', answers') =>
      (match r with
       | None => EvStuck | Some Wait => EvWait | Some (Done (Err e)) => EvError e | Some (Done Panic) => EvPanic
       | Some (Done (Ok b)) => EvBytes i room b
       end, s', answers')
    end
  | Connect name =>
    match shared_append_new s name with
    | Ok (i, s') => (EvConnected i, s', answers)
    | Err e => (EvError e, s, answers)
    | Panic => (EvPanic, s, answers)
    end
  | DropReader i => (EvDone, remove_reader s i, answers)
  | DropWriter i => (EvDone, remove_writer s i, answers)
  | Output out => (EvDone, with_out s out, answers)
  end.
Fixpoint run (s : shared) (answers : list answer) (acts : list action) : list event * shared * list answer :=
  match acts with
  | [] => ([], s, answers)
  | a :: acts =>
    let '(e, s, answers) := perform s answers a in
    let '(es, s, answers) := run s answers acts in
    (e :: es, s, answers)
  end.

(** What was read from stream [i]; which streams were accepted. *)
Definition read_from_stream (i : stream_id) (es : list event) : bytes :=
  flat_map (fun e => match e with EvBytes k _ b => if sid_eqb k i then b else [] | _ => [] end) es.
Definition accepted (es : list event) : list stream_id :=
  flat_map (fun e => match e with EvAccepted i => [i] | _ => [] end) es.
(** The bytes a frame carries to stream [i]; the streams opened by frames. *)
Definition payload_for (i : stream_id) (f : frame) : bytes :=
  if sid_eqb (f_id f) i then match f_op f with New | Close => [] | _ => f_data f end else [].
Definition payloads_for (i : stream_id) (fs : list frame) : bytes := flat_map (payload_for i) fs.
Definition opened_by (fs : list frame) : list stream_id :=
  flat_map (fun f => match f_op f with New => [f_id f] | _ => [] end) fs.
(** The bytes not yet turned into frames. *)
Definition unread (s : shared) (answers : list answer) : bytes := fs_in (sh_frames s) ++ data_of answers.
(** The frames [fs] are taken off the front of [d], leaving [d']. *)
Definition taken (d : bytes) (fs : list frame) (d' : bytes) : Prop :=
  exists us, d = concat us ++ d' /\ Forall2 frame_bytes us fs.
(** A part of a list, in order. *)
Inductive part_of {A} : list A -> list A -> Prop :=
| part_nil : part_of [] []
| part_keep x l m : part_of l m -> part_of (x :: l) (x :: m)
| part_skip x l m : part_of l m -> part_of l (x :: m).

(** What the reader of a stream sees, as a sequence of bytes ([Some b]) and zero-length
    reads ([None]); and what the frames on the wire ask it to see: a close frame and a frame
    with an empty payload both are a zero-length read. *)
Definition seen_by (i : stream_id) (es : list event) : list (option N) :=
  flat_map (fun e => match e with
                     | EvBytes k _ b => if sid_eqb k i then match b with [] => [None] | _ => map Some b end else []
                     | _ => [] end) es.
Definition shown_by (i : stream_id) (fs : list frame) : list (option N) :=
  flat_map (fun f => if sid_eqb (f_id f) i then
                       match f_op f, f_data f with
                       | Close, _ | _, [] => [None]
                       | _, d => map Some d
                       end else []) fs.
(** Only streams accepted or connected before are read. *)
Fixpoint reads_opened (open : list stream_id) (acts : list action) (es : list event) : Prop :=
  match acts, es with
  | a :: acts, e :: es =>
    match a with Read i _ _ => In i open | _ => True end /\
    reads_opened (match e with EvAccepted i | EvConnected i => i :: open | _ => open end) acts es
  | _, _ => True
  end.
(** The transport has ended and everything it delivered has been turned into frames. *)
Definition at_end (s : shared) : Prop := fs_eof (sh_frames s) = true /\ fs_in (sh_frames s) = [].

(** Wakers kept on the connection: the acceptor's, and those of the stream readers. *)
Inductive sleeper := TheAcceptor | TheReader (i : stream_id).
Definition kept_waker (s : shared) (x : sleeper) : option task :=
  match x with
  | TheAcceptor => sh_accept s
  | TheReader i => match reader_get (sh_readers s) i with Some (Some w) => Some w | _ => None end
  end.
(** The frame in front is for this sleeper. *)
Definition frame_is_for (f : frame) (x : sleeper) : Prop :=
  match x with
  | TheAcceptor => f_op f = New
  | TheReader i => f_op f <> New /\ f_id f = i
  end.
(** The calls that give the sleeper a new waker, or make it go away. *)
Definition replaces (a : action) (e : event) (x : sleeper) : Prop :=
  match x with
  | TheAcceptor => exists t, a = Accept t
  | TheReader i => (exists t room, a = Read i t room) \/ a = DropReader i \/ e = EvAccepted i \/ e = EvConnected i
  end.
