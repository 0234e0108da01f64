(** Model of what [FrameStream] prints when logging is enabled:
    src/libp2p/mplex/frame.rs:272-297 and the calls of it in frame.rs:146-264.  The functions
    are those of MplexModel.v, each with the text it prints.

    Printing is taken to succeed; [io] is the text of an [io::Error] (standard library). *)
From Coq Require Import String Ascii.
From Verif Require Import Base ChatModel HexDumpModel MplexModel.
Local Open Scope string_scope. Local Open Scope list_scope. Local Open Scope N_scope.

(** frame.rs:11, 64: the derived [Debug] of [StreamId] and [FrameOp]. *)
Definition sid_debug (s : stream_id) : bytes :=
  match s with
  | Receiver n => ascii_bytes "Receiver(" ++ decimal n ++ ascii_bytes ")"
  | Initiator n => ascii_bytes "Initiator(" ++ decimal n ++ ascii_bytes ")"
  end.
Definition op_debug (o : frame_op) : bytes :=
  match o with
  | New => ascii_bytes "New" | Message => ascii_bytes "Message"
  | Close => ascii_bytes "Close" | Reset => ascii_bytes "Reset"
  end.
(** frame.rs:272-278 [log_incoming_frame] and 280-285 [log_outgoing_frame]: the line and the
    hex dump. *)
Definition log_frame (arrow : string) (s : stream_id) (o : frame_op) (data : bytes) : bytes :=
  ascii_bytes "[mplex] " ++ ascii_bytes arrow ++ ascii_bytes " " ++ sid_debug s ++ ascii_bytes " " ++ op_debug o ++
  ascii_bytes " <" ++ decimal (blen data) ++ ascii_bytes " bytes>" ++ [10] ++ indent (dump_alternate data) ++ [10].
Definition log_incoming_frame (enabled : bool) (f : frame) : bytes :=
  if enabled then log_frame "<<<<" (f_id f) (f_op f) (f_data f) else [].
Definition log_outgoing_frame (enabled : bool) (s : stream_id) (o : frame_op) (data : bytes) : bytes :=
  if enabled then log_frame ">>>>" s o data else [].
(** frame.rs:287-291 [log_drain_error] and 293-297 [log_drain_ok]. *)
Definition log_drain_error (enabled : bool) (text : bytes) : bytes :=
  if enabled then ascii_bytes "[mplex] >>>> drain error: " ++ text ++ [10] else [].
Definition log_drain_ok (enabled : bool) : bytes :=
  if enabled then ascii_bytes "[mplex] >>>> drained" ++ [10] else [].

(** frame.rs:146-203 [poll_read_frame]: a frame is logged just before it is returned. *)
Definition poll_read_said (enabled : bool) (fs : frame_stream) (answers : list answer)
  : bytes * (poll (outcome ioerr (option frame)) * frame_stream * list answer) :=
  let x := poll_read_frame fs answers in
  (match fst (fst x) with Done (Ok (Some f)) => log_incoming_frame enabled f | _ => [] end, x).
(** frame.rs:205-224 [poll_drain]: only what [poll_flush] answers is logged. *)
Fixpoint poll_drain_said (io : ioerr -> bytes) (enabled : bool) (out : bytes) (answers : list wanswer)
  : bytes * (poll (outcome ioerr unit) * bytes * list wanswer * bytes) :=
  match out with
  | [] =>
    match answers with
    | [] => ([], (Wait, [], [], []))
    | WPending :: t => ([], (Wait, [], t, []))
    | WError e :: t => (log_drain_error enabled (io e), (Done (Err e), [], t, []))
    | WOk _ :: t => (log_drain_ok enabled, (Done (Ok tt), [], t, []))
    end
  | _ =>
    match answers with
    | [] => ([], (Wait, out, [], []))
    | WPending :: t => ([], (Wait, out, t, []))
    | WError e :: t => ([], (Done (Err e), out, t, []))
    | WOk n :: t =>
      let '(l, (r, out', t', sent)) := poll_drain_said io enabled (skipn n out) t in (l, (r, out', t', firstn n out ++ sent))
    end
  end.
(** frame.rs:226-239 [append_new], 241-252 [append_message], 254-264 [append_close]. *)
Definition append_new_said (enabled : bool) (out : bytes) (num : N) (name : option bytes) : bytes * bytes :=
  (log_outgoing_frame enabled (Receiver num) New match name with Some n => n | None => [] end, append_new out num name).
Definition append_message_said (enabled : bool) (out : bytes) (s : stream_id) (data : bytes) : bytes * bytes :=
  (log_outgoing_frame enabled s Message data, append_message out s data).
Definition append_close_said (enabled : bool) (out : bytes) (s : stream_id) : bytes * bytes :=
  (log_outgoing_frame enabled s Close [], append_close out s).

(** A call of a method of [FrameStream], with what the transport answers during it, and what
    it gives: the text printed, the state, the result of a read, and what was sent. *)
Inductive log_call := CNew (num : N) (name : option bytes) | CMessage (s : stream_id) (data : bytes) | CClose (s : stream_id)
  | CRead (answers : list answer) | CDrain (answers : list wanswer).
Inductive call_result := RNone | RRead (r : poll (outcome ioerr (option frame))) | RDrain (r : poll (outcome ioerr unit)).
Definition with_out (fs : frame_stream) (out : bytes) : frame_stream := {| fs_in := fs_in fs; fs_out := out; fs_eof := fs_eof fs |}.
Definition call_said (io : ioerr -> bytes) (enabled : bool) (fs : frame_stream) (c : log_call)
  : bytes * frame_stream * call_result * bytes :=
  match c with
  | CNew num name => let (l, out) := append_new_said enabled (fs_out fs) num name in (l, with_out fs out, RNone, [])
  | CMessage s data => let (l, out) := append_message_said enabled (fs_out fs) s data in (l, with_out fs out, RNone, [])
  | CClose s => let (l, out) := append_close_said enabled (fs_out fs) s in (l, with_out fs out, RNone, [])
  | CRead answers => let '(l, (r, fs', _)) := poll_read_said enabled fs answers in (l, fs', RRead r, [])
  | CDrain answers => let '(l, (r, out, _, sent)) := poll_drain_said io enabled (fs_out fs) answers in (l, with_out fs out, RDrain r, sent)
  end.
(** A sequence of calls: all the text, the results and all that was sent. *)
Fixpoint calls_said (io : ioerr -> bytes) (enabled : bool) (fs : frame_stream) (cs : list log_call)
  : bytes * frame_stream * list call_result * bytes :=
  match cs with
  | [] => ([], fs, [], [])
  | c :: cs =>
    let '(l, fs1, r, sent) := call_said io enabled fs c in
    let '(l', fs2, rs, sent') := calls_said io enabled fs1 cs in
    (l ++ l', fs2, r :: rs, sent ++ sent')
  end.
