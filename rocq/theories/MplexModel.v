(** Model of src/libp2p/mplex/frame.rs and src/libp2p/mplex/stream.rs.

    The transport is an oracle: a list of the answers its [poll_read] gives, one after the
    other; when the list is used up it has nothing yet ([Pending]).  An empty read is the end
    of the stream.  (The code offers a buffer of 1024 bytes; here a read may return any number
    of bytes.)  Log output is left out. *)
From Verif Require Import Base VarintModel.

(** [io::ErrorKind]; transport errors are arbitrary. *)
Inductive ioerr := InvalidData | UnexpectedEof | BrokenPipe | OtherIo (code : N).
(** [Poll]. *)
Inductive poll (A : Type) := Wait | Done (a : A).
Arguments Wait {A}. Arguments Done {A} a.
(** What the transport's [poll_read] answers. *)
Inductive answer := APending | ARead (data : bytes) | AError (e : ioerr).

(** frame.rs:11-15 [StreamId]. *)
Inductive stream_id := Receiver (num : N) | Initiator (num : N).
(** The derived [PartialEq]. *)
Definition sid_eqb (a b : stream_id) : bool :=
  match a, b with
  | Receiver m, Receiver n | Initiator m, Initiator n => m =? n
  | _, _ => false
  end.
(** frame.rs:17-24 [inverse]. *)
Definition inverse (s : stream_id) : stream_id :=
  match s with Receiver n => Initiator n | Initiator n => Receiver n end.

(** frame.rs:26-35 [Flag]. *)
Inductive flag := NewStream | MessageReceiver | MessageInitiator | CloseReceiver | CloseInitiator
  | ResetReceiver | ResetInitiator.
(** frame.rs:38-48 [Flag::to_raw]. *)
Definition flag_to_raw (f : flag) : N :=
  match f with
  | NewStream => 0 | MessageReceiver => 1 | MessageInitiator => 2 | CloseReceiver => 3
  | CloseInitiator => 4 | ResetReceiver => 5 | ResetInitiator => 6
  end.
(** frame.rs:50-61 [Flag::from_raw]. *)
Definition flag_from_raw (n : N) : outcome ioerr flag :=
  if n =? 0 then Ok NewStream else if n =? 1 then Ok MessageReceiver
  else if n =? 2 then Ok MessageInitiator else if n =? 3 then Ok CloseReceiver
  else if n =? 4 then Ok CloseInitiator else if n =? 5 then Ok ResetReceiver
  else if n =? 6 then Ok ResetInitiator else Err InvalidData.

(** frame.rs:64-70 [FrameOp]. *)
Inductive frame_op := New | Message | Close | Reset.
Definition op_eqb (a b : frame_op) : bool :=
  match a, b with New, New | Message, Message | Close, Close | Reset, Reset => true | _, _ => false end.
(** frame.rs:73-77 [Frame]. *)
Record frame := { f_id : stream_id; f_op : frame_op; f_data : bytes }.
(** frame.rs:80-118 [from_message_parts]: the name of a new stream is thrown away. *)
Definition from_message_parts (num : N) (fl : flag) (data : bytes) : frame :=
  match fl with
  | NewStream => {| f_id := Initiator num; f_op := New; f_data := [] |}
  | MessageReceiver => {| f_id := Receiver num; f_op := Message; f_data := data |}
  | MessageInitiator => {| f_id := Initiator num; f_op := Message; f_data := data |}
  | CloseReceiver => {| f_id := Receiver num; f_op := Close; f_data := data |}
  | CloseInitiator => {| f_id := Initiator num; f_op := Close; f_data := data |}
  | ResetReceiver => {| f_id := Receiver num; f_op := Reset; f_data := data |}
  | ResetInitiator => {| f_id := Initiator num; f_op := Reset; f_data := data |}
  end.

(** frame.rs:121-127 [FrameStream], without the transport. *)
Record frame_stream := { fs_in : bytes; fs_out : bytes; fs_eof : bool }.
(** frame.rs:134-143 [FrameStream::new]. *)
Definition frame_stream_new : frame_stream := {| fs_in := []; fs_out := []; fs_eof := false |}.

(** frame.rs:300-317 [extract_varint_u64]: the value and the offset after it. *)
Definition extract_varint_u64 (data : bytes) (offset : nat) : outcome ioerr (option (N * nat)) :=
  match scan_varint (skipn offset data) with
  | None => Ok None
  | Some n =>
    match decode_u64 (firstn n (skipn offset data)) with
    | Ok v => Ok (Some (v, (offset + n)%nat))
    | _ => Err InvalidData
    end
  end.
(** frame.rs:151-166: the frame at the start of the buffered data, if it is complete, and
    what follows it.  The sum on line 156 overflows from 2^64 on (without overflow checks it
    wraps to a small number and [split_to] on line 158 panics instead). *)
Definition buffered_frame (data : bytes) : outcome ioerr (option (frame * bytes)) :=
  let? h := extract_varint_u64 data 0 in
  match h with
  | None => Ok None
  | Some (header, offset) =>
    let num := N.shiftr header 3 in
    let? fl := flag_from_raw (N.land header 7) in
    let? l := extract_varint_u64 data offset in
    match l with
    | None => Ok None
    | Some (payload_len, offset) =>
      if two64 <=? N.of_nat offset + payload_len then Panic
      else if N.of_nat offset + payload_len <=? blen data then
        let rest := skipn offset data in
        Ok (Some (from_message_parts num fl (firstn (N.to_nat payload_len) rest),
                  skipn (N.to_nat payload_len) rest))
      else Ok None
    end
  end.
Definition with_in (fs : frame_stream) (data : bytes) : frame_stream :=
  {| fs_in := data; fs_out := fs_out fs; fs_eof := fs_eof fs |}.
(** frame.rs:146-203 [poll_read_frame]. *)
Fixpoint poll_read_frame (fs : frame_stream) (answers : list answer)
  : poll (outcome ioerr (option frame)) * frame_stream * list answer :=
  match buffered_frame (fs_in fs) with
  | Ok (Some (f, rest)) => (Done (Ok (Some f)), with_in fs rest, answers)
  | Err e => (Done (Err e), fs, answers)
  | Panic => (Done Panic, fs, answers)
  | Ok None =>
    if fs_eof fs then
      match fs_in fs with
      | [] => (Done (Ok None), fs, answers)
      | _ => (Done (Err UnexpectedEof), fs, answers)
      end
    else
      match answers with
      | [] => (Wait, fs, [])
      | APending :: t => (Wait, fs, t)
      | AError e :: t => (Done (Err e), fs, t)
      | ARead [] :: t => poll_read_frame {| fs_in := fs_in fs; fs_out := fs_out fs; fs_eof := true |} t
      | ARead data :: t => poll_read_frame (with_in fs (fs_in fs ++ data)) t
      end
  end.

(** What the transport's [poll_write] and [poll_flush] answer; it never takes more than it
    is offered. *)
Inductive wanswer := WPending | WOk (n : nat) | WError (e : ioerr).
(** frame.rs:205-224 [poll_drain]: also what the transport took. *)
Fixpoint poll_drain (out : bytes) (answers : list wanswer)
  : poll (outcome ioerr unit) * bytes * list wanswer * bytes :=
  match out with
  | [] =>
    match answers with
    | [] => (Wait, [], [], [])
    | WPending :: t => (Wait, [], t, [])
    | WError e :: t => (Done (Err e), [], t, [])
    | WOk _ :: t => (Done (Ok tt), [], t, [])
    end
  | _ =>
    match answers with
    | [] => (Wait, out, [], [])
    | WPending :: t => (Wait, out, t, [])
    | WError e :: t => (Done (Err e), out, t, [])
    | WOk n :: t =>
      let '(r, out', t', sent) := poll_drain (skipn n out) t in (r, out', t', firstn n out ++ sent)
    end
  end.

(** frame.rs:266-270 [append_frame]. *)
Definition append_frame (out : bytes) (header : N) (data : bytes) : bytes :=
  out ++ encode_u64 header ++ encode_usize (blen data) ++ data.
(** [num << 3] in 64 bits, then the flag. *)
Definition header_of (num : N) (f : flag) : N := N.lor (N.shiftl num 3 mod two64) (flag_to_raw f).
(** frame.rs:226-239 [append_new]. *)
Definition append_new (out : bytes) (num : N) (name : option bytes) : bytes :=
  append_frame out (header_of num NewStream) match name with Some n => n | None => [] end.
(** frame.rs:241-252 [append_message]. *)
Definition append_message (out : bytes) (s : stream_id) (data : bytes) : bytes :=
  append_frame out (match s with Receiver n => header_of n MessageReceiver
                            | Initiator n => header_of n MessageInitiator end) data.
(** frame.rs:254-264 [append_close]. *)
Definition append_close (out : bytes) (s : stream_id) : bytes :=
  append_frame out (match s with Receiver n => header_of n CloseReceiver
                            | Initiator n => header_of n CloseInitiator end) [].

(** ** stream.rs *)
(** A task, as identified by its waker. *)
Definition task := N.
(** stream.rs:34-38 [MplexStreams] and 123-130 [MplexShared].  [sh_woken] records the tasks
    on which [wake] was called; [sh_transport] is the task whose waker the transport holds:
    set when a read is answered with [Pending], cleared when reading a frame comes to a
    result. *)
Record shared := {
  sh_frames : frame_stream; sh_no_more : bool; sh_incoming : option frame; sh_next : N;
  sh_closed : bool; sh_accept : option task; sh_readers : list (stream_id * option task);
  sh_writers : list stream_id; sh_woken : list task; sh_transport : option task }.
(** stream.rs:133-143 [MplexShared::new]. *)
Definition shared_new : shared :=
  {| sh_frames := frame_stream_new; sh_no_more := false; sh_incoming := None; sh_next := 33;
     sh_closed := false; sh_accept := None; sh_readers := []; sh_writers := []; sh_woken := [];
     sh_transport := None |}.

(** Record updates. *)
Definition with_frames (s : shared) (f : frame_stream) : shared :=
  {| sh_frames := f; sh_no_more := sh_no_more s; sh_incoming := sh_incoming s; sh_next := sh_next s;
     sh_closed := sh_closed s; sh_accept := sh_accept s; sh_readers := sh_readers s;
     sh_writers := sh_writers s; sh_woken := sh_woken s; sh_transport := sh_transport s |}.
Definition with_no_more (s : shared) : shared :=
  {| sh_frames := sh_frames s; sh_no_more := true; sh_incoming := sh_incoming s; sh_next := sh_next s;
     sh_closed := sh_closed s; sh_accept := sh_accept s; sh_readers := sh_readers s;
     sh_writers := sh_writers s; sh_woken := sh_woken s; sh_transport := sh_transport s |}.
Definition with_incoming (s : shared) (i : option frame) : shared :=
  {| sh_frames := sh_frames s; sh_no_more := sh_no_more s; sh_incoming := i; sh_next := sh_next s;
     sh_closed := sh_closed s; sh_accept := sh_accept s; sh_readers := sh_readers s;
     sh_writers := sh_writers s; sh_woken := sh_woken s; sh_transport := sh_transport s |}.
Definition with_next (s : shared) (n : N) : shared :=
  {| sh_frames := sh_frames s; sh_no_more := sh_no_more s; sh_incoming := sh_incoming s; sh_next := n;
     sh_closed := sh_closed s; sh_accept := sh_accept s; sh_readers := sh_readers s;
     sh_writers := sh_writers s; sh_woken := sh_woken s; sh_transport := sh_transport s |}.
Definition with_accept (s : shared) (a : option task) (woken : list task) : shared :=
  {| sh_frames := sh_frames s; sh_no_more := sh_no_more s; sh_incoming := sh_incoming s; sh_next := sh_next s;
     sh_closed := sh_closed s; sh_accept := a; sh_readers := sh_readers s;
     sh_writers := sh_writers s; sh_woken := sh_woken s ++ woken; sh_transport := sh_transport s |}.
Definition with_readers (s : shared) (r : list (stream_id * option task)) (woken : list task) : shared :=
  {| sh_frames := sh_frames s; sh_no_more := sh_no_more s; sh_incoming := sh_incoming s; sh_next := sh_next s;
     sh_closed := sh_closed s; sh_accept := sh_accept s; sh_readers := r;
     sh_writers := sh_writers s; sh_woken := sh_woken s ++ woken; sh_transport := sh_transport s |}.
Definition with_writers (s : shared) (w : list stream_id) : shared :=
  {| sh_frames := sh_frames s; sh_no_more := sh_no_more s; sh_incoming := sh_incoming s; sh_next := sh_next s;
     sh_closed := sh_closed s; sh_accept := sh_accept s; sh_readers := sh_readers s;
     sh_writers := w; sh_woken := sh_woken s; sh_transport := sh_transport s |}.
Definition with_transport (s : shared) (t : option task) : shared :=
  {| sh_frames := sh_frames s; sh_no_more := sh_no_more s; sh_incoming := sh_incoming s; sh_next := sh_next s;
     sh_closed := sh_closed s; sh_accept := sh_accept s; sh_readers := sh_readers s;
     sh_writers := sh_writers s; sh_woken := sh_woken s; sh_transport := t |}.

(** [HashMap] operations on the readers. *)
Fixpoint reader_get (r : list (stream_id * option task)) (s : stream_id) : option (option task) :=
  match r with
  | [] => None
  | (k, w) :: t => if sid_eqb k s then Some w else reader_get t s
  end.
Definition reader_remove (r : list (stream_id * option task)) (s : stream_id) :=
  filter (fun kw => negb (sid_eqb (fst kw) s)) r.
Definition reader_insert (r : list (stream_id * option task)) (s : stream_id) (w : option task) :=
  (s, w) :: reader_remove r s.
Definition reader_set (r : list (stream_id * option task)) (s : stream_id) (w : option task) :=
  map (fun kw => if sid_eqb (fst kw) s then (fst kw, w) else kw) r.
Definition opt_list {A} (o : option A) : list A := match o with Some a => [a] | None => [] end.

(** stream.rs:49-53 [wake_accept]. *)
Definition wake_accept (s : shared) : shared := with_accept s None (opt_list (sh_accept s)).
(** stream.rs:55-57 [set_accept_waker]. *)
Definition set_accept_waker (s : shared) (t : task) : shared := with_accept s (Some t) [].
(** stream.rs:59-65 [wake_reader]. *)
Definition wake_reader (s : shared) (i : stream_id) : shared :=
  match reader_get (sh_readers s) i with
  | Some w => with_readers s (reader_set (sh_readers s) i None) (opt_list w)
  | None => s
  end.
(** stream.rs:67-71 [set_read_waker]. *)
Definition set_read_waker (s : shared) (i : stream_id) (t : task) : shared :=
  with_readers s (reader_set (sh_readers s) i (Some t)) [].
(** stream.rs:73-80 [wake_all_readers]. *)
Definition wake_all_readers (s : shared) : shared :=
  let s := wake_accept s in
  with_readers s (map (fun kw => (fst kw, None)) (sh_readers s))
    (flat_map (fun kw => opt_list (snd kw)) (sh_readers s)).
(** stream.rs:82-88 [add]. *)
Definition add_stream (s : shared) (i : stream_id) : shared :=
  let s := with_readers s (reader_insert (sh_readers s) i None) [] in
  with_writers s (i :: filter (fun k => negb (sid_eqb k i)) (sh_writers s)).
(** stream.rs:90-94 [remove_reader]. *)
Definition remove_reader (s : shared) (i : stream_id) : shared :=
  wake_all_readers (with_readers s (reader_remove (sh_readers s) i) []).
(** stream.rs:96-99 [remove_writer]. *)
Definition remove_writer (s : shared) (i : stream_id) : shared :=
  with_writers s (filter (fun k => negb (sid_eqb k i)) (sh_writers s)).
(** stream.rs:101-103 [have_reader]. *)
Definition have_reader (s : shared) (i : stream_id) : bool :=
  match reader_get (sh_readers s) i with Some _ => true | None => false end.

(** stream.rs:145-148 [want_another_frame]. *)
Definition want_another_frame (s : shared) : shared := wake_all_readers (with_incoming s None).

(** stream.rs:230-271 [poll_fill_incoming].  Fuel: every frame takes at least two bytes of
    what is buffered or still to come; [None] (out of fuel) is excluded by the theorems. *)
Fixpoint fill_loop (fuel : nat) (s : shared) (t : task) (answers : list answer)
  : option (poll (outcome ioerr unit)) * shared * list answer :=
  match fuel with
  | O => (None, s, answers)
  | S fuel =>
    if sh_closed s then (Some (Done (Err BrokenPipe)), s, answers)
    else
      let keep := match sh_incoming s with
                  | Some f => op_eqb (f_op f) New || have_reader s (f_id f)
                  | None => false
                  end in
      if keep then (Some (Done (Ok tt)), s, answers)
      else
        let s := with_incoming s None in
        let '(r, fs, answers) := poll_read_frame (sh_frames s) answers in
        let s := with_transport (with_frames s fs) None in
        match r with
        | Wait => (Some Wait, with_transport s (Some t), answers)
        | Done (Err e) => (Some (Done (Err e)), s, answers)
        | Done Panic => (Some (Done Panic), s, answers)
        | Done (Ok None) => (Some (Done (Ok tt)), wake_all_readers (with_no_more s), answers)
        | Done (Ok (Some f)) =>
          let s := match f_op f with New => wake_accept s | _ => wake_reader s (f_id f) end in
          fill_loop fuel (with_incoming s (Some f)) t answers
        end
  end.
(** All the data the transport will still deliver. *)
Fixpoint data_of (answers : list answer) : bytes :=
  match answers with
  | [] => []
  | ARead d :: t => d ++ data_of t
  | _ :: t => data_of t
  end.
Definition poll_fill_incoming (s : shared) (t : task) (answers : list answer) :=
  fill_loop (S (S (length (fs_in (sh_frames s) ++ data_of answers)))) s t answers.

(** stream.rs:150-179 [poll_accept_id]. *)
Definition poll_accept_id (s : shared) (t : task) (answers : list answer)
  : option (poll (outcome ioerr (option stream_id))) * shared * list answer :=
  let '(r, s, answers) := poll_fill_incoming s t answers in
  match r with
  | None => (None, s, answers)
  | Some Wait => (Some Wait, set_accept_waker s t, answers)
  | Some (Done (Err e)) => (Some (Done (Err e)), s, answers)
  | Some (Done Panic) => (Some (Done Panic), s, answers)
  | Some (Done (Ok _)) =>
    match sh_incoming s with
    | Some f =>
      if op_eqb (f_op f) New then
        (Some (Done (Ok (Some (f_id f)))), want_another_frame (add_stream s (f_id f)), answers)
      else (Some Wait, set_accept_waker s t, answers)
    | None => (Some (Done (Ok None)), s, answers)
    end
  end.

(** stream.rs:181-228 [poll_read] into a buffer with [room] free bytes: the bytes put. *)
Definition poll_read (s : shared) (i : stream_id) (t : task) (room : nat) (answers : list answer)
  : option (poll (outcome ioerr bytes)) * shared * list answer :=
  let '(r, s, answers) := poll_fill_incoming s t answers in
  match r with
  | None => (None, s, answers)
  | Some Wait => (Some Wait, set_read_waker s i t, answers)
  | Some (Done (Err e)) => (Some (Done (Err e)), s, answers)
  | Some (Done Panic) => (Some (Done Panic), s, answers)
  | Some (Done (Ok _)) =>
    match sh_incoming s with
    | Some f =>
      if sid_eqb (f_id f) i then
        if op_eqb (f_op f) Close then (Some (Done (Ok [])), want_another_frame s, answers)
        else
          let amt := Nat.min (length (f_data f)) room in
          let rest := skipn amt (f_data f) in
          let s := with_incoming s (Some {| f_id := f_id f; f_op := f_op f; f_data := rest |}) in
          let s := match rest with [] => want_another_frame s | _ => s end in
          (Some (Done (Ok (firstn amt (f_data f)))), s, answers)
      else (Some Wait, set_read_waker s i t, answers)
    | None => (Some (Done (Ok [])), s, answers)
    end
  end.

(** stream.rs:273-283 [append_new]; the stream number counts up (in 64 bits). *)
Definition shared_append_new (s : shared) (name : option bytes) : outcome ioerr (stream_id * shared) :=
  let num := sh_next s in
  if two64 <=? num + 1 then Panic
  else
    let s := add_stream (with_next s (num + 1)) (Receiver num) in
    let fs := sh_frames s in
    Ok (Receiver num, with_frames s {| fs_in := fs_in fs; fs_out := append_new (fs_out fs) num name; fs_eof := fs_eof fs |}).

(** [FrameStream::poll_drain] inside the shared state. *)
Definition shared_drain (s : shared) (w : list wanswer) : poll (outcome ioerr unit) * shared * list wanswer * bytes :=
  let fs := sh_frames s in
  let '(r, out, w, sent) := poll_drain (fs_out fs) w in
  (r, with_frames s {| fs_in := fs_in fs; fs_out := out; fs_eof := fs_eof fs |}, w, sent).
Definition with_out (s : shared) (out : bytes) : shared :=
  let fs := sh_frames s in with_frames s {| fs_in := fs_in fs; fs_out := out; fs_eof := fs_eof fs |}.

(** stream.rs:306-331 [Connect::poll]; [known] is the stream id kept in the future. *)
Definition connect_poll (s : shared) (known : option stream_id) (name : option bytes) (w : list wanswer)
  : poll (outcome ioerr stream_id) * option stream_id * shared * list wanswer * bytes :=
  match (match known with
         | Some i => Ok (i, s)
         | None => shared_append_new s name
         end) with
  | Ok (i, s) =>
    let '(r, s, w, sent) := shared_drain s w in
    (match r with
     | Wait => Wait
     | Done (Ok _) => Done (Ok i)
     | Done (Err e) => Done (Err e)
     | Done Panic => Done Panic
     end, Some i, s, w, sent)
  | Err e => (Done (Err e), known, s, w, [])
  | Panic => (Done Panic, known, s, w, [])
  end.

(** stream.rs:429-447 [StreamWriter::poll_drain]; [werr] is [write_error]. *)
Definition writer_drain (s : shared) (werr : option ioerr) (w : list wanswer)
  : poll (outcome ioerr unit) * option ioerr * shared * list wanswer * bytes :=
  match werr with
  | Some e => (Done (Err e), werr, s, w, [])
  | None =>
    let '(r, s, w, sent) := shared_drain s w in
    (r, match r with Done (Err e) => Some e | _ => None end, s, w, sent)
  end.
(** stream.rs:458-472 [StreamWriter::poll_write]. *)
Definition writer_write (s : shared) (i : stream_id) (werr : option ioerr) (buf : bytes) (w : list wanswer)
  : poll (outcome ioerr nat) * option ioerr * shared * list wanswer * bytes :=
  let '(r, werr, s, w, sent) := writer_drain s werr w in
  match r with
  | Wait => (Wait, werr, s, w, sent)
  | Done (Err e) => (Done (Err e), werr, s, w, sent)
  | Done Panic => (Done Panic, werr, s, w, sent)
  | Done (Ok _) =>
    (Done (Ok (length buf)), werr, with_out s (append_message (fs_out (sh_frames s)) (inverse i) buf), w, sent)
  end.
(** stream.rs:474-479 [StreamWriter::poll_flush]. *)
Definition writer_flush := writer_drain.
(** stream.rs:481-495 [StreamWriter::poll_shutdown]. *)
Definition writer_shutdown (s : shared) (i : stream_id) (werr : option ioerr) (w : list wanswer)
  : poll (outcome ioerr unit) * option ioerr * shared * list wanswer * bytes :=
  let '(r, werr, s, w, sent) := writer_drain s werr w in
  match r with
  | Wait => (Wait, werr, s, w, sent)
  | Done (Err e) => (Done (Err e), werr, s, w, sent)
  | Done Panic => (Done Panic, werr, s, w, sent)
  | Done (Ok _) =>
    (Done (Ok tt), Some BrokenPipe, with_out s (append_close (fs_out (sh_frames s)) (inverse i)), w, sent)
  end.
