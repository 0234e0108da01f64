(** Model of src/libp2p/io.rs, src/libp2p/multistream.rs, the service registry of
    src/ipfs/node.rs and the request loop of src/bin/ipfs.rs.

    Simplifications: the reader is a list of what its [poll_read] will find (bytes, breaks
    between reads, pauses, failures); at the end of the list it is at end of file.  A pause
    is a [Pending]: the awaiting task is polled again.  Writing always succeeds (a failing
    write makes every function here return that error at once).  A [Take] (tokio) of a
    [Take] is modelled by one limit, the smaller one, which is what both together amount
    to.  Log output is left out. *)
From Verif Require Import Base VarintModel MplexModel.

Inductive item := Byte (b : N) | Cut | Pause | Fail (e : ioerr).
(** Bytes available without a break, up to [room]. *)
Fixpoint take_bytes (room : nat) (src : list item) : bytes * list item :=
  match room, src with
  | S room, Byte b :: t => let (d, t') := take_bytes room t in (b :: d, t')
  | _, _ => ([], src)
  end.
(** [AsyncRead::poll_read] of the reader with [room] free bytes in the buffer. *)
Fixpoint poll_read_src (room : nat) (src : list item) : poll (outcome ioerr bytes) * list item :=
  match src with
  | [] => (Done (Ok []), [])
  | Cut :: t => poll_read_src room t
  | Pause :: t => (Wait, t)
  | Fail e :: t => (Done (Err e), t)
  | Byte _ :: _ => let (d, t) := take_bytes room src in (Done (Ok d), t)
  end.
(** [Take::poll_read] (tokio), or the reader itself when there is no limit. *)
Definition poll_read_lim (lim : option N) (room : nat) (src : list item) : poll (outcome ioerr bytes) * option N * list item :=
  match lim with
  | None => let (r, t) := poll_read_src room src in (r, None, t)
  | Some 0 => (Done (Ok []), lim, src)
  | Some n =>
    let (r, t) := poll_read_src (Nat.min room (N.to_nat n)) src in
    (r, match r with Done (Ok d) => Some (n - blen d) | _ => lim end, t)
  end.

(** io.rs:22-63 [ReadOptVarInt::poll]: [d] and [num] are the decoder and [num_bytes] kept in
    the future.  Fuel: each round takes something from the reader. *)
Fixpoint opt_varint_poll (fuel : nat) (d : u64_decoder) (num : nat) (lim : option N) (src : list item)
  : option (poll (outcome ioerr (option N))) * u64_decoder * nat * option N * list item :=
  match fuel with
  | O => (None, d, num, lim, src)
  | S fuel =>
    match poll_read_lim lim 1 src with
    | (Wait, lim, src) => (Some Wait, d, num, lim, src)
    | (Done (Err UnexpectedEof), lim, src) =>
      (Some (Done (if (num =? 0)%nat then Ok None else Err UnexpectedEof)), d, num, lim, src)
    | (Done (Err e), lim, src) => (Some (Done (Err e)), d, num, lim, src)
    | (Done Panic, lim, src) => (Some (Done Panic), d, num, lim, src)
    | (Done (Ok []), lim, src) =>
      (Some (Done (if (num =? 0)%nat then Ok None else Err UnexpectedEof)), d, num, lim, src)
    | (Done (Ok (b :: _)), lim, src) =>
      match decoder_input d b with
      | (d, Finished v) => (Some (Done (Ok (Some v))), d, S num, lim, src)
      | (d, DOverflow) => (Some (Done (Err InvalidData)), d, S num, lim, src)
      | (d, Pending) => opt_varint_poll fuel d (S num) lim src
      end
    end
  end.
(** Awaiting it. *)
Fixpoint opt_varint_await (fuel : nat) (d : u64_decoder) (num : nat) (lim : option N) (src : list item)
  : option (outcome ioerr (option N)) * option N * list item :=
  match fuel with
  | O => (None, lim, src)
  | S fuel =>
    match opt_varint_poll (S (length src)) d num lim src with
    | (None, _, _, lim, src) => (None, lim, src)
    | (Some Wait, d, num, lim, src) => opt_varint_await fuel d num lim src
    | (Some (Done r), _, _, lim, src) => (Some r, lim, src)
    end
  end.
(** io.rs:65-73 [read_opt_varint], awaited. *)
Definition read_opt_varint (lim : option N) (src : list item) : option (outcome ioerr (option N)) * option N * list item :=
  opt_varint_await (S (length src)) decoder_new 0 lim src.
(** [ok_or_else(UnexpectedEof)] as used by io.rs:75-80 and 112-117. *)
Definition or_eof {A} (r : outcome ioerr (option A)) : outcome ioerr A :=
  match r with Ok (Some a) => Ok a | Ok None => Err UnexpectedEof | Err e => Err e | Panic => Panic end.
(** io.rs:75-80 [read_varint]. *)
Definition read_varint (lim : option N) (src : list item) : option (outcome ioerr N) * option N * list item :=
  let '(r, lim, src) := read_opt_varint lim src in (option_map or_eof r, lim, src).

(** [reader.read(&mut buf).await] (tokio): the next read that is not pending. *)
Fixpoint await_read (fuel : nat) (lim : option N) (room : nat) (src : list item) : option (outcome ioerr bytes) * option N * list item :=
  match fuel with
  | O => (None, lim, src)
  | S fuel =>
    match poll_read_lim lim room src with
    | (Wait, lim, src) => await_read fuel lim room src
    | (Done r, lim, src) => (Some r, lim, src)
    end
  end.
(** [a.take(n)]: the limit of the adapter; and the limit of what is under it, after [used]
    bytes. *)
Definition limited (lim : option N) (n : N) : option N := Some (match lim with None => n | Some m => N.min m n end).
Definition after (lim : option N) (used : N) : option N := match lim with None => None | Some m => Some (m - used) end.
(** io.rs:101-108: the loop. *)
Fixpoint body_loop (fuel : nat) (expected : N) (got : bytes) (lim : option N) (src : list item)
  : option (outcome ioerr bytes) * bytes * list item :=
  match fuel with
  | O => (None, got, src)
  | S fuel =>
    if blen got <? expected then
      match await_read (S (length src)) lim 1024 src with
      | (None, _, src) => (None, got, src)
      | (Some (Ok []), _, src) => (Some (Err UnexpectedEof), got, src)
      | (Some (Ok d), lim, src) => body_loop fuel expected (got ++ d) lim src
      | (Some (Err e), _, src) => (Some (Err e), got, src)
      | (Some Panic, _, src) => (Some Panic, got, src)
      end
    else (Some (Ok got), got, src)
  end.
(** io.rs:91-110 [read_opt_length_prefixed_data]. *)
Definition read_opt_message (lim : option N) (src : list item) : option (outcome ioerr (option bytes)) * option N * list item :=
  match read_opt_varint lim src with
  | (None, lim, src) => (None, lim, src)
  | (Some (Ok None), lim, src) => (Some (Ok None), lim, src)
  | (Some (Err e), lim, src) => (Some (Err e), lim, src)
  | (Some Panic, lim, src) => (Some Panic, lim, src)
  | (Some (Ok (Some expected)), lim, src) =>
    let '(r, got, src') := body_loop (S (length src)) expected [] (limited lim expected) src in
    (match r with
     | None => None
     | Some (Ok d) => Some (Ok (Some d))
     | Some (Err e) => Some (Err e)
     | Some Panic => Some Panic
     end, after lim (blen got), src')
  end.
(** io.rs:112-117 [read_length_prefixed_data]. *)
Definition read_message (lim : option N) (src : list item) : option (outcome ioerr bytes) * option N * list item :=
  let '(r, lim, src) := read_opt_message lim src in (option_map or_eof r, lim, src).
(** io.rs:119-127 [write_length_prefixed_data] (82-89 [write_varint] likewise): the bytes
    written. *)
Definition write_message (data : bytes) : bytes := encode_usize (blen data) ++ data.

(** multistream.rs:6-9 [SelectResponse]. *)
Inductive select_response := Accepted | Unsupported.
Definition na : bytes := ascii_bytes "na" ++ [10].
(** multistream.rs:21-39 [multistream_select]: the result, what is written, and the reader
    afterwards. *)
Definition multistream_select (protocol : bytes) (src : list item) : option (outcome ioerr select_response) * bytes * list item :=
  match read_message None src with
  | (r, _, src) =>
    (match r with
     | None => None
     | Some (Ok data) =>
       if bytes_eqb data protocol then Some (Ok Accepted)
       else if bytes_eqb data na then Some (Ok Unsupported)
       else Some (Err InvalidData)
     | Some (Err e) => Some (Err e)
     | Some Panic => Some Panic
     end, write_message protocol, src)
  end.
Definition multistream_header : bytes := ascii_bytes "/multistream/1.0.0" ++ [10].
(** multistream.rs:11-19 [multistream_handshake]. *)
Definition multistream_handshake (src : list item) : option (outcome ioerr unit) * bytes * list item :=
  let '(r, out, src) := multistream_select multistream_header src in
  (match r with
   | None => None
   | Some (Ok Accepted) => Some (Ok tt)
   | Some (Ok Unsupported) => Some (Err InvalidData)
   | Some (Err e) => Some (Err e)
   | Some Panic => Some Panic
   end, out, src).
(** multistream.rs:56-69: the loop of [multistream_list]; [lossy] is [String::from_utf8_lossy]. *)
Fixpoint list_loop (lossy : bytes -> bytes) (fuel : nat) (lim : option N) (src : list item)
  : option (outcome ioerr (list bytes)) * list item :=
  match fuel with
  | O => (None, src)
  | S fuel =>
    match read_message lim src with
    | (None, _, src) => (None, src)
    | (Some (Ok p), lim, src) =>
      let (r, src) := list_loop lossy fuel lim src in
      (match r with Some (Ok l) => Some (Ok (lossy p :: l)) | other => other end, src)
    | (Some (Err UnexpectedEof), _, src) => (Some (Ok []), src)
    | (Some (Err e), _, src) => (Some (Err e), src)
    | (Some Panic, _, src) => (Some Panic, src)
    end
  end.
(** multistream.rs:41-72 [multistream_list]. *)
Definition max_ls_response_size : N := 65536.
Definition multistream_list (lossy : bytes -> bytes) (src : list item) : option (outcome ioerr (list bytes)) * bytes * list item :=
  let out := write_message (ascii_bytes "ls" ++ [10]) in
  match read_varint None src with
  | (None, _, src) => (None, out, src)
  | (Some (Err e), _, src) => (Some (Err e), out, src)
  | (Some Panic, _, src) => (Some Panic, out, src)
  | (Some (Ok response_len), _, src) =>
    if max_ls_response_size <? response_len then (Some (Err InvalidData), out, src)
    else let (r, src) := list_loop lossy (S (length src)) (limited None response_len) src in (r, out, src)
  end.

(** node.rs:23-31 [Service], [ServiceRegistry]; a handler is known by its index. *)
Record service (H : Type) := { svc_name : bytes; svc_bname : bytes; svc_handler : H }.
Arguments svc_name {H}. Arguments svc_bname {H}. Arguments svc_handler {H}.
(** node.rs:41-47 [add]. *)
Definition registry_add {H} (entries : list (service H)) (name : bytes) (h : H) : list (service H) :=
  entries ++ [{| svc_name := name; svc_bname := name ++ [10]; svc_handler := h |}].
(** node.rs:49-56 [lookup]. *)
Fixpoint registry_lookup {H} (entries : list (service H)) (bname : bytes) : option H :=
  match entries with
  | [] => None
  | s :: t => if bytes_eqb (svc_bname s) bname then Some (svc_handler s) else registry_lookup t bname
  end.
Definition id_protocol : bytes := ascii_bytes "/ipfs/id/1.0.0" ++ [10].
(** bin/ipfs.rs:82-110: the request loop of [connection_handler2]: the result (the handler
    the stream is handed to, if any), what is written, and the rest of the stream. *)
Fixpoint request_loop {H} (fuel : nat) (entries : list (service H)) (src : list item)
  : option (outcome ioerr (option H)) * bytes * list item :=
  match fuel with
  | O => (None, [], src)
  | S fuel =>
    match read_opt_message None src with
    | (None, _, src) => (None, [], src)
    | (Some (Err e), _, src) => (Some (Err e), [], src)
    | (Some Panic, _, src) => (Some Panic, [], src)
    | (Some (Ok None), _, src) => (Some (Ok None), [], src)
    | (Some (Ok (Some data)), _, src) =>
      match registry_lookup entries data with
      | Some h => (Some (Ok (Some h)), write_message id_protocol, src)
      | None =>
        let '(r, out, src) := request_loop fuel entries src in (r, write_message na ++ out, src)
      end
    end
  end.
(** bin/ipfs.rs:75-110 [connection_handler2]. *)
Definition connection_handler2 {H} (entries : list (service H)) (src : list item)
  : option (outcome ioerr (option H)) * bytes * list item :=
  let '(r, out, src) := multistream_handshake src in
  match r with
  | None => (None, out, src)
  | Some (Err e) => (Some (Err e), out, src)
  | Some Panic => (Some Panic, out, src)
  | Some (Ok _) => let '(r, out', src) := request_loop (S (length src)) entries src in (r, out ++ out', src)
  end.
