(** Model of src/bin/download.rs: the peer wire messages of BitTorrent, and the reader and
    writer of one peer connection, which run side by side.

    Simplifications: printing is left out; the texts of errors are constructors; the reader
    of the socket is a list of what its reads will find, as in LpioModel.v. *)
From Verif Require Import Base MplexModel LpioModel.

(** The errors of this file: of the socket, or the text made by a [format!]. *)
Inductive derror := DIo (e : ioerr) | DLength (len : N) | DProtocol (text : bytes) | DBody (id len : N).

(** [read_exact] (tokio) of [n] bytes: [got] is what was read so far.  Fuel: every read but
    the last brings at least one byte. *)
Fixpoint exact_loop (fuel n : nat) (got : bytes) (src : list item) : option (outcome ioerr bytes) * list item :=
  match fuel with
  | O => (None, src)
  | S fuel =>
    if (length got <? n)%nat then
      match await_read (S (length src)) None (n - length got) src with
      | (None, _, src) => (None, src)
      | (Some (Ok []), _, src) => (Some (Err UnexpectedEof), src)
      | (Some (Ok d), _, src) => exact_loop fuel n (got ++ d) src
      | (Some (Err e), _, src) => (Some (Err e), src)
      | (Some Panic, _, src) => (Some Panic, src)
      end
    else (Some (Ok got), src)
  end.
Definition read_exact (n : nat) (src : list item) : option (outcome ioerr bytes) * list item := exact_loop (S n) n [] src.

(** download.rs:153-156 [HandshakeMessage]. *)
Record handshake := { hs_info_hash : bytes; hs_peer_id : bytes }.
Definition protocol_name : bytes := ascii_bytes "BitTorrent protocol".
(** download.rs:158-168 [send_handshake]: what is written. *)
Definition send_handshake (h : handshake) : bytes := [19] ++ protocol_name ++ repeat 0 8 ++ hs_info_hash h ++ hs_peer_id h.
(** download.rs:170-189 [recv_handshake]. *)
Definition recv_handshake (src : list item) : option (outcome derror handshake) * list item :=
  match read_exact 68 src with
  | (None, src) => (None, src)
  | (Some (Err e), src) => (Some (Err (DIo e)), src)
  | (Some Panic, src) => (Some Panic, src)
  | (Some (Ok buf), src) =>
    (Some (if negb (nth 0 buf 0 =? 19) then Err (DLength (nth 0 buf 0))
           else if negb (bytes_eqb (firstn 19 (skipn 1 buf)) protocol_name) then Err (DProtocol (firstn 19 (skipn 1 buf)))
           else Ok {| hs_info_hash := firstn 20 (skipn 28 buf); hs_peer_id := firstn 20 (skipn 48 buf) |}), src)
  end.

(** download.rs:191-202 [Message]. *)
Inductive pmessage :=
| KeepAlive | Choke | Unchoke | Interested | NotInterested
| Have (index : N) | BitField (bits : bytes) | Piece (index begin : N) (block : bytes) | Unknown (id : N) (body : bytes).
(** download.rs:204 [BUFSIZE]. *)
Definition bufsize : N := 4.
(** download.rs:219-228: the loop of [read_message_raw].  Fuel: the number of rounds; the loop
    itself has no bound, so [None] means that it is still running after that many. *)
Fixpoint raw_loop (fuel : nat) (len : N) (body : bytes) (src : list item) : option (outcome ioerr bytes) * list item :=
  match fuel with
  | O => (None, src)
  | S fuel =>
    if blen body <? len then
      let remaining := len - blen body in
      let toread := if bufsize <? remaining then bufsize else remaining in
      match await_read (S (length src)) None (N.to_nat toread) src with
      | (None, _, src) => (None, src)
      | (Some (Ok d), _, src) => raw_loop fuel len (body ++ d) src
      | (Some (Err e), _, src) => (Some (Err e), src)
      | (Some Panic, _, src) => (Some Panic, src)
      end
    else (Some (Ok body), src)
  end.
(** download.rs:206-231 [read_message_raw]. *)
Definition read_message_raw (fuel : nat) (src : list item) : option (outcome ioerr bytes) * list item :=
  match read_exact 4 src with
  | (Some (Ok len_buf), src) => raw_loop fuel (of_be_bytes len_buf) [] src
  | other => other
  end.
(** download.rs:240-307: the message in a body. *)
Definition decode_body (body : bytes) : outcome derror pmessage :=
  match body with
  | [] => Ok KeepAlive
  | id :: body =>
    let empty m := if (length body =? 0)%nat then Ok m else Err (DBody id (blen body)) in
    match id with
    | 0 => empty Choke
    | 1 => empty Unchoke
    | 2 => empty Interested
    | 3 => empty NotInterested
    | 4 => if negb (length body =? 4)%nat then Err (DBody 4 (blen body)) else Ok (Have (of_be_bytes (firstn 4 body)))
    | 5 => Ok (BitField body)
    | 7 =>
      if (length body <? 8)%nat then Err (DBody 7 (blen body))
      else Ok (Piece (of_be_bytes (firstn 4 body)) (of_be_bytes (firstn 4 (skipn 4 body))) (skipn 8 body))
    | _ => Ok (Unknown id body)
    end
  end.
(** download.rs:235-308 [read_message]. *)
Definition read_peer_message (fuel : nat) (src : list item) : option (outcome derror pmessage) * list item :=
  match read_message_raw fuel src with
  | (None, src) => (None, src)
  | (Some (Ok body), src) => (Some (decode_body body), src)
  | (Some (Err e), src) => (Some (Err (DIo e)), src)
  | (Some Panic, src) => (Some Panic, src)
  end.

(** download.rs:53-55 [bitfield_bytes_required]. *)
Definition bitfield_bytes_required (pieces : N) : N := (pieces + 8 - 1) / 8.
(** download.rs:335-340 [write_raw_message]: what is written. *)
Definition raw_message (body : bytes) : bytes := be_bytes 4 (blen body mod two32) ++ body.

(** download.rs:329-333 [WriterAction]. *)
Inductive waction := AInterested | ABitField | ARequest.
(** download.rs:364-402: the body each action writes. *)
Definition action_body (pieces : N) (a : waction) : bytes :=
  match a with
  | AInterested => [2]
  | ABitField => [5] ++ repeat 0 (N.to_nat (bitfield_bytes_required pieces))
  | ARequest => [6] ++ be_bytes 4 0 ++ be_bytes 4 0 ++ be_bytes 4 (16 * 1024)
  end.

(** Where the two loops are. *)
Inductive rplace := RHead | RReading | RDone | RPanicked.
Inductive wplace := WHead | WChoose | WWriting (a : waction) | WFlag (a : waction) | WWait | WDone.
(** download.rs:38-51 [PeerConnection] (the fields that are used), the channel ([d_queue]:
    the commands waiting in it), the two halves of the socket and the places of the loops.
    [d_seen] records the messages received, for the specification only. *)
Record dstate := {
  d_pieces : N; d_disconnect : bool; d_choked : bool; d_interested : bool; d_sent_bitfield : bool; d_active_request : bool;
  d_queue : nat; d_in : list item; d_out : bytes; d_reader : rplace; d_writer : wplace; d_seen : list pmessage }.
(** download.rs:58-75 [PeerConnection::new] and 526-531: the start, with one command queued. *)
Definition d_init (pieces : N) (src : list item) : dstate :=
  {| d_pieces := pieces; d_disconnect := false; d_choked := true; d_interested := false; d_sent_bitfield := false; d_active_request := false;
     d_queue := 1; d_in := src; d_out := []; d_reader := RHead; d_writer := WHead; d_seen := [] |}.

Definition with_reader (s : dstate) (p : rplace) : dstate :=
  {| d_pieces := d_pieces s; d_disconnect := d_disconnect s; d_choked := d_choked s; d_interested := d_interested s; d_sent_bitfield := d_sent_bitfield s;
     d_active_request := d_active_request s; d_queue := d_queue s; d_in := d_in s; d_out := d_out s; d_reader := p; d_writer := d_writer s; d_seen := d_seen s |}.
Definition with_writer (s : dstate) (p : wplace) : dstate :=
  {| d_pieces := d_pieces s; d_disconnect := d_disconnect s; d_choked := d_choked s; d_interested := d_interested s; d_sent_bitfield := d_sent_bitfield s;
     d_active_request := d_active_request s; d_queue := d_queue s; d_in := d_in s; d_out := d_out s; d_reader := d_reader s; d_writer := p; d_seen := d_seen s |}.
Definition with_disconnect (s : dstate) : dstate :=
  {| d_pieces := d_pieces s; d_disconnect := true; d_choked := d_choked s; d_interested := d_interested s; d_sent_bitfield := d_sent_bitfield s;
     d_active_request := d_active_request s; d_queue := d_queue s; d_in := d_in s; d_out := d_out s; d_reader := d_reader s; d_writer := d_writer s; d_seen := d_seen s |}.
Definition with_choked (s : dstate) (c : bool) : dstate :=
  {| d_pieces := d_pieces s; d_disconnect := d_disconnect s; d_choked := c; d_interested := d_interested s; d_sent_bitfield := d_sent_bitfield s;
     d_active_request := d_active_request s; d_queue := d_queue s; d_in := d_in s; d_out := d_out s; d_reader := d_reader s; d_writer := d_writer s; d_seen := d_seen s |}.
Definition with_in (s : dstate) (src : list item) : dstate :=
  {| d_pieces := d_pieces s; d_disconnect := d_disconnect s; d_choked := d_choked s; d_interested := d_interested s; d_sent_bitfield := d_sent_bitfield s;
     d_active_request := d_active_request s; d_queue := d_queue s; d_in := src; d_out := d_out s; d_reader := d_reader s; d_writer := d_writer s; d_seen := d_seen s |}.
Definition with_out (s : dstate) (d : bytes) : dstate :=
  {| d_pieces := d_pieces s; d_disconnect := d_disconnect s; d_choked := d_choked s; d_interested := d_interested s; d_sent_bitfield := d_sent_bitfield s;
     d_active_request := d_active_request s; d_queue := d_queue s; d_in := d_in s; d_out := d_out s ++ d; d_reader := d_reader s; d_writer := d_writer s; d_seen := d_seen s |}.
Definition with_queue (s : dstate) (n : nat) : dstate :=
  {| d_pieces := d_pieces s; d_disconnect := d_disconnect s; d_choked := d_choked s; d_interested := d_interested s; d_sent_bitfield := d_sent_bitfield s;
     d_active_request := d_active_request s; d_queue := n; d_in := d_in s; d_out := d_out s; d_reader := d_reader s; d_writer := d_writer s; d_seen := d_seen s |}.
Definition with_seen (s : dstate) (m : pmessage) : dstate :=
  {| d_pieces := d_pieces s; d_disconnect := d_disconnect s; d_choked := d_choked s; d_interested := d_interested s; d_sent_bitfield := d_sent_bitfield s;
     d_active_request := d_active_request s; d_queue := d_queue s; d_in := d_in s; d_out := d_out s; d_reader := d_reader s; d_writer := d_writer s; d_seen := d_seen s ++ [m] |}.

(** download.rs:110: [self.tx.send(..).unwrap()]; the receiver is dropped when
    [connection_writer] has returned, and then the [unwrap] panics. *)
Definition notify (s : dstate) : dstate :=
  match d_writer s with
  | WDone => with_reader s RPanicked
  | _ => with_queue s (Datatypes.S (d_queue s))
  end.
(** download.rs:80-111 [on_received_message], on the way back to the head of the loop. *)
Definition on_received_message (s : dstate) (m : pmessage) : dstate :=
  match m with
  | Choke => notify (with_choked s true)
  | Unchoke => notify (with_choked s false)
  | BitField b => if negb (blen b =? bitfield_bytes_required (d_pieces s)) then with_disconnect s else notify s
  | _ => notify s
  end.
(** download.rs:346-362: the choice of [writer_iteration]. *)
Definition choose (s : dstate) : option waction :=
  if negb (d_sent_bitfield s) then Some ABitField
  else if negb (d_interested s) then Some AInterested
  else if negb (d_choked s) && negb (d_active_request s) then Some ARequest
  else None.
(** download.rs:369, 382, 399: the flag set after the action. *)
Definition set_flag (s : dstate) (a : waction) : dstate :=
  {| d_pieces := d_pieces s; d_disconnect := d_disconnect s; d_choked := d_choked s;
     d_interested := match a with AInterested => true | _ => d_interested s end;
     d_sent_bitfield := match a with ABitField => true | _ => d_sent_bitfield s end;
     d_active_request := match a with ARequest => true | _ => d_active_request s end;
     d_queue := d_queue s; d_in := d_in s; d_out := d_out s; d_reader := d_reader s; d_writer := d_writer s; d_seen := d_seen s |}.

(** One step of either loop; between two steps the other loop may run.  A step is what happens
    between two places where the code awaits the lock, the socket or the channel. *)
Inductive dstep : dstate -> dstate -> Prop :=
(** download.rs:312-314. *)
| r_stop s : d_reader s = RHead -> d_disconnect s = true -> dstep s (with_reader s RDone)
| r_go s : d_reader s = RHead -> d_disconnect s = false -> dstep s (with_reader s RReading)
(** download.rs:315-319. *)
| r_message s fuel m src : d_reader s = RReading -> read_peer_message fuel (d_in s) = (Some (Ok m), src) ->
    dstep s (on_received_message (with_seen (with_reader (with_in s src) RHead) m) m)
(** download.rs:320-324 and 113-116. *)
| r_error s fuel e src : d_reader s = RReading -> read_peer_message fuel (d_in s) = (Some (Err e), src) ->
    dstep s (with_disconnect (with_reader (with_in s src) RHead))
(** download.rs:415-417. *)
| w_stop s : d_writer s = WHead -> d_disconnect s = true -> dstep s (with_writer s WDone)
| w_go s : d_writer s = WHead -> d_disconnect s = false -> dstep s (with_writer s WChoose)
(** download.rs:346-363 and 404-406. *)
| w_choose s a : d_writer s = WChoose -> choose s = Some a -> dstep s (with_writer s (WWriting a))
| w_nothing s : d_writer s = WChoose -> choose s = None -> dstep s (with_writer s WWait)
(** download.rs:366, 379, 396: the write succeeds, or fails after [k] bytes (421-424 and
    118-121: the loop returns). *)
| w_write s a : d_writer s = WWriting a -> dstep s (with_writer (with_out s (raw_message (action_body (d_pieces s) a))) (WFlag a))
| w_fail s a k : d_writer s = WWriting a -> (k < length (raw_message (action_body (d_pieces s) a)))%nat ->
    dstep s (with_disconnect (with_writer (with_out s (firstn k (raw_message (action_body (d_pieces s) a)))) WDone))
| w_flag s a : d_writer s = WFlag a -> dstep s (with_writer (set_flag s a) WChoose)
(** download.rs:428-430: [recv] waits while the channel is empty; it never ends, since the
    sender is kept in the shared state. *)
| w_recv s n : d_writer s = WWait -> d_queue s = Datatypes.S n -> dstep s (with_writer (with_queue s n) WHead).
(** Any run from the start. *)
Inductive dreach (pieces : N) (src : list item) : dstate -> Prop :=
| d_start : dreach pieces src (d_init pieces src)
| d_next s s' : dreach pieces src s -> dstep s s' -> dreach pieces src s'.
