(** Model of everything that src/bin/download.rs prints.  The program is that of
    DownloadModel.v and DownloadMainModel.v; here every step comes with what it prints.

    The line of 237 is printed when a message has been read, before the lock is taken, so the
    other loop may print between it and the lines about the message: reading and handling a
    message are two steps here.  Printing is taken to succeed.  Parameters: [io], the text of
    an I/O error; [lossy], [String::from_utf8_lossy]; [show], the text of a socket address.
    Not modelled: the text of the errors of the file, of name lookup and of connecting, and
    what Rust prints for an error returned by [main] or for a panic. *)
From Coq Require Import String Ascii.
From Verif Require Import Base UtilModel ChatModel TorrentModel MplexModel LpioModel DownloadModel BencodePathModel AnnounceModel DownloadMainModel DebugModel.
Local Open Scope string_scope. Local Open Scope list_scope. Local Open Scope N_scope.

(** What is printed, one line each. *)
Inductive saying :=
| SRead (len : N) | SMessage (m : pmessage) | SBadField (expected got : N) | SStatus (choked interested : bool) (pieces : N)
| SReceiveError (text : bytes) | SSendError (text : bytes) | SSent (a : waction) | SFinished.
(** download.rs:191 the derived [Debug] of [Message], for the messages it is used on (106). *)
Definition dmessage (m : pmessage) : dbg :=
  match m with
  | KeepAlive => dtext (ascii_bytes "KeepAlive") | Choke => dtext (ascii_bytes "Choke") | Unchoke => dtext (ascii_bytes "Unchoke")
  | Interested => dtext (ascii_bytes "Interested") | NotInterested => dtext (ascii_bytes "NotInterested")
  | Have i => dtuple "Have" [dnumber i] | BitField b => dtuple "BitField" [dvec dnumber b]
  | Piece i b d => dtuple "Piece" [dnumber i; dnumber b; dvec dnumber d] | Unknown id b => dtuple "Unknown" [dnumber id; dvec dnumber b]
  end.
(** download.rs:84, 88, 92, 102-106: the line of a message. *)
Definition message_line (m : pmessage) : bytes :=
  match m with
  | Choke => ascii_bytes "Choke"
  | Unchoke => ascii_bytes "Unchoke"
  | BitField b => ascii_bytes "BitField: " ++ to_hex b
  | Piece i b d => ascii_bytes "Piece index= " ++ decimal i ++ ascii_bytes ", begin= " ++ decimal b ++ ascii_bytes ", block= " ++ to_hex d
  | _ => ascii_bytes "Don't know how to handle message: " ++ plain (dmessage m)
  end.
(** download.rs:123-141 [print_status].  Nothing is ever added to [they_have] and [we_have],
    so their lengths are 0. *)
Definition status_line (choked interested : bool) (pieces : N) : bytes :=
  ascii_bytes "Peer status: " ++ ascii_bytes (if choked then "C" else "U") ++ ascii_bytes (if interested then " I" else " N") ++
  ascii_bytes " them " ++ decimal 0 ++ ascii_bytes "/" ++ decimal pieces ++ ascii_bytes " us " ++ decimal 0 ++ ascii_bytes "/" ++ decimal pieces.
(** download.rs:96 and 237; 114 and 119; 366, 378, 396; 536. *)
Definition saying_line (s : saying) : bytes :=
  match s with
  | SRead len => ascii_bytes "read_message: body.len() = " ++ decimal len
  | SMessage m => message_line m
  | SBadField expected got => ascii_bytes "Invalid bitfield length: expected " ++ decimal expected ++ ascii_bytes ", got " ++ decimal got
  | SStatus c i n => status_line c i n
  | SReceiveError t => ascii_bytes "Error while receiving message: " ++ t
  | SSendError t => ascii_bytes "Error while sending message: " ++ t
  | SSent AInterested => ascii_bytes "connection_writer: sent interested"
  | SSent ABitField => ascii_bytes "connection_writer: sent bitfield"
  | SSent ARequest => ascii_bytes "connection_writer: sent request"
  | SFinished => ascii_bytes "Finished"
  end.
Definition log_text (l : list saying) : bytes := flat_map (fun s => line (saying_line s)) l.

Section Texts.
Context (io : ioerr -> bytes) (lossy : bytes -> bytes) (show : addr -> bytes).
(** download.rs:174, 177, 249, 255, 261, 267, 273, 287: the texts of the errors. *)
Definition derror_text (e : derror) : bytes :=
  match e with
  | DIo e => io e
  | DLength n => ascii_bytes "Expected " ++ decimal n ++ ascii_bytes " as string length, expected 19"
  | DProtocol d => ascii_bytes "Incorrect protocol; got " ++ lossy d
  | DBody id len =>
    let body name expected := ascii_bytes name ++ ascii_bytes " body: " ++ decimal len ++ ascii_bytes " bytes, expected " ++ ascii_bytes expected in
    match id with
    | 0 => body "Choke" "0" | 1 => body "Unchoke" "0" | 2 => body "Interested" "0" | 3 => body "NotInterested" "0"
    | 4 => body "Have" "4" | _ => body "Have" ">= 8"
    end
  end.

(** A message that was read and is not yet handled, with what is left to read. *)
Inductive pending := Nothing | Read (r : outcome derror pmessage) (src : list item).
Record lstate := { l_conn : dstate; l_read : pending; l_over : bool }.
Definition l_init (pieces : N) (src : list item) : lstate := {| l_conn := d_init pieces src; l_read := Nothing; l_over := false |}.
Definition conn_to (l : lstate) (s : dstate) : lstate := {| l_conn := s; l_read := l_read l; l_over := l_over l |}.
Definition reading_to (l : lstate) (p : pending) : lstate := {| l_conn := l_conn l; l_read := p; l_over := l_over l |}.
Definition handled (l : lstate) (s : dstate) : lstate := {| l_conn := s; l_read := Nothing; l_over := l_over l |}.
Definition status_of (s : dstate) : saying := SStatus (d_choked s) (d_interested s) (d_pieces s).
(** download.rs:80-111: the lines about a message, in the state [s] before it. *)
Definition told (s : dstate) (m : pmessage) : list saying :=
  SMessage m ::
  match m with
  | Choke => [status_of (with_choked s true)]
  | Unchoke => [status_of (with_choked s false)]
  | BitField b => if negb (blen b =? bitfield_bytes_required (d_pieces s)) then [SBadField (bitfield_bytes_required (d_pieces s)) (blen b)] else [status_of s]
  | _ => [status_of s]
  end.
(** The steps of DownloadModel.v with what they print. *)
Inductive lstep : lstate -> list saying -> lstate -> Prop :=
| l_stop l : d_reader (l_conn l) = RHead -> d_disconnect (l_conn l) = true -> lstep l [] (conn_to l (with_reader (l_conn l) RDone))
| l_go l : d_reader (l_conn l) = RHead -> d_disconnect (l_conn l) = false -> lstep l [] (conn_to l (with_reader (l_conn l) RReading))
(** download.rs:236-237, 240-307: a body was read and its length printed. *)
| l_body l fuel body src : d_reader (l_conn l) = RReading -> l_read l = Nothing -> read_message_raw fuel (d_in (l_conn l)) = (Some (Ok body), src) ->
    lstep l [SRead (blen body)] (reading_to l (Read (decode_body body) src))
(** download.rs:236: reading failed. *)
| l_fails l fuel e src : d_reader (l_conn l) = RReading -> l_read l = Nothing -> read_message_raw fuel (d_in (l_conn l)) = (Some (Err e), src) ->
    lstep l [] (reading_to l (Read (Err (DIo e)) src))
(** download.rs:317-319. *)
| l_message l m src : d_reader (l_conn l) = RReading -> l_read l = Read (Ok m) src ->
    lstep l (told (l_conn l) m) (handled l (on_received_message (with_seen (with_reader (with_in (l_conn l) src) RHead) m) m))
(** download.rs:320-324 and 113-116. *)
| l_error l e src : d_reader (l_conn l) = RReading -> l_read l = Read (Err e) src ->
    lstep l [SReceiveError (derror_text e)] (handled l (with_disconnect (with_reader (with_in (l_conn l) src) RHead)))
| l_writer_stop l : d_writer (l_conn l) = WHead -> d_disconnect (l_conn l) = true -> lstep l [] (conn_to l (with_writer (l_conn l) WDone))
| l_writer_go l : d_writer (l_conn l) = WHead -> d_disconnect (l_conn l) = false -> lstep l [] (conn_to l (with_writer (l_conn l) WChoose))
| l_choose l a : d_writer (l_conn l) = WChoose -> choose (l_conn l) = Some a -> lstep l [] (conn_to l (with_writer (l_conn l) (WWriting a)))
| l_nothing l : d_writer (l_conn l) = WChoose -> choose (l_conn l) = None -> lstep l [] (conn_to l (with_writer (l_conn l) WWait))
(** download.rs:365-366, 377-378, 395-396. *)
| l_write l a : d_writer (l_conn l) = WWriting a ->
    lstep l [SSent a] (conn_to l (with_writer (with_out (l_conn l) (raw_message (action_body (d_pieces (l_conn l)) a))) (WFlag a)))
(** download.rs:421-424 and 118-121. *)
| l_write_fails l a k e : d_writer (l_conn l) = WWriting a -> (k < length (raw_message (action_body (d_pieces (l_conn l)) a)))%nat ->
    lstep l [SSendError (io e)] (conn_to l (with_disconnect (with_writer (with_out (l_conn l) (firstn k (raw_message (action_body (d_pieces (l_conn l)) a)))) WDone)))
(** download.rs:367-371, 379-383, 397-401. *)
| l_flag l a : d_writer (l_conn l) = WFlag a -> lstep l [status_of (set_flag (l_conn l) a)] (conn_to l (with_writer (set_flag (l_conn l) a) WChoose))
| l_recv l n : d_writer (l_conn l) = WWait -> d_queue (l_conn l) = Datatypes.S n -> lstep l [] (conn_to l (with_writer (with_queue (l_conn l) n) WHead))
(** download.rs:535-536: both loops have ended. *)
| l_finish l : d_reader (l_conn l) = RDone -> d_writer (l_conn l) = WDone -> l_over l = false ->
    lstep l [SFinished] {| l_conn := l_conn l; l_read := l_read l; l_over := true |}.
(** The runs: after a panic of the reader the task is over (535 and 581). *)
Inductive lruns (l : lstate) : list saying -> lstate -> Prop :=
| l_here : lruns l [] l
| l_then says m new n : lruns l says m -> d_reader (l_conn m) <> RPanicked -> lstep m new n -> lruns l (says ++ new) n.

(** download.rs:498-527 and 541-584: what is printed before the loops: to the standard output
    and to the standard error; and the program after that. *)
Definition peer_said (t : torrent) (src : list item) : bytes * bytes :=
  let hello := line (ascii_bytes "Connected") ++ line (ascii_bytes "request.len() = " ++ decimal (blen (send_handshake (our_handshake t)))) ++ line (ascii_bytes "Sent handshake") in
  match recv_handshake src with
  | (Some (Ok h), _) =>
    (hello ++ line (ascii_bytes "Received handshake") ++ line (ascii_bytes "Remote info hash = " ++ to_hex (hs_info_hash h)) ++
     line (ascii_bytes "Remote peer id = " ++ to_hex (hs_peer_id h)), [])
  | (Some (Err e), _) => (hello, line (derror_text e))
  | _ => (hello, [])
  end.
Definition download_said (sha1 : bytes -> bytes) (read : bytes -> option bytes) (lookup : bytes -> option (list addr)) (connect : addr -> option (list item)) (args : list bytes) : bytes * bytes :=
  match nth_error args 0, nth_error args 1 with
  | None, _ => ([], line (ascii_bytes "No peer specified"))
  | _, None => ([], line (ascii_bytes "No filename specified"))
  | Some peer, Some filename =>
    match read filename with
    | None => ([], [])
    | Some data =>
      match from_bytes sha1 data with
      | Ok t =>
        match lookup peer with
        | Some (a :: _) =>
          let start := line (ascii_bytes "Got peer: " ++ show a) ++ line (ascii_bytes "info_hash = " ++ to_hex (t_info_hash t)) ++ line (ascii_bytes "peer_id = " ++ to_hex tool_peer_id) in
          match connect a with
          | None => (start, [])
          | Some src => let (out, err) := peer_said t src in (start ++ out, err)
          end
        | Some [] => ([], line (ascii_bytes "Lookup failed: " ++ peer))
        | None => ([], [])
        end
      | _ => ([], [])
      end
    end
  end.
End Texts.
