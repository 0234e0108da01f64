(** Model of the BitTorrent peer connection of src/bin/torrent_client.rs (and the types of
    src/bittorrent/protocol.rs).

    Simplifications: printing is left out; the transfer keeps only what the code reads from
    the torrent; sending always succeeds. *)
From Verif Require Import Base TorrentModel.
Local Open Scope string_scope. Local Open Scope list_scope. Local Open Scope N_scope.

(** protocol.rs:57-61 [Request]. *)
Record request := { rq_index : N; rq_begin : N; rq_length : N }.
(** protocol.rs:49-54 [Handshake]. *)
Record handshake := { hs_reserved : bytes; hs_info_hash : bytes; hs_peer_id : bytes }.
(** protocol.rs:64-77 [Message]. *)
Inductive message :=
| MHandshake (h : handshake) | MKeepAlive | MChoke | MUnchoke | MInterested | MNotInterested
| MHave (piece_index : N) | MBitField (data : bytes) | MRequest (r : request)
| MPiece (index begin : N) (block : bytes) | MCancel (r : request) | MPort (port : N).
(** protocol.rs:80-84 [ProtocolError]. *)
Inductive protocol_error :=
| IncorrectMessageLength (id len : N) | UnknownMessage (id : N) | InvalidHandshake.

(** torrent_client.rs:391-395 [ReceivedBlock]. *)
Record block := { bk_index : N; bk_begin : N; bk_data : bytes }.
(** torrent_client.rs:397-406 [Transfer]; [we_have] is never used. *)
Record transfer := {
  tr_torrent : torrent; tr_pending : list request; tr_active : list request;
  tr_completed : list block }.

(** torrent_client.rs:422 [default_request_length]. *)
Definition default_request_length : N := 16384.
(** torrent_client.rs:431-443: the requests of one piece, from [begin] on.  [as u32] keeps
    the low 32 bits.  Fuel: the loop advances by at least one. *)
Fixpoint piece_requests (fuel : nat) (i len begin : N) : list request :=
  match fuel with
  | O => []
  | S fuel =>
    if begin <? len then
      let request_length := N.min default_request_length (len - begin) in
      {| rq_index := i mod two32; rq_begin := begin mod two32; rq_length := request_length mod two32 |}
      :: piece_requests fuel i len (begin + request_length)
    else []
  end.
(** Enough rounds for a piece of the given length. *)
Definition piece_fuel (len : N) : nat := S (N.to_nat (len / default_request_length)).
(** torrent_client.rs:424-429: the length of piece [i]. *)
Definition this_piece_length (t : torrent) (i : nat) : outcome terr N :=
  if (S i =? length (t_pieces t))%nat then
    let? last := last_piece_length t in
    if last <? t_piece_length t then Ok last else Ok (t_piece_length t)
  else Ok (t_piece_length t).
(** torrent_client.rs:424-444: the loop over the pieces [i..i+n]. *)
Fixpoint all_requests (t : torrent) (i n : nat) : outcome terr (list request) :=
  match n with
  | O => Ok []
  | S n =>
    let? len := this_piece_length t i in
    let? rest := all_requests t (S i) n in
    Ok (piece_requests (S (piece_fuel len)) (N.of_nat i) len 0 ++ rest)
  end.
(** torrent_client.rs:409-448 [Transfer::new]. *)
Definition transfer_new (t : torrent) : outcome terr transfer :=
  let? p := all_requests t 0 (length (t_pieces t)) in
  Ok {| tr_torrent := t; tr_pending := p; tr_active := []; tr_completed := [] |}.

(** torrent_client.rs:458-467 [start_request]. *)
Definition start_request (x : transfer) : option request * transfer :=
  match tr_pending x with
  | [] => (None, x)
  | req :: rest =>
    (Some req, {| tr_torrent := tr_torrent x; tr_pending := rest;
                  tr_active := tr_active x ++ [req]; tr_completed := tr_completed x |})
  end.
(** torrent_client.rs:470-476: the search; [Vec::remove] of the element found. *)
Fixpoint remove_first (p : request -> bool) (l : list request) : option (list request) :=
  match l with
  | [] => None
  | r :: t => if p r then Some t else option_map (cons r) (remove_first p t)
  end.
Definition answers (index begin : N) (data : bytes) (r : request) : bool :=
  (rq_index r =? index) && (rq_begin r =? begin) && (rq_length r =? blen data).
(** torrent_client.rs:469-491 [complete_request]. *)
Definition complete_request (x : transfer) (index begin : N) (data : bytes) : transfer :=
  match remove_first (answers index begin data) (tr_active x) with
  | None => x
  | Some active =>
    {| tr_torrent := tr_torrent x; tr_pending := tr_pending x; tr_active := active;
       tr_completed := tr_completed x ++ [{| bk_index := index; bk_begin := begin; bk_data := data |}] |}
  end.

(** torrent_client.rs:494-514 [PeerConnection]; the four choking and interest flags are
    never used. *)
Record conn := {
  cn_they_have : bitfield; cn_incoming : bytes; cn_finished : bool; cn_done : bool;
  cn_handshake : bool; cn_first : bool; cn_error : option protocol_error }.
(** torrent_client.rs:517-535 [PeerConnection::new]. *)
Definition conn_new (pieces : nat) : conn :=
  {| cn_they_have := bf_new pieces; cn_incoming := []; cn_finished := false; cn_done := false;
     cn_handshake := false; cn_first := false; cn_error := None |}.
Definition with_incoming (c : conn) (d : bytes) (h : bool) : conn :=
  {| cn_they_have := cn_they_have c; cn_incoming := d; cn_finished := cn_finished c;
     cn_done := cn_done c; cn_handshake := h; cn_first := cn_first c; cn_error := cn_error c |}.

(** torrent_client.rs:580-584 [queue_msg]: the bytes added to the output. *)
Definition queue_msg (body : bytes) : bytes := be_bytes 4 (blen body mod two32) ++ body.
(** torrent_client.rs:566-578 [queue_unchoke], [queue_interested], [queue_not_interested]. *)
Definition queue_unchoke : bytes := queue_msg [1].
Definition queue_interested : bytes := queue_msg [2].
Definition queue_not_interested : bytes := queue_msg [3].
(** torrent_client.rs:586-599 [queue_request]. *)
Definition queue_request (r : request) : bytes :=
  queue_msg ([6] ++ be_bytes 4 (rq_index r) ++ be_bytes 4 (rq_begin r) ++ be_bytes 4 (rq_length r)).

(** torrent_client.rs:814-821 [check_message_len]. *)
Definition check_message_len (id : N) (body : bytes) (expected : nat) : outcome protocol_error unit :=
  if (length body =? expected)%nat then Ok tt else Err (IncorrectMessageLength id (blen body)).

(** torrent_client.rs:732-749: the loop that starts more requests; fuel: the number of
    rounds.  [max_active_requests] is 100. *)
Definition max_active_requests : nat := 100.
Fixpoint more_requests (fuel : nat) (x : transfer) : transfer * bytes :=
  match fuel with
  | O => (x, [])
  | S fuel =>
    if (length (tr_active x) <=? max_active_requests)%nat then
      match start_request x with
      | (Some req, x') => let (x2, out) := more_requests fuel x' in (x2, queue_request req ++ out)
      | (None, x') => (x', queue_not_interested)
      end
    else (x, [])
  end.
(** Every round but the last adds to the active requests. *)
Definition more_fuel : nat := S (S max_active_requests).

(** The errors that end [do_peer]: from [handle_message]. *)
Inductive handle_error := HBitfieldNotFirst | HProtocol (e : protocol_error).
(** torrent_client.rs:619-753 [handle_message]: the transfer, connection and output after
    it.  [received_first_message] is read here and set nowhere. *)
Definition handle_message (x : transfer) (c : conn) (msg : message)
  : outcome handle_error (transfer * conn * bytes) :=
  match msg with
  | MUnchoke => let (x', out) := more_requests more_fuel x in Ok (x', c, out)
  | MPiece index begin data =>
    let (x', out) := more_requests more_fuel (complete_request x index begin data) in Ok (x', c, out)
  | MBitField data =>
    if cn_first c then Err HBitfieldNotFirst
    else
      let piece_count := length (t_pieces (tr_torrent x)) in
      let? _ := map_err HProtocol (check_message_len 5 data ((piece_count + 7) / 8)) in
      Ok (x, {| cn_they_have := update_from_bytes (cn_they_have c) data; cn_incoming := cn_incoming c;
                cn_finished := cn_finished c; cn_done := cn_done c; cn_handshake := cn_handshake c;
                cn_first := cn_first c; cn_error := cn_error c |},
          queue_unchoke ++ queue_interested)
  | _ => Ok (x, c, [])
  end.

(** torrent_client.rs:832-892 [parse_message].  [unimplemented!] panics; [get_u32] panics
    when fewer than four bytes are left. *)
Definition parse_message (id : N) (body : bytes) : outcome protocol_error message :=
  if id =? 0 then let? _ := check_message_len id body 0 in Ok MChoke
  else if id =? 1 then let? _ := check_message_len id body 0 in Ok MUnchoke
  else if id =? 2 then let? _ := check_message_len id body 0 in Ok MInterested
  else if id =? 3 then let? _ := check_message_len id body 0 in Ok MNotInterested
  else if id =? 4 then let? _ := check_message_len id body 4 in Ok (MHave (of_be_bytes body))
  else if id =? 5 then Ok (MBitField body)
  else if id =? 6 then Panic
  else if id =? 7 then
    if (length body <? 4)%nat then Panic
    else
      let index := of_be_bytes (firstn 4 body) in
      let body := skipn 4 body in
      if (length body <? 4)%nat then Panic
      else Ok (MPiece index (of_be_bytes (firstn 4 body)) (skipn 4 body))
  else if id =? 8 then Panic
  else if id =? 9 then Panic
  else Err (UnknownMessage id).

(** torrent_client.rs:764 the literal that a handshake begins with. *)
Definition handshake_magic : bytes := 19 :: ascii_bytes "BitTorrent protocol".
(** [Poll]: nothing yet, or a result. *)
Inductive poll (A : Type) := Pending | Ready (a : A).
Arguments Pending {A}. Arguments Ready {A} a.
(** torrent_client.rs:755-812 [get_next_message]: the poll result and the connection
    afterwards.  ([Ok(None)] is never returned.) *)
Definition get_next_message (c : conn) : poll (outcome protocol_error message) * conn :=
  let d := cn_incoming c in
  if negb (cn_handshake c) then
    if (length d <? 68)%nat then (Pending, c)
    else if negb (bytes_eqb (firstn 20 d) handshake_magic) then (Ready (Err InvalidHandshake), c)
    else
      (Ready (Ok (MHandshake {| hs_reserved := firstn 8 (skipn 20 d);
                                hs_info_hash := firstn 20 (skipn 28 d);
                                hs_peer_id := firstn 20 (skipn 48 d) |})),
       with_incoming c (skipn 68 d) true)
  else if (length d <? 4)%nat then (Pending, c)
  else
    let message_len := of_be_bytes (firstn 4 d) in
    if message_len =? 0 then (Ready (Ok MKeepAlive), with_incoming c (skipn 4 d) true)
    else if (length d <? 5)%nat then (Pending, c)
    else if blen d <? 4 + message_len then (Pending, c)
    else
      let id := nth 4 d 0 in
      let rest := skipn 5 d in
      let n := N.to_nat (message_len - 1) in
      (Ready (parse_message id (firstn n rest)), with_incoming c (skipn n rest) true).

(** torrent_client.rs:602-613 [recv_more_data], given what the read returned (nothing: the
    peer has closed). *)
Definition recv_more_data (c : conn) (got : bytes) : conn :=
  match got with
  | [] => {| cn_they_have := cn_they_have c; cn_incoming := cn_incoming c; cn_finished := true;
             cn_done := cn_done c; cn_handshake := cn_handshake c; cn_first := cn_first c;
             cn_error := cn_error c |}
  | _ => with_incoming c (cn_incoming c ++ got) (cn_handshake c)
  end.
(** torrent_client.rs:538-541 [report_protocol_violation]. *)
Definition report_violation (c : conn) (e : protocol_error) : conn :=
  {| cn_they_have := cn_they_have c; cn_incoming := cn_incoming c; cn_finished := cn_finished c;
     cn_done := true; cn_handshake := cn_handshake c; cn_first := cn_first c; cn_error := Some e |}.

(** How the receive loop ended: the loop's condition, an error from [handle_message], a
    panic. *)
Inductive ending := EndLoop (error : option protocol_error) | EndHandler (e : handle_error)
  | EndPanic | EndOutOfFuel.
(** What the loop did: the transfer afterwards, the messages handled, everything sent, and
    how it ended. *)
Record outcome_of_run := {
  o_transfer : transfer; o_messages : list message; o_sent : bytes; o_ending : ending }.
Definition finish (x : transfer) (e : ending) : outcome_of_run :=
  {| o_transfer := x; o_messages := []; o_sent := []; o_ending := e |}.
Definition prepend (m : message) (out : bytes) (r : outcome_of_run) : outcome_of_run :=
  {| o_transfer := o_transfer r; o_messages := m :: o_messages r; o_sent := out ++ o_sent r;
     o_ending := o_ending r |}.
(** torrent_client.rs:921-941: the receive loop of [do_peer].  [reads] is what successive
    reads from the peer return; after the last one the peer has closed.  A read that
    returns nothing is the end too.  [EndOutOfFuel] is excluded by the theorems. *)
Fixpoint receive_loop (fuel : nat) (x : transfer) (c : conn) (reads : list bytes) : outcome_of_run :=
  match fuel with
  | O => finish x EndOutOfFuel
  | S fuel =>
    if cn_done c || cn_finished c then finish x (EndLoop (cn_error c))
    else
      match get_next_message c with
      | (Pending, c) =>
        match reads with
        | [] => receive_loop fuel x (recv_more_data c []) []
        | got :: reads => receive_loop fuel x (recv_more_data c got) reads
        end
      | (Ready (Ok m), c) =>
        match handle_message x c m with
        | Ok (x', c', out) => prepend m out (receive_loop fuel x' c' reads)
        | Err e => prepend m [] (finish x (EndHandler e))
        | Panic => finish x EndPanic
        end
      | (Ready (Err e), c) => receive_loop fuel x (report_violation c e) reads
      | (Ready Panic, c) => finish x EndPanic
      end
  end.
(** Rounds needed: every message takes at least four bytes; every read one round; and three
    at the end. *)
Definition rounds (reads : list bytes) : nat := length (concat reads) + length reads + 3.
(** torrent_client.rs:907-951 [do_peer], from the point where the handshake was sent. *)
Definition do_peer (x : transfer) (reads : list bytes) : outcome_of_run :=
  receive_loop (rounds reads) x (conn_new (length (t_pieces (tr_torrent x)))) reads.

(** torrent_client.rs:894-902 [encode_handshake]. *)
Definition encode_handshake (info_hash peer_id : bytes) : bytes :=
  [19] ++ ascii_bytes "BitTorrent protocol" ++ repeat 0 8 ++ info_hash ++ peer_id.
