(** Model of the UDP tracker messages of src/bin/tracker.rs, src/bin/torrent_client.rs and
    src/bittorrent/protocol.rs.

    Simplifications: printing is left out; a datagram is the list of its bytes; sockets and
    random numbers are arguments.  [format!] texts of errors are constructors. *)
From Verif Require Import Base.

(** The error texts. *)
Inductive terror := TInvalid | TAction (a : N) | TLength (expected got : N) | TTransaction (want got : N).
Definition tx := outcome terror.
(** [data[a..b]]: panics out of range. *)
Definition slice (d : bytes) (a b : nat) : tx bytes :=
  if (a <=? b)%nat && (b <=? length d)%nat then Ok (firstn (b - a) (skipn a d)) else Panic.
(** [uNN::from_be_bytes(data[a..b])]. *)
Definition be_at (d : bytes) (a b : nat) : tx N := let? s := slice d a b in Ok (of_be_bytes s).
(** [u32] addition and multiplication in a checked build. *)
Definition add32 (a b : N) : tx N := if a + b <? two32 then Ok (a + b) else Panic.
Definition mul32 (a b : N) : tx N := if a * b <? two32 then Ok (a * b) else Panic.

(** protocol.rs:35, tracker.rs:211, torrent_client.rs:107: the magic constant 0x41727101980. *)
Definition connect_magic : N := 4497486125440.
(** protocol.rs:34-41 [ConnectRequest::encode], torrent_client.rs:106-109 (with [put_u64],
    [put_u32]). *)
Definition connect_request (tid : N) : bytes := be_bytes 8 connect_magic ++ be_bytes 4 0 ++ be_bytes 4 tid.

(** [request[a..b].copy_from_slice(d)] with [b - a] the length of [d]. *)
Definition put (a : nat) (d req : bytes) : bytes := firstn a req ++ d ++ skipn (a + length d) req.
(** tracker.rs:207-218: the same through an array. *)
Definition connect_request_array (tid : N) : bytes :=
  put 12 (be_bytes 4 tid) (put 8 (be_bytes 4 0) (put 0 (be_bytes 8 connect_magic) (repeat 0 16))).

(** tracker.rs:22-26 [ConnectResponse]. *)
Record connect_response := { cr_action : N; cr_transaction : N; cr_connection : N }.
(** tracker.rs:29-39 [ConnectResponse::from]. *)
Definition connect_response_from (d : bytes) : tx connect_response :=
  if negb (blen d =? 16) then Err TInvalid
  else
    let? a := be_at d 0 4 in let? t := be_at d 4 8 in let? c := be_at d 8 16 in
    Ok {| cr_action := a; cr_transaction := t; cr_connection := c |}.
(** torrent_client.rs:117-149 [open_tracker_connection], from the datagram received on. *)
Definition open_connection (tid : N) (d : bytes) : tx N :=
  if negb (blen d =? 16) then Err (TLength 16 (blen d))
  else
    let? a := be_at d 0 4 in
    if negb (a =? 0) then Err (TAction a)
    else
      let? t := be_at d 4 8 in
      let? c := be_at d 8 16 in
      if negb (t =? tid) then Err (TTransaction tid t) else Ok c.

(** tracker.rs:42-56 [AnnounceRequest]; [num_want] is an [i32]. *)
Record announce_request := {
  an_connection : N; an_action : N; an_transaction : N; an_info_hash : bytes; an_peer_id : bytes;
  an_downloaded : N; an_left : N; an_uploaded : N; an_event : N; an_ip : N; an_key : N; an_num_want : Z; an_port : N }.
(** [i32::to_be_bytes]. *)
Definition i32_bytes (z : Z) : bytes := be_bytes 4 (Z.to_N (z mod 4294967296)).
(** tracker.rs:59-88 [AnnounceRequest::to_bytes]. *)
Definition announce_bytes (r : announce_request) : bytes :=
  put 96 (be_bytes 2 (an_port r)) (put 92 (i32_bytes (an_num_want r)) (put 88 (be_bytes 4 (an_key r)) (put 84 (be_bytes 4 (an_ip r))
  (put 80 (be_bytes 4 (an_event r)) (put 72 (be_bytes 8 (an_uploaded r)) (put 64 (be_bytes 8 (an_left r)) (put 56 (be_bytes 8 (an_downloaded r))
  (put 36 (an_peer_id r) (put 16 (an_info_hash r) (put 12 (be_bytes 4 (an_transaction r)) (put 8 (be_bytes 4 (an_action r))
  (put 0 (be_bytes 8 (an_connection r)) (repeat 0 98))))))))))))).
(** torrent_client.rs:169-213 [send_tracker_request]: what is sent. *)
Definition send_tracker_request (connection tid : N) (info_hash : bytes) (port : N) : bytes :=
  be_bytes 8 connection ++ be_bytes 4 1 ++ be_bytes 4 tid ++ info_hash ++ repeat 0 20 ++ be_bytes 8 0 ++ be_bytes 8 0 ++ be_bytes 8 0 ++
  be_bytes 4 0 ++ be_bytes 4 0 ++ be_bytes 4 0 ++ i32_bytes (-1) ++ be_bytes 2 port.

(** tracker.rs:91-94 [PeerEndpoint], torrent_client.rs:346 [SocketAddrV4]: address and port. *)
Record endpoint := { ep_ip : N; ep_port : N }.
(** tracker.rs:96-104 [AnnonuceResponse], torrent_client.rs:285-291 [AnnounceResponse] (which
    leaves the action out). *)
Record announce_response := { ar_transaction : N; ar_interval : N; ar_leechers : N; ar_seeders : N; ar_peers : list endpoint }.
(** tracker.rs:132-135, torrent_client.rs:337-346: one endpoint. *)
Definition endpoint_at (d : bytes) (off : nat) : tx endpoint :=
  let? ip := be_at d off (off + 4) in
  let? port := be_at d (off + 4) (off + 6) in
  Ok {| ep_ip := ip; ep_port := port |}.
(** tracker.rs:127-136: the loop over [i..i+n]; the offset is computed in [u32]. *)
Fixpoint endpoints_counted (d : bytes) (i : N) (n : nat) : tx (list endpoint) :=
  match n with
  | O => Ok []
  | S n =>
    let? m := mul32 i 6 in
    let? off := add32 20 m in
    let? e := endpoint_at d (N.to_nat off) in
    let? t := endpoints_counted d (i + 1) n in
    Ok (e :: t)
  end.
(** tracker.rs:107-149 [AnnonuceResponse::from]. *)
Definition announce_from (d : bytes) : tx announce_response :=
  if blen d <? 20 then Err TInvalid
  else
    let? a := be_at d 0 4 in let? t := be_at d 4 8 in let? i := be_at d 8 12 in let? l := be_at d 12 16 in let? s := be_at d 16 20 in
    if negb (a =? 1) then Err (TAction a)
    else
      let? count := add32 l s in
      let? size := mul32 count 6 in
      let? expected := add32 20 size in
      if negb (blen d =? expected) then Err (TLength expected (blen d))
      else
        let? ps := endpoints_counted d 0 (N.to_nat count) in
        Ok {| ar_transaction := t; ar_interval := i; ar_leechers := l; ar_seeders := s; ar_peers := ps |}.
(** torrent_client.rs:333-353: the loop.  Fuel: the offset grows. *)
Fixpoint endpoints_while (fuel : nat) (d : bytes) (off : nat) : tx (list endpoint) :=
  match fuel with
  | O => Panic
  | S fuel =>
    if (off + 6 <=? length d)%nat then
      let? e := endpoint_at d off in
      let? t := endpoints_while fuel d (off + 6) in
      Ok (e :: t)
    else Ok []
  end.
(** torrent_client.rs:294-357 [AnnounceResponse::parse], called by [receive_tracker_response]
    (215-230) on the datagram received. *)
Definition announce_parse (d : bytes) : tx announce_response :=
  if blen d <? 4 then Err (TLength 4 (blen d))
  else
    let? a := be_at d 0 4 in
    if negb (a =? 1) then Err (TAction a)
    else if blen d <? 20 then Err (TLength 20 (blen d))
    else
      let? t := be_at d 4 8 in let? i := be_at d 8 12 in let? l := be_at d 12 16 in let? s := be_at d 16 20 in
      let? ps := endpoints_while (S (length d)) d 20 in
      Ok {| ar_transaction := t; ar_interval := i; ar_leechers := l; ar_seeders := s; ar_peers := ps |}.
