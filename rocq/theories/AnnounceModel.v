(** Model of the two programs that ask a UDP tracker for peers: src/bin/tracker.rs (its
    [main]) and src/bin/torrent_client.rs (its [main], without the transfer itself, which is
    [do_peer] of PeerModel.v).

    Simplifications: a program that sends and receives datagrams is a [dprog]; sending,
    receiving, binding and saving a file succeed (an error ends the program).  Of what is
    printed, only the results are kept: the lines of tracker.rs:280-291, the response and the
    warnings of torrent_client.rs.  The arguments have been read by the [clap] library.  The
    [url] library, name lookup, SHA-1, the [{:?}] of a string and random numbers are
    parameters. *)
From Verif Require Import Base TorrentModel TrackerModel PeerModel UtilModel ChatModel HexDumpModel BencodePathModel.
Local Open Scope string_scope. Local Open Scope list_scope. Local Open Scope N_scope.

(** The address of a socket (its text). *)
Definition addr := bytes.
(** A program with one UDP socket.  [DRecv from room k]: [recv_from] with a buffer of [room]
    bytes, which gets the first [room] bytes of the next datagram; a connected socket only
    gets datagrams of its peer [from]. *)
Inductive dprog :=
| DEnd (how : ended)
| DPrint (text : bytes) (k : dprog)
| DSave (name contents : bytes) (k : dprog)
| DSend (to : addr) (d : bytes) (k : dprog)
| DRecv (from : option addr) (room : nat) (k : bytes -> dprog).
(** [x?] and panics. *)
Definition dbind {A} (x : tx A) (k : A -> dprog) : dprog :=
  match x with Ok a => k a | Err _ => DEnd Fails | Panic => DEnd Panics end.
Definition tbind {A} (x : outcome terr A) (k : A -> dprog) : dprog :=
  match x with Ok a => k a | Err _ => DEnd Fails | Panic => DEnd Panics end.

(** *** bin/tracker.rs *)
(** tracker.rs:179-180: the peer id, 250: the address. *)
Definition tool_peer_id : bytes := [242; 37; 39; 106; 238; 20; 22; 165; 226; 69; 96; 109; 212; 138; 243; 79; 136; 192; 29; 21].
Definition tool_address : N := 1738118859.
(** tracker.rs:285-291: one peer. *)
Definition peer_line (e : endpoint) : bytes :=
  let n0 := N.land (N.shiftr (ep_ip e) 24) 255 in
  let n1 := N.land (N.shiftr (ep_ip e) 16) 255 in
  let n2 := N.land (N.shiftr (ep_ip e) 8) 255 in
  let n3 := N.land (N.shiftr (ep_ip e) 0) 255 in
  line (decimal n0 ++ [46] ++ decimal n1 ++ [46] ++ decimal n2 ++ [46] ++ decimal n3 ++ [58] ++ decimal (ep_port e)).
(** tracker.rs:280-291: what is printed of a response. *)
Definition tool_text (r : announce_response) : bytes :=
  line (ascii_bytes "action = 1") ++
  line (ascii_bytes "transaction_id = " ++ decimal (ar_transaction r)) ++
  line (ascii_bytes "interval = " ++ decimal (ar_interval r)) ++
  line (ascii_bytes "leechers = " ++ decimal (ar_leechers r)) ++
  line (ascii_bytes "seeders = " ++ decimal (ar_seeders r)) ++
  flat_map peer_line (ar_peers r).
(** tracker.rs:253-267: the announce request. *)
Definition tool_request (connection tid : N) (info_hash : bytes) : announce_request :=
  {| an_connection := connection; an_action := 1; an_transaction := tid; an_info_hash := info_hash; an_peer_id := tool_peer_id;
     an_downloaded := 0; an_left := 0; an_uploaded := 0; an_event := 0; an_ip := tool_address; an_key := 0; an_num_want := (-1)%Z; an_port := 1234 |}.
(** tracker.rs:195-293: from the socket on.  [65536] is [N.to_nat 65536]. *)
Definition tool_exchange (tracker_addr : addr) (tid : N) (info_hash : bytes) : dprog :=
  DSend tracker_addr (connect_request_array tid)
  (DRecv (Some tracker_addr) 1024 (fun d =>
   if negb (blen d =? 16) then DEnd Fails
   else
     dbind (connect_response_from d) (fun cr =>
     DSend tracker_addr (announce_bytes (tool_request (cr_connection cr) tid info_hash))
     (DRecv (Some tracker_addr) (N.to_nat 65536) (fun d =>
      dbind (announce_from d) (fun r => DPrint (tool_text r) (DEnd Succeeds))))))).
(** tracker.rs:153-199 [main]; [args] are the arguments after the name of the program. *)
Definition tracker_main (sha1 : bytes -> bytes) (read : bytes -> option bytes) (lookup : bytes -> option (list addr)) (tid : N) (args : list bytes) : dprog :=
  match nth_error args 0, nth_error args 1 with
  | Some tracker, Some filename =>
    match read filename with
    | None => DEnd Fails
    | Some data =>
      match from_bytes sha1 data with
      | Err _ => DEnd Fails
      | Panic => DEnd Panics
      | Ok torrent =>
        match lookup tracker with
        | None => DEnd Fails
        | Some [] => DEnd Panics
        | Some (tracker_addr :: _) => tool_exchange tracker_addr tid (t_info_hash torrent)
        end
      end
    end
  | _, _ => DEnd Fails
  end.

(** *** bin/torrent_client.rs *)
(** torrent_client.rs:28 [LISTEN_PORT]. *)
Definition listen_port : N := 6681.
(** torrent_client.rs:82-89 [generate_peer_id], from the random bytes. *)
Definition generate_peer_id (random : bytes) : bytes :=
  fold_left (fun r i => firstn i r ++ [45] ++ skipn (S i) r) (seq 0 8) random.
(** torrent_client.rs:91-96 [generate_transaction_id], from the random bytes. *)
Definition generate_transaction_id (random : bytes) : N := of_be_bytes random.
(** A URL: its text, [host_str] and [port] ([None] also for the standard port of the scheme). *)
Record url := { u_text : bytes; u_host : option bytes; u_port : option N }.
(** [{:#?}] of the response (torrent_client.rs:284-291, derived): the standard library prints
    an IPv4 address with its four numbers. *)
Definition v4_text (e : endpoint) : bytes :=
  match be_bytes 4 (ep_ip e) with
  | [a; b; c; d] => decimal a ++ [46] ++ decimal b ++ [46] ++ decimal c ++ [46] ++ decimal d ++ [58] ++ decimal (ep_port e)
  | _ => []
  end.
Definition client_text (r : announce_response) : bytes :=
  line (ascii_bytes "AnnounceResponse {") ++
  line (ascii_bytes "    transaction_id: " ++ decimal (ar_transaction r) ++ [44]) ++
  line (ascii_bytes "    interval: " ++ decimal (ar_interval r) ++ [44]) ++
  line (ascii_bytes "    leechers: " ++ decimal (ar_leechers r) ++ [44]) ++
  line (ascii_bytes "    seeders: " ++ decimal (ar_seeders r) ++ [44]) ++
  match ar_peers r with
  | [] => line (ascii_bytes "    peers: [],")
  | ps => line (ascii_bytes "    peers: [") ++ flat_map (fun e => line (ascii_bytes "        " ++ v4_text e ++ [44])) ps ++ line (ascii_bytes "    ],")
  end ++
  line (ascii_bytes "}").
Definition response_file : bytes := ascii_bytes "response.bin".
(** torrent_client.rs:98-149 [open_tracker_connection], 166-213 [send_tracker_request],
    215-230 [receive_tracker_response] and 257-266 of [run_with_tracker]. *)
Definition client_exchange (tracker_addr : addr) (random1 random2 info_hash : bytes) : dprog :=
  let tid := generate_transaction_id random1 in
  DSend tracker_addr (connect_request tid)
  (DRecv None (N.to_nat 4096) (fun d =>
   dbind (open_connection tid d) (fun connection =>
   DSend tracker_addr (send_tracker_request connection (generate_transaction_id random2) info_hash listen_port)
   (DRecv None (N.to_nat 4096) (fun d =>
    DSave response_file d
    (dbind (announce_parse d) (fun r => DPrint (client_text r) (DEnd Succeeds)))))))).
(** torrent_client.rs:233-256: the rest of [run_with_tracker]; 246: the text looked up. *)
Definition socket_text (host : bytes) (port : N) : bytes := host ++ [58] ++ decimal port.
Definition run_with_tracker (lookup : bytes -> option (list addr)) (u : url) (random1 random2 info_hash : bytes) : dprog :=
  match u_host u, u_port u with
  | Some host, Some port =>
    match lookup (socket_text host port) with
    | Some (tracker_addr :: _) => client_exchange tracker_addr random1 random2 info_hash
    | _ => DEnd Fails
    end
  | _, _ => DEnd Fails
  end.
(** torrent_client.rs:371-389 [get_tracker_urls]: the URLs, and the warnings printed. *)
Definition tracker_urls (parse_url : bytes -> option url) (t : torrent) : list url :=
  flat_map (fun g => flat_map (fun s => match parse_url s with Some u => [u] | None => [] end) g) (t_tracker_groups t).
Definition tracker_warnings (parse_url : bytes -> option url) (debug : bytes -> bytes) (t : torrent) : bytes :=
  flat_map (fun g => flat_map (fun s => match parse_url s with Some _ => [] | None => line (ascii_bytes "WARNING: Invalid tracker URL " ++ debug s) end) g) (t_tracker_groups t).

(** torrent_client.rs:38-55 [SubCommand], with the fields of 57-78. *)
Inductive subcommand :=
| CTrackers (filename : bytes)
| CAnnounce (filename : bytes) (tracker_no : nat)
| CParseAnnounceResponse (filename : bytes)
| CDownload (filename peer : bytes).
(** torrent_client.rs:998-1003: what is printed before a download; 1004-1005: the rest. *)
Definition download_text (filename : bytes) (t : torrent) (size : N) : bytes :=
  line (ascii_bytes "Torrent file " ++ filename) ++
  line (ascii_bytes "    info hash    = " ++ to_hex (t_info_hash t)) ++
  line (ascii_bytes "    piece count  = " ++ number_of (t_pieces t)) ++
  line (ascii_bytes "    piece length = " ++ decimal (t_piece_length t)) ++
  line (ascii_bytes "    total length = " ++ decimal (t_total_length t)) ++
  line (ascii_bytes "    total psize  = " ++ decimal size).
Definition last_text (last : N) (peer : bytes) : bytes :=
  line (ascii_bytes "    last length  = " ++ decimal last) ++ line (ascii_bytes "Downloading from peer " ++ peer).
(** torrent_client.rs:360-369 [read_torrent_file]. *)
Definition with_file (sha1 : bytes -> bytes) (read : bytes -> option bytes) (filename : bytes) (k : torrent -> dprog) : dprog :=
  match read filename with
  | None => DEnd Fails
  | Some data => tbind (from_bytes sha1 data) k
  end.
(** torrent_client.rs:952-1014 [main]; [download] stands for the transfer (1006-1007). *)
Definition client_main (sha1 : bytes -> bytes) (read : bytes -> option bytes) (lookup : bytes -> option (list addr)) (parse_url : bytes -> option url)
  (debug : bytes -> bytes) (random1 random2 : bytes) (download : torrent -> bytes -> dprog) (c : subcommand) : dprog :=
  match c with
  | CTrackers filename =>
    with_file sha1 read filename (fun t => DPrint (flat_map (flat_map line) (t_tracker_groups t)) (DEnd Succeeds))
  | CAnnounce filename tracker_no =>
    with_file sha1 read filename (fun t =>
      DPrint (tracker_warnings parse_url debug t)
      match nth_error (tracker_urls parse_url t) tracker_no with
      | None => DEnd Fails
      | Some u => run_with_tracker lookup u random1 random2 (t_info_hash t)
      end)
  | CParseAnnounceResponse filename =>
    match read filename with
    | None => DEnd Fails
    | Some data =>
      DPrint (line (ascii_bytes "Response: " ++ decimal (blen data) ++ ascii_bytes " bytes") ++ line (dump_alternate data))
      (dbind (announce_parse data) (fun r => DPrint (client_text r) (DEnd Succeeds)))
    end
  | CDownload filename peer =>
    with_file sha1 read filename (fun t =>
      tbind (checked_mul (t_piece_length t) (N.of_nat (length (t_pieces t)))) (fun size =>
      DPrint (download_text filename t size)
      (tbind (last_piece_length t) (fun last =>
       DPrint (last_text last peer) (download t peer)))))
  end.
