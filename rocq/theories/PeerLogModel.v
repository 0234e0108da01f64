(** Model of everything that src/bin/torrent_client.rs prints about a peer: lines 469-491, 619-753
    and 814-950, with src/bittorrent/protocol.rs:88-104.  The program is that of PeerModel.v; here
    every step comes with what it prints.  Printing is taken to succeed; what Rust prints for a
    panic or for an error returned by [main] is not modelled. *)
From Coq Require Import String Ascii.
From Verif Require Import Base UtilModel ChatModel HexDumpModel TorrentModel PeerModel.
Local Open Scope string_scope. Local Open Scope list_scope. Local Open Scope N_scope.

(** What is printed, one line each. *)
Inductive said :=
| PMessage (m : message) | PReserved (d : bytes) | PInfoHash (d : bytes) | PPeerId (d : bytes)
| PBitfieldSize (n : N) | PPieces (pieces have need : N) | PUnwanted (index begin len : N)
| PWant (pending active completed : N) | PCancel (len : N) | PPort (len : N) | PUnknown (id : N)
| PFinished (e : option protocol_error).

(** protocol.rs:88-104 [Display for ProtocolError]. *)
Definition protocol_error_text (e : protocol_error) : bytes :=
  match e with
  | IncorrectMessageLength id len => ascii_bytes "Incorrect length for message " ++ decimal id ++ ascii_bytes ": " ++ decimal len
  | UnknownMessage id => ascii_bytes "Unknown message " ++ decimal id
  | InvalidHandshake => ascii_bytes "Invalid handshake"
  end.
(** torrent_client.rs:680-717: an index, a begin and a length. *)
Definition request_text (r : request) : bytes :=
  ascii_bytes "index = " ++ decimal (rq_index r) ++ ascii_bytes ", begin = " ++ decimal (rq_begin r) ++ ascii_bytes ", length = " ++ decimal (rq_length r).
(** torrent_client.rs:635-717: the first line about a message. *)
Definition headline (m : message) : bytes :=
  ascii_bytes "<=== " ++
  match m with
  | MHandshake _ => ascii_bytes "HANDSHAKE"
  | MKeepAlive => ascii_bytes "KEEPALIVE"
  | MChoke => ascii_bytes "CHOKE"
  | MUnchoke => ascii_bytes "UNCHOKE"
  | MInterested => ascii_bytes "INTERESTED"
  | MNotInterested => ascii_bytes "NOTINTERESTED"
  | MHave i => ascii_bytes "HAVE piece_index = " ++ decimal i
  | MBitField _ => ascii_bytes "BITFIELD"
  | MRequest r => ascii_bytes "REQUEST " ++ request_text r
  | MPiece i b d => ascii_bytes "PIECE index = " ++ decimal i ++ ascii_bytes ", begin = " ++ decimal b ++ ascii_bytes ", block = <" ++ decimal (blen d) ++ ascii_bytes " bytes>"
  | MCancel r => ascii_bytes "CANCEL " ++ request_text r
  | MPort p => ascii_bytes "PORT " ++ decimal p
  end.
(** torrent_client.rs:479-480, 635-724, 875, 880, 885, 940-945: the lines. *)
Definition said_line (s : said) : bytes :=
  match s with
  | PMessage m => headline m
  | PReserved d => ascii_bytes "    reserved  = " ++ to_hex d
  | PInfoHash d => ascii_bytes "    info_hash = " ++ to_hex d
  | PPeerId d => ascii_bytes "    peer_id   = " ++ to_hex d
  | PBitfieldSize n => ascii_bytes "    Received bitfield (" ++ decimal n ++ ascii_bytes " bytes)"
  | PPieces p h n => ascii_bytes "    Of " ++ decimal p ++ ascii_bytes " pieces, they have " ++ decimal h ++ ascii_bytes " and need " ++ decimal n
  | PUnwanted i b l => ascii_bytes "Recieved PIECE but no active request: index " ++ decimal i ++ ascii_bytes ", begin " ++ decimal b ++ ascii_bytes ", length " ++ decimal l
  | PWant p a c => ascii_bytes "want_more_requests: #pending = " ++ decimal p ++ ascii_bytes ", #active = " ++ decimal a ++ ascii_bytes ", #completed = " ++ decimal c
  | PCancel l => ascii_bytes "Received cancel; message_len = " ++ decimal l
  | PPort l => ascii_bytes "Received port; message_len = " ++ decimal l
  | PUnknown id => ascii_bytes "Received message with unknown id " ++ decimal id
  | PFinished (Some e) => ascii_bytes "Client finished with error: " ++ protocol_error_text e
  | PFinished None => ascii_bytes "Client finished without error"
  end.

(** torrent_client.rs:719-724. *)
Definition want (x : transfer) : said :=
  PWant (N.of_nat (length (tr_pending x))) (N.of_nat (length (tr_active x))) (N.of_nat (length (tr_completed x))).
(** torrent_client.rs:619-753, 469-491: what [handle_message] prints. *)
Definition handle_says (x : transfer) (c : conn) (m : message) : list said :=
  PMessage m ::
  match m with
  | MHandshake h => [PReserved (hs_reserved h); PInfoHash (hs_info_hash h); PPeerId (hs_peer_id h)]
  | MUnchoke => [want x]
  | MPiece i b d =>
    match remove_first (answers i b d) (tr_active x) with None => [PUnwanted i b (blen d)] | Some _ => [] end ++ [want (complete_request x i b d)]
  | MBitField d =>
    if cn_first c then []
    else
      let pieces := length (t_pieces (tr_torrent x)) in
      PBitfieldSize (blen d) ::
      if (length d =? (pieces + 7) / 8)%nat then
        let have := update_from_bytes (cn_they_have c) d in [PPieces (N.of_nat pieces) (N.of_nat (num_set have)) (N.of_nat (num_clear have))]
      else []
  | _ => []
  end.
(** torrent_client.rs:873-887: what [parse_message] prints. *)
Definition parse_says (id len : N) : list said :=
  if id <? 8 then [] else if id =? 8 then [PCancel len] else if id =? 9 then [PPort len] else [PUnknown id].
(** torrent_client.rs:755-812: what [get_next_message] prints; only a complete message after the
    handshake is parsed. *)
Definition next_says (c : conn) : list said :=
  let d := cn_incoming c in
  if negb (cn_handshake c) then []
  else if (length d <? 5)%nat then []
  else
    let message_len := of_be_bytes (firstn 4 d) in
    if message_len =? 0 then [] else if blen d <? 4 + message_len then [] else parse_says (nth 4 d 0) message_len.

Definition say (l : list said) (r : outcome_of_run * list said) : outcome_of_run * list said := (fst r, l ++ snd r).
(** torrent_client.rs:921-945: the receive loop of [PeerModel.receive_loop] with everything it
    prints, and the line after it. *)
Fixpoint logged_loop (fuel : nat) (x : transfer) (c : conn) (reads : list bytes) : outcome_of_run * list said :=
  match fuel with
  | O => (finish x EndOutOfFuel, [])
  | S fuel =>
    if cn_done c || cn_finished c then (finish x (EndLoop (cn_error c)), [PFinished (cn_error c)])
    else
      let before := next_says c in
      match get_next_message c with
      | (Pending, c) =>
        match reads with
        | [] => logged_loop fuel x (recv_more_data c []) []
        | got :: reads => logged_loop fuel x (recv_more_data c got) reads
        end
      | (Ready (Ok m), c) =>
        let says := handle_says x c m in
        match handle_message x c m with
        | Ok (x', c', out) => let '(r, l) := logged_loop fuel x' c' reads in (prepend m out r, before ++ says ++ l)
        | Err e => (prepend m [] (finish x (EndHandler e)), before ++ says)
        | Panic => (finish x EndPanic, before ++ says)
        end
      | (Ready (Err e), c) => say before (logged_loop fuel x (report_violation c e) reads)
      | (Ready Panic, c) => (finish x EndPanic, before)
      end
  end.
(** torrent_client.rs:904-950 [do_peer], from the point where the handshake was sent. *)
Definition peer_log (x : transfer) (reads : list bytes) : outcome_of_run * list said :=
  logged_loop (rounds reads) x (conn_new (length (t_pieces (tr_torrent x)))) reads.
(** torrent_client.rs:911-916: the lines before. *)
Definition opening_lines (info_hash peer_id : bytes) : list bytes :=
  let h := encode_handshake info_hash peer_id in
  [ascii_bytes "Connected to peer"; ascii_bytes "out_handshake.len() = " ++ decimal (blen h); ascii_bytes "out_handshake =" ++ [10] ++ dump_alternate h].
Definition peer_text (x : transfer) (peer_id : bytes) (reads : list bytes) : bytes :=
  flat_map (fun l => l ++ [10]) (opening_lines (t_info_hash (tr_torrent x)) peer_id ++ map said_line (snd (peer_log x reads))).
