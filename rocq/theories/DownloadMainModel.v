(** Model of src/bin/download.rs, 498-584: [do_peer_connection] and [main].  The reader and
    the writer of the connection, and the handshake, are in DownloadModel.v.

    Simplifications: printing is left out; sending the handshake succeeds (an error would end
    the program); name lookup, connecting and SHA-1 are parameters; [connect] gives what will
    be read from the peer. *)
From Verif Require Import Base TorrentModel MplexModel LpioModel DownloadModel BencodePathModel AnnounceModel.
Local Open Scope string_scope. Local Open Scope list_scope. Local Open Scope N_scope.

(** The whole program: over; waiting for ever for the handshake; or with both loops running
    after sending [hello]. *)
Inductive dlstate := DlOver (how : ended) (sent : bytes) | DlWaiting (sent : bytes) | DlRunning (hello : bytes) (s : dstate).
(** download.rs:507-516: the handshake sent; the peer id is the one of tracker.rs. *)
Definition our_handshake (t : torrent) : handshake := {| hs_info_hash := t_info_hash t; hs_peer_id := tool_peer_id |}.
(** download.rs:518-532: after connecting.  The info hash received is only printed. *)
Definition peer_connection (t : torrent) (src : list item) : dlstate :=
  let hello := send_handshake (our_handshake t) in
  match recv_handshake src with
  | (None, _) => DlWaiting hello
  | (Some (Err _), _) => DlOver Fails hello
  | (Some Panic, _) => DlOver Fails hello
  | (Some (Ok _), src) => DlRunning hello (d_init (N.of_nat (length (t_pieces t))) src)
  end.
(** download.rs:498-518 and 541-584 [main], up to the connection.  An error in the task ends
    the process with 1 (573-576). *)
Definition download_main (sha1 : bytes -> bytes) (read : bytes -> option bytes) (lookup : bytes -> option (list addr)) (connect : addr -> option (list item)) (args : list bytes) : dlstate :=
  match nth_error args 0, nth_error args 1 with
  | Some peer, Some filename =>
    match read filename with
    | None => DlOver Fails []
    | Some data =>
      match from_bytes sha1 data with
      | Err _ => DlOver Fails []
      | Panic => DlOver Panics []
      | Ok t =>
        match lookup peer with
        | Some (a :: _) => match connect a with None => DlOver Fails [] | Some src => peer_connection t src end
        | _ => DlOver Fails []
        end
      end
    end
  | _, _ => DlOver Fails []
  end.
(** download.rs:532-538: [join] waits for both loops; a panic ends the task, and [main] (581)
    with an error. *)
Inductive dlstep : dlstate -> dlstate -> Prop :=
| dl_step h s s' : d_reader s <> RPanicked -> dstep s s' -> dlstep (DlRunning h s) (DlRunning h s')
| dl_done h s : d_reader s = RDone -> d_writer s = WDone -> dlstep (DlRunning h s) (DlOver Succeeds (h ++ d_out s))
| dl_panic h s : d_reader s = RPanicked -> dlstep (DlRunning h s) (DlOver Fails (h ++ d_out s)).
Inductive dlruns (x : dlstate) : dlstate -> Prop :=
| dl_here : dlruns x x
| dl_next y z : dlruns x y -> dlstep y z -> dlruns x z.
