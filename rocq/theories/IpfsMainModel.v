(** Model of src/bin/ipfs.rs, 75-343: the commands a node runs on a stream it opened, what it
    does with a stream the peer opened, and the negotiation that comes before.

    Simplifications: a stream is read and written as in LpioModel; the TLS connection is a
    parameter that gives the plain text read from it; log lines other than those of
    HandlerModel and the printed [Identify] are not kept; the process goes on for ever after
    a command (306-309), so the result is what the command left in its task. *)
From Verif Require Import Base VarintModel MplexModel ProtobufModel CidModel CidTextModel IdentifyModel BitswapModel BlockModel DagPbModel UnixfsModel LpioModel HandlerModel.
Local Open Scope string_scope. Local Open Scope list_scope. Local Open Scope N_scope.

(** The [Box<dyn Error>] of ipfs.rs. *)
Inductive node_error := NIo (e : ioerr) | NUnsupported (name : string) | NPb (e : from_pb_error) | NTls.
(** ipfs.rs:13 [BITSWAP_PROTOCOL]. *)
Definition bitswap_protocol : bytes := ascii_bytes "/ipfs/bitswap/1.2.0" ++ [10].

(** ipfs.rs:273-283, 290-300 (and 195-200, 216-221): negotiating one
    protocol; an error ends [main]. *)
Definition negotiate (protocol : bytes) (name : string) (src : list item)
  : option (outcome node_error unit) * bytes * list item :=
  let '(r, out, src) := multistream_select protocol src in
  (match r with
   | None => None
   | Some (Ok Accepted) => Some (Ok tt)
   | Some (Ok Unsupported) => Some (Err (NUnsupported name))
   | Some (Err e) => Some (Err (NIo e))
   | Some Panic => Some Panic
   end, out, src).
(** ipfs.rs:272-283, 289-300: the handshake comes first. *)
Definition open_protocol (protocol : bytes) (name : string) (src : list item)
  : option (outcome node_error unit) * bytes * list item :=
  let '(r, out, src) := multistream_handshake src in
  match r with
  | None => (None, out, src)
  | Some (Err e) => (Some (Err (NIo e)), out, src)
  | Some Panic => (Some Panic, out, src)
  | Some (Ok _) => let '(r, out', src) := negotiate protocol name src in (r, out ++ out', src)
  end.

(** ipfs.rs:328-343 [identify_client_inner]: the [Identify] printed; [None] when the peer
    closed the stream. *)
Definition identify_client_inner (src : list item) : option (outcome node_error (option identify)) * list item :=
  match read_opt_message None src with
  | (None, _, src) => (None, src)
  | (Some (Err e), _, src) => (Some (Err (NIo e)), src)
  | (Some Panic, _, src) => (Some Panic, src)
  | (Some (Ok None), _, src) => (Some (Ok None), src)
  | (Some (Ok (Some data)), _, src) =>
    (Some (match identify_from_pb data with Ok i => Ok (Some i) | Err e => Err (NPb e) | Panic => Panic end), src)
  end.
(** ipfs.rs:288-302: the command [identify], on the stream it opened. *)
Definition identify_command (src : list item) : option (outcome node_error (option identify)) * bytes * list item :=
  let '(r, out, src) := open_protocol id_protocol "identify protocol unsupported" src in
  match r with
  | None => (None, out, src)
  | Some (Err e) => (Some (Err e), out, src)
  | Some Panic => (Some Panic, out, src)
  | Some (Ok _) => let (r, src) := identify_client_inner src in (r, out, src)
  end.

Section Node.
Context (sha256 blake2b256 : bytes -> bytes).
(** ipfs.rs:271-285: the command [show], on the stream it opened: the lines logged by the
    handler and its result. *)
Definition show_command (text : bytes) (src : list item)
  : option (outcome node_error (list bs_line * outcome bs_error unit)) * bytes * list item :=
  let '(r, out, src) := open_protocol bitswap_protocol "bitswap protocol unsupported" src in
  match r with
  | None => (None, out, src)
  | Some (Err e) => (Some (Err e), out, src)
  | Some Panic => (Some Panic, out, src)
  | Some (Ok _) =>
    let '(out', l, r, src) := bitswap_handler sha256 blake2b256 (Some text) src in
    (option_map (fun r => Ok (l, r)) r, out ++ out', src)
  end.

(** What became of a stream the peer opened. *)
Inductive served :=
| SFailed (e : ioerr)                                      (** 121-123: the error is logged *)
| SEnded                                                   (** 86-90: the peer ended it *)
| SIdentify                                                (** handed to the identify handler *)
| SBitswap (l : list bs_line) (r : outcome bs_error unit). (** handed to the bitswap handler *)
(** ipfs.rs:112-125 [connection_handler], with the handler it hands the stream to; [key] is
    the node's public key. *)
Definition serve (key : bytes) (src : list item) : option (outcome unit served) * bytes * list item :=
  let '(r, out, src) := connection_handler2 node_services src in
  match r with
  | None => (None, out, src)
  | Some (Err e) => (Some (Ok (SFailed e)), out, src)
  | Some Panic => (Some Panic, out, src)
  | Some (Ok None) => (Some (Ok SEnded), out, src)
  | Some (Ok (Some HIdentify)) => (Some (Ok SIdentify), out ++ identify_handler key, src)
  | Some (Ok (Some HBitswap)) =>
    let '(out', l, r, src) := bitswap_handler sha256 blake2b256 None src in
    (option_map (fun r => Ok (SBitswap l r)) r, out ++ out', src)
  end.
End Node.

(** ipfs.rs:186-200, 207-221: handshake, list, select on one connection: the protocols
    printed. *)
Definition upgrade (lossy : bytes -> bytes) (protocol : bytes) (name : string) (src : list item)
  : option (outcome node_error (list bytes)) * bytes * list item :=
  let '(r, out, src) := multistream_handshake src in
  match r with
  | None => (None, out, src)
  | Some (Err e) => (Some (Err (NIo e)), out, src)
  | Some Panic => (Some Panic, out, src)
  | Some (Ok _) =>
    let '(r, out', src) := multistream_list lossy src in
    match r with
    | None => (None, out ++ out', src)
    | Some (Err e) => (Some (Err (NIo e)), out ++ out', src)
    | Some Panic => (Some Panic, out ++ out', src)
    | Some (Ok l) =>
      let '(r, out'', src) := negotiate protocol name src in
      (match r with
       | None => None
       | Some (Ok _) => Some (Ok l)
       | Some (Err e) => Some (Err e)
       | Some Panic => Some Panic
       end, out ++ out' ++ out'', src)
    end
  end.
(** ipfs.rs:186-224: from the TCP connection to the multiplexed one.  [tls] is
    [establish_connection] with the configuration of 174-181 (any self-signed peer, no server
    name): given what the socket still delivers, the plain text of the connection.  The
    result is what the multiplexer reads from, with what was written in the clear and inside
    TLS. *)
Definition dial (lossy : bytes -> bytes) (tls : list item -> option (list item)) (src : list item)
  : option (outcome node_error (list item)) * bytes * bytes :=
  let '(r, out, src) := upgrade lossy (ascii_bytes "/tls/1.0.0" ++ [10]) "/tls/1.0.0 is unsupported" src in
  match r with
  | None => (None, out, [])
  | Some (Err e) => (Some (Err e), out, [])
  | Some Panic => (Some Panic, out, [])
  | Some (Ok _) =>
    match tls src with
    | None => (Some (Err NTls), out, [])
    | Some plain =>
      let '(r, out', plain) := upgrade lossy (ascii_bytes "/mplex/6.7.0" ++ [10]) "/mplex/6.7.0 is unsupported" plain in
      (match r with
       | None => None
       | Some (Ok _) => Some (Ok plain)
       | Some (Err e) => Some (Err e)
       | Some Panic => Some Panic
       end, out, out')
    end
  end.
