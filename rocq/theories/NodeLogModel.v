(** Model of everything the IPFS node prints: src/bin/ipfs.rs 75-343, src/ipfs/identify.rs
    60-73, and src/bin/quinntest.rs 31-262.  The functions are those of LpioModel.v and
    IpfsMainModel.v, each with what it prints; NodeLogProps.v shows that the results are the
    same.  The text of one task is in order; the texts of several tasks mix.

    Printing is taken to succeed.  Parameters: SHA2-256 and BLAKE2b-256; [lossy],
    [String::from_utf8_lossy]; [quote], [Debug] of a string; [ip6], the text of an IPv6
    address; [utf8], the text of an error about invalid UTF-8; [io], the text of an I/O error.
    Not modelled: what Rust prints for an error returned by [main] or for a panic; keys,
    certificates and the QUIC connection of the library (a parameter). *)
From Coq Require Import String Ascii.
From Verif Require Import Base UtilModel ChatModel VarintModel ProtobufModel CidModel CidTextModel IdentifyModel BitswapModel BlockModel DagPbModel UnixfsModel
  MplexModel LpioModel HandlerModel IpfsMainModel HexDumpModel NamesModel DebugModel IpfsTextModel BitswapLogModel.
Local Open Scope string_scope. Local Open Scope list_scope. Local Open Scope N_scope.

(** Text for the standard output, text for the standard error. *)
Inductive told := Out (t : bytes) | Diag (t : bytes).
Definition tell (l : bytes) : list told := [Out (say l)].
Definition complain (l : bytes) : list told := [Diag (say l)].
Definition printed (l : list told) : bytes := flat_map (fun x => match x with Out t => t | Diag _ => [] end) l.
Definition complained (l : list told) : bytes := flat_map (fun x => match x with Diag t => t | Out _ => [] end) l.

Section Log.
Context (sha256 blake2b256 lossy quote : bytes -> bytes) (ip6 : bytes -> bytes) (utf8 : bytes) (io : ioerr -> bytes).

(** ipfs.rs:92-93. *)
Definition request_line (k : N) (data : bytes) : bytes :=
  decimal k ++ ascii_bytes ": peer requested service: " ++ escape_string (lossy data).
(** ipfs.rs:84-110: the request loop. *)
Fixpoint request_said {H} (k : N) (fuel : nat) (entries : list (service H)) (src : list item)
  : list told * (option (outcome ioerr (option H)) * bytes * list item) :=
  match fuel with
  | O => ([], (None, [], src))
  | S fuel =>
    match read_opt_message None src with
    | (None, _, src) => ([], (None, [], src))
    | (Some (Err e), _, src) => ([], (Some (Err e), [], src))
    | (Some Panic, _, src) => ([], (Some Panic, [], src))
    | (Some (Ok None), _, src) => (tell (decimal k ++ ascii_bytes ": peer terminated stream normally"), (Some (Ok None), [], src))
    | (Some (Ok (Some data)), _, src) =>
      match registry_lookup entries data with
      | Some h => (tell (request_line k data), (Some (Ok (Some h)), write_message id_protocol, src))
      | None =>
        let '(l, (r, out, src)) := request_said k fuel entries src in
        (tell (request_line k data) ++ l, (r, write_message na ++ out, src))
      end
    end
  end.
(** ipfs.rs:75-110 [connection_handler2]. *)
Definition handler2_said {H} (k : N) (entries : list (service H)) (src : list item)
  : list told * (option (outcome ioerr (option H)) * bytes * list item) :=
  let '(r, out, src) := multistream_handshake src in
  match r with
  | None => ([], (None, out, src))
  | Some (Err e) => ([], (Some (Err e), out, src))
  | Some Panic => ([], (Some Panic, out, src))
  | Some (Ok _) => let '(l, (r, out', src)) := request_said k (S (length src)) entries src in (l, (r, out ++ out', src))
  end.
(** identify.rs:60-73: the lines around the identify handler, which does not fail. *)
Definition identify_handler_lines : list told := tell (ascii_bytes "[identify] starting") ++ tell (ascii_bytes "[identify] finished").
(** ipfs.rs:112-125 [connection_handler] for the stream with number [k]. *)
Definition serve_said (key : bytes) (k : N) (src : list item) : list told * (option (outcome unit served) * bytes * list item) :=
  let '(l, (r, out, src)) := handler2_said k node_services src in
  match r with
  | None => (l, (None, out, src))
  | Some (Err e) => (l ++ complain (decimal k ++ ascii_bytes ": Handler error: " ++ io e), (Some (Ok (SFailed e)), out, src))
  | Some Panic => (l, (Some Panic, out, src))
  | Some (Ok None) => (l, (Some (Ok SEnded), out, src))
  | Some (Ok (Some HIdentify)) => (l ++ identify_handler_lines, (Some (Ok SIdentify), out ++ identify_handler key, src))
  | Some (Ok (Some HBitswap)) =>
    let '(out', lines, r, src') := bitswap_handler sha256 blake2b256 None src in
    (l ++ [Out (fst (handler_said sha256 blake2b256 quote utf8 io None src))], (option_map (fun r => Ok (SBitswap lines r)) r, out ++ out', src'))
  end.
(** ipfs.rs:127-154 [accept_loop]: what [accept] gives, one after the other; the streams
    accepted, with their numbers. *)
Inductive acceptance := AStream (src : list item) | ANoMore | AFailed (e : ioerr).
Fixpoint accept_said (count : N) (l : list acceptance) : list told * list (N * list item) :=
  match l with
  | [] => ([], [])
  | AStream src :: l =>
    let (t, s) := accept_said (count + 1) l in
    (tell (decimal count ++ ascii_bytes ": accept_loop(): new connection") ++ t, (count, src) :: s)
  | ANoMore :: _ => (tell (decimal count ++ ascii_bytes ": accept_loop(): no more connections (underlying transport closed)"), [])
  | AFailed e :: _ => (complain (decimal count ++ ascii_bytes ": accept_loop(): " ++ io e), [])
  end.

(** ipfs.rs:328-343 [identify_client_inner] and 314-326 [identify_client]. *)
Definition identify_error_text (e : node_error) : bytes :=
  match e with NIo e => io e | NPb e => pb_error_text utf8 e | NUnsupported s => ascii_bytes s | NTls => [] end.
Definition identify_client_said (src : list item) : list told * (option (outcome node_error (option identify)) * list item) :=
  let '(r, src') := identify_client_inner src in
  (tell (ascii_bytes "[identify] starting") ++
   match read_opt_message None src with
   | (Some (Ok None), _, _) => tell (ascii_bytes "[identify] peer closed connection")
   | (Some (Ok (Some data)), _, _) =>
     tell (ascii_bytes "Received " ++ decimal (blen data) ++ ascii_bytes " bytes of data") ++
     match identify_from_pb data with Ok i => tell (pretty (didentify quote ip6 i)) | _ => [] end
   | _ => []
   end ++
   match r with
   | Some (Ok _) => tell (ascii_bytes "[identify] finished")
   | Some (Err e) => tell (ascii_bytes "[identify] error: " ++ identify_error_text e)
   | _ => []
   end, (r, src')).
(** ipfs.rs:287-303 and 270-286: the two commands. *)
Definition identify_said (src : list item) : list told * (option (outcome node_error (option identify)) * bytes * list item) :=
  let '(r, out, src) := open_protocol id_protocol "identify protocol unsupported" src in
  match r with
  | None => ([], (None, out, src))
  | Some (Err e) => ([], (Some (Err e), out, src))
  | Some Panic => ([], (Some Panic, out, src))
  | Some (Ok _) => let '(l, (r, src)) := identify_client_said src in (tell (ascii_bytes "identify protocol accepted") ++ l, (r, out, src))
  end.
Definition show_said (text : bytes) (src : list item) : list told * (option (outcome node_error (list bs_line * outcome bs_error unit)) * bytes * list item) :=
  let '(r, out, src) := open_protocol bitswap_protocol "bitswap protocol unsupported" src in
  match r with
  | None => ([], (None, out, src))
  | Some (Err e) => ([], (Some (Err e), out, src))
  | Some Panic => ([], (Some Panic, out, src))
  | Some (Ok _) =>
    let '(out', lines, r, src') := bitswap_handler sha256 blake2b256 (Some text) src in
    (tell (ascii_bytes "bitswap protocol accepted") ++ [Out (fst (handler_said sha256 blake2b256 quote utf8 io (Some text) src))],
     (option_map (fun r => Ok (lines, r)) r, out ++ out', src'))
  end.
(** ipfs.rs:267-269: the third command. *)
Definition test_said : list told := tell (ascii_bytes "Test: sitting passively, waiting for connections").

(** ipfs.rs:186-201, 207-222: handshake, list, select. *)
Definition list_lines (where_ : string) (l : list bytes) : list told :=
  tell (ascii_bytes "Available protocols on " ++ ascii_bytes where_ ++ ascii_bytes " connection:") ++
  flat_map (fun p => tell (ascii_bytes "    " ++ escape_string p)) l.
Definition upgrade_said (where_ done : string) (protocol : bytes) (name : string) (src : list item)
  : list told * (option (outcome node_error (list bytes)) * bytes * list item) :=
  let '(r, out, src) := multistream_handshake src in
  match r with
  | None => ([], (None, out, src))
  | Some (Err e) => ([], (Some (Err (NIo e)), out, src))
  | Some Panic => ([], (Some Panic, out, src))
  | Some (Ok _) =>
    let hello := tell (ascii_bytes "Completed multistream handshake on " ++ ascii_bytes where_ ++ ascii_bytes " connection") in
    let '(r, out', src) := multistream_list lossy src in
    match r with
    | None => (hello, (None, out ++ out', src))
    | Some (Err e) => (hello, (Some (Err (NIo e)), out ++ out', src))
    | Some Panic => (hello, (Some Panic, out ++ out', src))
    | Some (Ok l) =>
      let '(r, out'', src) := negotiate protocol name src in
      (hello ++ list_lines where_ l ++ match r with Some (Ok _) => tell (ascii_bytes "Negotiated " ++ ascii_bytes done) | _ => [] end,
       (match r with
        | None => None
        | Some (Ok _) => Some (Ok l)
        | Some (Err e) => Some (Err e)
        | Some Panic => Some Panic
        end, out ++ out' ++ out'', src))
    end
  end.
(** ipfs.rs:172-224. *)
Definition dial_said (tls : list item -> option (list item)) (src : list item)
  : list told * (option (outcome node_error (list item)) * bytes * bytes) :=
  let '(l, (r, out, src)) := upgrade_said "TCP" "TLS" (ascii_bytes "/tls/1.0.0" ++ [10]) "/tls/1.0.0 is unsupported" src in
  let l := tell (ascii_bytes "Generated certificate") ++ l in
  match r with
  | None => (l, (None, out, []))
  | Some (Err e) => (l, (Some (Err e), out, []))
  | Some Panic => (l, (Some Panic, out, []))
  | Some (Ok _) =>
    match tls src with
    | None => (l, (Some (Err NTls), out, []))
    | Some plain =>
      let '(l', (r, out', plain)) := upgrade_said "TLS" "/mplex/6.7.0" (ascii_bytes "/mplex/6.7.0" ++ [10]) "/mplex/6.7.0 is unsupported" plain in
      (l ++ tell (ascii_bytes "Established TLS connection") ++ tell [] ++ l',
       (match r with
        | None => None
        | Some (Ok _) => Some (Ok plain)
        | Some (Err e) => Some (Err e)
        | Some Panic => Some Panic
        end, out, out'))
    end
  end.

(** quinntest.rs:60-76 [verify_server_cert]: whether the certificate is accepted; [written] is
    the text of the error of writing the file, if any; [name] is [Debug] of the server name. *)
Definition verify_said (written : option bytes) (name certificate : bytes) : list told * bool :=
  (tell (match written with
         | None => ascii_bytes "Wrote temp-server-certificate.der"
         | Some e => ascii_bytes "Error writing temp-server-certificate.der: " ++ e
         end) ++
   tell (ascii_bytes "Skipping verification for " ++ name), true).
(** quinntest.rs:251. *)
Definition quinn_cid : bytes := ascii_bytes "QmQPeNsJPyVWPFDVHb77w8G42Fvo15z4bG2X8D2GhfbSXc".
(** quinntest.rs:159-262 [main]: [connect] is what is printed while connecting (the
    certificate of the peer is looked at then) and the stream opened (197 and 217), if that
    succeeds. *)
Definition quinn_said (connect : list told * option (list item)) : list told * (option (outcome node_error (outcome bs_error unit)) * bytes * list item) :=
  let (c, conn) := connect in
  let l := tell (ascii_bytes "Before connect") ++ c in
  match conn with
  | None => (l, (None, [], []))
  | Some src =>
    let l := l ++ tell (ascii_bytes "After connect") ++ tell (ascii_bytes "Before multistream_handshake") in
    let '(r, out, src) := multistream_handshake src in
    match r with
    | None => (l, (None, out, src))
    | Some (Err e) => (l, (Some (Err (NIo e)), out, src))
    | Some Panic => (l, (Some Panic, out, src))
    | Some (Ok _) =>
      let l := l ++ tell (ascii_bytes "Completed multistream handshake on bidi connection") in
      let '(r, out', src) := negotiate bitswap_protocol "bitswap protocol unsupported" src in
      match r with
      | None => (l, (None, out ++ out', src))
      | Some (Err e) => (l, (Some (Err e), out ++ out', src))
      | Some Panic => (l, (Some Panic, out ++ out', src))
      | Some (Ok _) =>
        let '(out'', _, r, src') := bitswap_handler sha256 blake2b256 (Some quinn_cid) src in
        (l ++ tell (ascii_bytes "bitswap protocol accepted") ++ [Out (fst (handler_said sha256 blake2b256 quote utf8 io (Some quinn_cid) src))],
         (option_map Ok r, out ++ out' ++ out'', src'))
      end
    end
  end.
End Log.
