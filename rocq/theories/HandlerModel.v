(** Model of src/ipfs/identify.rs and src/ipfs/bitswap/handler.rs: what the two protocol
    handlers do with the stream the request loop hands to them.

    Simplifications: reading and writing are as in LpioModel (a write never fails); the
    stream is flushed after each write and shut down exactly when the result is [Ok]
    (identify.rs:55-57, handler.rs:121-123), so shutting down is not a separate value.  Of
    the log, only the lines that carry what was received are kept. *)
From Verif Require Import Base VarintModel MplexModel ProtobufModel CidModel CidTextModel IdentifyModel BitswapModel BlockModel DagPbModel UnixfsModel LpioModel.
Local Open Scope string_scope. Local Open Scope list_scope. Local Open Scope N_scope.

(** identify.rs:18-51: the [Identify] value; [host_key] is the bytes of the node's public
    key. *)
Definition handler_identify (host_key : bytes) : identify :=
  {| id_protocol_version := ascii_bytes "ipfs/0.1.0"; id_agent_version := ascii_bytes "test/0.0.0";
     id_public_key := {| pk_type := KEd25519; pk_data := host_key |};
     id_listen_addrs := [[AIP4 [127; 0; 0; 1]; ATCP 4001]];
     id_observed_addr := [AIP4 [127; 0; 0; 1]; ATCP 4004];
     id_protocols := [ascii_bytes "/ipfs/id/1.0.0"; ascii_bytes "/ipfs/bitswap/1.2.0"];
     id_signed_peer_record := None |}.
(** identify.rs:14-58 [identify_handler_inner]: what is written; nothing is read. *)
Definition identify_handler (host_key : bytes) : bytes :=
  write_message (identify_to_pb (handler_identify host_key)).

(** bin/ipfs.rs:11-12, 168-170: the services of the node. *)
Inductive handler := HIdentify | HBitswap.
Definition node_services : list (service handler) :=
  registry_add (registry_add [] (ascii_bytes "/ipfs/id/1.0.0") HIdentify) (ascii_bytes "/ipfs/bitswap/1.2.0") HBitswap.

(** The [Box<dyn Error>] of handler.rs. *)
Inductive bs_error :=
| BCid (e : cid_text_error) | BIo (e : ioerr) | BPrefix (e : cid_error) | BBlock (e : string)
| BPb (e : from_pb_error) | BFs (e : fs_error).
(** The log lines of handler.rs that are kept: 62 (closed), 75 (decoding failed), 84 (does
    the message encode to what was received), 94-96 (the CID of a block), 110-114 (the
    entries of a directory). *)
Inductive bs_line :=
| LClosed | LBadMessage (e : from_pb_error) | LSame (same : bool) | LCid (c : cid) | LDirectory (entries : list dir_entry).

(** handler.rs:33-48: the message that asks for [c]. *)
Definition request_message (c : cid) : bs_message :=
  {| bm_wantlist := Some {| wl_entries := [{| en_block := cid_to_bytes c; en_priority := 1; en_cancel := false;
                                              en_want_type := WBlock; en_send_dont_have := true |}];
                            wl_full := false |};
     bm_blocks := []; bm_payload := []; bm_block_presence := []; bm_pending_bytes := None |}.

Section Handler.
Context (sha256 blake2b256 : bytes -> bytes).
(** handler.rs:90-118: one block; [Node::from_dagpb_data] only ever gives a directory. *)
Definition handle_block (b : block) : list bs_line * outcome bs_error unit :=
  match map_err BPrefix (cid_prefix_from_bytes (bl_prefix b)) with
  | Err e => ([], Err e)
  | Panic => ([], Panic)
  | Ok prefix =>
    match map_err BBlock (get_block_cid sha256 blake2b256 prefix (bl_data b)) with
    | Err e => ([], Err e)
    | Panic => ([], Panic)
    | Ok c =>
      match (let? node := map_err BPb (node_from_pb (bl_data b)) in
             let? _ := (match nd_bytes node with
                        | None => Ok tt
                        | Some data => let? _ := map_err BPb (fs_data_from_pb data) in Ok tt
                        end) in
             map_err BFs (fs_node_from_dagpb (bl_data b))) with
      | Err e => ([LCid c], Err e)
      | Panic => ([LCid c], Panic)
      | Ok entries => ([LCid c; LDirectory entries], Ok tt)
      end
    end
  end.
(** handler.rs:90: the loop over the blocks. *)
Fixpoint handle_blocks (bs : list block) : list bs_line * outcome bs_error unit :=
  match bs with
  | [] => ([], Ok tt)
  | b :: bs =>
    match handle_block b with
    | (l, Ok _) => let (l', r) := handle_blocks bs in (l ++ l', r)
    | (l, r) => (l, r)
    end
  end.
(** handler.rs:56-120: the loop; the reader is left where it was left. *)
Fixpoint bitswap_loop (fuel : nat) (src : list item) : list bs_line * option (outcome bs_error unit) * list item :=
  match fuel with
  | O => ([], None, src)
  | S fuel =>
    match read_opt_message None src with
    | (None, _, src) => ([], None, src)
    | (Some (Err e), _, src) => ([], Some (Err (BIo e)), src)
    | (Some Panic, _, src) => ([], Some Panic, src)
    | (Some (Ok None), _, src) => ([LClosed], Some (Ok tt), src)
    | (Some (Ok (Some data)), _, src) =>
      match bs_message_from_pb data with
      | Err e => ([LBadMessage e], Some (Ok tt), src)
      | Panic => ([], Some Panic, src)
      | Ok m =>
        let same := LSame (bytes_eqb (bs_message_to_pb m) data) in
        match handle_blocks (bm_blocks m) with
        | (l, Ok _) => let '(l', r, src) := bitswap_loop fuel src in (same :: l ++ l', r, src)
        | (l, r) => (same :: l, Some r, src)
        end
      end
    end
  end.
(** handler.rs:20-125 [bitswap_handler_inner]: what is written, what is logged, the
    result, and the rest of the stream.  Each message takes a byte, so the fuel is
    enough. *)
Definition bitswap_handler (show_cid : option bytes) (src : list item)
  : bytes * list bs_line * option (outcome bs_error unit) * list item :=
  match show_cid with
  | None => let '(l, r, src) := bitswap_loop (S (length src)) src in ([], l, r, src)
  | Some text =>
    match cid_from_string text with
    | Err e => ([], [], Some (Err (BCid e)), src)
    | Panic => ([], [], Some Panic, src)
    | Ok c =>
      let out := write_message (bs_message_to_pb (request_message c)) in
      let '(l, r, src) := bitswap_loop (S (length src)) src in (out, l, r, src)
    end
  end.
End Handler.
