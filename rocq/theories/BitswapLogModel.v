(** Model of everything that the Bitswap handler prints: src/ipfs/bitswap/handler.rs and the
    [println!]s of src/ipfs/bitswap/message.rs.  The functions are those of BitswapModel.v
    and HandlerModel.v, each with the text it prints; BitswapLogProps.v shows that the
    results are the same.

    Printing is taken to succeed.  Parameters: SHA2-256 and BLAKE2b-256; [quote], [Debug] of
    a string; [utf8], the text of an error about invalid UTF-8; [io], the text of an I/O
    error. *)
From Coq Require Import String Ascii.
From Verif Require Import Base UtilModel ChatModel VarintModel ProtobufModel CidModel CidTextModel IdentifyModel BitswapModel BlockModel DagPbModel UnixfsModel
  MplexModel LpioModel HandlerModel HexDumpModel NamesModel DebugModel IpfsTextModel.
Local Open Scope string_scope. Local Open Scope list_scope. Local Open Scope N_scope.

(** What is printed, and the result. *)
Definition said (E A : Type) : Type := (bytes * outcome E A)%type.
Definition silent {E A} (r : outcome E A) : said E A := ([], r).
Definition andthen {E A B} (x : said E A) (k : A -> said E B) : said E B :=
  match x with
  | (t, Ok a) => let (t', r) := k a in (t ++ t', r)
  | (t, Err e) => (t, Err e)
  | (t, Panic) => (t, Panic)
  end.
(** [println!]. *)
Definition say (t : bytes) : bytes := t ++ [10].

(** The loop [while let Some(field) = reader.read_field()? { println!(..); match .. }]: the
    line has the field number and the wire type. *)
Definition field_line (name : bytes) (f : field_ref) : bytes :=
  say (name ++ ascii_bytes ": field " ++ decimal (fr_number f) ++ ascii_bytes " wire_type " ++ decimal (fr_wire_type f)).
Fixpoint pb_loop_said {S : Type} (name : bytes) (body : S -> N -> field_data -> said from_pb_error S)
    (fuel : nat) (r : pb_reader) (s : S) : said from_pb_error S :=
  match fuel with
  | O => silent (Err POutOfFuel)
  | Datatypes.S fuel' =>
    andthen (silent (map_err PRead (rd_field r))) (fun f =>
    match f with
    | None => silent (Ok s)
    | Some (fr, r') =>
      let (t, x) := andthen (body s (fr_number fr) (fr_data fr)) (pb_loop_said name body fuel' r') in
      (field_line name fr ++ t, x)
    end)
  end.
Definition pb_parse_said {S : Type} (name : bytes) (body : S -> N -> field_data -> said from_pb_error S)
    (data : bytes) (s : S) : said from_pb_error S :=
  pb_loop_said name body (Datatypes.S (length data)) (reader_new data) s.

(** message.rs:40-98 [Entry::from_pb]; lines 79-88: the CID, if the block is one. *)
Definition block_line (b : bytes) : bytes :=
  match cid_from_bytes b with
  | Ok c => say (ascii_bytes "Parsed CID: " ++ pretty (dcid c)) ++ say (ascii_bytes "CID = " ++ cid_to_string c)
  | Err e => say (ascii_bytes "Parsing CID failed: " ++ ascii_bytes (cid_error_text e))
  | Panic => []
  end.
Definition entry_said (b : bytes) : said from_pb_error entry :=
  andthen (pb_parse_said (ascii_bytes "        Entry") (fun s n d => silent (entry_body s n d)) b entry_vars0) (fun s =>
  match ev_block s with
  | None => silent (Err (PMissingField "block"))
  | Some block =>
    (block_line block,
     Ok {| en_block := block; en_priority := ev_priority s; en_cancel := ev_cancel s; en_want_type := ev_want_type s;
           en_send_dont_have := ev_send_dont_have s |})
  end).
(** message.rs:119-145 [WantList::from_pb]. *)
Definition wantlist_body_said (s : want_list) (n : N) (d : field_data) : said from_pb_error want_list :=
  if n =? 1 then
    andthen (silent (access (fd_to_bytes d))) (fun b =>
    andthen (entry_said b) (fun e => silent (Ok {| wl_entries := wl_entries s ++ [e]; wl_full := wl_full s |})))
  else silent (wantlist_body s n d).
Definition wantlist_said (b : bytes) : said from_pb_error want_list :=
  pb_parse_said (ascii_bytes "    WantList") wantlist_body_said b {| wl_entries := []; wl_full := false |}.
(** message.rs:162-191 [Block::from_pb]. *)
Definition block_said (b : bytes) : said from_pb_error block :=
  andthen (pb_parse_said (ascii_bytes "    Block") (fun s n d => silent (block_body s n d)) b {| bv_prefix := None; bv_data := None |}) (fun s =>
  silent (let? p := of_option (PMissingField "prefix") (bv_prefix s) in
          let? x := of_option (PMissingField "data") (bv_data s) in
          Ok {| bl_prefix := p; bl_data := x |})).
(** message.rs:242-271 [Message::from_pb]. *)
Definition message_body_said (s : bs_vars) (n : N) (d : field_data) : said from_pb_error bs_vars :=
  if n =? 1 then
    match mv_wantlist s with
    | Some _ => silent (Err (PDuplicateField "wantlist"))
    | None => andthen (silent (access (fd_to_bytes d))) (fun b =>
              andthen (wantlist_said b) (fun w => silent (Ok {| mv_wantlist := Some w; mv_blocks := mv_blocks s |})))
    end
  else if n =? 3 then
    andthen (silent (access (fd_to_bytes d))) (fun b =>
    andthen (block_said b) (fun x => silent (Ok {| mv_wantlist := mv_wantlist s; mv_blocks := mv_blocks s ++ [x] |})))
  else silent (Ok s).
Definition message_said (b : bytes) : said from_pb_error bs_message :=
  andthen (pb_parse_said (ascii_bytes "Message") message_body_said b {| mv_wantlist := None; mv_blocks := [] |}) (fun s =>
  silent (Ok {| bm_wantlist := mv_wantlist s; bm_blocks := mv_blocks s; bm_payload := []; bm_block_presence := []; bm_pending_bytes := None |})).

Section Log.
Context (sha256 blake2b256 : bytes -> bytes) (quote : bytes -> bytes) (utf8 : bytes) (io : ioerr -> bytes).
(** [{:64}] of a text and [{:<12}] of a number: padded on the right. *)
Definition pad_right (w : nat) (t : bytes) : bytes := t ++ repeat 32 (w - length t).
(** handler.rs:112: one line of a directory. *)
Definition entry_row (e : dir_entry) : bytes :=
  say (pad_right 64 (cid_to_string (de_cid e)) ++ ascii_bytes " " ++ pad_right 12 (decimal (de_tsize e)) ++ ascii_bytes " " ++ de_name e).
(** handler.rs:99-105: the UnixFS data of a node. *)
Definition data_said (o : option bytes) : said bs_error unit :=
  match o with
  | None => (say (ascii_bytes "data = None"), Ok tt)
  | Some b =>
    match map_err BPb (fs_data_from_pb b) with
    | Ok d => (say (ascii_bytes "data =" ++ [10] ++ pretty (dfs_data d)), Ok tt)
    | Err e => silent (Err e)
    | Panic => silent Panic
    end
  end.
(** handler.rs:88-119: block number [index] of a message of [size] bytes. *)
Definition handle_block_said (size : N) (index : nat) (b : block) : said bs_error unit :=
  andthen (say (ascii_bytes "Block " ++ decimal (N.of_nat index) ++ ascii_bytes ":"),
           map_err BPrefix (cid_prefix_from_bytes (bl_prefix b))) (fun prefix =>
  andthen (say (ascii_bytes "cid_prefix = " ++ plain (dprefix prefix)),
           map_err BBlock (get_block_cid sha256 blake2b256 prefix (bl_data b))) (fun c =>
  andthen (say (ascii_bytes "cid = " ++ plain (dcid c)) ++ say (ascii_bytes "    = " ++ cid_to_string c) ++
           say (ascii_bytes "data.len() = " ++ decimal size),
           map_err BPb (node_from_pb (bl_data b))) (fun node =>
  andthen (say (ascii_bytes "node =" ++ [10] ++ pretty (dnode quote node)), Ok tt) (fun _ =>
  andthen (data_said (nd_bytes node)) (fun _ =>
  andthen (silent (map_err BFs (fs_node_from_dagpb (bl_data b)))) (fun entries =>
  (say (ascii_bytes "directory fs node") ++ flat_map entry_row entries, Ok tt))))))).
Fixpoint handle_blocks_said (size : N) (index : nat) (bs : list block) : said bs_error unit :=
  match bs with
  | [] => silent (Ok tt)
  | b :: bs => andthen (handle_block_said size index b) (fun _ => handle_blocks_said size (S index) bs)
  end.
(** handler.rs:81-86: is the message encoded as it was received? *)
Definition compare_text (data encoded : bytes) : bytes :=
  if bytes_eqb encoded data then say (ascii_bytes "**************** Encoded message matches? true")
  else say (ascii_bytes "**************** Encoded message matches? false") ++
       say (ascii_bytes "original =" ++ [10] ++ indent (dump_alternate data)) ++
       say (ascii_bytes "encoded =" ++ [10] ++ indent (dump_alternate encoded)).
(** handler.rs:58-121: the loop. *)
Fixpoint loop_said (fuel : nat) (src : list item) : bytes * option (outcome bs_error unit) * list item :=
  match fuel with
  | O => ([], None, src)
  | S fuel =>
    match read_opt_message None src with
    | (None, _, src) => ([], None, src)
    | (Some (Err e), _, src) => ([], Some (Err (BIo e)), src)
    | (Some Panic, _, src) => ([], Some Panic, src)
    | (Some (Ok None), _, src) => (say (ascii_bytes "[bitswap] peer closed connection"), Some (Ok tt), src)
    | (Some (Ok (Some data)), _, src) =>
      let received := say (ascii_bytes "[bitswap] received " ++ decimal (blen data) ++ ascii_bytes " bytes:") in
      match message_said data with
      | (t, Err e) => (received ++ t ++ say (ascii_bytes "[bitswap] decoding message failed: " ++ pb_error_text utf8 e), Some (Ok tt), src)
      | (t, Panic) => (received ++ t, Some Panic, src)
      | (t, Ok m) =>
        match handle_blocks_said (blen data) 0 (bm_blocks m) with
        | (l, Ok _) =>
          let '(l', r, src) := loop_said fuel src in
          (received ++ t ++ compare_text data (bs_message_to_pb m) ++ l ++ l', r, src)
        | (l, r) => (received ++ t ++ compare_text data (bs_message_to_pb m) ++ l, Some r, src)
        end
      end
    end
  end.
(** handler.rs:20-126 [bitswap_handler_inner]. *)
Definition inner_said (show_cid : option bytes) (src : list item) : bytes * option (outcome bs_error unit) * list item :=
  match show_cid with
  | None => loop_said (S (length src)) src
  | Some text =>
    match cid_from_string text with
    | Err e => ([], Some (Err (BCid e)), src)
    | Panic => ([], Some Panic, src)
    | Ok _ =>
      let '(l, r, src) := loop_said (S (length src)) src in
      (say (ascii_bytes "Before sending request") ++ say (ascii_bytes "After sending request") ++ l, r, src)
    end
  end.
(** The text of a [Box<dyn Error>]; [text] is the text given as a CID. *)
Definition bs_error_text (text : bytes) (e : bs_error) : bytes :=
  match e with
  | BCid e => cid_text_error_text text e
  | BIo e => io e
  | BPrefix e => ascii_bytes (cid_error_text e)
  | BBlock e => ascii_bytes e
  | BPb e => pb_error_text utf8 e
  | BFs e => fs_error_text quote (pb_error_text utf8) e
  end.
(** handler.rs:129-141 [bitswap_handler_show], 143-155 [bitswap_handler]: all that is
    printed for one stream.  While the stream stays open nothing follows; a panic prints to
    standard error. *)
Definition handler_said (show_cid : option bytes) (src : list item) : bytes * option (outcome bs_error unit) :=
  let '(l, r, _) := inner_said show_cid src in
  (say (ascii_bytes "[bitswap] starting") ++ l ++
   match r with
   | Some (Ok _) => say (ascii_bytes "[bitswap] finished")
   | Some (Err e) => say (ascii_bytes "[bitswap] error: " ++ bs_error_text (match show_cid with Some t => t | None => [] end) e)
   | _ => []
   end, r).
End Log.
