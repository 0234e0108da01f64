(** Model of src/ipfs/bitswap/message.rs.  The [println!]s are not modelled;
    [CID::from_bytes] in lines 80-88 only decides what is printed (its totality is
    theorem C26_cid_from_bytes_total). *)
From Verif Require Import Base VarintModel ProtobufModel.
Local Open Scope string_scope. Local Open Scope list_scope. Local Open Scope N_scope.

(** message.rs:7-10 [WantType]. *)
Inductive want_type := WBlock | WHave.
(** message.rs:13-19 [Entry]. *)
Record entry := {
  en_block : bytes; en_priority : Z; en_cancel : bool; en_want_type : want_type;
  en_send_dont_have : bool }.
(** message.rs:21-38 [Entry::to_pb]. *)
Definition entry_to_pb (e : entry) : bytes :=
  let w := write_bytes [] 1 (en_block e) in
  let w := write_int32 w 2 (en_priority e) in
  let w := if en_cancel e then write_bool w 3 (en_cancel e) else w in
  let w := match en_want_type e with
           | WBlock => write_int32 w 4 0
           | WHave => write_int32 w 4 1
           end in
  if en_send_dont_have e then write_bool w 5 (en_send_dont_have e) else w.
(** message.rs:43-47 the loop variables and their defaults. *)
Record entry_vars := {
  ev_block : option bytes; ev_priority : Z; ev_cancel : bool; ev_want_type : want_type;
  ev_send_dont_have : bool }.
Definition entry_vars0 : entry_vars :=
  {| ev_block := None; ev_priority := 1; ev_cancel := false; ev_want_type := WBlock;
     ev_send_dont_have := false |}.
(** message.rs:53-75 the loop body. *)
Definition entry_body (s : entry_vars) (n : N) (d : field_data) : outcome from_pb_error entry_vars :=
  if n =? 1 then
    let? b := access (fd_to_bytes d) in
    Ok {| ev_block := Some b; ev_priority := ev_priority s; ev_cancel := ev_cancel s;
          ev_want_type := ev_want_type s; ev_send_dont_have := ev_send_dont_have s |}
  else if n =? 2 then
    let? z := access (fd_to_int32 d) in
    Ok {| ev_block := ev_block s; ev_priority := z; ev_cancel := ev_cancel s;
          ev_want_type := ev_want_type s; ev_send_dont_have := ev_send_dont_have s |}
  else if n =? 3 then
    let? c := access (fd_to_bool d) in
    Ok {| ev_block := ev_block s; ev_priority := ev_priority s; ev_cancel := c;
          ev_want_type := ev_want_type s; ev_send_dont_have := ev_send_dont_have s |}
  else if n =? 4 then
    let? v := access (fd_to_uint64 d) in
    let? t := (if v =? 0 then Ok WBlock else if v =? 1 then Ok WHave
               else Err (PPlain "Invalid want_type")) in
    Ok {| ev_block := ev_block s; ev_priority := ev_priority s; ev_cancel := ev_cancel s;
          ev_want_type := t; ev_send_dont_have := ev_send_dont_have s |}
  else if n =? 5 then
    let? c := access (fd_to_bool d) in
    Ok {| ev_block := ev_block s; ev_priority := ev_priority s; ev_cancel := ev_cancel s;
          ev_want_type := ev_want_type s; ev_send_dont_have := c |}
  else Ok s.
(** message.rs:40-98 [Entry::from_pb]. *)
Definition entry_from_pb (b : bytes) : outcome from_pb_error entry :=
  let? s := pb_parse entry_body b entry_vars0 in
  let? blk := of_option (PMissingField "block") (ev_block s) in
  Ok {| en_block := blk; en_priority := ev_priority s; en_cancel := ev_cancel s;
        en_want_type := ev_want_type s; en_send_dont_have := ev_send_dont_have s |}.

(** message.rs:101-104 [WantList]. *)
Record want_list := { wl_entries : list entry; wl_full : bool }.
(** message.rs:106-117 [WantList::to_pb]. *)
Definition wantlist_to_pb (w : want_list) : bytes :=
  let b := fold_left (fun b e => write_bytes b 1 (entry_to_pb e)) (wl_entries w) [] in
  if wl_full w then write_bool b 2 (wl_full w) else b.
(** message.rs:129-137 the loop body. *)
Definition wantlist_body (s : want_list) (n : N) (d : field_data) : outcome from_pb_error want_list :=
  if n =? 1 then
    let? b := access (fd_to_bytes d) in
    let? e := entry_from_pb b in
    Ok {| wl_entries := wl_entries s ++ [e]; wl_full := wl_full s |}
  else if n =? 2 then
    let? c := access (fd_to_bool d) in
    Ok {| wl_entries := wl_entries s; wl_full := c |}
  else Ok s.
(** message.rs:119-145 [WantList::from_pb]. *)
Definition wantlist_from_pb (b : bytes) : outcome from_pb_error want_list :=
  pb_parse wantlist_body b {| wl_entries := []; wl_full := false |}.

(** message.rs:148-151 [Block]. *)
Record block := { bl_prefix : bytes; bl_data : bytes }.
(** message.rs:153-160 [Block::to_pb]. *)
Definition block_to_pb (b : block) : bytes :=
  write_bytes (write_bytes [] 1 (bl_prefix b)) 2 (bl_data b).
(** message.rs:164-165 the loop variables. *)
Record block_vars := { bv_prefix : option bytes; bv_data : option bytes }.
(** message.rs:170-180 the loop body. *)
Definition block_body (s : block_vars) (n : N) (d : field_data) : outcome from_pb_error block_vars :=
  if n =? 1 then
    match bv_prefix s with
    | Some _ => Err (PDuplicateField "prefix")
    | None => let? b := access (fd_to_bytes d) in
              Ok {| bv_prefix := Some b; bv_data := bv_data s |}
    end
  else if n =? 2 then
    match bv_data s with
    | Some _ => Err (PDuplicateField "data")
    | None => let? b := access (fd_to_bytes d) in
              Ok {| bv_prefix := bv_prefix s; bv_data := Some b |}
    end
  else Ok s.
(** message.rs:162-191 [Block::from_pb]. *)
Definition block_from_pb (b : bytes) : outcome from_pb_error block :=
  let? s := pb_parse block_body b {| bv_prefix := None; bv_data := None |} in
  let? p := of_option (PMissingField "prefix") (bv_prefix s) in
  let? x := of_option (PMissingField "data") (bv_data s) in
  Ok {| bl_prefix := p; bl_data := x |}.

(** message.rs:203-212 [BlockPresence]. *)
Inductive presence_type := PHave | PDontHave.
Record block_presence := { bp_cid : bytes; bp_type : presence_type }.
(** message.rs:221-227 [Message]. *)
Record bs_message := {
  bm_wantlist : option want_list; bm_blocks : list block; bm_payload : list block;
  bm_block_presence : list block_presence; bm_pending_bytes : option N }.
(** message.rs:229-240 [Message::to_pb]: payload, block_presence and pending_bytes are
    not written. *)
Definition bs_message_to_pb (m : bs_message) : bytes :=
  let w := match bm_wantlist m with
           | Some l => write_bytes [] 1 (wantlist_to_pb l) | None => [] end in
  fold_left (fun w b => write_bytes w 3 (block_to_pb b)) (bm_blocks m) w.
(** message.rs:244-248, 253-260 the loop variables that change, and the loop body. *)
Record bs_vars := { mv_wantlist : option want_list; mv_blocks : list block }.
Definition bs_body (s : bs_vars) (n : N) (d : field_data) : outcome from_pb_error bs_vars :=
  if n =? 1 then
    match mv_wantlist s with
    | Some _ => Err (PDuplicateField "wantlist")
    | None => let? b := access (fd_to_bytes d) in
              let? w := wantlist_from_pb b in
              Ok {| mv_wantlist := Some w; mv_blocks := mv_blocks s |}
    end
  else if n =? 3 then
    let? b := access (fd_to_bytes d) in
    let? x := block_from_pb b in
    Ok {| mv_wantlist := mv_wantlist s; mv_blocks := mv_blocks s ++ [x] |}
  else Ok s.
(** message.rs:242-271 [Message::from_pb]. *)
Definition bs_message_from_pb (b : bytes) : outcome from_pb_error bs_message :=
  let? s := pb_parse bs_body b {| mv_wantlist := None; mv_blocks := [] |} in
  Ok {| bm_wantlist := mv_wantlist s; bm_blocks := mv_blocks s; bm_payload := [];
        bm_block_presence := []; bm_pending_bytes := None |}.
