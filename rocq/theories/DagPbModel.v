(** Model of src/ipfs/dagpb.rs. *)
From Verif Require Import Base VarintModel ProtobufModel CidModel.
Local Open Scope string_scope. Local Open Scope list_scope. Local Open Scope N_scope.

(** dagpb.rs:8-12 [PBLink]; a [String] is its UTF-8 bytes. *)
Record pb_link := { lk_hash : cid; lk_name : option bytes; lk_tsize : option N }.

(** dagpb.rs:24-36 [PBLink::to_pb]. *)
Definition link_to_pb (l : pb_link) : bytes :=
  let w := write_bytes [] 1 (cid_to_bytes (lk_hash l)) in
  let w := match lk_name l with Some name => write_string w 2 name | None => w end in
  match lk_tsize l with Some tsize => write_uint64 w 3 tsize | None => w end.

(** dagpb.rs:41-43 the variables of the loop of [PBLink::from_pb]. *)
Record link_vars := { lv_hash : option bytes; lv_name : option bytes; lv_tsize : option N }.
(** dagpb.rs:48-64 the loop body. *)
Definition link_body (s : link_vars) (n : N) (d : field_data) : outcome from_pb_error link_vars :=
  if n =? 1 then
    match lv_hash s with
    | Some _ => Err (PDuplicateField "hash")
    | None => let? b := access (fd_to_bytes d) in
              Ok {| lv_hash := Some b; lv_name := lv_name s; lv_tsize := lv_tsize s |}
    end
  else if n =? 2 then
    match lv_name s with
    | Some _ => Err (PDuplicateField "name")
    | None => let? b := access (fd_to_string d) in
              Ok {| lv_hash := lv_hash s; lv_name := Some b; lv_tsize := lv_tsize s |}
    end
  else if n =? 3 then
    match lv_tsize s with
    | Some _ => Err (PDuplicateField "tsize")
    | None => let? v := access (fd_to_uint64 d) in
              Ok {| lv_hash := lv_hash s; lv_name := lv_name s; lv_tsize := Some v |}
    end
  else Ok s.
(** dagpb.rs:38-72 [PBLink::from_pb]. *)
Definition link_from_pb (b : bytes) : outcome from_pb_error pb_link :=
  let? s := pb_parse link_body b {| lv_hash := None; lv_name := None; lv_tsize := None |} in
  let? h := of_option (PMissingField "hash") (lv_hash s) in
  let? c := map_err (fun _ => PPlain "Invalid cid") (cid_from_bytes h) in
  Ok {| lk_hash := c; lk_name := lv_name s; lk_tsize := lv_tsize s |}.

(** dagpb.rs:74-77 [PBNode]. *)
Record pb_node := { nd_links : list pb_link; nd_bytes : option bytes }.

(** dagpb.rs:88-99 [PBNode::to_pb]. *)
Definition node_to_pb (n : pb_node) : bytes :=
  let w := fold_left (fun w l => write_bytes w 2 (link_to_pb l)) (nd_links n) [] in
  match nd_bytes n with Some b => write_bytes w 1 b | None => w end.

(** dagpb.rs:115-124 the loop body of [PBNode::from_pb]. *)
Definition node_body (s : pb_node) (n : N) (d : field_data) : outcome from_pb_error pb_node :=
  if n =? 2 then
    let? b := access (fd_to_bytes d) in
    let? l := link_from_pb b in
    Ok {| nd_links := nd_links s ++ [l]; nd_bytes := nd_bytes s |}
  else if n =? 1 then
    match nd_bytes s with
    | Some _ => Err (PDuplicateField "bytes")
    | None => let? b := access (fd_to_bytes d) in
              Ok {| nd_links := nd_links s; nd_bytes := Some b |}
    end
  else Ok s.
(** dagpb.rs:101-129 [PBNode::from_pb]. *)
Definition node_from_pb (b : bytes) : outcome from_pb_error pb_node :=
  match b with
  | [] => Ok {| nd_links := []; nd_bytes := None |}
  | _ => pb_parse node_body b {| nd_links := []; nd_bytes := None |}
  end.
