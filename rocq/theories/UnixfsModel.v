(** Model of src/ipfs/unixfs.rs and src/ipfs/fs.rs. *)
From Verif Require Import Base VarintModel ProtobufModel CidModel DagPbModel.
Local Open Scope string_scope. Local Open Scope list_scope. Local Open Scope N_scope.

(** ** unixfs.rs *)
(** unixfs.rs:7-14 [DataType]. *)
Inductive data_type := TRaw | TDirectory | TFile | TMetadata | TSymlink | THAMTShard.
(** unixfs.rs:17-27 [DataType::from_u64]. *)
Definition data_type_of (v : N) : outcome from_pb_error data_type :=
  if v =? 0 then Ok TRaw else if v =? 1 then Ok TDirectory else if v =? 2 then Ok TFile
  else if v =? 3 then Ok TMetadata else if v =? 4 then Ok TSymlink
  else if v =? 5 then Ok THAMTShard else Err (PPlain "unknown data type").
(** unixfs.rs:29-38 [DataType::to_u8]. *)
Definition data_type_num (t : data_type) : N :=
  match t with
  | TRaw => 0 | TDirectory => 1 | TFile => 2 | TMetadata => 3 | TSymlink => 4 | THAMTShard => 5
  end.
(** unixfs.rs:137-140 [UnixTime]. *)
Record unix_time := { ut_seconds : Z; ut_nanos : option N }.
(** unixfs.rs:144-145 the loop variables; 149-159 the loop body. *)
Record ut_vars := { uv_seconds : option Z; uv_nanos : option N }.
Definition ut_body (s : ut_vars) (n : N) (d : field_data) : outcome from_pb_error ut_vars :=
  if n =? 1 then
    match uv_seconds s with
    | Some _ => Err (PDuplicateField "seconds")
    | None => let? z := access (fd_to_int64 d) in
              Ok {| uv_seconds := Some z; uv_nanos := uv_nanos s |}
    end
  else if n =? 2 then
    match uv_nanos s with
    | Some _ => Err (PDuplicateField "fractional_nanoseconds")
    | None => let? v := access (fd_to_fixed32 d) in
              Ok {| uv_seconds := uv_seconds s; uv_nanos := Some v |}
    end
  else Ok s.
(** unixfs.rs:142-165 [UnixTime::from_pb]. *)
Definition unix_time_from_pb (b : bytes) : outcome from_pb_error unix_time :=
  let? s := pb_parse ut_body b {| uv_seconds := None; uv_nanos := None |} in
  let? z := of_option (PMissingField "seconds") (uv_seconds s) in
  Ok {| ut_seconds := z; ut_nanos := uv_nanos s |}.

(** unixfs.rs:41-50 [Data]. *)
Record fs_data := {
  fd_type : data_type; fd_bytes : option bytes; fd_filesize : option N;
  fd_blocksizes : list N; fd_hash_type : option N; fd_fanout : option N;
  fd_mode : option N; fd_mtime : option unix_time }.
(** unixfs.rs:72-79 the loop variables. *)
Record fs_vars := {
  fv_type : option data_type; fv_bytes : option bytes; fv_filesize : option N;
  fv_blocksizes : list N; fv_hash_type : option N; fv_fanout : option N;
  fv_mode : option N; fv_mtime : option unix_time }.
Definition fs_vars0 : fs_vars :=
  {| fv_type := None; fv_bytes := None; fv_filesize := None; fv_blocksizes := [];
     fv_hash_type := None; fv_fanout := None; fv_mode := None; fv_mtime := None |}.
(** unixfs.rs:83-114 the loop body. *)
Definition fs_body (s : fs_vars) (n : N) (d : field_data) : outcome from_pb_error fs_vars :=
  if n =? 1 then
    match fv_type s with
    | Some _ => Err (PDuplicateField "type")
    | None => let? v := access (fd_to_uint64 d) in
      let? t := data_type_of v in
      Ok {| fv_type := Some t; fv_bytes := fv_bytes s; fv_filesize := fv_filesize s;
            fv_blocksizes := fv_blocksizes s; fv_hash_type := fv_hash_type s;
            fv_fanout := fv_fanout s; fv_mode := fv_mode s; fv_mtime := fv_mtime s |}
    end
  else if n =? 2 then
    match fv_bytes s with
    | Some _ => Err (PDuplicateField "data")
    | None => let? b := access (fd_to_bytes d) in
      Ok {| fv_type := fv_type s; fv_bytes := Some b; fv_filesize := fv_filesize s;
            fv_blocksizes := fv_blocksizes s; fv_hash_type := fv_hash_type s;
            fv_fanout := fv_fanout s; fv_mode := fv_mode s; fv_mtime := fv_mtime s |}
    end
  else if n =? 3 then
    match fv_filesize s with
    | Some _ => Err (PDuplicateField "filesize")
    | None => let? v := access (fd_to_uint64 d) in
      Ok {| fv_type := fv_type s; fv_bytes := fv_bytes s; fv_filesize := Some v;
            fv_blocksizes := fv_blocksizes s; fv_hash_type := fv_hash_type s;
            fv_fanout := fv_fanout s; fv_mode := fv_mode s; fv_mtime := fv_mtime s |}
    end
  else if n =? 4 then
    let? v := access (fd_to_uint64 d) in
    Ok {| fv_type := fv_type s; fv_bytes := fv_bytes s; fv_filesize := fv_filesize s;
          fv_blocksizes := fv_blocksizes s ++ [v]; fv_hash_type := fv_hash_type s;
          fv_fanout := fv_fanout s; fv_mode := fv_mode s; fv_mtime := fv_mtime s |}
  else if n =? 5 then
    match fv_hash_type s with
    | Some _ => Err (PDuplicateField "hash_type")
    | None => let? v := access (fd_to_uint64 d) in
      Ok {| fv_type := fv_type s; fv_bytes := fv_bytes s; fv_filesize := fv_filesize s;
            fv_blocksizes := fv_blocksizes s; fv_hash_type := Some v;
            fv_fanout := fv_fanout s; fv_mode := fv_mode s; fv_mtime := fv_mtime s |}
    end
  else if n =? 6 then
    match fv_fanout s with
    | Some _ => Err (PDuplicateField "fanout")
    | None => let? v := access (fd_to_uint64 d) in
      Ok {| fv_type := fv_type s; fv_bytes := fv_bytes s; fv_filesize := fv_filesize s;
            fv_blocksizes := fv_blocksizes s; fv_hash_type := fv_hash_type s;
            fv_fanout := Some v; fv_mode := fv_mode s; fv_mtime := fv_mtime s |}
    end
  else if n =? 7 then
    match fv_mode s with
    | Some _ => Err (PDuplicateField "mode")
    | None => let? v := access (fd_to_uint32 d) in
      Ok {| fv_type := fv_type s; fv_bytes := fv_bytes s; fv_filesize := fv_filesize s;
            fv_blocksizes := fv_blocksizes s; fv_hash_type := fv_hash_type s;
            fv_fanout := fv_fanout s; fv_mode := Some v; fv_mtime := fv_mtime s |}
    end
  else if n =? 8 then
    match fv_mtime s with
    | Some _ => Err (PDuplicateField "duplicate mtime")
    | None => let? b := access (fd_to_bytes d) in
      let? t := unix_time_from_pb b in
      Ok {| fv_type := fv_type s; fv_bytes := fv_bytes s; fv_filesize := fv_filesize s;
            fv_blocksizes := fv_blocksizes s; fv_hash_type := fv_hash_type s;
            fv_fanout := fv_fanout s; fv_mode := fv_mode s; fv_mtime := Some t |}
    end
  else Ok s.
(** unixfs.rs:70-129 [Data::from_pb]. *)
Definition fs_data_from_pb (b : bytes) : outcome from_pb_error fs_data :=
  let? s := pb_parse fs_body b fs_vars0 in
  let? t := of_option (PMissingField "type") (fv_type s) in
  Ok {| fd_type := t; fd_bytes := fv_bytes s; fd_filesize := fv_filesize s;
        fd_blocksizes := fv_blocksizes s; fd_hash_type := fv_hash_type s;
        fd_fanout := fv_fanout s; fd_mode := fv_mode s; fd_mtime := fv_mtime s |}.

(** ** fs.rs *)
(** fs.rs:43-52 [DecodeError]; [Other] keeps the error instead of its printed form. *)
Inductive fs_error :=
| DMissingData | DEntryMissingFilename (index : nat) | DEntryMissingSize (index : nat)
| DEntryDuplicateFilename (name : bytes) | DFileDataAndLinks
| DOther (e : from_pb_error) | DUnimplemented (what : string).
(** fs.rs:21-29 [DirectoryEntry], [Directory]. *)
Record dir_entry := { de_cid : cid; de_name : bytes; de_tsize : N }.
(** fs.rs:109-136 the loop of [Directory::from_dagpb]; [names] is the [HashSet] of the
    names seen so far. *)
Fixpoint dir_loop (index : nat) (names : list bytes) (links : list pb_link)
  : outcome fs_error (list dir_entry) :=
  match links with
  | [] => Ok []
  | link :: rest =>
    let? name :=
      (match lk_name link with
       | None => Err (DEntryMissingFilename index)
       | Some name =>
         if (length name =? 0)%nat then Err (DEntryMissingFilename index)
         else if existsb (bytes_eqb name) names then Err (DEntryDuplicateFilename name)
         else Ok name
       end) in
    let? size :=
      (match lk_tsize link with
       | None => Err (DEntryMissingSize index)
       | Some size => Ok size
       end) in
    let? entries := dir_loop (S index) (name :: names) rest in
    Ok ({| de_cid := lk_hash link; de_name := name; de_tsize := size |} :: entries)
  end.
(** fs.rs:107-139 [Directory::from_dagpb]; the UnixFS data is unused. *)
Definition dir_from_dagpb (n : pb_node) : outcome fs_error (list dir_entry) :=
  dir_loop 0 [] (nd_links n).
(** fs.rs:81-98 [Node::from_dagpb_data]; only directories are implemented (fs.rs:100-164),
    so the only successful result is a directory. *)
Definition fs_node_from_dagpb (b : bytes) : outcome fs_error (list dir_entry) :=
  let? node := map_err DOther (node_from_pb b) in
  let? data := of_option DMissingData (nd_bytes node) in
  let? u := map_err DOther (fs_data_from_pb data) in
  match fd_type u with
  | TDirectory => dir_from_dagpb node
  | TRaw => Err (DUnimplemented "Raw")
  | TFile => Err (DUnimplemented "File")
  | TMetadata => Err (DUnimplemented "Metadata")
  | TSymlink => Err (DUnimplemented "Symlink")
  | THAMTShard => Err (DUnimplemented "HAMTShard")
  end.
