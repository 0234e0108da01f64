(** C09-C14, C45, C72: message types, directories, multiaddrs. *)
From Verif Require Import Base BaseProofs VarintModel VarintSpec ProtobufModel ProtobufSpec CidModel CidSpec.
From Verif Require Import DagPbModel IdentifyModel BitswapModel UnixfsModel MessageSpec.
From Verif Require Import MultiaddrProofs MessageProofs2 MessageProofs3 MessageProofs4.
Local Open Scope string_scope. Local Open Scope list_scope. Local Open Scope N_scope.

(** C09: a link and a node are decoded to themselves. *)
Theorem C09_link_round_trip :
  forall l, link_ok l -> fits (link_to_pb l) -> link_from_pb (link_to_pb l) = Ok l.
Proof. exact link_round_trip. Qed.
Print Assumptions C09_link_round_trip.
Theorem C09_node_round_trip :
  forall n, node_ok n -> fits (node_to_pb n) -> node_from_pb (node_to_pb n) = Ok n.
Proof. exact node_round_trip. Qed.
Print Assumptions C09_node_round_trip.
(** C09: the decoders return what the wire grammar says, and nothing else. *)
Theorem C09_link_exact :
  forall b l, bytes_ok b -> fits b -> (link_from_pb b = Ok l <-> link_msg b l).
Proof. exact link_from_pb_ok. Qed.
Print Assumptions C09_link_exact.
Theorem C09_node_exact :
  forall b n, bytes_ok b -> fits b -> (node_from_pb b = Ok n <-> node_msg b n).
Proof. exact node_from_pb_ok. Qed.
Print Assumptions C09_node_exact.

Example C09_case :
  let l := {| lk_hash := {| cid_ver := CIDv1; cid_codec := CRaw; cid_hash_type := HSha2256; cid_hash := [1; 2; 3] |};
              lk_name := Some (ascii_bytes "a.txt"); lk_tsize := Some 300 |} in
  let n := {| nd_links := [l; l]; nd_bytes := Some [8; 1] |} in
  node_ok n /\ fits (node_to_pb n) /\ length (node_to_pb n) = 46%nat /\ node_from_pb (node_to_pb n) = Ok n.
Proof.
  cbv zeta. split; [|split; [reflexivity|split; vm_compute; reflexivity]].
  split; [|repeat constructor]. repeat constructor; cbn; try discriminate.
Qed.

(** C10 *)
Theorem C10_key_round_trip :
  forall k, key_ok k -> fits (key_to_pb k) -> key_from_pb (key_to_pb k) = Ok k.
Proof. exact key_round_trip. Qed.
Print Assumptions C10_key_round_trip.
Theorem C10_identify_round_trip :
  forall i, identify_ok i -> fits (identify_to_pb i) -> identify_from_pb (identify_to_pb i) = Ok i.
Proof. exact identify_round_trip. Qed.
Print Assumptions C10_identify_round_trip.
Theorem C10_key_exact :
  forall b k, bytes_ok b -> fits b -> (key_from_pb b = Ok k <-> key_msg b k).
Proof. exact key_from_pb_ok. Qed.
Print Assumptions C10_key_exact.
Theorem C10_identify_exact :
  forall b i, bytes_ok b -> fits b -> (identify_from_pb b = Ok i <-> identify_msg b i).
Proof. exact identify_from_pb_ok. Qed.
Print Assumptions C10_identify_exact.

Definition C10_sample : identify :=
  {| id_protocol_version := ascii_bytes "ipfs/0.1.0"; id_agent_version := ascii_bytes "x";
     id_public_key := {| pk_type := KEd25519; pk_data := [1; 2; 255] |};
     id_listen_addrs := [[AIP4 [127; 0; 0; 1]; ATCP 4001]; [AUDP 4001; AQUIC]];
     id_observed_addr := [AIP4 [10; 0; 0; 1]; ATCP 65535];
     id_protocols := [ascii_bytes "/a"; ascii_bytes "/b"]; id_signed_peer_record := Some [9] |}.
Example C10_case :
  identify_ok C10_sample /\ fits (identify_to_pb C10_sample) /\
  identify_from_pb (identify_to_pb C10_sample) = Ok C10_sample.
Proof.
  split; [|split; [reflexivity|vm_compute; reflexivity]].
  repeat split; repeat constructor; try (vm_compute; reflexivity).
Qed.

(** C11 *)
Theorem C11_entry_round_trip :
  forall e, entry_ok e -> fits (entry_to_pb e) -> entry_from_pb (entry_to_pb e) = Ok e.
Proof. exact entry_round_trip. Qed.
Print Assumptions C11_entry_round_trip.
Theorem C11_wantlist_round_trip :
  forall w, Forall entry_ok (wl_entries w) -> fits (wantlist_to_pb w) ->
    wantlist_from_pb (wantlist_to_pb w) = Ok w.
Proof. exact wantlist_round_trip. Qed.
Print Assumptions C11_wantlist_round_trip.
Theorem C11_block_round_trip :
  forall b, block_ok b -> fits (block_to_pb b) -> block_from_pb (block_to_pb b) = Ok b.
Proof. exact block_round_trip. Qed.
Print Assumptions C11_block_round_trip.
(** C11: the want list and the blocks of a message survive; payload, block presence
    and pending bytes come back empty whatever they were. *)
Theorem C11_message_round_trip :
  forall m, bs_message_ok m -> fits (bs_message_to_pb m) ->
    bs_message_from_pb (bs_message_to_pb m) =
      Ok {| bm_wantlist := bm_wantlist m; bm_blocks := bm_blocks m; bm_payload := [];
            bm_block_presence := []; bm_pending_bytes := None |}.
Proof. exact bs_message_round_trip. Qed.
Print Assumptions C11_message_round_trip.
Theorem C11_entry_exact :
  forall b e, bytes_ok b -> fits b -> (entry_from_pb b = Ok e <-> entry_msg b e).
Proof. exact entry_from_pb_ok. Qed.
Print Assumptions C11_entry_exact.
Theorem C11_wantlist_exact :
  forall b w, bytes_ok b -> fits b -> (wantlist_from_pb b = Ok w <-> wantlist_msg b w).
Proof. exact wantlist_from_pb_ok. Qed.
Print Assumptions C11_wantlist_exact.
Theorem C11_block_exact :
  forall b x, bytes_ok b -> fits b -> (block_from_pb b = Ok x <-> block_msg b x).
Proof. exact block_from_pb_ok. Qed.
Print Assumptions C11_block_exact.
Theorem C11_message_exact :
  forall b m, bytes_ok b -> fits b -> (bs_message_from_pb b = Ok m <-> bs_message_msg b m).
Proof. exact bs_message_from_pb_ok. Qed.
Print Assumptions C11_message_exact.

Definition C11_sample : bs_message :=
  {| bm_wantlist := Some {| wl_entries :=
       [{| en_block := [1; 2]; en_priority := -7; en_cancel := true; en_want_type := WHave; en_send_dont_have := true |};
        {| en_block := []; en_priority := 2147483647; en_cancel := false; en_want_type := WBlock; en_send_dont_have := false |}];
       wl_full := true |};
     bm_blocks := [{| bl_prefix := [1; 85; 18; 32]; bl_data := [0; 255] |}];
     bm_payload := []; bm_block_presence := []; bm_pending_bytes := None |}.
Example C11_case :
  bs_message_ok C11_sample /\ fits (bs_message_to_pb C11_sample) /\
  bs_message_from_pb (bs_message_to_pb C11_sample) = Ok C11_sample.
Proof.
  split; [|split; [reflexivity|vm_compute; reflexivity]].
  split; [|repeat constructor]. repeat constructor; cbn; discriminate.
Qed.

(** C12: a block parses as a directory exactly when it is a DAG-PB node with UnixFS
    metadata of type directory; the entries correspond one to one to the links, in
    order, and the names are non-empty and pairwise distinct. *)
Theorem C12_directory_exact :
  forall b es, bytes_ok b -> fits b ->
    (fs_node_from_dagpb b = Ok es <->
     exists node data u, node_msg b node /\ nd_bytes node = Some data /\ fs_data_msg data u /\
       fd_type u = TDirectory /\ Forall2 dir_entry_of (nd_links node) es /\
       Forall (fun e => de_name e <> []) es /\ NoDup (map de_name es)).
Proof. exact directory_exact. Qed.
Print Assumptions C12_directory_exact.
(** C12: on a directory node whose links cannot be turned into a directory, parsing
    fails with what is wrong with the first offending link (its index for a missing
    name or size, the name for a duplicate). *)
Theorem C12_first_offence :
  forall b node data u, bytes_ok b -> fits b ->
    node_msg b node -> nd_bytes node = Some data -> fs_data_msg data u -> fd_type u = TDirectory ->
    (exists es, fs_node_from_dagpb b = Ok es) \/
    (exists i e, fs_node_from_dagpb b = Err e /\ dir_offence (nd_links node) i e /\
       forall j, (j < i)%nat -> ~ exists e', dir_offence (nd_links node) j e').
Proof. exact directory_first_offence. Qed.
Print Assumptions C12_first_offence.
(** C12: every other input is an error too; nothing panics. *)
Theorem C12_directory_total :
  forall b, bytes_ok b -> fits b -> fs_node_from_dagpb b <> Panic.
Proof. exact directory_total. Qed.
Print Assumptions C12_directory_total.

Definition C12_link name : pb_link :=
  {| lk_hash := {| cid_ver := CIDv1; cid_codec := CRaw; cid_hash_type := HSha2256; cid_hash := [7] |};
     lk_name := Some (ascii_bytes name); lk_tsize := Some 5 |}.
Example C12_case :
  fs_node_from_dagpb (node_to_pb {| nd_links := [C12_link "a"; C12_link "b"]; nd_bytes := Some [8; 1] |}) =
    Ok [{| de_cid := lk_hash (C12_link "a"); de_name := [97]; de_tsize := 5 |};
        {| de_cid := lk_hash (C12_link "b"); de_name := [98]; de_tsize := 5 |}] /\
  fs_node_from_dagpb (node_to_pb {| nd_links := [C12_link "a"; C12_link "b"; C12_link "a"; C12_link ""]; nd_bytes := Some [8; 1] |}) =
    Err (DEntryDuplicateFilename [97]) /\
  fs_node_from_dagpb (node_to_pb {| nd_links := [C12_link "a"; C12_link ""]; nd_bytes := Some [8; 1] |}) =
    Err (DEntryMissingFilename 1).
Proof. vm_compute. auto. Qed.

(** C13: UnixFS metadata is accepted exactly when it is a wire message with exactly
    one type, at most one of each other singular field, all well-typed, and the result
    holds exactly those values (block sizes in order). *)
Theorem C13_unixfs_exact :
  forall b x, bytes_ok b -> fits b -> (fs_data_from_pb b = Ok x <-> fs_data_msg b x).
Proof. exact fs_data_from_pb_ok. Qed.
Print Assumptions C13_unixfs_exact.
Theorem C13_mtime_exact :
  forall b x, bytes_ok b -> fits b -> (unix_time_from_pb b = Ok x <-> unix_time_msg b x).
Proof. exact unix_time_from_pb_ok. Qed.
Print Assumptions C13_mtime_exact.
(** C13: duplicates of a singular field and a missing type are rejected. *)
Theorem C13_unixfs_rejects :
  forall b fs, bytes_ok b -> fits b -> wire_message b fs ->
    (occ 1 fs = [] \/ exists n, In n [1; 2; 3; 5; 6; 7; 8] /\ (2 <= length (occ n fs))%nat) ->
    exists e, fs_data_from_pb b = Err e.
Proof. exact fs_data_rejects. Qed.
Print Assumptions C13_unixfs_rejects.
(** C13: the result is unique: two readings of the same bytes agree. *)
Example C13_case :
  fs_data_from_pb [8; 2; 18; 2; 104; 105; 24; 2; 32; 1; 32; 1; 56; 164; 3; 66; 2; 8; 5] =
    Ok {| fd_type := TFile; fd_bytes := Some [104; 105]; fd_filesize := Some 2; fd_blocksizes := [1; 1];
          fd_hash_type := None; fd_fanout := None; fd_mode := Some 420;
          fd_mtime := Some {| ut_seconds := 5; ut_nanos := None |} |} /\
  fs_data_from_pb [8; 2; 8; 2] = Err (PDuplicateField "type") /\
  fs_data_from_pb [24; 2] = Err (PMissingField "type").
Proof. vm_compute. auto. Qed.

(** C14: a field whose number the message type does not define changes nothing,
    wherever it is inserted between two fields. *)
Theorem C14_unknown_fields_ignored :
  ignores_unknown link_from_pb [1; 2; 3] /\
  ignores_unknown node_from_pb [1; 2] /\
  ignores_unknown key_from_pb [1; 2] /\
  ignores_unknown private_key_from_pb [1; 2] /\
  ignores_unknown identify_from_pb [1; 2; 3; 4; 5; 6; 8] /\
  ignores_unknown entry_from_pb [1; 2; 3; 4; 5] /\
  ignores_unknown wantlist_from_pb [1; 2] /\
  ignores_unknown block_from_pb [1; 2] /\
  ignores_unknown bs_message_from_pb [1; 3] /\
  ignores_unknown unix_time_from_pb [1; 2] /\
  ignores_unknown fs_data_from_pb [1; 2; 3; 4; 5; 6; 7; 8].
Proof. exact all_ignore_unknown. Qed.
Print Assumptions C14_unknown_fields_ignored.
Example C14_case :
  wire_message [8; 1] [(1, FVarInt [1])] /\ wire_field [122; 1; 0] 15 (FBytes [0]) /\
  key_from_pb ([8; 1] ++ [122; 1; 0] ++ [18; 1; 9]) = Ok {| pk_type := KEd25519; pk_data := [9] |} /\
  key_from_pb ([8; 1] ++ [18; 1; 9]) = Ok {| pk_type := KEd25519; pk_data := [9] |}.
Proof. exact c14_case. Qed.

(** C45: parsing is total, and is the grammar. *)
Theorem C45_multiaddr_total :
  forall b, bytes_ok b -> exists m, multiaddr_from_bytes b = Ok m.
Proof. exact multiaddr_total. Qed.
Print Assumptions C45_multiaddr_total.
Theorem C45_multiaddr_exact :
  forall b m, bytes_ok b -> (multiaddr_from_bytes b = Ok m <-> multiaddr_wire b m).
Proof. exact multiaddr_from_bytes_ok. Qed.
Print Assumptions C45_multiaddr_exact.
(** C45: well-formed address lists round-trip. *)
Theorem C45_multiaddr_round_trip :
  forall m, Forall addr_ok m -> multiaddr_from_bytes (multiaddr_to_bytes m) = Ok m.
Proof. exact multiaddr_round_trip. Qed.
Print Assumptions C45_multiaddr_round_trip.
(** C45: re-serialising gives back the input when the protocol codes are minimal; *)
Theorem C45_multiaddr_reserialise :
  forall b m, bytes_ok b -> multiaddr_minimal b ->
    multiaddr_from_bytes b = Ok m -> multiaddr_to_bytes m = b.
Proof. exact multiaddr_reserialise. Qed.
Print Assumptions C45_multiaddr_reserialise.
(** in every case it gives something that parses to the same addresses. *)
Theorem C45_multiaddr_stable :
  forall b m, bytes_ok b -> multiaddr_from_bytes b = Ok m ->
    multiaddr_from_bytes (multiaddr_to_bytes m) = Ok m.
Proof. exact multiaddr_stable. Qed.
Print Assumptions C45_multiaddr_stable.
(** The exception: a padded protocol code. *)
Example C45_padded_code :
  multiaddr_from_bytes [0x86; 0x00; 0; 80] = Ok [ATCP 80] /\ multiaddr_to_bytes [ATCP 80] = [6; 0; 80].
Proof. vm_compute. auto. Qed.
Example C45_case :
  Forall addr_ok [AIP4 [127; 0; 0; 1]; AUDP 4001; AQUIC] /\
  multiaddr_to_bytes [AIP4 [127; 0; 0; 1]; AUDP 4001; AQUIC] = [4; 127; 0; 0; 1; 145; 2; 15; 161; 204; 3] /\
  multiaddr_from_bytes [4; 127; 0; 0; 1; 6; 1] = Ok [AIP4 [127; 0; 0; 1]; AInvalid [6; 1]].
Proof. split; [repeat constructor|vm_compute; auto]. Qed.

(** C72: no message parser panics or loops, whatever the bytes ([fine]: the result is
    neither a panic nor the model's out-of-fuel value). *)
Theorem C72_message_parsers_total :
  total link_from_pb /\ total node_from_pb /\ total key_from_pb /\ total private_key_from_pb /\
  total identify_from_pb /\ total entry_from_pb /\ total wantlist_from_pb /\ total block_from_pb /\
  total bs_message_from_pb /\ total unix_time_from_pb /\ total fs_data_from_pb.
Proof. exact all_total. Qed.
Print Assumptions C72_message_parsers_total.
Example C72_case :
  identify_from_pb [10; 2; 8; 9] = Err (PPlain "Unknown key type") /\
  node_from_pb [18; 200; 1] = Err (PRead (EndOfFile 3 CBytes)).
Proof. vm_compute. auto. Qed.
