(** Model of src/libp2p/peer_id.rs, src/libp2p/multiaddr.rs and src/libp2p/identify.rs. *)
From Verif Require Import Base VarintModel ProtobufModel.
Local Open Scope string_scope. Local Open Scope list_scope. Local Open Scope N_scope.

(** ** peer_id.rs *)
(** peer_id.rs:8-13 [KeyType]. *)
Inductive key_type := KRsa | KEd25519 | KSecp256k1 | KEcdsa.
(** peer_id.rs:8-13 the discriminants ([as u64] in line 66). *)
Definition key_type_num (k : key_type) : N :=
  match k with KRsa => 0 | KEd25519 => 1 | KSecp256k1 => 2 | KEcdsa => 3 end.
(** peer_id.rs:16-24 [KeyType::from_u64]. *)
Definition key_type_of (v : N) : outcome from_pb_error key_type :=
  if v =? 0 then Ok KRsa else if v =? 1 then Ok KEd25519
  else if v =? 2 then Ok KSecp256k1 else if v =? 3 then Ok KEcdsa
  else Err (PPlain "Unknown key type").
(** peer_id.rs:28-31 [PublicKey]. *)
Record public_key := { pk_type : key_type; pk_data : bytes }.
(** peer_id.rs:44-45 the loop variables. *)
Record key_vars := { kv_type : option key_type; kv_data : option bytes }.
(** peer_id.rs:49-53 the loop body. *)
Definition key_body (s : key_vars) (n : N) (d : field_data) : outcome from_pb_error key_vars :=
  if n =? 1 then
    let? v := access (fd_to_uint64 d) in
    let? k := key_type_of v in
    Ok {| kv_type := Some k; kv_data := kv_data s |}
  else if n =? 2 then
    let? b := access (fd_to_bytes d) in
    Ok {| kv_type := kv_type s; kv_data := Some b |}
  else Ok s.
(** peer_id.rs:42-61 [PublicKey::from_pb]. *)
Definition key_from_pb (b : bytes) : outcome from_pb_error public_key :=
  let? s := pb_parse key_body b {| kv_type := None; kv_data := None |} in
  let? k := of_option (PMissingField "key_type") (kv_type s) in
  let? x := of_option (PMissingField "data") (kv_data s) in
  Ok {| pk_type := k; pk_data := x |}.
(** peer_id.rs:63-70 [PublicKey::to_pb]. *)
Definition key_to_pb (k : public_key) : bytes :=
  write_bytes (write_uint64 [] 1 (key_type_num (pk_type k))) 2 (pk_data k).
(** peer_id.rs:72-82 [PrivateKey], [PrivateKey::from_pb]. *)
Record private_key := { sk_type : key_type; sk_data : bytes }.
Definition private_key_from_pb (b : bytes) : outcome from_pb_error private_key :=
  let? k := key_from_pb b in Ok {| sk_type := pk_type k; sk_data := pk_data k |}.

(** ** multiaddr.rs *)
(** multiaddr.rs:15-28 the loop of [decode_varint_u64]: the bytes up to and including
    the first one without the top bit, or [None] at the end of the data. *)
Fixpoint ma_parts (data : bytes) : option bytes :=
  match data with
  | [] => None
  | b :: t => if N.land b 0x80 =? 0 then Some [b] else option_map (cons b) (ma_parts t)
  end.
(** multiaddr.rs:13-31 [decode_varint_u64]; the two error cases are merged because
    the only caller ignores which one it was. *)
Definition ma_varint (data : bytes) : option (N * nat) :=
  match ma_parts data with
  | None => None
  | Some parts =>
    match decode_u64 parts with
    | Ok v => Some (v, length parts)
    | _ => None
    end
  end.

(** multiaddr.rs:33-42 [Addr]; IP addresses are their octets. *)
Inductive addr :=
| AIP4 (octets : bytes) | AIP6 (octets : bytes) | ATCP (port : N) | AUDP (port : N)
| AQUIC | AUnknown (proto : N) (data : bytes) | AInvalid (data : bytes).

(** multiaddr.rs:51-121 [Addr::read]: [Panic] stands for a slice or array index out of
    range. *)
Definition addr_read (b : bytes) : outcome unit (addr * nat) :=
  match ma_varint b with
  | None => Ok (AInvalid b, length b)
  | Some (p, o) =>
    if p =? 0x0004 then
      if (o + 4 <=? length b)%nat
      then let? x := index_range b o (o + 4) in Ok (AIP4 x, (o + 4)%nat)
      else Ok (AInvalid b, length b)
    else if p =? 0x0029 then
      if (o + 16 <=? length b)%nat
      then let? x := index_range b o (o + 16) in Ok (AIP6 x, (o + 16)%nat)
      else Ok (AInvalid b, length b)
    else if p =? 0x0006 then
      if (o + 2 <=? length b)%nat
      then let? x := index_range b o (o + 2) in Ok (ATCP (of_be_bytes x), (o + 2)%nat)
      else Ok (AInvalid b, length b)
    else if p =? 0x0111 then
      if (o + 2 <=? length b)%nat
      then let? x := index_range b o (o + 2) in Ok (AUDP (of_be_bytes x), (o + 2)%nat)
      else Ok (AInvalid b, length b)
    else if p =? 0x01cc then Ok (AQUIC, o)
    else Ok (AInvalid b, length b)
  end.
(** multiaddr.rs:123-152 [Addr::encode]: the bytes appended. *)
Definition addr_encode (a : addr) : bytes :=
  match a with
  | AIP4 x => encode_u64 0x0004 ++ x
  | AIP6 x => encode_u64 0x0029 ++ x
  | ATCP p => encode_u64 0x0006 ++ be_bytes 2 p
  | AUDP p => encode_u64 0x0111 ++ be_bytes 2 p
  | AQUIC => encode_u64 0x01cc
  | AUnknown proto d => encode_u64 proto ++ d
  | AInvalid d => d
  end.
(** multiaddr.rs:171 [MultiAddr]. *)
Definition multiaddr := list addr.
(** multiaddr.rs:177-181 the loop of [MultiAddr::from_bytes] on the remaining bytes
    [&bytes[offset..]]; fuel [length + 1] suffices because every address consumes at
    least one byte; running out of fuel is an error value no input reaches. *)
Fixpoint multiaddr_loop (fuel : nat) (b : bytes) : outcome unit multiaddr :=
  match fuel with
  | O => Err tt
  | S fuel' =>
    match b with
    | [] => Ok []
    | _ =>
      let? (a, n) := addr_read b in
      let? rest := index_range b n (length b) in
      let? l := multiaddr_loop fuel' rest in
      Ok (a :: l)
    end
  end.
(** multiaddr.rs:174-183 [MultiAddr::from_bytes]. *)
Definition multiaddr_from_bytes (b : bytes) : outcome unit multiaddr :=
  multiaddr_loop (S (length b)) b.
(** multiaddr.rs:185-195 [MultiAddr::to_bytes]. *)
Definition multiaddr_to_bytes (m : multiaddr) : bytes := concat (map addr_encode m).

(** ** identify.rs *)
(** identify.rs:18-27 [Identify]. *)
Record identify := {
  id_protocol_version : bytes; id_agent_version : bytes; id_public_key : public_key;
  id_listen_addrs : list multiaddr; id_observed_addr : multiaddr;
  id_protocols : list bytes; id_signed_peer_record : option bytes }.
(** identify.rs:31-37 the loop variables. *)
Record id_vars := {
  iv_pv : option bytes; iv_av : option bytes; iv_pk : option public_key;
  iv_obs : option multiaddr; iv_addrs : list multiaddr; iv_protos : list bytes;
  iv_spr : option bytes }.
Definition id_vars0 : id_vars :=
  {| iv_pv := None; iv_av := None; iv_pk := None; iv_obs := None;
     iv_addrs := []; iv_protos := []; iv_spr := None |}.
(** [MultiAddr::from_bytes] in identify.rs:55, 58: total in the code ([Err tt] is the
    unreachable out-of-fuel value). *)
Definition id_multiaddr (b : bytes) : outcome from_pb_error multiaddr :=
  map_err (fun _ => POutOfFuel) (multiaddr_from_bytes b).
(** identify.rs:41-65 the loop body. *)
Definition id_body (s : id_vars) (n : N) (d : field_data) : outcome from_pb_error id_vars :=
  if n =? 5 then
    match iv_pv s with
    | Some _ => Err (PDuplicateField "protocol_version")
    | None => let? x := access (fd_to_string d) in
      Ok {| iv_pv := Some x; iv_av := iv_av s; iv_pk := iv_pk s; iv_obs := iv_obs s;
            iv_addrs := iv_addrs s; iv_protos := iv_protos s; iv_spr := iv_spr s |}
    end
  else if n =? 6 then
    match iv_av s with
    | Some _ => Err (PDuplicateField "agent_version")
    | None => let? x := access (fd_to_string d) in
      Ok {| iv_pv := iv_pv s; iv_av := Some x; iv_pk := iv_pk s; iv_obs := iv_obs s;
            iv_addrs := iv_addrs s; iv_protos := iv_protos s; iv_spr := iv_spr s |}
    end
  else if n =? 3 then
    let? x := access (fd_to_string d) in
    Ok {| iv_pv := iv_pv s; iv_av := iv_av s; iv_pk := iv_pk s; iv_obs := iv_obs s;
          iv_addrs := iv_addrs s; iv_protos := iv_protos s ++ [x]; iv_spr := iv_spr s |}
  else if n =? 1 then
    match iv_pk s with
    | Some _ => Err (PDuplicateField "public_key")
    | None => let? b := access (fd_to_bytes d) in
      let? k := key_from_pb b in
      Ok {| iv_pv := iv_pv s; iv_av := iv_av s; iv_pk := Some k; iv_obs := iv_obs s;
            iv_addrs := iv_addrs s; iv_protos := iv_protos s; iv_spr := iv_spr s |}
    end
  else if n =? 2 then
    let? b := access (fd_to_bytes d) in
    let? m := id_multiaddr b in
    Ok {| iv_pv := iv_pv s; iv_av := iv_av s; iv_pk := iv_pk s; iv_obs := iv_obs s;
          iv_addrs := iv_addrs s ++ [m]; iv_protos := iv_protos s; iv_spr := iv_spr s |}
  else if n =? 4 then
    match iv_obs s with
    | Some _ => Err (PDuplicateField "observed_addr")
    | None => let? b := access (fd_to_bytes d) in
      let? m := id_multiaddr b in
      Ok {| iv_pv := iv_pv s; iv_av := iv_av s; iv_pk := iv_pk s; iv_obs := Some m;
            iv_addrs := iv_addrs s; iv_protos := iv_protos s; iv_spr := iv_spr s |}
    end
  else if n =? 8 then
    match iv_spr s with
    | Some _ => Err (PDuplicateField "duplicate signed_peer_record")
    | None => let? b := access (fd_to_bytes d) in
      Ok {| iv_pv := iv_pv s; iv_av := iv_av s; iv_pk := iv_pk s; iv_obs := iv_obs s;
            iv_addrs := iv_addrs s; iv_protos := iv_protos s; iv_spr := Some b |}
    end
  else Ok s.
(** identify.rs:29-83 [Identify::from_pb]. *)
Definition identify_from_pb (b : bytes) : outcome from_pb_error identify :=
  let? s := pb_parse id_body b id_vars0 in
  let? pv := of_option (PMissingField "protocol_version") (iv_pv s) in
  let? av := of_option (PMissingField "agent_version") (iv_av s) in
  let? pk := of_option (PMissingField "public_key") (iv_pk s) in
  let? obs := of_option (PMissingField "observed_addr") (iv_obs s) in
  Ok {| id_protocol_version := pv; id_agent_version := av; id_public_key := pk;
        id_listen_addrs := iv_addrs s; id_observed_addr := obs;
        id_protocols := iv_protos s; id_signed_peer_record := iv_spr s |}.
(** identify.rs:85-103 [Identify::to_pb]. *)
Definition identify_to_pb (i : identify) : bytes :=
  let w := write_bytes [] 1 (key_to_pb (id_public_key i)) in
  let w := fold_left (fun w a => write_bytes w 2 (multiaddr_to_bytes a)) (id_listen_addrs i) w in
  let w := fold_left (fun w p => write_string w 3 p) (id_protocols i) w in
  let w := write_bytes w 4 (multiaddr_to_bytes (id_observed_addr i)) in
  let w := write_string w 5 (id_protocol_version i) in
  let w := write_string w 6 (id_agent_version i) in
  match id_signed_peer_record i with Some r => write_bytes w 8 r | None => w end.
