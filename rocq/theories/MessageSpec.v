(** What the protobuf messages of the code base mean, stated on the list of fields of
    the wire message (ProtobufSpec.v) and not on the code. *)
From Verif Require Import Base VarintSpec ProtobufModel ProtobufSpec CidModel CidSpec.
From Verif Require Import DagPbModel IdentifyModel BitswapModel UnixfsModel.

(** ** Field values *)
Definition v_u64 (d : field_data) (v : N) : Prop := exists l, d = FVarInt l /\ is_varint l v.
Definition v_u32 (d : field_data) (v : N) : Prop := v_u64 d v /\ v < 2 ^ 32.
(** int32 / int64: the number congruent to the varint in the signed range. *)
Definition v_i32 (d : field_data) (z : Z) : Prop :=
  exists v, v_u64 d v /\ (- 2 ^ 31 <= z < 2 ^ 31)%Z /\ (exists k, Z.of_N v = z + k * 2 ^ 32)%Z.
Definition v_i64 (d : field_data) (z : Z) : Prop :=
  exists v, v_u64 d v /\ (- 2 ^ 63 <= z < 2 ^ 63)%Z /\ (exists k, Z.of_N v = z + k * 2 ^ 64)%Z.
Definition v_bool (d : field_data) (b : bool) : Prop :=
  exists v, v_u64 d v /\ (b = true <-> v <> 0).
Definition v_bytes (d : field_data) (b : bytes) : Prop := d = FBytes b.
Definition v_string (d : field_data) (b : bytes) : Prop := d = FBytes b /\ utf8_valid b = true.
Definition v_fixed32 (d : field_data) (v : N) : Prop := exists b, d = FBits32 b /\ v = of_le_bytes b.
(** A field whose bytes are themselves a message. *)
Definition v_nested {A} (msg : bytes -> A -> Prop) (d : field_data) (a : A) : Prop :=
  exists b, d = FBytes b /\ msg b a.

(** ** Field multiplicities *)
(** The payloads of the fields numbered [n], in order. *)
Definition occ (n : N) (fs : list (N * field_data)) : list field_data :=
  map snd (filter (fun f => fst f =? n) fs).
(** At most one, required to be exactly one, any number, and "the last one counts". *)
Definition at_most_one {A} (val : field_data -> A -> Prop) (n : N) fs (o : option A) : Prop :=
  match o with
  | None => occ n fs = []
  | Some a => exists d, occ n fs = [d] /\ val d a
  end.
Definition exactly_one {A} (val : field_data -> A -> Prop) (n : N) fs (a : A) : Prop :=
  exists d, occ n fs = [d] /\ val d a.
Definition repeated {A} (val : field_data -> A -> Prop) (n : N) fs (l : list A) : Prop :=
  Forall2 val (occ n fs) l.
Definition last_counts {A} (val : field_data -> A -> Prop) (n : N) fs (dflt a : A) : Prop :=
  exists l, Forall2 val (occ n fs) l /\ a = last l dflt.
Definition last_required {A} (val : field_data -> A -> Prop) (n : N) fs (a : A) : Prop :=
  exists l, Forall2 val (occ n fs) (l ++ [a]).

(** ** DAG-PB *)
Definition link_msg (b : bytes) (l : pb_link) : Prop :=
  exists fs, wire_message b fs /\
    exactly_one (v_nested cid_wire) 1 fs (lk_hash l) /\
    at_most_one v_string 2 fs (lk_name l) /\
    at_most_one v_u64 3 fs (lk_tsize l).
Definition node_msg (b : bytes) (n : pb_node) : Prop :=
  exists fs, wire_message b fs /\
    repeated (v_nested link_msg) 2 fs (nd_links n) /\
    at_most_one v_bytes 1 fs (nd_bytes n).

(** ** Keys, addresses, Identify *)
Definition v_key_type (d : field_data) (k : key_type) : Prop :=
  v_u64 d (match k with KRsa => 0 | KEd25519 => 1 | KSecp256k1 => 2 | KEcdsa => 3 end).
Definition key_msg (b : bytes) (k : public_key) : Prop :=
  exists fs, wire_message b fs /\
    last_required v_key_type 1 fs (pk_type k) /\
    last_required v_bytes 2 fs (pk_data k).

(** An address component: protocol code and payload. *)
Definition addr_wire (code : N) (payload : bytes) (a : addr) : Prop :=
  match a with
  | AIP4 x => code = 0x0004 /\ payload = x /\ length x = 4%nat
  | AIP6 x => code = 0x0029 /\ payload = x /\ length x = 16%nat
  | ATCP p => code = 0x0006 /\ payload = [p / 256; p mod 256]
  | AUDP p => code = 0x0111 /\ payload = [p / 256; p mod 256]
  | AQUIC => code = 0x01cc /\ payload = []
  | AUnknown _ _ | AInvalid _ => False
  end.
Definition starts_with_addr (b : bytes) : Prop :=
  exists l code payload a rest, b = l ++ payload ++ rest /\ is_varint l code /\ addr_wire code payload a.
(** A multiaddr: components up to the end, or up to a tail that is no component. *)
Inductive multiaddr_wire : bytes -> multiaddr -> Prop :=
| mw_nil : multiaddr_wire [] []
| mw_cons l code payload a rest m :
    is_varint l code -> addr_wire code payload a -> multiaddr_wire rest m ->
    multiaddr_wire (l ++ payload ++ rest) (a :: m)
| mw_invalid d : d <> [] -> ~ starts_with_addr d -> multiaddr_wire d [AInvalid d].

Definition identify_msg (b : bytes) (i : identify) : Prop :=
  exists fs, wire_message b fs /\
    exactly_one (v_nested key_msg) 1 fs (id_public_key i) /\
    repeated (v_nested multiaddr_wire) 2 fs (id_listen_addrs i) /\
    repeated v_string 3 fs (id_protocols i) /\
    exactly_one (v_nested multiaddr_wire) 4 fs (id_observed_addr i) /\
    exactly_one v_string 5 fs (id_protocol_version i) /\
    exactly_one v_string 6 fs (id_agent_version i) /\
    at_most_one v_bytes 8 fs (id_signed_peer_record i).

(** ** Bitswap *)
Definition v_want_type (d : field_data) (t : want_type) : Prop :=
  v_u64 d (match t with WBlock => 0 | WHave => 1 end).
Definition entry_msg (b : bytes) (e : entry) : Prop :=
  exists fs, wire_message b fs /\
    last_required v_bytes 1 fs (en_block e) /\
    last_counts v_i32 2 fs 1%Z (en_priority e) /\
    last_counts v_bool 3 fs false (en_cancel e) /\
    last_counts v_want_type 4 fs WBlock (en_want_type e) /\
    last_counts v_bool 5 fs false (en_send_dont_have e).
Definition wantlist_msg (b : bytes) (w : want_list) : Prop :=
  exists fs, wire_message b fs /\
    repeated (v_nested entry_msg) 1 fs (wl_entries w) /\
    last_counts v_bool 2 fs false (wl_full w).
Definition block_msg (b : bytes) (x : block) : Prop :=
  exists fs, wire_message b fs /\
    exactly_one v_bytes 1 fs (bl_prefix x) /\ exactly_one v_bytes 2 fs (bl_data x).
(** Only the want list and the legacy blocks are decoded. *)
Definition bs_message_msg (b : bytes) (m : bs_message) : Prop :=
  exists fs, wire_message b fs /\
    at_most_one (v_nested wantlist_msg) 1 fs (bm_wantlist m) /\
    repeated (v_nested block_msg) 3 fs (bm_blocks m) /\
    bm_payload m = [] /\ bm_block_presence m = [] /\ bm_pending_bytes m = None.

(** ** UnixFS *)
Definition unix_time_msg (b : bytes) (t : unix_time) : Prop :=
  exists fs, wire_message b fs /\
    exactly_one v_i64 1 fs (ut_seconds t) /\ at_most_one v_fixed32 2 fs (ut_nanos t).
Definition v_data_type (d : field_data) (t : data_type) : Prop :=
  v_u64 d (match t with
           | TRaw => 0 | TDirectory => 1 | TFile => 2
           | TMetadata => 3 | TSymlink => 4 | THAMTShard => 5 end).
Definition fs_data_msg (b : bytes) (x : fs_data) : Prop :=
  exists fs, wire_message b fs /\
    exactly_one v_data_type 1 fs (fd_type x) /\
    at_most_one v_bytes 2 fs (fd_bytes x) /\
    at_most_one v_u64 3 fs (fd_filesize x) /\
    repeated v_u64 4 fs (fd_blocksizes x) /\
    at_most_one v_u64 5 fs (fd_hash_type x) /\
    at_most_one v_u64 6 fs (fd_fanout x) /\
    at_most_one v_u32 7 fs (fd_mode x) /\
    at_most_one (v_nested unix_time_msg) 8 fs (fd_mtime x).

(** ** Directories *)
(** What is wrong with link number [i], if anything. *)
Definition dir_offence (links : list pb_link) (i : nat) (e : fs_error) : Prop :=
  exists link, nth_error links i = Some link /\
  ( ((lk_name link = None \/ lk_name link = Some []) /\ e = DEntryMissingFilename i)
  \/ (exists name, lk_name link = Some name /\ name <> [] /\
        (exists j other, (j < i)%nat /\ nth_error links j = Some other /\ lk_name other = Some name) /\
        e = DEntryDuplicateFilename name)
  \/ (exists name, lk_name link = Some name /\ name <> [] /\
        (forall j other, (j < i)%nat -> nth_error links j = Some other -> lk_name other <> Some name) /\
        lk_tsize link = None /\ e = DEntryMissingSize i) ).
(** The entry made from a link. *)
Definition dir_entry_of (link : pb_link) (e : dir_entry) : Prop :=
  de_cid e = lk_hash link /\ lk_name link = Some (de_name e) /\ lk_tsize link = Some (de_tsize e).

(** ** Well-formed values (values a Rust program can hold, strings being UTF-8) *)
Definition str_ok (s : bytes) : Prop := bytes_ok s /\ utf8_valid s = true.
Definition opt_ok {A} (P : A -> Prop) (o : option A) : Prop := match o with None => True | Some a => P a end.
Definition link_ok (l : pb_link) : Prop :=
  cid_ok (lk_hash l) /\ opt_ok str_ok (lk_name l) /\ opt_ok u64_ok (lk_tsize l).
Definition node_ok (n : pb_node) : Prop := Forall link_ok (nd_links n) /\ opt_ok bytes_ok (nd_bytes n).
Definition key_ok (k : public_key) : Prop := bytes_ok (pk_data k).
Definition addr_ok (a : addr) : Prop :=
  match a with
  | AIP4 x => bytes_ok x /\ length x = 4%nat
  | AIP6 x => bytes_ok x /\ length x = 16%nat
  | ATCP p | AUDP p => p < 2 ^ 16
  | AQUIC => True
  | AUnknown _ _ | AInvalid _ => False
  end.
Definition identify_ok (i : identify) : Prop :=
  str_ok (id_protocol_version i) /\ str_ok (id_agent_version i) /\ key_ok (id_public_key i) /\
  Forall (Forall addr_ok) (id_listen_addrs i) /\ Forall addr_ok (id_observed_addr i) /\
  Forall str_ok (id_protocols i) /\ opt_ok bytes_ok (id_signed_peer_record i).
Definition entry_ok (e : entry) : Prop := bytes_ok (en_block e) /\ i32_ok (en_priority e).
Definition block_ok (b : block) : Prop := bytes_ok (bl_prefix b) /\ bytes_ok (bl_data b).
Definition bs_message_ok (m : bs_message) : Prop :=
  opt_ok (fun w => Forall entry_ok (wl_entries w)) (bm_wantlist m) /\ Forall block_ok (bm_blocks m).

(** A varint with no padding: no other varint with the same value is shorter. *)
Definition minimal_varint (l : bytes) (v : N) : Prop :=
  is_varint l v /\ forall l', bytes_ok l' -> is_varint l' v -> (length l <= length l')%nat.
(** A multiaddr all of whose protocol codes are minimal varints. *)
Inductive multiaddr_minimal : bytes -> Prop :=
| mm_nil : multiaddr_minimal []
| mm_cons l code payload a rest :
    minimal_varint l code -> addr_wire code payload a -> multiaddr_minimal rest ->
    multiaddr_minimal (l ++ payload ++ rest)
| mm_invalid d : d <> [] -> ~ starts_with_addr d -> multiaddr_minimal d.

(** A field whose number is not [known] may be inserted anywhere between two fields. *)
Definition ignores_unknown {A} (parse : bytes -> outcome from_pb_error A) (known : list N) : Prop :=
  forall a f b fa n d x,
    ~ In n known -> bytes_ok (a ++ f ++ b) -> fits (a ++ f ++ b) ->
    wire_message a fa -> wire_field f n d ->
    (parse (a ++ f ++ b) = Ok x <-> parse (a ++ b) = Ok x).
(** Neither a panic nor out of fuel, on any bytes. *)
Definition fine {A} (x : outcome from_pb_error A) : Prop := x <> Panic /\ x <> Err POutOfFuel.
Definition total {A} (parse : bytes -> outcome from_pb_error A) : Prop :=
  forall b, bytes_ok b -> fits b -> fine (parse b).
