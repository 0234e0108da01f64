(** Model of the debug texts of the structures of IPFS and libp2p: the [fmt::Debug]
    implementations (written out or derived) of src/ipfs/types/cid.rs, src/ipfs/dagpb.rs,
    src/ipfs/unixfs.rs, src/ipfs/bitswap/message.rs, src/libp2p/peer_id.rs and
    src/libp2p/identify.rs, on the formatter of DebugModel.v; and the texts of protobuf
    errors.

    [quote] is [Debug] of a string and [ip6] is [Display] of an [Ipv6Addr] (both of the
    standard library). *)
From Coq Require Import String Ascii.
From Verif Require Import Base UtilModel ChatModel VarintModel ProtobufModel CidModel MultibaseModel CidTextModel IdentifyModel BitswapModel DagPbModel UnixfsModel ToolsModel CliModel NamesModel DebugModel.
Local Open Scope string_scope. Local Open Scope list_scope. Local Open Scope N_scope.

(** [Debug] of a name of a variant, of an [Option], of a signed integer and of a [bool]. *)
Definition dname (s : string) : dbg := dtext (ascii_bytes s).
Definition doption {A} (f : A -> dbg) (o : option A) : dbg :=
  match o with Some x => dtuple "Some" [f x] | None => dname "None" end.
Definition integer_text (z : Z) : bytes :=
  match z with Zneg _ => ascii_bytes "-" ++ decimal (Z.abs_N z) | _ => decimal (Z.abs_N z) end.
Definition dinteger (z : Z) : dbg := dtext (integer_text z).
Definition dbool (b : bool) : dbg := dname (if b then "true" else "false").

(** *** util.rs *)
(** util.rs:20-26 [Debug for BinaryDataLen], 28-36 [Debug for OptBinaryDataLen]. *)
Definition length_text (d : bytes) : bytes := ascii_bytes "<" ++ decimal (blen d) ++ ascii_bytes " bytes>".
Definition opt_length_text (o : option bytes) : bytes :=
  match o with Some d => length_text d | None => ascii_bytes "None" end.

(** *** cid.rs *)
(** cid.rs:8-12, 14-22, 46-53: derived. *)
Definition dversion (v : cid_version) : dbg := dname (match v with CIDv0 => "CIDv0" | CIDv1 => "CIDv1" end).
Definition dcodec (c : multi_codec) : dbg :=
  match c with
  | CRaw => dname "Raw" | CDagPB => dname "DagPB" | CDagCBOR => dname "DagCBOR" | CLibP2PKey => dname "LibP2PKey"
  | CUnknown v => dtuple "Unknown" [dnumber v]
  end.
Definition dhash_type (h : multi_hash) : dbg :=
  match h with
  | HSha1 => dname "Sha1" | HSha2256 => dname "Sha2256" | HBlake2b256 => dname "Blake2b256" | HBlake3 => dname "Blake3"
  | HUnknown v => dtuple "Unknown" [dnumber v]
  end.
(** cid.rs:78-84 [Debug for RawCID]. *)
Definition draw_cid (b : bytes) : dbg := dbinary b.
(** cid.rs:138-147 [Debug for CID]. *)
Definition dcid (c : cid) : dbg :=
  dstruct "CID" [("version", dversion (cid_ver c)); ("codec", dcodec (cid_codec c)); ("hash_type", dhash_type (cid_hash_type c)); ("hash", dbinary (cid_hash c))].
(** cid.rs:268-274 [CIDPrefix], derived. *)
Definition dprefix (c : cid_prefix) : dbg :=
  dstruct "CIDPrefix" [("version", dversion (cp_ver c)); ("codec", dcodec (cp_codec c)); ("hash_type", dhash_type (cp_hash_type c)); ("hash_size", dnumber (cp_hash_size c))].

Section Strings.
Context (quote ip6 : bytes -> bytes).
Definition dstring (s : bytes) : dbg := dtext (quote s).

(** *** dagpb.rs *)
(** dagpb.rs:14-22 [Debug for PBLink]. *)
Definition dlink (l : pb_link) : dbg :=
  dstruct "PBLink" [("hash", dstring (cid_to_string (lk_hash l))); ("name", doption dstring (lk_name l)); ("tsize", doption dnumber (lk_tsize l))].
(** dagpb.rs:79-86 [Debug for PBNode]. *)
Definition dnode (n : pb_node) : dbg :=
  dstruct "PBNode" [("links", dvec dlink (nd_links n)); ("bytes", dtext (opt_length_text (nd_bytes n)))].

(** *** unixfs.rs *)
(** unixfs.rs:7-15 [DataType], 136-140 [UnixTime]: derived. *)
Definition ddata_type (t : data_type) : dbg :=
  dname (match t with
         | TRaw => "Raw" | TDirectory => "Directory" | TFile => "File" | TMetadata => "Metadata" | TSymlink => "Symlink"
         | THAMTShard => "HAMTShard"
         end).
Definition dtime (t : unix_time) : dbg :=
  dstruct "UnixTime" [("seconds", dinteger (ut_seconds t)); ("fractional_nanoseconds", doption dnumber (ut_nanos t))].
(** unixfs.rs:52-69 [Debug for Data]. *)
Definition dfs_data (d : fs_data) : dbg :=
  dstruct "Data"
    [("type_", ddata_type (fd_type d));
     (match fd_bytes d with Some x => ("data len", dnumber (blen x)) | None => ("data", dname "None") end);
     ("filesize", doption dnumber (fd_filesize d)); ("blocksizes", dvec dnumber (fd_blocksizes d));
     ("hash_type", doption dnumber (fd_hash_type d)); ("fanout", doption dnumber (fd_fanout d)); ("mode", doption dnumber (fd_mode d));
     ("mtime", doption dtime (fd_mtime d))].

(** *** bitswap/message.rs *)
(** message.rs:6-10 [WantType], 12-19 [Entry], 100-104 [WantList]: derived. *)
Definition dwant_type (t : want_type) : dbg := dname (match t with WBlock => "Block" | WHave => "Have" end).
Definition dwanted (e : entry) : dbg :=
  dstruct "Entry" [("block", draw_cid (en_block e)); ("priority", dinteger (en_priority e)); ("cancel", dbool (en_cancel e));
                   ("want_type", dwant_type (en_want_type e)); ("send_dont_have", dbool (en_send_dont_have e))].
Definition dwant_list (w : want_list) : dbg :=
  dstruct "WantList" [("entries", dvec dwanted (wl_entries w)); ("full", dbool (wl_full w))].
(** message.rs:193-200 [Debug for Block]. *)
Definition dblock (b : block) : dbg := dstruct "Block" [("prefix", dbinary (bl_prefix b)); ("data", dbinary (bl_data b))].
(** message.rs:202-212 [BlockPresenceType], [BlockPresence]; 220-227 [Message]: derived. *)
Definition dpresence_type (t : presence_type) : dbg := dname (match t with PHave => "Have" | PDontHave => "DontHave" end).
Definition dpresence (p : block_presence) : dbg :=
  dstruct "BlockPresence" [("cid", dvec dnumber (bp_cid p)); ("type_", dpresence_type (bp_type p))].
Definition dbitswap (m : bs_message) : dbg :=
  dstruct "Message" [("wantlist", doption dwant_list (bm_wantlist m)); ("blocks", dvec dblock (bm_blocks m)); ("payload", dvec dblock (bm_payload m));
                     ("block_presence", dvec dpresence (bm_block_presence m)); ("pending_bytes", doption dnumber (bm_pending_bytes m))].

(** *** peer_id.rs and identify.rs *)
(** peer_id.rs:7-13 [KeyType], derived; 33-40 [Debug for PublicKey]. *)
Definition dkey_type (t : key_type) : dbg :=
  dname (match t with KRsa => "RSA" | KEd25519 => "Ed25519" | KSecp256k1 => "Secp256k1" | KEcdsa => "ECDSA" end).
Definition dpublic_key (k : public_key) : dbg := dstruct "PublicKey" [("key_type", dkey_type (pk_type k)); ("data", dbinary (pk_data k))].
(** identify.rs:11-15 [Debug for SignedPeerRecord]; 17-26 [Identify], derived; the addresses
    are as in CliModel ([multiaddr_debug], multiaddr.rs:207-212). *)
Definition daddress (m : multiaddr) : dbg := dtext (multiaddr_debug ip6 m).
Definition didentify (i : identify) : dbg :=
  dstruct "Identify" [("protocol_version", dstring (id_protocol_version i)); ("agent_version", dstring (id_agent_version i));
                      ("public_key", dpublic_key (id_public_key i)); ("listen_addrs", dvec daddress (id_listen_addrs i));
                      ("observed_addr", daddress (id_observed_addr i)); ("protocols", dvec dstring (id_protocols i));
                      ("signed_peer_record", doption dbinary (id_signed_peer_record i))].
End Strings.

(** *** Errors *)
(** protobuf.rs:105-114 [ReadCase], 322-329 [ReadError] (derived), 331-335 [Display for
    ReadError]. *)
Definition dread_case (c : read_case) : dbg :=
  dname (match c with
         | CFieldTag => "FieldTag" | CVarInt => "VarInt" | CBits32 => "Bits32" | CBits64 => "Bits64" | CBytesLength => "BytesLength"
         | CBytes => "Bytes"
         end).
Definition dread_error (e : read_error) : dbg :=
  match e with
  | EndOfFile offset c => dtuple "EndOfFile" [dnumber (N.of_nat offset); dread_case c]
  | InvalidTag => dname "InvalidTag" | InvalidLength => dname "InvalidLength"
  | LengthOverflow offset => dtuple "LengthOverflow" [dnumber (N.of_nat offset)]
  | UnknownWireType offset w => dtuple "UnknownWireType" [dnumber (N.of_nat offset); dnumber w]
  end.
(** protobuf.rs:562-573 [Display for FromPBError]; [utf8] is the text of the error about
    invalid UTF-8.  The value [POutOfFuel] of the model does not occur. *)
Definition pb_error_text (utf8 : bytes) (e : from_pb_error) : bytes :=
  match e with
  | PPlain s => ascii_bytes s
  | PRead e => plain (dread_error e)
  | PDecode e => ascii_bytes (varint_error_text e)
  | PInvalidUTF8String => utf8
  | PMissingField name => ascii_bytes "Missing field: " ++ ascii_bytes name
  | PDuplicateField name => ascii_bytes "Duplicate field: " ++ ascii_bytes name
  | POutOfFuel => []
  end.
(** cid.rs:96-123 [Display for CIDParseError], [DecodeError] included; [s] is the text that
    was to be a CID. *)
Definition cid_text_error_text (s : bytes) (e : cid_text_error) : bytes :=
  match e with
  | TDecode e => decode_error_text s e
  | TParse e => ascii_bytes (cid_error_text e)
  end.
