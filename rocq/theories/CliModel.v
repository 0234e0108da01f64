(** Model of src/bin/cli.rs, of the [Debug] texts it prints (src/ipfs/types/cid.rs,
    src/formats/protobuf/protobuf.rs), and of the texts of addresses
    (src/libp2p/multiaddr.rs).

    A program's errors end in [main]'s result; the text the runtime then prints is not
    modelled.  Standard output is.  [Debug] of an OpenSSL key and [Display] of an IPv6
    address belong to other libraries and are parameters. *)
From Verif Require Import Base VarintModel ProtobufModel UtilModel CidModel CidTextModel IdentifyModel ChatModel HexDumpModel.
Local Open Scope string_scope. Local Open Scope list_scope. Local Open Scope N_scope.

(** Standard output and how the program ended. *)
Inductive ending := Done | Failed | Panicked.
Definition result : Type := bytes * ending.

(** *** cid.rs *)
(** cid.rs:8-22, 46-53: the derived [{:#?}] texts inside a structure (one level of
    indentation): a variant with a field takes three lines. *)
Definition version_text (v : cid_version) : bytes :=
  match v with CIDv0 => ascii_bytes "CIDv0" | CIDv1 => ascii_bytes "CIDv1" end.
Definition unknown_text (v : N) : bytes :=
  ascii_bytes "Unknown(" ++ [10] ++ ascii_bytes "        " ++ decimal v ++ ascii_bytes "," ++ [10] ++ ascii_bytes "    )".
Definition codec_text (c : multi_codec) : bytes :=
  match c with
  | CRaw => ascii_bytes "Raw" | CDagPB => ascii_bytes "DagPB" | CDagCBOR => ascii_bytes "DagCBOR"
  | CLibP2PKey => ascii_bytes "LibP2PKey" | CUnknown v => unknown_text v
  end.
Definition hash_text (h : multi_hash) : bytes :=
  match h with
  | HSha1 => ascii_bytes "Sha1" | HSha2256 => ascii_bytes "Sha2256" | HBlake2b256 => ascii_bytes "Blake2b256"
  | HBlake3 => ascii_bytes "Blake3" | HUnknown v => unknown_text v
  end.
(** cid.rs:138-147 [Debug for CID] with [{:#?}]; util.rs:14-18 [Debug for BinaryData]. *)
Definition cid_debug (c : cid) : bytes :=
  ascii_bytes "CID {" ++ [10] ++
  ascii_bytes "    version: " ++ version_text (cid_ver c) ++ ascii_bytes "," ++ [10] ++
  ascii_bytes "    codec: " ++ codec_text (cid_codec c) ++ ascii_bytes "," ++ [10] ++
  ascii_bytes "    hash_type: " ++ hash_text (cid_hash_type c) ++ ascii_bytes "," ++ [10] ++
  ascii_bytes "    hash: " ++ to_hex (cid_hash c) ++ ascii_bytes "," ++ [10] ++
  ascii_bytes "}".

(** *** protobuf.rs *)
(** protobuf.rs:264-274 [fmt_bytes_spaces]. *)
Fixpoint spaced (first : bool) (d : bytes) : bytes :=
  match d with
  | [] => []
  | b :: t => (if first then [] else [32]) ++ hex_padded 2 b ++ spaced false t
  end.
Definition bytes_spaces (label : string) (d : bytes) : bytes :=
  ascii_bytes label ++ ascii_bytes "(" ++ spaced true d ++ ascii_bytes ")".
(** protobuf.rs:276-282 [fmt_bytes_hex]. *)
Definition bytes_hex (d : bytes) : bytes := ascii_bytes "0x" ++ flat_map (hex_padded 2) d.
(** protobuf.rs:284-293 [Debug for FieldData]. *)
Definition field_debug (d : field_data) : bytes :=
  match d with
  | FVarInt v => bytes_spaces "VarInt" v
  | FBits32 v => bytes_hex v
  | FBits64 v => bytes_hex v
  | FBytes v => bytes_spaces "Bytes" v
  end.

(** *** bin/cli.rs *)
(** cli.rs:16-25 [get_argument]. *)
Definition get_argument (args : list bytes) (i : nat) : option bytes := nth_error args i.
(** cli.rs:28-35 [cid_command]. *)
Definition cid_command (args : list bytes) : result :=
  match get_argument args 0 with
  | None => ([], Failed)
  | Some s =>
    match cid_from_string s with
    | Ok c => (ascii_bytes "Plain: " ++ cid_to_string c ++ [10] ++ ascii_bytes "Debug: " ++ cid_debug c ++ [10], Done)
    | Err _ => ([], Failed)
    | Panic => ([], Panicked)
    end
  end.
(** [{:10}] of a number: blanks in front. *)
Definition right10 (s : bytes) : bytes := repeat 32 (10 - length s) ++ s.
(** cli.rs:41-63: the loop from [i], [count] rounds left; [gen k] is the number that the
    generator gives at its [k]th call. *)
Fixpoint varint_rounds (gen : nat -> N) (i count : nat) : result :=
  match count with
  | O => ([], Done)
  | S count =>
    let raw := gen (2 * i)%nat in
    let bits := gen (2 * i + 1)%nat mod 64 in
    let value := N.shiftr raw bits in
    let varint_bytes := encode_u64 value in
    match read_from varint_bytes 0 with
    | (Some v, _) =>
      match vi_to_u64 v with
      | Ok decoded_value =>
        if value =? decoded_value then
          let (out, e) := varint_rounds gen (S i) count in
          (right10 (decimal (N.of_nat i)) ++ ascii_bytes " 0x" ++ hex_padded 16 value ++ ascii_bytes " OK" ++ [10] ++ out, e)
        else ([], Failed)
      | Err _ => ([], Failed)
      | Panic => ([], Panicked)
      end
    | (None, _) => ([], Failed)
    end
  end.
(** cli.rs:37-65 [varint_command], with the number of rounds as a parameter. *)
Definition varint_command (gen : nat -> N) (rounds : nat) : result := varint_rounds gen 0 rounds.
(** peer_id.rs:7-13: derived [Debug] of [KeyType]. *)
Definition key_type_text (k : key_type) : bytes :=
  match k with KRsa => ascii_bytes "RSA" | KEd25519 => ascii_bytes "Ed25519" | KSecp256k1 => ascii_bytes "Secp256k1" | KEcdsa => ascii_bytes "ECDSA" end.
(** cli.rs:67-79 [getkey_command]: [rsa] is OpenSSL's parser followed by [Debug]. *)
Definition getkey_command (read : bytes -> option bytes) (rsa : bytes -> option bytes) (args : list bytes) : result :=
  match get_argument args 0 with
  | None => ([], Failed)
  | Some filename =>
    match read filename with
    | None => ([], Failed)
    | Some data =>
      let out1 := ascii_bytes "data.len = " ++ decimal (blen data) ++ [10] in
      match private_key_from_pb data with
      | Ok k =>
        let out2 := ascii_bytes "Got private key (type " ++ key_type_text (sk_type k) ++ ascii_bytes ", " ++ decimal (blen (sk_data k)) ++ ascii_bytes " bytes)" ++ [10] in
        match rsa (sk_data k) with
        | Some t => (out1 ++ out2 ++ ascii_bytes "pkey = " ++ t ++ [10], Done)
        | None => (out1 ++ out2, Failed)
        end
      | Err _ => (out1, Failed)
      | Panic => (out1, Panicked)
      end
    end
  end.
(** Text of an [i64]. *)
Definition signed_decimal (z : Z) : bytes :=
  if (z <? 0)%Z then ascii_bytes "-" ++ decimal (Z.to_N (- z)) else decimal (Z.to_N z).
(** [{:2}] of a number. *)
Definition right2 (s : bytes) : bytes := repeat 32 (2 - length s) ++ s.
(** cli.rs:90-98: the loop over the fields.  Fuel: a field takes at least one byte. *)
Fixpoint show_fields (fuel : nat) (r : pb_reader) : result :=
  match fuel with
  | O => ([], Failed)
  | S fuel =>
    match rd_field r with
    | Ok None => ([], Done)
    | Ok (Some (f, r')) =>
      let out1 := ascii_bytes "offset 0x" ++ hex_padded 4 (N.of_nat (fr_offset f)) ++ ascii_bytes ", field_number " ++
                  right2 (decimal (fr_number f)) ++ ascii_bytes ", data " ++ field_debug (fr_data f) ++ [10] in
      match fd_to_int64 (fr_data f) with
      | Ok v => let (out, e) := show_fields fuel r' in (out1 ++ ascii_bytes "value = " ++ signed_decimal v ++ [10] ++ out, e)
      | Err _ => (out1, Failed)
      | Panic => (out1, Panicked)
      end
    | Err _ => ([], Failed)
    | Panic => ([], Panicked)
    end
  end.
(** cli.rs:81-101 [write_pbuf_command], for any field number and value. *)
Definition write_pbuf (number : N) (value : Z) : result :=
  let data := write_int64 [] number value in
  let (out, e) := show_fields (S (length data)) (reader_new data) in
  (to_hex data ++ [10] ++ out, e).
(** cli.rs:83: the arguments it is called with. *)
Definition write_pbuf_command : result := write_pbuf 3 (-1234567890123456789)%Z.
(** cli.rs:103-130 [main], on the arguments with the program's name. *)
Definition cli_main (gen : nat -> N) (rounds : nat) (read rsa : bytes -> option bytes) (args : list bytes) : result :=
  match get_argument args 1 with
  | None => ([], Failed)
  | Some command =>
    if bytes_eqb command (ascii_bytes "cid") then cid_command (skipn 2 args)
    else if bytes_eqb command (ascii_bytes "varint") then varint_command gen rounds
    else if bytes_eqb command (ascii_bytes "getkey") then getkey_command read rsa (skipn 2 args)
    else if bytes_eqb command (ascii_bytes "write-pbuf") then write_pbuf_command
    else ([], Failed)
  end.

(** *** multiaddr.rs *)
(** [Display] of an [Ipv4Addr]. *)
Definition ip4_text (octets : bytes) : bytes :=
  match octets with
  | [] => []
  | b :: t => decimal b ++ flat_map (fun b => ascii_bytes "." ++ decimal b) t
  end.
(** multiaddr.rs:155-167 [Display for Addr]; [ip6] is [Display] of an [Ipv6Addr]. *)
Definition addr_text (ip6 : bytes -> bytes) (a : addr) : bytes :=
  match a with
  | AIP4 o => ascii_bytes "/ipv4/" ++ ip4_text o
  | AIP6 o => ascii_bytes "/ipv6/" ++ ip6 o
  | ATCP p => ascii_bytes "/tcp/" ++ decimal p
  | AUDP p => ascii_bytes "/udp/" ++ decimal p
  | AQUIC => ascii_bytes "/quic"
  | AUnknown proto d => ascii_bytes "/unknown/" ++ decimal proto ++ ascii_bytes "/" ++ to_hex d
  | AInvalid d => ascii_bytes "/invalid/" ++ to_hex d
  end.
(** multiaddr.rs:198-205 [Display for MultiAddr]. *)
Definition multiaddr_text (ip6 : bytes -> bytes) (m : multiaddr) : bytes := flat_map (addr_text ip6) m.
(** multiaddr.rs:207-212 [Debug for MultiAddr]: the same text as a quoted string.  IPv6
    texts, like all the others, have no character that the quoting changes. *)
Definition multiaddr_debug (ip6 : bytes -> bytes) (m : multiaddr) : bytes := ascii_bytes """" ++ multiaddr_text ip6 m ++ ascii_bytes """".
