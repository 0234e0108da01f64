(** Exact texts of the programs: C103, C105, C107, C108, C109, C110, C111, C112, C117, C118, C119, C121
    and C133. *)
From Coq Require Import String Ascii.
From Verif Require Import Base BaseProofs UtilModel ChatModel HexDumpModel BencodeModel Asn1Model Asn1ToolModel BencodePathModel
  CidModel IdentifyModel CliModel TorrentModel TrackerModel AnnounceModel QuicModel QuicToolModel RelayModel DemoModel TlsToolModel SimModel SimLogModel TemplateSpec.
From Verif Require ToolsModel.
Local Open Scope string_scope. Local Open Scope list_scope. Local Open Scope N_scope.
Ltac texts := intros; repeat match goal with |- _ /\ _ => split | |- forall _, _ => intro end; unfold line; rewrite <- ?app_assoc; reflexivity.

(** ** C103: the line of each kind of item, and the names of the object identifiers *)
Theorem C103_lines p :
  (forall i, identifier_text i = fill "Identifier { class: {}, form: {}, tag: {} }" [ascii_bytes (class_text (id_class i)); ascii_bytes (form_text (id_form i)); decimal (id_tag i)]) /\
  map class_text [CUniversal; CApplication; CContext; CPrivate] = ["Universal"; "Application"; "ContextSpecific"; "Private"] /\
  map form_text [FPrimitive; FConstructed] = ["Primitive"; "Constructed"] /\
  own_text p (VBoolean true) = fill "BOOLEAN true" [] /\ own_text p (VBoolean false) = fill "BOOLEAN false" [] /\
  (forall d, own_text p (VInteger d) = fill "INTEGER {}" [bytes_to_string p d]) /\
  (forall u d, own_text p (VBitString u d) = fill "BIT STRING {} ({} bytes, {} unused bits)" [bytes_to_string p d; decimal (blen d); decimal u]) /\
  (forall d, own_text p (VOctetString d) = fill "OCTET STRING {} ({} bytes)" [bytes_to_string p d; decimal (blen d)]) /\
  own_text p VNull = fill "NULL" [] /\
  (forall a, own_text p (VOid a) = match pr_registry p a with Some name => fill "OBJECT {} ({})" [name; oid_text a] | None => fill "OBJECT {}" [oid_text a] end) /\
  (forall s, own_text p (VPrintableString s) = fill "PrintableString {}" [escape_string s] /\ own_text p (VUtf8String s) = fill "UTF8String {}" [escape_string s] /\
     own_text p (VUtcTime s) = fill "UTCTime {}" [escape_string s] /\ own_text p (VGeneralizedTime s) = fill "GeneralizedTime {}" [escape_string s]) /\
  (forall l, own_text p (VSequence l) = fill "Sequence" [] /\ own_text p (VSet l) = fill "Set" []) /\
  (forall t i, own_text p (VApplication t i) = fill "Application ({})" [decimal t] /\ own_text p (VContextSpecific t i) = fill "ContextSpecific ({})" [decimal t] /\
     own_text p (VPrivate t i) = fill "Private ({})" [decimal t]) /\
  (forall i n, own_text p (VUnknown i n) = fill "Unknown {}, len = {}" [identifier_text i; decimal n]).
Proof.
  repeat split; intros; cbn [own_text]; try (destruct (pr_registry p a)); try (unfold identifier_text);
    repeat match goal with |- context[ascii_bytes (?f ?x)] => set (ascii_bytes (f x)) end; cbn [fill]; rewrite ?app_nil_r, <- ?app_assoc; reflexivity.
Qed.
Print Assumptions C103_lines.
(** The identifiers in their usual notation, with their names and short names. *)
Definition oid_table : list (string * string * string) := [
  ("2.5.4.3", "commonName", "cn"); ("2.5.4.4", "surname", "sn"); ("2.5.4.5", "serialNumber", ""); ("2.5.4.6", "countryName", "c"); ("2.5.4.7", "localityName", "l");
  ("2.5.4.8", "stateOrProvinceName", "st"); ("2.5.4.9", "streetAddress", "street"); ("2.5.4.10", "organizationName", "o"); ("2.5.4.11", "organizationalUnitName", "ou");
  ("2.5.29.35", "authorityKeyIdentifier", ""); ("2.5.29.14", "subjectKeyIdentifier", ""); ("2.5.29.17", "subjectAltName", ""); ("2.5.29.15", "keyUsage", "");
  ("2.5.29.37", "extKeyUsage", ""); ("2.5.29.31", "cRLDistributionPoints", ""); ("2.5.29.32", "certificatePolicies", ""); ("2.5.29.19", "basicConstraints", "");
  ("1.3.6.1.5.5.7.1.1", "authorityInfoAccess", ""); ("1.2.840.113549.1.1.11", "sha256WithRSAEncryption", ""); ("1.2.840.113549.1.1.12", "sha384WithRSAEncryption", "");
  ("1.2.840.113549.1.1.13", "sha512WithRSAEncryption", ""); ("1.2.840.113549.1.1.14", "sha224WithRSAEncryption", ""); ("1.2.840.113549.1.1.1", "rsaEncryption", "");
  ("1.2.840.10045.2.1", "ecPublicKey", ""); ("1.2.840.10045.4.3.1", "ecdsa-with-SHA224", ""); ("1.2.840.10045.4.3.2", "ecdsa-with-SHA256", "");
  ("1.2.840.10045.4.3.3", "ecdsa-with-SHA384", ""); ("1.2.840.10045.4.3.4", "ecdsa-with-SHA512", ""); ("1.2.840.10045.3.1.7", "prime256v1", ""); ("1.3.101.112", "ED25519", "")].
Theorem C103_object_names : map (fun '(arcs, name, short) => (oid_text arcs, name, match short with Some s => s | None => "" end)) x509_names = map (fun '(o, n, s) => (ascii_bytes o, n, s)) oid_table.
Proof. vm_compute. reflexivity. Qed.
Print Assumptions C103_object_names.
Example C103_lines_case : forall p, own_text p (VContextSpecific 3 (Item 0 0 VNull)) = ascii_bytes "ContextSpecific (3)".
Proof. reflexivity. Qed.

(** ** C107: the messages of the bencoding parser *)
Theorem C107_messages bad data :
  (forall o, error_message bad data (PExpectedDigit o) = fill "Expected a digit" [] /\ error_message bad data (PBadInteger o) = fill "number too large to fit in target type" [] /\
     error_message bad data (PIntegerOverflow o) = fill "Integer overflow" [] /\ error_message bad data (PBeyondEnd o) = fill "String goes beyond end of file" [] /\
     error_message bad data (PPrematureEnd o) = fill "Premature end of file" [] /\ error_message bad data (PBadUtf8 o) = bad o) /\
  (forall o b, error_message bad data (PUnknownType o b) = fill "Unknown value type: {}" [decimal b]) /\
  (forall o b, error_message bad data (PExpectedByte o b) = fill "Expected {}, got {}" [byte_repr b; match nth_error data o with Some g => byte_repr g | None => fill "end of file" [] end]).
Proof.
  repeat split; intros; cbn [error_message fill]; rewrite ?app_nil_r; try reflexivity; unfold peek; destruct (nth_error data o); reflexivity.
Qed.
Print Assumptions C107_messages.
Example C107_messages_case : forall bad, error_message bad [105; 120] (PExpectedByte 1 101) = ascii_bytes "Expected 'e', got 'x'".
Proof. reflexivity. Qed.

(** ** C108: the views of a torrent *)
Theorem C108_info_text t : info_text t = fill "Info hash: {}
Name: {}
Tracker groups: {}
Trackers: {}
Piece length: {}
Pieces: {}
Files: {}
Total length: {}
" [to_hex (t_info_hash t); t_name t; decimal (N.of_nat (length (t_tracker_groups t))); decimal (N.of_nat (length (concat (t_tracker_groups t)))); decimal (t_piece_length t);
   decimal (N.of_nat (length (t_pieces t))); decimal (N.of_nat (length (t_files t))); decimal (t_total_length t)].
Proof. unfold info_text. texts. Qed.
Print Assumptions C108_info_text.
(** Things with their numbers. *)
Definition numbered {A} (l : list A) : list (nat * A) := combine (seq 0 (length l)) l.
Definition group_block (x : nat * list bytes) : bytes :=
  fill "    group {}
" [decimal (N.of_nat (fst x))] ++ flat_map (fun y => fill "        {}: {}
" [decimal (N.of_nat (fst y)); snd y]) (numbered (snd x)).
Lemma numbered_urls l : forall i, numbered_lines i l = flat_map (fun y => fill "        {}: {}
" [decimal (N.of_nat (fst y)); snd y]) (combine (seq i (length l)) l).
Proof. induction l as [|u l IH]; intros i; [reflexivity|]. cbn [numbered_lines length seq combine flat_map]. rewrite IH. f_equal. unfold line. rewrite <- !app_assoc. reflexivity. Qed.
Lemma numbered_blocks l : forall i, numbered_groups i l = flat_map group_block (combine (seq i (length l)) l).
Proof. induction l as [|u l IH]; intros i; [reflexivity|]. cbn [numbered_groups length seq combine flat_map]. rewrite IH, numbered_urls, app_assoc. f_equal; try (unfold line, group_block; rewrite <- !app_assoc; reflexivity). Qed.
Theorem C108_torrent_text t : torrent_text t = fill "Torrent loaded successfully
    name = {}
    info hash = {}
{}    files
{}" [t_name t; to_hex (t_info_hash t); flat_map group_block (numbered (t_tracker_groups t));
     flat_map (fun f => let n := decimal (tf_length f) in fill "        {}{} {}
" [n; repeat 32 (12 - length n); tf_path f]) (t_files t)].
Proof.
  unfold torrent_text, line. rewrite numbered_blocks. fold (numbered (t_tracker_groups t)). rewrite <- !app_assoc. set (G := flat_map group_block _). cbn [fill]. rewrite app_nil_r.
  match goal with |- context[flat_map ?f (t_files t)] => set (A := flat_map f (t_files t)) end. match goal with |- context[G ++ _ :: ?r] => idtac end.
  assert (E : A = flat_map (fun f => let n := decimal (tf_length f) in fill "        {}{} {}
" [n; repeat 32 (12 - length n); tf_path f]) (t_files t)).
  { subst A. apply flat_map_ext. intros f. unfold left12. rewrite <- !app_assoc. reflexivity. }
  rewrite E. reflexivity.
Qed.
Print Assumptions C108_torrent_text.

(** ** C109 and C110: the errors of the multibase tool and the names of the tables *)
Theorem C109_messages s :
  ToolsModel.decode_error_text s MultibaseModel.EEmptyString = fill "Empty string" [] /\
  (forall n, ToolsModel.decode_error_text s (MultibaseModel.EInvalidLength n) = fill "Invalid length: {}" [decimal (N.of_nat n)]) /\
  (forall o c, ToolsModel.decode_error_text s (MultibaseModel.EInvalidChar o c) = fill "Invalid character at offset {}: '{}'" [decimal (N.of_nat o); decimal c]) /\
  (forall c, ToolsModel.decode_error_text s (MultibaseModel.EUnsupportedEncoding c) = fill "Unknown encoding format: {}{}" [ToolsModel.first_char s;
     if c =? 49 then ascii_bytes " (looks like a base58-encoded identity multihash from a peer id)" else if c =? 81 then ascii_bytes " (looks like a base58-encoded sha2-256 multihash from a peer id or CIDv0)" else []]).
Proof.
  repeat split; intros; cbn [ToolsModel.decode_error_text fill]; rewrite ?app_nil_r, <- ?app_assoc; reflexivity.
Qed.
Print Assumptions C109_messages.
Theorem C110_names : map fst ToolsModel.generated = ["BASE16_LOWER"; "BASE16_UPPER"; "BASE32_UPPER"; "BASE32_LOWER"; "BASE58_BTC"; "BASE58_FLICKR"; "BASE64_ALPHABET"; "BASE64_URL_ALPHABET"].
Proof. reflexivity. Qed.
Print Assumptions C110_names.

(** ** C111 and C112: a CID and its parts; addresses *)
Theorem C111_texts :
  (forall c, cid_debug c = fill "CID {
    version: {},
    codec: {},
    hash_type: {},
    hash: {},
}" [version_text (cid_ver c); codec_text (cid_codec c); hash_text (cid_hash_type c); to_hex (cid_hash c)]) /\
  map version_text [CIDv0; CIDv1] = map ascii_bytes ["CIDv0"; "CIDv1"] /\
  map codec_text [CRaw; CDagPB; CDagCBOR; CLibP2PKey] = map ascii_bytes ["Raw"; "DagPB"; "DagCBOR"; "LibP2PKey"] /\
  map hash_text [HSha1; HSha2256; HBlake2b256; HBlake3] = map ascii_bytes ["Sha1"; "Sha2256"; "Blake2b256"; "Blake3"] /\
  (forall v, codec_text (CUnknown v) = fill "Unknown(
        {},
    )" [decimal v] /\ hash_text (HUnknown v) = codec_text (CUnknown v)) /\
  map key_type_text [KRsa; KEd25519; KSecp256k1; KEcdsa] = map ascii_bytes ["RSA"; "Ed25519"; "Secp256k1"; "ECDSA"].
Proof. texts. Qed.
Print Assumptions C111_texts.
Theorem C112_texts ip6 :
  (forall a b c d, addr_text ip6 (AIP4 [a; b; c; d]) = fill "/ipv4/{}.{}.{}.{}" [decimal a; decimal b; decimal c; decimal d]) /\
  (forall o, addr_text ip6 (AIP6 o) = fill "/ipv6/{}" [ip6 o]) /\ (forall p, addr_text ip6 (ATCP p) = fill "/tcp/{}" [decimal p] /\ addr_text ip6 (AUDP p) = fill "/udp/{}" [decimal p]) /\
  addr_text ip6 AQUIC = fill "/quic" [] /\ (forall p d, addr_text ip6 (AUnknown p d) = fill "/unknown/{}/{}" [decimal p; to_hex d]) /\
  (forall d, addr_text ip6 (AInvalid d) = fill "/invalid/{}" [to_hex d]) /\ (forall m, multiaddr_text ip6 m = concat (map (addr_text ip6) m)).
Proof.
  repeat split; intros; cbn [addr_text ip4_text fill flat_map]; rewrite ?app_nil_r, <- ?app_assoc; try reflexivity. apply flat_map_concat_map.
Qed.
Print Assumptions C112_texts.
Example C112_texts_case : forall ip6, multiaddr_text ip6 [AIP4 [10; 0; 0; 1]; AUDP 4001; AQUIC] = ascii_bytes "/ipv4/10.0.0.1/udp/4001/quic".
Proof. intros. vm_compute. reflexivity. Qed.

(** ** C118: what the programs print about a response and a torrent *)
Theorem C118_tool_text r : tool_text r = fill "action = 1
transaction_id = {}
interval = {}
leechers = {}
seeders = {}
{}" [decimal (ar_transaction r); decimal (ar_interval r); decimal (ar_leechers r); decimal (ar_seeders r); flat_map peer_line (ar_peers r)].
Proof. unfold tool_text, line. cbn [fill]. rewrite app_nil_r, <- !app_assoc. reflexivity. Qed.
Print Assumptions C118_tool_text.
Theorem C118_client_text r : client_text r = fill "AnnounceResponse {
    transaction_id: {},
    interval: {},
    leechers: {},
    seeders: {},
    peers: [{}],
}
" [decimal (ar_transaction r); decimal (ar_interval r); decimal (ar_leechers r); decimal (ar_seeders r);
   match ar_peers r with [] => [] | l => fill "
{}    " [flat_map (fun e => fill "        {},
" [v4_text e]) l] end].
Proof.
  unfold client_text, line. destruct (ar_peers r) as [|e l]; [rewrite <- !app_assoc; reflexivity|]. cbn [fill]. rewrite <- !app_assoc.
  assert (E : flat_map (fun e => (ascii_bytes "        " ++ v4_text e ++ [44]) ++ [10]) (e :: l) = flat_map (fun e => fill "        {},
" [v4_text e]) (e :: l)) by (apply flat_map_ext; intros x; rewrite <- !app_assoc; reflexivity).
  rewrite E. set (F := flat_map _ (e :: l)). cbn [fill app]. rewrite <- ?app_assoc. cbn [app]. rewrite <- ?app_assoc. reflexivity.
Qed.
Print Assumptions C118_client_text.
Theorem C118_download_text filename t size last peer : download_text filename t size ++ last_text last peer = fill "Torrent file {}
    info hash    = {}
    piece count  = {}
    piece length = {}
    total length = {}
    total psize  = {}
    last length  = {}
Downloading from peer {}
" [filename; to_hex (t_info_hash t); decimal (N.of_nat (length (t_pieces t))); decimal (t_piece_length t); decimal (t_total_length t); decimal size; decimal last; peer].
Proof. unfold download_text, last_text. texts. Qed.
Print Assumptions C118_download_text.
Theorem C118_warnings parse_url debug t : tracker_warnings parse_url debug t =
  flat_map (fun s => fill "WARNING: Invalid tracker URL {}
" [debug s]) (filter (fun s => match parse_url s with Some _ => false | None => true end) (concat (t_tracker_groups t))).
Proof.
  unfold tracker_warnings. induction (t_tracker_groups t) as [|g l IH]; [reflexivity|]. cbn [flat_map concat]. rewrite IH, filter_app, flat_map_app. f_equal. clear IH.
  induction g as [|s g IH]; [reflexivity|]. cbn [flat_map filter]. rewrite IH. destruct (parse_url s); [reflexivity|]. cbn [flat_map]. f_equal; try (unfold line; rewrite <- !app_assoc; reflexivity).
Qed.
Print Assumptions C118_warnings.

(** ** C119: transport parameters and the log of the dispatcher *)
Theorem C119_texts :
  map number_name [PMaxIdle; PMaxUdp; PMaxData; PStreamBidiLocal; PStreamBidiRemote; PStreamUni; PStreamsBidi; PStreamsUni; PActiveIds] =
    ["max_idle_timeout"; "max_udp_payload_size"; "initial_max_data"; "initial_max_stream_data_bidi_local"; "initial_max_stream_data_bidi_remote"; "initial_max_stream_data_uni";
     "initial_max_streams_bidi"; "initial_max_streams_uni"; "active_connection_id_limit"] /\
  (forall n v, param_text (PNumber n v) = fill "{} = {}" [ascii_bytes (number_name n); decimal v]) /\
  (forall id, param_text (POriginalId id) = fill "original_destination_connection_id = {}" [id_text id] /\ param_text (PSourceId id) = fill "initial_source_connection_id = {}" [id_text id]) /\
  (forall id d, param_text (PInvalid id d) = fill "invalid(0x{}) = {}" [hex_number id; to_hex d] /\ param_text (PUnknown id d) = fill "unknown(0x{}) = {}" [hex_number id; to_hex d]) /\
  (forall b id, id_text (b :: id) = to_hex (b :: id)) /\ id_text [] = ascii_bytes ".".
Proof. repeat split; intros; cbn [param_text fill]; rewrite ?app_nil_r, <- ?app_assoc; reflexivity. Qed.
Print Assumptions C119_texts.
Theorem C119_log server l p s : dispatch server l p = Ok (Logged s) -> s = if server then "Non-initial packet received with unknown connection id" else "Packet received with unknown connection id".
Proof. unfold dispatch. destruct (find_connection _ _ _); [discriminate|]. destruct server; [destruct (qp_type p); try discriminate|]; intros H; congruence. Qed.
Print Assumptions C119_log.

(** ** C106, C117 and C121 *)
Theorem C106_welcome : welcome = fill "=======
Welcome
=======
" [].
Proof. reflexivity. Qed.
Print Assumptions C106_welcome.
Theorem C117_chunk d : print_chunk d = fill "r = {}
receive application data =
{}
" [decimal (blen d); indent (dump_alternate d)].
Proof. unfold print_chunk. texts. Qed.
Print Assumptions C117_chunk.
Theorem C117_default_address o cfg address protocols : tool_setup o = CaModel.GOk (cfg, address, protocols) ->
  address = match to_address o with Some a => a | None => ascii_bytes "localhost:443" end /\ protocols = [ascii_bytes "h2"; ascii_bytes "http/1.1"] /\ TlsClientModel.cf_name cfg = Some (ascii_bytes "localhost").
Proof. unfold tool_setup. destruct (parse_args o) as [c| | |]; try discriminate. intros H. unfold CaModel.gbind in H. injection H as <- <- <-. repeat split. Qed.
Print Assumptions C117_default_address.
Theorem C121_got w : got w = fill "Got: {}
" [w].
Proof. unfold got. texts. Qed.
Print Assumptions C121_got.

(** ** C133: the lines of the trace *)
Definition space_to (n : nat) (t : bytes) : bytes := t ++ repeat 32 (n - length t).
Definition zeros_to (n : nat) (t : bytes) : bytes := repeat 48 (n - length t) ++ t.
Theorem C133_lines :
  (forall t e, entry_text (t, e) = fill "{}.{} {} {}
" [zeros_to 5 (decimal (t / 1000)); zeros_to 3 (decimal (t mod 1000)); space_to 12 (component e); event_text e]) /\
  (forall s no m, component (LSend s no m) = ascii_bytes (match s with FirstSide => "p->c" | SecondSide => "c->p" end) /\ component (LDrop s no m) = component (LSend s no m) /\ component (LRecv s no m) = component (LSend s no m)) /\
  (forall s v seq d, component (LData s v seq d) = ascii_bytes (match s with FirstSide => "producer" | SecondSide => "consumer" end)) /\
  (forall s v n, component (LAck s v n) = ascii_bytes (match s with FirstSide => "producer" | SecondSide => "consumer" end)) /\
  (forall s n, component (LRetransmit s n) = ascii_bytes (match s with FirstSide => "producer" | SecondSide => "consumer" end)) /\
  (forall s no n d, event_text (LSend s no (MData n d)) = fill "send {}: Data(seq = {})" [decimal no; decimal n] /\ event_text (LDrop s no (MData n d)) = fill "drop {}: Data(seq = {})" [decimal no; decimal n] /\
     event_text (LRecv s no (MData n d)) = fill "recv {}: Data(seq = {})" [decimal no; decimal n]) /\
  (forall s no n, event_text (LSend s no (MAck n)) = fill "send {}: Ack(ack = {})" [decimal no; decimal n] /\ event_text (LDrop s no (MAck n)) = fill "drop {}: Ack(ack = {})" [decimal no; decimal n] /\
     event_text (LRecv s no (MAck n)) = fill "recv {}: Ack(ack = {})" [decimal no; decimal n]) /\
  (forall s seq d, event_text (LData s Future seq d) = fill "received message with seq = {}, data = ""Message {}"" [FUTURE]" [decimal seq; decimal d] /\
     event_text (LData s Fine seq d) = fill "received message with seq = {}, data = ""Message {}"" (ok)" [decimal seq; decimal d] /\
     event_text (LData s Duplicate seq d) = fill "received message with seq = {}, data = ""Message {}"" [DUP]" [decimal seq; decimal d]) /\
  (forall s n, event_text (LAck s News n) = fill "received ack with ack_no = {}" [decimal n] /\ event_text (LAck s DupAck n) = fill "received ack with ack_no = {} [DUP]" [decimal n] /\
     event_text (LAck s Stale n) = fill "received ack with ack_no = {} [STALE]" [decimal n]) /\
  (forall s n, event_text (LRetransmit s n) = fill "Triggering retransmit of seq {}" [decimal n]).
Proof.
  repeat split; intros; try (destruct s; reflexivity);
    cbn [event_text channel_text description data_text fill]; unfold entry_text, line, data_text; cbn [fst snd]; rewrite ?app_nil_r, <- ?app_assoc; reflexivity.
Qed.
Print Assumptions C133_lines.
Example C133_lines_case : entry_text (12034, LAck SecondSide DupAck 4) = ascii_bytes "00012.034 consumer     received ack with ack_no = 4 [DUP]" ++ [10].
Proof. vm_compute. reflexivity. Qed.
