(** Exact texts of values and errors: C08, C09, C10, C13, C24, C51, C53, C123, C124, C127, C128,
    C129 and C130. *)
From Coq Require Import String Ascii.
From Verif Require Import Base BaseProofs UtilModel ChatModel HexDumpModel VarintModel BinaryModel ProtobufModel CidModel CidTextModel MultibaseModel IdentifyModel BitswapModel DagPbModel UnixfsModel
  BlockModel TlsCodesModel TlsTypesModel NamesModel DebugModel IpfsTextModel TemplateSpec.
From Verif Require PemModel BitswapLogModel MplexModel MplexLogModel CheckProgModel LpioModel.
Local Open Scope string_scope. Local Open Scope list_scope. Local Open Scope N_scope.
Ltac parts := intros; repeat match goal with |- _ /\ _ => split | |- forall _, _ => intro end.
Ltac level := unfold dtext, dnumber, dbinary, dstruct, dtuple, dname; cbn [plain map fst snd commas plain_open plain_close]; rewrite <- ?app_assoc; reflexivity.

Lemma commas_apart l : commas l = apart (ascii_bytes ", ") l.
Proof. induction l as [|x [|y l] IH]; [reflexivity|reflexivity|]. cbn [commas apart] in *. rewrite IH. reflexivity. Qed.
Lemma vec_listed {A} (f : A -> dbg) l : plain (dvec f l) = listed (map (fun x => plain (f x)) l).
Proof.
  unfold dvec, listed. destruct l as [|x l]; [reflexivity|].
  change (plain (DGroup GList [] (map f (x :: l)))) with ([] ++ ascii_bytes "[" ++ commas (map plain (map f (x :: l))) ++ ascii_bytes "]").
  rewrite commas_apart, map_map. reflexivity.
Qed.

(** ** C127: the values of the handshake *)
Definition numbers (l : bytes) : bytes := listed (map decimal l).
Theorem C127_names :
  map suite_text [CsTLSAES128GCMSHA256; CsTLSAES256GCMSHA384; CsTLSCHACHA20POLY1305SHA256; CsTLSAES128CCMSHA256; CsTLSAES128CCM8SHA256] =
    map ascii_bytes ["TLS_AES_128_GCM_SHA256"; "TLS_AES_256_GCM_SHA384"; "TLS_CHACHA20_POLY1305_SHA256"; "TLS_AES_128_CCM_SHA256"; "TLS_AES_128_CCM_8_SHA256"] /\
  (forall c, suite_text (CsUnknown c) = fill "0x{}" [hex_padded 4 c]) /\
  map scheme_text [SsRsaPkcs1Sha256; SsRsaPkcs1Sha384; SsRsaPkcs1Sha512; SsEcdsaSecp256r1Sha256; SsEcdsaSecp384r1Sha384; SsEcdsaSecp521r1Sha512; SsRsaPssRsaeSha256; SsRsaPssRsaeSha384;
      SsRsaPssRsaeSha512; SsEd25519; SsEd448; SsRsaPssPssSha256; SsRsaPssPssSha384; SsRsaPssPssSha512; SsRsaPkcs1Sha1; SsEcdsaSha1] =
    map ascii_bytes ["RsaPkcs1Sha256"; "RsaPkcs1Sha384"; "RsaPkcs1Sha512"; "EcdsaSecp256r1Sha256"; "EcdsaSecp384r1Sha384"; "EcdsaSecp521r1Sha512"; "RsaPssRsaeSha256"; "RsaPssRsaeSha384";
      "RsaPssRsaeSha512"; "Ed25519"; "Ed448"; "RsaPssPssSha256"; "RsaPssPssSha384"; "RsaPssPssSha512"; "RsaPkcs1Sha1"; "EcdsaSha1"] /\
  (forall c, scheme_text (SsUnknown c) = hex_padded 4 c) /\
  map group_text [NgSecp256r1; NgSecp384r1; NgSecp521r1; NgX25519; NgX448; NgFfdhe2048; NgFfdhe3072; NgFfdhe4096; NgFfdhe6144; NgFfdhe8192] =
    map ascii_bytes ["Secp256r1"; "Secp384r1"; "Secp521r1"; "X25519"; "X448"; "Ffdhe2048"; "Ffdhe3072"; "Ffdhe4096"; "Ffdhe6144"; "Ffdhe8192"] /\
  (forall c, group_text (NgUnknown c) = decimal c) /\
  map curve_text [NcSect163k1; NcSect163r1; NcSect163r2; NcSect193r1; NcSect193r2; NcSect233k1; NcSect233r1; NcSect239k1; NcSect283k1; NcSect283r1; NcSect409k1; NcSect409r1; NcSect571k1; NcSect571r1;
      NcSecp160k1; NcSecp160r1; NcSecp160r2; NcSecp192k1; NcSecp192r1; NcSecp224k1; NcSecp224r1; NcSecp256k1; NcSecp256r1; NcSecp384r1; NcSecp521r1; NcX25519; NcX448;
      NcArbitraryExplicitPrimeCurves; NcArbitraryExplicitChar2Curves] =
    map ascii_bytes ["Sect163k1"; "Sect163r1"; "Sect163r2"; "Sect193r1"; "Sect193r2"; "Sect233k1"; "Sect233r1"; "Sect239k1"; "Sect283k1"; "Sect283r1"; "Sect409k1"; "Sect409r1"; "Sect571k1"; "Sect571r1";
      "Secp160k1"; "Secp160r1"; "Secp160r2"; "Secp192k1"; "Secp192r1"; "Secp224k1"; "Secp224r1"; "Secp256k1"; "Secp256r1"; "Secp384r1"; "Secp521r1"; "X25519"; "X448";
      "ArbitraryExplicitPrimeCurves"; "ArbitraryExplicitChar2Curves"] /\
  (forall c, curve_text (NcOther c) = fill "Other({})" [decimal c] /\ point_text (PfOther c) = fill "Other({})" [decimal c]) /\
  map point_text [PfUncompressed; PfANSIX962CompressedPrime; PfANSIX962CompressedChar2] = map ascii_bytes ["Uncompressed"; "ANSIX962CompressedPrime"; "ANSIX962CompressedChar2"] /\
  map psk_text [PmPskKe; PmPskDheKe] = map ascii_bytes ["PSK-only key establishment"; "PSK with (EC)DHE key establishment"] /\
  (forall c, psk_text (PmUnknown c) = decimal c) /\
  (forall s, name_text (HostName s) = escape_string s) /\ (forall c d, name_text (OtherName c d) = fill "<other {}>" [decimal c]) /\
  (forall k, share_text k = fill "{} {}" [group_text (ks_group k); to_hex (ks_key k)]).
Proof. parts; try reflexivity; unfold share_text; cbn [suite_text fill]; rewrite app_nil_r; reflexivity. Qed.
Print Assumptions C127_names.
Theorem C127_extensions lossy :
  (forall l, extension_text lossy (XAlpn l) = fill "ApplicationLayerProtocolNegotiation {}" [listed (map (fun d => escape_string (lossy d)) l)]) /\
  (forall l, extension_text lossy (XSignatureAlgorithms l) = fill "SignatureAlgorithms {}" [listed (map scheme_text l)]) /\
  (forall l, extension_text lossy (XServerName l) = fill "ServerName {}" [listed (map name_text l)]) /\
  (forall l, extension_text lossy (XSupportedGroups l) = fill "SupportedGroups {}" [listed (map curve_text l)]) /\
  (forall l, extension_text lossy (XPointFormats l) = fill "ECPointFormats {}" [listed (map point_text l)]) /\
  (forall t d, extension_text lossy (XUnknown t d) = fill "Unknown({}) {}" [decimal t; to_hex d]) /\
  extension_text lossy XEncryptThenMac = fill "EncryptThenMac" [] /\ extension_text lossy XExtendedMasterSecret = fill "ExtendedMasterSecret" [] /\
  extension_text lossy XPostHandshakeAuth = fill "PostHandshakeAuth" [] /\
  (forall d, extension_text lossy (XNextProtocol d) = fill "NextProtocolNegotiation {}" [numbers d]) /\
  (forall d, extension_text lossy (XSupportedVersions d) = fill "SupportedVersions {}" [numbers d]) /\
  (forall l, extension_text lossy (XPskModes l) = fill "PskKeyExchangeModes {}" [listed (map psk_text l)]) /\
  (forall l, extension_text lossy (XAuthorities l) = fill "CertificateAuthorities {}" [listed (map to_hex l)]) /\
  (forall l, extension_text lossy (XKeyShareClient l) = fill "KeyShareClientHello {}" [listed (map share_text l)]) /\
  (forall k, extension_text lossy (XKeyShareServer k) = fill "KeyShareServerHello {}" [share_text k]) /\
  (forall d, extension_text lossy (XTransportParameters d) = fill "TransportParameters {}" [to_hex d]).
Proof.
  parts; cbn [extension_text fill]; unfold numbers; rewrite ?vec_listed, ?app_nil_r; reflexivity.
Qed.
Print Assumptions C127_extensions.
Theorem C127_messages lossy :
  let extensions l := listed (map (extension_text lossy) l) in
  (forall h, handshake_plain lossy (HClientHello h) =
     fill "ClientHello(ClientHello { legacy_version: {}, random: {}, legacy_session_id: {}, cipher_suites: {}, legacy_compression_methods: {}, extensions: {} })"
       [decimal (ch_version h); to_hex (ch_random h); to_hex (ch_session h); listed (map suite_text (ch_suites h)); numbers (ch_compression h); extensions (ch_extensions h)]) /\
  (forall h, handshake_plain lossy (HServerHello h) =
     fill "ServerHello(ServerHello { legacy_version: {}, random: {}, legacy_session_id_echo: {}, cipher_suite: {}, legacy_compression_method: {}, extensions: {} })"
       [decimal (sh_version h); to_hex (sh_random h); to_hex (sh_session h); suite_text (sh_suite h); decimal (sh_compression h); extensions (sh_extensions h)]) /\
  handshake_plain lossy HEndOfEarlyData = fill "EndOfEarlyData(EndOfEarlyData)" [] /\ handshake_plain lossy HKeyUpdate = fill "KeyUpdate(KeyUpdate)" [] /\
  (forall l, handshake_plain lossy (HEncryptedExtensions l) = fill "EncryptedExtensions(EncryptedExtensions { extensions: {} })" [extensions l]) /\
  (forall r, handshake_plain lossy (HCertificateRequest r) = fill "CertificateRequest(CertificateRequest { certificate_request_context: {}, extensions: {} })" [numbers (cr_context r); extensions (cr_extensions r)]) /\
  (forall c, handshake_plain lossy (HCertificate c) = fill "Certificate(Certificate { certificate_request_context: {}, certificate_list: {} })"
     [numbers (ct_context c); listed (map (fun e => fill "CertificateEntry { data: {}, extensions: {} }" [dump_plain (en_data e); extensions (en_extensions e)]) (ct_list c))]) /\
  (forall v, handshake_plain lossy (HCertificateVerify v) = fill "CertificateVerify(CertificateVerify { algorithm: {}, signature: {} })" [scheme_text (cv_algorithm v); numbers (cv_signature v)]) /\
  (forall d, handshake_plain lossy (HFinished d) = fill "Finished(Finished { verify_data: {} })" [numbers d]) /\
  (forall t, handshake_plain lossy (HNewSessionTicket t) =
     fill "NewSessionTicket(NewSessionTicket { ticket_lifetime: {}, ticket_age_add: {}, ticket_nonce: {}, ticket: {}, extensions: {} })"
       [decimal (st_lifetime t); decimal (st_age_add t); to_hex (st_nonce t); to_hex (st_ticket t); extensions (st_extensions t)]) /\
  (forall t d, handshake_plain lossy (HUnknown t d) = fill "Unknown({}, {})" [decimal t; numbers d]).
Proof.
  cbv zeta. unfold handshake_plain, numbers. parts; try reflexivity;
    unfold dhandshake, dtuple, dclient_hello, dserver_hello, dencrypted, drequest, dcertificates, dverify, dfinished, dticket, dstruct, dnumber, dbinary, dsuite, dtext;
    cbn [plain map fst snd commas plain_open plain_close]; rewrite ?vec_listed;
    cbn [plain]; rewrite <- ?app_assoc; try reflexivity.
  assert (E : map (fun x => plain (dentry lossy x)) (ct_list c) = map (fun e => fill "CertificateEntry { data: {}, extensions: {} }" [dump_plain (en_data e); listed (map (extension_text lossy) (en_extensions e))]) (ct_list c)).
  { apply map_ext. intros e. unfold dentry, dstruct. cbn [plain map fst snd commas plain_open plain_close]. rewrite vec_listed, <- !app_assoc. reflexivity. }
  rewrite E. reflexivity.
Qed.
Print Assumptions C127_messages.
Example C127_messages_case : forall lossy, handshake_plain lossy (HFinished [7; 255]) = ascii_bytes "Finished(Finished { verify_data: [7, 255] })".
Proof. intros. vm_compute. reflexivity. Qed.

(** ** C128: the values of IPFS *)
Definition optional {A} (f : A -> bytes) (o : option A) : bytes := match o with Some x => fill "Some({})" [f x] | None => fill "None" [] end.
Definition truth (b : bool) : bytes := ascii_bytes (if b then "true" else "false").
Definition signed (z : Z) : bytes := (if (z <? 0)%Z then [45] else []) ++ decimal (Z.abs_N z).
Lemma option_text {A} (f : A -> dbg) o : plain (doption f o) = optional (fun x => plain (f x)) o.
Proof. destruct o; reflexivity. Qed.
Lemma integer_signed z : integer_text z = signed z.
Proof. destruct z; reflexivity. Qed.
Theorem C128_names :
  map plain [dcodec CRaw; dcodec CDagPB; dcodec CDagCBOR; dcodec CLibP2PKey] = map ascii_bytes ["Raw"; "DagPB"; "DagCBOR"; "LibP2PKey"] /\
  map plain [dhash_type HSha1; dhash_type HSha2256; dhash_type HBlake2b256; dhash_type HBlake3] = map ascii_bytes ["Sha1"; "Sha2256"; "Blake2b256"; "Blake3"] /\
  (forall v, plain (dcodec (CUnknown v)) = fill "Unknown({})" [decimal v] /\ plain (dhash_type (CidModel.HUnknown v)) = fill "Unknown({})" [decimal v]) /\
  map plain [dversion CIDv0; dversion CIDv1; dpresence_type PHave; dpresence_type PDontHave; dwant_type WBlock; dwant_type WHave] = map ascii_bytes ["CIDv0"; "CIDv1"; "Have"; "DontHave"; "Block"; "Have"] /\
  map (fun t => plain (dkey_type t)) [KRsa; KEd25519; KSecp256k1; KEcdsa] = map ascii_bytes ["RSA"; "Ed25519"; "Secp256k1"; "ECDSA"] /\
  map (fun t => plain (ddata_type t)) [TRaw; TDirectory; TFile; TMetadata; TSymlink; THAMTShard] = map ascii_bytes ["Raw"; "Directory"; "File"; "Metadata"; "Symlink"; "HAMTShard"] /\
  map (fun c => plain (dread_case c)) [CFieldTag; CVarInt; CBits32; CBits64; CBytesLength; CBytes] = map ascii_bytes ["FieldTag"; "VarInt"; "Bits32"; "Bits64"; "BytesLength"; "Bytes"].
Proof. parts; reflexivity. Qed.
Print Assumptions C128_names.
Ltac group := unfold dstruct, dtuple, dnumber, dbinary, dtext, draw_cid; cbn [plain map fst snd commas plain_open plain_close]; rewrite ?vec_listed, ?option_text; cbn [plain]; rewrite <- ?app_assoc; try reflexivity.
Lemma link_text quote l : plain (dlink quote l) = fill "PBLink { hash: {}, name: {}, tsize: {} }" [quote (cid_to_string (lk_hash l)); optional quote (lk_name l); optional decimal (lk_tsize l)].
Proof. unfold dlink. group. Qed.
Lemma time_text t : plain (dtime t) = fill "UnixTime { seconds: {}, fractional_nanoseconds: {} }" [signed (ut_seconds t); optional decimal (ut_nanos t)].
Proof. unfold dtime, dinteger. rewrite integer_signed. group. Qed.
Lemma presence_text p : plain (dpresence p) = fill "BlockPresence { cid: {}, type_: {} }" [numbers (bp_cid p); plain (dpresence_type (bp_type p))].
Proof. unfold dpresence, numbers. group. Qed.
Lemma block_text b : plain (dblock b) = fill "Block { prefix: {}, data: {} }" [to_hex (bl_prefix b); to_hex (bl_data b)].
Proof. unfold dblock. group. Qed.
Lemma truth_text b : plain (dbool b) = truth b.
Proof. destruct b; reflexivity. Qed.
Lemma entry_text e : plain (dwanted e) = fill "Entry { block: {}, priority: {}, cancel: {}, want_type: {}, send_dont_have: {} }"
  [to_hex (en_block e); signed (en_priority e); truth (en_cancel e); plain (dwant_type (en_want_type e)); truth (en_send_dont_have e)].
Proof. unfold dwanted, dinteger. rewrite integer_signed, <- !truth_text. group. Qed.
Lemma key_text k : plain (dpublic_key k) = fill "PublicKey { key_type: {}, data: {} }" [plain (dkey_type (pk_type k)); to_hex (pk_data k)].
Proof. unfold dpublic_key. group. Qed.
Lemma length_or_none o : opt_length_text o = match o with Some d => fill "<{} bytes>" [decimal (blen d)] | None => fill "None" [] end.
Proof. destruct o; reflexivity. Qed.
Theorem C128_texts quote ip6 :
  (forall c, plain (dcid c) = fill "CID { version: {}, codec: {}, hash_type: {}, hash: {} }" [plain (dversion (cid_ver c)); plain (dcodec (cid_codec c)); plain (dhash_type (cid_hash_type c)); to_hex (cid_hash c)]) /\
  (forall c, plain (dprefix c) = fill "CIDPrefix { version: {}, codec: {}, hash_type: {}, hash_size: {} }" [plain (dversion (cp_ver c)); plain (dcodec (cp_codec c)); plain (dhash_type (cp_hash_type c)); decimal (cp_hash_size c)]) /\
  (forall n, plain (dnode quote n) = fill "PBNode { links: {}, bytes: {} }"
     [listed (map (fun l => fill "PBLink { hash: {}, name: {}, tsize: {} }" [quote (cid_to_string (lk_hash l)); optional quote (lk_name l); optional decimal (lk_tsize l)]) (nd_links n));
      match nd_bytes n with Some d => fill "<{} bytes>" [decimal (blen d)] | None => fill "None" [] end]) /\
  (forall d, plain (dfs_data d) = fill "Data { type_: {}, {}: {}, filesize: {}, blocksizes: {}, hash_type: {}, fanout: {}, mode: {}, mtime: {} }"
     [plain (ddata_type (fd_type d)); ascii_bytes (if fd_bytes d then "data len" else "data"); match fd_bytes d with Some b => decimal (blen b) | None => fill "None" [] end; optional decimal (fd_filesize d); numbers (fd_blocksizes d);
      optional decimal (fd_hash_type d); optional decimal (fd_fanout d); optional decimal (fd_mode d);
      optional (fun t => fill "UnixTime { seconds: {}, fractional_nanoseconds: {} }" [signed (ut_seconds t); optional decimal (ut_nanos t)]) (fd_mtime d)]) /\
  (forall m, let blocks l := listed (map (fun b => fill "Block { prefix: {}, data: {} }" [to_hex (bl_prefix b); to_hex (bl_data b)]) l) in
     plain (dbitswap m) = fill "Message { wantlist: {}, blocks: {}, payload: {}, block_presence: {}, pending_bytes: {} }"
       [optional (fun w => fill "WantList { entries: {}, full: {} }"
          [listed (map (fun e => fill "Entry { block: {}, priority: {}, cancel: {}, want_type: {}, send_dont_have: {} }"
             [to_hex (en_block e); signed (en_priority e); truth (en_cancel e); plain (dwant_type (en_want_type e)); truth (en_send_dont_have e)]) (wl_entries w)); truth (wl_full w)]) (bm_wantlist m);
        blocks (bm_blocks m); blocks (bm_payload m);
        listed (map (fun p => fill "BlockPresence { cid: {}, type_: {} }" [numbers (bp_cid p); plain (dpresence_type (bp_type p))]) (bm_block_presence m)); optional decimal (bm_pending_bytes m)]) /\
  (forall i, plain (didentify quote ip6 i) = fill "Identify { protocol_version: {}, agent_version: {}, public_key: {}, listen_addrs: {}, observed_addr: {}, protocols: {}, signed_peer_record: {} }"
     [quote (id_protocol_version i); quote (id_agent_version i); fill "PublicKey { key_type: {}, data: {} }" [plain (dkey_type (pk_type (id_public_key i))); to_hex (pk_data (id_public_key i))];
      listed (map (CliModel.multiaddr_debug ip6) (id_listen_addrs i)); CliModel.multiaddr_debug ip6 (id_observed_addr i); listed (map quote (id_protocols i)); optional to_hex (id_signed_peer_record i)]) /\
  (forall a, CliModel.multiaddr_debug ip6 a = fill """{}""" [CliModel.multiaddr_text ip6 a]).
Proof.
  assert (ME : forall A (f g : A -> bytes) l, (forall x, f x = g x) -> map f l = map g l) by (intros; apply map_ext; assumption).
  assert (OE : forall A (f g : A -> bytes) o, (forall x, f x = g x) -> optional f o = optional g o) by (intros A f g [x|] H; cbn [optional]; rewrite ?H; reflexivity).
  parts.
  - unfold dcid. group.
  - unfold dprefix. group.
  - unfold dnode. group. rewrite (ME _ _ _ (nd_links n) (link_text quote)), length_or_none. reflexivity.
  - unfold dfs_data, numbers. destruct (fd_bytes d) as [b|]; group; rewrite (OE _ _ _ (fd_mtime d) time_text); reflexivity.
  - cbv zeta; unfold dbitswap. group. rewrite !(ME _ _ _ _ block_text), (ME _ _ _ _ presence_text).
    match goal with |- context[optional (fun x => plain (dwant_list x)) ?o] => rewrite (OE _ _ (fun w => fill "WantList { entries: {}, full: {} }"
          [listed (map (fun e => fill "Entry { block: {}, priority: {}, cancel: {}, want_type: {}, send_dont_have: {} }"
             [to_hex (en_block e); signed (en_priority e); truth (en_cancel e); plain (dwant_type (en_want_type e)); truth (en_send_dont_have e)]) (wl_entries w)); truth (wl_full w)]) o) end.
    + reflexivity.
    + intros w. unfold dwant_list. group. rewrite (ME _ _ _ _ entry_text), truth_text. reflexivity.
  - unfold didentify. group. rewrite key_text. reflexivity.
  - unfold CliModel.multiaddr_debug. reflexivity.
Qed.
Print Assumptions C128_texts.
Theorem C128_errors utf8 :
  (forall s, pb_error_text utf8 (PPlain s) = ascii_bytes s) /\
  (forall o c, pb_error_text utf8 (PRead (EndOfFile o c)) = fill "EndOfFile({}, {})" [decimal (N.of_nat o); plain (dread_case c)]) /\
  pb_error_text utf8 (PRead InvalidTag) = fill "InvalidTag" [] /\ pb_error_text utf8 (PRead InvalidLength) = fill "InvalidLength" [] /\
  (forall o, pb_error_text utf8 (PRead (LengthOverflow o)) = fill "LengthOverflow({})" [decimal (N.of_nat o)]) /\
  (forall o w, pb_error_text utf8 (PRead (UnknownWireType o w)) = fill "UnknownWireType({}, {})" [decimal (N.of_nat o); decimal w]) /\
  (forall e, pb_error_text utf8 (PDecode e) = ascii_bytes (varint_error_text e)) /\ pb_error_text utf8 PInvalidUTF8String = utf8 /\
  (forall n, pb_error_text utf8 (PMissingField n) = fill "Missing field: {}" [ascii_bytes n] /\ pb_error_text utf8 (PDuplicateField n) = fill "Duplicate field: {}" [ascii_bytes n]).
Proof. parts; unfold pb_error_text, dread_error; cbn [fill]; rewrite ?app_nil_r; group. Qed.
Print Assumptions C128_errors.

(** ** C123: errors with their places *)
Theorem C123_error_texts utf8 other :
  (forall s, binary_error_text utf8 other (BPlain s) = ascii_bytes s /\ binary_error_text utf8 other (BString s) = ascii_bytes s) /\
  binary_error_text utf8 other BOther = other /\ binary_error_text utf8 other BInvalidUTF8 = utf8 /\ binary_error_text utf8 other BValueTooLarge = fill "Value too large" [] /\
  (forall o n, binary_error_text utf8 other (BUnexpectedEOF o n) = fill "Unexpcted EOF at offset {}; expected {} bytes" [decimal (N.of_nat o); decimal n]) /\
  (forall o n, binary_error_text utf8 other (BSizeOverflow o n) = fill "Arithmetic overflow at offset {}; requested {} bytes" [decimal (N.of_nat o); decimal n]) /\
  (forall o n, binary_error_text utf8 other (BExpectedEOF o n) = fill "Unexpected additional {} bytes at offset {}" [decimal (N.of_nat n); decimal (N.of_nat o)]) /\
  (forall o, binary_error_text utf8 other (BNothingConsumed o) = fill "Reader consumed no data at offset {}" [decimal (N.of_nat o)]).
Proof. parts; cbn [binary_error_text fill]; rewrite ?app_nil_r; reflexivity. Qed.
Print Assumptions C123_error_texts.
Theorem C123_type_error_texts s f e a :
  let at_ := fill "{}..{}" [decimal (N.of_nat s); decimal (N.of_nat f)] in
  map type_error_text [TSequence s f; TSet s f; TOid s f; TBitString s f; TOctetString s f; TInteger s f; TString s f; TBoolean s f] =
    map (fun w => fill "Expected {} at {}" [ascii_bytes w; at_]) ["a sequence"; "a set"; "an object identifier"; "a bit string"; "an octet string"; "an integer"; "a string"; "a boolean"] /\
  map type_error_text [TExactSequence s f e a; TExactSet s f e a] =
    map (fun w => fill "Expected {} of {} items, got {} at {}" [ascii_bytes w; decimal (N.of_nat e); decimal (N.of_nat a); at_]) ["a sequence"; "a set"].
Proof. cbv zeta. cbn [fill map type_error_text]. unfold range_text. rewrite !app_nil_r. split; reflexivity. Qed.
Print Assumptions C123_type_error_texts.

(** ** C51: the error about labels; a label itself is never refused *)
Theorem C51_label_texts :
  (forall a b, PemModel.pem_error_text (PemModel.PemLabelMismatch a b) = fill "Label mismatch: ""BEGIN {}"" and ""END {}""" [a; b]) /\
  (forall s, PemModel.pem_error_text (PemModel.PemPlain s) = ascii_bytes s) /\ (forall s, PemModel.pem_error_text (PemModel.PemString s) = s).
Proof. parts; cbn [PemModel.pem_error_text fill]; unfold PemModel.in_quotes; rewrite <- ?app_assoc; reflexivity. Qed.
Print Assumptions C51_label_texts.

(** ** C08, C09, C10, C13: the errors of the readers of messages *)
Theorem C08_kind_texts A : @not_varint A = Err (FPlain "Not a varint") /\ @not_bytes A = Err (FPlain "Not a byte array") /\
  @not_bits32 A = Err (FPlain "Not a bits32") /\ @not_bits64 A = Err (FPlain "Not a bits64").
Proof. repeat split. Qed.
Print Assumptions C08_kind_texts.
Theorem C10_key_types v : key_type_of v = match v with 0 => Ok KRsa | 1 => Ok KEd25519 | 2 => Ok KSecp256k1 | 3 => Ok KEcdsa | _ => Err (PPlain "Unknown key type") end.
Proof.
  unfold key_type_of. destruct v as [|p]; [reflexivity|]. destruct p as [[p|p|]|[p|p|]|]; reflexivity.
Qed.
Print Assumptions C10_key_types.
(** The fields that may be there once, with the names in the error about a second one. *)
Definition once (n : N) (seen : bool) (table : list (N * string)) : option string :=
  if seen then match find (fun x => fst x =? n) table with Some x => Some (snd x) | None => None end else None.
Definition is_some {A} (o : option A) : bool := match o with Some _ => true | None => false end.
Definition identify_seen (s : id_vars) (n : N) : bool :=
  match n with 1 => is_some (iv_pk s) | 4 => is_some (iv_obs s) | 5 => is_some (iv_pv s) | 6 => is_some (iv_av s) | 8 => is_some (iv_spr s) | _ => false end.
Ltac twice seen body :=
  let H := fresh in let E := fresh in
  match goal with |- once ?n (seen ?s ?n) _ = _ -> _ =>
    intros H; unfold once in H; destruct (seen s n) eqn:E; [|discriminate]; unfold seen in E; destruct n as [|p]; [discriminate|];
    do 4 (try destruct p as [p|p|]); try discriminate; cbn in H; try discriminate; injection H as <-; unfold body; cbn;
    match type of E with is_some ?o = true => destruct o; [reflexivity|discriminate] end end.
Theorem C10_twice s n d name :
  once n (identify_seen s n) [(5, "protocol_version"); (6, "agent_version"); (1, "public_key"); (4, "observed_addr"); (8, "duplicate signed_peer_record")] = Some name ->
  id_body s n d = Err (PDuplicateField name).
Proof.
  twice identify_seen id_body.
Qed.
Print Assumptions C10_twice.
Definition time_seen (s : ut_vars) (n : N) : bool := match n with 1 => is_some (uv_seconds s) | 2 => is_some (uv_nanos s) | _ => false end.
Theorem C13_time_twice s n d name : once n (time_seen s n) [(1, "seconds"); (2, "fractional_nanoseconds")] = Some name -> ut_body s n d = Err (PDuplicateField name).
Proof. twice time_seen ut_body. Qed.
Print Assumptions C13_time_twice.
Definition data_seen (s : fs_vars) (n : N) : bool :=
  match n with
  | 1 => is_some (fv_type s) | 2 => is_some (fv_bytes s) | 3 => is_some (fv_filesize s) | 5 => is_some (fv_hash_type s) | 6 => is_some (fv_fanout s) | 7 => is_some (fv_mode s)
  | 8 => is_some (fv_mtime s) | _ => false
  end.
Theorem C13_twice s n d name :
  once n (data_seen s n) [(1, "type"); (2, "data"); (3, "filesize"); (5, "hash_type"); (6, "fanout"); (7, "mode"); (8, "duplicate mtime")] = Some name -> fs_body s n d = Err (PDuplicateField name).
Proof. twice data_seen fs_body. Qed.
Print Assumptions C13_twice.
Example C10_twice_case : exists s, identify_seen s 8 = true /\ forall d, id_body s 8 d = Err (PDuplicateField "duplicate signed_peer_record").
Proof. exists {| iv_pv := None; iv_av := None; iv_pk := None; iv_obs := None; iv_addrs := []; iv_protos := []; iv_spr := Some [1] |}. split; reflexivity. Qed.
Theorem C09_bad_cid b s h : pb_parse link_body b {| lv_hash := None; lv_name := None; lv_tsize := None |} = Ok s -> lv_hash s = Some h ->
  (forall e, cid_from_bytes h = Err e -> link_from_pb b = Err (PPlain "Invalid cid")).
Proof. intros P H e E. unfold link_from_pb. rewrite P. cbn [bind]. rewrite H. cbn [of_option bind]. rewrite E. reflexivity. Qed.
Print Assumptions C09_bad_cid.

(** ** C27: the hashes that blocks cannot have *)
Theorem C27_unsupported sha blake p d :
  match cp_hash_type p with
  | HSha1 => get_block_cid sha blake p d = Err "Unsupported hash algorithm: Sha1"
  | HBlake3 => get_block_cid sha blake p d = Err "Unsupported hash algorithm: Blake3"
  | CidModel.HUnknown _ => get_block_cid sha blake p d = Err "Unsupported hash algorithm: Unknown"
  | _ => exists c, get_block_cid sha blake p d = Ok c
  end.
Proof. unfold get_block_cid. destruct (cp_hash_type p); eauto. Qed.
Print Assumptions C27_unsupported.

(** ** C53: what no reader of extensions and messages accepts *)
Theorem C53_refusals :
  (forall len r, 0 < len -> fst (extension_body InServerHello 0 len r) = Err (BPlain "Expected empty extension data") /\ fst (extension_body InCertificate 0 len r) = Err (BPlain "Expected empty extension data")) /\
  (forall len r, fst (extension_body InCertificate 51 len r) = Err (BPlain "KeyShare extension not supported in certificates")) /\
  (forall r n r', read_u24 r = (Ok n, r') -> fst (read_handshake_body 5 r) = Err (BPlain "EndOfEarlyData::from_binary(): Not implemented")).
Proof.
  split; [|split].
  - intros len r H. unfold extension_body. cbn [N.eqb]. rewrite (proj2 (N.ltb_lt 0 len) H). split; reflexivity.
  - reflexivity.
  - intros r n r' E. unfold read_handshake_body, rbind. rewrite E. reflexivity.
Qed.
Print Assumptions C53_refusals.

(** ** C129 and C130 *)
Theorem C129_lines :
  (forall d e, BitswapLogModel.compare_text d e = if bytes_eqb e d then fill "**************** Encoded message matches? true
" [] else fill "**************** Encoded message matches? false
original =
{}
encoded =
{}
" [indent (dump_alternate d); indent (dump_alternate e)]) /\
  BitswapLogModel.data_said None = (fill "data = None
" [], Ok tt) /\
  (forall b d, fs_data_from_pb b = Ok d -> BitswapLogModel.data_said (Some b) = (fill "data =
{}
" [pretty (dfs_data d)], Ok tt)).
Proof.
  unfold BitswapLogModel.compare_text, BitswapLogModel.say. split; [|split].
  - intros d e. destruct (bytes_eqb e d); [reflexivity|]. cbn [fill]. rewrite <- !app_assoc. reflexivity.
  - reflexivity.
  - intros b d H. cbn [BitswapLogModel.data_said]. rewrite H. cbn [map_err]. unfold BitswapLogModel.say. rewrite <- !app_assoc. reflexivity.
Qed.
Print Assumptions C129_lines.
Theorem C130_names : (forall n, MplexLogModel.sid_debug (MplexModel.Receiver n) = fill "Receiver({})" [decimal n] /\ MplexLogModel.sid_debug (MplexModel.Initiator n) = fill "Initiator({})" [decimal n]) /\
  map MplexLogModel.op_debug [MplexModel.New; MplexModel.Message; MplexModel.Close; MplexModel.Reset] = map ascii_bytes ["New"; "Message"; "Close"; "Reset"].
Proof. parts; reflexivity. Qed.
Print Assumptions C130_names.
(** A message that cannot be decoded ends the loop with a line about the error. *)
Theorem C129_failed_line sha blake quote utf8 fuel src data src' w t e :
  LpioModel.read_opt_message None src = (Some (Ok (Some data)), w, src') -> BitswapLogModel.message_said data = (t, Err e) ->
  BitswapLogModel.loop_said sha blake quote utf8 (S fuel) src = (fill "[bitswap] received {} bytes:
{}[bitswap] decoding message failed: {}
" [decimal (blen data); t; pb_error_text utf8 e], Some (Ok tt), src').
Proof. intros R M. cbn [BitswapLogModel.loop_said]. rewrite R, M. unfold BitswapLogModel.say. rewrite <- !app_assoc. reflexivity. Qed.
Print Assumptions C129_failed_line.
(** ** C124: the constants of the AES check *)
Theorem C124_constants : CheckProgModel.aes_key_text = fill "573f321bc48531ac0340c91e4eb90ceb8da128255da285def0529f01a547034f" [] /\
  CheckProgModel.aes_sample = fill "The quick brown fox jumps over the lazy dog" [].
Proof. split; reflexivity. Qed.
Print Assumptions C124_constants.
