(** What TLS code points and messages are, after RFC 8446, RFC 8422, RFC 4492, RFC 6066,
    RFC 7301 and RFC 9001: tables of code points and the bytes of each message.  The types
    of messages are the model's. *)
From Verif Require Import Base Asn1Model X509Model TlsCodesModel TlsTypesModel.
Local Open Scope N_scope.

(** *** Registries: a code and the value it stands for. *)
Definition content_types := [(0, CtInvalid); (20, CtChangeCipherSpec); (21, CtAlert); (22, CtHandshake); (23, CtApplicationData)].
Definition alert_levels := [(1, AlWarning); (2, AlFatal)].
Definition alert_descriptions :=
  [(0, AdCloseNotify); (10, AdUnexpectedMessage); (20, AdBadRecordMac); (22, AdRecordOverflow); (40, AdHandshakeFailure);
   (42, AdBadCertificate); (43, AdUnsupportedCertificate); (44, AdCertificateRevoked); (45, AdCertificateExpired);
   (46, AdCertificateUnknown); (47, AdIllegalParameter); (48, AdUnknownCa); (49, AdAccessDenied); (50, AdDecodeError);
   (51, AdDecryptError); (70, AdProtocolVersion); (71, AdInsufficientSecurity); (80, AdInternalError);
   (86, AdInappropriateFallback); (90, AdUserCanceled); (109, AdMissingExtension); (110, AdUnsupportedExtension);
   (112, AdUnrecognizedName); (113, AdBadCertificateStatusResponse); (115, AdUnknownPskIdentity);
   (116, AdCertificateRequired); (120, AdNoApplicationProtocol)].
Definition cipher_suites :=
  [(0x1301, CsTLSAES128GCMSHA256); (0x1302, CsTLSAES256GCMSHA384); (0x1303, CsTLSCHACHA20POLY1305SHA256);
   (0x1304, CsTLSAES128CCMSHA256); (0x1305, CsTLSAES128CCM8SHA256)].
Definition signature_schemes :=
  [(0x0401, SsRsaPkcs1Sha256); (0x0501, SsRsaPkcs1Sha384); (0x0601, SsRsaPkcs1Sha512);
   (0x0403, SsEcdsaSecp256r1Sha256); (0x0503, SsEcdsaSecp384r1Sha384); (0x0603, SsEcdsaSecp521r1Sha512);
   (0x0804, SsRsaPssRsaeSha256); (0x0805, SsRsaPssRsaeSha384); (0x0806, SsRsaPssRsaeSha512);
   (0x0807, SsEd25519); (0x0808, SsEd448);
   (0x0809, SsRsaPssPssSha256); (0x080a, SsRsaPssPssSha384); (0x080b, SsRsaPssPssSha512);
   (0x0201, SsRsaPkcs1Sha1); (0x0203, SsEcdsaSha1)].
Definition named_groups :=
  [(0x17, NgSecp256r1); (0x18, NgSecp384r1); (0x19, NgSecp521r1); (0x1d, NgX25519); (0x1e, NgX448);
   (0x100, NgFfdhe2048); (0x101, NgFfdhe3072); (0x102, NgFfdhe4096); (0x103, NgFfdhe6144); (0x104, NgFfdhe8192)].
Definition named_curves :=
  [(1, NcSect163k1); (2, NcSect163r1); (3, NcSect163r2); (4, NcSect193r1); (5, NcSect193r2); (6, NcSect233k1);
   (7, NcSect233r1); (8, NcSect239k1); (9, NcSect283k1); (10, NcSect283r1); (11, NcSect409k1); (12, NcSect409r1);
   (13, NcSect571k1); (14, NcSect571r1); (15, NcSecp160k1); (16, NcSecp160r1); (17, NcSecp160r2); (18, NcSecp192k1);
   (19, NcSecp192r1); (20, NcSecp224k1); (21, NcSecp224r1); (22, NcSecp256k1); (23, NcSecp256r1); (24, NcSecp384r1);
   (25, NcSecp521r1); (29, NcX25519); (30, NcX448); (0xff01, NcArbitraryExplicitPrimeCurves);
   (0xff02, NcArbitraryExplicitChar2Curves)].
Definition point_formats := [(0, PfUncompressed); (1, PfANSIX962CompressedPrime); (2, PfANSIX962CompressedChar2)].
Definition psk_modes := [(0, PmPskKe); (1, PmPskDheKe)].

(** A value that stands for some code below [limit]: a registered one, or an unregistered
    code kept as it is. *)
Definition proper {X} (table : list (N * X)) (unknown : N -> X) (limit : N) (x : X) : Prop :=
  In x (map snd table) \/ (exists c, x = unknown c /\ c < limit /\ ~ In c (map fst table)).
(** The conversions agree with the registry and lose nothing. *)
Definition codes_agree {X} (table : list (N * X)) (unknown : N -> X) (from : N -> X) (to : X -> N) : Prop :=
  (forall c x, In (c, x) table -> from c = x /\ to x = c) /\
  (forall c, ~ In c (map fst table) -> from c = unknown c /\ to (unknown c) = c) /\
  (forall x, In x (map snd table) \/ exists c, x = unknown c) /\
  (forall c, to (from c) = c) /\
  (forall c d, from c = from d -> c = d) /\
  (forall limit x y, proper table unknown limit x -> proper table unknown limit y -> to x = to y -> x = y).

(** *** Bytes *)
(** RFC 8446 section 3.4: a vector: its length in [w] bytes, then its contents. *)
Definition vec (w : nat) (b : bytes) : bytes := be_bytes w (blen b) ++ b.
Definition vecs (w : nat) (l : list bytes) : bytes := vec w (concat l).
Definition server_name_bytes (x : server_name) : bytes :=
  match x with HostName s => 0 :: vec 2 s | OtherName c d => c :: vec 2 d end.
Definition key_share_bytes (k : key_share) : bytes := be_bytes 2 (named_group_to (ks_group k)) ++ vec 2 (ks_key k).
(** The type and the contents of an extension.  Server names are listed in a client hello
    only; a server acknowledges with empty contents. *)
Definition extension_parts (ctx : context) (x : extension) : N * bytes :=
  match x with
  | XServerName l => (0, match ctx with InClientHello => vecs 2 (map server_name_bytes l) | _ => [] end)
  | XSupportedGroups l => (10, vecs 2 (map (fun c => be_bytes 2 (named_curve_to c)) l))
  | XPointFormats l => (11, vecs 1 (map (fun c => be_bytes 1 (point_format_to c)) l))
  | XSignatureAlgorithms l => (13, vecs 2 (map (fun c => be_bytes 2 (signature_scheme_to c)) l))
  | XAlpn l => (16, vecs 2 (map (vec 1) l))
  | XEncryptThenMac => (22, [])
  | XExtendedMasterSecret => (23, [])
  | XSupportedVersions d => (43, d)
  | XPskModes l => (45, vecs 1 (map (fun c => be_bytes 1 (psk_mode_to c)) l))
  | XAuthorities l => (47, vecs 2 (map (vec 2) l))
  | XPostHandshakeAuth => (49, [])
  | XKeyShareClient l => (51, vecs 2 (map key_share_bytes l))
  | XKeyShareServer k => (51, key_share_bytes k)
  | XTransportParameters d => (57, d)
  | XNextProtocol d => (13172, d)
  | XUnknown c d => (c, d)
  end.
Definition extension_bytes (ctx : context) (x : extension) : bytes :=
  let (t, d) := extension_parts ctx x in be_bytes 2 t ++ vec 2 d.
Definition extensions_bytes (ctx : context) (l : list extension) : bytes := vecs 2 (map (extension_bytes ctx) l).
Definition known_extensions : list N := [0; 10; 11; 13; 16; 22; 23; 43; 45; 47; 49; 51; 57; 13172].

(** Values of the Rust types that stand for something on the wire in that context. *)
Definition server_name_ok (x : server_name) : Prop :=
  match x with HostName s => utf8_valid s = true | OtherName c _ => 0 < c < 256 end.
Definition key_share_ok (k : key_share) : Prop := proper named_groups NgUnknown 65536 (ks_group k).
Definition extension_ok (ctx : context) (x : extension) : Prop :=
  match x with
  | XServerName l => match ctx with InClientHello => Forall server_name_ok l | _ => l = [] end
  | XSupportedGroups l => Forall (proper named_curves NcOther 65536) l
  | XPointFormats l => Forall (proper point_formats PfOther 256) l
  | XSignatureAlgorithms l => Forall (proper signature_schemes SsUnknown 65536) l
  | XPskModes l => Forall (proper psk_modes PmUnknown 256) l
  | XKeyShareClient l => ctx = InClientHello /\ Forall key_share_ok l
  | XKeyShareServer k => ctx = InServerHello /\ key_share_ok k
  | XUnknown c _ => c < 65536 /\ ~ In c known_extensions
  | _ => True
  end.
(** Every length fits its field. *)
Definition fit (w : nat) (b : bytes) : Prop := blen b < 256 ^ N.of_nat w.
Definition parts_fit (x : extension) : Prop :=
  match x with
  | XServerName l => Forall (fun n => match n with HostName s => fit 2 s | OtherName _ d => fit 2 d end) l /\
                     fit 2 (concat (map server_name_bytes l))
  | XSupportedGroups l => fit 2 (concat (map (fun c => be_bytes 2 (named_curve_to c)) l))
  | XPointFormats l => fit 1 (concat (map (fun c => be_bytes 1 (point_format_to c)) l))
  | XSignatureAlgorithms l => fit 2 (concat (map (fun c => be_bytes 2 (signature_scheme_to c)) l))
  | XAlpn l => Forall (fit 1) l /\ fit 2 (concat (map (vec 1) l))
  | XPskModes l => fit 1 (concat (map (fun c => be_bytes 1 (psk_mode_to c)) l))
  | XAuthorities l => Forall (fit 2) l /\ fit 2 (concat (map (vec 2) l))
  | XKeyShareClient l => Forall (fun k => fit 2 (ks_key k)) l /\ fit 2 (concat (map key_share_bytes l))
  | XKeyShareServer k => fit 2 (ks_key k)
  | _ => True
  end.
Definition extensions_fit (ctx : context) (l : list extension) : Prop :=
  Forall parts_fit l /\ fit 2 (concat (map (extension_bytes ctx) l)).

Definition suite_ok (c : cipher_suite) : Prop := proper cipher_suites CsUnknown 65536 c.
Definition suites_bytes (l : list cipher_suite) : list bytes := map (fun c => be_bytes 2 (cipher_suite_to c)) l.
Definition entry_bytes (e : certificate_entry) : bytes :=
  vec 3 (en_data e) ++ extensions_bytes InCertificate (en_extensions e).
(** The type and the contents of a handshake message. *)
Definition handshake_parts (h : handshake) : option (N * bytes) :=
  match h with
  | HClientHello h =>
    Some (1, be_bytes 2 (ch_version h) ++ ch_random h ++ vec 1 (ch_session h) ++
             vecs 2 (suites_bytes (ch_suites h)) ++ vec 1 (ch_compression h) ++
             extensions_bytes InClientHello (ch_extensions h))
  | HServerHello h =>
    Some (2, be_bytes 2 (sh_version h) ++ sh_random h ++ vec 1 (sh_session h) ++
             be_bytes 2 (cipher_suite_to (sh_suite h)) ++ be_bytes 1 (sh_compression h) ++
             extensions_bytes InServerHello (sh_extensions h))
  | HNewSessionTicket t =>
    Some (4, be_bytes 4 (st_lifetime t) ++ be_bytes 4 (st_age_add t) ++ vec 1 (st_nonce t) ++ vec 2 (st_ticket t) ++
             extensions_bytes InServerHello (st_extensions t))
  | HEncryptedExtensions l => Some (8, extensions_bytes InServerHello l)
  | HCertificate c => Some (11, vec 1 (ct_context c) ++ vecs 3 (map entry_bytes (ct_list c)))
  | HCertificateRequest r => Some (13, vec 1 (cr_context r) ++ extensions_bytes InCertificate (cr_extensions r))
  | HCertificateVerify v =>
    Some (15, be_bytes 2 (signature_scheme_to (cv_algorithm v)) ++ vec 2 (cv_signature v))
  | HFinished d => Some (20, d)
  | HUnknown t d => Some (t, d)
  | HEndOfEarlyData | HKeyUpdate => None
  end.
Definition known_handshakes : list N := [1; 2; 4; 5; 8; 11; 13; 15; 20; 24].
Definition handshake_ok (h : handshake) : Prop :=
  match h with
  | HClientHello h => ch_version h < 65536 /\ length (ch_random h) = 32%nat /\ Forall suite_ok (ch_suites h) /\
                      Forall (extension_ok InClientHello) (ch_extensions h)
  | HServerHello h => sh_version h < 65536 /\ length (sh_random h) = 32%nat /\ suite_ok (sh_suite h) /\
                      sh_compression h < 256 /\ Forall (extension_ok InServerHello) (sh_extensions h)
  | HNewSessionTicket t => st_lifetime t < two32 /\ st_age_add t < two32 /\
                           Forall (extension_ok InServerHello) (st_extensions t)
  | HEncryptedExtensions l => Forall (extension_ok InServerHello) l
  | HCertificate c => Forall (fun e => certificate_from_bytes (en_data e) = Ok (en_certificate e) /\
                                       Forall (extension_ok InCertificate) (en_extensions e)) (ct_list c)
  | HCertificateRequest r => Forall (extension_ok InCertificate) (cr_extensions r)
  | HCertificateVerify v => proper signature_schemes SsUnknown 65536 (cv_algorithm v)
  | HFinished _ => True
  | HUnknown t d => t < 256 /\ ~ In t known_handshakes /\ fit 3 d
  | HEndOfEarlyData | HKeyUpdate => False
  end.
Definition handshake_fits (h : handshake) : Prop :=
  match h with
  | HClientHello h => fit 1 (ch_session h) /\ fit 2 (concat (suites_bytes (ch_suites h))) /\ fit 1 (ch_compression h) /\
                      extensions_fit InClientHello (ch_extensions h)
  | HServerHello h => fit 1 (sh_session h) /\ extensions_fit InServerHello (sh_extensions h)
  | HNewSessionTicket t => fit 1 (st_nonce t) /\ fit 2 (st_ticket t) /\ extensions_fit InServerHello (st_extensions t)
  | HEncryptedExtensions l => extensions_fit InServerHello l
  | HCertificate c => fit 1 (ct_context c) /\
                      Forall (fun e => fit 3 (en_data e) /\ extensions_fit InCertificate (en_extensions e)) (ct_list c) /\
                      fit 3 (concat (map entry_bytes (ct_list c)))
  | HCertificateRequest r => fit 1 (cr_context r) /\ extensions_fit InCertificate (cr_extensions r)
  | HCertificateVerify v => fit 2 (cv_signature v)
  | _ => True
  end.
(** The whole message: type, length, contents. *)
Definition handshake_bytes (t : N) (body : bytes) : bytes := t :: vec 3 body.

(** What the writer handles: the five messages the client sends (and the server hello), no
    list of authorities, and server names in a client hello only. *)
Definition extension_writable (ctx : context) (x : extension) : Prop :=
  match x with
  | XAuthorities _ => False
  | XServerName _ => ctx = InClientHello
  | _ => True
  end.
Definition handshake_writable (h : handshake) : Prop :=
  match h with
  | HClientHello h => Forall (extension_writable InClientHello) (ch_extensions h)
  | HServerHello h => Forall (extension_writable InServerHello) (sh_extensions h)
  | HCertificate c => Forall (fun e => Forall (extension_writable InCertificate) (en_extensions e)) (ct_list c)
  | HCertificateVerify _ | HFinished _ => True
  | _ => False
  end.
