(** Vocabulary for the debug texts of TLS messages. *)
From Verif Require Import Base TlsCodesModel TlsTypesModel.

(** The contents that are bytes in the code are bytes. *)
Definition extension_bytes (x : extension) : Prop :=
  match x with
  | XUnknown _ d | XTransportParameters d => bytes_ok d
  | XAuthorities l => Forall bytes_ok l
  | XKeyShareClient l => Forall (fun k => bytes_ok (ks_key k)) l
  | XKeyShareServer k => bytes_ok (ks_key k)
  | _ => True
  end.
Definition message_bytes (h : handshake) : Prop :=
  match h with
  | HClientHello h => bytes_ok (ch_random h) /\ bytes_ok (ch_session h) /\ Forall extension_bytes (ch_extensions h)
  | HServerHello h => bytes_ok (sh_random h) /\ bytes_ok (sh_session h) /\ Forall extension_bytes (sh_extensions h)
  | HEncryptedExtensions l => Forall extension_bytes l
  | HCertificateRequest r => Forall extension_bytes (cr_extensions r)
  | HCertificate c => Forall (fun e => bytes_ok (en_data e) /\ Forall extension_bytes (en_extensions e)) (ct_list c)
  | HNewSessionTicket t => bytes_ok (st_nonce t) /\ bytes_ok (st_ticket t) /\ Forall extension_bytes (st_extensions t)
  | _ => True
  end.
(** The extensions of a message. *)
Definition all_extensions (h : handshake) : list extension :=
  match h with
  | HClientHello h => ch_extensions h
  | HServerHello h => sh_extensions h
  | HEncryptedExtensions l => l
  | HCertificateRequest r => cr_extensions r
  | HCertificate c => flat_map en_extensions (ct_list c)
  | HNewSessionTicket t => st_extensions t
  | _ => []
  end.
(** Names that are text without backslashes, and no authority with an empty name. *)
Definition clear_extension (x : extension) : Prop :=
  match x with
  | XAlpn l => Forall (fun d => utf8_valid d = true /\ ~ In 92 d) l
  | XServerName l => forall s, In (HostName s) l -> ~ In 92 s
  | XAuthorities l => ~ In [] l
  | _ => True
  end.
(** Equal but for the data of server names of unknown types, and for the certificate read
    from the data of an entry. *)
Definition same_name (x y : server_name) : Prop :=
  match x, y with OtherName c _, OtherName c' _ => c = c' | _, _ => x = y end.
Definition same_extension (x y : extension) : Prop :=
  match x, y with XServerName l, XServerName l' => Forall2 same_name l l' | _, _ => x = y end.
Definition same_message (h h' : handshake) : Prop :=
  match h, h' with
  | HClientHello a, HClientHello b => ch_version a = ch_version b /\ ch_random a = ch_random b /\ ch_session a = ch_session b /\
      ch_suites a = ch_suites b /\ ch_compression a = ch_compression b /\ Forall2 same_extension (ch_extensions a) (ch_extensions b)
  | HServerHello a, HServerHello b => sh_version a = sh_version b /\ sh_random a = sh_random b /\ sh_session a = sh_session b /\
      sh_suite a = sh_suite b /\ sh_compression a = sh_compression b /\ Forall2 same_extension (sh_extensions a) (sh_extensions b)
  | HEncryptedExtensions l, HEncryptedExtensions l' => Forall2 same_extension l l'
  | HCertificateRequest a, HCertificateRequest b => cr_context a = cr_context b /\ Forall2 same_extension (cr_extensions a) (cr_extensions b)
  | HCertificate a, HCertificate b => ct_context a = ct_context b /\
      Forall2 (fun e e' => en_data e = en_data e' /\ Forall2 same_extension (en_extensions e) (en_extensions e')) (ct_list a) (ct_list b)
  | HNewSessionTicket a, HNewSessionTicket b => st_lifetime a = st_lifetime b /\ st_age_add a = st_age_add b /\
      st_nonce a = st_nonce b /\ st_ticket a = st_ticket b /\ Forall2 same_extension (st_extensions a) (st_extensions b)
  | _, _ => h = h'
  end.
