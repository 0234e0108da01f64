(** Reading back the bytes of TLS messages. *)
From Verif Require Import Base BaseProofs BinaryModel BinarySpec BinaryProofs BinaryProofs2
  Asn1Model X509Model TlsCodesModel TlsTypesModel TlsTypesSpec TlsTypesProofs.
Local Open Scope N_scope.
Ltac Zify.zify_post_hook ::= Z.div_mod_to_equations.

Lemma content_type_codes : codes_agree content_types CtUnknown content_type_from content_type_to. Proof. code_table. Qed.
Lemma alert_level_codes : codes_agree alert_levels AlUnknown alert_level_from alert_level_to. Proof. code_table. Qed.
Lemma alert_description_codes : codes_agree alert_descriptions AdUnknown alert_description_from alert_description_to. Proof. code_table. Qed.
Lemma cipher_suite_codes : codes_agree cipher_suites CsUnknown cipher_suite_from cipher_suite_to. Proof. code_table. Qed.
Lemma signature_scheme_codes : codes_agree signature_schemes SsUnknown signature_scheme_from signature_scheme_to. Proof. code_table. Qed.
Lemma named_group_codes : codes_agree named_groups NgUnknown named_group_from named_group_to. Proof. code_table. Qed.
Lemma named_curve_codes : codes_agree named_curves NcOther named_curve_from named_curve_to. Proof. code_table. Qed.
Lemma point_format_codes : codes_agree point_formats PfOther point_format_from point_format_to. Proof. code_table. Qed.
Lemma psk_mode_codes : codes_agree psk_modes PmUnknown psk_mode_from psk_mode_to. Proof. code_table. Qed.

Lemma reads_code16 {X} (table : list (N * X)) unknown from to x :
  codes_agree table unknown from to -> forallb (fun p => fst p <? 65536) table = true ->
  proper table unknown 65536 x -> reads (do c <- read_u16; rret (from c)) (be_bytes 2 (to x)) x.
Proof.
  intros C B P. eapply reads_eq; [apply reads_map; apply reads_u16; eapply proper_lt; eauto|reflexivity|eapply proper_from; eauto].
Qed.
Lemma reads_code8 {X} (table : list (N * X)) unknown from to x :
  codes_agree table unknown from to -> forallb (fun p => fst p <? 256) table = true ->
  proper table unknown 256 x -> reads (do c <- read_u8; rret (from c)) (be_bytes 1 (to x)) x.
Proof.
  intros C B P. eapply reads_eq; [apply reads_map; apply reads_u8; eapply proper_lt; eauto|reflexivity|eapply proper_from; eauto].
Qed.
Lemma be_nonempty w v : be_bytes (S w) v <> [].
Proof. intros H. apply (f_equal (@length N)) in H. rewrite be_bytes_length in H. discriminate. Qed.
Lemma vec_nonempty w b : vec (S w) b <> [].
Proof. intros H. unfold vec in H. destruct (app_eq_nil _ _ H) as [E _]. exact (be_nonempty w _ E). Qed.
Lemma be1_cons c : c < 256 -> [c] = be_bytes 1 c.
Proof. intros L. symmetry. apply be_bytes_one. exact L. Qed.

Lemma reads_server_name x : server_name_ok x ->
  match x with HostName s => fit 2 s | OtherName _ d => fit 2 d end ->
  reads read_server_name (server_name_bytes x) x.
Proof.
  intros O F. unfold read_server_name.
  destruct x as [s|c d]; cbn [server_name_ok server_name_bytes] in *.
  - change (0 :: vec 2 s) with ([0] ++ vec 2 s). rewrite (be1_cons 0) by lia.
    apply (reads_bind _ _ _ _ 0); [apply reads_u8; lia|].
    unfold vec. apply (reads_bind _ _ _ _ (blen s)); [apply reads_u16; exact F|].
    intros pre post Fi. unfold rbind at 1. rewrite nested_ok by exact Fi. cbn [N.eqb].
    pose proof (reads_ends _ _ _ (reads_fixed s) pre) as H. unfold rbind, rlift. rewrite H.
    + rewrite O. reflexivity.
    + rewrite app_assoc in Fi. apply fits_app_l in Fi. exact Fi.
  - change (c :: vec 2 d) with ([c] ++ vec 2 d). rewrite (be1_cons c) by lia.
    apply (reads_bind _ _ _ _ c); [apply reads_u8; lia|].
    unfold vec. apply (reads_bind _ _ _ _ (blen d)); [apply reads_u16; exact F|].
    intros pre post Fi. unfold rbind at 1. rewrite nested_ok by exact Fi.
    assert (E : c =? 0 = false) by lia. rewrite E.
    pose proof (reads_ends _ _ _ (reads_fixed d) pre) as H. unfold rbind, rlift. rewrite H; [reflexivity|].
    rewrite app_assoc in Fi. apply fits_app_l in Fi. exact Fi.
Qed.
Lemma reads_key_share k : key_share_ok k -> fit 2 (ks_key k) -> reads read_key_share (key_share_bytes k) k.
Proof.
  intros O F. unfold read_key_share, key_share_bytes, vec.
  apply (reads_bind _ _ _ _ (ks_group k)).
  - apply (reads_code16 named_groups NgUnknown named_group_from named_group_to); [apply named_group_codes|reflexivity|exact O].
  - apply (reads_bind _ _ _ _ (blen (ks_key k))); [apply reads_u16; exact F|].
    eapply reads_eq; [apply (reads_map _ (fun d => {| ks_group := ks_group k; ks_key := d |})); apply reads_fixed|reflexivity|destruct k; reflexivity].
Qed.
Lemma reads_protocol_name d : fit 1 d -> reads read_protocol_name (vec 1 d) d.
Proof. intros F. apply (reads_bytes 1 d); [cbn; auto|exact F]. Qed.
Lemma reads_distinguished_name d : fit 2 d -> reads read_distinguished_name (vec 2 d) d.
Proof. intros F. apply (reads_bytes 2 d); [cbn; auto|exact F]. Qed.

Lemma server_name_nonempty x : server_name_bytes x <> [].
Proof. destruct x; discriminate. Qed.
Lemma key_share_nonempty k : key_share_bytes k <> [].
Proof. unfold key_share_bytes. intros H. destruct (app_eq_nil _ _ H) as [E _]. exact (be_nonempty 1 _ E). Qed.

(** The contents of an extension. *)
Lemma in1 : In 1%nat [1; 2; 3]%nat. Proof. cbn; auto. Qed.
Lemma in2 : In 2%nat [1; 2; 3]%nat. Proof. cbn; auto. Qed.
Lemma in3' : In 3%nat [1; 2; 3]%nat. Proof. cbn; auto. Qed.
Lemma ends_list {A B} w (item : rd A) (en : A -> bytes) (f : list A -> B) l :
  In w [1; 2; 3]%nat -> fit w (concat (map en l)) ->
  (forall x, In x l -> reads item (en x) x) -> (forall x, In x l -> en x <> []) ->
  ends (do l <- read_list w item; rret (f l)) (vecs w (map en l)) (f l).
Proof. intros I F R NE. apply ends_map, reads_ends, reads_list; auto. Qed.
Lemma extension_body_ok ctx x t d : extension_ok ctx x -> parts_fit x -> extension_parts ctx x = (t, d) ->
  ends (extension_body ctx t (blen d)) d x.
Proof.
  intros O F E. destruct x; cbn [extension_parts extension_ok parts_fit] in *; injection E as <- <-.
  - destruct F as [F1 F2]. change (extension_body ctx 16 (blen (vecs 2 (map (vec 1) names))))
      with (do l <- read_list 2 read_protocol_name; rret (XAlpn l)).
    apply (ends_list 2); auto using in2.
    + intros x I. rewrite Forall_forall in F1. apply reads_protocol_name. auto.
    + intros x _. apply (vec_nonempty 0).
  - change (extension_body ctx 13 _) with (do l <- read_list 2 read_signature_scheme; rret (XSignatureAlgorithms l)).
    apply (ends_list 2 _ (fun c => be_bytes 2 (signature_scheme_to c))); auto using in2.
    + intros x I. rewrite Forall_forall in O. apply (reads_code16 signature_schemes SsUnknown signature_scheme_from signature_scheme_to); [apply signature_scheme_codes|reflexivity|auto].
    + intros x _. apply be_nonempty.
  - destruct ctx; cbn [extension_body]; try (subst l; intros pre _; reflexivity).
    destruct F as [F1 F2]. change (extension_body InClientHello 0 _) with (do l <- read_list 2 read_server_name; rret (XServerName l)).
    apply (ends_list 2); auto using in2.
    + intros x I. rewrite Forall_forall in O, F1. apply reads_server_name; [exact (O x I)|exact (F1 x I)].
    + intros x _. apply server_name_nonempty.
  - change (extension_body ctx 10 _) with (do l <- read_list 2 read_named_curve; rret (XSupportedGroups l)).
    apply (ends_list 2 _ (fun c => be_bytes 2 (named_curve_to c))); auto using in2.
    + intros x I. rewrite Forall_forall in O. apply (reads_code16 named_curves NcOther named_curve_from named_curve_to); [apply named_curve_codes|reflexivity|auto].
    + intros x _. apply be_nonempty.
  - change (extension_body ctx 11 _) with (do l <- read_list 1 read_point_format; rret (XPointFormats l)).
    apply (ends_list 1 _ (fun c => be_bytes 1 (point_format_to c))); auto using in1.
    + intros x I. rewrite Forall_forall in O. apply (reads_code8 point_formats PfOther point_format_from point_format_to); [apply point_format_codes|reflexivity|auto].
    + intros x _. apply be_nonempty.
  - destruct O as [_ NI].
    replace (extension_body ctx code (blen data)) with (do d <- remaining_data; rret (XUnknown code d)); [apply ends_map, ends_remaining|].
    unfold extension_body. unfold known_extensions in NI. cbn [In] in NI.
    repeat match goal with |- context [if ?a =? ?b then _ else _] => destruct (N.eqb_spec a b) as [H|_]; [exfalso; apply NI; rewrite H; tauto|] end.
    reflexivity.
  - apply ends_eof.
  - apply ends_eof.
  - apply (ends_map _ XNextProtocol), ends_remaining.
  - apply ends_eof.
  - apply (ends_map _ XSupportedVersions), ends_remaining.
  - change (extension_body ctx 45 _) with (do l <- read_list 1 read_psk_mode; rret (XPskModes l)).
    apply (ends_list 1 _ (fun c => be_bytes 1 (psk_mode_to c))); auto using in1.
    + intros x I. rewrite Forall_forall in O. apply (reads_code8 psk_modes PmUnknown psk_mode_from psk_mode_to); [apply psk_mode_codes|reflexivity|auto].
    + intros x _. apply be_nonempty.
  - destruct F as [F1 F2]. change (extension_body ctx 47 _) with (do l <- read_list 2 read_distinguished_name; rret (XAuthorities l)).
    apply (ends_list 2); auto using in2.
    + intros x I. rewrite Forall_forall in F1. apply reads_distinguished_name. auto.
    + intros x _. apply (vec_nonempty 1).
  - destruct O as [-> O]. destruct F as [F1 F2].
    change (extension_body InClientHello 51 _) with (do l <- read_list 2 read_key_share; rret (XKeyShareClient l)).
    apply (ends_list 2); auto using in2.
    + intros x I. rewrite Forall_forall in O, F1. apply reads_key_share; [exact (O x I)|exact (F1 x I)].
    + intros x _. apply key_share_nonempty.
  - destruct O as [-> O]. change (extension_body InServerHello 51 _) with (do k <- read_key_share; rret (XKeyShareServer k)).
    apply ends_map, reads_ends, reads_key_share; auto.
  - apply (ends_map _ XTransportParameters), ends_remaining.
Qed.
Lemma extension_code_lt ctx x t d : extension_ok ctx x -> extension_parts ctx x = (t, d) -> t < 65536.
Proof. intros O E. destruct x; cbn [extension_parts extension_ok] in *; injection E as <- <-; lia. Qed.
Lemma reads_extension ctx x : extension_ok ctx x -> parts_fit x -> fit 2 (snd (extension_parts ctx x)) ->
  reads (read_extension ctx) (extension_bytes ctx x) x.
Proof.
  intros O P F. unfold extension_bytes. destruct (extension_parts ctx x) as [t d] eqn:E. cbn [snd] in F.
  unfold read_extension, vec. apply (reads_bind _ _ _ _ t); [apply reads_u16; eapply extension_code_lt; eauto|].
  apply (reads_bind _ _ _ _ (blen d)); [apply reads_u16; exact F|].
  apply (reads_nested (fun inner => fst (extension_body ctx t (blen d) inner))).
  exact (extension_body_ok ctx x t d O P E).
Qed.
Lemma extension_nonempty ctx x : extension_bytes ctx x <> [].
Proof.
  unfold extension_bytes. destruct (extension_parts ctx x). intros H. destruct (app_eq_nil _ _ H) as [E _]. exact (be_nonempty 1 _ E).
Qed.
Lemma extensions_loop_ok ctx l fuel pre :
  Forall (extension_ok ctx) l -> Forall parts_fit l -> Forall (fun x => fit 2 (snd (extension_parts ctx x))) l ->
  fits (pre ++ concat (map (extension_bytes ctx) l)) ->
  (length (concat (map (extension_bytes ctx) l)) < fuel)%nat ->
  extensions_loop fuel ctx (at_pos pre (concat (map (extension_bytes ctx) l))) = Ok l.
Proof.
  revert fuel pre. induction l as [|x l IH]; intros fuel pre O P F Fi L; (destruct fuel as [|fuel]; [cbn in L; lia|]);
    cbn [extensions_loop map concat] in *; rewrite remaining_at.
  - reflexivity.
  - assert (Hl : (0 < length (extension_bytes ctx x))%nat).
    { destruct (extension_bytes ctx x) eqn:E; [destruct (extension_nonempty ctx x E)|cbn; lia]. }
    rewrite app_length in *. replace (0 <? length (extension_bytes ctx x) + length (concat (map (extension_bytes ctx) l)))%nat with true
      by (symmetry; apply Nat.ltb_lt; lia).
    inversion O; inversion P; inversion F; subst.
    rewrite (reads_extension ctx x) by auto.
    rewrite IH; auto; [rewrite <- app_assoc; exact Fi|lia].
Qed.
Lemma in_blen {A} (en : A -> bytes) x l : In x l -> blen (en x) <= blen (concat (map en l)).
Proof.
  intros I. apply in_split in I. destruct I as (a & b & ->). rewrite map_app, concat_app. cbn [map concat].
  rewrite !blen_app. lia.
Qed.
Lemma payload_fits ctx x : fit 2 (extension_bytes ctx x) -> fit 2 (snd (extension_parts ctx x)).
Proof.
  unfold fit, extension_bytes, vec. destruct (extension_parts ctx x) as [t d]. cbn [snd]. rewrite !blen_app, !blen_be.
  change (256 ^ N.of_nat 2) with 65536. lia.
Qed.
Lemma payloads_fit ctx l : fit 2 (concat (map (extension_bytes ctx) l)) ->
  Forall (fun x => fit 2 (snd (extension_parts ctx x))) l.
Proof.
  intros F. apply Forall_forall. intros x I. apply payload_fits. unfold fit in *.
  pose proof (in_blen (extension_bytes ctx) x l I). lia.
Qed.
Lemma reads_extensions ctx l : Forall (extension_ok ctx) l -> extensions_fit ctx l ->
  reads (read_extensions ctx) (extensions_bytes ctx l) l.
Proof.
  intros O [P F]. unfold read_extensions, extensions_bytes, vecs, vec.
  apply (reads_bind _ _ _ _ (blen (concat (map (extension_bytes ctx) l)))); [apply reads_u16; exact F|].
  apply (reads_nested (fun inner => extensions_loop (S (remaining inner)) ctx inner)).
  intros pre Fi. apply extensions_loop_ok; auto using payloads_fit. rewrite remaining_at. lia.
Qed.

(** *** Handshake messages *)
Lemma some_pair {A B} (a c : A) (b d : B) : Some (a, b) = Some (c, d) -> a = c /\ b = d.
Proof. intros E. injection E as -> ->. auto. Qed.
Lemma read_n_u8_ok l pre post : fits (pre ++ l ++ post) ->
  read_n_u8 (length l) (at_pos pre (l ++ post)) = (Ok l, at_pos (pre ++ l) post).
Proof.
  revert pre. induction l as [|b l IH]; intros pre F; cbn [length read_n_u8].
  - rewrite app_nil_r. reflexivity.
  - unfold rbind. cbn [app]. rewrite u8_ok by exact F. rewrite IH by (rewrite <- app_assoc; exact F).
    rewrite <- app_assoc. reflexivity.
Qed.
Lemma reads_compression b : fit 1 b ->
  reads (do n <- read_u8; do inner <- read_nested n; rlift (fst (read_n_u8 (N.to_nat n) inner))) (vec 1 b) b.
Proof.
  intros F. unfold vec. apply (reads_bind _ _ _ _ (blen b)); [apply reads_u8; exact F|].
  apply (reads_nested (fun inner => fst (read_n_u8 (N.to_nat (blen b)) inner))).
  intros pre Fi. unfold blen. rewrite Nat2N.id.
  pose proof (read_n_u8_ok b pre []) as H. rewrite !app_nil_r in H. rewrite H by exact Fi. reflexivity.
Qed.
Lemma rbind_assoc {A B C} (m : rd A) (f : A -> rd B) (g : B -> rd C) r :
  (do y <- (do x <- m; f x); g y) r = (do x <- m; do y <- f x; g y) r.
Proof. unfold rbind. destruct (m r) as [[a|e|] r']; reflexivity. Qed.
Lemma reads_ext {A} (m m' : rd A) e a : (forall r, m r = m' r) -> reads m e a -> reads m' e a.
Proof. intros E H pre post F. rewrite <- E. apply H. exact F. Qed.
Lemma rbind_ext {A B} (m : rd A) (k k' : A -> rd B) r : (forall a r, k a r = k' a r) -> rbind m k r = rbind m k' r.
Proof. intros E. unfold rbind. destruct (m r) as [[a|e|] r']; auto. Qed.
Lemma reads_client_hello h : handshake_ok (HClientHello h) -> handshake_fits (HClientHello h) ->
  forall t b, handshake_parts (HClientHello h) = Some (t, b) -> reads read_client_hello b h.
Proof.
  intros (V & Rl & S & X) (F1 & F2 & F3 & F4) t b E. cbn [handshake_parts] in E. apply some_pair in E. destruct E as [<- <-].
  unfold read_client_hello.
  apply (reads_bind _ _ _ _ (ch_version h)); [apply reads_u16; exact V|].
  apply (reads_bind _ _ _ _ (ch_random h)).
  { replace 32 with (blen (ch_random h)) by (unfold blen; rewrite Rl; reflexivity). apply reads_fixed. }
  apply (reads_bind _ _ _ _ (ch_session h)); [apply (reads_bytes 1); auto using in1|].
  apply (reads_bind _ _ _ _ (ch_suites h)).
  { apply (reads_list 2 _ (fun c => be_bytes 2 (cipher_suite_to c))); auto using in2.
    - intros x I. rewrite Forall_forall in S. apply (reads_code16 cipher_suites CsUnknown cipher_suite_from cipher_suite_to); auto using cipher_suite_codes. apply S; exact I.
    - intros x _. apply be_nonempty. }
  eapply reads_ext; [|eapply (reads_bind (do n <- read_u8; do inner <- read_nested n; rlift (fst (read_n_u8 (N.to_nat n) inner)))
    (fun compression => do exts <- read_extensions InClientHello;
       rret {| ch_version := ch_version h; ch_random := ch_random h; ch_session := ch_session h; ch_suites := ch_suites h;
          ch_compression := compression; ch_extensions := exts |}))].
  - intros r. cbv beta. rewrite rbind_assoc. apply rbind_ext. intros a r'. rewrite rbind_assoc. reflexivity.
  - apply reads_compression. exact F3.
  - cbv beta. eapply reads_eq; [apply reads_map; apply reads_extensions; eassumption|reflexivity|destruct h; reflexivity].
Qed.
Lemma reads_server_hello h : handshake_ok (HServerHello h) -> handshake_fits (HServerHello h) ->
  forall t b, handshake_parts (HServerHello h) = Some (t, b) -> reads read_server_hello b h.
Proof.
  intros (V & Rl & S & C & X) (F1 & F4) t b E. cbn [handshake_parts] in E. apply some_pair in E. destruct E as [<- <-].
  unfold read_server_hello.
  apply (reads_bind _ _ _ _ (sh_version h)); [apply reads_u16; exact V|].
  apply (reads_bind _ _ _ _ (sh_random h)).
  { replace 32 with (blen (sh_random h)) by (unfold blen; rewrite Rl; reflexivity). apply reads_fixed. }
  apply (reads_bind _ _ _ _ (sh_session h)); [apply (reads_bytes 1); auto using in1|].
  apply (reads_bind _ _ _ _ (sh_suite h)).
  { apply (reads_code16 cipher_suites CsUnknown cipher_suite_from cipher_suite_to); auto using cipher_suite_codes. }
  apply (reads_bind _ _ _ _ (sh_compression h)); [apply reads_u8; exact C|].
  eapply reads_eq; [apply reads_map; apply reads_extensions; eassumption|reflexivity|destruct h; reflexivity].
Qed.
Lemma reads_session_ticket h : handshake_ok (HNewSessionTicket h) -> handshake_fits (HNewSessionTicket h) ->
  forall t b, handshake_parts (HNewSessionTicket h) = Some (t, b) -> reads read_session_ticket b h.
Proof.
  intros (V & A & X) (F1 & F2 & F4) t b E. cbn [handshake_parts] in E. apply some_pair in E. destruct E as [<- <-].
  unfold read_session_ticket.
  apply (reads_bind _ _ _ _ (st_lifetime h)); [apply reads_u32; exact V|].
  apply (reads_bind _ _ _ _ (st_age_add h)); [apply reads_u32; exact A|].
  apply (reads_bind _ _ _ _ (st_nonce h)); [apply (reads_bytes 1); auto using in1|].
  apply (reads_bind _ _ _ _ (st_ticket h)); [apply (reads_bytes 2); auto using in2|].
  eapply reads_eq; [apply reads_map; apply reads_extensions; eassumption|reflexivity|destruct h; reflexivity].
Qed.
Lemma reads_certificate_request h : handshake_ok (HCertificateRequest h) -> handshake_fits (HCertificateRequest h) ->
  forall t b, handshake_parts (HCertificateRequest h) = Some (t, b) -> reads read_certificate_request b h.
Proof.
  intros X (F1 & F4) t b E. cbn [handshake_parts] in E. apply some_pair in E. destruct E as [<- <-].
  unfold read_certificate_request.
  apply (reads_bind _ _ _ _ (cr_context h)); [apply (reads_bytes 1); auto using in1|].
  eapply reads_eq; [apply reads_map; apply reads_extensions; eassumption|reflexivity|destruct h; reflexivity].
Qed.
Lemma reads_lift {A B} (x : outcome berr A) (k : A -> rd B) a e b : x = Ok a -> reads (k a) e b -> reads (do y <- rlift x; k y) e b.
Proof. intros -> H pre post F. unfold rbind, rlift. apply H. exact F. Qed.
Lemma reads_entry e : certificate_from_bytes (en_data e) = Ok (en_certificate e) ->
  Forall (extension_ok InCertificate) (en_extensions e) -> fit 3 (en_data e) -> extensions_fit InCertificate (en_extensions e) ->
  reads read_certificate_entry (entry_bytes e) e.
Proof.
  intros C X F1 F2. unfold read_certificate_entry, entry_bytes.
  apply (reads_bind _ _ _ _ (en_data e)); [apply (reads_bytes 3); auto using in3'|].
  apply (reads_lift _ _ (en_certificate e)); [rewrite C; reflexivity|].
  eapply reads_eq; [apply reads_map; apply reads_extensions; eassumption|reflexivity|destruct e; reflexivity].
Qed.
Lemma reads_certificates c : handshake_ok (HCertificate c) -> handshake_fits (HCertificate c) ->
  forall t b, handshake_parts (HCertificate c) = Some (t, b) -> reads read_certificates b c.
Proof.
  intros O (F1 & F2 & F3) t b E. cbn [handshake_parts handshake_ok] in *. apply some_pair in E. destruct E as [<- <-].
  unfold read_certificates.
  apply (reads_bind _ _ _ _ (ct_context c)); [apply (reads_bytes 1); auto using in1|].
  eapply reads_eq; [apply reads_map; apply (reads_list 3)|reflexivity|destruct c; reflexivity]; auto using in3'.
  - intros x I. rewrite Forall_forall in O, F2. destruct (O x I), (F2 x I). apply reads_entry; auto.
  - intros x _ H. unfold entry_bytes in H. destruct (app_eq_nil _ _ H) as [E _]. exact (vec_nonempty 2 _ E).
Qed.
Lemma reads_certificate_verify v : handshake_ok (HCertificateVerify v) -> handshake_fits (HCertificateVerify v) ->
  forall t b, handshake_parts (HCertificateVerify v) = Some (t, b) -> reads read_certificate_verify b v.
Proof.
  intros O F t b E. cbn [handshake_parts handshake_ok handshake_fits] in *. apply some_pair in E. destruct E as [<- <-].
  unfold read_certificate_verify.
  apply (reads_bind _ _ _ _ (cv_algorithm v)).
  { apply (reads_code16 signature_schemes SsUnknown signature_scheme_from signature_scheme_to); [apply signature_scheme_codes|reflexivity|exact O]. }
  eapply reads_eq; [apply reads_map; apply (reads_bytes 2); [apply in2|exact F]|reflexivity|destruct v; reflexivity].
Qed.
(** The number read by [read_u24] is not used by the known types. *)
Lemma read_u24_any v pre post : fits (pre ++ be_bytes 3 v ++ post) ->
  exists n, read_u24 (at_pos pre (be_bytes 3 v ++ post)) = (Ok n, at_pos (pre ++ be_bytes 3 v) post).
Proof.
  intros F. exists (of_be_bytes (0 :: be_bytes 3 v)). unfold read_u24. change 3 with (N.of_nat 3) at 1. rewrite <- (blen_be 3 v).
  rewrite take_ok by exact F. reflexivity.
Qed.
Lemma ends_body {A} (f : N -> rd A) (m : rd A) v body a : (forall n, f n = m) -> ends m body a ->
  ends (do n <- read_u24; f n) (be_bytes 3 v ++ body) a.
Proof.
  intros E H pre F. unfold rbind. destruct (read_u24_any v pre body F) as [n ->]. rewrite E. apply H.
  rewrite <- app_assoc. exact F.
Qed.
Lemma handshake_type_lt h t b : handshake_ok h -> handshake_parts h = Some (t, b) -> t < 256.
Proof. intros O E. destruct h; cbn [handshake_parts handshake_ok] in *; try discriminate; apply some_pair in E; destruct E as [<- <-]; lia. Qed.
Lemma ends_handshake h t b : handshake_ok h -> handshake_fits h -> handshake_parts h = Some (t, b) ->
  ends read_handshake (handshake_bytes t b) h.
Proof.
  intros O F E. unfold read_handshake, handshake_bytes. change (t :: vec 3 b) with ([t] ++ vec 3 b).
  pose proof (handshake_type_lt h t b O E) as Lt. rewrite (be1_cons t Lt).
  apply (ends_bind _ _ _ _ t); [apply reads_u8; exact Lt|]. unfold vec, read_handshake_body.
  destruct h; try (cbn [handshake_parts] in E; discriminate).
  - pose proof (reads_client_hello _ O F t b E) as R. cbn [handshake_parts] in E. assert (t = 1) by congruence. subst t.
    eapply ends_body; [intros n; cbn [N.eqb Pos.eqb]; reflexivity|]. apply ends_map, reads_ends, R.
  - pose proof (reads_server_hello _ O F t b E) as R. cbn [handshake_parts] in E. assert (t = 2) by congruence. subst t.
    eapply ends_body; [intros n; cbn [N.eqb Pos.eqb]; reflexivity|]. apply ends_map, reads_ends, R.
  - cbn [handshake_parts] in E. apply some_pair in E. destruct E as [<- <-].
    eapply ends_body; [intros n; cbn [N.eqb Pos.eqb]; reflexivity|]. apply ends_map, reads_ends, reads_extensions; auto.
  - pose proof (reads_certificate_request _ O F t b E) as R. cbn [handshake_parts] in E. assert (t = 13) by congruence. subst t.
    eapply ends_body; [intros n; cbn [N.eqb Pos.eqb]; reflexivity|]. apply ends_map, reads_ends, R.
  - pose proof (reads_certificates _ O F t b E) as R. cbn [handshake_parts] in E. assert (t = 11) by congruence. subst t.
    eapply ends_body; [intros n; cbn [N.eqb Pos.eqb]; reflexivity|]. apply ends_map, reads_ends, R.
  - pose proof (reads_certificate_verify _ O F t b E) as R. cbn [handshake_parts] in E. assert (t = 15) by congruence. subst t.
    eapply ends_body; [intros n; cbn [N.eqb Pos.eqb]; reflexivity|]. apply ends_map, reads_ends, R.
  - cbn [handshake_parts] in E. apply some_pair in E. destruct E as [<- <-].
    eapply ends_body; [intros n; cbn [N.eqb Pos.eqb]; reflexivity|]. apply ends_map, ends_remaining.
  - pose proof (reads_session_ticket _ O F t b E) as R. cbn [handshake_parts] in E. assert (t = 4) by congruence. subst t.
    eapply ends_body; [intros n; cbn [N.eqb Pos.eqb]; reflexivity|]. apply ends_map, reads_ends, R.
  - cbn [handshake_parts handshake_ok] in *. injection E as -> ->. destruct O as (_ & NI & Fd).
    apply (ends_bind _ _ _ _ (blen b)); [apply (reads_num 3); [cbn; auto|exact Fd]|].
    unfold known_handshakes in NI. cbn [In] in NI.
    repeat match goal with |- context [if ?a =? ?c then _ else _] => destruct (N.eqb_spec a c) as [H|_]; [exfalso; apply NI; rewrite H; tauto|] end.
    apply ends_map, reads_ends, reads_fixed.
Qed.
(** With something after it, and whatever the length in the header. *)
Lemma reads_body {A} (f : N -> rd A) (m : rd A) v body a : (forall n, f n = m) -> reads m body a ->
  reads (do n <- read_u24; f n) (be_bytes 3 v ++ body) a.
Proof.
  intros E H pre post F. rewrite <- app_assoc in *. unfold rbind. destruct (read_u24_any v pre (body ++ post) F) as [n ->]. rewrite E, H.
  - rewrite <- app_assoc. reflexivity.
  - rewrite <- app_assoc. exact F.
Qed.
Definition delimits_itself (h : handshake) : Prop := match h with HFinished _ | HUnknown _ _ => False | _ => True end.
Lemma reads_handshake h t b v : handshake_ok h -> handshake_fits h -> handshake_parts h = Some (t, b) -> delimits_itself h ->
  reads read_handshake ([t] ++ be_bytes 3 v ++ b) h.
Proof.
  intros O F E D. unfold read_handshake. pose proof (handshake_type_lt h t b O E) as Lt. rewrite (be1_cons t Lt).
  apply (reads_bind _ _ _ _ t); [apply reads_u8; exact Lt|]. unfold read_handshake_body.
  destruct h; try (destruct D; fail); try (cbn [handshake_parts] in E; discriminate).
  - pose proof (reads_client_hello _ O F t b E) as R. cbn [handshake_parts] in E. assert (t = 1) by congruence. subst t.
    eapply reads_body; [intros n; cbn [N.eqb Pos.eqb]; reflexivity|]. apply reads_map, R.
  - pose proof (reads_server_hello _ O F t b E) as R. cbn [handshake_parts] in E. assert (t = 2) by congruence. subst t.
    eapply reads_body; [intros n; cbn [N.eqb Pos.eqb]; reflexivity|]. apply reads_map, R.
  - cbn [handshake_parts] in E. apply some_pair in E. destruct E as [<- <-].
    eapply reads_body; [intros n; cbn [N.eqb Pos.eqb]; reflexivity|]. apply reads_map, reads_extensions; auto.
  - pose proof (reads_certificate_request _ O F t b E) as R. cbn [handshake_parts] in E. assert (t = 13) by congruence. subst t.
    eapply reads_body; [intros n; cbn [N.eqb Pos.eqb]; reflexivity|]. apply reads_map, R.
  - pose proof (reads_certificates _ O F t b E) as R. cbn [handshake_parts] in E. assert (t = 11) by congruence. subst t.
    eapply reads_body; [intros n; cbn [N.eqb Pos.eqb]; reflexivity|]. apply reads_map, R.
  - pose proof (reads_certificate_verify _ O F t b E) as R. cbn [handshake_parts] in E. assert (t = 15) by congruence. subst t.
    eapply reads_body; [intros n; cbn [N.eqb Pos.eqb]; reflexivity|]. apply reads_map, R.
  - pose proof (reads_session_ticket _ O F t b E) as R. cbn [handshake_parts] in E. assert (t = 4) by congruence. subst t.
    eapply reads_body; [intros n; cbn [N.eqb Pos.eqb]; reflexivity|]. apply reads_map, R.
Qed.
