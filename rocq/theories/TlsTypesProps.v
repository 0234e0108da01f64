(** C52, C53, C54, C78: TLS code points and messages. *)
From Verif Require Import Base BaseProofs BinaryModel BinarySpec BinaryProofs BinaryProofs2 MessageProofs2
  Asn1Model X509Model TlsCodesModel TlsTypesModel TlsTypesSpec TlsTypesProofs TlsTypesProofs2 TlsTypesProofs3 TlsTypesProofs4.
Local Open Scope N_scope.
Ltac Zify.zify_post_hook ::= Z.div_mod_to_equations.

(** *** C52: code points *)
Theorem C52_code_points :
  codes_agree content_types CtUnknown content_type_from content_type_to /\
  codes_agree alert_levels AlUnknown alert_level_from alert_level_to /\
  codes_agree alert_descriptions AdUnknown alert_description_from alert_description_to /\
  codes_agree cipher_suites CsUnknown cipher_suite_from cipher_suite_to /\
  codes_agree signature_schemes SsUnknown signature_scheme_from signature_scheme_to /\
  codes_agree named_groups NgUnknown named_group_from named_group_to /\
  codes_agree named_curves NcOther named_curve_from named_curve_to /\
  codes_agree point_formats PfOther point_format_from point_format_to /\
  codes_agree psk_modes PmUnknown psk_mode_from psk_mode_to.
Proof.
  exact (conj content_type_codes (conj alert_level_codes (conj alert_description_codes (conj cipher_suite_codes
    (conj signature_scheme_codes (conj named_group_codes (conj named_curve_codes (conj point_format_codes psk_mode_codes)))))))).
Qed.
Print Assumptions C52_code_points.
Example C52_sample : cipher_suite_from 0x1302 = CsTLSAES256GCMSHA384 /\ cipher_suite_to (cipher_suite_from 0xfafa) = 0xfafa /\
  named_group_from 0x1d = NgX25519 /\ alert_description_to AdUnknownCa = 48.
Proof. repeat split. Qed.
(** Reading a code of two bytes and writing it gives the two bytes back; so too for one. *)
Definition rewrites {X} (width : nat) (rd_ : rd X) (wr_ : X -> wr) : Prop :=
  forall c pre post d, c < 256 ^ N.of_nat width -> fits (pre ++ be_bytes width c ++ post) ->
    exists x, rd_ (at_pos pre (be_bytes width c ++ post)) = (Ok x, at_pos (pre ++ be_bytes width c) post) /\
              wr_ x d = (Ok tt, d ++ be_bytes width c).
Lemma rewrites16 {X} (table : list (N * X)) unknown from to : codes_agree table unknown from to ->
  rewrites 2 (do c <- read_u16; rret (from c)) (fun x => write_u16 (to x)).
Proof.
  intros C c pre post d L F. exists (from c). split.
  - apply (reads_map read_u16 from (be_bytes 2 c) c); [apply reads_u16; exact L|exact F].
  - destruct C as (_ & _ & _ & R & _). rewrite R. reflexivity.
Qed.
Lemma rewrites8 {X} (table : list (N * X)) unknown from to : codes_agree table unknown from to ->
  rewrites 1 (do c <- read_u8; rret (from c)) (fun x => write_u8 (to x)).
Proof.
  intros C c pre post d L F. exists (from c). split.
  - apply (reads_map read_u8 from (be_bytes 1 c) c); [apply reads_u8; exact L|exact F].
  - destruct C as (_ & _ & _ & R & _). rewrite R, <- be1_cons by exact L. reflexivity.
Qed.
Theorem C52_on_the_wire :
  rewrites 1 read_alert_level write_alert_level /\ rewrites 1 read_alert_description write_alert_description /\
  rewrites 2 read_cipher_suite write_cipher_suite /\ rewrites 2 read_signature_scheme write_signature_scheme /\
  rewrites 2 read_named_group write_named_group /\ rewrites 2 read_named_curve write_named_curve /\
  rewrites 1 read_point_format write_point_format /\ rewrites 1 read_psk_mode write_psk_mode.
Proof.
  exact (conj (rewrites8 _ _ _ _ alert_level_codes) (conj (rewrites8 _ _ _ _ alert_description_codes) (conj (rewrites16 _ _ _ _ cipher_suite_codes)
    (conj (rewrites16 _ _ _ _ signature_scheme_codes) (conj (rewrites16 _ _ _ _ named_group_codes) (conj (rewrites16 _ _ _ _ named_curve_codes)
    (conj (rewrites8 _ _ _ _ point_format_codes) (rewrites8 _ _ _ _ psk_mode_codes)))))))).
Qed.
Print Assumptions C52_on_the_wire.
Example C52_wire_sample : read_cipher_suite (at_pos [] [0xba; 0xba; 7]) = (Ok (CsUnknown 0xbaba), at_pos [0xba; 0xba] [7]).
Proof. reflexivity. Qed.

(** *** C53: handshake messages *)
(** The bytes of a message, as the RFCs give them, are read as that message. *)
Theorem C53_bytes_are_read h t body : handshake_ok h -> handshake_fits h -> handshake_parts h = Some (t, body) ->
  fits (handshake_bytes t body) -> fst (read_handshake (new_reader (handshake_bytes t body))) = Ok h.
Proof. intros O F E L. rewrite new_at_pos. apply (ends_handshake h t body O F E []). exact L. Qed.
Print Assumptions C53_bytes_are_read.
(** The writer, on the messages it has code for, writes exactly those bytes if every part
    fits its length, and refuses the message otherwise, leaving the output as it was. *)
Theorem C53_writer_is_exact h t body d : handshake_ok h -> handshake_writable h -> handshake_parts h = Some (t, body) ->
  (handshake_fits h /\ write_handshake h d = (Ok tt, d ++ handshake_bytes t body)) \/
  (~ handshake_fits h /\ write_handshake h d = (Err BValueTooLarge, d)).
Proof. apply write_handshake_ok. Qed.
Print Assumptions C53_writer_is_exact.
(** What it writes is read back. *)
Theorem C53_round_trip_partial h d : handshake_ok h -> handshake_writable h -> write_handshake h [] = (Ok tt, d) -> fits d ->
  fst (read_handshake (new_reader d)) = Ok h.
Proof.
  intros O W E F. destruct (handshake_writer_some h W) as (c & w & t & b & _ & P).
  destruct (write_handshake_ok h t b [] O W P) as [[Hf H]|[_ H]]; rewrite E in H; [|discriminate].
  assert (D : d = handshake_bytes t b) by (injection H as H; exact H). subst d. apply C53_bytes_are_read; auto.
Qed.
Print Assumptions C53_round_trip_partial.
(** A client hello as the client builds it. *)
Definition sample_hello : handshake := HClientHello {|
  ch_version := 0x0303; ch_random := map N.of_nat (seq 0 32); ch_session := map N.of_nat (seq 100 32);
  ch_suites := [CsTLSAES256GCMSHA384; CsTLSAES128GCMSHA256; CsUnknown 0x2a2a]; ch_compression := [0];
  ch_extensions := [XServerName [HostName [105; 112; 102; 115; 46; 105; 111]]; XPointFormats [PfUncompressed; PfANSIX962CompressedPrime];
    XSupportedGroups [NcX25519; NcSecp256r1]; XEncryptThenMac; XExtendedMasterSecret; XSignatureAlgorithms [SsRsaPssRsaeSha256; SsEd25519];
    XSupportedVersions [2; 3; 4]; XPskModes [PmPskDheKe]; XAlpn [[104; 50]; [108; 105; 98]]; XUnknown 21 [0; 0; 0];
    XKeyShareClient [{| ks_group := NgX25519; ks_key := map N.of_nat (seq 50 32) |}]] |}.
Ltac pick := repeat first [left; reflexivity|right].
Ltac well_formed := repeat match goal with
  | |- Forall _ (_ :: _) => apply Forall_cons
  | |- Forall _ [] => apply Forall_nil
  | |- extension_ok _ _ => cbn [extension_ok]
  | |- True => exact I
  | |- proper _ _ _ _ => left; cbn; pick
  | |- key_share_ok _ => left; cbn; pick
  | |- suite_ok _ => first [solve [left; cbn; pick] | right; eexists; split; [reflexivity|split; [reflexivity|cbn; intuition discriminate]]]
  | |- server_name_ok _ => reflexivity
  | |- ~ In _ _ => cbn; intuition discriminate
  | |- _ /\ _ => split
  | |- _ < _ => reflexivity
  | |- _ = _ => reflexivity
  end.
Example C53_sample : handshake_ok sample_hello /\ handshake_writable sample_hello /\ handshake_fits sample_hello /\
  exists d, write_handshake sample_hello [] = (Ok tt, d) /\ firstn 6 d = [1; 0; 0; 205; 3; 3] /\
            fst (read_handshake (new_reader d)) = Ok sample_hello.
Proof.
  split; [split; [reflexivity|split; [reflexivity|split; cbn [ch_suites ch_extensions]; well_formed]]|].
  split; [repeat constructor|].
  split; [repeat (split || reflexivity || (apply Forall_cons; [|]) || apply Forall_nil)|].
  eexists. split; [vm_compute; reflexivity|]. split; vm_compute; reflexivity.
Qed.
(** The full statement is false in these ways.  Half the message types have no writer at all. *)
Theorem C53_no_writer_refuted : forall h d,
  match h with
  | HEncryptedExtensions _ | HCertificateRequest _ | HNewSessionTicket _ | HUnknown _ _ => fst (write_handshake h d) = Panic
  | _ => True
  end.
Proof. intros h d. destruct h; exact I || reflexivity. Qed.
Print Assumptions C53_no_writer_refuted.
(** An extension that the parser returns cannot be written. *)
Theorem C53_authorities_refuted : exists h e, handshake_ok h /\ handshake_fits h /\
  handshake_parts h = Some (1, e) /\ fst (read_handshake (new_reader (handshake_bytes 1 e))) = Ok h /\ fst (write_handshake h []) = Panic.
Proof.
  exists (HClientHello {| ch_version := 0x0303; ch_random := repeat 7 32; ch_session := []; ch_suites := []; ch_compression := [0];
    ch_extensions := [XAuthorities [[1; 2; 3]]] |}). eexists.
  split; [repeat (split || reflexivity || constructor)|]. split; [repeat (split || reflexivity || constructor)|].
  split; [reflexivity|]. split; vm_compute; reflexivity.
Qed.
Print Assumptions C53_authorities_refuted.
(** A server's acknowledgement of the server name is written as an empty list of names,
    which the parser does not take. *)
Theorem C53_server_name_refuted : exists h d e, handshake_ok h /\ handshake_fits h /\
  write_handshake h [] = (Ok tt, d) /\ fst (read_handshake (new_reader d)) = Err e.
Proof.
  exists (HServerHello {| sh_version := 0x0303; sh_random := repeat 7 32; sh_session := []; sh_suite := CsTLSAES128GCMSHA256;
    sh_compression := 0; sh_extensions := [XServerName []] |}). eexists. eexists.
  split; [repeat (split || reflexivity || constructor)|]. split; [repeat (split || reflexivity || constructor)|].
  split; vm_compute; reflexivity.
Qed.
Print Assumptions C53_server_name_refuted.
(** The length in the header wraps round: it is the true one only below 2^24. *)
Theorem C53_header_length h t body : handshake_ok h -> handshake_writable h -> handshake_parts h = Some (t, body) -> handshake_fits h ->
  of_be_bytes (firstn 3 (skipn 1 (snd (write_handshake h [])))) = blen body mod two24.
Proof.
  intros O W E F. destruct (write_handshake_ok h t body [] O W E) as [[_ ->]|[NF _]]; [|contradiction].
  cbn [snd app]. unfold handshake_bytes, vec. change (skipn 1 (t :: be_bytes 3 (blen body) ++ body)) with (be_bytes 3 (blen body) ++ body).
  pose proof (firstn_app_length (be_bytes 3 (blen body)) body) as X. rewrite be_bytes_length in X. rewrite X.
  change two24 with (256 ^ N.of_nat 3). rewrite <- (be_bytes_mod 3). apply of_be_be_bytes. apply N.mod_lt. discriminate.
Qed.
Print Assumptions C53_header_length.
Theorem C53_long_message_refuted : exists h d, handshake_ok h /\ handshake_writable h /\ handshake_fits h /\
  write_handshake h [] = (Ok tt, d) /\ d = 20 :: 0 :: 0 :: 0 :: repeat 7 (N.to_nat two24).
Proof.
  exists (HFinished (repeat 7 (N.to_nat two24))). eexists. split; [exact I|]. split; [exact I|]. split; [exact I|].
  split; [|reflexivity].
  destruct (write_handshake_ok (HFinished (repeat 7 (N.to_nat two24))) 20 _ [] I I eq_refl) as [[_ ->]|[NF _]]; [|destruct NF; exact I].
  unfold handshake_bytes, vec, blen. rewrite repeat_length, N2Nat.id. reflexivity.
Qed.
Print Assumptions C53_long_message_refuted.

(** *** C54: no panics *)
(** The handshake parser panics on exactly the inputs that begin with type 24, KeyUpdate,
    and have a length after it. *)
Theorem C54_only_key_update_panics d : bytes_ok d -> fits d ->
  (fst (read_handshake (new_reader d)) = Panic <-> exists a b c rest, d = 24 :: a :: b :: c :: rest).
Proof.
  intros O F. rewrite new_at_pos. unfold read_handshake. split.
  - intros P. destruct d as [|t d]; [discriminate|].
    assert (T : t = 24).
    { destruct (N.eq_dec t 24) as [e|n]; [exact e|]. exfalso. revert P.
      destruct (proj1 (wb_at _) wb_u8 [] (t :: d)) as (x & s & post & E & R & NP). unfold rbind. rewrite E.
      destruct x as [a|e|]; [|discriminate|congruence]. cbn [fst]. apply u8_inv in E.
      destruct E as [(e & E & _)|(b & post' & E1 & E2 & E3)]; [discriminate|]. injection E2 as ->. injection E1 as <- ->. rewrite E3.
      apply safe_fst; [apply safe_body; exact n|exact O]. }
    subst t. destruct d as [|a [|b [|c rest]]]; try (vm_compute in P; discriminate). eauto.
  - intros (a & b & c & rest & ->). unfold rbind at 1.
    rewrite (u8_ok [] 24 (a :: b :: c :: rest) F). unfold read_handshake_body, rbind, read_u24.
    change 3 with (blen [a; b; c]). change (a :: b :: c :: rest) with ([a; b; c] ++ rest).
    rewrite (take_ok _ ([] ++ [24]) [a; b; c] rest F). reflexivity.
Qed.
Print Assumptions C54_only_key_update_panics.
(** So too for whole records. *)
Theorem C54_messages_partial d ct : bytes_ok d -> fits d -> hd 0 d <> 24 -> message_from_raw d ct <> Panic.
Proof.
  intros O F T. destruct ct; cbn [message_from_raw]; try discriminate.
  - apply np_bind; [|discriminate]. rewrite new_at_pos. apply safe_fst; [|exact O].
    unfold read_alert, read_alert_level, read_alert_description. repeat safe1.
  - apply np_bind; [|discriminate]. intros P. apply C54_only_key_update_panics in P; [|exact O|exact F].
    destruct P as (a & b & c & rest & ->). apply T. reflexivity.
Qed.
Print Assumptions C54_messages_partial.
Theorem C54_key_update_refuted : message_from_raw [24; 0; 0; 1; 0] CtHandshake = Panic.
Proof. reflexivity. Qed.
Print Assumptions C54_key_update_refuted.
(** Certificates. *)
Theorem C54_certificates d : bytes_ok d -> certificate_from_bytes d <> Panic.
Proof. apply certificate_bytes_np. Qed.
Print Assumptions C54_certificates.
Example C54_sample : message_from_raw [1; 0; 0; 255; 3; 3; 9] CtHandshake <> Panic /\
  message_from_raw [11; 0; 0; 0; 0; 0; 0; 9; 0; 0; 3; 48; 1; 0; 0; 0] CtHandshake <> Panic /\ message_from_raw [2; 40] CtAlert = Ok (MAlert {| a_level := AlFatal; a_description := AdHandshakeFailure |}).
Proof. split; [vm_compute; discriminate|]. split; [vm_compute; discriminate|reflexivity]. Qed.

(** *** C78: the length in the header *)
(** For a message of a type the parser knows, the length in its header makes no difference:
    the same message is read under every length. *)
Theorem C78_length_is_ignored_refuted h t body v : handshake_ok h -> handshake_fits h -> handshake_parts h = Some (t, body) ->
  delimits_itself h -> fits (t :: be_bytes 3 v ++ body) ->
  message_from_raw (t :: be_bytes 3 v ++ body) CtHandshake = Ok (MHandshake h).
Proof.
  intros O F E D L. cbn [message_from_raw]. rewrite new_at_pos. change (t :: be_bytes 3 v ++ body) with ([t] ++ be_bytes 3 v ++ body) in *.
  rewrite (reads_ends _ _ _ (reads_handshake h t body v O F E D) [] L). reflexivity.
Qed.
Print Assumptions C78_length_is_ignored_refuted.
(** Whatever follows the first message in a record is dropped without an error. *)
Theorem C78_rest_of_record_dropped_refuted h t body more : handshake_ok h -> handshake_fits h -> handshake_parts h = Some (t, body) ->
  delimits_itself h -> fits (handshake_bytes t body ++ more) ->
  message_from_raw (handshake_bytes t body ++ more) CtHandshake = Ok (MHandshake h).
Proof.
  intros O F E D L. cbn [message_from_raw]. rewrite new_at_pos.
  change (handshake_bytes t body) with ([t] ++ be_bytes 3 (blen body) ++ body) in *.
  rewrite (reads_handshake h t body (blen body) O F E D [] more L). reflexivity.
Qed.
Print Assumptions C78_rest_of_record_dropped_refuted.
(** After a [Finished] it becomes part of that message. *)
Theorem C78_finished_takes_the_rest_refuted d more : fits (handshake_bytes 20 d ++ more) ->
  message_from_raw (handshake_bytes 20 d ++ more) CtHandshake = Ok (MHandshake (HFinished (d ++ more))).
Proof.
  intros L. cbn [message_from_raw]. unfold handshake_bytes, vec in *.
  replace ((20 :: be_bytes 3 (blen d) ++ d) ++ more) with (be_bytes 1 20 ++ be_bytes 3 (blen d) ++ d ++ more) in *
    by (cbn [app]; rewrite <- app_assoc; reflexivity).
  rewrite new_at_pos.
  assert (X : ends read_handshake (be_bytes 1 20 ++ be_bytes 3 (blen d) ++ d ++ more) (HFinished (d ++ more))).
  { apply (ends_bind _ _ _ _ 20); [apply reads_u8; reflexivity|]. unfold read_handshake_body.
    eapply ends_body; [intros n; cbn [N.eqb Pos.eqb]; reflexivity|]. apply ends_map, ends_remaining. }
  rewrite (X [] L). reflexivity.
Qed.
Print Assumptions C78_finished_takes_the_rest_refuted.
(** Messages of unknown types are delimited by the header. *)
Theorem C78_unknown_types_delimited t d more : t < 256 -> ~ In t known_handshakes -> fit 3 d -> fits (handshake_bytes t d ++ more) ->
  read_handshake (new_reader (handshake_bytes t d ++ more)) = (Ok (HUnknown t d), at_pos (handshake_bytes t d) more).
Proof.
  intros T NI Fd L. rewrite new_at_pos. unfold handshake_bytes, vec in *. change (t :: be_bytes 3 (blen d) ++ d) with ([t] ++ be_bytes 3 (blen d) ++ d) in *.
  rewrite (be1_cons t T) in *.
  assert (X : reads read_handshake (be_bytes 1 t ++ be_bytes 3 (blen d) ++ d) (HUnknown t d)).
  { apply (reads_bind _ _ _ _ t); [apply reads_u8; exact T|]. unfold read_handshake_body.
    apply (reads_bind _ _ _ _ (blen d)); [apply (reads_num 3); [cbn; auto|exact Fd]|].
    unfold known_handshakes in NI. cbn [In] in NI.
    repeat match goal with |- context [if ?a =? ?c then _ else _] => destruct (N.eqb_spec a c) as [H|_]; [exfalso; apply NI; rewrite H; tauto|] end.
    apply reads_map, reads_fixed. }
  apply (X [] more L).
Qed.
Print Assumptions C78_unknown_types_delimited.
(** A certificate verify and a finished in one record: the finished is lost. *)
Definition sample_verify : handshake := HCertificateVerify {| cv_algorithm := SsEd25519; cv_signature := [1; 2; 3] |}.
Example C78_sample : message_from_raw ([15; 0; 0; 7; 8; 7; 0; 3; 1; 2; 3] ++ [20; 0; 0; 2; 9; 9]) CtHandshake = Ok (MHandshake sample_verify) /\
  message_from_raw [15; 99; 99; 99; 8; 7; 0; 3; 1; 2; 3] CtHandshake = Ok (MHandshake sample_verify).
Proof. split; reflexivity. Qed.
