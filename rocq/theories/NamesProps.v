(** C123: names of TLS messages and texts of errors. *)
From Coq Require Import String Ascii.
From Verif Require Import Base BaseProofs VarintModel BinaryModel BinarySpec BinaryProofs Asn1Model Asn1Spec Asn1Props CidModel UnixfsModel ChatModel Asn1PrintProps TlsCodesModel TlsTypesModel TlsTypesSpec TlsTypesProofs TlsTypesProofs2 TlsTypesProps NamesModel.
Local Open Scope string_scope. Local Open Scope list_scope. Local Open Scope N_scope.

(** *** Specification: the code tables of RFC 8446, sections 6 and 4, with the names
    used there. *)
Definition rfc_alerts : list (N * string) :=
  [(0, "close_notify"); (10, "unexpected_message"); (20, "bad_record_mac"); (22, "record_overflow"); (40, "handshake_failure"); (42, "bad_certificate");
   (43, "unsupported_certificate"); (44, "certificate_revoked"); (45, "certificate_expired"); (46, "certificate_unknown"); (47, "illegal_parameter");
   (48, "unknown_ca"); (49, "access_denied"); (50, "decode_error"); (51, "decrypt_error"); (70, "protocol_version"); (71, "insufficient_security");
   (80, "internal_error"); (86, "inappropriate_fallback"); (90, "user_canceled"); (109, "missing_extension"); (110, "unsupported_extension");
   (112, "unrecognized_name"); (113, "bad_certificate_status_response"); (115, "unknown_psk_identity"); (116, "certificate_required"); (120, "no_application_protocol")].
Definition rfc_handshakes : list (N * string) :=
  [(1, "client_hello"); (2, "server_hello"); (4, "new_session_ticket"); (5, "end_of_early_data"); (8, "encrypted_extensions"); (11, "certificate");
   (13, "certificate_request"); (15, "certificate_verify"); (20, "finished"); (24, "key_update")].
(** close_notify is shown as CloseNotify. *)
Fixpoint camel (up : bool) (s : string) : string :=
  match s with
  | EmptyString => EmptyString
  | String c s => if (N_of_ascii c =? 95) then camel true s else String (if up then ascii_of_N (N_of_ascii c - 32) else c) (camel false s)
  end.
Definition shown (table : list (N * string)) (code : N) : string :=
  match find (fun e => fst e =? code) table with Some e => camel true (snd e) | None => "Unknown" end.

(** *** TLS *)
Ltac by_cases c l := match l with
  | [] => idtac
  | (?k, _) :: ?l => destruct (N.eq_dec c k) as [->|]; [vm_compute; reflexivity|by_cases c l]
  end.
Lemma alert_shown lv c : alert_name {| a_level := lv; a_description := alert_description_from c |} = append "Alert." (shown rfc_alerts c).
Proof.
  let l := eval cbv delta [rfc_alerts] in rfc_alerts in by_cases c l.
  unfold shown, rfc_alerts, alert_description_from, alert_name. cbn [find fst a_description].
  repeat match goal with H : c <> ?k |- _ => rewrite (proj2 (N.eqb_neq k c)) by congruence; try rewrite (proj2 (N.eqb_neq c k)) by exact H; clear H end.
  reflexivity.
Qed.

(** Two bytes are an alert; the name shown is that of its code; it is written as the same
    two bytes.  Fewer bytes are an error. *)
Theorem C123_alert l c rest : l < 256 -> c < 256 -> fits (l :: c :: rest) ->
  (exists a, message_from_raw (l :: c :: rest) CtAlert = Ok (MAlert a) /\ message_name (MAlert a) = append "Alert." (shown rfc_alerts c) /\ write_alert a [] = (Ok tt, [l; c])) /\
  (exists e, message_from_raw [l] CtAlert = Err e) /\ (exists e, message_from_raw [] CtAlert = Err e).
Proof.
  intros L C F. split; [|split; eexists; reflexivity].
  assert (R : reads read_alert (be_bytes 1 l ++ be_bytes 1 c) {| a_level := alert_level_from l; a_description := alert_description_from c |}).
  { unfold read_alert. apply reads_bind with (alert_level_from l); [apply reads_map, reads_u8, L|]. rewrite <- (app_nil_r (be_bytes 1 c)).
    apply reads_bind with (alert_description_from c); [apply reads_map, reads_u8, C|apply reads_ret]. }
  rewrite <- !be1_cons in R by assumption. exists {| a_level := alert_level_from l; a_description := alert_description_from c |}.
  split; [|split].
  - unfold message_from_raw. change (new_reader (l :: c :: rest)) with (at_pos [] ([l; c] ++ rest)). cbn [app] in R. rewrite (R [] rest F). reflexivity.
  - cbn [message_name]. apply alert_shown.
  - unfold write_alert, write_alert_level, write_alert_description. cbn [a_level a_description].
    destruct alert_level_codes as (_ & _ & _ & R1 & _). destruct alert_description_codes as (_ & _ & _ & R2 & _). rewrite R1, R2. reflexivity.
Qed.
Print Assumptions C123_alert.

(** A handshake message that is read is shown with the name of its first byte. *)
Theorem C123_handshake t body m : t < 256 -> fits (t :: body) -> message_from_raw (t :: body) CtHandshake = Ok m -> message_name m = append "Handshake." (shown rfc_handshakes t).
Proof.
  intros T F H. unfold message_from_raw in H. unfold read_handshake in H. change (new_reader (t :: body)) with (at_pos [] ([t] ++ body)) in H.
  pose proof (reads_u8 t T) as R. rewrite <- be1_cons in R by exact T. unfold rbind at 1 in H. rewrite (R [] body F) in H.
  revert H. generalize (at_pos ([] ++ [t]) body). intros r H. unfold read_handshake_body in H. unfold rbind at 1 in H. destruct (read_u24 r) as [[len|e|] r']; cbn [fst bind] in H; try discriminate H.
  assert (B : forall A (rd_ : rd A) (f : A -> handshake), (let? h := fst ((do x <- rd_; rret (f x)) r') in Ok (MHandshake h)) = Ok m -> exists x, m = MHandshake (f x)).
  { intros A rd_ f E. unfold rbind in E. destruct (rd_ r') as [[x|e|] r'']; cbn [fst bind rret] in E; try discriminate E. exists x. unfold rret in E. cbn in E. congruence. }
  destruct (N.eqb_spec t 1) as [->|N1]; [apply B in H as (x & ->); reflexivity|].
  destruct (N.eqb_spec t 2) as [->|N2]; [apply B in H as (x & ->); reflexivity|].
  destruct (N.eqb_spec t 5) as [->|N5]; [discriminate H|].
  destruct (N.eqb_spec t 8) as [->|N8]; [apply B in H as (x & ->); reflexivity|].
  destruct (N.eqb_spec t 13) as [->|N13]; [apply B in H as (x & ->); reflexivity|].
  destruct (N.eqb_spec t 11) as [->|N11]; [apply B in H as (x & ->); reflexivity|].
  destruct (N.eqb_spec t 15) as [->|N15]; [apply B in H as (x & ->); reflexivity|].
  destruct (N.eqb_spec t 20) as [->|N20]; [apply B in H as (x & ->); reflexivity|].
  destruct (N.eqb_spec t 4) as [->|N4]; [apply B in H as (x & ->); reflexivity|].
  destruct (N.eqb_spec t 24) as [->|N24]; [discriminate H|].
  apply B in H as (x & ->). unfold shown, rfc_handshakes. cbn [find fst].
  repeat match goal with Q : t <> ?k |- _ => rewrite (proj2 (N.eqb_neq k t)) by congruence; clear Q end. reflexivity.
Qed.
Print Assumptions C123_handshake.

(** A message has the content type of its record. *)
Theorem C123_content_type d ct m : message_from_raw d ct = Ok m -> message_content_type m = ct.
Proof.
  destruct ct as [| | | | |c]; cbn [message_from_raw]; intros H.
  - injection H as <-. reflexivity.
  - injection H as <-. reflexivity.
  - destruct (fst (read_alert (new_reader d))) as [a|e|]; cbn [bind] in H; try discriminate H. injection H as <-. reflexivity.
  - destruct (fst (read_handshake (new_reader d))) as [a|e|]; cbn [bind] in H; try discriminate H. injection H as <-. reflexivity.
  - injection H as <-. reflexivity.
  - injection H as <-. reflexivity.
Qed.
Print Assumptions C123_content_type.

(** Equal names mean messages of the same kind: the same content type, alert and
    handshake type, except that unknown ones all have one name. *)
Definition handshake_kind (h : handshake) : option N :=
  match h with
  | HClientHello _ => Some 1 | HServerHello _ => Some 2 | HEndOfEarlyData => Some 5 | HEncryptedExtensions _ => Some 8 | HCertificateRequest _ => Some 13
  | HCertificate _ => Some 11 | HCertificateVerify _ => Some 15 | HFinished _ => Some 20 | HNewSessionTicket _ => Some 4 | HKeyUpdate => Some 24 | HUnknown _ _ => None
  end.
Definition same_kind (m m' : message) : Prop :=
  match m, m' with
  | MAlert a, MAlert b => a_description a = a_description b \/ (exists c, a_description a = AdUnknown c) /\ (exists c, a_description b = AdUnknown c)
  | MHandshake h, MHandshake h' => handshake_kind h = handshake_kind h'
  | MUnknown _, MUnknown _ => True
  | _, _ => message_content_type m = message_content_type m'
  end.
Theorem C123_names_distinct m m' : message_name m = message_name m' -> same_kind m m'.
Proof.
  assert (P : forall (d : alert_description), exists s, (forall lv, alert_name {| a_level := lv; a_description := d |} = append "Alert." s)) by (intros d; destruct d; eexists; reflexivity).
  assert (Q : forall h, exists s, handshake_name h = append "Handshake." s) by (intros h; destruct h; eexists; reflexivity).
  assert (A : forall lv lv' d d', alert_name {| a_level := lv; a_description := d |} = alert_name {| a_level := lv'; a_description := d' |} ->
    d = d' \/ (exists c, d = AdUnknown c) /\ (exists c, d' = AdUnknown c)).
  { intros lv lv' d d'. unfold alert_name. cbn [a_description]. intros H. destruct d, d'; try discriminate H; first [left; reflexivity|right; split; eexists; reflexivity]. }
  assert (B : forall h h', handshake_name h = handshake_name h' -> handshake_kind h = handshake_kind h') by (intros h h' H; destruct h, h'; try discriminate H; reflexivity).
  intros H. destruct m as [| |[lv d]|h|p|c], m' as [| |[lv' d']|h'|p'|c']; cbn [message_name same_kind message_content_type a_description] in *; try reflexivity; try exact I; try discriminate H;
    first [apply (A lv lv' d d'); exact H|apply B, H|idtac];
    try (destruct (P d) as (s & E); rewrite E in H; clear E); try (destruct (P d') as (s' & E'); rewrite E' in H; clear E');
    try (destruct (Q h) as (s & E); rewrite E in H; clear E); try (destruct (Q h') as (s' & E'); rewrite E' in H; clear E'); discriminate H.
Qed.
Print Assumptions C123_names_distinct.

(** *** Errors *)
(** The errors of the binary reader with numbers in them are told apart by their texts. *)
Definition located (e : berr) : bool := match e with BUnexpectedEOF _ _ | BSizeOverflow _ _ | BExpectedEOF _ _ | BNothingConsumed _ | BValueTooLarge => true | _ => false end.
Theorem C123_binary_error utf8 other e e' : located e = true -> located e' = true -> binary_error_text utf8 other e = binary_error_text utf8 other e' -> e = e'.
Proof.
  intros L L' H. destruct e as [s|s| | |o n|o n|o n|o|], e' as [s'|s'| | |o' n'|o' n'|o' n'|o'|]; try discriminate L; try discriminate L'; try discriminate H; try reflexivity; cbn [binary_error_text] in H; apply app_inv_head in H.
  - change (ascii_bytes "; expected ") with (59 :: ascii_bytes " expected ") in H. cbn [app] in H. apply split_at in H; [|apply decimal_free; right; discriminate..]. destruct H as (H1 & H2). apply app_inv_head in H2. apply app_inv_tail in H2.
    apply decimal_inj in H1, H2. f_equal; [lia|exact H2].
  - change (ascii_bytes "; requested ") with (59 :: ascii_bytes " requested ") in H. cbn [app] in H. apply split_at in H; [|apply decimal_free; right; discriminate..]. destruct H as (H1 & H2). apply app_inv_head in H2. apply app_inv_tail in H2.
    apply decimal_inj in H1, H2. f_equal; [lia|exact H2].
  - change (ascii_bytes " bytes at offset ") with (32 :: ascii_bytes "bytes at offset ") in H. cbn [app] in H. apply split_at in H; [|apply decimal_free; left; reflexivity..]. destruct H as (H1 & H2). apply app_inv_head in H2.
    apply decimal_inj in H1, H2. f_equal; lia.
  - apply decimal_inj in H. f_equal. lia.
Qed.
Print Assumptions C123_binary_error.

(** Every accessor of an ASN.1 item returns the value when it has the type, and else an
    error of that type with the item's own place. *)
Definition place (e : type_error) : nat * nat :=
  match e with TSequence s f | TExactSequence s f _ _ | TSet s f | TExactSet s f _ _ | TOid s f | TBitString s f | TOctetString s f | TInteger s f | TString s f | TBoolean s f => (s, f) end.
Definition accessor {A} (acc : item -> outcome type_error A) (val : value -> option A) (err : nat -> nat -> type_error) : Prop :=
  forall i, match val (item_value i) with Some a => acc i = Ok a | None => acc i = Err (err (item_start i) (item_stop i)) end.
Theorem C123_accessors :
  accessor acc_sequence (fun v => match v with VSequence l => Some l | _ => None end) TSequence /\
  accessor acc_set (fun v => match v with VSet l => Some l | _ => None end) TSet /\
  accessor acc_oid (fun v => match v with VOid l => Some l | _ => None end) TOid /\
  accessor acc_bit_string (fun v => match v with VBitString u d => Some (u, d) | _ => None end) TBitString /\
  accessor acc_octet_string (fun v => match v with VOctetString d => Some d | _ => None end) TOctetString /\
  accessor acc_integer (fun v => match v with VInteger d => Some d | _ => None end) TInteger /\
  accessor acc_string (fun v => match v with VPrintableString d | VUtf8String d => Some d | _ => None end) TString /\
  accessor acc_boolean (fun v => match v with VBoolean b => Some b | _ => None end) TBoolean /\
  (forall n i l, acc_exact_sequence n i = Ok l <-> item_value i = VSequence l /\ List.length l = n) /\
  (forall n i l, acc_exact_set n i = Ok l <-> item_value i = VSet l /\ List.length l = n) /\
  (forall n i e, acc_exact_sequence n i = Err e -> place e = (item_start i, item_stop i)) /\
  (forall n i e, acc_exact_set n i = Err e -> place e = (item_start i, item_stop i)).
Proof.
  repeat match goal with |- accessor _ _ _ /\ _ => split; [intros [s f v]; destruct v; reflexivity|] end.
  split; [|split; [|split]]; intros n [s f v]; unfold acc_exact_sequence, acc_exact_set, acc_sequence, acc_set; cbn [item_value item_start item_stop].
  - intros l. destruct v as [| | | | | | | | | |m|m| | | |]; cbn [bind]; try (split; [discriminate|intros (X & _); discriminate X]). destruct (Nat.eqb_spec (List.length m) n) as [E|E]; split; intros H.
    + injection H as <-. auto.
    + destruct H as (H & _). injection H as ->. reflexivity.
    + discriminate H.
    + destruct H as (H & K). injection H as ->. contradiction.
  - intros l. destruct v as [| | | | | | | | | |m|m| | | |]; cbn [bind]; try (split; [discriminate|intros (X & _); discriminate X]). destruct (Nat.eqb_spec (List.length m) n) as [E|E]; split; intros H.
    + injection H as <-. auto.
    + destruct H as (H & _). injection H as ->. reflexivity.
    + discriminate H.
    + destruct H as (H & K). injection H as ->. contradiction.
  - intros e H. destruct v as [| | | | | | | | | |m|m| | | |]; cbn [bind] in H; try (injection H as <-; reflexivity). destruct (Nat.eqb (List.length m) n); [discriminate H|injection H as <-; reflexivity].
  - intros e H. destruct v as [| | | | | | | | | |m|m| | | |]; cbn [bind] in H; try (injection H as <-; reflexivity). destruct (Nat.eqb (List.length m) n); [discriminate H|injection H as <-; reflexivity].
Qed.
Print Assumptions C123_accessors.
Lemma range_inj a b c d : range_text a b = range_text c d -> a = c /\ b = d.
Proof.
  unfold range_text. cbn [app]. intros H. apply split_at in H; [|apply decimal_free; left; reflexivity..]. destruct H as (H1 & H2). injection H2 as H2. apply decimal_inj in H1, H2. lia.
Qed.
(** The text of such an error determines it. *)
Theorem C123_type_error e e' : type_error_text e = type_error_text e' -> e = e'.
Proof.
  intros H. destruct e as [s f|s f x a|s f|s f x a|s f|s f|s f|s f|s f|s f], e' as [s' f'|s' f' x' a'|s' f'|s' f' x' a'|s' f'|s' f'|s' f'|s' f'|s' f'|s' f']; try discriminate H; cbn [type_error_text] in H; apply app_inv_head in H;
    try (apply range_inj in H as (-> & ->); reflexivity);
    (change (ascii_bytes " items, got ") with (32 :: ascii_bytes "items, got ") in H; cbn [app] in H; apply split_at in H; [|apply decimal_free; left; reflexivity..]; destruct H as (H1 & H); apply app_inv_head in H;
     change (ascii_bytes " at ") with (32 :: ascii_bytes "at ") in H; cbn [app] in H; apply split_at in H; [|apply decimal_free; left; reflexivity..]; destruct H as (H2 & H); apply app_inv_head in H;
     apply range_inj in H as (-> & ->); apply decimal_inj in H1, H2; f_equal; lia).
Qed.
Print Assumptions C123_type_error.
(** So are those of varints, CIDs and directories (apart from what other libraries say). *)
Definition own_text (e : fs_error) : bool := match e with DOther _ => false | _ => true end.
Theorem C123_other_errors debug other :
  (forall e e', varint_error_text e = varint_error_text e' -> e = e') /\ (forall e e', cid_error_text e = cid_error_text e' -> e = e') /\
  ((forall s t, debug s = debug t -> s = t) -> forall e e', own_text e = true -> own_text e' = true -> fs_error_text debug other e = fs_error_text debug other e' -> e = e').
Proof.
  split; [intros e e'; destruct e, e'; try reflexivity; discriminate|]. split; [intros e e'; destruct e, e'; try reflexivity; discriminate|].
  intros D e e' O O' H. destruct e as [|i|i|n| |x|op], e' as [|i'|i'|n'| |x'|op']; try discriminate O; try discriminate O'; try reflexivity; try discriminate H; cbn [fs_error_text] in H.
  - apply app_inv_head in H. apply app_inv_tail in H. apply decimal_inj in H. f_equal. lia.
  - exfalso. apply app_inv_head in H. change (ascii_bytes " has no filename") with (32 :: ascii_bytes "has no filename") in H. change (ascii_bytes " has no size") with (32 :: ascii_bytes "has no size") in H.
    apply split_at in H; [|apply decimal_free; left; reflexivity..]. destruct H as (_ & H). discriminate H.
  - exfalso. apply app_inv_head in H. change (ascii_bytes " has no filename") with (32 :: ascii_bytes "has no filename") in H. change (ascii_bytes " has no size") with (32 :: ascii_bytes "has no size") in H.
    apply split_at in H; [|apply decimal_free; left; reflexivity..]. destruct H as (_ & H). discriminate H.
  - apply app_inv_head in H. apply app_inv_tail in H. apply decimal_inj in H. f_equal. lia.
  - apply app_inv_head in H. apply D in H. congruence.
  - apply app_inv_head in H. f_equal. revert op' O' H. clear. induction op as [|c op IH]; intros [|c' op'] O' H; try discriminate H; [reflexivity|].
    cbn [ascii_bytes] in H. injection H as H1 H2. rewrite (IH op' eq_refl H2). f_equal. apply (f_equal Ascii.ascii_of_N) in H1. rewrite !Ascii.ascii_N_embedding in H1. exact H1.
Qed.
Print Assumptions C123_other_errors.

Example C123_case :
  message_from_raw [2; 40] CtAlert = Ok (MAlert {| a_level := AlFatal; a_description := AdHandshakeFailure |}) /\
  message_name (MAlert {| a_level := AlFatal; a_description := AdHandshakeFailure |}) = "Alert.HandshakeFailure" /\
  option_map message_name (match message_from_raw [20; 0; 0; 2; 7; 7] CtHandshake with Ok m => Some m | _ => None end) = Some "Handshake.Finished" /\
  type_error_text (TExactSequence 4 17 3 2) = ascii_bytes "Expected a sequence of 3 items, got 2 at 4..17" /\
  binary_error_text [] [] (BUnexpectedEOF 3 8) = ascii_bytes "Unexpcted EOF at offset 3; expected 8 bytes".
Proof. repeat split; vm_compute; reflexivity. Qed.
