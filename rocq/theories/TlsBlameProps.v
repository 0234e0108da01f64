(** C142: what a failed TLS connection tells.  An error about an unexpected message carries the
    name of that very message, the texts of the errors tell them apart, and nothing else
    changes: the results are those of TlsClientModel.v. *)
From Coq Require Import String Ascii.
From Verif Require Import Base BaseProofs MplexModel BinaryModel Asn1Model X509Model TlsCodesModel TlsTypesModel TlsRecordModel TlsClientModel
  TlsRecordSpec TlsClientSpec TlsClientProps ChatModel NamesModel DebugModel X509ErrorProps2 Asn1PrintProps TlsBlameModel TlsBlameProofs.
Local Open Scope string_scope. Local Open Scope list_scope. Local Open Scope N_scope.

(** Told or not, the handshake ends in the same way. *)
Theorem C142_same_handshake P s polls :
  option_map (map_err erase) (establish_full P s polls) = fst (fst (handshake_run P (erase_state s) polls)).
Proof.
  revert s. induction polls as [|[answers w] polls IH]; intros s; [reflexivity|]. cbn [establish_full handshake_run].
  unfold establish_poll_full, establish_poll. rewrite <- (ec_erase 7 P s answers w).
  destruct (ec_poll_full 7 P s answers w) as [[[[x s'] a'] w'] sent]. destruct x as [|x]; [|reflexivity].
  destruct s' as [s'|]; [|reflexivity]. cbn [option_map erase_poll]. rewrite IH. destruct (handshake_run P (erase_state s') polls) as [[r rx] tx]. reflexivity.
Qed.
Print Assumptions C142_same_handshake.

(** So do the reads; and the name is kept with an unexpected message and no other error. *)
Lemma fill_kept fuel : forall P c answers, cn_read c = RActive -> quiet (ps_receiver (cn_plain c)) ->
  let '(x, c', kept, _) := fill_full fuel P c answers in kept_ok c' kept /\ quiet (ps_receiver (cn_plain c')) /\ x <> Done (Err (FOther TUnexpectedMessage)).
Proof.
  induction fuel as [|fuel IH]; intros P c answers R Q; cbn [fill_full].
  { split; [|split; [exact Q|discriminate]]. cbn [kept_ok]. rewrite R. discriminate. }
  pose proof (recv_quiet (ps_receiver (cn_plain c)) answers Q) as H. unfold poll_recv in *.
  assert (K : forall d, kept_ok (with_receiver c d) None) by (intros d; cbn; rewrite R; discriminate).
  destruct answers as [|[|[|b d]|e] l]; try (split; [apply K|split; [exact Q|discriminate]]).
  - destruct H as [_ H]. pose proof (encrypted_quiet P (close (ps_receiver (cn_plain c))) (se_server (cn_seq (with_receiver c (close (ps_receiver (cn_plain c)))))) (se_enc (cn_seq (with_receiver c (close (ps_receiver (cn_plain c)))))) None H) as F.
    destruct (receive_encrypted_message P (close (ps_receiver (cn_plain c))) _ _ None) as [[[x r2] n] ts]. destruct F as [F1 F2].
    assert (K2 : kept_ok (with_server_seq (with_receiver (with_receiver c (close (ps_receiver (cn_plain c)))) r2) n) None) by (cbn; rewrite R; discriminate).
    destruct x as [|[[m|]|e|]]; try (split; [exact K2|split; [exact F2|first [discriminate|intros [=->]; apply F1; reflexivity]]]).
    + destruct m as [| |al|h|d|k]; try (split; [reflexivity|split; [exact F2|discriminate]]).
      * destruct (a_description al); (split; [discriminate|split; [exact F2|discriminate]]).
      * destruct h; try (split; [reflexivity|split; [exact F2|discriminate]]). apply IH; [exact R|exact F2].
      * split; [exact K2|split; [exact F2|discriminate]].
    + split; [discriminate|split; [exact F2|discriminate]].
  - destruct H as [_ H]. pose proof (encrypted_quiet P (append_data (ps_receiver (cn_plain c)) (b :: d)) (se_server (cn_seq (with_receiver c (append_data (ps_receiver (cn_plain c)) (b :: d))))) (se_enc (cn_seq (with_receiver c (append_data (ps_receiver (cn_plain c)) (b :: d))))) None H) as F.
    destruct (receive_encrypted_message P (append_data (ps_receiver (cn_plain c)) (b :: d)) _ _ None) as [[[x r2] n] ts]. destruct F as [F1 F2].
    assert (K2 : kept_ok (with_server_seq (with_receiver (with_receiver c (append_data (ps_receiver (cn_plain c)) (b :: d))) r2) n) None) by (cbn; rewrite R; discriminate).
    destruct x as [|[[m|]|e|]]; try (split; [exact K2|split; [exact F2|first [discriminate|intros [=->]; apply F1; reflexivity]]]).
    + destruct m as [| |al|h|d'|k]; try (split; [reflexivity|split; [exact F2|discriminate]]).
      * destruct (a_description al); (split; [discriminate|split; [exact F2|discriminate]]).
      * destruct h; try (split; [reflexivity|split; [exact F2|discriminate]]). apply IH; [exact R|exact F2].
      * split; [exact K2|split; [exact F2|discriminate]].
    + split; [discriminate|split; [exact F2|discriminate]].
  - split; [discriminate|]. split; [|discriminate]. exact (proj2 H).
Qed.
(** The states of a connection that can be met, with the name kept. *)
Definition met (c : connection) (kept : option string) : Prop := kept_ok c kept /\ quiet (ps_receiver (cn_plain c)).
Theorem C142_same_reads :
  (forall p se, quiet (ps_receiver p) -> met (connection_new p se) None) /\
  forall P c kept room answers, met c kept ->
    let '(x, c', kept', a) := read_full P c kept room answers in
    (erase_poll x, c', a) = conn_read P c room answers /\ met c' kept' /\ x <> Done (Err (FOther TUnexpectedMessage)).
Proof.
  split; [intros p se Q; split; [discriminate|exact Q]|]. intros P c kept room answers [K Q].
  pose proof (read_erase P c kept room answers K) as E. unfold read_full in *. destruct (cn_read c) as [| |e] eqn:R.
  - destruct (cn_in c) as [|b d] eqn:I.
    + pose proof (fill_kept (S (length answers)) P c answers R Q) as F. destruct (fill_full (S (length answers)) P c answers) as [[[x c'] k] a].
      destruct F as (F1 & F2 & F3). destruct x as [|[[]|x|]]; (split; [exact E|]); (split; [split; [exact F1|exact F2]|]); try discriminate.
      intros [=->]. apply F3. reflexivity.
    + split; [exact E|]. split; [|discriminate]. split; [|exact Q]. cbn. rewrite R. discriminate.
  - split; [exact E|]. split; [|discriminate]. split; [exact K|exact Q].
  - split; [exact E|]. split; [split; [exact K|exact Q]|]. destruct kept as [name|]; [discriminate|]. cbn [kept_ok] in K. rewrite R in K. congruence.
Qed.
Print Assumptions C142_same_reads.
(** A read that failed because of a message or an alert fails in the same way ever after. *)
Theorem C142_for_ever P c kept room answers c' kept' a e : met c kept ->
  read_full P c kept room answers = (Done (Err e), c', kept', a) -> (exists n, e = FUnexpected n) \/ (exists al, e = FOther (TUnexpectedAlert al) /\ cn_read c' <> RActive) ->
  forall room' answers', read_full P c' kept' room' answers' = (Done (Err e), c', kept', answers').
Proof.
  intros M H C room' answers'.
  assert (X : forall fuel c answers x c' kept' a, cn_read c = RActive -> fill_full fuel P c answers = (x, c', kept', a) ->
    (forall n, x = Done (Err (FUnexpected n)) -> cn_read c' = RError TUnexpectedMessage /\ kept' = Some n) /\
    (forall al, x = Done (Err (FOther (TUnexpectedAlert al))) -> cn_read c' <> RActive -> cn_read c' = RError (TUnexpectedAlert al) /\ kept' = None)).
  { clear. induction fuel as [|fuel IH]; intros c answers x c' kept' a R H; cbn [fill_full] in H.
    { injection H as <- <- <- <-. split; discriminate. }
    destruct (poll_recv (ps_receiver (cn_plain c)) answers) as [[y r] a1] eqn:PR.
    destruct y as [|[[]|e|]]; try (injection H as <- <- <- <-; split; discriminate).
    2:{ injection H as <- <- <- <-. split; [discriminate|]. intros al [=->] _. split; reflexivity. }
    destruct (receive_encrypted_message P r _ _ None) as [[[y r2] n] ts].
    destruct y as [|[[m|]|e|]]; try (injection H as <- <- <- <-; split; discriminate).
    2:{ injection H as <- <- <- <-. split; [discriminate|]. intros al [=->] N. cbn in N. congruence. }
    destruct m as [| |al|h|d|k]; try (injection H as <- <- <- <-; split; [intros n0 [=<-]; split; reflexivity|discriminate]); try (injection H as <- <- <- <-; split; discriminate).
    - destruct (a_description al); injection H as <- <- <- <-; (split; [discriminate|]); try discriminate; intros al' [=<-] _; split; reflexivity.
    - destruct h; try (injection H as <- <- <- <-; split; [intros n0 [=<-]; split; reflexivity|discriminate]). apply IH in H; [exact H|exact R]. }
  destruct M as [K _]. unfold read_full in H. destruct (cn_read c) as [| |e0] eqn:R.
  - destruct (cn_in c) eqn:I; [|discriminate H]. destruct (fill_full (S (length answers)) P c answers) as [[[x c1] k1] a1] eqn:F.
    destruct (X _ _ _ _ _ _ _ R F) as [X1 X2]. destruct x as [|[[]|x|]]; try discriminate H. injection H as <- <- <- <-. unfold read_full. destruct C as [[n ->]|(al & -> & N)].
    + destruct (X1 n eq_refl) as [-> ->]. reflexivity.
    + destruct (X2 al eq_refl N) as [-> ->]. reflexivity.
  - discriminate H.
  - injection H as <- <- <- <-. unfold read_full. rewrite R. reflexivity.
Qed.
Print Assumptions C142_for_ever.

(** *** The name is that of the message *)
(** Messages of the server taken one after the other: what was decrypted was acceptable. *)
Inductive took (P : primitives) : record_receiver * sequence_encryption * transcript * client_state -> list handshake ->
  record_receiver * sequence_encryption * transcript * client_state -> Prop :=
| took_none x : took P x [] x
| took_one r se t s h r' n t' s' l y :
    receive_encrypted_message P r (se_server se) (se_enc se) (Some t) = (Done (Ok (Some (MHandshake h))), r', n, Some t') ->
    on_handshake s (get_hash P t) h = Ok s' ->
    took P (r', {| se_client := se_client se; se_server := n; se_enc := se_enc se |}, t', s') l y -> took P (r, se, t, s) (h :: l) y.
(** A message that must not come now (the order is that of C58). *)
Definition untimely (s : client_state) (m : message) : Prop :=
  match m with MHandshake h => forall n, rank h = Some n -> ~ ((st_last s < n)%nat /\ (st_last s = 0%nat -> n = 1%nat)) | _ => True end.
Theorem C142_names_the_message fuel P r se t s n r' se' t' s' : receive_full fuel P r se t s = (Done (Err (FUnexpected n)), r', se', t', s') ->
  exists l r1 se1 t1 m k ts, took P (r, se, t, s) l (r1, se1, t1, s') /\
    receive_encrypted_message P r1 (se_server se1) (se_enc se1) (Some t1) = (Done (Ok (Some m)), r', k, ts) /\ untimely s' m /\ n = message_name m.
Proof.
  revert r se t s. induction fuel as [|fuel IH]; intros r se t s H; [destruct s; discriminate H|].
  assert (F : forall x k ts rr, receive_encrypted_message P r (se_server se) (se_enc se) (Some t) = (Done (Ok (Some x)), rr, k, ts) -> exists t2, ts = Some t2).
  { intros x k ts rr E. unfold receive_encrypted_message in E. destruct (receive_record_ignore_cc r) as [[|[[y|]|e|]] r2]; try discriminate E.
    match type of E with match ?b with Ok _ => _ | Err _ => _ | Panic => _ end = _ => destruct b as [[[mm raw] q]|e|] end; try discriminate E.
    injection E as <- <- <- <-. eexists. reflexivity. }
  assert (G : (let hash := get_hash P t in
      let '(x, r', n, ts) := receive_encrypted_message P r (se_server se) (se_enc se) (Some t) in
      let se' := {| se_client := se_client se; se_server := n; se_enc := se_enc se |} in
      let t' := match ts with Some t' => t' | None => t end in
      match x with
      | Wait => (Wait, r', se', t', s)
      | Done (Err e) => (Done (Err (FOther e)), r', se', t', s)
      | Done Panic => (Done Panic, r', se', t', s)
      | Done (Ok None) => (Done (Err (FOther TUnexpectedEOF)), r', se', t', s)
      | Done (Ok (Some (MHandshake h))) =>
        match on_handshake_full s hash h with
        | Ok s' => receive_full fuel P r' se' t' s'
        | Err e => (Done (Err e), r', se', t', s)
        | Panic => (Done Panic, r', se', t', s)
        end
      | Done (Ok (Some m)) => (Done (Err (FUnexpected (message_name m))), r', se', t', s)
      end) = (Done (Err (FUnexpected n)), r', se', t', s')).
  { destruct s; try exact H. discriminate H. }
  clear H. cbv zeta in G. destruct (receive_encrypted_message P r (se_server se) (se_enc se) (Some t)) as [[[x rr] k] ts] eqn:E.
  destruct x as [|[[m|]|e|]]; try discriminate G. destruct (F _ _ _ _ eq_refl) as [t2 ->].
  assert (D : forall m, (Done (Err (FUnexpected (message_name m))), rr, {| se_client := se_client se; se_server := k; se_enc := se_enc se |}, t2, s) = (Done (Err (FUnexpected n)) : poll (full server_messages), r', se', t', s') ->
    untimely s m -> receive_encrypted_message P r (se_server se) (se_enc se) (Some t) = (Done (Ok (Some m)), rr, k, Some t2) -> exists l r1 se1 t1 m k ts, took P (r, se, t, s) l (r1, se1, t1, s') /\
    receive_encrypted_message P r1 (se_server se1) (se_enc se1) (Some t1) = (Done (Ok (Some m)), r', k, ts) /\ untimely s' m /\ n = message_name m).
  { intros m0 [=<- <- <- <- <-] U Z. exists [], r, se, t, m0, k, (Some t2). split; [constructor|]. split; [exact Z|]. split; [exact U|reflexivity]. }
  destruct m as [| |a|h|d|c]; try (apply (D _ G); [exact Logic.I|exact E]).
  pose proof (on_handshake_order s (get_hash P t) h) as O. pose proof (on_handshake_erase s (get_hash P t) h) as Z. pose proof (on_handshake_name s (get_hash P t) h) as N.
  destruct (on_handshake_full s (get_hash P t) h) as [s2|e|]; cbn [map_err] in Z.
  - destruct (IH _ _ _ _ G) as (l & r1 & se1 & t1 & m & k1 & ts1 & T & R & U & Q). exists (h :: l), r1, se1, t1, m, k1, ts1.
    split; [|split; [exact R|split; [exact U|exact Q]]]. eapply took_one; [exact E| |exact T]. symmetry. exact Z.
  - rewrite (N _ eq_refl) in G. apply (D (MHandshake h) G); [|exact E]. cbn [untimely]. rewrite <- Z in O. exact (proj2 O).
  - discriminate G.
Qed.
Print Assumptions C142_names_the_message.
(** Before the server's hello: any other message is named. *)
Theorem C142_names_instead_of_hello P cfg private ts p w m r ts' : receive_plaintext_message (ps_receiver p) ts = (Done (Ok (Some m)), r, ts') ->
  (forall h, m <> MHandshake (HServerHello h)) ->
  poll_step_full P (EHelloSent cfg private ts p) w = (true, FFailed (FUnexpected (message_name m)), w, []).
Proof.
  intros H N. cbn [poll_step_full]. rewrite H. destruct m as [| |a|[]|d|c]; try reflexivity. contradiction (N h eq_refl).
Qed.
Print Assumptions C142_names_instead_of_hello.
(** During the handshake an alert is an unexpected message too: its description is named. *)
Theorem C142_alerts_are_named P cfg p se t prk st w a r k ts : (forall ee cr c cv fin, st <> StFinished ee cr c cv fin) ->
  receive_encrypted_message P (ps_receiver p) (se_server se) (se_enc se) (Some t) = (Done (Ok (Some (MAlert a))), r, k, ts) ->
  poll_step_full P (EHelloReceived cfg p se t prk st) w = (true, FFailed (FUnexpected (alert_name a)), w, []).
Proof.
  intros N H. cbn [poll_step_full receive_full]. destruct st; try (rewrite H; reflexivity). contradiction (N ee cr c cv fin eq_refl).
Qed.
Print Assumptions C142_alerts_are_named.
(** Over the whole handshake: no error about a message is without a name. *)
Theorem C142_always_named P random session private cfg protocols polls e : signs_quietly P ->
  establish_full P (FState (establish P random session private cfg protocols)) polls = Some (Err e) -> e <> FOther TUnexpectedMessage.
Proof.
  intros G. apply establish_named; [exact G|]. unfold establish.
  match goal with |- context [encode_handshake ?h] => pose proof (sound_encode h) as K; destruct (encode_handshake h) as [d|x|] end; cbn [ec_try].
  - split; discriminate.
  - split; [|exact Logic.I]. unfold sound in K. unfold still. congruence.
  - split; [discriminate|exact Logic.I].
Qed.
Print Assumptions C142_always_named.

(** *** The texts *)
Definition outer (e : full_error) : string := match e with FUnexpected _ => "UnexpectedMessage" | FOther e => variant e end.
Definition inner (kd : ioerr -> bytes) (rj : bytes) (e : full_error) : option bytes :=
  match e with
  | FUnexpected n => Some ([34] ++ ascii_bytes n ++ [34])
  | FOther (TUnexpectedAlert a) => Some (DebugModel.plain (alert_debug a))
  | FOther (TInternal c) => Some (ascii_bytes (crypt_error_name c))
  | FOther TRsaKeyRejected => Some rj
  | FOther (TIo k) => Some (kd k)
  | _ => None
  end.
Definition in_brackets (x : option bytes) : bytes := match x with Some t => 40 :: t ++ [41] | None => [] end.
(** The name of the variant, and in brackets what it carries. *)
Theorem C142_text kd rj e : error_text kd rj e = ascii_bytes (outer e) ++ in_brackets (inner kd rj e).
Proof. destruct e as [n|[]]; try reflexivity; unfold error_text, error_debug; cbn [DebugModel.plain dtuple map commas]; try reflexivity. Qed.
Print Assumptions C142_text.
Lemma outer_free e : ~ In 40 (ascii_bytes (outer e)).
Proof.
  assert (H : forallb (fun c => negb (c =? 40)) (ascii_bytes (outer e)) = true) by (destruct e as [n|[]]; reflexivity).
  intros X. rewrite forallb_forall in H. apply H in X. discriminate X.
Qed.
Lemma brackets_split a b x y : ~ In 40 a -> ~ In 40 b -> a ++ in_brackets x = b ++ in_brackets y -> a = b /\ x = y.
Proof.
  intros A B E. destruct x as [x|], y as [y|]; cbn [in_brackets] in E; rewrite ?app_nil_r in E.
  - apply split_at in E; [|assumption|assumption]. destruct E as [-> E]. apply app_inj_tail in E. destruct E as [-> _]. split; reflexivity.
  - exfalso. apply B. rewrite <- E. apply in_or_app. right. left. reflexivity.
  - exfalso. apply A. rewrite E. apply in_or_app. right. left. reflexivity.
  - split; [exact E|reflexivity].
Qed.
Lemma level_inj l l' : DebugModel.plain (alert_level_debug l) = DebugModel.plain (alert_level_debug l') -> l = l'.
Proof.
  destruct l as [| |n], l' as [| |n']; try reflexivity; try discriminate. cbn. intros [=H]. apply app_inj_tail in H. destruct H as [H _]. apply decimal_inj in H. rewrite H. reflexivity.
Qed.
Lemma description_inj d d' : DebugModel.plain (description_debug d) = DebugModel.plain (description_debug d') -> d = d'.
Proof.
  intros H. assert (C : forall d, DebugModel.plain (description_debug d) = ascii_bytes (description_name d) ++ in_brackets (match d with AdUnknown n => Some (decimal n) | _ => None end)).
  { intros x. destruct x; reflexivity. }
  assert (F : forall d, ~ In 40 (ascii_bytes (description_name d))).
  { intros x. assert (G : forallb (fun c => negb (c =? 40)) (ascii_bytes (description_name x)) = true) by (destruct x; reflexivity).
    intros X. rewrite forallb_forall in G. apply G in X. discriminate X. }
  rewrite !C in H. apply brackets_split in H; [|apply F|apply F]. destruct H as [H1 H2]. apply ascii_inj in H1.
  destruct d; destruct d'; try discriminate H1; try reflexivity. injection H2 as H2. apply decimal_inj in H2. rewrite H2. reflexivity.
Qed.
Lemma alert_inj a a' : DebugModel.plain (alert_debug a) = DebugModel.plain (alert_debug a') -> a = a'.
Proof.
  destruct a as [l d], a' as [l' d']. intros H.
  assert (C : forall l d, DebugModel.plain (alert_debug {| a_level := l; a_description := d |}) =
    (ascii_bytes "Alert { level: " ++ DebugModel.plain (alert_level_debug l)) ++ 44 :: (ascii_bytes " description: " ++ DebugModel.plain (description_debug d)) ++ ascii_bytes " }").
  { intros x y. unfold alert_debug. cbn [DebugModel.plain dstruct map commas fst snd a_level a_description]. rewrite <- ?app_assoc. reflexivity. }
  assert (F : forall l, ~ In 44 (ascii_bytes "Alert { level: " ++ DebugModel.plain (alert_level_debug l))).
  { intros x X. apply in_app_or in X. destruct X as [X|X]; [cbn in X; intuition discriminate|]. destruct x as [| |n]; [cbn in X; intuition discriminate|cbn in X; intuition discriminate|].
    change (In 44 (ascii_bytes "Unknown(" ++ decimal n ++ [41])) in X. apply in_app_or in X. destruct X as [X|X]; [cbn in X; intuition discriminate|].
    apply in_app_or in X. destruct X as [X|X]; [|cbn in X; intuition discriminate]. revert X. apply decimal_free. left. reflexivity. }
  rewrite !C in H. apply split_at in H; [|apply F|apply F]. destruct H as [H1 H2]. apply app_inv_head in H1. apply app_inv_tail in H2. apply app_inv_head in H2.
  apply level_inj in H1. apply description_inj in H2. rewrite H1, H2. reflexivity.
Qed.
(** The text tells the error; what ring says about a key is not modelled (one text for all). *)
Theorem C142_text_determines kd rj e e' : (forall k k', kd k = kd k' -> k = k') -> error_text kd rj e = error_text kd rj e' -> e = e'.
Proof.
  intros K H. rewrite !C142_text in H. apply brackets_split in H; [|apply outer_free|apply outer_free]. destruct H as [H1 H2]. apply ascii_inj in H1.
  destruct e as [n|e], e' as [n'|e']; cbn [outer] in H1.
  - injection H2 as H2. apply app_inj_tail in H2. destruct H2 as [H2 _]. apply ascii_inj in H2. rewrite H2. reflexivity.
  - destruct e'; try discriminate H1. discriminate H2.
  - destruct e; try discriminate H1. discriminate H2.
  - destruct e; destruct e'; try discriminate H1; try reflexivity; cbn [inner] in H2.
    + apply (f_equal (fun x => match x with Some t => t | None => [] end)) in H2. apply alert_inj in H2. rewrite H2. reflexivity.
    + destruct e, e0; try discriminate H2; reflexivity.
    + injection H2 as H2. rewrite (K _ _ H2). reflexivity.
Qed.
Print Assumptions C142_text_determines.
(** Turned into an [io::Error] everything is still told, but for a connection that ended early:
    that is the same whether TLS or the transport says so. *)
Theorem C142_io_text_partial kd kt rj e e' : (forall k k', kd k = kd k' -> k = k') -> (forall k k', kt k = kt k' -> k = k') -> (forall k e, kt k <> error_text kd rj e) ->
  io_text kd kt rj e = io_text kd kt rj e' ->
  e = e' \/ (e = FOther TUnexpectedEOF /\ e' = FOther (TIo UnexpectedEof)) \/ (e' = FOther TUnexpectedEOF /\ e = FOther (TIo UnexpectedEof)).
Proof.
  intros K T A H.
  assert (C : forall e, (exists k, e = FOther (TIo k) /\ io_text kd kt rj e = kt k) \/ (e = FOther TUnexpectedEOF /\ io_text kd kt rj e = kt UnexpectedEof) \/ io_text kd kt rj e = error_text kd rj e).
  { intros x. destruct x as [n|[]]; try (right; right; reflexivity); [right; left; split; reflexivity|left; eexists; split; reflexivity]. }
  destruct (C e) as [(k & E1 & E2)|[[E1 E2]|E2]], (C e') as [(k' & F1 & F2)|[[F1 F2]|F2]]; rewrite E2, F2 in H.
  - left. apply T in H. congruence.
  - right. right. apply T in H. subst k. split; assumption.
  - contradiction (A _ _ H).
  - right. left. apply T in H. subst k'. split; assumption.
  - left. congruence.
  - contradiction (A _ _ H).
  - contradiction (A _ _ (eq_sym H)).
  - contradiction (A _ _ (eq_sym H)).
  - left. exact (C142_text_determines _ _ _ _ K H).
Qed.
Print Assumptions C142_io_text_partial.
Theorem C142_io_text_refuted kd kt rj : io_text kd kt rj (FOther TUnexpectedEOF) = io_text kd kt rj (FOther (TIo UnexpectedEof)).
Proof. reflexivity. Qed.
Print Assumptions C142_io_text_refuted.
(** During the handshake the level of an alert and the code of an unknown one are not told. *)
Theorem C142_alert_told_refuted a l n m : message_name (MAlert {| a_level := a; a_description := AdUnknown n |}) = message_name (MAlert {| a_level := l; a_description := AdUnknown m |}).
Proof. reflexivity. Qed.
Print Assumptions C142_alert_told_refuted.
(** The text of a connection being made tells how far it is. *)
Definition stage (s : ec_state) : option nat :=
  match s with
  | EBegin _ _ _ _ => Some 0%nat | EHelloSent _ _ _ _ => Some 1%nat
  | EHelloReceived _ _ _ _ _ st =>
    Some match st with StServerHello => 2%nat | StExtensions _ => 3%nat | StRequest _ _ => 4%nat | StCertificate _ _ _ => 5%nat | StVerify _ _ _ _ => 6%nat | StFinished _ _ _ _ _ => 7%nat end
  | EMessagesReceived _ _ _ => Some 8%nat | EDone _ => Some 9%nat | EError _ => Some 10%nat | EPanic => None
  end.
Theorem C142_stage_text s s' : ec_state_text s = ec_state_text s' <-> stage s = stage s'.
Proof.
  destruct s as [| |? ? ? ? ? []| | | |]; destruct s' as [| |? ? ? ? ? []| | | |]; (split; [|]); intros H; try reflexivity; try discriminate H; vm_compute in H; discriminate H.
Qed.
Print Assumptions C142_stage_text.

(** A server that sends its signature before its certificate. *)
Example C142_example : establish_full toy (FState (toy_start SaSelfSigned)) (toy_polls (toy_flight [toy_m1; toy_m3; toy_m2; toy_m4 toy_finished])) =
    Some (Err (FUnexpected "Handshake.Certificate")) /\
  error_text (fun _ => []) [] (FUnexpected "Handshake.CertificateVerify") = ascii_bytes "UnexpectedMessage(""Handshake.CertificateVerify"")" /\
  error_text (fun _ => []) [] (FOther (TUnexpectedAlert {| a_level := AlFatal; a_description := AdUnknown 7 |})) =
    ascii_bytes "UnexpectedAlert(Alert { level: Fatal, description: Unknown(7) })".
Proof. vm_compute. repeat split. Qed.
