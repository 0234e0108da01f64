(** What does hold of the claims C80 and C81, which are refuted in [TlsClientProps]. *)
From Verif Require Import Base BaseProofs MplexModel BinaryModel BinaryProofs MessageProofs MessageProofs2 ProtobufProofs Asn1Model X509Model TlsCodesModel TlsTypesModel
  TlsTypesSpec TlsTypesProofs TlsTypesProofs2 TlsTypesProofs3 TlsRecordModel TlsRecordSpec TlsRecordProofs TlsRecordProps TlsClientModel TlsClientSpec TlsClientProofs TlsClientProofs2 TlsClientProofs3
  TlsClientProofs4 TlsClientProofs5 TlsClientProofs6 TlsClientProps TlsHonestProofs TlsHonestProofs2.
Local Open Scope string_scope. Local Open Scope list_scope. Local Open Scope N_scope.
Ltac Zify.zify_post_hook ::= Z.div_mod_to_equations.

(** *** C80: which errors end a connection *)
Lemma ignore_err fuel : forall r e r', pop_ignore_cc fuel r = (Done (Err e), r') -> ~ exists raw t f more, rr_in r' = raw ++ more /\ is_record raw t f.
Proof.
  induction fuel as [|fuel IH]; intros r e r' H; [discriminate H|]. cbn [pop_ignore_cc] in H. destruct (pop_record r) as [y r1] eqn:E.
  destruct y as [|[[y|]|e'|]]; try discriminate H.
  - destruct (tr_type y); try discriminate H. eapply IH, H.
  - assert (r' = r1) as -> by congruence. intros (raw & t & f & more & A & B). rewrite (pop_none r r1 _ E) in A by (intros; discriminate).
    destruct (pop_complete r raw t f more A B) as (x & X & _). rewrite E in X. discriminate X.
Qed.
(** What the connection's own key does not open, or is no record at all. *)
Definition unreadable (P : primitives) (c : connection) (e : tls_error) : Prop :=
  (exists raw t f, is_record raw t f /\ t <> 20 /\ decrypt_message P (se_server (cn_seq c)) (t_server (e_secrets (se_enc (cn_seq c)))) raw = Err e) \/
  ~ exists raw t f more, rr_in (ps_receiver (cn_plain c)) = raw ++ more /\ is_record raw t f.
Lemma fill_error fuel P : forall c answers e c' rest, cn_read c = RActive -> cn_in c = [] -> fill_loop fuel P c answers = (Done (Err e), c', rest) ->
  cn_read c' = RError e \/ (cn_read c' = RActive /\ cn_in c' = [] /\ unreadable P c' e).
Proof.
  induction fuel as [|fuel IH]; intros c answers e c' rest R I H; [discriminate H|]. cbn [fill_loop] in H.
  destruct (poll_recv (ps_receiver (cn_plain c)) answers) as [[x r] an] eqn:PR. destruct x as [|[[]|e1|]]; try discriminate H; cycle 1.
  { assert (c' = set_read (with_receiver c r) (RError e) /\ e1 = e) as [-> ->] by (split; congruence). left. reflexivity. }
  change (cn_seq (with_receiver c r)) with (cn_seq c) in H.
  destruct (receive_encrypted_message P r (se_server (cn_seq c)) (se_enc (cn_seq c)) None) as [[[y r2] n] ts] eqn:RE.
  destruct y as [|[[m|]|e2|]]; try discriminate H.
  - destruct m as [| |a|h|d|code]; try (left; injection H as <- <- <-; reflexivity).
    + destruct (a_description a); try discriminate H; left; injection H as <- <- <-; reflexivity.
    + destruct h; try (left; injection H as <- <- <-; reflexivity). eapply IH; [| |exact H]; assumption.
    + discriminate H.
  - left. injection H as <- <- <-. reflexivity.
  - right. assert (e2 = e) as -> by congruence. assert (c' = with_server_seq (with_receiver (with_receiver c r) r2) n) as -> by congruence. clear H.
    split; [exact R|]. split; [exact I|]. unfold unreadable. cbn [with_server_seq with_receiver set_plain cn_seq cn_plain ps_receiver se_server se_enc].
    unfold receive_encrypted_message, receive_record_ignore_cc in RE. destruct (pop_ignore_cc (S (length (rr_in r))) r) as [z r3] eqn:PI.
    destruct z as [|[[z|]|e3|]]; try discriminate RE.
    + pose proof (ignore_raw _ _ _ _ PI) as (d & _ & t & _ & A & _ & B).
      destruct (decrypt_message P (se_server (cn_seq c)) (t_server (e_secrets (se_enc (cn_seq c)))) (tr_raw z)) as [[m body]|e4|] eqn:D; cbn [bind] in RE; [|left|discriminate RE].
      * unfold incr in RE. destruct (two64 <=? _); discriminate RE.
      * assert (e4 = e /\ n = se_server (cn_seq c)) as [-> ->] by (split; congruence). exists (tr_raw z), t, (tr_fragment z). auto.
    + right. assert (r3 = r2) as -> by congruence. eapply ignore_err, PI.
Qed.
(** Operations other than reads leave the state of reading alone. *)
Lemma flush_keeps c w x c' w' sent : flush_encrypted c w = (x, c', w', sent) -> cn_read c' = cn_read c.
Proof. unfold flush_encrypted. destruct (stream_flush (cn_plain c) w) as [[[y p] w1] s]. intros H. injection H as <- <- <- <-. reflexivity. Qed.
Lemma append_keeps P c data ct x c' : append_record P c data ct = (x, c') -> cn_read c' = cn_read c.
Proof.
  unfold append_record. destruct (encrypt_record _ _ _ _ _) as [rec|e|]; [destruct (incr _) as [n|e|]| |]; intros H; injection H as <- <-; reflexivity.
Qed.
Lemma rest_keeps c w x c' w' sent : shutdown_rest c w = (x, c', w', sent) -> cn_read c' = cn_read c.
Proof.
  unfold shutdown_rest. destruct (flush_encrypted c w) as [[[y c1] w1] s] eqn:F. apply flush_keeps in F. rewrite <- F.
  destruct y as [|[[]|e|]]; [| |intros H; injection H as <- <- <- <-; reflexivity..]; [intros H; injection H as <- <- <- <-; reflexivity|].
  destruct w1 as [|[|n|e] w1]; intros H; injection H as <- <- <- <-; reflexivity.
Qed.
Lemma error_stays P e os : forall c rs c' rx tx, cn_read c = RError e -> crun P c os = (rs, c', rx, tx) ->
  Forall (fun r => match r with RRead x => x = Done (Err e) | _ => True end) rs /\ cn_read c' = RError e.
Proof.
  induction os as [|o os IH]; intros c rs c' rx tx R H; cbn [crun] in H; [injection H as <- <- <- <-; auto|].
  destruct (cstep P c o) as [[[r c1] rx1] tx1] eqn:E. destruct (crun P c1 os) as [[[rs2 c2] rx2] tx2] eqn:F. injection H as <- <- <- <-.
  assert (X : cn_read c1 = RError e /\ match r with RRead x => x = Done (Err e) | _ => True end).
  { destruct o as [room answers|data w|w|w]; cbn [cstep] in E.
    - unfold conn_read in E. rewrite R in E. injection E as <- <- <- <-. auto.
    - destruct (conn_write P c data w) as [[[x cc] w1] s] eqn:W. injection E as <- <- <- <-. split; [|exact I]. rewrite <- R. unfold conn_write in W.
      destruct (ps_write (cn_plain c)); [|injection W as <- <- <- <-; reflexivity..]. destruct (flush_encrypted c w) as [[[y c3] w3] s3] eqn:Fl. apply flush_keeps in Fl. rewrite <- Fl.
      destruct y as [|[[]|e1|]]; [injection W as <- <- <- <-; reflexivity| |injection W as <- <- <- <-; reflexivity..].
      destruct (append_application_data P c3 _) as [z c4] eqn:A. apply append_keeps in A. rewrite <- A. destruct z; injection W as <- <- <- <-; reflexivity.
    - destruct (conn_flush c w) as [[[x cc] w1] s] eqn:W. injection E as <- <- <- <-. split; [|exact I]. rewrite <- R. unfold conn_flush in W.
      destruct (ps_write (cn_plain c)); [eapply flush_keeps, W|injection W as <- <- <- <-; reflexivity..].
    - destruct (conn_shutdown P c w) as [[[x cc] w1] s] eqn:W. injection E as <- <- <- <-. split; [|exact I]. rewrite <- R. unfold conn_shutdown in W.
      destruct (ps_write (cn_plain c)); [|eapply rest_keeps, W|injection W as <- <- <- <-; reflexivity].
      destruct (append_close_notify P c) as [z c4] eqn:A. apply append_keeps in A. rewrite <- A. destruct z as [[]|e1|]; [|injection W as <- <- <- <-; reflexivity..].
      apply rest_keeps in W. rewrite W. reflexivity. }
  destruct X as [X1 X2]. destruct (IH c1 rs2 c2 rx2 tx2 X1 F) as [Y1 Y2]. split; [constructor; assumption|exact Y2].
Qed.
(** A read that reports an error ends the connection for reading (every later read, whatever
    else is done in between and whatever arrives, reports that error) - unless what arrived
    was a record that does not open under the number due, or was no record; in no case has
    anything been delivered. *)
Theorem C80_other_errors_partial P c room answers e c' rest : cn_read c = RActive -> cn_in c = [] -> conn_read P c room answers = (Done (Err e), c', rest) ->
  (forall os rs c2 rx tx, crun P c' os = (rs, c2, rx, tx) -> Forall (fun r => match r with RRead x => x = Done (Err e) | _ => True end) rs) \/
  (cn_read c' = RActive /\ cn_in c' = [] /\ unreadable P c' e).
Proof.
  intros R I H. unfold conn_read in H. rewrite R in H. unfold fill_incoming in H. rewrite I in H.
  destruct (fill_loop (S (length answers)) P c answers) as [[x c1] an] eqn:F. destruct x as [|[[]|e1|]]; try discriminate H.
  assert (e1 = e /\ c1 = c') as [-> ->] by (split; congruence). destruct (fill_error _ P c answers e c' an R I F) as [A|A]; [left|right; exact A].
  intros os rs c2 rx tx Q. exact (proj1 (error_stays P e os c' rs c2 rx tx A Q)).
Qed.
Print Assumptions C80_other_errors_partial.
(** An alert that is no close_notify ends the connection: honest data after it is not read. *)
Example C80_other_errors_sample : exists d c' e, protected toy toy_key 0 [([2; 40], 21); ([7], 23)] = Some d /\
  conn_read toy (toy_conn toy_key2 toy_key) 10 [ARead d] = (Done (Err e), c', []) /\ cn_read c' = RError e /\
  fst (fst (conn_read toy c' 10 [ARead [1]])) = Done (Err e).
Proof. eexists. eexists. eexists. split; [vm_compute; reflexivity|]. split; [vm_compute; reflexivity|]. split; vm_compute; reflexivity. Qed.

(** *** C81: which first messages of a server are accepted *)
(** Exactly server hellos with one of the two suites and a first X25519 share that agrees
    with the client's key. *)
Theorem C81_exact_partial P cfg private ts p m : sizes_ok P ->
  (exists cfg' p' se t prk s, on_server_hello P cfg private ts p m = EHelloReceived cfg' p' se t prk s) <->
  (exists sh h a share secret, m = Some (MHandshake (HServerHello sh)) /\ suite_of (sh_suite sh) h a /\ share_of sh share /\ agree P private share = Some secret).
Proof.
  intros S. split.
  - intros (cfg' & p' & se & t & prk & s & H). unfold on_server_hello in H. destruct m as [[| |a|h|d|code]|]; try discriminate H. destruct h as [ |sh| | | | | | | | | ]; try discriminate H.
    destruct (ciphers_from sh) as [c|e|] eqn:C; cbn [ec_try] in H; try discriminate H. apply suite_ok in C.
    unfold handshake_encryption, shared_secret in H. destruct (x25519_share (sh_extensions sh)) as [k|] eqn:X; [|discriminate H]. destruct (agree P private k) as [secret|] eqn:A; [|discriminate H].
    exists sh, (c_hash c), (c_aead c), k, secret. split; [reflexivity|]. split; [exact C|]. split; [exact (share_ok _ _ X)|exact A].
  - intros (sh & h & a & share & secret & -> & Su & Sh & Ag). pose proof (hello_honest P cfg private ts p [] sh h a share secret S Su Sh Ag) as H. rewrite app_nil_r in H.
    do 6 eexists. exact H.
Qed.
Print Assumptions C81_exact_partial.
(** The error it otherwise ends with. *)
Theorem C81_errors_partial P cfg private ts p sh : sizes_ok P ->
  ((forall h a, ~ suite_of (sh_suite sh) h a) -> on_server_hello P cfg private ts p (Some (MHandshake (HServerHello sh))) = EError TUnsupportedCipherSuite) /\
  (forall h a, suite_of (sh_suite sh) h a -> (forall k, share_of sh k -> agree P private k = None) ->
    on_server_hello P cfg private ts p (Some (MHandshake (HServerHello sh))) = EError TGetSharedSecretFailed).
Proof.
  intros S. split.
  - intros N0. unfold on_server_hello, ciphers_from. destruct (sh_suite sh) eqn:E; try reflexivity; exfalso; (eapply N0; unfold suite_of; (left; repeat split; fail) || (right; repeat split)).
  - intros h a Su NA. assert (C : ciphers_from sh = Ok {| c_hash := h; c_aead := a |}) by (unfold ciphers_from; destruct Su as [(-> & -> & ->)|(-> & -> & ->)]; reflexivity).
    unfold on_server_hello. rewrite C. cbn [ec_try]. unfold handshake_encryption, shared_secret. destruct (x25519_share (sh_extensions sh)) as [k|] eqn:X; [|reflexivity].
    rewrite (NA k (share_ok _ _ X)). reflexivity.
Qed.
Print Assumptions C81_errors_partial.
