(** C151: exactly what stops an open TLS connection. *)
From Verif Require Import Base BaseProofs MplexModel BinaryModel BinaryProofs MessageProofs MessageProofs2 ProtobufProofs Asn1Model Asn1Spec Asn1Proofs Asn1Props X509Model X509Props2 TlsCodesModel TlsTypesModel
  TlsTypesSpec TlsTypesProofs TlsTypesProofs2 TlsTypesProofs3 TlsTypesProofs4 TlsTypesProps TlsRecordModel TlsRecordSpec TlsRecordProofs TlsRecordProps TlsClientModel TlsClientSpec TlsClientProofs TlsClientProofs2
  TlsClientProofs3 TlsClientProofs4 TlsClientProofs5 TlsClientProofs6 TlsClientProps TlsHonestProofs TlsHonestProofs2 TlsCrashProps TlsCrashProps2.
Local Open Scope string_scope. Local Open Scope list_scope. Local Open Scope N_scope.

(** What holds of every open connection. *)
Definition open_ok (c : connection) : Prop :=
  key_ok (t_server (e_secrets (se_enc (cn_seq c)))) /\ se_server (cn_seq c) < two64 /\ bytes_ok (rr_in (ps_receiver (cn_plain c))).
Definition op_ok (o : cop) : Prop := match o with CRead _ answers => Forall answer_ok answers | _ => True end.
Definition panics (r : cres) : Prop :=
  match r with RRead x => x = Done Panic | RWrite x => x = Done Panic | RFlush x => x = Done Panic | RShutdown x => x = Done Panic end.
(** The next bytes stop a read. *)
Definition read_stops (P : primitives) (c : connection) (answers : list answer) : Prop :=
  cn_read c = RActive /\ cn_in c = [] /\
  reading_stops P (t_server (e_secrets (se_enc (cn_seq c)))) (rr_in (ps_receiver (cn_plain c))) (se_server (cn_seq c)) answers.
(** The operation makes a record: a write once all before is sent, a shutdown the first time. *)
Definition makes_record (P : primitives) (c : connection) (o : cop) : Prop :=
  ps_write (cn_plain c) = WsActive /\
  match o with
  | CWrite data w => fst (fst (fst (flush_encrypted c w))) = Done (Ok tt) /\
      (exists c1 rec, c1 = snd (fst (fst (flush_encrypted c w))) /\
         encrypt_record P (firstn (Nat.min (length data) (N.to_nat max_plaintext)) data) CtApplicationData (t_client (e_secrets (se_enc (cn_seq c1)))) (se_client (cn_seq c1)) = Ok rec)
  | CShutdown _ => exists rec, encrypt_record P [1; 0] CtAlert (t_client (e_secrets (se_enc (cn_seq c)))) (se_client (cn_seq c)) = Ok rec
  | _ => False
  end.
Definition stops_at (P : primitives) (c : connection) (o : cop) : Prop :=
  match o with CRead _ answers => read_stops P c answers | _ => makes_record P c o /\ two64 <= se_client (cn_seq c) + 1 end.

(** *** Nothing but the numbers changes *)
Definition same_keys (c c' : connection) : Prop :=
  se_enc (cn_seq c') = se_enc (cn_seq c) /\ se_server (cn_seq c') = se_server (cn_seq c) /\ ps_receiver (cn_plain c') = ps_receiver (cn_plain c).
Lemma same_ok c c' : same_keys c c' -> open_ok c -> open_ok c'.
Proof. intros (A & B & C). unfold open_ok. rewrite A, B, C. auto. Qed.
Lemma flush_same c w x c' w' sent : flush_encrypted c w = (x, c', w', sent) -> same_keys c c' /\ cn_seq c' = cn_seq c /\ x <> Done Panic.
Proof.
  unfold flush_encrypted, stream_flush. pose proof (flush_total w (ps_out (cn_plain c)) (ps_write (cn_plain c))) as F.
  destruct (flush_out (ps_out (cn_plain c)) (ps_write (cn_plain c)) w) as [[[[r o] ws] t] s]. cbn [fst] in F. intros H. injection H as <- <- <- <-. split; [repeat split|]. split; [reflexivity|exact F].
Qed.
Lemma append_same P c data ct x c' : append_record P c data ct = (x, c') -> same_keys c c' /\ se_client (cn_seq c') <= se_client (cn_seq c) + 1 /\
  (x = Panic <-> (exists rec, encrypt_record P data ct (t_client (e_secrets (se_enc (cn_seq c)))) (se_client (cn_seq c)) = Ok rec) /\ two64 <= se_client (cn_seq c) + 1).
Proof.
  unfold append_record, incr. pose proof (encrypt_total P data ct (t_client (e_secrets (se_enc (cn_seq c)))) (se_client (cn_seq c))) as T.
  destruct (encrypt_record P data ct (t_client (e_secrets (se_enc (cn_seq c)))) (se_client (cn_seq c))) as [rec|e|]; [|intros H; injection H as <- <-|congruence].
  - destruct (N.leb_spec two64 (se_client (cn_seq c) + 1)) as [Q|Q]; intros H; injection H as <- <-; (split; [repeat split|]).
    + split; [cbn [set_plain cn_seq]; lia|]. split; [eauto|reflexivity].
    + split; [cbn [cn_seq se_client]; lia|]. split; [discriminate|intros [_ H]; lia].
  - split; [repeat split|]. split; [cbn [set_write set_plain cn_seq]; lia|]. split; [discriminate|intros [(rec & H) _]; discriminate H].
Qed.
Lemma rest_same c w x c' w' sent : shutdown_rest c w = (x, c', w', sent) -> same_keys c c' /\ cn_seq c' = cn_seq c /\ x <> Done Panic.
Proof.
  unfold shutdown_rest. destruct (flush_encrypted c w) as [[[y c1] w1] s1] eqn:F. apply flush_same in F. destruct F as (F1 & F2 & F3).
  destruct y as [|[[]|e|]]; [| | |destruct (F3 eq_refl)].
  - intros H. injection H as <- <- <- <-. auto.
  - destruct w1 as [|[|n|e] w1]; intros H; injection H as <- <- <- <-; (split; [exact F1|]); (split; [exact F2|discriminate]).
  - intros H. injection H as <- <- <- <-. split; [exact F1|]. split; [exact F2|discriminate].
Qed.
Lemma received_keeps P r seq e ts x r' n ts' : seq < two64 -> bytes_ok (rr_in r) -> receive_encrypted_message P r seq e ts = (x, r', n, ts') -> bytes_ok (rr_in r') /\ n < two64.
Proof.
  intros S O E. destruct (receive_spec _ _ _ _ _ _ _ _ _ E) as (d & D & _). split; [rewrite D in O; apply bytes_ok_app in O; apply O|].
  unfold receive_encrypted_message in E. destruct (receive_record_ignore_cc r) as [[|[[y|]|er|]] r1]; try (assert (n = seq) as -> by congruence; exact S).
  destruct (decrypt_message P seq (t_server (e_secrets e)) (tr_raw y)) as [[m body]|er|]; cbn [bind] in E; try (assert (n = seq) as -> by congruence; exact S).
  unfold incr in E. destruct (N.leb_spec two64 (seq + 1)) as [Q|Q]; cbn [bind] in E; [assert (n = seq) as -> by congruence; exact S|]. assert (n = seq + 1) as -> by congruence. exact Q.
Qed.
Lemma recv_bytes r answers x r' rest : Forall answer_ok answers -> bytes_ok (rr_in r) -> poll_recv r answers = (x, r', rest) -> bytes_ok (rr_in r') /\ Forall answer_ok rest.
Proof.
  intros A O E. destruct answers as [|[|d|e] answers]; cbn [poll_recv] in E; [|inversion A; subst..].
  - assert (r' = r /\ rest = []) as [-> ->] by (split; congruence). auto.
  - assert (r' = r /\ rest = answers) as [-> ->] by (split; congruence). auto.
  - match goal with H : answer_ok (ARead d) |- _ => cbn [answer_ok] in H end.
    destruct d as [|b d]; [assert (r' = close r /\ rest = answers) as [-> ->] by (split; congruence)|assert (r' = append_data r (b :: d) /\ rest = answers) as [-> ->] by (split; congruence)];
      cbn [close append_data rr_in]; (split; [|assumption]); [exact O|apply bytes_ok_app; auto].
  - assert (r' = {| rr_in := rr_in r; rr_state := RError (TIo e) |} /\ rest = answers) as [-> ->] by (split; congruence). auto.
Qed.
Lemma fill_keeps P fuel : forall c answers x c' rest, open_ok c -> Forall answer_ok answers -> fill_loop fuel P c answers = (x, c', rest) ->
  open_ok c' /\ se_client (cn_seq c') = se_client (cn_seq c).
Proof.
  induction fuel as [|fuel IH]; intros c answers x c' rest C A H; [cbn [fill_loop] in H; assert (c' = c) as -> by congruence; auto|]. cbn [fill_loop] in H.
  destruct C as (K & S & O). destruct (poll_recv (ps_receiver (cn_plain c)) answers) as [[y r] an] eqn:PR. destruct (recv_bytes _ _ _ _ _ A O PR) as [O1 A1].
  assert (C1 : open_ok (with_receiver c r)) by (split; [exact K|split; [exact S|exact O1]]).
  destruct y as [|[u|e|]].
  - assert (c' = with_receiver c r) as -> by congruence. auto.
  - change (cn_seq (with_receiver c r)) with (cn_seq c) in H.
    destruct (receive_encrypted_message P r (se_server (cn_seq c)) (se_enc (cn_seq c)) None) as [[[z r2] n] ts] eqn:RE. destruct (received_keeps _ _ _ _ _ _ _ _ _ S O1 RE) as [O2 S2].
    set (c2 := with_server_seq (with_receiver (with_receiver c r) r2) n) in *.
    assert (C2 : open_ok c2) by (split; [exact K|split; [exact S2|exact O2]]).
    assert (E2 : se_client (cn_seq c2) = se_client (cn_seq c)) by reflexivity.
    destruct z as [|[[m|]|e|]]; try (injection H as <- <- <-; split; [exact C2|exact E2]).
    destruct m as [| |a|h|d|]; try (injection H as <- <- <-; split; [exact C2|exact E2]).
    + destruct (a_description a); injection H as <- <- <-; split; first [exact C2|exact E2].
    + destruct h; try (injection H as <- <- <-; split; [exact C2|exact E2]). destruct (IH _ _ _ _ _ C2 A1 H) as [X1 X2]. split; [exact X1|congruence].
  - assert (c' = set_read (with_receiver c r) (RError e)) as -> by congruence. split; [exact C1|reflexivity].
  - assert (c' = with_receiver c r) as -> by congruence. auto.
Qed.
(** *** One operation *)
Theorem C151_step_exact P c o r c' rx tx : plain_ok P -> open_ok c -> op_ok o -> cstep P c o = (r, c', rx, tx) ->
  (panics r <-> stops_at P c o) /\ open_ok c' /\ se_client (cn_seq c') <= se_client (cn_seq c) + 1.
Proof.
  intros PO C A E. destruct o as [room answers|data w|w|w]; cbn [cstep stops_at op_ok] in *.
  - pose proof C as (K & S & O). pose proof (C148_reading_exact P c room answers PO K S O A) as X. destruct (conn_read P c room answers) as [[x c1] remain] eqn:R. cbn [fst] in X.
    assert (r = RRead x /\ c' = c1) as [-> ->] by (split; congruence). cbn [panics]. split; [exact X|].
    unfold conn_read, fill_incoming in R. destruct (cn_read c); [|assert (c1 = c) as -> by congruence; split; [exact C|lia]..].
    destruct (cn_in c) as [|b l] eqn:I0.
    + destruct (fill_loop (Datatypes.S (length answers)) P c answers) as [[y c2] a2] eqn:F. destruct (fill_keeps _ _ _ _ _ _ _ C A F) as [F1 F2].
      destruct y as [|[u|e|]]; injection R as <- <- <-; (split; [exact F1|]); cbn [with_in cn_seq]; lia.
    + injection R as <- <- <-. split; [exact C|]. cbn [with_in cn_seq]. lia.
  - destruct (conn_write P c data w) as [[[x c1] w1] s1] eqn:R. assert (r = RWrite x /\ c' = c1) as [-> ->] by (split; congruence). cbn [panics]. unfold conn_write in R. unfold makes_record.
    destruct (ps_write (cn_plain c)); [|injection R as <- <- <- <-; split; [split; [discriminate|intros [[Q _] _]; discriminate Q]|split; [exact C|lia]]..].
    destruct (flush_encrypted c w) as [[[y c2] w2] s2] eqn:F. destruct (flush_same _ _ _ _ _ _ F) as (F1 & F2 & F3). cbn [fst snd]. pose proof (same_ok _ _ F1 C) as C2.
    destruct y as [|[[]|e|]]; [| | |destruct (F3 eq_refl)].
    + injection R as <- <- <- <-. split; [split; [discriminate|intros [[_ [Q _]] _]; discriminate Q]|]. split; [exact C2|rewrite F2; lia].
    + unfold append_application_data in R. destruct (append_record P c2 _ CtApplicationData) as [z c3] eqn:Ap. destruct (append_same _ _ _ _ _ _ Ap) as (A1 & A2 & A3). pose proof (same_ok _ _ A1 C2) as C3.
      assert (c1 = c3) as -> by (destruct z; congruence). split; [|split; [exact C3|rewrite F2 in A2; exact A2]].
      assert (x = Done Panic <-> z = Panic) as -> by (destruct z; injection R as <- _ _; split; intros Q; try discriminate Q; reflexivity).
      rewrite A3. rewrite F2. split.
      * intros [(rec & Q) L]. split; [|exact L]. split; [reflexivity|]. split; [reflexivity|]. exists c2, rec. split; [reflexivity|]. rewrite F2. exact Q.
      * intros [(_ & _ & c4 & rec & -> & Q) L]. split; [|exact L]. exists rec. rewrite F2 in Q. exact Q.
    + injection R as <- <- <- <-. split; [split; [discriminate|intros [[_ [Q _]] _]; discriminate Q]|]. split; [exact C2|rewrite F2; lia].
  - destruct (conn_flush c w) as [[[x c1] w1] s1] eqn:R. assert (r = RFlush x /\ c' = c1) as [-> ->] by (split; congruence). cbn [panics]. unfold conn_flush in R. unfold makes_record.
    assert (X : x <> Done Panic /\ open_ok c1 /\ se_client (cn_seq c1) <= se_client (cn_seq c) + 1).
    { destruct (ps_write (cn_plain c)); [|injection R as <- <- <- <-; split; [discriminate|split; [exact C|lia]]..]. destruct (flush_same _ _ _ _ _ _ R) as (F1 & F2 & F3).
      split; [exact F3|]. split; [exact (same_ok _ _ F1 C)|rewrite F2; lia]. }
    destruct X as (X1 & X2). split; [|exact X2]. split; [contradiction|intros [[_ []] _]].
  - destruct (conn_shutdown P c w) as [[[x c1] w1] s1] eqn:R. assert (r = RShutdown x /\ c' = c1) as [-> ->] by (split; congruence). cbn [panics]. unfold conn_shutdown in R. unfold makes_record.
    destruct (ps_write (cn_plain c)).
    + unfold append_close_notify in R. destruct (append_record P c _ CtAlert) as [z c3] eqn:Ap. destruct (append_same _ _ _ _ _ _ Ap) as (A1 & A2 & A3). pose proof (same_ok _ _ A1 C) as C3.
      change [alert_level_to AlWarning; alert_description_to AdCloseNotify] with [1; 0] in A3.
      assert (X : (x = Done Panic <-> z = Panic) /\ open_ok c1 /\ se_client (cn_seq c1) <= se_client (cn_seq c) + 1).
      { destruct z as [u|e|].
        - destruct (rest_same _ _ _ _ _ _ R) as (R1 & R2 & R3). split; [split; [contradiction|discriminate]|]. split; [apply (same_ok (set_write c3 WsShutdown)); [exact R1|exact C3]|rewrite R2; exact A2].
        - injection R as <- <- <- <-. split; [split; discriminate|]. auto.
        - injection R as <- <- <- <-. split; [split; reflexivity|]. auto. }
      destruct X as [X1 X2]. split; [|exact X2]. rewrite X1, A3. split; [intros [Q L]; auto|intros [[_ Q] L]; auto].
    + destruct (rest_same _ _ _ _ _ _ R) as (R1 & R2 & R3). split; [split; [contradiction|intros [[Q _] _]; discriminate Q]|]. split; [exact (same_ok _ _ R1 C)|rewrite R2; lia].
    + injection R as <- <- <- <-. split; [split; [discriminate|intros [[Q _] _]; discriminate Q]|]. split; [exact C|lia].
Qed.
Print Assumptions C151_step_exact.
(** *** All operations *)
(** Some operation stops the program exactly when one meets such a state. *)
Theorem C151_run_exact P os : plain_ok P -> forall c, open_ok c -> Forall op_ok os ->
  (Exists panics (fst (fst (fst (crun P c os)))) <-> exists before o after, os = before ++ o :: after /\ stops_at P (snd (fst (fst (crun P c before)))) o).
Proof.
  intros PO. induction os as [|o os IH]; intros c C A.
  { cbn [crun fst]. split; [intros H; inversion H|intros ([|? ?] & o & after & Q & _); discriminate Q]. }
  inversion A as [|? ? A1 A2]; subst. cbn [crun]. destruct (cstep P c o) as [[[r c1] rx] tx] eqn:E. destruct (C151_step_exact _ _ _ _ _ _ _ PO C A1 E) as (X1 & X2 & _).
  specialize (IH c1 X2 A2). destruct (crun P c1 os) as [[[rs c2] rxs] txs] eqn:R. cbn [fst] in *. rewrite Exists_cons, IH, X1. split.
  - intros [H|(before & o2 & after & -> & H)]; [exists [], o, os; split; [reflexivity|exact H]|]. exists (o :: before), o2, after. split; [reflexivity|]. cbn [crun]. rewrite E.
    destruct (crun P c1 before) as [[[rs3 c3] rx3] tx3]. exact H.
  - intros ([|o1 before] & o2 & after & Q & H); cbn [app] in Q.
    + assert (o2 = o) as -> by congruence. left. exact H.
    + assert (o1 = o /\ os = before ++ o2 :: after) as [-> ->] by (split; congruence). right. exists before, o2, after. split; [reflexivity|]. cbn [crun] in H. rewrite E in H.
      destruct (crun P c1 before) as [[[rs3 c3] rx3] tx3]. exact H.
Qed.
Print Assumptions C151_run_exact.
(** Unless 2^64 - 1 records have been made, only reads do, and only for what was received. *)
Theorem C151_only_reads P os : plain_ok P -> forall c, open_ok c -> Forall op_ok os -> se_client (cn_seq c) + N.of_nat (length os) < two64 ->
  (Exists panics (fst (fst (fst (crun P c os)))) <-> exists before room answers after, os = before ++ CRead room answers :: after /\ read_stops P (snd (fst (fst (crun P c before)))) answers).
Proof.
  intros PO c C A L. rewrite (C151_run_exact P os PO c C A). split; [|intros (before & room & answers & after & Q & H); exists before, (CRead room answers), after; auto].
  assert (B : forall l d, open_ok d -> Forall op_ok l -> se_client (cn_seq (snd (fst (fst (crun P d l))))) <= se_client (cn_seq d) + N.of_nat (length l)).
  { induction l as [|o l IH]; intros d D F; [cbn [crun fst snd length]; lia|]. inversion F as [|? ? F1 F2]; subst. cbn [crun]. destruct (cstep P d o) as [[[r d1] rx] tx] eqn:E.
    destruct (C151_step_exact _ _ _ _ _ _ _ PO D F1 E) as (_ & D1 & B1). specialize (IH d1 D1 F2). destruct (crun P d1 l) as [[[rs d2] rxs] txs]. cbn [fst snd length] in *. lia. }
  intros (before & o & after & -> & H). apply Forall_app in A. destruct A as [A _]. specialize (B before c C A). rewrite app_length in L. cbn [length] in L.
  destruct o as [room answers|data w|w|w]; [exists before, room, answers, after; split; [reflexivity|exact H]|..]; (destruct H as [_ H]; lia).
Qed.
Print Assumptions C151_only_reads.

(** *** Where open connections come from *)
Definition done_ok (s : ec_state) : Prop :=
  match s with
  | EMessagesReceived p se secrets => key_ok (t_server secrets) /\ bytes_ok (rr_in (ps_receiver p))
  | EDone c => open_ok c /\ se_client (cn_seq c) = 0
  | _ => True
  end.
Lemma derived_key P c t prk l s : sizes_ok P -> derive_from P c t prk l = Ok s -> key_ok (t_server s).
Proof.
  intros (_ & _ & Sz) H. unfold derive_from in H. apply bind_ok in H. destruct H as (a & _ & H). apply bind_ok in H. destruct H as (b & _ & H). apply bind_ok in H. destruct H as (k1 & _ & H).
  apply bind_ok in H. destruct H as (k2 & H2 & H). injection H as <-. cbn [t_server]. apply key_new_ok in H2. subst k2. unfold key_ok. cbn [k_key k_alg k_iv]. unfold expand_label. split; [apply Sz|]. split; apply Sz.
Qed.
Lemma application_key P t cfg prk sm e s : sizes_ok P -> application_secrets P t cfg prk sm e = Ok s -> key_ok (t_server s).
Proof.
  intros Sz H. unfold application_secrets in H. cbv zeta in H. apply bind_ok in H. destruct H as (np & _ & H). apply bind_ok in H. destruct H as (s1 & H1 & H).
  do 5 (apply bind_ok in H; destruct H as (? & _ & H)). injection H as <-. unfold internal in H1.
  destruct (derive_from P (e_ciphers e) t np (ascii_bytes "ap")) as [s2|er|] eqn:D; cbn [map_err] in H1; try discriminate H1. injection H1 as ->. exact (derived_key _ _ _ _ _ _ Sz D).
Qed.
Lemma step_done P s w : sizes_ok P -> plain_ok P -> state_ok s -> done_ok s -> done_ok (snd (fst (fst (poll_step P s w)))).
Proof.
  intros Sz PO St Dn. destruct s as [cfg private ts p|cfg private ts p|cfg p se t prk st|p se secrets|c|e|]; cbn [state_ok done_ok] in St, Dn; cbn [poll_step]; try exact Dn.
  - destruct (stream_flush p w) as [[[[|[u|e|]] p1] w1] s1]; exact Logic.I.
  - destruct (receive_plaintext_message (ps_receiver p) ts) as [[[|[m|e|]] r1] t1]; try exact Logic.I. cbn [fst snd]. unfold on_server_hello. destruct m as [[| | |h| |]|]; try exact Logic.I. destruct h; try exact Logic.I.
    destruct (ciphers_from _) as [c|e|]; cbn [ec_try]; try exact Logic.I. destruct (handshake_encryption _ _ _ _ _) as [[prk secrets]|e|]; exact Logic.I.
  - destruct St as (Cf & O & K & S & Z & T & Lp & Lk & G & C).
    destruct (receive_messages (Datatypes.S (length (rr_in (ps_receiver p)))) P (ps_receiver p) se t st) as [[[[x r] se'] t'] st'] eqn:E.
    destruct (messages_keep P _ PO _ _ _ _ K S O C _ _ _ _ _ E) as (X1 & _).
    destruct x as [|[sm|e|]]; try exact Logic.I. cbn [fst snd]. unfold on_server_messages.
    destruct (application_secrets P t' cfg prk sm (se_enc se')) as [secrets|e|] eqn:Ap; cbn [ec_try]; try exact Logic.I. apply (application_key _ _ _ _ _ _ _ Sz) in Ap.
    destruct (match cf_client cfg with CaNone => _ | CaCertificate _ _ => _ end) as [[out t2]|e|]; cbn [ec_try]; try exact Logic.I.
    destruct (client_finished P t2 (se_enc se')) as [fin|e|]; cbn [ec_try]; try exact Logic.I.
    destruct (encrypt_record P (out ++ fin) CtHandshake (t_client (e_secrets (se_enc se'))) (se_client se')) as [rec|e|]; cbn [ec_try]; try exact Logic.I.
    destruct (incr (se_client se')) as [n|e|]; cbn [ec_try]; try exact Logic.I. cbn [done_ok ps_receiver]. split; [exact Ap|exact X1].
  - unfold stream_flush. destruct (flush_out (ps_out p) (ps_write p) w) as [[[[r o] ws'] t'] sent]. destruct Dn as [K O]. destruct r as [|[u|e|]]; cbn [fst snd done_ok on_finished_sent]; try exact Logic.I.
    + split; assumption.
    + split; [|reflexivity]. split; [exact K|]. split; [reflexivity|exact O].
Qed.
Lemma asked_done s answers s1 rest : asked s answers s1 rest -> done_ok s -> done_ok s1.
Proof.
  unfold asked. destruct s as [cfg private ts p|cfg private ts p|cfg p se t prk st|p se secrets|c|e|]; cbn [ec_recv]; try (intros [-> ->]; auto).
  - destruct (poll_recv (ps_receiver p) answers) as [[[|[u|e|]] r] rest']; try contradiction; intros [-> ->] _; exact Logic.I.
  - destruct (poll_recv (ps_receiver p) answers) as [[[|[u|e|]] r] rest']; try contradiction; intros [-> ->] _; exact Logic.I.
Qed.
Lemma poll_done P fuel : sizes_ok P -> plain_ok P -> sign_ok P -> forall s answers w, state_ok s -> done_ok s -> Forall answer_ok answers ->
  (forall c, fst (result_of (ec_poll fuel P s answers w)) = Done (Ok c) -> open_ok c /\ se_client (cn_seq c) = 0) /\
  (forall s', snd (result_of (ec_poll fuel P s answers w)) = Some s' -> done_ok s').
Proof.
  intros Sz PO Sg. induction fuel as [|fuel IH]; intros s answers w St Dn A; [cbn [ec_poll result_of fst snd]; split; intros ? Q; discriminate Q|].
  destruct (Nat.eq_dec (st_rank s) 0) as [Z|Z].
  { destruct s; cbn [st_rank] in Z; try lia; cbn [ec_poll result_of fst snd]; split; intros ? Q; try discriminate Q. injection Q as <-. exact Dn. }
  assert (Step : forall s1 rest, asked s answers s1 rest ->
    let y := (let '(ready, s, w, sent) := poll_step P s1 w in if ready then let '(x, s, answers, w, more) := ec_poll fuel P s rest w in (x, s, answers, w, sent ++ more) else (Wait, Some s, rest, w, sent)) in
    (forall c, fst (result_of y) = Done (Ok c) -> open_ok c /\ se_client (cn_seq c) = 0) /\ (forall s', snd (result_of y) = Some s' -> done_ok s')).
  { intros s1 rest As. destruct (recv_keeps s answers St A s1 rest As) as [St1 A1]. pose proof (asked_done _ _ _ _ As Dn) as Dn1. pose proof (step_done P s1 w Sz PO St1 Dn1) as Dn2.
    pose proof (C149_states P s1 w Sz PO Sg St1) as Nx. destruct (poll_step P s1 w) as [[[ready s2] w2] sent] eqn:E. cbn [fst snd] in Nx, Dn2. destruct ready.
    - destruct Nx as [Nx|Nx].
      + destruct (here_ready P s1 w Sz PO Sg St1 Nx) as (w' & sent' & E'). rewrite E in E'. assert (s2 = EPanic) as -> by congruence.
        destruct fuel as [|fuel]; cbn [ec_poll result_of fst snd]; split; intros ? Q; discriminate Q.
      + destruct (IH s2 rest w2 Nx Dn2 A1) as [I1 I2]. destruct (ec_poll fuel P s2 rest w2) as [[[[x so] a] b] c]. cbn [result_of fst snd] in *. auto.
    - cbn [result_of fst snd]. split; [intros c Q; discriminate Q|]. intros s' Q. injection Q as <-. exact Dn2. }
  rewrite poll_unfold by lia. cbv zeta. unfold asked in Step. destruct (ec_recv s answers) as [[[x s1] rest]|] eqn:E; [|exact (Step s answers (conj eq_refl eq_refl))].
  destruct x as [|[u|e|]]; try exact (Step s1 rest (conj eq_refl eq_refl)). cbn [result_of fst snd]. split; intros ? Q; discriminate Q.
Qed.
(** Every connection that the client establishes is one, with no record made yet. *)
Theorem C151_established P random session private cfg protocols polls c : sizes_ok P -> plain_ok P -> sign_ok P ->
  length random = 32%nat -> match cf_name cfg with Some n => utf8_valid n = true | None => True end -> config_ok cfg -> Forall (fun p => Forall answer_ok (fst p)) polls ->
  fst (fst (handshake_run P (establish P random session private cfg protocols) polls)) = Some (Ok c) -> open_ok c /\ se_client (cn_seq c) = 0.
Proof.
  intros Sz PO Sg L U Cf A. pose proof (C149_start P random session private cfg protocols L U Cf) as St.
  assert (Dn : done_ok (establish P random session private cfg protocols)) by (unfold establish; destruct (encode_handshake _); exact Logic.I).
  revert St Dn A. generalize (establish P random session private cfg protocols). induction polls as [|[answers w] polls IH]; intros s St Dn A; [discriminate|].
  inversion A as [|? ? A1 A2]; subst. cbn [fst] in A1. cbn [handshake_run]. pose proof (C149_poll_exact P s answers w Sz PO Sg St A1) as [_ X].
  assert (Y : (forall c, fst (result_of (establish_poll P s answers w)) = Done (Ok c) -> open_ok c /\ se_client (cn_seq c) = 0) /\ (forall s', snd (result_of (establish_poll P s answers w)) = Some s' -> done_ok s')).
  { unfold establish_poll. generalize 7%nat. intros fuel. apply poll_done; assumption. }
  destruct Y as [Y1 Y2]. destruct (establish_poll P s answers w) as [[[[x s'] remain] w'] sent]. cbn [result_of fst snd] in *. destruct x as [|r].
  - destruct s' as [s'|]; [|discriminate]. specialize (IH s' (X s' eq_refl) (Y2 s' eq_refl) A2). destruct (handshake_run P s' polls) as [[r rx] tx]. cbn [fst] in *. exact IH.
  - cbn [fst]. intros Q. injection Q as ->. apply Y1. reflexivity.
Qed.
Print Assumptions C151_established.
(** With the toy primitives: a KeyUpdate after a write stops the second read; cut in two, the
    third; a damaged one does not, nor does a connection with no such bytes. *)
Example C151_sample :
  let c := toy_conn toy_key2 toy_key in
  let l1 := [CWrite [1; 2] [WOk 0]; CRead 5 [APending]; CRead 5 [ARead (toy_update 0)]; CFlush [WOk 90; WOk 0]] in
  let l2 := [CRead 5 [ARead (firstn 9 (toy_update 0))]; CRead 5 [ARead (skipn 9 (toy_update 0))]; CShutdown [WOk 90; WOk 0]] in
  let l3 := [CRead 5 [ARead (toy_update 1)]; CShutdown [WOk 90; WOk 0; WOk 0]] in
  open_ok c /\ se_client (cn_seq c) = 0 /\
  map (fun r => match r with RRead (Done Panic) => true | _ => false end) (fst (fst (fst (crun toy c l1)))) = [false; false; true; false] /\
  map (fun r => match r with RRead (Done Panic) => true | _ => false end) (fst (fst (fst (crun toy c l2)))) = [false; true; false] /\
  ~ Exists panics (fst (fst (fst (crun toy c l3)))) /\
  panics (fst (fst (fst (cstep toy {| cn_plain := cn_plain c; cn_seq := {| se_client := two64 - 1; se_server := 0; se_enc := se_enc (cn_seq c) |}; cn_in := []; cn_read := RActive |} (CWrite [7] [WOk 0]))))).
Proof.
  cbv zeta. split; [split; [repeat split; repeat constructor; cbn; lia|split; [reflexivity|constructor]]|]. split; [reflexivity|]. split; [vm_compute; reflexivity|]. split; [vm_compute; reflexivity|].
  split; [|vm_compute; reflexivity]. vm_compute. intros H. repeat match goal with H : Exists _ _ |- _ => inversion H; clear H; subst end; discriminate.
Qed.
