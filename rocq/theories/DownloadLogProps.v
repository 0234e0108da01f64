(** What the download program prints, C138. *)
From Coq Require Import String Ascii.
From Verif Require Import Base BaseProofs UtilModel ChatModel Asn1PrintProps TorrentModel MplexModel LpioModel LpioSpec DownloadModel DownloadProps DownloadProps2 BencodePathModel AnnounceModel DownloadMainModel DebugModel TemplateSpec DownloadLogModel.
Local Open Scope string_scope. Local Open Scope list_scope. Local Open Scope N_scope.

(** *** Vocabulary *)
(** The messages, and the actions, that a log speaks of. *)
Definition messages_in (l : list saying) : list pmessage := flat_map (fun s => match s with SMessage m => [m] | _ => [] end) l.
Definition actions_in (l : list saying) : list waction := flat_map (fun s => match s with SSent a => [a] | _ => [] end) l.
(** Choked by default and by the last message about it. *)
Fixpoint choked_by (c : bool) (ms : list pmessage) : bool :=
  match ms with [] => c | Choke :: ms => choked_by true ms | Unchoke :: ms => choked_by false ms | _ :: ms => choked_by c ms end.
(** The lines of the reader. *)
Definition of_reader (s : saying) : bool := match s with SRead _ | SMessage _ | SBadField _ _ | SReceiveError _ => true | _ => false end.
(** How a connection fails. *)
Definition failure (s : saying) : Prop := match s with SBadField _ _ | SReceiveError _ | SSendError _ => True | _ => False end.
(** A message as the reader tells it: the length of its wire form, the message, and, for a bit
    field that does not fit, the two lengths. *)
Definition telling (pieces : N) (m : pmessage) : list saying :=
  [SRead (blen (wire m)); SMessage m] ++
  match m with BitField b => if blen b =? bit_bytes pieces then [] else [SBadField (bit_bytes pieces) (blen b)] | _ => [] end.

Section Log.
Context (io : ioerr -> bytes) (lossy : bytes -> bytes).
Notation lstep := (lstep io lossy).
Notation lruns := (lruns io lossy).

(** *** The steps, seen from one field *)
Lemma notify_keeps s : d_pieces (notify s) = d_pieces s /\ d_choked (notify s) = d_choked s /\ d_interested (notify s) = d_interested s /\ d_sent_bitfield (notify s) = d_sent_bitfield s /\
  d_active_request (notify s) = d_active_request s /\ d_in (notify s) = d_in s /\ d_out (notify s) = d_out s /\ d_writer (notify s) = d_writer s /\ d_seen (notify s) = d_seen s /\ d_disconnect (notify s) = d_disconnect s /\
  (d_reader (notify s) = d_reader s \/ d_reader (notify s) = RPanicked).
Proof. unfold notify. destruct (d_writer s) eqn:E; cbn; auto 20. Qed.
Lemma received_keeps s m : let s' := on_received_message s m in d_pieces s' = d_pieces s /\ d_interested s' = d_interested s /\ d_sent_bitfield s' = d_sent_bitfield s /\
  d_active_request s' = d_active_request s /\ d_in s' = d_in s /\ d_out s' = d_out s /\ d_writer s' = d_writer s /\ d_seen s' = d_seen s /\
  (d_reader s' = d_reader s \/ d_reader s' = RPanicked) /\ d_choked s' = choked_by (d_choked s) [m].
Proof.
  cbn zeta. unfold on_received_message.
  pose proof (notify_keeps s) as (A1 & A2 & A3 & A4 & A5 & A6 & A7 & A8 & A9 & A10 & A11).
  destruct m; cbn [choked_by]; try (repeat split; assumption).
  - pose proof (notify_keeps (with_choked s true)) as (B1 & B2 & B3 & B4 & B5 & B6 & B7 & B8 & B9 & B10 & B11). repeat split; assumption.
  - pose proof (notify_keeps (with_choked s false)) as (B1 & B2 & B3 & B4 & B5 & B6 & B7 & B8 & B9 & B10 & B11). repeat split; assumption.
  - destruct (negb _); [|repeat split; assumption]. cbn. auto 20.
Qed.
Lemma choked_app c a b : choked_by c (a ++ b) = choked_by (choked_by c a) b.
Proof. revert c. induction a as [|m a IH]; intros c; [reflexivity|]. destruct m; cbn [app choked_by]; apply IH. Qed.

(** A message that was read is what the reader finds. *)
Definition read_inv (l : lstate) : Prop :=
  match l_read l with Nothing => True | Read r src => d_reader (l_conn l) = RReading /\ exists fuel, read_peer_message fuel (d_in (l_conn l)) = (Some r, src) end.
Lemma read_step l new l' : read_inv l -> lstep l new l' -> read_inv l'.
Proof.
  unfold read_inv. intros V H. destruct H as [l R D|l R D|l fuel body src R P E|l fuel e src R P E|l m src R P|l e src R P|l W D|l W D|l a W C|l W C|l a W|l a k e W K|l a W|l n W Q|l R W O];
    cbn [conn_to reading_to handled l_conn l_read] in *; try exact V; try exact Logic.I.
  - destruct (l_read l); [exact Logic.I|]. destruct V as (V & _). congruence.
  - destruct (l_read l); [exact Logic.I|]. destruct V as (V & _). congruence.
  - split; [exact R|]. exists fuel. unfold read_peer_message. rewrite E. reflexivity.
  - split; [exact R|]. exists fuel. unfold read_peer_message. rewrite E. reflexivity.
Qed.
Lemma runs_read p src says l : lruns (l_init p src) says l -> read_inv l.
Proof. induction 1 as [|says m new n H IH P St]; [exact Logic.I|]. eapply read_step; eassumption. Qed.

(** ** C138: printing changes nothing: the runs with their log are the runs without *)
Theorem C138_projection h p src :
  (forall says l, lruns (l_init p src) says l -> dlruns (DlRunning h (d_init p src)) (DlRunning h (l_conn l))) /\
  (forall s, dlruns (DlRunning h (d_init p src)) (DlRunning h s) -> exists says l, lruns (l_init p src) says l /\ l_conn l = s /\ l_read l = Nothing /\ l_over l = false).
Proof.
  split.
  - intros says l H. induction H as [|says m new n H IH P St]; [constructor|]. pose proof (runs_read _ _ _ _ H) as V. unfold read_inv in V.
    destruct St as [l R D|l R D|l fuel body u R Q E|l fuel e u R Q E|l m u R Q|l e u R Q|l W D|l W D|l a W C|l W C|l a W|l a k e W K|l a W|l n W Q|l R W O];
      cbn [conn_to reading_to handled l_conn] in *; try exact IH;
      try (apply dl_next with (1 := IH); apply dl_step; [exact P|constructor; assumption]).
    + rewrite Q in V. destruct V as (_ & fuel & V). apply dl_next with (1 := IH). apply dl_step; [exact P|]. eapply r_message; eassumption.
    + rewrite Q in V. destruct V as (_ & fuel & V). apply dl_next with (1 := IH). apply dl_step; [exact P|]. eapply r_error; eassumption.
  - intros s H. remember (DlRunning h (d_init p src)) as x eqn:Ex. remember (DlRunning h s) as y eqn:Ey. revert s Ey. induction H as [|y z H IH St]; intros s Ey.
    + subst x. injection Ey as <-. exists [], (l_init p src). repeat split. constructor.
    + subst z. inversion St as [h0 s0 s1 P D E1 E2| |]; subst. destruct (IH s0 eq_refl) as (says & l & R & E & N0 & O). subst s0. clear IH St H.
      assert (Go : forall new s', lstep l new (conn_to l s') -> exists says' l', lruns (l_init p src) says' l' /\ l_conn l' = s' /\ l_read l' = Nothing /\ l_over l' = false).
      { intros new s' St. exists (says ++ new), (conn_to l s'). repeat split; try assumption. eapply l_then; eassumption. }
      inversion D as [s0 Rd Di E0|s0 Rd Di E0|s0 fuel m u Rd Re E0|s0 fuel e u Rd Re E0|s0 W Di E0|s0 W Di E0|s0 a W C E0|s0 W C E0|s0 a W E0|s0 a k W K E0|s0 a W E0|s0 n W Q E0]; subst s0;
        try (eapply Go; apply l_write_fails with (a := a) (k := k) (e := UnexpectedEof); assumption); try (eapply Go; constructor; eassumption).
      * unfold read_peer_message in Re. destruct (read_message_raw fuel (d_in (l_conn l))) as [[[body|e|]|] u0] eqn:RE; try discriminate Re. injection Re as De ->.
        eexists (_ ++ _), _. split.
        { eapply l_then; [eapply l_then; [exact R|exact P|eapply l_body; [exact Rd|exact N0|exact RE]]|exact P|]. apply l_message with (m := m) (src := u); [exact Rd|]. cbn [reading_to l_read]. rewrite De. reflexivity. }
        cbn [reading_to handled l_conn l_read l_over]. auto.
      * unfold read_peer_message in Re. destruct (read_message_raw fuel (d_in (l_conn l))) as [[[body|e0|]|] u0] eqn:RE; try discriminate Re.
        { injection Re as De ->. eexists (_ ++ _), _. split.
          { eapply l_then; [eapply l_then; [exact R|exact P|eapply l_body; [exact Rd|exact N0|exact RE]]|exact P|]. apply l_error with (e := e) (src := u); [exact Rd|]. cbn [reading_to l_read]. rewrite De. reflexivity. }
          cbn [reading_to handled l_conn l_read l_over]. auto. }
        { injection Re as <- ->. eexists (_ ++ _), _. split.
          { eapply l_then; [eapply l_then; [exact R|exact P|eapply l_fails; [exact Rd|exact N0|exact RE]]|exact P|]. apply l_error with (e := DIo e0) (src := u); [exact Rd|]. reflexivity. }
          cbn [reading_to handled l_conn l_read l_over]. auto. }
Qed.

(** *** The log and the state *)
Lemma actions_app a b : actions_in (a ++ b) = actions_in a ++ actions_in b.
Proof. apply flat_map_app. Qed.
Lemma messages_app a b : messages_in (a ++ b) = messages_in a ++ messages_in b.
Proof. apply flat_map_app. Qed.
Lemma told_none s m : actions_in (told s m) = [] /\ messages_in (told s m) = [m] /\ (forall t, ~ In (SSendError t) (told s m)).
Proof. destruct m; cbn; try (destruct (negb _)); cbn; repeat split; intros t X; repeat (destruct X as [X|X]; [discriminate X|]); exact X. Qed.
Definition acts (s : dstate) : list waction :=
  (if sent s ABitField then [ABitField] else []) ++ (if sent s AInterested then [AInterested] else []) ++ (if sent s ARequest then [ARequest] else []).
Definition in_order (s : dstate) : Prop :=
  (d_interested s = true -> d_sent_bitfield s = true) /\ (d_active_request s = true -> d_interested s = true) /\
  match d_writer s with
  | WWriting ABitField | WFlag ABitField => d_sent_bitfield s = false
  | WWriting AInterested | WFlag AInterested => d_sent_bitfield s = true /\ d_interested s = false
  | WWriting ARequest | WFlag ARequest => d_interested s = true /\ d_active_request s = false
  | _ => True
  end.
Definition log_inv (p : N) (l : lstate) (says : list saying) : Prop :=
  let s := l_conn l in
  d_pieces s = p /\ d_seen s = messages_in says /\ d_choked s = choked_by true (messages_in says) /\ in_order s /\ actions_in says = acts s /\
  (exists part, d_out s = flat_map (fun a => raw_message (action_body p a)) (actions_in says) ++ part /\
     (d_writer s <> WDone \/ (forall t, ~ In (SSendError t) says) -> part = []) /\ (d_writer s <> WDone -> forall t, ~ In (SSendError t) says)).
Lemma quiet_inv p l says new l' : log_inv p l says ->
  d_pieces (l_conn l') = d_pieces (l_conn l) -> d_seen (l_conn l') = d_seen (l_conn l) -> d_choked (l_conn l') = d_choked (l_conn l) ->
  d_out (l_conn l') = d_out (l_conn l) -> (d_writer (l_conn l') <> WDone -> d_writer (l_conn l) <> WDone) ->
  (forall x, In x new -> match x with SMessage _ | SSent _ | SSendError _ => False | _ => True end) ->
  in_order (l_conn l') -> acts (l_conn l') = acts (l_conn l) -> log_inv p l' (says ++ new).
Proof.
  intros (A & B & C & D & E & part & F & G & G2) H1 H2 H3 H4 H5 N0 O Ac.
  assert (M : messages_in new = [] /\ actions_in new = [] /\ forall t, ~ In (SSendError t) new).
  { clear - N0. induction new as [|x new IH]; [repeat split; intros t X; exact X|].
    destruct IH as (I1 & I2 & I3); [intros y Y; apply N0; right; exact Y|]. pose proof (N0 x (or_introl eq_refl)) as X.
    split; [|split]; [destruct x; try contradiction; exact I1|destruct x; try contradiction; exact I2|]. intros t [Y|Y]; [subst x; exact X|exact (I3 t Y)]. }
  destruct M as (M1 & M2 & M3). unfold log_inv. rewrite messages_app, actions_app, M1, M2, !app_nil_r, H1, H2, H3, H4, Ac.
  do 5 (split; [assumption|]). exists part. split; [exact F|]. split.
  - intros [X|X]; apply G; [left; exact (H5 X)|right]. intros t Y. apply (X t). apply in_or_app. left. exact Y.
  - intros X t Y. apply in_app_or in Y. destruct Y as [Y|Y]; [exact (G2 (H5 X) t Y)|exact (M3 t Y)].
Qed.
Lemma log_step p l says new l' : log_inv p l says -> lstep l new l' -> log_inv p l' (says ++ new).
Proof.
  intros V H. pose proof V as (A & B & C & (O1 & O2 & O3) & E & part & F & G & G2).
  destruct H as [l R D|l R D|l fuel body u R Q X|l fuel e u R Q X|l m u R Q|l e u R Q|l W D|l W D|l a W Ch|l W Ch|l a W|l a k e W K|l a W|l n W Q|l R W O];
    try (apply quiet_inv with (l := l); [exact V|reflexivity|reflexivity|reflexivity|reflexivity|cbn; congruence
         |intros y Y; repeat (destruct Y as [Y|Y]; [subst y; exact Logic.I|]); destruct Y|cbn; unfold in_order; cbn; split; [exact O1|split; [exact O2|]]; first [exact Logic.I|exact O3]
         |cbn; unfold acts, sent; cbn; try match goal with W : d_writer _ = _ |- _ => rewrite W end; reflexivity]; fail).
  - (* a message *)
    destruct (told_none (l_conn l) m) as (T1 & T2 & T3).
    pose proof (received_keeps (with_seen (with_reader (with_in (l_conn l) u) RHead) m) m) as (K1 & K2 & K3 & K4 & K5 & K6 & K7 & K8 & K9 & K10).
    cbn [d_pieces d_interested d_sent_bitfield d_active_request d_in d_out d_writer d_seen d_choked with_seen with_reader with_in] in *.
    unfold log_inv. cbn [handled l_conn]. rewrite messages_app, actions_app, T1, T2, app_nil_r, K1, K6, K7, K8, K10, choked_app, <- C, B.
    split; [exact A|]. split; [reflexivity|]. split; [reflexivity|]. split; [unfold in_order; rewrite K2, K3, K4, K7; repeat split; assumption|].
    split; [rewrite E; unfold acts, sent; rewrite K2, K3, K4, K7; reflexivity|].
    exists part. split; [exact F|]. split.
    + intros [X|X]; apply G; [left; exact X|right]. intros t Y. apply (X t), in_or_app. left. exact Y.
    + intros X t Y. apply in_app_or in Y. destruct Y as [Y|Y]; [exact (G2 X t Y)|exact (T3 t Y)].
  - (* choosing *)
    apply quiet_inv with (l := l); [exact V|reflexivity|reflexivity|reflexivity|reflexivity|cbn; congruence|intros x []| |cbn; unfold acts, sent; cbn; rewrite W; reflexivity].
    cbn. unfold in_order. cbn. split; [exact O1|]. split; [exact O2|]. unfold choose in Ch.
    destruct (d_sent_bitfield (l_conn l)) eqn:S1; cbn [negb] in Ch; [|injection Ch as <-; reflexivity].
    destruct (d_interested (l_conn l)) eqn:S2; cbn [negb] in Ch; [|injection Ch as <-; auto].
    destruct (negb (d_choked (l_conn l)) && negb (d_active_request (l_conn l))) eqn:S3; [|discriminate]. injection Ch as <-. split; [reflexivity|].
    destruct (d_active_request (l_conn l)); [rewrite andb_false_r in S3; discriminate|reflexivity].
  - (* written *)
    unfold log_inv. cbn [conn_to l_conn with_writer with_out d_pieces d_seen d_choked d_out d_writer]. rewrite messages_app, actions_app. cbn [messages_in actions_in flat_map app]. rewrite app_nil_r, flat_map_app. cbn [flat_map]. rewrite app_nil_r.
    rewrite W in *. assert (P0 : part = []) by (apply G; left; discriminate). subst part. rewrite app_nil_r in F.
    split; [exact A|]. split; [exact B|]. split; [exact C|]. split; [|split].
    + unfold in_order. cbn. split; [exact O1|]. split; [exact O2|]. exact O3.
    + change (flat_map _ says) with (actions_in says). rewrite E. unfold acts, sent. cbn. rewrite W.
      destruct a; rewrite ?orb_false_r.
      * destruct O3 as (O3 & O4). rewrite O3, O4. cbn. destruct (d_active_request (l_conn l)) eqn:Z; [specialize (O2 eq_refl); congruence|reflexivity].
      * rewrite O3. cbn. destruct (d_interested (l_conn l)) eqn:Z; [specialize (O1 eq_refl); congruence|].
        destruct (d_active_request (l_conn l)) eqn:Z2; [specialize (O2 eq_refl); congruence|reflexivity].
      * destruct O3 as (O3 & O4). rewrite O3, O4, (O1 O3). reflexivity.
    + exists []. rewrite app_nil_r. split; [rewrite F, A; reflexivity|]. split; [reflexivity|].
      intros _ t Y. apply in_app_or in Y. destruct Y as [Y|[Y|[]]]; [|discriminate Y]. exact (G2 ltac:(discriminate) t Y).
  - (* failed *)
    unfold log_inv. cbn [conn_to l_conn with_writer with_disconnect with_out d_pieces d_seen d_choked d_out d_writer]. rewrite messages_app, actions_app. cbn [messages_in actions_in flat_map app]. rewrite !app_nil_r.
    rewrite W in *. assert (P0 : part = []) by (apply G; left; discriminate). subst part. rewrite app_nil_r in F.
    split; [exact A|]. split; [exact B|]. split; [exact C|]. split; [|split].
    + unfold in_order. cbn. auto.
    + change (flat_map _ says) with (actions_in says). rewrite E. unfold acts, sent. cbn. rewrite W. reflexivity.
    + eexists. split; [rewrite F; reflexivity|]. split; [|congruence]. intros [X|X]; [congruence|]. exfalso. apply (X (io e)), in_or_app. right. left. reflexivity.
  - (* the flag *)
    apply quiet_inv with (l := l); [exact V|reflexivity|reflexivity|reflexivity|reflexivity|cbn; congruence|intros x [<-|[]]; exact Logic.I| |].
    + cbn. unfold in_order. cbn. rewrite W in O3. destruct a; cbn; repeat split; try tauto; try (intros; tauto).
    + cbn. unfold acts, sent. cbn. rewrite W. destruct a; cbn; rewrite ?orb_false_r, ?orb_true_r; reflexivity.
Qed.
Lemma log_runs p src says l : lruns (l_init p src) says l -> log_inv p l says.
Proof.
  induction 1 as [|says m new n H IH P St]; [|eapply log_step; eassumption].
  unfold log_inv. cbn. repeat split; try discriminate. exists []. repeat split. intros _ t X. exact X.
Qed.

(** ** C138: the messages in the log are the messages received, and the actions in it are what was sent *)
Theorem C138_log_is_what_happened p src says l : lruns (l_init p src) says l ->
  messages_in says = d_seen (l_conn l) /\
  (exists later, [ABitField; AInterested; ARequest] = actions_in says ++ later) /\
  exists part, d_out (l_conn l) = flat_map (fun a => raw_message (action_body p a)) (actions_in says) ++ part /\
    ((forall t, ~ In (SSendError t) says) -> part = []).
Proof.
  intros H. destruct (log_runs _ _ _ _ H) as (A & B & C & (O1 & O2 & O3) & E & part & F & G & G2). split; [symmetry; exact B|]. split.
  - rewrite E. unfold acts, sent. clear - O1 O2 O3.
    destruct (d_sent_bitfield (l_conn l)), (d_interested (l_conn l)), (d_active_request (l_conn l)); try (specialize (O1 eq_refl); discriminate); try (specialize (O2 eq_refl); discriminate);
      destruct (d_writer (l_conn l)) as [| |a|a| |]; try destruct a; try (destruct O3; discriminate); try discriminate O3; cbn; try (eexists; reflexivity).
  - exists part. split; [exact F|]. intros X. apply G. right. exact X.
Qed.

(** ** C138: every status line tells the number of pieces, whether we are choked by the last
    message about it, and whether we have said that we are interested *)
Theorem C138_status p src says l before c i n after : lruns (l_init p src) says l -> says = before ++ SStatus c i n :: after ->
  n = p /\ c = choked_by true (messages_in before) /\
  (i = true -> In (SSent AInterested) before) /\ (forall c' n', In (SStatus c' true n') before -> i = true) /\
  (i = false -> ~ In (SSent ARequest) before).
Proof.
  intros H. revert before c i n after.
  assert (G : (forall before c i n after, says = before ++ SStatus c i n :: after -> n = p /\ c = choked_by true (messages_in before) /\ (i = true -> In (SSent AInterested) before) /\
     (forall c' n', In (SStatus c' true n') before -> i = true) /\ (i = false -> ~ In (SSent ARequest) before)) /\
     (forall c n, In (SStatus c true n) says -> d_interested (l_conn l) = true)); [|apply G].
  induction H as [|says m new l' H IH P St].
  - split; [intros [|? ?] c i n after E; discriminate E|intros c n []].
  - pose proof (log_runs _ _ _ _ H) as (A & B & C & (O1 & O2 & O3) & E & _). destruct IH as (IH1 & IH2).
    (* a step says at most one status, at its end *)
    assert (Fl : d_interested (l_conn m) = true -> d_interested (l_conn l') = true).
    { destruct St as [m R D|m R D|m fuel body u R Q X|m fuel e u R Q X|m x u R Q|m e u R Q|m W D|m W D|m a W Ch|m W Ch|m a W|m a k e W K|m a W|m n0 W Q|m R W O]; cbn; auto.
      - pose proof (received_keeps (with_seen (with_reader (with_in (l_conn m) u) RHead) x) x) as (_ & K2 & _). cbn in K2. rewrite K2. auto.
      - destruct a; auto. }
    assert (Nw : (forall c i n, ~ In (SStatus c i n) new) \/
      exists first c i, new = first ++ [SStatus c i p] /\ (forall c i n, ~ In (SStatus c i n) first) /\ d_interested (l_conn l') = i /\ c = choked_by true (messages_in (says ++ first)) /\
        (i = true -> In (SSent AInterested) says) /\ (In (SSent ARequest) (says ++ first) -> i = true)).
    { assert (AI : d_interested (l_conn m) = true -> In (SSent AInterested) says).
      { intros Z. assert (Y : In AInterested (actions_in says)) by (rewrite E; unfold acts, sent; rewrite Z; cbn; apply in_or_app; right; left; reflexivity).
        apply in_flat_map in Y. destruct Y as (y & Y1 & Y2). destruct y; cbn in Y2; try contradiction. destruct Y2 as [->|[]]. exact Y1. }
      assert (AR : In (SSent ARequest) says -> d_interested (l_conn m) = true).
      { intros Z. assert (Y : In ARequest (actions_in says)) by (apply in_flat_map; exists (SSent ARequest); split; [exact Z|left; reflexivity]).
        rewrite E in Y. unfold acts in Y. destruct (sent (l_conn m) ARequest) eqn:SR.
        - unfold sent in SR. apply orb_prop in SR. destruct SR as [SR|SR]; [exact (O2 SR)|]. destruct (d_writer (l_conn m)) as [| |a|a| |]; try discriminate SR. destruct a; try discriminate SR. apply O3.
        - exfalso. clear - Y. destruct (sent (l_conn m) ABitField), (sent (l_conn m) AInterested); cbn in Y; repeat (destruct Y as [Y|Y]; [discriminate Y|]); exact Y. }
      destruct St as [m R D|m R D|m fuel body u R Q X|m fuel e u R Q X|m x u R Q|m e u R Q|m W D|m W D|m a W Ch|m W Ch|m a W|m a k e W K|m a W|m n0 W Q|m R W O];
        try (left; intros c i n [Y|[]]; discriminate Y); try (left; intros c i n []; fail).
      - pose proof (received_keeps (with_seen (with_reader (with_in (l_conn m) u) RHead) x) x) as (_ & K2 & _). cbn in K2.
        assert (Di : told (l_conn m) x = [SMessage x] ++ [SStatus (choked_by (d_choked (l_conn m)) [x]) (d_interested (l_conn m)) p] \/ exists a b, told (l_conn m) x = [SMessage x; SBadField a b]).
        { destruct x; unfold told, status_of; cbn [choked_by app with_choked d_choked d_interested d_pieces]; rewrite ?A; try (left; reflexivity). destruct (negb _); [right; eauto|left; reflexivity]. }
        destruct Di as [Di|(a & b & Di)]; rewrite Di.
        + right. exists [SMessage x], (choked_by (d_choked (l_conn m)) [x]), (d_interested (l_conn m)). split; [reflexivity|]. split; [intros c i n [Y|[]]; discriminate Y|]. split; [exact K2|].
          split; [rewrite messages_app, choked_app, <- C; reflexivity|]. split; [exact AI|]. intros Y. apply in_app_or in Y. destruct Y as [Y|[Y|[]]]; [exact (AR Y)|discriminate Y].
        + left. intros c i n [Y|[Y|[]]]; discriminate Y.
      - right. exists [], (d_choked (l_conn m)), (d_interested (set_flag (l_conn m) a)). cbn [app]. split; [unfold status_of; cbn [set_flag d_choked d_pieces]; rewrite A; reflexivity|]. split; [intros c i n []|]. split; [reflexivity|].
        split; [rewrite app_nil_r; exact C|]. cbn [set_flag d_interested]. rewrite app_nil_r. split.
        + destruct a; try exact AI. intros _. assert (Y : In AInterested (actions_in says)) by (rewrite E; unfold acts, sent; rewrite W; cbn; rewrite ?orb_true_r; apply in_or_app; right; left; reflexivity).
          apply in_flat_map in Y. destruct Y as (y & Y1 & Y2). destruct y; cbn in Y2; try contradiction. destruct Y2 as [->|[]]. exact Y1.
        + intros Y. specialize (AR Y). destruct a; auto. }
    split.
    + intros before c i n after Eq. destruct Nw as [Nw|(first & c0 & i0 & -> & Nf & Fi & Ec & Ei & Er)].
      * assert (Y : exists rest, says = before ++ SStatus c i n :: rest).
        { clear - Eq Nw. revert before Eq. induction says as [|y says IH]; intros before Eq.
          - exfalso. apply (Nw c i n). cbn in Eq. rewrite Eq. apply in_or_app. right. left. reflexivity.
          - destruct before as [|z before]; cbn [app] in Eq.
            + injection Eq as -> Eq. exists says. reflexivity.
            + injection Eq as -> Eq. destruct (IH _ Eq) as (rest & ->). exists rest. reflexivity. }
        destruct Y as (rest & Y). apply (IH1 _ _ _ _ _ Y).
      * rewrite app_assoc in Eq.
        assert (Y : (exists rest, says = before ++ SStatus c i n :: rest) \/ (before = says ++ first /\ SStatus c i n = SStatus c0 i0 p)).
        { clear - Eq Nf. revert before Eq. induction says as [|y says IH]; intros before Eq.
          - right. cbn in Eq. revert before Eq. induction first as [|z first IHf]; intros before Eq.
            + destruct before as [|b before]; [injection Eq as -> -> -> _; auto|]. destruct before; discriminate Eq.
            + destruct before as [|b before]; cbn [app] in Eq; [injection Eq as -> _; exfalso; apply (Nf c i n); left; reflexivity|]. injection Eq as -> Eq.
              destruct (IHf ltac:(intros u v w X; apply (Nf u v w); right; exact X) _ Eq) as (-> & X). split; [reflexivity|exact X].
          - destruct before as [|z before]; cbn [app] in Eq.
            + injection Eq as -> Eq. left. exists says. reflexivity.
            + injection Eq as -> Eq. destruct (IH _ Eq) as [(rest & ->)|(-> & X)]; [left; exists rest; reflexivity|right; split; [reflexivity|exact X]]. }
        destruct Y as [(rest & Y)|(-> & Y)]; [apply (IH1 _ _ _ _ _ Y)|]. injection Y as -> -> ->.
        split; [reflexivity|]. split; [exact Ec|]. split; [intros Z; apply in_or_app; left; exact (Ei Z)|]. split.
        -- intros c' n' Z. apply in_app_or in Z. destruct Z as [Z|Z]; [|destruct (Nf _ _ _ Z)]. specialize (IH2 _ _ Z). rewrite <- Fi. exact (Fl IH2).
        -- intros Z X. specialize (Er X). congruence.
    + intros c n X. apply in_app_or in X. destruct X as [X|X]; [exact (Fl (IH2 _ _ X))|]. destruct Nw as [Nw|(first & c0 & i0 & -> & Nf & Fi & _)]; [destruct (Nw _ _ _ X)|].
      apply in_app_or in X. destruct X as [X|[X|[]]]; [destruct (Nf _ _ _ X)|]. injection X as _ Y _. rewrite Fi. exact Y.
Qed.

(** *** The lines of the reader *)
Definition ending (tail : list saying) : Prop := exists t, tail = [SReceiveError t] \/ exists n, tail = [SRead n; SReceiveError t].
Definition tail_inv (l : lstate) (tail : list saying) : Prop :=
  match l_read l with
  | Nothing => (tail = [] /\ bytes_ok (fst (lead (d_in (l_conn l))))) \/ (d_disconnect (l_conn l) = true /\ d_reader (l_conn l) <> RReading /\ ending tail)
  | Read (Ok m) _ => tail = [SRead (blen (wire m))] /\ bytes_ok (fst (lead (d_in (l_conn l))))
  | Read (Err _) _ => tail = [] \/ exists n, tail = [SRead n]
  | Read Panic _ => False
  end.
Lemma reader_told p s m : d_pieces s = p -> [SRead (blen (wire m))] ++ filter of_reader (told s m) = telling p m.
Proof.
  intros A. unfold told, telling, status_of. destruct m; try reflexivity. rewrite A, bit_bytes_required. destruct (blen bits =? bit_bytes p); reflexivity.
Qed.
Lemma raw_bytes fuel src body t : bytes_ok (fst (lead src)) -> read_message_raw fuel src = (Some (Ok body), t) -> bytes_ok body.
Proof.
  intros B H. pose proof (raw_message_spec src) as X. destruct (lead src) as [data e] eqn:E. cbn [fst] in B. specialize (X B). cbn zeta in X.
  assert (Big : forall r u f, read_message_raw fuel src = (Some r, u) -> (fuel <= f)%nat -> read_message_raw f src = (Some r, u)).
  { unfold read_message_raw. destruct (read_exact 4 src) as [[[q|q|]|] s0]; try (intros r u f Y _; exact Y). generalize (of_be_bytes q), (@nil N).
    clear. revert s0. induction fuel as [|fuel IH]; intros s0 len body r u f Y F; [cbn in Y; discriminate|]. destruct f as [|f]; [lia|]. cbn [raw_loop] in Y |- *.
    destruct (blen body <? len); [|exact Y]. destruct (await_read _ _ _ s0) as [[[[d|x|]|] l] s1]; try exact Y. apply IH; [exact Y|lia]. }
  specialize (Big _ _ (fuel + Datatypes.S (N.to_nat (of_be_bytes (firstn 4 data))))%nat H ltac:(lia)).
  destruct (4 <=? length data)%nat eqn:L4.
  - destruct (N.to_nat (of_be_bytes (firstn 4 data)) <=? length (skipn 4 data))%nat eqn:Ln.
    + destruct X as (t1 & Lt & X). rewrite X in Big by lia. assert (body = firstn (N.to_nat (of_be_bytes (firstn 4 data))) (skipn 4 data)) as -> by congruence.
      apply bytes_ok_firstn, bytes_ok_skipn. exact B.
    + destruct e as [x|]; [destruct X as (t1 & X); rewrite X in Big by lia; discriminate|]. pose proof (X fuel) as Y. rewrite H in Y. discriminate.
  - destruct X as (t1 & X). rewrite X in H. discriminate.
Qed.
Lemma tail_step p l says new l' tail : log_inv p l says -> read_inv l -> tail_inv l tail -> filter of_reader says = flat_map (telling p) (messages_in says) ++ tail -> lstep l new l' ->
  exists tail', tail_inv l' tail' /\ filter of_reader (says ++ new) = flat_map (telling p) (messages_in (says ++ new)) ++ tail'.
Proof.
  intros (A & _) V T F H. rewrite filter_app, messages_app, flat_map_app, F.
  assert (Quiet : filter of_reader new = [] -> messages_in new = [] -> tail_inv l' tail -> exists tail', tail_inv l' tail' /\
    (flat_map (telling p) (messages_in says) ++ tail) ++ filter of_reader new = (flat_map (telling p) (messages_in says) ++ flat_map (telling p) (messages_in new)) ++ tail').
  { intros N1 N2 T'. exists tail. rewrite N1, N2. cbn [flat_map]. rewrite !app_nil_r. auto. }
  unfold tail_inv, read_inv in *.
  destruct H as [l R D|l R D|l fuel body u R Q X|l fuel e u R Q X|l m u R Q|l e u R Q|l W D|l W D|l a W Ch|l W Ch|l a W|l a k e W K|l a W|l n W Q|l R W O];
    cbn [conn_to handled reading_to l_read l_conn] in *.
  - (* l_stop *) apply Quiet; [reflexivity|reflexivity|]. destruct (l_read l) as [|[m|e|] u]; try exact T. destruct T as [T|T]; [left; exact T|right]. cbn. repeat split; try tauto. discriminate.
  - (* l_go *) apply Quiet; [reflexivity|reflexivity|]. destruct (l_read l) as [|[m|e|] u]; try exact T. destruct T as [T|(T & _)]; [left; exact T|congruence].
  - (* l_body *) rewrite Q in T. destruct T as [(-> & B)|(_ & T & _)]; [|congruence]. exists [SRead (blen body)]. split.
    + destruct (decode_body body) as [m|e|] eqn:De; [|right; eauto|destruct (C95_decode_never_panics body De)].
      split; [|exact B]. pose proof (C95_read_sound fuel m (d_in (l_conn l)) u B) as S0. unfold read_peer_message in S0. rewrite X, De in S0. specialize (S0 eq_refl). destruct S0 as (K & S0).
      assert (Bb : bytes_ok body) by (eapply raw_bytes; eassumption). destruct (proj1 (C95_body_exactly body m Bb) De) as (_ & <-). reflexivity.
    + cbn. rewrite !app_nil_r. reflexivity.
  - (* l_fails *) rewrite Q in T. destruct T as [(-> & B)|(_ & T & _)]; [|congruence]. exists []. split; [left; reflexivity|]. cbn. rewrite !app_nil_r. reflexivity.
  - (* l_message *) rewrite Q in T, V. destruct T as (-> & B). destruct V as (_ & fuel & V). exists []. split.
    + left. split; [reflexivity|]. pose proof (received_keeps (with_seen (with_reader (with_in (l_conn l) u) RHead) m) m) as (_ & _ & _ & _ & K5 & _). rewrite K5. cbn.
      destruct (C95_read_sound _ _ _ _ B V) as (_ & S0). rewrite S0 in B. cbn [fst] in B. apply bytes_ok_app in B. destruct B as (_ & B). apply bytes_ok_app in B. tauto.
    + destruct (told_none (l_conn l) m) as (_ & -> & _). cbn [flat_map]. rewrite !app_nil_r, <- (reader_told p (l_conn l) m A), <- !app_assoc. reflexivity.
  - (* l_error *) rewrite Q in T. exists (tail ++ [SReceiveError (derror_text io lossy e)]). split.
    + right. cbn. repeat split; [discriminate|]. exists (derror_text io lossy e). destruct T as [->|(n & ->)]; [left; reflexivity|right; exists n; reflexivity].
    + cbn. rewrite app_nil_r, <- app_assoc. reflexivity.
  - apply Quiet; [reflexivity|reflexivity|]. exact T.
  - apply Quiet; [reflexivity|reflexivity|]. exact T.
  - apply Quiet; [reflexivity|reflexivity|]. exact T.
  - apply Quiet; [reflexivity|reflexivity|]. exact T.
  - apply Quiet; [reflexivity|reflexivity|]. exact T.
  - apply Quiet; [reflexivity|reflexivity|]. destruct (l_read l) as [|[m|e0|] u]; try exact T. destruct T as [T|(_ & T)]; [left; exact T|right; split; [reflexivity|exact T]].
  - apply Quiet; [reflexivity|reflexivity|]. exact T.
  - apply Quiet; [reflexivity|reflexivity|]. exact T.
  - apply Quiet; [reflexivity|reflexivity|]. exact T.
Qed.
(** ** C138: the reader tells the length and the content of every message, in order, one after
    the other; at the end there may be one message begun and one error *)
Theorem C138_reader p src says l : bytes_ok (fst (lead src)) -> lruns (l_init p src) says l -> exists tail,
  filter of_reader says = flat_map (telling p) (messages_in says) ++ tail /\
  (tail = [] \/ (exists n, tail = [SRead n]) \/ (exists t, tail = [SReceiveError t]) \/ exists n t, tail = [SRead n; SReceiveError t]).
Proof.
  intros B H. assert (G : exists tail, tail_inv l tail /\ filter of_reader says = flat_map (telling p) (messages_in says) ++ tail).
  { induction H as [|says m new n H IH P St]; [exists []; split; [left; split; [reflexivity|exact B]|reflexivity]|]. destruct IH as (tail & T & F).
    eapply tail_step; [eapply log_runs, H|eapply runs_read, H|exact T|exact F|exact St]. }
  destruct G as (tail & T & F). exists tail. split; [exact F|]. unfold tail_inv, ending in T. destruct (l_read l) as [|[m|e|] u].
  - destruct T as [(-> & _)|(_ & _ & t & [->|(n & ->)])]; eauto 8.
  - destruct T as (-> & _). eauto.
  - destruct T as [->|(n & ->)]; eauto.
  - destruct T.
Qed.

(** *** The end *)
Definition end_inv (l : lstate) (says : list saying) : Prop :=
  (d_disconnect (l_conn l) = true -> exists x, In x says /\ failure x) /\
  (d_reader (l_conn l) = RDone -> exists x, In x says /\ failure x) /\
  (In SFinished says -> l_over l = true) /\
  (l_over l = true -> d_reader (l_conn l) = RDone /\ d_writer (l_conn l) = WDone).
Lemma not_told s m : ~ In SFinished (told s m).
Proof. destruct m; cbn; try (destruct (negb _)); cbn; intros X; repeat (destruct X as [X|X]; [discriminate X|]); exact X. Qed.
Lemma more {A} (P : A -> Prop) says new : (exists x, In x says /\ P x) -> exists x, In x (says ++ new) /\ P x.
Proof. intros (x & X & Y). exists x. split; [apply in_or_app; left; exact X|exact Y]. Qed.
Lemma end_step l says new l' : end_inv l says -> lstep l new l' -> end_inv l' (says ++ new) /\ (In SFinished says -> False).
Proof.
  intros (A & B & C & D) H.
  assert (O : l_over l = true -> False).
  { intros O. destruct (D O) as (R & W). clear A B C D. destruct H; congruence. }
  assert (NF : In SFinished says -> False) by (intros X; exact (O (C X))). split; [|exact NF]. unfold end_inv.
  assert (C' : forall n, ~ In SFinished n -> In SFinished (says ++ n) -> False) by (intros n N0 X; apply in_app_or in X; tauto).
  assert (C1 : forall x, x <> SFinished -> In SFinished (says ++ [x]) -> False) by (intros x N0; apply C'; intros [Y|[]]; exact (N0 Y)).
  destruct H as [l R Di|l R Di|l fuel body u R Q X|l fuel e u R Q X|l m u R Q|l e u R Q|l W Di|l W Di|l a W Ch|l W Ch|l a W|l a k e W K|l a W|l n W Q|l R W O'].
  all: cbn [conn_to handled reading_to l_read l_conn l_over].
  1: (split; [|split; [|split]]; [cbn; intros Z; apply more, A, Z|intros _; apply more, A, Di|intros Z; destruct (C' [] ltac:(intros []) Z)|intros Z; destruct (O Z)]).
  1: (split; [|split; [|split]]; [cbn; intros Z; apply more, A, Z|cbn; discriminate|intros Z; destruct (C' [] ltac:(intros []) Z)|intros Z; destruct (O Z)]).
  1: (split; [|split; [|split]]; [cbn; intros Z; apply more, A, Z|intros Z; apply more, B, Z|intros Z; exfalso; revert Z; apply C1; discriminate|intros Z; destruct (O Z)]).
  1: (split; [|split; [|split]]; [cbn; intros Z; apply more, A, Z|intros Z; apply more, B, Z|intros Z; destruct (C' [] ltac:(intros []) Z)|intros Z; destruct (O Z)]).
  - split; [|split; [|split]].
    + intros Z. unfold on_received_message in Z.
      assert (No : forall s, d_disconnect (notify s) = true -> d_disconnect s = true) by (intros s; pose proof (notify_keeps s) as (_ & _ & _ & _ & _ & _ & _ & _ & _ & -> & _); auto).
      destruct m; try (apply No in Z; cbn in Z; apply more, A, Z). cbn [d_pieces with_seen with_reader with_in] in Z.
      destruct (negb (blen bits =? bitfield_bytes_required (d_pieces (l_conn l)))) eqn:Bb; [|apply No in Z; cbn in Z; apply more, A, Z].
      exists (SBadField (bitfield_bytes_required (d_pieces (l_conn l))) (blen bits)). split; [|exact Logic.I]. apply in_or_app. right. unfold told. rewrite Bb. right. left. reflexivity.
    + intros Z. exfalso. pose proof (received_keeps (with_seen (with_reader (with_in (l_conn l) u) RHead) m) m) as (_ & _ & _ & _ & _ & _ & _ & _ & [K|K] & _); rewrite K in Z; cbn in Z; discriminate Z.
    + intros Z. destruct (C' _ (not_told _ _) Z).
    + intros Z. destruct (O Z).
  - split; [|split; [|split]].
    + intros _. eexists. split; [apply in_or_app; right; left; reflexivity|exact Logic.I].
    + cbn. discriminate.
    + intros Z; exfalso; revert Z; apply C1; discriminate.
    + intros Z. destruct (O Z).
  - (split; [|split; [|split]]; [cbn; intros Z; apply more, A, Z|cbn; intros Z; apply more, B, Z|intros Z; destruct (C' [] ltac:(intros []) Z)|intros Z; destruct (O Z)]).
  - (split; [|split; [|split]]; [cbn; intros Z; apply more, A, Z|cbn; intros Z; apply more, B, Z|intros Z; destruct (C' [] ltac:(intros []) Z)|intros Z; destruct (O Z)]).
  - (split; [|split; [|split]]; [cbn; intros Z; apply more, A, Z|cbn; intros Z; apply more, B, Z|intros Z; destruct (C' [] ltac:(intros []) Z)|intros Z; destruct (O Z)]).
  - (split; [|split; [|split]]; [cbn; intros Z; apply more, A, Z|cbn; intros Z; apply more, B, Z|intros Z; destruct (C' [] ltac:(intros []) Z)|intros Z; destruct (O Z)]).
  - (split; [|split; [|split]]; [cbn; intros Z; apply more, A, Z|cbn; intros Z; apply more, B, Z|intros Z; exfalso; revert Z; apply C1; discriminate|intros Z; destruct (O Z)]).
  - split; [|split; [|split]].
    + intros _. eexists. split; [apply in_or_app; right; left; reflexivity|exact Logic.I].
    + cbn. intros Z. apply more, B, Z.
    + intros Z; exfalso; revert Z; apply C1; discriminate.
    + intros Z. destruct (O Z).
  - (split; [|split; [|split]]; [cbn; intros Z; apply more, A, Z|cbn; intros Z; apply more, B, Z|intros Z; exfalso; revert Z; apply C1; discriminate|intros Z; destruct (O Z)]).
  - (split; [|split; [|split]]; [cbn; intros Z; apply more, A, Z|cbn; intros Z; apply more, B, Z|intros Z; destruct (C' [] ltac:(intros []) Z)|intros Z; destruct (O Z)]).
  - split; [|split; [|split]].
    + intros Z. apply more, A, Z.
    + intros Z. apply more, B, Z.
    + reflexivity.
    + auto.
Qed.
(** ** C138: "Finished" is printed once, as the last line, and only after a failure was told *)
Theorem C138_finished p src says l before after : lruns (l_init p src) says l -> says = before ++ SFinished :: after ->
  after = [] /\ ~ In SFinished before /\ d_reader (l_conn l) = RDone /\ d_writer (l_conn l) = WDone /\ exists x, In x before /\ failure x.
Proof.
  intros H E.
  assert (G : end_inv l says /\ forall before after, says = before ++ SFinished :: after -> after = [] /\ ~ In SFinished before).
  { clear E before after. induction H as [|says m new n H (IH1 & IH2) P St].
    - split; [|intros [|? ?] after E; discriminate E]. unfold end_inv. cbn. repeat split; try discriminate; intros [].
    - destruct (end_step _ _ _ _ IH1 St) as (V & NF). split; [exact V|]. intros before after E.
      assert (Nn : ~ In SFinished new \/ new = [SFinished]).
      { destruct St; try (left; apply not_told); try (left; intros [Y|[]]; discriminate Y); try (left; intros []; fail). right. reflexivity. }
      destruct Nn as [Nn| ->].
      + exfalso. assert (X : In SFinished (says ++ new)) by (rewrite E; apply in_or_app; right; left; reflexivity). apply in_app_or in X. tauto.
      + destruct (exists_last (l := SFinished :: after) ltac:(discriminate)) as (u & x & Eu). rewrite Eu, app_assoc in E. apply app_inj_tail in E. destruct E as (E & <-).
        destruct u as [|y u].
        * rewrite app_nil_r in E. subst before. injection Eu as ->. auto.
        * injection Eu as <- _. exfalso. apply NF. rewrite E. apply in_or_app. right. left. reflexivity. }
  destruct G as ((A & B & C & D) & G). destruct (G _ _ E) as (-> & Nb). split; [reflexivity|]. split; [exact Nb|].
  assert (O : l_over l = true) by (apply C; rewrite E; apply in_or_app; right; left; reflexivity). destruct (D O) as (R & W). split; [exact R|]. split; [exact W|].
  destruct (B R) as (x & X & Fx). exists x. split; [|exact Fx]. rewrite E in X. apply in_app_or in X. destruct X as [X|[X|[]]]; [exact X|]. subst x. destruct Fx.
Qed.
End Log.
Print Assumptions C138_projection.
Print Assumptions C138_log_is_what_happened.
Print Assumptions C138_status.
Print Assumptions C138_reader.
Print Assumptions C138_finished.
