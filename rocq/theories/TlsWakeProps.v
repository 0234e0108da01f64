(** C125: no task of a TLS connection is left asleep while there is something for it. *)
From Verif Require Import Base BaseProofs MplexModel BinaryModel TlsCodesModel TlsTypesModel TlsRecordModel TlsRecordSpec TlsClientModel TlsClientSpec TlsClientProofs TlsClientProps
  TlsHonestSpec TlsHonestProofs3 TlsHonestProps TlsWakeModel TlsWakeSpec TlsWakeProofs.

(** *** The handshake *)
Definition follows (P : primitives) (s0 : ec_state) (X : exec) : Prop :=
  no_pending (x_reads X) /\ no_wpending (x_writes X) /\
  exists rx tx, x_got X = rx ++ concat (map data_of (x_reads X)) /\
  match x_task X with
  | Some s => x_result X = None /\ (x_ready X = true \/ parked P s (x_reads X) (x_writes X) (x_reader X) (x_writer X)) /\
      forall more, handshake_run P s0 (x_polls X ++ more) = let '(r, a, b) := handshake_run P s more in (r, rx ++ a, tx ++ b)
  | None => exists r, x_result X = Some r /\ handshake_run P s0 (x_polls X) = (Some r, rx, tx)
  end.
Lemma follows_start P s0 : follows P s0 (exec_start s0).
Proof.
  split; [constructor|]. split; [constructor|]. exists [], []. split; [reflexivity|]. cbn [x_task exec_start]. split; [reflexivity|]. split; [left; reflexivity|].
  intros more. change (x_polls (exec_start s0)) with (@nil (list answer * list wanswer)). cbn [app]. destruct (handshake_run P s0 more) as [[r a] b]. reflexivity.
Qed.
Lemma follows_step P s0 X Y : follows P s0 X -> xstep P X Y -> follows P s0 Y.
Proof.
  intros (Na & Nw & rx & tx & Hg & H) St. destruct St as [X a Ha|X a Ha|X s x s' reads writes sent Hr Ht Hp wk]; unfold follows; cbn [x_task x_result x_reads x_writes x_reader x_writer x_ready x_polls x_got].
  - split; [apply Forall_app; split; [exact Na|constructor; [exact Ha|constructor]]|]. split; [exact Nw|]. exists rx, tx. split; [rewrite Hg, map_app, concat_app, <- app_assoc; cbn [map concat]; rewrite app_nil_r; reflexivity|].
    destruct (x_task X) as [s|]; [|exact H]. destruct H as (H1 & H2 & H3). split; [exact H1|]. split; [|exact H3].
    destruct H2 as [->|[(A & B & ->)|(A & B & C)]]; [left; reflexivity|left; apply orb_true_r|right; right; auto].
  - split; [exact Na|]. split; [apply Forall_app; split; [exact Nw|constructor; [exact Ha|constructor]]|]. exists rx, tx. split; [exact Hg|].
    destruct (x_task X) as [s|]; [|exact H]. destruct H as (H1 & H2 & H3). split; [exact H1|]. split; [|exact H3].
    destruct H2 as [->|[(A & B & C)|(A & B & ->)]]; [left; reflexivity|right; left; auto|left; apply orb_true_r].
  - rewrite Ht in H. destruct H as (H1 & _ & H3). destruct (establish_suffix _ _ _ _ _ _ _ _ _ Hp) as (pre & Ea).
    assert (Us : used (x_reads X) reads = concat (map data_of pre)) by (rewrite Ea; apply used_app).
    assert (Nw' : no_wpending writes).
    { revert Nw Hp. clear. unfold establish_poll. generalize 7%nat. intros fuel. revert s x s' reads writes sent. generalize (x_reads X) (x_writes X). induction fuel as [|fuel IH]; intros a w s x s' reads writes sent Nw H.
      - cbn [ec_poll] in H. injection H as _ _ _ <- _. exact Nw.
      - destruct (over s) eqn:Ov; [destruct s; try discriminate Ov; cbn [ec_poll] in H; injection H as _ _ _ <- _; exact Nw|]. rewrite (ec_poll_eq _ _ _ _ _ Ov) in H.
        assert (R : forall s1 a1, round fuel P s1 a1 w = (x, s', reads, writes, sent) -> no_wpending writes).
        { intros s1 a1 R. unfold round in R. destruct (poll_step P s1 w) as [[[ready s2] w2] sn] eqn:E. destruct (step_pre _ _ _ _ _ _ _ E) as (prew & ->). pose proof (no_wpending_app _ _ Nw) as Nw2. destruct ready.
          - destruct (ec_poll fuel P s2 a1 w2) as [[[[x3 s3] a3] w3] more] eqn:E3. injection R as _ _ _ <- _. exact (IH _ _ _ _ _ _ _ _ Nw2 E3).
          - injection R as _ _ _ <- _. exact Nw2. }
        destruct (ec_recv s a) as [[[y s1] a1]|]; [destruct y as [|[u|e|]]|]; try exact (R _ _ H). injection H as _ _ _ <- _. exact Nw. }
    assert (Na' : no_pending reads) by (rewrite Ea in Na; exact (no_pending_app _ _ Na)).
    split; [exact Na'|]. split; [exact Nw'|]. exists (rx ++ concat (map data_of pre)), (tx ++ sent). split; [rewrite Hg, Ea, map_app, concat_app, app_assoc; reflexivity|].
    destruct x as [|r].
    + destruct (establish_waits P s (x_reads X) (x_writes X) s' reads writes sent Na Nw Hp) as (s1 & -> & G). split; [reflexivity|]. split; [exact G|].
      intros more. rewrite <- app_assoc, H3. cbn [app]. rewrite run_cons, Hp. destruct (handshake_run P s1 more) as [[r a] b]. rewrite Us, !app_assoc. reflexivity.
    + exists r. split; [reflexivity|]. rewrite H3, run_cons, Hp, Us. reflexivity.
Qed.
Lemma follows_run P s0 X : xruns P (exec_start s0) X -> follows P s0 X.
Proof. induction 1 as [|Y Z R IH St]; [apply follows_start|exact (follows_step _ _ _ _ IH St)]. Qed.

(** In every execution, a handshake that is not about to be polled has nothing to do: polling
    it would change nothing, and the part of the transport it waits for has nothing for it and
    will wake it. *)
Theorem C125_asleep_with_reason P s0 X s : xruns P (exec_start s0) X -> x_task X = Some s -> x_ready X = false ->
  establish_poll P s (x_reads X) (x_writes X) = (Wait, Some s, x_reads X, x_writes X, []) /\
  ((x_reads X = [] /\ x_reader X = true) \/ (x_writes X = [] /\ x_writer X = true)).
Proof.
  intros R Ht Hr. destruct (follows_run _ _ _ R) as (_ & _ & rx & tx & _ & H). rewrite Ht in H. destruct H as (_ & [H|H] & _); [congruence|].
  split; [exact (parked_again _ _ _ _ _ _ H)|]. destruct H as [(_ & A & B)|(_ & A & B)]; auto.
Qed.
Print Assumptions C125_asleep_with_reason.

(** Hence a handshake with an authentic server ends: when everything the server sends has
    arrived, the transport takes what the client sends and the task is not about to be
    polled, the connection is there, with the right keys. *)
Theorem C125_honest_handshake_ends P random session private cfg protocols hello all remain h client whole keys total X later : sizes_ok P -> aead_ok P -> hmac_ok P ->
  encode_handshake (HClientHello (make_client_hello random session (public_of P private) (cf_name cfg) protocols)) = Ok hello ->
  authentic P cfg private hello all remain h client whole keys -> client_sent P cfg h client whole hello total ->
  xruns P (exec_start (establish P random session private cfg protocols)) X ->
  steady (x_polls X ++ [(x_reads X, x_writes X)]) -> x_got X ++ later = all -> (length all <= length (x_got X) + length remain)%nat ->
  Forall eager_out (x_writes X) -> (2 * (length total + 1) <= length (x_writes X))%nat ->
  x_ready X = false -> exists c, x_result X = Some (Ok c) /\ fresh (t_client keys) (t_server keys) c.
Proof.
  intros Sz Ae Hm En Au Cs R St Hall Hlen Fw Lw Hr. apply Forall_app in St. destruct St as [St St2]. inversion St2 as [|? ? [Fa _] _]; subst. cbn [fst] in Fa.
  destruct (follows_run _ _ _ R) as (_ & _ & rx & tx & Hg & H). destruct (x_task X) as [s|] eqn:Ht.
  - exfalso. destruct H as (H1 & [H2|H2] & H3); [congruence|]. pose proof (parked_again _ _ _ _ _ _ H2) as Pk. destruct H2 as [(_ & A & _)|(_ & A & _)]; [|rewrite A in Lw; cbn [length] in Lw; lia].
    rewrite A in *. cbn [map concat] in Hg. rewrite app_nil_r in Hg. pose proof (H3 []) as H4. rewrite app_nil_r in H4. cbn [handshake_run] in H4. rewrite !app_nil_r in H4.
    destruct (C113_completes P random session private cfg protocols hello (x_got X ++ later) remain h client whole keys total Sz Ae Hm En Au Cs (x_polls X) rx tx [] (x_writes X) later St H4 (Forall_nil _)
      ltac:(cbn [map concat app]; rewrite Hg; reflexivity) ltac:(cbn [firstn map concat]; rewrite app_nil_r, <- Hg; exact Hlen) Fw Lw) as (c & rx' & tx' & G & _).
    rewrite H3, run_cons, Pk in G. cbn [handshake_run] in G. discriminate G.
  - destruct H as (r & H1 & H2).
    destruct (C113_never_rejected P random session private cfg protocols hello (x_got X ++ later) remain h client whole keys total Sz Ae Hm En Au Cs (x_polls X) (Some r) rx tx (concat (map data_of (x_reads X)) ++ later) St H2
      ltac:(rewrite Hg, <- app_assoc; reflexivity)) as [G|(c & G & F & _)]; [discriminate G|]. injection G as ->. exists c. auto.
Qed.
Print Assumptions C125_honest_handshake_ends.

(** *** Reading, writing and closing *)
Lemma fill_waits fuel : forall P c answers c' rest, fill_loop fuel P c answers = (Wait, c', rest) -> mem Woken (fill_wakes fuel P c answers) = true.
Proof.
  induction fuel as [|fuel IH]; intros P c answers c' rest H; cbn [fill_loop fill_wakes] in *; [discriminate H|].
  destruct (poll_recv (ps_receiver (cn_plain c)) answers) as [[x r] a1]. rewrite mem_app. destruct x as [|[u|e|]]; try discriminate H; [apply orb_true_r|].
  cbv zeta in H |- *. cbn [with_receiver set_plain cn_seq] in H |- *.
  destruct (receive_encrypted_message P r (se_server (cn_seq c)) (se_enc (cn_seq c)) None) as [[[y r2] n] ts]. destruct y as [|[[m|]|e|]]; try discriminate H; [apply orb_true_r|].
  destruct m as [| |al|h|d|code]; try discriminate H.
  - destruct (a_description al); discriminate H.
  - destruct h; try discriminate H. rewrite (IH _ _ _ _ _ H). apply orb_true_r.
Qed.
Lemma flush_stays c w c' w' sent : no_wpending w -> flush_encrypted c w = (Wait, c', w', sent) ->
  w' = [] /\ flush_wakes (ps_out (cn_plain c)) w = [WriterKeeps] /\ ps_write (cn_plain c') = ps_write (cn_plain c) /\ flush_encrypted c' [] = (Wait, c', [], []) /\ forall out, flush_wakes out [] = [WriterKeeps].
Proof.
  intros Nw. unfold flush_encrypted, stream_flush. destruct (flush_out (ps_out (cn_plain c)) (ps_write (cn_plain c)) w) as [[[[x out] ws] w1] sn] eqn:E. intros H. injection H as -> <- <- <-.
  destruct (flush_waits _ _ _ _ _ _ _ Nw E) as (A & B & C). split; [exact A|]. split; [exact B|]. split; [exact C|]. split; [|intros [|]; reflexivity].
  cbn [set_plain cn_plain ps_out ps_write ps_receiver]. destruct out; reflexivity.
Qed.
Lemma shutdown_stays c w c' w' sent : no_wpending w -> shutdown_rest c w = (Wait, c', w', sent) ->
  w' = [] /\ mem WriterKeeps (shutdown_rest_wakes c w) = true /\ ps_write (cn_plain c') = ps_write (cn_plain c) /\ shutdown_rest c' [] = (Wait, c', [], []).
Proof.
  intros Nw. unfold shutdown_rest, shutdown_rest_wakes. destruct (flush_encrypted c w) as [[[x c1] w1] sn] eqn:E. rewrite mem_app. destruct x as [|[u|e|]]; try discriminate.
  - intros H. injection H as -> -> ->. destruct (flush_stays _ _ _ _ _ Nw E) as (A & B & C & D & F). rewrite B, D. auto.
  - unfold flush_encrypted, stream_flush in E. destruct (flush_out (ps_out (cn_plain c)) (ps_write (cn_plain c)) w) as [[[[x out] ws] w2] sn2] eqn:E2. injection E as -> <- <- <-.
    destruct (flush_pre _ _ _ _ _ _ _ _ E2) as (pre & Ew). assert (Nw2 : no_wpending w2) by (rewrite Ew in Nw; exact (no_wpending_app _ _ Nw)).
    destruct (flush_spec _ _ _ _ _ _ _ _ E2) as (_ & G & _). destruct (G ltac:(destruct u; reflexivity)) as [-> ->].
    destruct w2 as [|[|n|e] w2]; try discriminate; [|inversion Nw2; contradiction]. intros H. injection H as <- <- <-. cbn [mem existsb]. rewrite orb_true_r.
    split; [reflexivity|]. split; [reflexivity|]. split; [reflexivity|]. unfold flush_encrypted, stream_flush. cbn [set_plain cn_plain ps_out ps_write ps_receiver flush_out]. reflexivity.
Qed.

(** Every operation on a connection that waits has woken its task already or waits for the
    transport to take more: polling it again changes nothing, and the transport will wake
    it. *)
Theorem C125_operations P c o reads writes c' reads' writes' wk : no_pending reads -> no_wpending writes ->
  op_poll P c o reads writes = (true, c', reads', writes', wk) ->
  mem Woken wk = true \/
  (writes' = [] /\ mem WriterKeeps wk = true /\ exists wk', op_poll P c' o reads' [] = (true, c', reads', [], wk') /\ mem WriterKeeps wk' = true).
Proof.
  intros Na Nw. destruct o as [room|data| |]; cbn [op_poll].
  - destruct (conn_read P c room reads) as [[x c1] r1] eqn:E. intros H. destruct x; [|discriminate H]. injection H as <- <- <- <-. left.
    unfold conn_read in E. unfold read_wakes. destruct (cn_read c); try discriminate E. unfold fill_incoming in E. destruct (cn_in c); [|discriminate E].
    destruct (fill_loop (S (length reads)) P c reads) as [[y c2] r2] eqn:F. destruct y as [|[u|e|]]; try discriminate E. exact (fill_waits _ _ _ _ _ _ F).
  - destruct (conn_write P c data writes) as [[[x c1] w1] sn] eqn:E. intros H. destruct x; [|discriminate H]. injection H as <- <- <- <-. right.
    unfold conn_write, write_wakes in *. destruct (ps_write (cn_plain c)) eqn:W; try discriminate E. destruct (flush_encrypted c writes) as [[[y c2] w2] sn2] eqn:F.
    destruct y as [|[u|e|]]; try discriminate E; [|destruct (append_application_data P c2 _) as [[?|?|] ?]; discriminate E]. injection E as -> -> ->.
    destruct (flush_stays _ _ _ _ _ Nw F) as (A & B & C & D & G). rewrite A, B, C, W, D, G. split; [reflexivity|]. split; [reflexivity|]. eexists. split; reflexivity.
  - destruct (conn_flush c writes) as [[[x c1] w1] sn] eqn:E. intros H. destruct x; [|discriminate H]. injection H as <- <- <- <-. right.
    unfold conn_flush, write_wakes in *. destruct (ps_write (cn_plain c)) eqn:W; try discriminate E.
    destruct (flush_stays _ _ _ _ _ Nw E) as (A & B & C & D & G). rewrite A, B, C, W, D, G. split; [reflexivity|]. split; [reflexivity|]. eexists. split; reflexivity.
  - destruct (conn_shutdown P c writes) as [[[x c1] w1] sn] eqn:E. intros H. destruct x; [|discriminate H]. injection H as <- <- <- <-. right.
    assert (S0 : forall c0, ps_write (cn_plain c0) = WsShutdown -> shutdown_rest c0 writes = (Wait, c1, w1, sn) ->
      w1 = [] /\ mem WriterKeeps (shutdown_rest_wakes c0 writes) = true /\ exists wk', (let '(x, c', writes', _) := conn_shutdown P c1 [] in
         (match x with Wait => true | _ => false end, c', reads, writes', shutdown_wakes P c1 [])) = (true, c1, reads, [], wk') /\ mem WriterKeeps wk' = true).
    { intros c0 W0 E0. destruct (shutdown_stays _ _ _ _ _ Nw E0) as (A & B & C & D). split; [exact A|]. split; [exact B|].
      unfold conn_shutdown, shutdown_wakes. rewrite C, W0, D. eexists. split; [reflexivity|]. unfold shutdown_rest_wakes. destruct (flush_encrypted c1 []) as [[[y c2] w2] sn2].
      rewrite mem_app. destruct (ps_out (cn_plain c1)); reflexivity. }
    unfold conn_shutdown, shutdown_wakes in *. destruct (ps_write (cn_plain c)) eqn:W; try discriminate E.
    + destruct (append_close_notify P c) as [[u|e|] c0]; try discriminate E. exact (S0 (set_write c0 WsShutdown) eq_refl E).
    + exact (S0 c W E).
Qed.
Print Assumptions C125_operations.

(** A read that waits wakes its own task, whatever the transport does: while the peer says
    nothing the task is polled again and again and never sleeps. *)
Theorem C125_waiting_read_spins_refuted P c room w : cn_read c = RActive -> cn_in c = [] ->
  exists wk, op_poll P c (OpRead room) [] w = (true, c, [], w, wk) /\ mem Woken wk = true.
Proof.
  intros A B. cbn [op_poll]. unfold conn_read, read_wakes, fill_incoming. rewrite A, B. cbn [length fill_loop fill_wakes poll_recv recv_wakes app].
  eexists. split; [unfold with_receiver, set_plain; destruct c as [[r out ws] se inn rs]; reflexivity|reflexivity].
Qed.
Print Assumptions C125_waiting_read_spins_refuted.

(** The toy server under the executor.  The client's first message is taken in two parts; the
    server's flight comes in two parts, and the client sleeps between them with the reader
    keeping its waker; the connection is there at the end. *)
Inductive event := EArrives (b : bytes) | EDrains (n : nat) | EPoll.
Definition happen (P : primitives) (X : exec) (e : event) : exec :=
  match e with
  | EArrives b => {| x_task := x_task X; x_result := x_result X; x_reads := x_reads X ++ [ARead b]; x_writes := x_writes X;
      x_reader := false; x_writer := x_writer X; x_ready := x_ready X || x_reader X; x_polls := x_polls X; x_got := x_got X ++ b |}
  | EDrains n => {| x_task := x_task X; x_result := x_result X; x_reads := x_reads X; x_writes := x_writes X ++ [WOk n];
      x_reader := x_reader X; x_writer := false; x_ready := x_ready X || x_writer X; x_polls := x_polls X; x_got := x_got X |}
  | EPoll =>
    match x_ready X, x_task X with
    | true, Some s =>
      let '(x, s', reads, writes, _) := establish_poll P s (x_reads X) (x_writes X) in
      let wk := establish_wakes P s (x_reads X) (x_writes X) in
      {| x_task := match x with Wait => s' | Done _ => None end; x_result := match x with Wait => None | Done r => Some r end;
         x_reads := reads; x_writes := writes; x_reader := mem ReaderKeeps wk; x_writer := mem WriterKeeps wk; x_ready := mem Woken wk;
         x_polls := x_polls X ++ [(x_reads X, x_writes X)]; x_got := x_got X |}
    | _, _ => X
    end
  end.
Lemma happens P X0 X e : xruns P X0 X -> xruns P X0 (happen P X e).
Proof.
  intros R. destruct e as [b|n|]; cbn [happen].
  - exact (xr_step _ _ _ _ R (x_arrives P X (ARead b) ltac:(discriminate))).
  - exact (xr_step _ _ _ _ R (x_drains P X (WOk n) ltac:(discriminate))).
  - destruct (x_ready X) eqn:A; [|exact R]. destruct (x_task X) as [s|] eqn:B; [|exact R].
    destruct (establish_poll P s (x_reads X) (x_writes X)) as [[[[x s'] reads] writes] sent] eqn:E. exact (xr_step _ _ _ _ R (x_polled P X s x s' reads writes sent A B E)).
Qed.
Definition seen (X : exec) := (x_ready X, x_reader X, x_writer X, match x_result X with Some (Ok _) => true | _ => false end).
Definition toy_plays (es : list event) : exec := fold_left (happen toy) es (exec_start (toy_start SaSelfSigned)).
Definition toy_part1 : list event := [EPoll; EDrains 100; EPoll; EDrains 2000; EPoll; EDrains 0; EPoll].
Definition toy_part2 : list event := toy_part1 ++ [EArrives (firstn 200 toy_all); EPoll; EPoll].
Definition toy_part3 : list event := toy_part2 ++ [EDrains 2000; EDrains 0; EArrives (skipn 200 toy_all); EPoll; EPoll].
Example C125_sample :
  (forall es, xruns toy (exec_start (toy_start SaSelfSigned)) (toy_plays es)) /\
  map (fun k => seen (toy_plays (firstn k toy_part1))) [0; 1; 2; 7]%nat = [(true, false, false, false); (false, false, true, false); (true, false, false, false); (false, true, false, false)] /\
  seen (toy_plays toy_part2) = (false, true, false, false) /\ x_reads (toy_plays toy_part2) = [] /\
  seen (toy_plays toy_part3) = (true, false, false, true).
Proof.
  split; [|repeat (split; [vm_compute; reflexivity|]); vm_compute; reflexivity].
  intros es. unfold toy_plays. generalize (xr_refl toy (exec_start (toy_start SaSelfSigned))). generalize (exec_start (toy_start SaSelfSigned)) at 2 4.
  induction es as [|e es IH]; intros X R; cbn [fold_left]; [exact R|]. apply IH, happens, R.
Qed.
