(** Properties C68-C70, C88 and C89: the simulator and its stop-and-wait protocol. *)
From Verif Require Import Base BaseProofs MplexModel SimModel SimSpec SimProofs SimProofs2.
From Coq Require Import Lia ZArith ZifyBool ZifyNat ZifyN Permutation.
Ltac Zify.zify_post_hook ::= Z.div_mod_to_equations.
Local Open Scope string_scope. Local Open Scope list_scope. Local Open Scope N_scope.

(** *** C68: channels *)
(** What is received and what is still in the channel are exactly the copies of what was sent,
    each with a number of its own, the [k]th message being sent at [k * inv_bandwidth]. *)
Theorem C68_copies_partial M p (ops : list (channel_op M)) c got : channel_run p ops channel_new = Ok (c, got) ->
  exists xss, all_copies p 0 (sends ops) xss /\ Permutation (concat xss) (got ++ ch_messages c) /\ NoDup (map mt_no (got ++ ch_messages c)) /\
    ch_next_send c = N.of_nat (length (sends ops)) * inv_bandwidth p.
Proof.
  intros E. destruct (channel_run_inv p ops [] [] channel_new c got (channel_new_inv p) E) as (xss & A & Pm & ND & _ & ES). cbn [app] in *.
  exists xss. split; [exact A|]. split; [exact Pm|]. split; [|exact ES]. eapply Permutation_NoDup; [|exact ND]. apply Permutation_map. exact Pm.
Qed.
Print Assumptions C68_copies_partial.
(** The message received is the pending one with the least time, then the least priority, then
    the longest in the channel; there is one unless the channel is empty. *)
Theorem C68_order M (c : channel M) :
  (ch_messages c = [] /\ channel_recv c = (None, c)) \/
  (exists l1 x l2, ch_messages c = l1 ++ x :: l2 /\
    channel_recv c = (Some x, {| ch_messages := l1 ++ l2; ch_next_no := ch_next_no c; ch_next_send := ch_next_send c |}) /\
    Forall (fun y => earlier x y) l1 /\ Forall (fun y => ~ earlier y x) l2).
Proof. apply recv_cases. Qed.
Print Assumptions C68_order.
(** What a side sends goes to the channel the other side receives from, and to no other. *)
Theorem C68_endpoints M s prm (m : M) ds p p' : endpoint_send s prm m ds p = Ok p' ->
  channel_send prm m ds (recv_channel (other s) p) = Ok (recv_channel (other s) p') /\ recv_channel s p' = recv_channel s p /\
  (forall s', fst (endpoint_recv s' p) = fst (channel_recv (send_channel (other s') p)) /\ send_channel s' (snd (endpoint_recv s' p)) = send_channel s' p).
Proof.
  unfold endpoint_send. intros E. apply bind_ok in E. destruct E as (c & E & E2). assert (p' = set_send s c p) as -> by congruence. split; [destruct s; exact E|]. split; [destruct s; reflexivity|].
  intros s'. unfold endpoint_recv. destruct s'; cbn [recv_channel send_channel other]; destruct (channel_recv _) as [x c']; split; reflexivity.
Qed.
Print Assumptions C68_endpoints.
(** The times of the next events are the least ones. *)
Theorem C68_next_times M s (p : pair M) (c : channel M) l :
  least (present l) (opt_min l) /\ least (map mt_time (ch_messages c)) (next_recv_time c) /\
  least (ch_next_send (send_channel s p) :: map mt_time (ch_messages (recv_channel s p))) (next_event_time s p).
Proof.
  split; [apply (opt_min_fold l None)|]. split; [apply next_recv_least|]. unfold next_event_time.
  pose proof (opt_min_fold [Some (ch_next_send (send_channel s p)); next_recv_time (recv_channel s p)] None) as H. fold (opt_min [Some (ch_next_send (send_channel s p)); next_recv_time (recv_channel s p)]) in H.
  pose proof (next_recv_least (recv_channel s p)) as R. destruct (opt_min _) as [n|]; cbn [app present flat_map] in H; [|discriminate].
  destruct (next_recv_time (recv_channel s p)) as [t|]; cbn [least app] in *.
  - destruct H as [I F]. destruct R as [It Ft]. inversion F as [|? ? F1 F2]; subst. inversion F2 as [|? ? F3 F4]; subst. split.
    + destruct I as [<-|[<-|[]]]; [left; reflexivity|right; exact It].
    + constructor; [exact F1|]. eapply Forall_impl; [|exact Ft]. intros y Hy. cbv beta in Hy. lia.
  - rewrite R. exact H.
Qed.
Print Assumptions C68_next_times.
Definition dr (extra : N) (lost : bool) (pr : N) : draw := {| dr_extra := extra; dr_lost := lost; dr_priority := pr |}.
(** Three messages, the second doubled, the third lost: the second overtakes the first. *)
Example C68_run_example :
  exists c, channel_run main_params [OSend 1 [dr 900 false 5]; OSend 2 [dr 0 false 7; dr 0 false 6]; ORecv; OSend 3 [dr 1 true 0]; ORecv; ORecv; ORecv] channel_new = Ok (c,
    [{| mt_no := 2; mt_time := 723; mt_priority := 6; mt_message := 2 |}; {| mt_no := 1; mt_time := 723; mt_priority := 7; mt_message := 2 |}; {| mt_no := 0; mt_time := 1100; mt_priority := 5; mt_message := 1 |}]) /\
    ch_messages c = [] /\ ch_next_send c = 1569.
Proof. eexists. vm_compute. repeat split; reflexivity. Qed.
(** Nothing waits for the time of a message: the consumer of [main] has accepted one at time 0,
    with a least latency of 200. *)
Theorem C68_latency_refuted : ~ (forall rs w, main_loop 1 main_params 0 rs (world_new 5 0) = Ok w -> pe_accepted (wd_second w) = []).
Proof. intros H. specialize (H (fun _ _ => []) _ ltac:(vm_compute; reflexivity)). vm_compute in H. discriminate. Qed.
Print Assumptions C68_latency_refuted.
(** Times are counted from the last message sent, not from when it is sent: sent at any time [now],
    the first message arrives at the latency. *)
Theorem C68_send_time_refuted M p (m : M) d c : dr_lost d = false -> channel_send p m [d] channel_new = Ok c ->
  Forall (fun x => mt_time x <= latency_min p + dr_extra d) (ch_messages c) /\ ch_messages c <> [].
Proof.
  intros L E. destruct (send_ok _ _ _ _ _ E) as (xs & (n & Hn & F) & Em & _). rewrite Em. cbn [channel_new ch_messages app]. cbn [channel_new ch_next_send] in F.
  destruct n as [|[|n]]; [destruct Hn as [Hn|(d1 & N1 & L1)]; [discriminate|cbn [nth_error] in N1; congruence]| |]; cbn [firstn] in F; (inversion F as [|? x ? ? Hx F1]; subst; inversion F1; subst);
    (split; [repeat constructor; destruct Hx as (_ & _ & _ & ->); destruct (_ <=? _); lia|discriminate]).
Qed.
Print Assumptions C68_send_time_refuted.
(** The loss of the first copy is the loss of both. *)
Theorem C68_duplicate_refuted M p (m : M) d1 d2 c c' : dr_lost d1 = true -> channel_send p m [d1; d2] c = Ok c' -> ch_messages c' = ch_messages c.
Proof.
  intros L E. destruct (send_ok _ _ _ _ _ E) as (xs & (n & Hn & F) & Em & _). rewrite Em. destruct n; cbn [firstn] in F; inversion F; subst; [apply app_nil_r|]. destruct H1 as (H1 & _). congruence.
Qed.
Print Assumptions C68_duplicate_refuted.
Example C68_duplicate_example : exists c, channel_send main_params 9 [dr 0 true 0; dr 0 false 0] channel_new = Ok c /\ ch_messages c = [].
Proof. eexists. vm_compute. repeat split; reflexivity. Qed.

(** *** C69: waiting for a time *)
Lemma pushed_kept w es w' : clock_runs w es w' -> forall task target, In (EPush task target) es \/ In (task, target) (cw_waits w) \/ In task (ck_woken (cw_clock w)) ->
  ck_wakers (cw_clock w) = map fst (cw_waits w) -> In (task, target) (cw_waits w') \/ In task (ck_woken (cw_clock w')).
Proof.
  induction 1 as [w|w e w' es w'' ST _ IH]; intros task target H W; [destruct H as [[]|H]; exact H|]. apply IH.
  - destruct ST as [w t|w n E|w k g L|w k g L|w k g a b E]; cbn [cw_clock cw_waits clock_write clock_notify clock_push ck_woken ck_wakers] in *; cbn [In] in H.
    + destruct H as [[H|H]|H]; [discriminate|auto|auto].
    + destruct H as [[H|H]|[H|H]]; [discriminate|auto| |]; right; right; apply in_or_app; [right; rewrite W; apply (in_map fst _ _ H)|left; exact H].
    + destruct H as [[H|H]|H]; [discriminate|auto|auto].
    + destruct H as [[H|H]|H]; [discriminate|auto|auto].
    + destruct H as [[H|H]|[H|H]]; [|auto| |auto]; right; left; apply in_or_app; [right; left; congruence|left; exact H].
  - destruct ST; cbn [cw_clock cw_waits clock_write clock_notify clock_push ck_wakers] in *; auto. rewrite W, map_app. reflexivity.
Qed.
Lemma quiet_clock w es w' : quiet_runs w es w' -> clock_runs w es w'.
Proof. induction 1; econstructor; eauto. Qed.
(** If the time is never written while a waiter is between reading it and leaving its waker,
    then, once every setter has notified, whoever left a waker has been woken or waits for a time
    still to come. *)
Theorem C69_woken_partial es w task target : quiet_runs clock_start es w -> cw_writing w = 0%nat -> In (EPush task target) es ->
  In task (ck_woken (cw_clock w)) \/ (In task (ck_wakers (cw_clock w)) /\ ck_time (cw_clock w) < target).
Proof.
  intros Q W P. assert (I0 : clock_inv clock_start) by (repeat split; constructor). destruct (quiet_inv _ _ _ Q I0) as (I1 & I2 & _).
  destruct (pushed_kept _ _ _ (quiet_clock _ _ _ Q) task target (or_introl P) eq_refl) as [H|H]; [right|left; exact H].
  split; [rewrite I1; apply (in_map fst _ _ H)|]. specialize (I2 W). rewrite Forall_forall in I2. apply (I2 _ H).
Qed.
Print Assumptions C69_woken_partial.
(** A waiter reads the time, the time is set and announced, the waiter leaves its waker: the
    time it waits for has come, nothing is in progress and nobody wakes it. *)
Theorem C69_lost_refuted : exists es w, clock_runs clock_start es w /\ cw_writing w = 0%nat /\ cw_reading w = [] /\ In (EPush 1 5) es /\ ck_woken (cw_clock w) = [] /\ ck_time (cw_clock w) = 5.
Proof.
  exists [ERead 1 5; EWrite 5; ENotify; EPush 1 5]. eexists. split.
  - eapply CMore; [apply CEarly; cbn; lia|]. eapply CMore; [apply CWrite|]. eapply CMore; [eapply CNotify; reflexivity|]. eapply CMore; [apply (CPush _ 1%nat 5 [] []); reflexivity|]. apply CDone.
  - cbn. auto 10.
Qed.
Print Assumptions C69_lost_refuted.
(** The calls as a whole. *)
Theorem C69_calls task target t c :
  (clock_poll task target c = (Done tt, c) <-> target <= ck_time c) /\
  (clock_poll task target c = (Wait, clock_push task c) <-> ck_time c < target) /\
  ck_time (clock_set t c) = t /\ ck_wakers (clock_set t c) = [] /\ ck_woken (clock_set t c) = ck_woken c ++ ck_wakers c /\
  clock_advance t c = (if ck_time c + t <? two64 then Ok (clock_set (ck_time c + t) c) else Panic).
Proof.
  unfold clock_poll, clock_advance, add64. destruct (N.leb_spec target (ck_time c)) as [L|L];
    (split; [split; [intros H; first [exact L|discriminate]|intros H; first [reflexivity|lia]]|split; [split; [intros H; first [discriminate|exact L]|intros H; first [reflexivity|lia]]|]]); repeat split; destruct (_ <? _); reflexivity.
Qed.
Print Assumptions C69_calls.
(** Two waiters, woken once their times have come. *)
Example C69_example : exists w, quiet_runs clock_start [ERead 1 5; EPush 1 5; EWrite 3; ENotify; ERead 1 5; EPush 1 5; ERead 2 9; EPush 2 9; EWrite 7; ENotify; ERead 1 5; ERead 2 9; EPush 2 9] w /\
  ck_woken (cw_clock w) = [1; 1; 2]%nat /\ ck_wakers (cw_clock w) = [2]%nat /\ ck_time (cw_clock w) = 7.
Proof.
  eexists. split.
  - Ltac q := eapply QMore; [first [apply CWrite|eapply CNotify; reflexivity|apply CReady; cbn; lia|apply CEarly; cbn; lia]|intros; first [reflexivity|discriminate]|]; match goal with |- quiet_runs ?w _ _ => let w' := eval vm_compute in w in change w with w' end.
    Ltac r k t := eapply QMore; [apply (CPush _ k t [] []); reflexivity|discriminate|]; match goal with |- quiet_runs ?w _ _ => let w' := eval vm_compute in w in change w with w' end.
    q. r 1%nat 5. q. q. q. r 1%nat 5. q. r 2%nat 9. q. q. q. q. r 2%nat 9. apply QDone.
  - repeat split; reflexivity.
Qed.

(** *** C70: stop and wait *)
(** Whatever is lost, doubled or delayed and whenever the peers step: the consumer accepts the
    messages in order, each once, and the producer takes none for acknowledged that it has not
    accepted. *)
Theorem C70_in_order prm l count w : world_run prm l (world_new count 0) = Ok w ->
  pe_accepted (wd_second w) = in_order (pe_ack (wd_second w)) /\ pe_ack (wd_first w) <= pe_ack (wd_second w) <= count /\ pe_accepted (wd_first w) = [].
Proof. intros E. destruct (run_inv_world _ _ _ _ _ (world_new_inv count) E) as ((_ & _ & (_ & _ & C3 & C4) & _ & PA & PX) & _). auto. Qed.
Print Assumptions C70_in_order.
(** What has been accepted or acknowledged stays so. *)
Theorem C70_monotone prm l l' count w w' : world_run prm l (world_new count 0) = Ok w -> world_run prm l' w = Ok w' ->
  pe_ack (wd_first w) <= pe_ack (wd_first w') /\ (exists more, pe_accepted (wd_second w') = pe_accepted (wd_second w) ++ more).
Proof.
  intros E E'. destruct (run_inv_world _ _ _ _ _ (world_new_inv count) E) as (I & _). destruct (run_inv_world _ _ _ _ _ I E') as (I' & L1 & L2). split; [exact L1|].
  destruct I as (_ & _ & (_ & _ & C3 & _) & _). destruct I' as (_ & _ & (_ & _ & C3' & _) & _). rewrite C3, C3'. unfold in_order.
  replace (N.to_nat (pe_ack (wd_second w'))) with (N.to_nat (pe_ack (wd_second w)) + (N.to_nat (pe_ack (wd_second w')) - N.to_nat (pe_ack (wd_second w))))%nat by lia.
  rewrite seq_app, map_app. eauto.
Qed.
Print Assumptions C70_monotone.
(** Nothing overflows, and the loops end, as long as the times stay below 2^64. *)
Theorem C70_no_panic prm extra l count : count < two64 - 1 ->
  (2 * N.of_nat (length l) + 3) * inv_bandwidth prm + latency_min prm + extra < two64 -> 4 * N.of_nat (length l) + 6 < two64 ->
  Forall (fun x => let '(_, now, rs) := x in now + 1000 < two64 /\ draws_ok extra rs) l -> exists w, world_run prm l (world_new count 0) = Ok w.
Proof.
  intros LC L1 L2 F. apply (run_total prm extra count l 0 (world_new count 0) LC); [split; lia|apply world_new_inv|apply sized_new|exact F].
Qed.
Print Assumptions C70_no_panic.
(** The program as it is: it never panics and accepts in order. *)
Theorem C70_main rs n : (n <= N.to_nat 100000)%nat -> (forall now s, draws_ok 400 (rs now s)) ->
  exists w, main_loop n main_params 0 rs (world_new 5 0) = Ok w /\ pe_accepted (wd_second w) = in_order (pe_ack (wd_second w)) /\ pe_ack (wd_first w) <= pe_ack (wd_second w) <= 5.
Proof.
  intros L D. rewrite main_schedule.
  assert (LS : forall m now, length (schedule m now rs) = (2 * m)%nat) by (induction m as [|m IH]; intros now; cbn [schedule length]; [reflexivity|rewrite IH; lia]).
  assert (T64 : 10000000000 < two64) by reflexivity.
  destruct (C70_no_panic main_params 400 (schedule n 0 rs) 5) as (w & E).
  - lia.
  - rewrite LS. cbn [main_params inv_bandwidth latency_min]. lia.
  - rewrite LS. lia.
  - assert (X : forall m now, now + N.of_nat m <= 100000 -> Forall (fun x => let '(_, now, rs) := x in now + 1000 < two64 /\ draws_ok 400 rs) (schedule m now rs)).
    { induction m as [|m IH]; intros now Ln; cbn [schedule]; [constructor|]. constructor; [split; [lia|apply D]|]. constructor; [split; [lia|apply D]|]. apply IH. lia. }
    apply X. lia.
  - exists w. split; [exact E|]. destruct (C70_in_order _ _ _ _ E) as (H1 & H2 & _). auto.
Qed.
Print Assumptions C70_main.
(** Progress: for each time [0], [inv], [2 * inv], ... at which what either side sends first gets
    through, one more message has been accepted, until all have. *)
Theorem C70_progress prm count rs n g w : 0 < inv_bandwidth prm <= 1000 -> good_sends (inv_bandwidth prm) rs n g ->
  main_loop (N.to_nat n) prm 0 rs (world_new count 0) = Ok w -> N.min count g <= pe_ack (wd_second w).
Proof.
  intros IB G E. destruct (live_main prm count rs n g IB G w E) as ((_ & A & _ & _ & PA & _) & _ & _ & _ & _ & _ & _ & K).
  destruct K as [K|(x & a & Ix & Ex & La)]; [lia|]. unfold only_acks in A. rewrite Forall_forall in A. destruct (A x Ix) as (b & Eb & Lb). assert (a = b) by congruence. lia.
Qed.
Print Assumptions C70_progress.
(** The first message is lost, then one acknowledgement of its repetition, then nothing. *)
Definition c70_rs (now : N) (s : side) : list (list draw) :=
  match s with FirstSide => if now <? 500 then [[dr 0 true 0]] else [[dr 7 false 1; dr 5 false 1]] | SecondSide => if now <? 600 then [[dr 0 true 0]] else [] end.
Example C70_example : exists w, main_loop 2100 main_params 0 c70_rs (world_new 5 0) = Ok w /\ pe_accepted (wd_second w) = [(0, 0); (1, 1); (2, 2); (3, 3)] /\ pe_ack (wd_first w) = 4.
Proof. eexists. vm_compute. repeat split; reflexivity. Qed.
Example C70_good_example : good_sends 523 c70_rs 1047 1.
Proof.
  apply (GGood 523 c70_rs 2 0); [|reflexivity|exact Logic.I].
  change (good_sends 523 c70_rs (N.of_nat 1046) 0). generalize 1046%nat. induction n as [|n IH]; [apply GStart|].
  replace (N.of_nat (S n)) with (N.of_nat n + 1) by lia. apply GTick, IH.
Qed.

(** *** C88: both peers sending *)
(** With the one message of the first peer lost and that of the second received, the first takes
    its own for acknowledged; the second never accepts it whatever happens afterwards. *)
Definition c88_steps : list (side * N * list (list draw)) := [(FirstSide, 0, [[dr 0 true 0]]); (SecondSide, 0, []); (FirstSide, 1, []); (SecondSide, 1, [])].
Definition c88_after (w : world) : Prop :=
  ch_messages (p_fst (wd_pair w)) = [] /\ ch_messages (p_snd (wd_pair w)) = [] /\ pe_ack (wd_first w) = 1 /\ pe_seq (wd_first w) = 1 /\ pe_count (wd_first w) = 1 /\
  pe_ack (wd_second w) = 1 /\ pe_seq (wd_second w) = 1 /\ pe_count (wd_second w) = 1 /\ pe_accepted (wd_second w) = [].
Theorem C88_both_refuted : exists w, world_run main_params c88_steps (world_new 1 1) = Ok w /\ pe_ack (wd_first w) = 1 /\ pe_accepted (wd_second w) = [] /\
  forall prm l w', world_run prm l w = Ok w' -> pe_accepted (wd_second w') = [].
Proof.
  eexists. split; [vm_compute; reflexivity|]. split; [reflexivity|]. split; [reflexivity|]. intros prm l w' E.
  assert (X : forall l w, c88_after w -> forall w', world_run prm l w = Ok w' -> pe_accepted (wd_second w') = []).
  { clear. induction l as [|[[s now] rs] l IH]; intros w H w' E; cbn [world_run] in E.
    - assert (w' = w) as -> by congruence. apply H.
    - apply bind_ok in E. destruct E as (w1 & E1 & E). apply (IH w1); [|exact E]. destruct H as (H1 & H2 & H3 & H4 & H5 & H6 & H7 & H8 & H9).
      destruct w as [[s1 n1 a1 r1 x1] [s2 n2 a2 r2 x2] [[m1 no1 t1] [m2 no2 t2]]]. cbn in H1, H2, H3, H4, H5, H6, H7, H8, H9. subst.
      destruct s; cbn in E1; unfold after_retransmit in E1; cbn [pe_retransmit pe_ack pe_seq] in E1.
      + destruct r1 as [t|]; [match type of E1 with context [if ?b then 1 else 1] => destruct b end|]; cbn in E1; rewrite ?andb_false_r in E1; injection E1 as <-; repeat split.
      + destruct r2 as [t|]; [match type of E1 with context [if ?b then 1 else 1] => destruct b end|]; cbn in E1; rewrite ?andb_false_r in E1; injection E1 as <-; repeat split. }
  refine (X l _ _ w' E). repeat split.
Qed.
Print Assumptions C88_both_refuted.

(** *** C89: retransmission *)
(** Once the time for it has passed, a peer that hears nothing does nothing at all. *)
Theorem C89_overdue_refuted prm now rs w t : pe_retransmit (wd_first w) = Some t -> t < now -> pe_seq (wd_first w) <> pe_ack (wd_first w) -> ch_messages (p_snd (wd_pair w)) = [] ->
  step_side FirstSide prm now rs w = Ok w.
Proof.
  intros R L NE EM. destruct w as [[s1 n1 a1 r1 x1] p2 [c1 [m2 no2 t2]]]. cbn in R, NE, EM. subst. cbn. unfold after_retransmit. cbn [pe_retransmit pe_ack pe_seq].
  replace (now <=? t) with false by (symmetry; apply N.leb_gt; exact L). cbn [andb]. replace (a1 =? s1) with false by (symmetry; apply N.eqb_neq; congruence). reflexivity.
Qed.
Print Assumptions C89_overdue_refuted.
(** So if messages can be sent less often than once a second and the first is lost, nothing is ever
    accepted, even if nothing is lost any more. *)
Theorem C89_stuck_refuted prm count rs d n w : 1000 < inv_bandwidth prm -> dr_lost d = true -> rs 0 FirstSide = [[d]] ->
  main_loop n prm 0 rs (world_new count 0) = Ok w -> pe_accepted (wd_second w) = [].
Proof.
  intros LI LD R0 E.
  set (still := fun w : world => ch_messages (p_fst (wd_pair w)) = [] /\ ch_messages (p_snd (wd_pair w)) = [] /\ pe_seq (wd_first w) = 1 /\ pe_ack (wd_first w) = 0 /\ pe_retransmit (wd_first w) = Some 1000 /\
    ch_next_send (p_fst (wd_pair w)) = inv_bandwidth prm /\ pe_count (wd_second w) = 0 /\ pe_accepted (wd_second w) = []).
  assert (C : forall now rs0 w, still w -> step_side FirstSide prm now rs0 w = Ok w).
  { intros now rs0 w0 H. destruct w0 as [[s1 n1 a1 r1 x1] p2 [[m1 no1 t1] [m2 no2 t2]]]. unfold still in H. cbn in H. destruct H as (H1 & H2 & H3 & H4 & H5 & H6 & H7 & H8). subst. cbn. unfold after_retransmit, can_send. cbn [pe_retransmit pe_ack pe_seq send_channel p_fst ch_next_send].
    destruct (N.leb_spec now 1000); destruct (N.leb_spec (inv_bandwidth prm) now); cbn [andb]; try lia; reflexivity. }
  assert (Q : forall now rs0 w w', ch_messages (p_fst (wd_pair w)) = [] -> pe_count (wd_second w) = 0 -> step_side SecondSide prm now rs0 w = Ok w' ->
    wd_first w' = wd_first w /\ wd_pair w' = wd_pair w /\ pe_count (wd_second w') = 0 /\ pe_accepted (wd_second w') = pe_accepted (wd_second w)).
  { intros now rs0 w0 w' H1 H2 ES. destruct w0 as [p1 [s2 n2 a2 r2 x2] [[m1 no1 t1] [m2 no2 t2]]]. cbn in H1, H2. subst. cbn in ES.
    match type of ES with context [?x <? 0] => replace (x <? 0) with false in ES by (symmetry; apply N.ltb_ge; lia) end. rewrite andb_false_r in ES. injection ES as <-. repeat split. }
  assert (X : forall n now w w', still w -> main_loop n prm now rs w = Ok w' -> pe_accepted (wd_second w') = []).
  { clear E n w. induction n as [|n IH]; intros now w w' H E; cbn [main_loop] in E; [assert (w' = w) as -> by congruence; apply H|].
    rewrite (C now _ w H) in E. cbn [bind] in E. apply bind_ok in E. destruct E as (w1 & E1 & E). apply (IH (now + 1) w1); [|exact E].
    destruct H as (H1 & H2 & H3 & H4 & H5 & H6 & H7 & H8). destruct (Q now _ w w1 H1 H7 E1) as (Q1 & Q2 & Q3 & Q4). unfold still. rewrite Q1, Q2. repeat split; auto. congruence. }
  destruct n as [|n]; cbn [main_loop] in E; [assert (w = world_new count 0) as -> by congruence; reflexivity|].
  apply bind_ok in E. destruct E as (w1 & E1 & E). apply bind_ok in E. destruct E as (w2 & E2 & E). rewrite R0 in E1. cbn in E1.
  destruct (N.ltb_spec 0 count) as [LC|LC].
  - apply bind_ok in E1. destruct E1 as ([[p q] rs'] & E1 & EW). apply bind_ok in E1. destruct E1 as (q' & E1 & E1'). unfold endpoint_send in E1. apply bind_ok in E1. destruct E1 as (c & E1 & E1''). cbn [send_channel set_send p_fst p_snd] in E1, E1''.
    destruct (send_ok _ _ _ _ _ E1) as (xs & (k & Hk & F) & Em & Es & _). cbn [channel_new ch_messages ch_next_send app N.add] in Em, Es.
    assert (xs = []) as -> by (destruct k; cbn [firstn] in F; inversion F; subst; [reflexivity|]; destruct H1 as (H1 & _); congruence).
    assert (q' = {| p_fst := c; p_snd := channel_new |}) as -> by (injection E1'' as <-; reflexivity).
    injection E1' as <- <- <-. injection EW as <-.
    match type of E2 with step_side _ _ _ _ ?w0 = _ => destruct (Q 0 _ w0 w2 Em eq_refl E2) as (Q1 & Q2 & Q3 & Q4) end.
    apply (X n (0 + 1) w2); [|exact E]. unfold still. rewrite Q1, Q2, Q4. cbn [wd_pair wd_first wd_second p_fst p_snd]. repeat split; auto.
  - cbn [bind] in E1. injection E1 as <-.
    (* nothing to send *)
    assert (count = 0) as -> by lia. rewrite main_schedule in E.
    destruct (run_inv_world prm 0 (schedule n (0 + 1) rs) w2 w) as ((_ & _ & (_ & _ & A3 & A4) & _) & _); [|exact E|].
    + destruct (step_inv prm 0 SecondSide 0 (rs 0 SecondSide) (world_new 0 0) w2 (world_new_inv 0)) as (I & _); [|exact I]. exact E2.
    + rewrite A3. replace (pe_ack (wd_second w)) with 0 by lia. reflexivity.
Qed.
Print Assumptions C89_stuck_refuted.
Example C89_stuck_example : exists w, main_loop 3000 {| latency_min := 200; latency_max := 600; inv_bandwidth := 1001 |} 0 (fun now _ => if now =? 0 then [[dr 0 true 0]] else []) (world_new 5 0) = Ok w /\ pe_retransmit (wd_first w) = Some 1000 /\ pe_seq (wd_first w) = 1 /\ ch_next_send (p_fst (wd_pair w)) = 1001.
Proof. eexists. vm_compute. repeat split; reflexivity. Qed.
(** And before it has passed, a message is repeated whenever the channel is free. *)
Theorem C89_early_refuted prm now rs w t : pe_retransmit (wd_first w) = Some t -> now <= t -> ch_messages (p_snd (wd_pair w)) = [] ->
  ch_next_send (p_fst (wd_pair w)) <= now -> pe_ack (wd_first w) < pe_count (wd_first w) ->
  forall w', step_side FirstSide prm now rs w = Ok w' -> endpoint_send FirstSide prm (MData (pe_ack (wd_first w)) (pe_ack (wd_first w))) (fst (next_draws rs)) (wd_pair w) = Ok (wd_pair w').
Proof.
  intros R L EM CS LC w' E. destruct w as [[s1 n1 a1 r1 x1] p2 [[m1 no1 t1] [m2 no2 t2]]]. cbn [wd_first wd_pair pe_retransmit p_snd p_fst ch_messages ch_next_send pe_ack pe_count] in *. subst. cbn in E. unfold after_retransmit, can_send in E. cbn [pe_retransmit pe_ack pe_seq send_channel p_fst ch_next_send] in E.
  replace (now <=? t) with true in E by (symmetry; apply N.leb_le; exact L). replace (t1 <=? now) with true in E by (symmetry; apply N.leb_le; exact CS). cbn [andb] in E. rewrite N.eqb_refl in E.
  replace (a1 <? n1) with true in E by (symmetry; apply N.ltb_lt; exact LC). cbn [andb] in E. destruct (next_draws rs) as [d rs']. cbn [fst].
  apply bind_ok in E. destruct E as ([[p q] rs''] & E & EW). apply bind_ok in E. destruct E as (q' & E1 & E). apply bind_ok in E. destruct E as (sq & _ & E). apply bind_ok in E. destruct E as (t' & _ & E).
  rewrite E1. injection E as <- <- <-. injection EW as <-. reflexivity.
Qed.
Print Assumptions C89_early_refuted.
(** [main] sends the first message again at 523, its retransmission time being 1000. *)
Example C89_early_example : exists w w', main_loop 523 main_params 0 (fun now _ => [[dr 0 true 0]]) (world_new 5 0) = Ok w /\ pe_retransmit (wd_first w) = Some 1000 /\ ch_next_no (p_fst (wd_pair w)) = 1 /\
  main_loop 1 main_params 523 (fun now _ => [[dr 0 true 0]]) w = Ok w' /\ ch_next_no (p_fst (wd_pair w')) = 2.
Proof. eexists _, _. do 3 (split; [vm_compute; reflexivity|]). split; [vm_compute; reflexivity|reflexivity]. Qed.
