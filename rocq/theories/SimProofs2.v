(** Lemmas about the simulator: no panics, progress and retransmission. *)
From Verif Require Import Base BaseProofs MplexModel SimModel SimSpec SimProofs.
From Coq Require Import Lia ZArith ZifyBool ZifyNat ZifyN Permutation.
Ltac Zify.zify_post_hook ::= Z.div_mod_to_equations.
Local Open Scope string_scope. Local Open Scope list_scope. Local Open Scope N_scope.

Lemma main_schedule n prm rs : forall now w, main_loop n prm now rs w = world_run prm (schedule n now rs) w.
Proof.
  induction n as [|n IH]; intros now w; [reflexivity|]. cbn [main_loop schedule world_run].
  destruct (step_side FirstSide prm now (rs now FirstSide) w) as [w1|e|]; cbn [bind]; auto.
  destruct (step_side SecondSide prm now (rs now SecondSide) w1) as [w2|e|]; cbn [bind]; auto.
Qed.

(** *** No panics *)
Lemma send_copies_total {M} p st (m : M) X ds : Forall (fun d => dr_extra d <= X) ds -> st + latency_min p + X < two64 ->
  forall c, ch_next_no c + N.of_nat (length ds) < two64 ->
  exists c', send_copies p st m ds c = Ok c' /\ ch_next_no c' <= ch_next_no c + N.of_nat (length ds).
Proof.
  intros F LT. induction F as [|d ds Hd F IH]; intros c LN; cbn [send_copies].
  - exists c. split; [reflexivity|]. cbn [length]. lia.
  - cbn [length] in *. rewrite add64_small by lia. cbn [bind].
    assert (X1 : (if latency_min p <=? latency_max p then @add64 unit (latency_min p) (dr_extra d) else Ok (latency_min p)) = Ok (latency_min p + (if latency_min p <=? latency_max p then dr_extra d else 0))).
    { destruct (latency_min p <=? latency_max p); [apply add64_small; lia|]. f_equal. lia. }
    rewrite X1. cbn [bind]. rewrite add64_small by (destruct (latency_min p <=? latency_max p); lia). cbn [bind].
    destruct (dr_lost d); [eexists; split; [reflexivity|]; cbn [ch_next_no]; lia|].
    match goal with |- exists c', send_copies _ _ _ _ ?c1 = _ /\ _ => destruct (IH c1) as (c' & E & L) end; cbn [ch_next_no] in *; [lia|].
    exists c'. split; [exact E|lia].
Qed.
Lemma send_total {M} p (m : M) X ds c : Forall (fun d => dr_extra d <= X) ds -> (length ds <= 2)%nat -> ch_next_send c + inv_bandwidth p < two64 -> ch_next_send c + latency_min p + X < two64 ->
  ch_next_no c + 2 < two64 ->
  exists c', channel_send p m ds c = Ok c' /\ ch_next_no c' <= ch_next_no c + 2 /\ ch_next_send c' = ch_next_send c + inv_bandwidth p /\
    (length (ch_messages c') <= length (ch_messages c) + 2)%nat.
Proof.
  intros F L2 L3 L4 L5. destruct (send_copies_total p (ch_next_send c) m X ds F L4 {| ch_messages := ch_messages c; ch_next_no := ch_next_no c; ch_next_send := ch_next_send c + inv_bandwidth p |}) as (c' & E & L).
  { cbn [ch_next_no]. lia. }
  assert (ES : channel_send p m ds c = Ok c') by (unfold channel_send; rewrite add64_small by exact L3; cbn [bind]; exact E).
  exists c'. destruct (send_ok p m ds c c' ES) as (xs & C & Em & Es & _). split; [exact ES|]. cbn [ch_next_no] in L. split; [lia|]. split; [exact Es|].
  apply copies_length in C. rewrite Em, app_length. lia.
Qed.
Lemma next_draws_ok X rs d rs' : draws_ok X rs -> next_draws rs = (d, rs') -> (length d <= 2)%nat /\ Forall (fun d => dr_extra d <= X) d /\ draws_ok X rs'.
Proof.
  intros O E. destruct rs as [|d0 rs0]; cbn [next_draws] in E.
  - assert (d = [{| dr_extra := 0; dr_lost := false; dr_priority := 0 |}] /\ rs' = []) as [-> ->] by (split; congruence). cbn [length]. split; [lia|]. split; [repeat constructor; cbn [dr_extra]; lia|constructor].
  - assert (d = d0 /\ rs' = rs0) as [-> ->] by (split; congruence). inversion O; subst. tauto.
Qed.
(** The channel has been sent [k] messages. *)
Definition used (prm : channel_params) (k : N) (c : channel message) : Prop := ch_next_send c = k * inv_bandwidth prm /\ ch_next_no c <= 2 * k.
Definition room (prm : channel_params) (X k : N) : Prop := k * inv_bandwidth prm + inv_bandwidth prm + latency_min prm + X < two64 /\ 2 * k + 2 < two64.
Lemma room_le prm X k k' : room prm X k -> k' <= k -> room prm X k'.
Proof. intros [H1 H2] L. split; [|lia]. assert (k' * inv_bandwidth prm <= k * inv_bandwidth prm) by (apply N.mul_le_mono_r; exact L). lia. Qed.
Lemma send_used prm (m : message) X ds k c : Forall (fun d => dr_extra d <= X) ds -> (length ds <= 2)%nat -> used prm k c -> room prm X k ->
  exists c', channel_send prm m ds c = Ok c' /\ used prm (k + 1) c' /\ (length (ch_messages c') <= length (ch_messages c) + 2)%nat.
Proof.
  intros F L [U1 U2] [R1 R2]. destruct (send_total prm m X ds c F L) as (c' & E & N1 & S1 & P1); [lia|lia|lia|].
  exists c'. split; [exact E|]. split; [|exact P1]. split; [rewrite S1, U1; lia|lia].
Qed.
Lemma consumer_total prm X count K fuel : count < two64 - 1 -> room prm X K -> forall a rs p w, consumer_ok count p -> only_data count (p_fst w) -> draws_ok X rs ->
  (length (ch_messages (p_fst w)) < fuel)%nat -> used prm a (p_snd w) -> N.of_nat (length (ch_messages (p_fst w))) + a <= K ->
  exists p' w' rs' a', recv_loop fuel SecondSide prm rs p w = Ok (p', w', rs') /\ used prm a' (p_snd w') /\ a' <= K /\ ch_messages (p_fst w') = [] /\
    ch_next_send (p_fst w') = ch_next_send (p_fst w) /\ ch_next_no (p_fst w') = ch_next_no (p_fst w).
Proof.
  intros LC R. induction fuel as [|fuel IH]; intros a rs p w C D O LF U LK; [lia|]. cbn [recv_loop]. unfold endpoint_recv.
  destruct (channel_recv (recv_channel SecondSide w)) as [x c] eqn:ER. cbn [recv_channel set_recv] in ER |- *.
  destruct (recv_forall _ _ _ _ ER D) as (D1 & Dx & Lx). assert (FC : ch_next_send c = ch_next_send (p_fst w) /\ ch_next_no c = ch_next_no (p_fst w)).
  { destruct (recv_cases (p_fst w)) as [(Ec & Er)|(l1 & y & l2 & Ec & Er & _ & _)]; rewrite Er in ER; [assert (c = p_fst w) as -> by congruence; auto|].
    assert (c = {| ch_messages := l1 ++ l2; ch_next_no := ch_next_no (p_fst w); ch_next_send := ch_next_send (p_fst w) |}) as -> by congruence. auto. }
  destruct x as [x|].
  - destruct Dx as (s & Ex & Ls). rewrite Ex. cbn [on_message]. destruct C as (C1 & C2 & C3 & C4). destruct (N.ltb_spec (pe_ack p) s) as [L|L]; cbn [bind].
    + destruct (IH a rs p {| p_fst := c; p_snd := p_snd w |}) as (p' & w' & rs' & a' & E & R1 & R2 & R3 & R4 & R5); cbn [p_fst p_snd] in *; auto; try lia; [repeat split; auto|].
      exists p', w', rs', a'. repeat split; auto; try apply R1; try lia.
    + assert (X1 : exists p1 b, (if pe_ack p =? s then let? a0 := @add64 unit s 1 in Ok ({| pe_seq := pe_seq p; pe_count := pe_count p; pe_ack := a0; pe_retransmit := pe_retransmit p; pe_accepted := pe_accepted p ++ [(s, s)] |}, Some (MAck a0)) else Ok (p, Some (MAck (pe_ack p)))) = Ok (p1, Some (MAck b)) /\ consumer_ok count p1).
      { destruct (N.eqb_spec (pe_ack p) s) as [ES|NE].
        - rewrite add64_small by lia. cbn [bind]. eexists _, _. split; [reflexivity|]. unfold consumer_ok. cbn [pe_ack pe_count pe_retransmit pe_accepted]. rewrite in_order_snoc, C3, ES. repeat split; auto; lia.
        - eexists _, _. split; [reflexivity|]. repeat split; auto. }
      destruct X1 as (p1 & b & -> & C'). cbn [bind]. destruct (next_draws rs) as [d rs1] eqn:ND. destruct (next_draws_ok _ _ _ _ O ND) as (Ld & Fd & O1).
      unfold endpoint_send. cbn [send_channel set_send p_fst p_snd].
      destruct (send_used prm (MAck b) X d a (p_snd w) Fd Ld U ltac:(apply (room_le _ _ _ _ R); lia)) as (c1 & E1 & U1 & _). rewrite E1. cbn [bind].
      destruct (IH (a + 1) rs1 p1 {| p_fst := c; p_snd := c1 |}) as (p' & w' & rs' & a' & E & R1 & R2 & R3 & R4 & R5); cbn [p_fst p_snd] in *; auto; try lia.
      exists p', w', rs', a'. repeat split; auto; try apply R1; try lia.
  - exists p, {| p_fst := c; p_snd := p_snd w |}, rs, a. cbn [p_fst p_snd]. repeat split; auto; try apply U; try tauto; lia.
Qed.
Lemma producer_total prm n fuel : forall rs p w, only_acks n (p_snd w) -> (length (ch_messages (p_snd w)) < fuel)%nat ->
  exists p' w', recv_loop fuel FirstSide prm rs p w = Ok (p', w', rs) /\ p_fst w' = p_fst w /\ ch_messages (p_snd w') = [] /\
    ch_next_send (p_snd w') = ch_next_send (p_snd w) /\ ch_next_no (p_snd w') = ch_next_no (p_snd w) /\
    (forall x a, In x (ch_messages (p_snd w)) -> mt_message x = MAck a -> a <= pe_ack p') /\ (pe_ack p' = pe_ack p -> p' = p) /\ pe_ack p <= pe_ack p'.
Proof.
  induction fuel as [|fuel IH]; intros rs p w A LF; [lia|]. cbn [recv_loop]. unfold endpoint_recv.
  destruct (channel_recv (recv_channel FirstSide w)) as [x c] eqn:ER. cbn [recv_channel set_recv] in ER |- *.
  destruct (recv_forall _ _ _ _ ER A) as (A1 & Ax & Lx).
  destruct (recv_cases (p_snd w)) as [(Ec & Er)|(l1 & y & l2 & Ec & Er & _ & _)]; rewrite Er in ER.
  - assert (x = None /\ c = p_snd w) as [-> ->] by (split; congruence). exists p, {| p_fst := p_fst w; p_snd := p_snd w |}. cbn [p_fst p_snd]. rewrite Ec. repeat split; auto; [intros ? ? []|lia].
  - assert (x = Some y) as -> by congruence.
    assert (c = {| ch_messages := l1 ++ l2; ch_next_no := ch_next_no (p_snd w); ch_next_send := ch_next_send (p_snd w) |}) as -> by congruence. cbn [ch_messages] in *.
    destruct Ax as (a & Ex & La). rewrite Ex. cbn [on_message].
    set (w1 := {| p_fst := p_fst w; p_snd := {| ch_messages := l1 ++ l2; ch_next_no := ch_next_no (p_snd w); ch_next_send := ch_next_send (p_snd w) |} |}).
    assert (X1 : exists p1, (if pe_ack p <? a then Ok ({| pe_seq := pe_seq p; pe_count := pe_count p; pe_ack := a; pe_retransmit := None; pe_accepted := pe_accepted p |}, None) else Ok (p, None)) = @Ok unit _ (p1, @None message) /\
      a <= pe_ack p1 /\ pe_ack p <= pe_ack p1 /\ (pe_ack p1 = pe_ack p -> p1 = p)).
    { destruct (N.ltb_spec (pe_ack p) a) as [L|L]; eexists; (split; [reflexivity|]); cbn [pe_ack]; repeat split; auto; lia. }
    destruct X1 as (p1 & -> & L1 & L2 & L3). cbn [bind].
    destruct (IH rs p1 w1 A1 ltac:(cbn [w1 p_snd ch_messages]; lia)) as (p' & w' & E & R1 & R2 & R3 & R4 & R5 & R6 & R7). exists p', w'. cbn [w1 p_fst p_snd ch_next_send ch_next_no ch_messages] in *.
    split; [exact E|]. split; [exact R1|]. split; [exact R2|]. split; [exact R3|]. split; [exact R4|]. split; [|split; [|lia]].
    + intros z b Iz Ez. rewrite Ec in Iz. apply in_app_or in Iz. destruct Iz as [Iz|[Iz|Iz]].
      * apply (R5 z b); [apply in_or_app; auto|exact Ez].
      * assert (b = a) as -> by congruence. lia.
      * apply (R5 z b); [apply in_or_app; auto|exact Ez].
    + intros EQ. assert (pe_ack p1 = pe_ack p) by lia. rewrite R6 by lia. apply L3. lia.
Qed.
(** After [k] steps. *)
Definition sized (prm : channel_params) (k : N) (w : world) : Prop :=
  exists d a, used prm d (p_fst (wd_pair w)) /\ used prm a (p_snd (wd_pair w)) /\ d <= k /\ N.of_nat (length (ch_messages (p_fst (wd_pair w)))) + a <= 2 * d.
Lemma step_total prm X count k s now rs w : count < two64 - 1 -> room prm X (2 * k + 2) -> world_inv count w -> sized prm k w -> draws_ok X rs -> now + retransmit_delay < two64 ->
  exists w', step_side s prm now rs w = Ok w' /\ sized prm (k + 1) w'.
Proof.
  intros LC R (D & A & C & PC & PA & PX) (d & a & U1 & U2 & Ld & Lp) O LN. destruct s; cbn [step_side].
  - unfold peer_step. cbn [recv_channel].
    destruct (producer_total prm _ (S (length (ch_messages (p_snd (wd_pair w))))) rs (wd_first w) (wd_pair w) A ltac:(lia)) as (p' & w' & E & R1 & R2 & R3 & R4 & _). rewrite E. cbn [bind].
    destruct (producer_loop _ _ _ _ _ _ _ _ _ PA A E) as (L1 & A1 & F1 & S1 & N1 & X1 & _).
    assert (U2' : used prm a (p_snd w')) by (destruct U2; split; congruence).
    destruct ((pe_ack p' =? after_retransmit FirstSide now p' w') && can_send FirstSide now w' && (after_retransmit FirstSide now p' w' <? pe_count p')) eqn:G.
    + apply andb_true_iff in G. destruct G as [_ G]. apply N.ltb_lt in G. set (sq := after_retransmit FirstSide now p' w') in *. clearbody sq.
      destruct (next_draws rs) as [ds rs1] eqn:ND. destruct (next_draws_ok _ _ _ _ O ND) as (Lds & Fds & O1). unfold endpoint_send. cbn [send_channel set_send].
      rewrite R1. destruct (send_used prm (MData sq sq) X ds d (p_fst (wd_pair w)) Fds Lds U1 ltac:(apply (room_le _ _ _ _ R); lia)) as (c1 & E1 & U1' & LL). rewrite E1. cbn [bind].
      rewrite add64_small by lia. cbn [bind]. rewrite add64_small by exact LN. cbn [bind]. eexists. split; [reflexivity|].
      exists (d + 1), a. cbn [wd_pair p_fst p_snd]. repeat split; try apply U1'; try apply U2'; lia.
    + cbn [bind]. eexists. split; [reflexivity|]. exists d, a. cbn [wd_pair]. rewrite R1. repeat split; try apply U1; try apply U2'; lia.
  - unfold peer_step. cbn [recv_channel].
    destruct (consumer_total prm X count (2 * d) (S (length (ch_messages (p_fst (wd_pair w))))) LC ltac:(apply (room_le _ _ _ _ R); lia) a rs (wd_second w) (wd_pair w) C D O ltac:(lia) U2 Lp)
      as (p' & w' & rs' & a' & E & Ua & La & Ez & Es & En). rewrite E. cbn [bind].
    destruct (consumer_loop _ _ _ _ _ _ _ _ _ C D A E) as (C1 & L1 & D1 & A1 & S1).
    assert (NC : (after_retransmit SecondSide now p' w' <? pe_count p') = false) by (destruct C1 as (-> & _); apply N.ltb_ge; lia). rewrite NC, andb_false_r. cbn [bind].
    eexists. split; [reflexivity|]. exists d, a'. cbn [wd_pair]. rewrite Ez. cbn [length]. repeat split; try apply Ua; try congruence; try lia. destruct U1. congruence. destruct U1. lia.
Qed.
Lemma run_total prm X count l : forall k w, count < two64 - 1 -> room prm X (2 * (k + N.of_nat (length l)) + 2) -> world_inv count w -> sized prm k w ->
  Forall (fun x => let '(_, now, rs) := x in now + retransmit_delay < two64 /\ draws_ok X rs) l -> exists w', world_run prm l w = Ok w'.
Proof.
  induction l as [|[[s now] rs] l IH]; intros k w LC R I SZ F; cbn [world_run]; [eauto|]. inversion F as [|? ? F0 F3]; subst. cbv beta iota in F0. destruct F0 as [F1 F2]. cbn [length] in R.
  destruct (step_total prm X count k s now rs w LC ltac:(apply (room_le _ _ _ _ R); lia) I SZ F2 F1) as (w1 & E1 & SZ1). rewrite E1. cbn [bind].
  destruct (step_inv _ _ _ _ _ _ _ I E1) as (I1 & _). apply (IH (k + 1) w1 LC); auto. replace (k + 1 + N.of_nat (length l)) with (k + N.of_nat (S (length l))) by lia. exact R.
Qed.
Lemma sized_new prm count : sized prm 0 (world_new count 0).
Proof. exists 0, 0. cbn. repeat split; try reflexivity; lia. Qed.

(** *** Progress *)
Definition known (w : world) (g : N) : Prop := g <= pe_ack (wd_first w) \/ exists x a, In x (ch_messages (p_snd (wd_pair w))) /\ mt_message x = MAck a /\ g <= a.
Definition live (prm : channel_params) (count now g : N) (w : world) : Prop :=
  world_inv count w /\ ch_messages (p_fst (wd_pair w)) = [] /\ pe_ack (wd_first w) <= pe_seq (wd_first w) <= pe_ack (wd_first w) + 1 /\ pe_ack (wd_second w) <= pe_seq (wd_first w) /\
  (pe_ack (wd_first w) < count -> now <= ch_next_send (p_fst (wd_pair w)) < now + inv_bandwidth prm) /\ (exists k, ch_next_send (p_fst (wd_pair w)) = k * inv_bandwidth prm) /\
  (pe_seq (wd_first w) = pe_ack (wd_first w) + 1 -> exists t, pe_retransmit (wd_first w) = Some t /\ ch_next_send (p_fst (wd_pair w)) <= t) /\ known w (N.min count g).
Lemma consumer_keeps prm fuel x : forall rs p w p' w' rs', In x (ch_messages (p_snd w)) -> recv_loop fuel SecondSide prm rs p w = Ok (p', w', rs') -> In x (ch_messages (p_snd w')).
Proof.
  induction fuel as [|fuel IH]; intros rs p w p' w' rs' I E; cbn [recv_loop] in E; [discriminate|]. unfold endpoint_recv in E.
  destruct (channel_recv (recv_channel SecondSide w)) as [[y|] c]; cbn [set_recv] in E.
  - apply bind_ok in E. destruct E as ([p1 [reply|]] & EM & E); [|eapply IH; [|exact E]; exact I].
    destruct (next_draws rs) as [d rs1]. apply bind_ok in E. destruct E as (w1 & E1 & E). unfold endpoint_send in E1. apply bind_ok in E1. destruct E1 as (c1 & E1 & E2). cbn [send_channel set_send p_snd p_fst] in *.
    assert (w1 = {| p_fst := c; p_snd := c1 |}) as -> by congruence. eapply IH; [|exact E]. cbn [p_snd].
    destruct (send_ok _ _ _ _ _ E1) as (xs & _ & Em & _). rewrite Em. apply in_or_app. auto.
  - assert (w' = {| p_fst := c; p_snd := p_snd w |}) as -> by congruence. exact I.
Qed.
Lemma through_copy {M} p (m : M) rs d rs' c c' : through rs -> next_draws rs = (d, rs') -> channel_send p m d c = Ok c' ->
  exists xs x, ch_messages c' = ch_messages c ++ x :: xs /\ mt_message x = m.
Proof.
  intros T ND E. destruct (send_ok _ _ _ _ _ E) as (xs & C & Em & _). assert (X : exists d0 ds, d = d0 :: ds /\ dr_lost d0 = false).
  { destruct rs as [|[|d0 ds] rs0]; cbn [next_draws through] in *; [|contradiction|].
    - eexists _, _. split; [symmetry; injection ND; intros _ H; exact H|reflexivity].
    - exists d0, ds. split; [congruence|exact T]. }
  destruct X as (d0 & ds & -> & L0). pose proof (copies_message _ _ _ _ _ C) as FM. destruct C as (n & Hn & F).
  destruct n as [|n]; [destruct Hn as [Hn|(d1 & N1 & L1)]; [discriminate|cbn [nth_error] in N1; congruence]|]. cbn [firstn] in F. inversion F; subst. inversion FM; subst. eauto.
Qed.
Lemma consumer_replies prm fuel s rs p w p' w' rs' : ch_messages (p_fst w) <> [] -> Forall (fun x => mt_message x = MData s s) (ch_messages (p_fst w)) -> s <= pe_ack p -> through rs ->
  recv_loop fuel SecondSide prm rs p w = Ok (p', w', rs') -> exists x a, In x (ch_messages (p_snd w')) /\ mt_message x = MAck a /\ s + 1 <= a.
Proof.
  intros NE F L T E. destruct fuel as [|fuel]; [discriminate|]. cbn [recv_loop] in E. unfold endpoint_recv in E.
  destruct (channel_recv (recv_channel SecondSide w)) as [x c] eqn:ER. cbn [recv_channel set_recv] in ER, E.
  destruct (recv_forall _ _ _ _ ER F) as (_ & Dx & _). destruct (recv_cases (p_fst w)) as [(Ec & Er)|(l1 & y & l2 & Ec & Er & _ & _)]; [contradiction|]. rewrite Er in ER.
  assert (x = Some y) as -> by congruence. rewrite Dx in E. cbn [on_message] in E. destruct (N.ltb_spec (pe_ack p) s) as [L1|L1]; [lia|].
  assert (X1 : exists p1 b, (if pe_ack p =? s then let? a0 := @add64 unit s 1 in Ok ({| pe_seq := pe_seq p; pe_count := pe_count p; pe_ack := a0; pe_retransmit := pe_retransmit p; pe_accepted := pe_accepted p ++ [(s, s)] |}, Some (MAck a0)) else Ok (p, Some (MAck (pe_ack p)))) = Ok (p1, Some (MAck b)) /\ s + 1 <= b).
  { destruct (N.eqb_spec (pe_ack p) s) as [ES|NS].
    - apply bind_ok in E. destruct E as (? & E & _). apply bind_ok in E. destruct E as (a0 & E & _). rewrite E. apply add64_ok in E. destruct E as [-> _]. cbn [bind]. eexists _, _. split; [reflexivity|lia].
    - eexists _, _. split; [reflexivity|lia]. }
  destruct X1 as (p1 & b & X1 & Lb). rewrite X1 in E. cbn [bind] in E. destruct (next_draws rs) as [d rs1] eqn:ND. apply bind_ok in E. destruct E as (w1 & E1 & E).
  unfold endpoint_send in E1. apply bind_ok in E1. destruct E1 as (c1 & E1 & E2). cbn [send_channel set_send p_snd p_fst] in *. assert (w1 = {| p_fst := c; p_snd := c1 |}) as -> by congruence.
  destruct (through_copy _ _ _ _ _ _ _ T ND E1) as (xs & z & Em & Ez). exists z, b. split; [|split; [exact Ez|exact Lb]].
  eapply consumer_keeps; [|exact E]. cbn [p_snd]. rewrite Em. apply in_or_app. right. left. reflexivity.
Qed.
Lemma consumer_drains prm fuel : forall rs p w p' w' rs', recv_loop fuel SecondSide prm rs p w = Ok (p', w', rs') -> ch_messages (p_fst w') = [] /\ ch_next_send (p_fst w') = ch_next_send (p_fst w).
Proof.
  induction fuel as [|fuel IH]; intros rs p w p' w' rs' E; cbn [recv_loop] in E; [discriminate|]. unfold endpoint_recv in E.
  destruct (channel_recv (recv_channel SecondSide w)) as [x c] eqn:ER. cbn [set_recv recv_channel] in ER, E.
  destruct (recv_cases (p_fst w)) as [(Ec & Er)|(l1 & y & l2 & Ec & Er & _ & _)]; rewrite Er in ER.
  - assert (x = None /\ c = p_fst w) as [-> ->] by (split; congruence). assert (w' = {| p_fst := p_fst w; p_snd := p_snd w |}) as -> by congruence. auto.
  - assert (x = Some y) as -> by congruence.
    assert (c = {| ch_messages := l1 ++ l2; ch_next_no := ch_next_no (p_fst w); ch_next_send := ch_next_send (p_fst w) |}) as -> by congruence.
    apply bind_ok in E. destruct E as ([p1 [reply|]] & EM & E).
    + destruct (next_draws rs) as [d rs1]. apply bind_ok in E. destruct E as (w1 & E1 & E). unfold endpoint_send in E1. apply bind_ok in E1. destruct E1 as (c1 & E1 & E2). cbn [send_channel set_send p_snd p_fst] in *.
      apply IH in E. match type of E2 with Ok ?z = _ => assert (w1 = z) as -> by congruence end. cbn [p_fst ch_next_send] in E. exact E.
    + apply IH in E. cbn [p_fst ch_next_send] in E. exact E.
Qed.
Lemma tick prm count now g rs1 rs2 w w1 w2 : 0 < inv_bandwidth prm <= retransmit_delay -> live prm count now g w ->
  step_side FirstSide prm now rs1 w = Ok w1 -> step_side SecondSide prm now rs2 w1 = Ok w2 ->
  live prm count (now + 1) g w2 /\ (forall k, now = k * inv_bandwidth prm -> through rs1 -> through rs2 -> live prm count (now + 1) (g + 1) w2).
Proof.
  intros IB (WI & EF & SQ & SC & NS & NK & RT & KN) E1 E2.
  destruct (step_inv _ _ _ _ _ _ _ WI E1) as (WI1 & _). destruct (step_inv _ _ _ _ _ _ _ WI1 E2) as (WI2 & _).
  destruct WI as (D & A & C & PC & PA & PX). cbn [step_side] in E1. apply bind_ok in E1. destruct E1 as ([[p q] rs'] & E1 & EW).
  assert (w1 = {| wd_first := p; wd_second := wd_second w; wd_pair := q |}) as -> by congruence. clear EW.
  unfold peer_step in E1. cbn [recv_channel] in E1.
  destruct (producer_total prm _ (S (length (ch_messages (p_snd (wd_pair w))))) rs1 (wd_first w) (wd_pair w) A ltac:(lia)) as (p' & w' & E & R1 & R2 & R3 & R4 & R5 & R6 & R7). rewrite E in E1. cbn [bind] in E1. cbv beta zeta iota in E1.
  destruct (producer_loop _ _ _ _ _ _ _ _ _ PA A E) as (L1 & A1 & F1 & S1 & N1 & X1 & _).
  assert (KA : N.min count g <= pe_ack p').
  { destruct KN as [KN|(x & a & Ix & Ex & Lx)]; [lia|]. specialize (R5 x a Ix Ex). lia. }
  assert (SQ' : pe_ack p' <= pe_seq p' <= pe_ack p' + 1) by lia.
  assert (RT' : pe_seq p' = pe_ack p' + 1 -> exists t, pe_retransmit p' = Some t /\ ch_next_send (p_fst (wd_pair w)) <= t).
  { intros H. assert (EA : pe_ack p' = pe_ack (wd_first w)) by lia. rewrite (R6 EA) in *. apply RT. lia. }
  clear R5 KN. set (sq := after_retransmit FirstSide now p' w') in *.
  assert (SQV : sq = pe_ack p' \/ (sq = pe_seq p' /\ (pe_ack p' < count -> now < ch_next_send (p_fst (wd_pair w)) \/ pe_seq p' = pe_ack p'))).
  { subst sq. unfold after_retransmit, can_send. cbn [send_channel]. rewrite R1. destruct (pe_retransmit p') as [t|] eqn:ERt.
    - destruct (N.leb_spec now t) as [Lt|Lt]; destruct (N.leb_spec (ch_next_send (p_fst (wd_pair w))) now) as [Lc|Lc]; cbn [andb]; auto.
      right. split; [reflexivity|]. intros LC. specialize (NS ltac:(lia)). destruct (N.eq_dec (pe_seq p') (pe_ack p' + 1)) as [EQ|NQ]; [|right; lia].
      destruct (RT' EQ) as (t' & Et & Lt'). assert (t' = t) by congruence. lia.
    - right. split; [reflexivity|]. intros LC. destruct (N.eq_dec (pe_seq p') (pe_ack p' + 1)) as [EQ|NQ]; [|right; lia]. destruct (RT' EQ) as (t' & Et & Lt'). discriminate. }
  assert (SQB : pe_ack p' <= sq <= pe_ack p' + 1) by (destruct SQV as [->|[-> _]]; lia).
  cbn [step_side wd_second wd_pair wd_first] in E2. apply bind_ok in E2. destruct E2 as ([[p2 q2] rs2'] & E2 & EW2).
  assert (w2 = {| wd_first := p; wd_second := p2; wd_pair := q2 |}) as -> by congruence. clear EW2.
  unfold peer_step in E2. cbn [recv_channel] in E2. apply bind_ok in E2. destruct E2 as ([[p3 q3] rs3] & EL & E2). cbv beta zeta iota in E2.
  assert (DQ : Forall (fun x => mt_message x = MData sq sq) (ch_messages (p_fst q)) /\ ((pe_ack p' =? sq) && can_send FirstSide now w' && (sq <? pe_count p') = false -> ch_messages (p_fst q) = [])).
  { destruct ((pe_ack p' =? sq) && can_send FirstSide now w' && (sq <? pe_count p')) eqn:G.
    - destruct (next_draws rs1) as [d rsd] eqn:ND. apply bind_ok in E1. destruct E1 as (w2' & E1 & E1'). apply bind_ok in E1'. destruct E1' as (sq1 & _ & E1'). apply bind_ok in E1'. destruct E1' as (t & _ & E1').
      unfold endpoint_send in E1. apply bind_ok in E1. destruct E1 as (c1 & E1 & E1''). cbn [send_channel set_send] in E1, E1''. assert (q = {| p_fst := c1; p_snd := p_snd w' |}) as -> by congruence. cbn [p_fst].
      split; [|discriminate]. eapply (send_forall _ _ _ _ _ _ E1); [rewrite R1, EF; constructor|auto].
    - assert (q = w') as -> by congruence. rewrite R1, EF. split; [constructor|auto]. }
  destruct DQ as [DQ DN].
  assert (PS : pe_ack (wd_second w) <= pe_seq p /\ sq <= pe_seq p).
  { destruct ((pe_ack p' =? sq) && can_send FirstSide now w' && (sq <? pe_count p')) eqn:G.
    - destruct (next_draws rs1) as [d rsd] eqn:ND. apply bind_ok in E1. destruct E1 as (w2' & E1 & E1'). apply bind_ok in E1'. destruct E1' as (sq1 & ES1 & E1'). apply bind_ok in E1'. destruct E1' as (t & _ & E1').
      apply add64_ok in ES1. destruct ES1 as [-> _]. match type of E1' with Ok (?z, _, _) = _ => assert (p = z) as -> by congruence end. cbn [pe_seq].
      apply andb_true_iff in G. destruct G as [G _]. apply andb_true_iff in G. destruct G as [G _]. apply N.eqb_eq in G. lia.
    - match type of E1 with Ok (?z, _, _) = _ => assert (p = z) as -> by congruence end. cbn [pe_seq].
      split; [|lia]. destruct SQV as [EQ|[EQ _]]; [|lia]. destruct (N.eq_dec (pe_seq p') (pe_ack p')) as [X|X]; [lia|].
      (* retransmission without sending: only when everything has been acknowledged *)
      subst sq. unfold after_retransmit in *. destruct (pe_retransmit p') as [t|]; [|lia].
      destruct ((now <=? t) && can_send FirstSide now w') eqn:GG; [|lia]. apply andb_true_iff in GG. destruct GG as [_ GG]. rewrite N.eqb_refl, GG in G. cbn [andb] in G.
      apply N.ltb_ge in G. destruct C as (_ & _ & _ & C4). rewrite N1, PC in G. lia. }
  assert (PQ : pe_ack p = pe_ack p' /\ p_snd q = p_snd w').
  { destruct ((pe_ack p' =? sq) && can_send FirstSide now w' && (sq <? pe_count p')).
    - destruct (next_draws rs1) as [d rsd] eqn:ND. apply bind_ok in E1. destruct E1 as (w2' & E1 & E1'). apply bind_ok in E1'. destruct E1' as (sq1 & ES1 & E1'). apply bind_ok in E1'. destruct E1' as (t & _ & E1').
      unfold endpoint_send in E1. apply bind_ok in E1. destruct E1 as (c1 & E1 & E1''). cbn [send_channel set_send] in E1, E1''. assert (q = {| p_fst := c1; p_snd := p_snd w' |}) as -> by congruence.
      match type of E1' with Ok (?z, _, _) = _ => assert (p = z) as -> by congruence end. auto.
    - assert (q = w') as -> by congruence. match type of E1 with Ok (?z, _, _) = _ => assert (p = z) as -> by congruence end. auto. }
  destruct PQ as [PQ PQ2].
  assert (PSQ : pe_seq p = sq \/ (pe_seq p = sq + 1 /\ sq = pe_ack p' /\ ch_messages (p_fst q) = ch_messages (p_fst q))).
  { destruct ((pe_ack p' =? sq) && can_send FirstSide now w' && (sq <? pe_count p')) eqn:G.
    - destruct (next_draws rs1) as [d rsd] eqn:ND. apply bind_ok in E1. destruct E1 as (w2' & E1 & E1'). apply bind_ok in E1'. destruct E1' as (sq1 & ES1 & E1'). apply bind_ok in E1'. destruct E1' as (t & _ & E1').
      apply add64_ok in ES1. destruct ES1 as [-> _]. match type of E1' with Ok (?z, _, _) = _ => assert (p = z) as -> by congruence end. cbn [pe_seq].
      apply andb_true_iff in G. destruct G as [G _]. apply andb_true_iff in G. destruct G as [G _]. apply N.eqb_eq in G. right. auto.
    - match type of E1 with Ok (?z, _, _) = _ => assert (p = z) as -> by congruence end. auto. }
  (* the consumer *)
  assert (NC : (after_retransmit SecondSide now p3 q3 <? pe_count p3) = false /\ pe_ack p3 <= pe_seq p /\ pe_ack (wd_second w) <= pe_ack p3).
  { destruct C as (C1 & C2 & C3 & C4). assert (DD : only_data (pe_seq p) (p_fst q)).
    { destruct ((pe_ack p' =? sq) && can_send FirstSide now w' && (sq <? pe_count p')) eqn:G; [|unfold only_data; rewrite (DN eq_refl); constructor].
      eapply Forall_impl; [|exact DQ]. intros z Ez. exists sq. split; [exact Ez|].
      destruct (next_draws rs1) as [d rsd] eqn:ND. apply bind_ok in E1. destruct E1 as (w2' & E1 & E1'). apply bind_ok in E1'. destruct E1' as (sq1 & ES1 & E1'). apply bind_ok in E1'. destruct E1' as (t & _ & E1').
      apply add64_ok in ES1. destruct ES1 as [-> _]. match type of E1' with Ok (?z, _, _) = _ => assert (p = z) as -> by congruence end. cbn [pe_seq]. lia. }
    assert (AA : only_acks (pe_ack (wd_second w)) (p_snd q)) by (rewrite PQ2; exact A1).
    assert (CC : consumer_ok (pe_seq p) (wd_second w)) by (repeat split; auto; lia).
    destruct (consumer_loop prm (pe_seq p) _ _ _ _ _ _ _ CC DD AA EL) as ((c1 & c2 & c3 & c4) & LL & _). split; [rewrite c1; apply N.ltb_ge; lia|lia]. }
  destruct NC as (NC & PK & PM). rewrite NC, andb_false_r in E2. assert (q2 = q3) as -> by congruence. match type of E2 with Ok (?z, _, _) = _ => assert (EP2 : p2 = z) by congruence end.
  assert (EP2a : pe_ack p2 = pe_ack p3) by (rewrite EP2; reflexivity). clear EP2 E2.
  destruct (consumer_drains _ _ _ _ _ _ _ _ EL) as (DE & DS).
  (* everything but what is known *)
  assert (Gen : forall g', known {| wd_first := p; wd_second := p2; wd_pair := q3 |} (N.min count g') -> live prm count (now + 1) g' {| wd_first := p; wd_second := p2; wd_pair := q3 |}).
  { intros g' Kg. unfold live. cbn [wd_first wd_second wd_pair]. split; [exact WI2|]. split; [exact DE|]. split; [lia|]. split; [lia|]. rewrite DS.
    destruct ((pe_ack p' =? sq) && can_send FirstSide now w' && (sq <? pe_count p')) eqn:G.
    - apply andb_true_iff in G. destruct G as [G G3]. apply andb_true_iff in G. destruct G as [G1 G2]. apply N.eqb_eq in G1. apply N.ltb_lt in G3. unfold can_send in G2. cbn [send_channel] in G2. rewrite R1 in G2. apply N.leb_le in G2.
      specialize (NS ltac:(rewrite N1, PC in G3; lia)).
      destruct (next_draws rs1) as [d rsd] eqn:ND. apply bind_ok in E1. destruct E1 as (w2' & E1 & E1'). apply bind_ok in E1'. destruct E1' as (sq1 & ES1 & E1'). apply bind_ok in E1'. destruct E1' as (t & Et & E1').
      apply add64_ok in Et. destruct Et as [-> _]. apply add64_ok in ES1. destruct ES1 as [-> _].
      unfold endpoint_send in E1. apply bind_ok in E1. destruct E1 as (c1 & E1 & E1''). cbn [send_channel set_send] in E1, E1''. assert (q = {| p_fst := c1; p_snd := p_snd w' |}) as -> by congruence. cbn [p_fst].
      match type of E1' with Ok (?z, _, _) = _ => assert (p = z) as -> by congruence end. cbn [pe_seq pe_ack pe_retransmit].
      destruct (send_ok _ _ _ _ _ E1) as (xs & _ & _ & Es & _). rewrite Es, R1. split; [lia|]. split; [destruct NK as [k ->]; exists (k + 1); lia|]. split; [|exact Kg].
      intros _. eexists. split; [reflexivity|]. lia.
    - assert (q = w') as -> by congruence. match type of E1 with Ok (?z, _, _) = _ => assert (p = z) as -> by congruence end. cbn [pe_seq pe_ack pe_retransmit]. rewrite R1.
      split.
      + intros LC. specialize (NS ltac:(lia)). cbn [pe_ack] in *. assert (~ (ch_next_send (p_fst (wd_pair w)) <= now)); [|lia]. intros Le.
        assert (E0 : sq = pe_ack p') by (destruct SQV as [->|[-> H]]; [reflexivity|]; destruct (H LC); [lia|assumption]).
        unfold can_send in G. cbn [send_channel] in G. rewrite R1, E0, N.eqb_refl in G. replace (ch_next_send (p_fst (wd_pair w)) <=? now) with true in G by (symmetry; apply N.leb_le; exact Le).
        cbn [andb] in G. apply N.ltb_ge in G. rewrite N1, PC in G. lia.
      + split; [exact NK|]. split; [|exact Kg]. intros H. apply RT'. destruct SQV as [H0|[H0 _]]; lia. }
  split; [apply Gen; left; cbn [wd_first]; lia|]. intros k Ek T1 T2. apply Gen.
  destruct (N.le_gt_cases count (pe_ack p')) as [LC|LC]; [left; cbn [wd_first]; lia|].
  specialize (NS ltac:(lia)). destruct NK as [k' Ek']. assert (k' = k). { assert (k * inv_bandwidth prm <= k' * inv_bandwidth prm < (k + 1) * inv_bandwidth prm) by lia. nia. } subst k'.
  assert (E0 : sq = pe_ack p') by (destruct SQV as [->|[-> H]]; [reflexivity|]; destruct (H LC); [lia|assumption]).
  assert (G : (pe_ack p' =? sq) && can_send FirstSide now w' && (sq <? pe_count p') = true).
  { rewrite E0, N.eqb_refl. unfold can_send. cbn [send_channel]. rewrite R1. replace (ch_next_send (p_fst (wd_pair w)) <=? now) with true by (symmetry; apply N.leb_le; lia). cbn [andb]. apply N.ltb_lt. rewrite N1, PC. exact LC. }
  rewrite G in E1. destruct (next_draws rs1) as [d rsd] eqn:ND. apply bind_ok in E1. destruct E1 as (w2' & E1 & E1'). apply bind_ok in E1'. destruct E1' as (sq1 & ES1 & E1'). apply bind_ok in E1'. destruct E1' as (t & Et & E1').
  unfold endpoint_send in E1. apply bind_ok in E1. destruct E1 as (c1 & E1 & E1''). cbn [send_channel set_send] in E1, E1''. assert (q = {| p_fst := c1; p_snd := p_snd w' |}) as -> by congruence. cbn [p_fst] in *.
  destruct (through_copy _ _ _ _ _ _ _ T1 ND E1) as (xs & x & Em & Ex).
  assert (NE : ch_messages (p_fst {| p_fst := c1; p_snd := p_snd w' |}) <> []) by (cbn [p_fst]; rewrite Em; intros H; destruct (ch_messages (p_fst w')); discriminate).
  assert (LS : sq <= pe_ack (wd_second w)) by lia.
  destruct (consumer_replies _ _ sq _ _ _ _ _ _ NE DQ LS T2 EL) as (y & a & Iy & Ey & La).
  right. cbn [wd_pair]. exists y, a. split; [exact Iy|]. split; [exact Ey|]. lia.
Qed.
Lemma main_loop_app n m prm rs : forall now w, main_loop (n + m) prm now rs w = (let? w := main_loop n prm now rs w in main_loop m prm (now + N.of_nat n) rs w).
Proof.
  induction n as [|n IH]; intros now w; [cbn [main_loop Nat.add bind]; rewrite N.add_0_r; reflexivity|]. cbn [main_loop Nat.add].
  destruct (step_side FirstSide prm now (rs now FirstSide) w) as [w1|e|]; cbn [bind]; auto.
  destruct (step_side SecondSide prm now (rs now SecondSide) w1) as [w2|e|]; cbn [bind]; auto.
  rewrite IH. replace (now + 1 + N.of_nat n) with (now + N.of_nat (S n)) by lia. reflexivity.
Qed.
Lemma live_main prm count rs n g : 0 < inv_bandwidth prm <= retransmit_delay -> good_sends (inv_bandwidth prm) rs n g ->
  forall w, main_loop (N.to_nat n) prm 0 rs (world_new count 0) = Ok w -> live prm count n g w.
Proof.
  intros IB GS. induction GS as [|k g GS IH T1 T2|n g GS IH]; intros w E.
  - cbn in E. assert (w = world_new count 0) as -> by congruence. split; [apply world_new_inv|]. cbn. repeat split; try lia; [exists 0; reflexivity|]. left. cbn. lia.
  - replace (N.to_nat (k * inv_bandwidth prm + 1)) with (N.to_nat (k * inv_bandwidth prm) + 1)%nat in E by (rewrite N2Nat.inj_add; reflexivity).
    rewrite main_loop_app in E. apply bind_ok in E. destruct E as (w0 & E0 & E). specialize (IH w0 E0). rewrite N.add_0_l, N2Nat.id in E. cbn [main_loop] in E.
    apply bind_ok in E. destruct E as (w1 & E1 & E). apply bind_ok in E. destruct E as (w2 & E2 & E). assert (w = w2) as -> by congruence.
    destruct (tick _ _ _ _ _ _ _ _ _ IB IH E1 E2) as [_ H]. apply (H k eq_refl T1 T2).
  - replace (N.to_nat (n + 1)) with (N.to_nat n + 1)%nat in E by lia. rewrite main_loop_app in E. apply bind_ok in E. destruct E as (w0 & E0 & E). specialize (IH w0 E0). rewrite N.add_0_l, N2Nat.id in E. cbn [main_loop] in E.
    apply bind_ok in E. destruct E as (w1 & E1 & E). apply bind_ok in E. destruct E as (w2 & E2 & E). assert (w = w2) as -> by congruence.
    destruct (tick _ _ _ _ _ _ _ _ _ IB IH E1 E2) as [H _]. exact H.
Qed.
