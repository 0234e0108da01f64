(** What does hold of the claims C88 and C89, which are refuted in [SimProps]. *)
From Verif Require Import Base BaseProofs MplexModel SimModel SimSpec SimProofs SimProofs2 SimProps.
From Coq Require Import Lia ZArith ZifyBool ZifyNat ZifyN Permutation Sorted.
Ltac Zify.zify_post_hook ::= Z.div_mod_to_equations.
Local Open Scope string_scope. Local Open Scope list_scope. Local Open Scope N_scope.

(** *** C88: both peers sending *)
(** The data messages in a channel are among those its sender has. *)
Definition data_below (count : N) (c : channel message) : Prop :=
  Forall (fun x => match mt_message x with MData seq data => data = seq /\ seq < count | MAck _ => True end) (ch_messages c).
Definition good_list (bound : N) (l : list (N * N)) : Prop := StronglySorted (fun x y => fst x < fst y) l /\ Forall (fun x => snd x = fst x /\ fst x < bound) l.
Definition good_peer (other : N) (p : peer) : Prop := good_list other (pe_accepted p) /\ Forall (fun x => fst x < pe_ack p) (pe_accepted p).
Definition both_inv (n1 n2 : N) (w : world) : Prop :=
  pe_count (wd_first w) = n1 /\ pe_count (wd_second w) = n2 /\ good_peer n2 (wd_first w) /\ good_peer n1 (wd_second w) /\
  data_below n1 (p_fst (wd_pair w)) /\ data_below n2 (p_snd (wd_pair w)).
Lemma sorted_snoc {A} (R : A -> A -> Prop) l x : StronglySorted R l -> Forall (fun y => R y x) l -> StronglySorted R (l ++ [x]).
Proof.
  induction 1 as [|y l H IH F]; intros G; [repeat constructor|]. inversion G as [|? ? G1 G2]; subst. cbn [app]. constructor; [auto|].
  apply Forall_app. split; [exact F|]. repeat constructor. exact G1.
Qed.
Lemma message_good other m p p' reply : good_peer other p -> (match m with MData seq data => data = seq /\ seq < other | MAck _ => True end) -> on_message m p = Ok (p', reply) ->
  good_peer other p' /\ pe_count p' = pe_count p /\ match reply with Some (MData _ _) => False | _ => True end.
Proof.
  intros ((S & F) & B) M H. unfold on_message in H. destruct m as [seq data|ack].
  - destruct M as (-> & L). destruct (N.ltb_spec (pe_ack p) seq) as [?|?]; [injection H as <- <-; unfold good_peer, good_list; auto|]. destruct (N.eqb_spec (pe_ack p) seq) as [E|E].
    + apply bind_ok in H. destruct H as (a & A & H). apply add64_ok in A. destruct A as (-> & _). injection H as <- <-. unfold good_peer, good_list. cbn [pe_accepted pe_ack pe_count]. subst seq.
      split; [|auto]. split; [split|].
      * apply sorted_snoc; [exact S|]. exact B.
      * apply Forall_app. split; [exact F|]. repeat constructor. exact L.
      * apply Forall_app. split; [|repeat constructor; cbn; lia]. eapply Forall_impl; [|exact B]. cbv beta. intros; lia.
    + injection H as <- <-. unfold good_peer, good_list. auto.
  - destruct (N.ltb_spec (pe_ack p) ack) as [?|?]; injection H as <- <-; unfold good_peer, good_list; cbn [pe_accepted pe_ack pe_count]; auto.
    split; [|auto]. split; [auto|]. eapply Forall_impl; [|exact B]. cbv beta. intros; lia.
Qed.
Lemma loop_good s prm own other fuel : forall rs p w p' w' rs', good_peer other p -> data_below other (recv_channel s w) -> data_below own (send_channel s w) ->
  recv_loop fuel s prm rs p w = Ok (p', w', rs') ->
  good_peer other p' /\ pe_count p' = pe_count p /\ data_below other (recv_channel s w') /\ data_below own (send_channel s w').
Proof.
  induction fuel as [|fuel IH]; intros rs p w p' w' rs' G D1 D2 H; [discriminate H|]. cbn [recv_loop] in H. unfold endpoint_recv in H.
  destruct (channel_recv (recv_channel s w)) as [x c] eqn:R. destruct (recv_forall _ _ _ _ R D1) as (R1 & R2).
  assert (E1 : recv_channel s (set_recv s c w) = c) by (destruct s; reflexivity). assert (E2 : send_channel s (set_recv s c w) = send_channel s w) by (destruct s; reflexivity).
  destruct x as [m|].
  - apply bind_ok in H. destruct H as ([p1 reply] & M & H). destruct (message_good other _ _ _ _ G (proj1 R2) M) as (G1 & C1 & Y). destruct reply as [reply|].
    + destruct (next_draws rs) as [d rs1]. apply bind_ok in H. destruct H as (w1 & W & H). unfold endpoint_send in W. apply bind_ok in W. destruct W as (c1 & W & W'). injection W' as <-.
      destruct reply as [|ack]; [contradiction|]. rewrite E2 in W. pose proof (send_forall _ _ _ _ _ _ W D2 ltac:(intros y E; cbv beta; rewrite E; exact I)) as D3.
      destruct (IH _ _ (set_send s c1 (set_recv s c w)) _ _ _ G1 (ltac:(destruct s; exact R1)) (ltac:(destruct s; exact D3)) H) as (X1 & X2 & X3 & X4). rewrite <- C1. auto.
    + destruct (IH _ _ (set_recv s c w) _ _ _ G1 (ltac:(rewrite E1; exact R1)) (ltac:(rewrite E2; exact D2)) H) as (X1 & X2 & X3 & X4). rewrite <- C1. auto.
  - injection H as <- <- <-. rewrite E1, E2. auto.
Qed.
Lemma peer_good s prm now other rs p w p' w' rs' : good_peer other p -> data_below other (recv_channel s w) -> data_below (pe_count p) (send_channel s w) ->
  peer_step s prm now rs p w = Ok (p', w', rs') ->
  good_peer other p' /\ pe_count p' = pe_count p /\ data_below other (recv_channel s w') /\ data_below (pe_count p) (send_channel s w').
Proof.
  intros G D1 D2 H. unfold peer_step in H. apply bind_ok in H. destruct H as ([[p1 w1] rs1] & L & H). destruct (loop_good _ _ _ _ _ _ _ _ _ _ _ G D1 D2 L) as (X1 & X2 & X3 & X4). cbv zeta in H. rewrite <- X2 in *.
  destruct (_ && _ && _) eqn:B.
  - destruct (next_draws rs1) as [d rs2]. apply bind_ok in H. destruct H as (w2 & W & H). apply bind_ok in H. destruct H as (sq & _ & H). apply bind_ok in H. destruct H as (t & _ & H). injection H as <- <- <-.
    unfold endpoint_send in W. apply bind_ok in W. destruct W as (c1 & W & W'). injection W' as <-. cbn [pe_count]. apply andb_true_iff in B. destruct B as [_ B]. apply N.ltb_lt in B.
    pose proof (send_forall _ _ _ _ _ _ W X4 ltac:(intros y E; cbv beta; rewrite E; auto)) as D3.
    split; [exact X1|]. split; [reflexivity|]. destruct s; auto.
  - injection H as <- <- <-. auto.
Qed.
(** Also when both send, and whatever is lost, doubled and reordered: what a peer accepts is
    numbered in increasing order, so nothing is accepted twice or out of order, and is
    what the other one has under that number.  (Gaps are possible, as [C88_both_refuted] shows.) *)
Theorem C88_increasing_partial prm l n1 n2 w : world_run prm l (world_new n1 n2) = Ok w -> good_list n2 (pe_accepted (wd_first w)) /\ good_list n1 (pe_accepted (wd_second w)).
Proof.
  assert (X : forall l w w', both_inv n1 n2 w -> world_run prm l w = Ok w' -> both_inv n1 n2 w').
  { clear. induction l as [|[[s now] rs] l IH]; intros w w' H E; cbn [world_run] in E; [congruence|]. apply bind_ok in E. destruct E as (w1 & E1 & E). apply (IH w1 w'); [|exact E].
    destruct H as (C1 & C2 & G1 & G2 & D1 & D2). destruct s; cbn [step_side] in E1; apply bind_ok in E1; destruct E1 as ([[p q] r] & E1 & W); injection W as <-.
    - rewrite <- C1 in D1. destruct (peer_good FirstSide prm now n2 rs _ _ _ _ _ G1 D2 D1 E1) as (Y1 & Y2 & Y3 & Y4). rewrite C1 in Y2, Y4. unfold both_inv. cbn [wd_first wd_second wd_pair]. auto 10.
    - rewrite <- C2 in D2. destruct (peer_good SecondSide prm now n1 rs _ _ _ _ _ G2 D1 D2 E1) as (Y1 & Y2 & Y3 & Y4). rewrite C2 in Y2, Y4. unfold both_inv. cbn [wd_first wd_second wd_pair]. auto 10. }
  intros E. assert (I0 : both_inv n1 n2 (world_new n1 n2)) by (unfold both_inv, good_peer, good_list, data_below; cbn; repeat split; constructor).
  destruct (X l _ _ I0 E) as (_ & _ & (G1 & _) & (G2 & _) & _). auto.
Qed.
Print Assumptions C88_increasing_partial.
(** Both accept something, the first one's number 0 having been lost. *)
Example C88_increasing_sample : exists w, world_run main_params [(FirstSide, 0, [[{| dr_extra := 0; dr_lost := true; dr_priority := 0 |}]]); (SecondSide, 0, []); (FirstSide, 523, []); (SecondSide, 523, []); (FirstSide, 1046, []); (SecondSide, 1046, [])] (world_new 2 1) = Ok w /\
  pe_accepted (wd_first w) = [(0, 0)] /\ pe_accepted (wd_second w) = [(1, 1)].
Proof. eexists. vm_compute. repeat split; reflexivity. Qed.

(** *** C89: when exactly a message is sent *)
(** By a peer that hears nothing: the first not acknowledged, if there is one and the channel is
    free, when it has not been sent yet or the time for the retransmission has not passed. *)
Theorem C89_exact_partial prm now rs w w' : ch_messages (p_snd (wd_pair w)) = [] -> step_side FirstSide prm now rs w = Ok w' ->
  let p := wd_first w in
  let due := pe_ack p < pe_count p /\ ch_next_send (p_fst (wd_pair w)) <= now /\ (pe_seq p = pe_ack p \/ exists t, pe_retransmit p = Some t /\ now <= t) in
  (due -> endpoint_send FirstSide prm (MData (pe_ack p) (pe_ack p)) (fst (next_draws rs)) (wd_pair w) = Ok (wd_pair w') /\ pe_retransmit (wd_first w') = Some (now + 1000) /\ pe_seq (wd_first w') = pe_ack p + 1) /\
  (~ due -> wd_pair w' = wd_pair w /\ pe_retransmit (wd_first w') = pe_retransmit p).
Proof.
  intros EM E. destruct w as [[s1 n1 a1 r1 x1] p2 [[m1 no1 t1] [m2 no2 t2]]]. cbn [wd_first wd_pair pe_retransmit pe_seq p_snd p_fst ch_messages ch_next_send pe_ack pe_count] in *. subst. cbv zeta. cbn in E. unfold after_retransmit, can_send in E. cbn [pe_retransmit pe_ack pe_seq send_channel p_fst ch_next_send] in E.
  set (sq := match r1 with Some t => if (now <=? t) && (t1 <=? now) then a1 else s1 | None => s1 end) in *.
  assert (Q : ((a1 =? sq) && (t1 <=? now) && (sq <? n1))%bool = true <-> a1 < n1 /\ t1 <= now /\ (s1 = a1 \/ exists t, r1 = Some t /\ now <= t)).
  { subst sq. destruct r1 as [t|].
    - destruct (N.leb_spec now t) as [A|A]; destruct (N.leb_spec t1 now) as [B|B]; cbn [andb]; split.
      + intros C. split; [lia|]. split; [exact B|]. right. exists t. auto.
      + intros (C1 & _ & _). rewrite N.eqb_refl. cbn [andb]. lia.
      + rewrite andb_false_r. discriminate.
      + intros (_ & C & _). lia.
      + intros C. split; [lia|]. split; [exact B|]. left. lia.
      + intros (C1 & _ & [C2|(t' & C2 & C3)]); [lia|]. injection C2 as <-. lia.
      + rewrite andb_false_r. discriminate.
      + intros (_ & C & _). lia.
    - destruct (N.leb_spec t1 now) as [B|B]; split.
      + intros C. split; [lia|]. split; [exact B|]. left. lia.
      + intros (C1 & _ & [C2|(t' & C2 & C3)]); [lia|discriminate].
      + rewrite andb_false_r. discriminate.
      + intros (_ & C & _). lia. }
  destruct ((a1 =? sq) && (t1 <=? now) && (sq <? n1))%bool eqn:B.
  - split; [|intros N0; destruct N0; apply Q; reflexivity]. intros _. apply andb_true_iff in B. destruct B as [B _]. apply andb_true_iff in B. destruct B as [B _]. apply N.eqb_eq in B. rewrite <- B in *.
    destruct (next_draws rs) as [d rs']. cbn [fst]. apply bind_ok in E. destruct E as ([[p q] rs''] & E & EW). apply bind_ok in E. destruct E as (q' & E1 & E). apply bind_ok in E. destruct E as (sq' & S & E). apply bind_ok in E. destruct E as (t' & T & E).
    apply add64_ok in S, T. destruct S as (-> & _), T as (-> & _). rewrite E1. injection E as <- <- <-. injection EW as <-. repeat split.
  - split; [intros D; apply Q in D; discriminate|]. intros _. injection E as <-. repeat split.
Qed.
Print Assumptions C89_exact_partial.
Example C89_exact_sample : exists w w1 w2, main_loop 1 main_params 0 (fun _ _ => [[{| dr_extra := 0; dr_lost := true; dr_priority := 0 |}]]) (world_new 5 0) = Ok w /\ pe_retransmit (wd_first w) = Some 1000 /\
  step_side FirstSide main_params 1000 [] w = Ok w1 /\ pe_retransmit (wd_first w1) = Some 2000 /\ step_side FirstSide main_params 1001 [] w = Ok w2 /\ w2 = w.
Proof. eexists _, _, _. split; [vm_compute; reflexivity|]. split; [reflexivity|]. split; [vm_compute; reflexivity|]. split; [reflexivity|]. split; vm_compute; reflexivity. Qed.
