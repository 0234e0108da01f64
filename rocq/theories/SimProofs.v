(** Lemmas about the simulator. *)
From Verif Require Import Base BaseProofs MplexModel SimModel SimSpec.
From Coq Require Import Lia ZArith ZifyBool ZifyNat ZifyN Permutation.
Ltac Zify.zify_post_hook ::= Z.div_mod_to_equations.
Local Open Scope string_scope. Local Open Scope list_scope. Local Open Scope N_scope.

Lemma add64_ok {E} a b r : @add64 E a b = Ok r -> r = a + b /\ a + b < two64.
Proof. unfold add64. destruct (N.ltb_spec (a + b) two64); [|discriminate]. intros H0. split; [congruence|assumption]. Qed.
Lemma add64_small {E} a b : a + b < two64 -> @add64 E a b = Ok (a + b).
Proof. unfold add64. destruct (N.ltb_spec (a + b) two64); [reflexivity|lia]. Qed.

(** *** The least *)
Lemma opt_min_fold l : forall acc, least (match acc with Some a => [a] | None => [] end ++ present l)
  (fold_left (fun res v => match v, res with None, _ => res | Some v, None => Some v | Some v, Some r => Some (N.min r v) end) l acc).
Proof.
  induction l as [|[v|] l IH]; intros acc; cbn [fold_left present flat_map].
  - rewrite app_nil_r. destruct acc; cbn [least]; [split; [left; reflexivity|repeat constructor; lia]|reflexivity].
  - destruct acc as [a|].
    + specialize (IH (Some (N.min a v))). destruct (fold_left _ l _) as [n|]; cbn [least] in *; [|discriminate]. destruct IH as [I F]. inversion F as [|? ? F1 F2]; subst. split.
      * cbn [app In] in *. destruct I as [<-|I]; [destruct (N.min_spec a v) as [[_ ->]|[_ ->]]; auto|auto].
      * cbn [app]. constructor; [lia|]. constructor; [lia|exact F2].
    + apply (IH (Some v)).
  - apply IH.
Qed.
Lemma next_recv_fold {M} (l : list (in_transit M)) : forall acc, least (match acc with Some a => [a] | None => [] end ++ map mt_time l)
  (fold_left (fun res x => match res with None => Some (mt_time x) | Some n => if mt_time x <? n then Some (mt_time x) else res end) l acc).
Proof.
  induction l as [|x l IH]; intros acc; cbn [fold_left map].
  - rewrite app_nil_r. destruct acc; cbn [least]; [split; [left; reflexivity|repeat constructor; lia]|reflexivity].
  - destruct acc as [a|].
    + specialize (IH (if mt_time x <? a then Some (mt_time x) else Some a)). destruct (N.ltb_spec (mt_time x) a) as [L|L];
        (destruct (fold_left _ l _) as [n|]; cbn [least] in *; [|discriminate]; destruct IH as [I F]; inversion F as [|? ? F1 F2]; subst; split;
         [cbn [app In] in *; tauto|cbn [app]; constructor; [lia|]; constructor; [lia|exact F2]]).
    + apply (IH (Some (mt_time x))).
Qed.
Lemma next_recv_least {M} (c : channel M) : least (map mt_time (ch_messages c)) (next_recv_time c).
Proof. apply (next_recv_fold (ch_messages c) None). Qed.

(** *** Receiving *)
(** After scanning [pre] the best is the first of the least priority among those with time [t]. *)
Definition best_of {M} (t : N) (pre : list (in_transit M)) (b : option (nat * N)) : Prop :=
  match b with
  | None => Forall (fun x => mt_time x <> t) pre
  | Some (i, pr) => exists x, nth_error pre i = Some x /\ mt_time x = t /\ mt_priority x = pr /\
      (forall y, In y pre -> mt_time y = t -> pr <= mt_priority y) /\ (forall y, In y (firstn i pre) -> mt_time y = t -> pr < mt_priority y)
  end.
Lemma firstn_snoc {A} (l : list A) x i : (i <= length l)%nat -> firstn i (l ++ [x]) = firstn i l.
Proof. intros L. rewrite firstn_app. replace (i - length l)%nat with 0%nat by lia. apply app_nil_r. Qed.
Lemma best_index_ok {M} t (l : list (in_transit M)) : forall pre b, best_of t pre b -> best_of t (pre ++ l) (best_index t (length pre) b l).
Proof.
  induction l as [|x l IH]; intros pre b H; cbn [best_index]; [rewrite app_nil_r; exact H|].
  replace (pre ++ x :: l) with ((pre ++ [x]) ++ l) by (rewrite <- app_assoc; reflexivity).
  replace (S (length pre)) with (length (pre ++ [x])) by (rewrite app_length; cbn [length]; lia). apply IH.
  assert (Last : nth_error (pre ++ [x]) (length pre) = Some x) by (rewrite nth_error_app2, Nat.sub_diag by lia; reflexivity).
  destruct (N.eqb_spec (mt_time x) t) as [E|NE].
  - destruct b as [[i pr]|]; cbn [best_of] in *.
    + destruct H as (y & Ny & Ey & Py & Hle & Hlt). assert (Li : (i < length pre)%nat) by (apply nth_error_Some; congruence).
      destruct (N.ltb_spec (mt_priority x) pr) as [L|L]; cbn [best_of].
      * exists x. split; [exact Last|]. split; [exact E|]. split; [reflexivity|]. split.
        -- intros z Iz Ez. apply in_app_or in Iz. destruct Iz as [Iz|[<-|[]]]; [specialize (Hle z Iz Ez); lia|lia].
        -- intros z Iz Ez. rewrite firstn_snoc, firstn_all in Iz by lia. specialize (Hle z Iz Ez). lia.
      * exists y. split; [rewrite nth_error_app1 by exact Li; exact Ny|]. split; [exact Ey|]. split; [exact Py|]. split.
        -- intros z Iz Ez. apply in_app_or in Iz. destruct Iz as [Iz|[<-|[]]]; [apply (Hle z Iz Ez)|lia].
        -- intros z Iz Ez. rewrite firstn_snoc in Iz by lia. apply (Hlt z Iz Ez).
    + exists x. split; [exact Last|]. split; [exact E|]. split; [reflexivity|]. rewrite Forall_forall in H. split.
      * intros z Iz Ez. apply in_app_or in Iz. destruct Iz as [Iz|[<-|[]]]; [destruct (H z Iz Ez)|lia].
      * intros z Iz Ez. rewrite firstn_snoc, firstn_all in Iz by lia. destruct (H z Iz Ez).
  - destruct b as [[i pr]|]; cbn [best_of] in *.
    + destruct H as (y & Ny & Ey & Py & Hle & Hlt). assert (Li : (i < length pre)%nat) by (apply nth_error_Some; congruence).
      exists y. split; [rewrite nth_error_app1 by exact Li; exact Ny|]. split; [exact Ey|]. split; [exact Py|]. split.
      * intros z Iz Ez. apply in_app_or in Iz. destruct Iz as [Iz|[<-|[]]]; [apply (Hle z Iz Ez)|contradiction].
      * intros z Iz Ez. rewrite firstn_snoc in Iz by lia. apply (Hlt z Iz Ez).
    + apply Forall_app. split; [exact H|]. repeat constructor. exact NE.
Qed.
Lemma recv_cases {M} (c : channel M) :
  (ch_messages c = [] /\ channel_recv c = (None, c)) \/
  (exists l1 x l2, ch_messages c = l1 ++ x :: l2 /\
    channel_recv c = (Some x, {| ch_messages := l1 ++ l2; ch_next_no := ch_next_no c; ch_next_send := ch_next_send c |}) /\
    Forall (fun y => earlier x y) l1 /\ Forall (fun y => ~ earlier y x) l2).
Proof.
  unfold channel_recv. pose proof (next_recv_least c) as L. destruct (next_recv_time c) as [t|]; cbn [least] in L.
  - right. destruct L as [I F]. pose proof (best_index_ok t (ch_messages c) [] None (Forall_nil _)) as B. cbn [app length] in B.
    destruct (best_index t 0 None (ch_messages c)) as [[i pr]|]; cbn [best_of] in B.
    + destruct B as (x & Nx & Ex & Px & Hle & Hlt). exists (firstn i (ch_messages c)), x, (skipn (S i) (ch_messages c)).
      assert (E : ch_messages c = firstn i (ch_messages c) ++ x :: skipn (S i) (ch_messages c)).
      { clear -Nx. revert i Nx. generalize (ch_messages c). induction l as [|y l IH]; intros [|i] Nx; try discriminate; cbn [firstn skipn app nth_error] in *; [congruence|]. f_equal. apply (IH i Nx). }
      split; [exact E|]. split; [rewrite Nx; reflexivity|].
      assert (T : forall y, In y (ch_messages c) -> t <= mt_time y) by (rewrite Forall_forall in F; intros y Iy; apply F, in_map, Iy).
      split; apply Forall_forall; intros y Iy.
      * assert (Iy' : In y (ch_messages c)) by (rewrite E; apply in_or_app; auto). specialize (T y Iy'). unfold earlier.
        destruct (N.eq_dec (mt_time y) t) as [Ey|Ey]; [right; specialize (Hlt y Iy Ey); lia|left; lia].
      * assert (Iy' : In y (ch_messages c)) by (rewrite E; apply in_or_app; right; right; exact Iy). specialize (T y Iy'). unfold earlier. intros [H|[H1 H2]]; [lia|].
        specialize (Hle y Iy' ltac:(lia)). lia.
    + exfalso. apply in_map_iff in I. destruct I as (x & Ex & Ix). rewrite Forall_forall in B. apply (B x Ix Ex).
  - left. destruct (ch_messages c); [auto|discriminate].
Qed.

(** *** Sending *)
Lemma send_copies_ok {M} p st (m : M) ds : forall c c', send_copies p st m ds c = Ok c' ->
  exists xs, copies p st m ds xs /\ ch_messages c' = ch_messages c ++ xs /\ ch_next_send c' = ch_next_send c /\ ch_next_no c <= ch_next_no c' /\
    NoDup (map mt_no xs) /\ Forall (fun x => ch_next_no c <= mt_no x < ch_next_no c') xs.
Proof.
  induction ds as [|d ds IH]; intros c c' E; cbn [send_copies] in E.
  - assert (c' = c) as -> by congruence. exists []. split; [exists 0%nat; split; [left; reflexivity|constructor]|]. rewrite app_nil_r. repeat split; try constructor; lia.
  - apply bind_ok in E. destruct E as (next & E1 & E). apply add64_ok in E1. destruct E1 as [-> _].
    apply bind_ok in E. destruct E as (lat & E2 & E). apply bind_ok in E. destruct E as (rt & E3 & E). apply add64_ok in E3. destruct E3 as [-> _].
    assert (EL : lat = latency_min p + (if latency_min p <=? latency_max p then dr_extra d else 0)).
    { destruct (latency_min p <=? latency_max p); [apply add64_ok in E2; tauto|]. assert (lat = latency_min p) by congruence. lia. }
    destruct (dr_lost d) eqn:LD.
    + assert (c' = {| ch_messages := ch_messages c; ch_next_no := ch_next_no c + 1; ch_next_send := ch_next_send c |}) as -> by congruence. exists []. split.
      * exists 0%nat. split; [right; exists d; auto|constructor].
      * cbn [ch_messages ch_next_no ch_next_send]. rewrite app_nil_r. repeat split; try constructor; lia.
    + apply IH in E. destruct E as (xs & (n & Hn & FF) & Em & Es & Eno & ND & FN). cbn [ch_messages ch_next_no ch_next_send] in *.
      eexists (_ :: xs). split; [|split; [rewrite Em, <- app_assoc; reflexivity|split; [exact Es|split; [lia|split]]]].
      * exists (S n). split.
        -- destruct Hn as [->|(d' & Nd & Ld)]; [left; reflexivity|right; exists d'; auto].
        -- cbn [firstn]. constructor; [|exact FF]. cbn [mt_message mt_priority mt_time]. repeat split; auto. lia.
      * cbn [map mt_no]. constructor; [|exact ND]. intros I. apply in_map_iff in I. destruct I as (y & Ey & Iy). rewrite Forall_forall in FN. specialize (FN y Iy). lia.
      * constructor; [cbn [mt_no]; lia|]. eapply Forall_impl; [|exact FN]. intros y H. cbv beta in H. lia.
Qed.
Lemma send_ok {M} p (m : M) ds c c' : channel_send p m ds c = Ok c' ->
  exists xs, copies p (ch_next_send c) m ds xs /\ ch_messages c' = ch_messages c ++ xs /\ ch_next_send c' = ch_next_send c + inv_bandwidth p /\ ch_next_no c <= ch_next_no c' /\
    NoDup (map mt_no xs) /\ Forall (fun x => ch_next_no c <= mt_no x < ch_next_no c') xs.
Proof.
  unfold channel_send. intros E. apply bind_ok in E. destruct E as (next & E1 & E). apply add64_ok in E1. destruct E1 as [-> _].
  apply send_copies_ok in E. exact E.
Qed.
Lemma copies_message {M} p st (m : M) ds xs : copies p st m ds xs -> Forall (fun x => mt_message x = m) xs.
Proof. intros (n & _ & F). induction F as [|d x ds' xs' H F IH]; constructor; [tauto|exact IH]. Qed.
Lemma copies_length {M} p st (m : M) ds xs : copies p st m ds xs -> (length xs <= length ds)%nat.
Proof. intros (n & _ & F). assert (X : length (firstn n ds) = length xs) by (induction F; cbn [length]; congruence). rewrite <- X, firstn_length. lia. Qed.

(** *** Runs *)
Lemma all_copies_app {M} p (m : M) ds xs : forall l k xss, all_copies p k l xss -> copies p ((k + N.of_nat (length l)) * inv_bandwidth p) m ds xs ->
  all_copies p k (l ++ [(m, ds)]) (xss ++ [xs]).
Proof.
  induction l as [|[m' ds'] l IH]; intros k [|xs' xss] H C; cbn [all_copies app length] in *; try contradiction.
  - rewrite N.add_0_r in C. auto.
  - destruct H as [H1 H2]. split; [exact H1|]. apply IH; [exact H2|]. replace (k + 1 + N.of_nat (length l)) with (k + N.of_nat (S (length l))) by lia. exact C.
Qed.
Definition channel_inv {M} (p : channel_params) (done : list (M * list draw)) (got : list (in_transit M)) (c : channel M) : Prop :=
  exists xss, all_copies p 0 done xss /\ Permutation (concat xss) (got ++ ch_messages c) /\ NoDup (map mt_no (concat xss)) /\
    Forall (fun x => mt_no x < ch_next_no c) (concat xss) /\ ch_next_send c = N.of_nat (length done) * inv_bandwidth p.
Lemma channel_run_inv {M} p (ops : list (channel_op M)) : forall done got c c' out, channel_inv p done got c -> channel_run p ops c = Ok (c', out) ->
  channel_inv p (done ++ sends ops) (got ++ out) c'.
Proof.
  induction ops as [|o ops IH]; intros done got c c' out (xss & A & Pm & ND & FN & ES) E; cbn [channel_run] in E.
  - assert (c' = c /\ out = []) as [-> ->] by (split; congruence). unfold sends. cbn [flat_map]. rewrite !app_nil_r. exists xss. auto.
  - destruct o as [m ds|].
    + apply bind_ok in E. destruct E as (c1 & E1 & E). destruct (send_ok p m ds c c1 E1) as (xs & C & Em & Es & Eno & ND1 & FN1).
      unfold sends. cbn [flat_map]. fold (sends ops). rewrite app_assoc. eapply IH; [|exact E]. exists (xss ++ [xs]). rewrite concat_app. cbn [concat]. rewrite app_nil_r. split.
      * apply all_copies_app; [exact A|]. rewrite N.add_0_l, <- ES. exact C.
      * split; [rewrite Em, app_assoc; apply Permutation_app_tail; exact Pm|]. split.
        -- rewrite map_app. rewrite Forall_forall in FN, FN1. assert (X : forall l : list N, NoDup l -> forall l', NoDup l' -> (forall z, In z l -> In z l' -> False) -> NoDup (l ++ l')).
           { clear. induction l as [|z l IH]; intros Nl l' Nl' D; [exact Nl'|]. inversion Nl; subst. cbn [app]. constructor.
             - intros I. apply in_app_or in I. destruct I as [I|I]; [contradiction|]. apply (D z); [left; reflexivity|exact I].
             - apply IH; [assumption|exact Nl'|]. intros y I1 I2. apply (D y); [right; exact I1|exact I2]. }
           apply X; [exact ND|exact ND1|]. intros z I1 I2. apply in_map_iff in I1. apply in_map_iff in I2. destruct I1 as (y1 & <- & I1). destruct I2 as (y2 & E2 & I2).
           specialize (FN y1 I1). specialize (FN1 y2 I2). lia.
        -- split; [apply Forall_app; split; [eapply Forall_impl; [|exact FN]; intros y H; cbv beta in *; lia|eapply Forall_impl; [|exact FN1]; intros y H; cbv beta in *; lia]|].
           rewrite Es, ES, app_length. cbn [length]. lia.
    + destruct (recv_cases c) as [(Ec & Er)|(l1 & x & l2 & Ec & Er & _ & _)]; rewrite Er in E; apply bind_ok in E; destruct E as ([c2 out2] & E & X); cbn [fst snd] in X;
        (assert (c2 = c') as -> by congruence); change (sends (ORecv :: ops)) with (sends ops).
      * assert (out = out2) as -> by congruence. eapply IH; [|exact E]. exists xss. auto.
      * assert (out = x :: out2) as -> by congruence. replace (got ++ x :: out2) with ((got ++ [x]) ++ out2) by (rewrite <- app_assoc; reflexivity). eapply IH; [|exact E].
        exists xss. cbn [ch_messages ch_next_no ch_next_send]. do 2 (split; auto). rewrite Pm, Ec, <- app_assoc. apply Permutation_app_head. cbn [app]. symmetry. apply Permutation_middle.
Qed.
Lemma channel_new_inv {M} p : @channel_inv M p [] [] channel_new.
Proof. exists []. cbn. repeat split; constructor. Qed.

(** *** Clocks *)
Definition clock_inv (w : clock_world) : Prop :=
  ck_wakers (cw_clock w) = map fst (cw_waits w) /\
  (cw_writing w = 0%nat -> Forall (fun x => ck_time (cw_clock w) < snd x) (cw_waits w)) /\
  Forall (fun x => ck_time (cw_clock w) < snd x) (cw_reading w).
Lemma quiet_inv w es w' : quiet_runs w es w' -> clock_inv w -> clock_inv w'.
Proof.
  induction 1 as [w|w e w' es w'' ST Q _ IH]; [auto|]. intros (I1 & I2 & I3). apply IH. unfold clock_inv.
  destruct ST as [w t|w n E|w task target L|w task target L|w task target a b E]; cbn [cw_clock cw_writing cw_reading cw_waits clock_write clock_notify clock_push ck_wakers ck_time].
  - rewrite (Q t eq_refl). repeat split; auto. discriminate.
  - repeat split; auto.
  - auto.
  - repeat split; auto. apply Forall_app. auto.
  - rewrite E in I3. apply Forall_app in I3. destruct I3 as [I3 I4]. inversion I4 as [|? ? I5 I6]; subst. rewrite I1, map_app. repeat split; auto.
    + intros W. apply Forall_app. split; auto.
    + apply Forall_app. auto.
Qed.

(** *** The protocol *)
Definition only_data (n : N) (c : channel message) : Prop := Forall (fun x => exists s, mt_message x = MData s s /\ s < n) (ch_messages c).
Definition only_acks (n : N) (c : channel message) : Prop := Forall (fun x => exists a, mt_message x = MAck a /\ a <= n) (ch_messages c).
Lemma send_forall {M} (Q : in_transit M -> Prop) p m ds c c' : channel_send p m ds c = Ok c' -> Forall Q (ch_messages c) -> (forall x, mt_message x = m -> Q x) -> Forall Q (ch_messages c').
Proof.
  intros E F H. destruct (send_ok p m ds c c' E) as (xs & C & Em & _). rewrite Em. apply Forall_app. split; [exact F|].
  eapply Forall_impl; [|exact (copies_message _ _ _ _ _ C)]. exact H.
Qed.
Lemma recv_forall {M} (Q : in_transit M -> Prop) c x c' : channel_recv c = (x, c') -> Forall Q (ch_messages c) ->
  Forall Q (ch_messages c') /\ match x with Some x => Q x | None => True end /\ (match x with Some _ => S (length (ch_messages c')) = length (ch_messages c) | None => ch_messages c' = [] end).
Proof.
  intros E F. destruct (recv_cases c) as [(Ec & Er)|(l1 & y & l2 & Ec & Er & _ & _)]; rewrite Er in E.
  - assert (x = None /\ c' = c) as [-> ->] by (split; congruence). auto.
  - assert (x = Some y) as -> by congruence. assert (c' = {| ch_messages := l1 ++ l2; ch_next_no := ch_next_no c; ch_next_send := ch_next_send c |}) as -> by congruence. cbn [ch_messages].
    rewrite Ec in F. apply Forall_app in F. destruct F as [F1 F2]. inversion F2; subst. rewrite Ec, !app_length. cbn [length]. split; [apply Forall_app; auto|]. split; [assumption|lia].
Qed.
Lemma in_order_snoc n : in_order (n + 1) = in_order n ++ [(n, n)].
Proof. unfold in_order. replace (N.to_nat (n + 1)) with (S (N.to_nat n)) by lia. rewrite seq_S, map_app. cbn [map Nat.add]. rewrite N2Nat.id. reflexivity. Qed.

(** The consumer's loop. *)
Definition consumer_ok (count : N) (p : peer) : Prop :=
  pe_count p = 0 /\ pe_retransmit p = None /\ pe_accepted p = in_order (pe_ack p) /\ pe_ack p <= count.
Lemma consumer_loop prm count fuel : forall rs p w p' w' rs', consumer_ok count p -> only_data count (p_fst w) -> only_acks (pe_ack p) (p_snd w) ->
  recv_loop fuel SecondSide prm rs p w = Ok (p', w', rs') ->
  consumer_ok count p' /\ pe_ack p <= pe_ack p' /\ only_data count (p_fst w') /\ only_acks (pe_ack p') (p_snd w') /\ pe_seq p' = pe_seq p.
Proof.
  induction fuel as [|fuel IH]; intros rs p w p' w' rs' C D A E; cbn [recv_loop] in E; [discriminate|].
  unfold endpoint_recv in E. destruct (channel_recv (recv_channel SecondSide w)) as [x c] eqn:ER. cbn [recv_channel set_recv] in ER, E.
  destruct (recv_forall _ _ _ _ ER D) as (D1 & Dx & _). destruct x as [x|].
  - destruct Dx as (s & Ex & Ls). apply bind_ok in E. destruct E as ([p1 reply] & EM & E). rewrite Ex in EM. cbn [on_message] in EM. destruct C as (C1 & C2 & C3 & C4).
    destruct (N.ltb_spec (pe_ack p) s) as [L|L].
    + assert (p1 = p /\ reply = None) as [-> ->] by (split; congruence). eapply IH; [| | |exact E]; try assumption. repeat split; assumption.
    + assert (X : exists a, reply = Some (MAck a) /\ consumer_ok count p1 /\ pe_ack p <= pe_ack p1 /\ a = pe_ack p1 /\ pe_seq p1 = pe_seq p).
      { destruct (N.eqb_spec (pe_ack p) s) as [ES|NE].
        - subst s. apply bind_ok in EM. destruct EM as (a & Ea & EM). apply add64_ok in Ea. destruct Ea as [-> _].
          assert (reply = Some (MAck (pe_ack p + 1))) as -> by congruence.
          assert (p1 = {| pe_seq := pe_seq p; pe_count := pe_count p; pe_ack := pe_ack p + 1; pe_retransmit := pe_retransmit p; pe_accepted := pe_accepted p ++ [(pe_ack p, pe_ack p)] |}) as -> by congruence.
          eexists. split; [reflexivity|]. unfold consumer_ok. cbn [pe_ack pe_count pe_retransmit pe_accepted pe_seq]. rewrite in_order_snoc, C3. repeat split; auto; lia.
        - assert (reply = Some (MAck (pe_ack p)) /\ p1 = p) as [-> ->] by (split; congruence). eexists. split; [reflexivity|]. repeat split; auto; lia. }
      destruct X as (a & -> & C' & LA & -> & SQ). cbv iota in E. destruct (next_draws rs) as [d rs1]. apply bind_ok in E. destruct E as (w1 & E1 & E).
      unfold endpoint_send in E1. apply bind_ok in E1. destruct E1 as (c1 & E1 & E2). cbn [send_channel set_send p_fst p_snd] in E1, E2.
      assert (w1 = {| p_fst := c; p_snd := c1 |}) as -> by congruence.
      destruct (IH _ _ _ _ _ _ C' (D1 : only_data count (p_fst {| p_fst := c; p_snd := c1 |})) ltac:(idtac; cbn [p_snd]; unfold only_acks; eapply (send_forall _ _ _ _ _ _ E1);
        [eapply Forall_impl; [|exact A]; intros z (b & Eb & Lb); exists b; split; [exact Eb|lia]|intros z Ez; exists (pe_ack p1); split; [exact Ez|lia]]) E) as (R1 & R2 & R3 & R4 & R5).
      split; [exact R1|]. split; [lia|]. split; [exact R3|]. split; [exact R4|congruence].
  - assert (p' = p /\ w' = {| p_fst := c; p_snd := p_snd w |}) as [-> ->] by (split; congruence). cbn [p_fst p_snd]. repeat split; auto; try apply C; lia.
Qed.
(** The producer's loop. *)
Lemma producer_loop prm n fuel : forall rs p w p' w' rs', pe_ack p <= n -> only_acks n (p_snd w) -> recv_loop fuel FirstSide prm rs p w = Ok (p', w', rs') ->
  pe_ack p <= pe_ack p' <= n /\ only_acks n (p_snd w') /\ p_fst w' = p_fst w /\ pe_seq p' = pe_seq p /\ pe_count p' = pe_count p /\ pe_accepted p' = pe_accepted p /\ rs' = rs /\
  (pe_retransmit p' = pe_retransmit p \/ pe_retransmit p' = None).
Proof.
  induction fuel as [|fuel IH]; intros rs p w p' w' rs' L A E; cbn [recv_loop] in E; [discriminate|].
  unfold endpoint_recv in E. destruct (channel_recv (recv_channel FirstSide w)) as [x c] eqn:ER. cbn [recv_channel set_recv] in ER, E.
  destruct (recv_forall _ _ _ _ ER A) as (A1 & Ax & _). destruct x as [x|].
  - destruct Ax as (a & Ex & La). apply bind_ok in E. destruct E as ([p1 reply] & EM & E). rewrite Ex in EM. cbn [on_message] in EM.
    destruct (N.ltb_spec (pe_ack p) a) as [L1|L1].
    + assert (reply = None) as -> by congruence.
      assert (p1 = {| pe_seq := pe_seq p; pe_count := pe_count p; pe_ack := a; pe_retransmit := None; pe_accepted := pe_accepted p |}) as -> by congruence.
      apply IH in E; [|exact La|exact A1]. cbn [pe_ack pe_seq pe_count pe_accepted p_fst pe_retransmit] in E. destruct E as (E1 & E2 & E3 & E4 & E5 & E6 & E7 & E8). repeat split; auto; try lia. tauto.
    + assert (reply = None /\ p1 = p) as [-> ->] by (split; congruence). apply IH in E; [|exact L|exact A1]. exact E.
  - assert (p' = p /\ w' = {| p_fst := p_fst w; p_snd := c |} /\ rs' = rs) as (-> & -> & ->) by (repeat split; congruence). cbn [p_fst p_snd]. repeat split; auto; try lia.
Qed.
Definition world_inv (count : N) (w : world) : Prop :=
  only_data count (p_fst (wd_pair w)) /\ only_acks (pe_ack (wd_second w)) (p_snd (wd_pair w)) /\ consumer_ok count (wd_second w) /\
  pe_count (wd_first w) = count /\ pe_ack (wd_first w) <= pe_ack (wd_second w) /\ pe_accepted (wd_first w) = [].
Lemma step_inv prm count s now rs w w' : world_inv count w -> step_side s prm now rs w = Ok w' ->
  world_inv count w' /\ pe_ack (wd_first w) <= pe_ack (wd_first w') /\ pe_ack (wd_second w) <= pe_ack (wd_second w').
Proof.
  intros (D & A & C & PC & PA & PX) E. destruct s; cbn [step_side] in E; apply bind_ok in E; destruct E as ([[p q] rs'] & E & EW).
  - assert (w' = {| wd_first := p; wd_second := wd_second w; wd_pair := q |}) as -> by congruence. clear EW. unfold world_inv. cbn [wd_first wd_second wd_pair].
    unfold peer_step in E. apply bind_ok in E. destruct E as ([[p1 w1] rs1] & EL & E). cbv beta zeta iota in E.
    destruct (producer_loop _ _ _ _ _ _ _ _ _ PA A EL) as (L1 & A1 & F1 & S1 & N1 & X1 & _).
    destruct ((pe_ack p1 =? after_retransmit FirstSide now p1 w1) && can_send FirstSide now w1 && (after_retransmit FirstSide now p1 w1 <? pe_count p1)) eqn:G.
    + apply andb_true_iff in G. destruct G as [_ G]. apply N.ltb_lt in G. set (sq := after_retransmit FirstSide now p1 w1) in *. clearbody sq.
      destruct (next_draws rs1) as [d rs2]. apply bind_ok in E. destruct E as (w2 & E1 & E). apply bind_ok in E. destruct E as (sq1 & _ & E). apply bind_ok in E. destruct E as (t & _ & E).
      unfold endpoint_send in E1. apply bind_ok in E1. destruct E1 as (c1 & E1 & E2). cbn [send_channel set_send p_fst p_snd] in E1, E2.
      assert (q = {| p_fst := c1; p_snd := p_snd w1 |}) as -> by congruence. cbn [p_fst p_snd].
      assert (p = {| pe_seq := sq1; pe_count := pe_count p1; pe_ack := pe_ack p1; pe_retransmit := Some t; pe_accepted := pe_accepted p1 |}) as -> by congruence. cbn [pe_ack pe_count pe_accepted].
      split; [|lia]. split; [|repeat split; auto; try apply C; try congruence; lia]. eapply (send_forall _ _ _ _ _ _ E1); [rewrite F1; exact D|]. intros x Ex. exists sq. split; [exact Ex|lia].
    + assert (q = w1) as -> by congruence. match type of E with Ok (?p0, _, _) = _ => assert (p = p0) as -> by congruence end. cbn [pe_ack pe_count pe_accepted].
      split; [|lia]. split; [rewrite F1; exact D|]. repeat split; auto; try apply C; try congruence; lia.
  - assert (w' = {| wd_first := wd_first w; wd_second := p; wd_pair := q |}) as -> by congruence. clear EW. unfold world_inv. cbn [wd_first wd_second wd_pair].
    unfold peer_step in E. apply bind_ok in E. destruct E as ([[p1 w1] rs1] & EL & E). cbv beta zeta iota in E.
    destruct (consumer_loop _ _ _ _ _ _ _ _ _ C D A EL) as (C1 & L1 & D1 & A1 & S1).
    assert (NC : (after_retransmit SecondSide now p1 w1 <? pe_count p1) = false) by (destruct C1 as (-> & _); apply N.ltb_ge; lia). rewrite NC, andb_false_r in E.
    assert (q = w1) as -> by congruence. match type of E with Ok (?p0, _, _) = _ => assert (p = p0) as -> by congruence end. cbn [pe_ack pe_count pe_accepted].
    split; [|lia]. split; [exact D1|]. split; [exact A1|]. split; [|repeat split; auto; lia].
    destruct C1 as (c1 & c2 & c3 & c4). repeat split; auto.
Qed.
Lemma run_inv_world prm count l : forall w w', world_inv count w -> world_run prm l w = Ok w' ->
  world_inv count w' /\ pe_ack (wd_first w) <= pe_ack (wd_first w') /\ pe_ack (wd_second w) <= pe_ack (wd_second w').
Proof.
  induction l as [|[[s now] rs] l IH]; intros w w' I E; cbn [world_run] in E.
  - assert (w' = w) as -> by congruence. split; [exact I|lia].
  - apply bind_ok in E. destruct E as (w1 & E1 & E). destruct (step_inv _ _ _ _ _ _ _ I E1) as (I1 & L1 & L2). destruct (IH _ _ I1 E) as (I2 & L3 & L4). split; [exact I2|lia].
Qed.
Lemma world_new_inv count : world_inv count (world_new count 0).
Proof. repeat split; try constructor; cbn; lia. Qed.
