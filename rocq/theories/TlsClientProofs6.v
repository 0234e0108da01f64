(** Proofs about TLS connections with an honest peer, and about the fuel of the handshake. *)
From Verif Require Import Base BaseProofs MplexModel BinaryModel BinaryProofs MessageProofs MessageProofs2 ProtobufProofs Asn1Model X509Model TlsCodesModel TlsTypesModel
  TlsTypesSpec TlsTypesProofs TlsTypesProofs2 TlsTypesProofs3 TlsRecordModel TlsRecordSpec TlsRecordProofs TlsRecordProps TlsClientModel TlsClientSpec TlsClientProofs TlsClientProofs2 TlsClientProofs3 TlsClientProofs4 TlsClientProofs5.
Local Open Scope string_scope. Local Open Scope list_scope. Local Open Scope N_scope.
Ltac Zify.zify_post_hook ::= Z.div_mod_to_equations.

Fixpoint recs (P : primitives) (k : key) (seq : N) (R : list bytes) (L : list (bytes * N)) : Prop :=
  match R, L with
  | [], [] => True
  | r :: R, (c, t) :: L => protect P k seq (inner_plaintext c t 0) = Some r /\ recs P k (seq + 1) R L
  | _, _ => False
  end.
Lemma recs_length P k R : forall seq L, recs P k seq R L -> length R = length L.
Proof. induction R as [|r R IH]; intros seq [|[c t] L] H; try contradiction; [reflexivity|]. cbn [length]. f_equal. destruct H as [_ H]. exact (IH _ _ H). Qed.
Lemma recs_protected P k R : forall seq L, recs P k seq R L -> protected P k seq L = Some (concat R).
Proof. induction R as [|r R IH]; intros seq [|[c t] L] H; try contradiction; [reflexivity|]. destruct H as [H1 H2]. cbn [protected concat]. rewrite H1, (IH _ _ H2). reflexivity. Qed.
Lemma protected_recs P k L : forall seq all, protected P k seq L = Some all -> exists R, all = concat R /\ recs P k seq R L.
Proof.
  induction L as [|[c t] L IH]; intros seq all H; cbn [protected] in H.
  - exists []. injection H as <-. split; [reflexivity|exact I].
  - destruct (protect P k seq (inner_plaintext c t 0)) as [r|] eqn:E; [|discriminate H]. destruct (protected P k (seq + 1) L) as [rest|] eqn:F; [|discriminate H].
    destruct (IH _ _ F) as (R & R1 & R2). exists (r :: R). injection H as <-. rewrite R1. split; [reflexivity|]. split; assumption.
Qed.
Lemma recs_app_inv P k R1 : forall seq R2 L, recs P k seq (R1 ++ R2) L -> exists L1 L2, L = L1 ++ L2 /\ recs P k seq R1 L1 /\ recs P k (seq + N.of_nat (length R1)) R2 L2.
Proof.
  induction R1 as [|r R1 IH]; intros seq R2 L H.
  - exists [], L. cbn [length app] in *. rewrite N.add_0_r. split; [reflexivity|]. split; [exact I|exact H].
  - destruct L as [|[c t] L]; [contradiction|]. destruct H as [H1 H2]. destruct (IH _ _ _ H2) as (L1 & L2 & -> & X1 & X2). exists ((c, t) :: L1), L2. split; [reflexivity|]. split; [split; assumption|].
    replace (seq + N.of_nat (length (r :: R1))) with (seq + 1 + N.of_nat (length R1)) by (cbn [length]; lia). exact X2.
Qed.
Lemma recs_firstn P k n R : forall seq L, recs P k seq R L -> recs P k seq (firstn n R) (firstn n L).
Proof. revert n. induction R as [|r R IH]; intros n seq [|[c t] L] H; try contradiction; destruct n; try exact I. destruct H as [H1 H2]. split; [exact H1|exact (IH n _ _ H2)]. Qed.
Lemma protect_opens P k seq c t r : aead_ok P -> key_ok k -> t <> 0 -> protect P k seq (inner_plaintext c t 0) = Some r -> opens P k seq r c t.
Proof.
  intros A K T H. destruct (protect_length P k seq _ r A K H) as (s & -> & L & U). exists ([23; 3; 3] ++ be_bytes 2 (blen (inner_plaintext c t 0) + 16)), s, 0%nat.
  split; [rewrite <- ?app_assoc; reflexivity|]. split; [rewrite app_length, be_bytes_length; reflexivity|]. split; [exact U|exact T].
Qed.
Lemma protect_record P k seq c t r : aead_ok P -> key_ok k -> blen c <= 16384 -> protect P k seq (inner_plaintext c t 0) = Some r -> exists f, is_record r 23 f.
Proof.
  intros A K B H. destruct (protect_length P k seq _ r A K H) as (s & -> & L & _). exists s. rewrite be2.
  assert (Li : blen (inner_plaintext c t 0) = blen c + 1) by (unfold inner_plaintext; rewrite !blen_app; reflexivity).
  eexists _, _, _, _. split; [rewrite <- app_assoc; reflexivity|]. split; [|lia]. rewrite L, Li. lia.
Qed.
Lemma opens_unique P k seq r c1 t1 c2 t2 : opens P k seq r c1 t1 -> opens P k seq r c2 t2 -> c1 = c2 /\ t1 = t2.
Proof.
  intros (h1 & s1 & p1 & E1 & L1 & U1 & T1) (h2 & s2 & p2 & E2 & L2 & U2 & T2).
  assert (h1 = h2) as <- by (rewrite <- (firstn_app_length h1 s1), <- E1, E2, L1, <- L2; apply firstn_app_length).
  assert (s1 = s2) as <- by (apply (app_inv_head h1); congruence).
  assert (E : inner_plaintext c1 t1 p1 = inner_plaintext c2 t2 p2) by congruence.
  pose proof (strip_inner c1 t1 p1 T1) as S1. pose proof (strip_inner c2 t2 p2 T2) as S2. rewrite E, S2 in S1. injection S1 as -> S1. split; [|reflexivity].
  rewrite <- (rev_involutive c1), <- S1. apply rev_involutive.
Qed.
Lemma took_honest P k raws l : aead_ok P -> key_ok k -> took P k raws l -> forall L, recs P k 0 raws L -> Forall (fun p => snd p = 23) L -> l = L.
Proof.
  intros A K. induction 1 as [|raws l raw c t T IH O|raws l raw T IH O]; intros L R F.
  - destruct L; [reflexivity|contradiction].
  - destruct (recs_app_inv _ _ _ _ _ _ R) as (L1 & L2 & -> & R1 & R2). apply Forall_app in F. destruct F as [F1 F2]. specialize (IH L1 R1 F1). subst l.
    destruct L2 as [|[c2 t2] [|? ?]]; try (destruct R2; contradiction). destruct R2 as [R2 _]. apply Forall_inv in F2. cbn [snd] in F2. subst t2.
    rewrite N.add_0_l, (recs_length _ _ _ _ _ R1) in R2. destruct (opens_unique _ _ _ _ _ _ _ _ O (protect_opens P k _ c2 23 raw A K ltac:(discriminate) R2)) as [-> ->]. reflexivity.
  - exfalso. destruct (recs_app_inv _ _ _ _ _ _ R) as (L1 & L2 & -> & R1 & R2). apply Forall_app in F. destruct F as [F1 F2]. specialize (IH L1 R1 F1). subst l.
    destruct L2 as [|[c2 t2] [|? ?]]; try (destruct R2; contradiction). destruct R2 as [R2 _]. apply Forall_inv in F2. cbn [snd] in F2. subst t2.
    rewrite N.add_0_l, (recs_length _ _ _ _ _ R1) in R2. exact (O c2 (protect_opens P k _ c2 23 raw A K ltac:(discriminate) R2)).
Qed.
Lemma sent_list_types pieces : Forall (fun p => snd p = 23) (sent_list pieces false).
Proof. unfold sent_list. rewrite app_nil_r. apply Forall_map. apply Forall_forall. reflexivity. Qed.
Lemma sent_list_sizes pieces closed : Forall (fun d => blen d <= 16384) pieces -> Forall (fun p => blen (fst p) <= 16384) (sent_list pieces closed).
Proof.
  intros F. unfold sent_list. apply Forall_app. split; [apply Forall_map; exact F|]. destruct closed; [constructor; [cbn; lia|constructor]|constructor].
Qed.
Lemma recs_records P k R : aead_ok P -> key_ok k -> forall seq L, recs P k seq R L -> Forall (fun p => blen (fst p) <= 16384) L -> Forall (fun raw => exists t f, is_record raw t f /\ t <> 20) R.
Proof.
  intros A K. induction R as [|r R IH]; intros seq [|[c t] L] H F; try contradiction; [constructor|]. destruct H as [H1 H2]. pose proof (Forall_inv F) as F1. apply Forall_inv_tail in F.
  constructor; [|exact (IH _ _ H2 F)]. destruct (protect_record P k seq c t r A K F1 H1) as (f & I). exists 23, f. split; [exact I|discriminate].
Qed.
Lemma firstn_le_app {A} n (l1 l2 : list A) : (n <= length l1)%nat -> firstn n (l1 ++ l2) = firstn n l1.
Proof. intros L. rewrite firstn_app. replace (n - length l1)%nat with 0%nat by lia. rewrite firstn_O. apply app_nil_r. Qed.
(** Of an honest sender's records, a prefix has been taken and given out. *)
Lemma reading_honest P k rx c got l pieces closed all future : aead_ok P -> key_ok k -> Forall (fun d => blen d <= 16384) pieces -> protected P k 0 (sent_list pieces closed) = Some all ->
  rx ++ future = all -> reading P k rx c got l ->
  exists n done, (n <= length (sent_list pieces closed))%nat /\ got ++ cn_in c = app_data (firstn n (sent_list pieces closed)) /\
    protected P k 0 (firstn n (sent_list pieces closed)) = Some done /\ done ++ rr_in (ps_receiver (cn_plain c)) ++ future = all.
Proof.
  intros A K F H E (d & raws & R1 & R2 & R3 & R4 & R5 & R6 & R7). destruct (protected_recs _ _ _ _ _ H) as (R & -> & Rc).
  pose proof (recs_records P k R A K _ _ Rc (sent_list_sizes pieces closed F)) as Fr. rewrite R1, <- app_assoc in E.
  destruct (carries_prefix d raws R2 R _ Fr E) as (C1 & C2 & C3 & C4). exists (length raws), (concat raws).
  pose proof (recs_firstn P k (length raws) R 0 _ Rc) as Rn. rewrite <- C1 in Rn. pose proof (recs_length _ _ _ _ _ Rc) as Len. split; [lia|].
  split; [|split; [exact (recs_protected _ _ _ _ _ Rn)|rewrite <- C2; exact E]]. rewrite <- R6.
  destruct (Nat.le_gt_cases (length raws) (length pieces)) as [Le|Gt].
  - assert (Q : firstn (length raws) (sent_list pieces closed) = firstn (length raws) (sent_list pieces false)).
    { unfold sent_list. rewrite app_nil_r. apply firstn_le_app. rewrite map_length. exact Le. }
    rewrite Q in Rn |- *. rewrite (took_honest P k raws l A K R3 _ Rn); [reflexivity|]. pose proof (sent_list_types pieces) as St. rewrite <- (firstn_skipn (length raws) (sent_list pieces false)) in St. apply Forall_app in St. tauto.
  - assert (closed = true) as ->. { destruct closed; [reflexivity|]. exfalso. unfold sent_list in Len. rewrite app_nil_r, map_length in Len. lia. }
    assert (Lr : length raws = length (sent_list pieces true)) by (unfold sent_list in *; rewrite app_length, map_length in *; cbn [length] in *; lia). rewrite Lr, firstn_all in Rn |- *.
    assert (Q : sent_list pieces true = sent_list pieces false ++ [([1; 0], 21)]) by (unfold sent_list; rewrite app_nil_r; reflexivity). rewrite Q in Rn |- *. rewrite app_data_app. unfold app_data at 3. cbn [map concat fst snd N.eqb Pos.eqb]. rewrite app_nil_r.
    destruct raws as [|raw0 raws0] using rev_ind; [destruct (sent_list pieces false); contradiction|]. clear IHraws0.
    destruct (recs_app_inv _ _ _ _ _ _ Rn) as (L1 & L2 & Ql & X1 & X2). destruct L2 as [|[c2 t2] [|? ?]]; try (destruct X2; contradiction). apply app_inj_tail in Ql. destruct Ql as [<- [= <- <-]].
    destruct X2 as [X2 _]. rewrite N.add_0_l in X2. inversion R3 as [Q1 Q2|rs2 l2 r2 cc tt2 T2 O2 Q1 Q2|rs2 l2 r2 T2 O2 Q1 Q2].
    + destruct raws0; discriminate Q1.
    + apply app_inj_tail in Q1. destruct Q1 as [-> ->]. rewrite (took_honest P k raws0 l2 A K T2 _ X1 (sent_list_types pieces)) in *.
      rewrite <- (recs_length _ _ _ _ _ X1) in O2. destruct (opens_unique _ _ _ _ _ _ _ _ O2 (protect_opens P k _ [1; 0] 21 raw0 A K ltac:(discriminate) X2)) as [-> ->].
      rewrite app_data_app. unfold app_data at 2. cbn [map concat fst snd N.eqb Pos.eqb]. apply app_nil_r.
    + apply app_inj_tail in Q1. destruct Q1 as [-> ->]. rewrite (took_honest P k raws0 l A K T2 _ X1 (sent_list_types pieces)). reflexivity.
Qed.

(** *** The fuel of a poll *)
Definition st_rank (s : ec_state) : nat :=
  match s with EBegin _ _ _ _ => 4 | EHelloSent _ _ _ _ => 3 | EHelloReceived _ _ _ _ _ _ => 2 | EMessagesReceived _ _ _ => 1 | _ => 0 end.
Lemma ec_try_rank {A} (r : tls A) k n : (forall a, (st_rank (k a) <= n)%nat) -> (st_rank (ec_try r k) <= n)%nat.
Proof. intros H. destruct r; cbn [ec_try st_rank]; [apply H|lia|lia]. Qed.
Lemma step_rank P s w s' w' sent : (0 < st_rank s)%nat -> poll_step P s w = (true, s', w', sent) -> (st_rank s' < st_rank s)%nat.
Proof.
  intros L H. destruct s; cbn [st_rank] in L; try lia; cbn [poll_step] in H.
  - destruct (stream_flush p w) as [[[[|[[]|e|]] p1] w1] s1]; try discriminate H; injection H as <- <- <-; cbn [st_rank]; lia.
  - destruct (receive_plaintext_message (ps_receiver p) ts) as [[[|[m|e|]] r1] t1]; try discriminate H; injection H as <- <- <-; cbn [st_rank]; try lia.
    unfold on_server_hello. destruct m as [[| | |h| |]|]; try (cbn; lia). destruct h; try (cbn; lia). apply Nat.lt_succ_r. apply ec_try_rank. intros c. apply ec_try_rank. intros [prk secrets]. apply Nat.le_refl.
  - destruct (receive_messages (Datatypes.S (length (rr_in (ps_receiver p)))) P (ps_receiver p) se t s) as [[[[[|[m|e|]] r1] se1] t1] st1]; try discriminate H; injection H as <- <- <-; cbn [st_rank]; try lia.
    unfold on_server_messages. apply Nat.lt_succ_r. apply ec_try_rank. intros sec. apply ec_try_rank. intros [out t']. apply ec_try_rank. intros fin. apply ec_try_rank. intros rec. apply ec_try_rank. intros n. apply Nat.le_refl.
  - destruct (stream_flush p w) as [[[[|[[]|e|]] p1] w1] s1]; try discriminate H; injection H as <- <- <-; cbn [st_rank on_finished_sent]; lia.
Qed.
Lemma recv_rank s answers x s' rest : ec_recv s answers = Some (x, s', rest) -> st_rank s' = st_rank s.
Proof. destruct s; cbn [ec_recv]; intros H; try discriminate H; destruct (poll_recv (ps_receiver p) answers) as [[? ?] ?]; injection H as <- <- <-; reflexivity. Qed.
Lemma fuel_irrelevant f1 : forall f2 P s answers w, (st_rank s < f1)%nat -> (st_rank s < f2)%nat -> ec_poll f1 P s answers w = ec_poll f2 P s answers w.
Proof.
  induction f1 as [|f1 IH]; intros f2 P s answers w L1 L2; [lia|]. destruct f2 as [|f2]; [lia|].
  assert (Step : forall s a, (0 < st_rank s)%nat -> (st_rank s < Datatypes.S f1)%nat -> (st_rank s < Datatypes.S f2)%nat ->
    (let '(ready, s, w, sent) := poll_step P s w in if ready then let '(x, s, answers, w, more) := ec_poll f1 P s a w in (x, s, answers, w, sent ++ more) else (Wait, Some s, a, w, sent)) =
    (let '(ready, s, w, sent) := poll_step P s w in if ready then let '(x, s, answers, w, more) := ec_poll f2 P s a w in (x, s, answers, w, sent ++ more) else (Wait, Some s, a, w, sent))).
  { intros s0 a R0 M1 M2. destruct (poll_step P s0 w) as [[[ready s1] w1] s2] eqn:E. destruct ready; [|reflexivity]. pose proof (step_rank P s0 w s1 w1 s2 R0 E). rewrite (IH f2) by lia. reflexivity. }
  cbn [ec_poll]. destruct s; try reflexivity; cbn [st_rank] in L1, L2.
  - apply Step; cbn [st_rank]; lia.
  - destruct (ec_recv (EHelloSent cfg private ts p) answers) as [[[x s1] a1]|] eqn:E; [|apply Step; cbn [st_rank]; lia]. pose proof (recv_rank _ _ _ _ _ E) as R. cbn [st_rank] in R. destruct x as [|[| |]]; try reflexivity; apply Step; lia.
  - destruct (ec_recv (EHelloReceived cfg p se t prk s) answers) as [[[x s1] a1]|] eqn:E; [|apply Step; cbn [st_rank]; lia]. pose proof (recv_rank _ _ _ _ _ E) as R. cbn [st_rank] in R. destruct x as [|[| |]]; try reflexivity; apply Step; lia.
  - apply Step; cbn [st_rank]; lia.
Qed.
