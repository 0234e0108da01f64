(** C132: two mplex connections at the two ends of one TLS connection: theorems. *)
From Verif Require Import Base BaseProofs VarintModel MplexModel MplexProofs MplexProofs2 MplexProps MplexSendProps MplexStreamSpec MplexStreamProofs MplexPairProps
  TlsRecordModel TlsRecordSpec TlsClientModel TlsClientSpec TlsClientProofs4 TlsClientProofs5 TlsClientProofs6 TlsClientProps SecureMplexModel SecureMplexSpec.
Ltac Zify.zify_post_hook ::= Z.div_mod_to_equations.

(** ** Lemmas *)
Lemma same_side_eq x y : same_side x y = true <-> x = y.
Proof. destruct x, y; cbn; split; congruence. Qed.
Lemma opposite_twice x : opposite (opposite x) = x.
Proof. destruct x; reflexivity. Qed.
Lemma of_side_app x a b : of_side x (a ++ b) = of_side x a ++ of_side x b.
Proof. apply filter_app. Qed.
Definition results_of (x : side) (es : list entry) : list cres := flat_map en_results (of_side x es).
Definition plain_in (x : side) (es : list entry) : bytes := flat_map (fun e => returned (en_results e)) (of_side x es).
Definition plain_out (x : side) (es : list entry) : bytes := flat_map (fun e => accepted (en_ops e) (en_results e)) (of_side x es).
Lemma write_calls_length out os rs l : write_calls out os rs l -> length os = length rs /\ length os = length l.
Proof. induction 1; cbn [length]; lia. Qed.
Lemma read_calls_length os rs l : read_calls os rs l -> length os = length rs /\ length os = length l.
Proof. induction 1; cbn [length]; lia. Qed.
Lemma append_all {A} (l : list A) : (forall more, l ++ more = more) -> l = [].
Proof. intros H. specialize (H []). rewrite app_nil_r in H. exact H. Qed.
(** What mplex writes is what the connection accepts. *)
Lemma drain_accepts out os rs ws : write_calls out os rs ws -> forall f, (forall more, exists r o, poll_drain out (ws ++ more) = (r, o, more, f)) -> f = accepted os rs.
Proof.
  induction 1 as [out|out net x a os rs l Ne Ea W IH|net x a os rs l Ea W IH]; intros f H.
  - destruct (H []) as (r & o & E). cbn [app] in E. destruct out; cbn [poll_drain] in E; injection E as _ _ <-; reflexivity.
  - assert (Stop : (forall more, l ++ more = more) -> f = [] -> accepted_by (CWrite out net) (RWrite x) = [] -> f = accepted (CWrite out net :: os) (RWrite x :: rs)).
    { intros A -> B. apply append_all in A. subst l. apply write_calls_length in W. cbn [length] in W. destruct os; [|cbn in W; lia]. destruct rs; [|cbn in W; lia].
      unfold accepted. cbn [combine map concat fst snd]. rewrite B. reflexivity. }
    destruct out as [|b out]; [contradiction|]. cbn [app] in H. destruct a as [|n|e].
    + apply Stop.
      * intros more. destruct (H more) as (r & o & E). cbn [poll_drain] in E. congruence.
      * destruct (H []) as (r & o & E). cbn [poll_drain] in E. congruence.
      * destruct x as [|[n|e|]]; cbn in Ea; try discriminate Ea. reflexivity.
    + assert (Ex : x = Done (Ok n)) by (destruct x as [|[m|e|]]; cbn in Ea; try discriminate Ea; injection Ea as ->; reflexivity). subst x.
      assert (K : exists g, f = firstn n (b :: out) ++ g /\ forall more, exists r o, poll_drain (skipn n (b :: out)) (l ++ more) = (r, o, more, g)).
      { exists (snd (poll_drain (skipn n (b :: out)) (l ++ []))). split.
        - destruct (H []) as (r & o & E). cbn [poll_drain] in E. destruct (poll_drain (skipn n (b :: out)) (l ++ [])) as [[[r1 o1] w1] s1]. cbn [snd]. congruence.
        - intros more. destruct (H more) as (r & o & E). destruct (H []) as (r0 & o0 & E0). cbn [poll_drain] in E, E0.
          destruct (poll_drain (skipn n (b :: out)) (l ++ [])) as [[[r2 o2] w2] s2]. destruct (poll_drain (skipn n (b :: out)) (l ++ more)) as [[[r1 o1] w1] s1].
          pose proof (f_equal snd E) as F. pose proof (f_equal snd E0) as F0. pose proof (f_equal (fun z => snd (fst z)) E) as F1. cbn [fst snd] in F, F0, F1. rewrite <- F0 in F. apply app_inv_head in F.
          cbn [snd]. exists r1, o1. rewrite F, F1. reflexivity. }
      destruct K as (g & -> & K). rewrite (IH g K). unfold accepted. cbn [combine map concat fst snd accepted_by]. reflexivity.
    + apply Stop.
      * intros more. destruct (H more) as (r & o & E). cbn [poll_drain] in E. congruence.
      * destruct (H []) as (r & o & E). cbn [poll_drain] in E. congruence.
      * destruct x as [|[n|e0|]]; cbn in Ea; try discriminate Ea. reflexivity.
  - assert (A : forall more, l ++ more = more) by (intros more; destruct (H more) as (r & o & E); cbn [app poll_drain] in E; destruct a; congruence).
    apply append_all in A. subst l. apply write_calls_length in W. cbn [length] in W. destruct os; [|cbn in W; lia]. destruct rs; [|cbn in W; lia].
    destruct (H []) as (r & o & E). cbn [app poll_drain] in E. assert (F : f = []) by (destruct a; apply (f_equal snd) in E; cbn [snd] in E; symmetry; exact E). rewrite F. reflexivity.
Qed.
Lemma no_writes out os rs : write_calls out os rs [] -> accepted os rs = [].
Proof. intros W. apply write_calls_length in W. cbn [length] in W. destruct os; [reflexivity|cbn in W; lia]. Qed.
Lemma shared_drain_app s w r s' w' sent : shared_drain s w = (r, s', w', sent) -> exists o, poll_drain (fs_out (sh_frames s)) w = (r, o, w', sent).
Proof. unfold shared_drain. destruct (poll_drain (fs_out (sh_frames s)) w) as [[[r1 o1] w1] s1]. intros H. exists o1. congruence. Qed.
Lemma send_accepts s errs c os rs ws r s' errs' sent : write_calls (to_drain s c) os rs ws ->
  (forall more, send_step s errs (ws ++ more) c = (r, s', errs', more, sent)) -> sent = accepted os rs.
Proof.
  intros W H.
  assert (D : forall s1, fs_out (sh_frames s1) = to_drain s c -> (forall more, exists r1 s2, shared_drain s1 (ws ++ more) = (r1, s2, more, sent)) -> sent = accepted os rs).
  { intros s1 E K. apply (drain_accepts _ _ _ _ W). intros more. destruct (K more) as (r1 & s2 & K1). apply shared_drain_app in K1. destruct K1 as (o & K1). rewrite E in K1. eauto. }
  assert (N0 : (forall more, ws ++ more = more) -> sent = [] -> sent = accepted os rs).
  { intros A ->. apply append_all in A. subst ws. symmetry. exact (no_writes _ _ _ W). }
  assert (Wd : forall i, (forall more, exists r1 e1 s2, writer_drain s (errs i) (ws ++ more) = (r1, e1, s2, more, sent)) -> to_drain s c = fs_out (sh_frames s) -> sent = accepted os rs).
  { intros i K E. unfold writer_drain in K. destruct (errs i) as [e|].
    - apply N0; [intros more; destruct (K more) as (? & ? & ? & K1); congruence|destruct (K []) as (? & ? & ? & K1); congruence].
    - apply (D s (eq_sym E)). intros more. destruct (K more) as (r1 & e1 & s2 & K1). destruct (shared_drain s (ws ++ more)) as [[[r2 s3] w2] st]. exists r2, s3. congruence. }
  destruct c as [name|i|i buf|i|i]; cbn [send_step] in H.
  - unfold connect_poll in H. unfold shared_append_new in H. destruct (two64 <=? sh_next s + 1).
    + apply N0; [intros more; specialize (H more); congruence|specialize (H []); congruence].
    + set (s1 := with_frames _ _) in H. apply (D s1 eq_refl). intros more. specialize (H more). destruct (shared_drain s1 (ws ++ more)) as [[[r2 s3] w2] st]. exists r2, s3. congruence.
  - unfold connect_poll in H. apply (D s eq_refl). intros more. specialize (H more). destruct (shared_drain s (ws ++ more)) as [[[r2 s3] w2] st]. exists r2, s3. congruence.
  - apply (Wd i); [|reflexivity]. intros more. specialize (H more). unfold writer_write in H. destruct (writer_drain s (errs i) (ws ++ more)) as [[[[r1 e1] s2] w2] st]. exists r1, e1, s2.
    destruct r1 as [|[u|e|]]; congruence.
  - apply (Wd i); [|reflexivity]. intros more. specialize (H more). unfold writer_flush in H. destruct (writer_drain s (errs i) (ws ++ more)) as [[[[r1 e1] s2] w2] st]. exists r1, e1, s2. congruence.
  - apply (Wd i); [|reflexivity]. intros more. specialize (H more). unfold writer_shutdown in H. destruct (writer_drain s (errs i) (ws ++ more)) as [[[[r1 e1] s2] w2] st]. exists r1, e1, s2.
    destruct r1 as [|[u|e|]]; congruence.
Qed.
Lemma reads_return os rs l : read_calls os rs l -> MplexModel.data_of l = returned rs /\ accepted os rs = [].
Proof.
  induction 1 as [|net x a os rs l Ea R [IH1 IH2]]; [split; reflexivity|]. unfold returned, accepted in *. cbn [combine map concat fst snd accepted_by]. rewrite IH2, <- IH1. split; [|reflexivity].
  destruct x as [|[d|e|]]; cbn in Ea; try discriminate Ea; injection Ea as <-; reflexivity.
Qed.
Lemma writes_return out os rs l : write_calls out os rs l -> returned rs = [].
Proof. induction 1; [reflexivity|unfold returned in *; cbn [map concat returned_by app]; assumption|unfold returned in *; cbn [map concat returned_by app]; assumption]. Qed.
(** A call as a step of C115. *)
Lemma step_is_node_step P s e s' : secured_step P s e s' ->
  MplexModel.data_of (en_reads e) = returned (en_results e) /\
  forall ins outs before, node_step (on_transport s (en_reads e ++ ins) (en_writes e ++ outs) before) (en_call e) =
    (en_event e, on_transport s' ins outs (before ++ accepted (en_ops e) (en_results e))).
Proof.
  intros (Hc & Ht & sent & H). unfold transport_calls in Ht.
  assert (G : forall a, (forall ins outs before, MplexPairProps.got (on_transport s (en_reads e ++ ins) (en_writes e ++ outs) before) a = (en_event e, on_transport s' ins outs (before ++ sent))) -> sent = []).
  { intros a K. specialize (K [] [] []). unfold MplexPairProps.got in K. destruct (perform _ _ a) as [[ev s1] rd]. unfold on_transport in K. cbn [app nd_sent] in K. congruence. }
  assert (Rd : en_writes e = [] /\ read_calls (en_ops e) (en_results e) (en_reads e) -> sent = [] -> MplexModel.data_of (en_reads e) = returned (en_results e) /\
     forall ins outs before, node_step (on_transport s (en_reads e ++ ins) (en_writes e ++ outs) before) (en_call e) = (en_event e, on_transport s' ins outs (before ++ accepted (en_ops e) (en_results e)))).
  { intros [_ R] ->. apply reads_return in R. destruct R as [R1 R2]. rewrite R2. split; [exact R1|exact H]. }
  destruct (en_call e) as [t|i t room|i|i|c] eqn:Ec.
  - apply Rd; [exact Ht|]. apply (G (Accept t)). exact H.
  - apply Rd; [exact Ht|]. apply (G (Read i t room)). exact H.
  - apply Rd; [exact Ht|]. apply (G (DropReader i)). exact H.
  - apply Rd; [exact Ht|]. apply (G (DropWriter i)). exact H.
  - destruct Ht as [Er W]. split; [rewrite Er, (writes_return _ _ _ _ W); reflexivity|].
    assert (E : sent = accepted (en_ops e) (en_results e)); [|rewrite <- E; exact H].
    cbn [node_step] in H. pose proof (H [] [] []) as H0. unfold on_transport in H0. cbn [nd_shared nd_errs nd_in nd_out nd_sent] in H0.
    destruct (send_step (sc_shared s) (sc_errs s) (en_writes e ++ []) c) as [[[[r s1] er1] w1] st] eqn:E0.
    apply (send_accepts (sc_shared s) (sc_errs s) c _ _ _ r s1 er1 sent W). intros more. specialize (H [] more []). unfold on_transport in H. cbn [nd_shared nd_errs nd_in nd_out nd_sent] in H.
    destruct (send_step (sc_shared s) (sc_errs s) (en_writes e ++ more) c) as [[[[r2 s2] er2] w2] st2]. cbn [app] in H, H0. congruence.
Qed.
Lemma stack_prefix P start es st : stack P start es st -> forall p q, es = p ++ q -> exists st', stack P start p st'.
Proof.
  induction 1 as [|es st e s' S IH Hs]; intros p q E.
  - destruct p; [exists start; constructor|discriminate E].
  - destruct q as [|z q _] using rev_ind.
    + rewrite app_nil_r in E. subst p. eexists. econstructor; eassumption.
    + rewrite app_assoc in E. apply app_inj_tail in E. destruct E as [E ->]. exact (IH p q E).
Qed.
Lemma crun_length P os : forall c, length (fst (fst (fst (crun P c os)))) = length os.
Proof.
  induction os as [|o os IH]; intros c; cbn [crun]; [reflexivity|]. destruct (cstep P c o) as [[[r c1] rx1] t1]. specialize (IH c1). destruct (crun P c1 os) as [[[rs2 c2] rx2] t2]. cbn [fst length] in *. lia.
Qed.
Lemma combine_app_len {A B} (a1 a2 : list A) (b1 b2 : list B) : length a1 = length b1 -> combine (a1 ++ a2) (b1 ++ b2) = combine a1 b1 ++ combine a2 b2.
Proof. revert b1. induction a1 as [|a a1 IH]; intros [|b b1] L; cbn [length] in L; try lia; [reflexivity|]. cbn [app combine]. rewrite IH by lia. reflexivity. Qed.
Lemma other_or_same x y : {same_side x y = true /\ x = y} + {same_side x y = false /\ x = opposite y}.
Proof. destruct x, y; cbn; auto. Qed.
(** The whole run at one end: of mplex, and of the TLS connection. *)
Lemma stack_runs P start es st x : stack P start es st ->
  (forall ins outs before, node_run (on_transport (start x) (flat_map en_reads (of_side x es) ++ ins) (flat_map en_writes (of_side x es) ++ outs) before) (map en_call (of_side x es)) =
     (trace_of x es, on_transport (st x) ins outs (before ++ plain_out x es))) /\
  crun P (sc_conn (start x)) (ops_of x es) = (results_of x es, sc_conn (st x), rx_of x es, tx_of x es) /\
  MplexModel.data_of (flat_map en_reads (of_side x es)) = plain_in x es /\ returned (results_of x es) = plain_in x es /\ accepted (ops_of x es) (results_of x es) = plain_out x es.
Proof.
  induction 1 as [|es st e s' S (I1 & I2 & I3 & I4 & I5) Hs].
  - split; [intros ins outs before; cbn; rewrite app_nil_r; reflexivity|]. repeat split; reflexivity.
  - assert (Data : forall l m, MplexModel.data_of (l ++ m) = MplexModel.data_of l ++ MplexModel.data_of m). { induction l as [|[|d|er] l IHl]; intros m; cbn [app MplexModel.data_of]; rewrite ?IHl, ?app_assoc; reflexivity. }
    unfold trace_of, ops_of, results_of, rx_of, tx_of, plain_in, plain_out in *. rewrite of_side_app. assert (One : of_side x [e] = if same_side x (en_side e) then [e] else []) by (unfold of_side; cbn [filter]; destruct (same_side x (en_side e)); reflexivity). rewrite One.
    destruct (other_or_same x (en_side e)) as [[B ->]|[B E]]; rewrite !B.
    + destruct (step_is_node_step P _ e s' Hs) as [R1 R2]. destruct Hs as (Hc & Ht & _).
      rewrite !flat_map_app, !map_app, !concat_app. cbn [flat_map map concat]. rewrite !app_nil_r.
      split; [|split; [|split; [|split]]].
      * intros ins outs before. rewrite <- !app_assoc, node_run_app, I1. cbn [node_run]. rewrite R2. rewrite <- app_assoc. reflexivity.
      * rewrite crun_app, I2, Hc. reflexivity.
      * rewrite Data, I3, R1. reflexivity.
      * unfold returned in *. rewrite map_app, concat_app, I4. reflexivity.
      * unfold accepted in *. rewrite combine_app_len, map_app, concat_app, I5; [reflexivity|].
        pose proof (crun_length P (flat_map en_ops (of_side (en_side e) es)) (sc_conn (start (en_side e)))) as L. rewrite I2 in L. symmetry. exact L.
    + rewrite !app_nil_r. auto 10.
Qed.
Lemma app_data_sent pieces closed : app_data (sent_list pieces closed) = concat pieces.
Proof.
  unfold sent_list. rewrite app_data_app. assert (E : app_data (if closed then [([1; 0], 21)] else []) = []) by (destruct closed; reflexivity). rewrite E, app_nil_r.
  induction pieces as [|d pieces IH]; [reflexivity|]. unfold app_data in *. cbn [map concat fst snd N.eqb Pos.eqb]. rewrite IH. reflexivity.
Qed.
Lemma app_data_front n l : exists rest, app_data l = app_data (firstn n l) ++ rest.
Proof. exists (app_data (skipn n l)). rewrite <- app_data_app, firstn_skipn. reflexivity. Qed.
Lemma nth_error_firstn_snoc {A} (L l : list A) a : l = firstn (length l) L -> nth_error L (length l) = Some a -> l ++ [a] = firstn (length (l ++ [a])) L.
Proof.
  revert L. induction l as [|b l IH]; intros L E N0; cbn [length app] in *.
  - destruct L; [discriminate N0|]. cbn in N0 |- *. congruence.
  - destruct L as [|c L]; [discriminate N0|]. cbn [firstn nth_error] in *. injection E as -> E. f_equal. exact (IH L E N0).
Qed.
Lemma took_unforged P k raws l L : took P k raws l ->
  (forall raw n content type, In raw raws -> (N.to_nat n < length raws)%nat -> opens P k n raw content type -> nth_error L (N.to_nat n) = Some (content, type)) -> l = firstn (length l) L.
Proof.
  induction 1 as [|raws l raw c t T IH O|raws l raw T IH O]; intros H.
  - reflexivity.
  - apply nth_error_firstn_snoc; [apply IH; intros r n cc tt I0 L0; apply H; [apply in_or_app; left; exact I0|rewrite app_length; lia]|].
    rewrite <- (Nat2N.id (length l)). apply (H raw); [apply in_or_app; right; left; reflexivity| |exact O]. rewrite Nat2N.id, app_length. cbn [length]. pose proof (took_length _ _ _ _ T). lia.
  - apply IH. intros r n cc tt I0 L0. apply H; [apply in_or_app; left; exact I0|rewrite app_length; lia].
Qed.
(** The TLS connections from the beginning: what each end has made, and what it has read. *)
Lemma whole_run P key_of pre start es st x : begins P key_of pre start -> stack P start es st ->
  crun P (pr_conn (pre x)) (pr_ops (pre x) ++ ops_of x es) = (pr_results (pre x) ++ results_of x es, sc_conn (st x), pr_rx (pre x) ++ rx_of x es, pr_tx (pre x) ++ tx_of x es) /\
  accepted (pr_ops (pre x) ++ ops_of x es) (pr_results (pre x) ++ results_of x es) = accepted (pr_ops (pre x)) (pr_results (pre x)) ++ plain_out x es /\
  returned (pr_results (pre x) ++ results_of x es) = returned (pr_results (pre x)) ++ plain_in x es.
Proof.
  intros B S. destruct (B x) as (_ & _ & Hc & _). destruct (stack_runs P start es st x S) as (_ & R2 & _ & R4 & R5). split; [rewrite crun_app, Hc, R2; reflexivity|]. split.
  - rewrite <- R5. unfold accepted. rewrite combine_app_len, map_app, concat_app; [reflexivity|]. pose proof (crun_length P (pr_ops (pre x)) (pr_conn (pre x))) as L. rewrite Hc in L. symmetry. exact L.
  - rewrite <- R4. unfold returned. rewrite map_app, concat_app. reflexivity.
Qed.
Definition sizes_fit (pre : side -> preamble) (es : list entry) : Prop :=
  forall x, N.of_nat (length (pr_ops (pre x) ++ ops_of x es)) < two64 /\ blen (rr_in (ps_receiver (cn_plain (pr_conn (pre x))))) + blen (offered (pr_ops (pre x) ++ ops_of x es)) < two64.
Lemma made_records P key_of pre start es st x : aead_ok P -> begins P key_of pre start -> stack P start es st -> sizes_fit pre es ->
  exists pieces closed, protected P (key_of x) 0 (sent_list pieces closed) = Some (all_made pre st x es) /\
    concat pieces = accepted (pr_ops (pre x)) (pr_results (pre x)) ++ plain_out x es /\ Forall (fun d => blen d <= 16384) pieces.
Proof.
  intros A B S Z. destruct (whole_run P key_of pre start es st x B S) as (W1 & W2 & W3). destruct (B x) as (K & F & _). destruct (Z x) as [Z1 _].
  destruct (C59_records_of_the_accepted_bytes P (key_of x) (key_of (opposite x)) _ _ _ _ _ _ A K F Z1 W1) as (pieces & closed & X1 & X2 & X3 & _).
  exists pieces, closed. rewrite W2 in X2. rewrite <- app_assoc in X1. auto.
Qed.
Lemma plain_front P key_of pre start es st x : aead_ok P -> begins P key_of pre start -> stack P start es st -> sizes_fit pre es ->
  honest pre es st \/ unforged P key_of pre es st -> exists way, plain_out (opposite x) es = plain_in x es ++ way.
Proof.
  intros A B S Z Net. destruct (made_records P key_of pre start es st (opposite x) A B S Z) as (pieces & closed & M1 & M2 & M3).
  destruct (whole_run P key_of pre start es st x B S) as (W1 & _ & W3). destruct (B x) as (Kx & F & _). destruct (B (opposite x)) as (K & _ & _ & Ac & _). rewrite opposite_twice in Ac. destruct (Z x) as [_ Z2].
  destruct (run_reading _ P (key_of (opposite x)) _ _ [] [] _ _ _ _ K (fresh_reading P (key_of x) _ _ F) Z2 W1) as (l & R). cbn [app] in R.
  assert (G : exists n, returned (pr_results (pre x) ++ results_of x es) ++ cn_in (sc_conn (st x)) = app_data (firstn n (sent_list pieces closed))).
  { destruct Net as [Net|Net].
    - destruct (Net x) as (future & Ef). unfold all_received in Ef. rewrite Ef in M1.
      destruct (reading_honest P _ _ _ _ l pieces closed _ future A K M3 M1 eq_refl R) as (n & d & _ & X & _). exists n. exact X.
    - destruct R as (d & raws & R1 & R2 & R3 & _ & _ & R6 & _). exists (length l). rewrite <- R6. f_equal.
      apply (took_unforged P (key_of (opposite x)) raws l _ R3). intros raw n content type I0 L0 O. exact (Net x d _ raws raw n content type pieces closed R1 R2 I0 L0 O M3 M1). }
  destruct G as (n & G). destruct (app_data_front n (sent_list pieces closed)) as (rest & E). rewrite app_data_sent, M2, <- G, W3, Ac, <- !app_assoc in E. apply app_inv_head in E.
  rewrite E. eexists. reflexivity.
Qed.
Lemma sizes_fit_front pre p q : sizes_fit pre (p ++ q) -> sizes_fit pre p.
Proof.
  intros H x. specialize (H x). assert (E : ops_of x (p ++ q) = ops_of x p ++ ops_of x q) by (unfold ops_of; rewrite of_side_app, flat_map_app; reflexivity). rewrite E, app_assoc in H.
  set (a := pr_ops (pre x) ++ ops_of x p) in *. assert (O : offered (a ++ ops_of x q) = offered a ++ offered (ops_of x q)) by (unfold offered; rewrite map_app, concat_app; reflexivity).
  rewrite app_length, O, blen_app in H. split; [|lia]. assert (X : N.of_nat (length a + length (ops_of x q)) < two64) by (destruct H; assumption). lia.
Qed.
(** ** The session of C115 *)
Definition plain_start (es : list entry) (x : side) : node := node_new (flat_map en_reads (of_side x es)) (flat_map en_writes (of_side x es)).
Definition plain_sched (es : list entry) : list (side * node_call) := map (fun e => (en_side e, en_call e)) es.
Lemma plain_calls x es : calls_of x (plain_sched es) = map en_call (of_side x es).
Proof.
  unfold calls_of, plain_sched, of_side. induction es as [|e es IH]; [reflexivity|]. cbn [map filter]. assert (Q : at_side x (en_side e, en_call e) = same_side x (en_side e)) by (destruct x, (en_side e); reflexivity).
  rewrite Q. destruct (same_side x (en_side e)); cbn [map snd]; rewrite IH; reflexivity.
Qed.
Lemma plain_history P key_of pre start p q st x : begins P key_of pre start -> stack P start p st ->
  history (plain_start (p ++ q)) x (plain_sched p) = (trace_of x p, on_transport (st x) (flat_map en_reads (of_side x q)) (flat_map en_writes (of_side x q)) (plain_out x p)).
Proof.
  intros B S. destruct (stack_runs P start p st x S) as (R & _). unfold history, plain_start. rewrite plain_calls, of_side_app, !flat_map_app.
  specialize (R (flat_map en_reads (of_side x q)) (flat_map en_writes (of_side x q)) []). cbn [app] in R. rewrite <- R. f_equal. destruct (B x) as (_ & _ & _ & _ & B1 & B2). unfold on_transport, node_new. rewrite B1, B2. reflexivity.
Qed.
Lemma queued_bytes s errs w c r s' errs' w' sent q : send_step s errs w c = (r, s', errs', w', sent) -> sr_queued r = Some q -> bytes_ok (call_bytes (NSend c)) -> bytes_ok (payload_of q).
Proof.
  destruct c as [name|i|i buf|i|i]; cbn [send_step call_bytes].
  - destruct (connect_poll s None name w) as [[[[r1 known] s1] w1] st]. intros H. injection H as <- <- <- <- <-. cbn [sr_queued]. destruct known as [[n|n]|]; intros [=<-]. intros H. cbn [payload_of]. exact H.
  - destruct (connect_poll s (Some i) None w) as [[[[r1 known] s1] w1] st]. intros H. injection H as <- <- <- <- <-. discriminate.
  - destruct (writer_write s i (errs i) buf w) as [[[[r1 e1] s1] w1] st]. intros H. injection H as <- <- <- <- <-. cbn [sr_queued]. destruct (succeeded r1); intros [=<-]. intros H. exact H.
  - destruct (writer_flush s (errs i) w) as [[[[r1 e1] s1] w1] st]. intros H. injection H as <- <- <- <- <-. discriminate.
  - destruct (writer_shutdown s i (errs i) w) as [[[[r1 e1] s1] w1] st]. intros H. injection H as <- <- <- <- <-. cbn [sr_queued]. destruct (succeeded r1); intros [=<-]. constructor.
Qed.
Lemma run_bytes cs : forall n t n', node_run n cs = (t, n') -> Forall (fun c => bytes_ok (call_bytes c)) cs -> bytes_ok (wires (queue_of t)).
Proof.
  induction cs as [|c cs IH]; intros n t n' H F; cbn [node_run] in H.
  - injection H as <- <-. constructor.
  - destruct (node_step n c) as [e n1] eqn:E. destruct (node_run n1 cs) as [t1 n2] eqn:E1. injection H as <- <-. pose proof (Forall_inv F) as F0. apply Forall_inv_tail in F.
    specialize (IH n1 t1 n2 E1 F). rewrite queue_cons, wires_app. apply bytes_ok_app. split; [|exact IH].
    assert (G : forall a, MplexPairProps.got n a = (e, n1) -> bytes_ok (wires (queue_of [(c, e)]))).
    { intros a. unfold MplexPairProps.got. destruct (perform _ _ a) as [[ev s1] rd]. intros X. injection X as <- <-. constructor. }
    destruct c as [tk|i tk room|i|i|sc]; cbn [node_step] in E; try (exact (G _ E)).
    destruct (send_step (nd_shared n) (nd_errs n) (nd_out n) sc) as [[[[r s'] errs'] w'] sent] eqn:Es. injection E as <- <-. unfold queue_of. cbn [flat_map snd]. rewrite app_nil_r.
    destruct (sr_queued r) as [q|] eqn:Eq; cbn [opt_list]; [|constructor]. unfold wires. cbn [map concat]. rewrite app_nil_r. unfold wire_frame.
    pose proof (queued_bytes _ _ _ _ _ _ _ _ _ q Es Eq F0) as Q. rewrite !bytes_ok_app. repeat split; try apply VarintProofs.encode_bytes_ok. exact Q.
Qed.
Lemma plain_session P key_of (net : list entry -> (side -> secured) -> Prop) pre start es st : (forall p st', net p st' -> honest pre p st' \/ unforged P key_of pre p st') ->
  secure_session P key_of net pre start es st -> session (plain_start es) (plain_sched es).
Proof.
  intros Hn (A & B & S & (M1 & M2 & M3) & Net & Pr).
  assert (Z : sizes_fit pre es) by (intros x; destruct (M3 x) as (? & ? & _); auto).
  split; [exists (fun x => flat_map en_reads (of_side x es)), (fun x => flat_map en_writes (of_side x es)); reflexivity|].
  split; [|split; [|split; [|split]]].
  - intros x. destruct (M3 x) as (_ & _ & M5). destruct (stack_runs P start es st x S) as (_ & _ & R & _). unfold plain_start, node_new. cbn [nd_in]. unfold plain_in in R. rewrite R. split; [|exact M5].
    fold (plain_in x es). destruct (plain_front P key_of pre start es st x A B S Z (Hn _ _ (Net es [] st (eq_sym (app_nil_r es)) S))) as (way & F).
    pose proof (plain_history P key_of pre start es [] st (opposite x) B S) as Hh. rewrite app_nil_r in Hh. unfold history in Hh. unfold plain_start in Hh at 1.
    pose proof (start_sends _ _ _ _ _ Hh) as (St & _). cbn [nd_sent on_transport] in St. apply run_bytes in Hh.
    + rewrite <- St, F in Hh. apply bytes_ok_app in Hh. destruct Hh as [Hh _]. apply bytes_ok_app in Hh. apply Hh.
    + rewrite plain_calls. apply Forall_map. apply Forall_forall. intros e I0. apply filter_In in I0. rewrite Forall_forall in M2. apply M2. apply I0.
  - unfold plain_sched. rewrite map_length. exact M1.
  - unfold plain_sched. apply Forall_map. revert M2. apply Forall_impl. intros e [M _]. exact M.
  - intros x p0 rest0 E. unfold plain_sched in E. apply map_eq_app in E. destruct E as (p & q & -> & <- & <-). fold (plain_sched p).
    destruct (stack_prefix P start _ st S p q eq_refl) as (st' & S'). rewrite !(plain_history P key_of pre start p q st' _ B S'). cbn [snd on_transport nd_in nd_sent].
    destruct (plain_front P key_of pre start p st' x A B S' (sizes_fit_front _ _ _ Z) (Hn _ _ (Net p q st' eq_refl S'))) as (way & F). exists (plain_in x p), way. split; [|exact F].
    unfold plain_start, node_new. cbn [nd_in]. rewrite of_side_app, flat_map_app. destruct (stack_runs P start p st' x S') as (_ & _ & R & _). rewrite <- R.
    generalize (flat_map en_reads (of_side x p)) (flat_map en_reads (of_side x q)). induction l as [|[|d|er] l IHl]; intros m; cbn [app MplexModel.data_of]; rewrite ?IHl, ?app_assoc; reflexivity.
  - intros x. pose proof (plain_history P key_of pre start es [] st x B S) as Hh. rewrite app_nil_r in Hh. rewrite Hh. exact (Pr x).
Qed.

(** Whatever is delivered, everything the other end has made is, when nothing is left over. *)
Lemma recs_nonempty P k R : aead_ok P -> key_ok k -> forall seq L, recs P k seq R L -> concat R = [] -> L = [].
Proof.
  intros A K. destruct R as [|r R]; intros seq [|[c t] L] H E; try contradiction; [reflexivity|]. exfalso. destruct H as [H _]. unfold protect in H. destruct (seal _ _ _ _ _ _) as [s|]; [|discriminate H].
  injection H as <-. discriminate E.
Qed.
Lemma protected_all P k L n all : aead_ok P -> key_ok k -> protected P k 0 L = Some all -> protected P k 0 (firstn n L) = Some all -> firstn n L = L.
Proof.
  intros A K H1 H2. destruct (protected_recs _ _ _ _ _ H1) as (R & -> & Rc). pose proof (recs_firstn P k n R 0 L Rc) as Rn. rewrite (recs_protected _ _ _ _ _ Rn) in H2. injection H2 as E.
  pose proof Rc as Rc'. rewrite <- (firstn_skipn n R) in Rc'. destruct (recs_app_inv _ _ _ _ _ _ Rc') as (L1 & L2 & -> & X1 & X2).
  assert (L2 = []) as ->.
  { apply (recs_nonempty P k (skipn n R) A K _ _ X2). rewrite <- (firstn_skipn n R) in E at 2. rewrite concat_app in E. apply (app_inv_head (concat (firstn n R))). rewrite app_nil_r. symmetry. exact E. }
  rewrite app_nil_r in *. pose proof (recs_length _ _ _ _ _ X1) as Le. apply firstn_all2. rewrite <- Le. apply firstn_le_length.
Qed.
Lemma plain_all P key_of pre start es st x : aead_ok P -> begins P key_of pre start -> stack P start es st -> sizes_fit pre es ->
  all_made pre st (opposite x) es = all_received pre x es -> rr_in (ps_receiver (cn_plain (sc_conn (st x)))) = [] -> cn_in (sc_conn (st x)) = [] -> plain_out (opposite x) es = plain_in x es.
Proof.
  intros A B S Z Net E1 E2. destruct (made_records P key_of pre start es st (opposite x) A B S Z) as (pieces & closed & M1 & M2 & M3).
  destruct (whole_run P key_of pre start es st x B S) as (W1 & _ & W3). destruct (B x) as (Kx & F & _). destruct (B (opposite x)) as (K & _ & _ & Ac & _). rewrite opposite_twice in Ac. destruct (Z x) as [_ Z2].
  destruct (run_reading _ P (key_of (opposite x)) _ _ [] [] _ _ _ _ K (fresh_reading P (key_of x) _ _ F) Z2 W1) as (l & R). cbn [app] in R.
  rewrite Net in M1. destruct (reading_honest P _ _ _ _ l pieces closed _ [] A K M3 M1 (app_nil_r _) R) as (n & d & _ & X & X2 & X3).
  rewrite E1, !app_nil_r in X3. subst d. rewrite (protected_all P _ _ n _ A K M1 X2) in X.
  rewrite E2, app_nil_r, app_data_sent, M2, W3, Ac in X. apply app_inv_head in X. symmetry. exact X.
Qed.

(** ** C132 *)
(** The network is honest, or may do anything but forge. *)
Definition any_network (P : primitives) (key_of : side -> key) (pre : side -> preamble) (es : list entry) (st : side -> secured) : Prop :=
  honest pre es st \/ unforged P key_of pre es st.
(** What one end has read from a stream is the beginning of what the other end has written to
    it. *)
Theorem C132_streams_are_pipes P key_of pre start es st x i : secure_session P key_of (any_network P key_of pre) pre start es st ->
  ~ In (NDropReader (other_end i)) (map fst (trace_of (opposite x) es)) ->
  exists rest, written i (trace_of x es) = received (other_end i) (trace_of (opposite x) es) ++ rest.
Proof.
  intros S Nd. pose proof (plain_session P key_of _ pre start es st (fun p st' H => H) S) as Se. destruct S as (_ & B & S & _).
  pose proof (plain_history P key_of pre start es [] st x B S) as H1. pose proof (plain_history P key_of pre start es [] st (opposite x) B S) as H2. rewrite app_nil_r in H1, H2.
  destruct (C115_streams_are_pipes _ _ x i Se) as (rest & E).
  - rewrite plain_calls. unfold trace_of in Nd. rewrite map_map in Nd. exact Nd.
  - rewrite H1, H2 in E. exists rest. exact E.
Qed.
Print Assumptions C132_streams_are_pipes.
(** Streams are accepted in the order in which the other end opened them, none left out. *)
Theorem C132_accepts_in_order P key_of pre start es st x : secure_session P key_of (any_network P key_of pre) pre start es st ->
  exists rest, map other_end (connects (trace_of x es)) = accepts (trace_of (opposite x) es) ++ rest.
Proof.
  intros S. pose proof (plain_session P key_of _ pre start es st (fun p st' H => H) S) as Se. destruct S as (_ & B & S & _).
  pose proof (plain_history P key_of pre start es [] st x B S) as H1. pose proof (plain_history P key_of pre start es [] st (opposite x) B S) as H2. rewrite app_nil_r in H1, H2.
  destruct (C115_accepts_in_order _ _ x Se) as (rest & E). rewrite H1, H2 in E. exists rest. exact E.
Qed.
Print Assumptions C132_accepts_in_order.
(** Once nothing is left in the queue of mplex, in the network, in the buffers of the TLS
    connection (of bytes received, and of bytes decrypted) and of mplex at the other end,
    everything written has been read. *)
Theorem C132_everything_arrives P key_of pre start es st x i : secure_session P key_of (any_network P key_of pre) pre start es st ->
  let y := opposite x in let j := other_end i in
  ~ In (NDropReader j) (map fst (trace_of y es)) -> In j (connects (trace_of y es) ++ accepts (trace_of y es)) ->
  fs_out (sh_frames (sc_shared (st x))) = [] -> all_made pre st x es = all_received pre y es ->
  rr_in (ps_receiver (cn_plain (sc_conn (st y)))) = [] -> cn_in (sc_conn (st y)) = [] ->
  fs_in (sh_frames (sc_shared (st y))) = [] -> sh_incoming (sc_shared (st y)) = None ->
  written i (trace_of x es) = received j (trace_of y es).
Proof.
  intros Ss y j Nd Ho Fo Al Ri Ci Fi Si. pose proof (plain_session P key_of _ pre start es st (fun p st' H => H) Ss) as Se. destruct Ss as (A & B & S & (_ & _ & M3) & _).
  assert (Z : sizes_fit pre es) by (intros z; destruct (M3 z) as (? & ? & _); auto).
  pose proof (plain_history P key_of pre start es [] st x B S) as H1. pose proof (plain_history P key_of pre start es [] st y B S) as H2. rewrite app_nil_r in H1, H2.
  pose proof (C115_everything_arrives _ _ x i Se) as E. cbv zeta in E. change (opposite x) with y in E. rewrite H1, H2 in E. cbn [fst snd on_transport nd_shared nd_sent nd_in of_side filter flat_map MplexModel.data_of] in E.
  apply E; try assumption.
  - rewrite plain_calls. unfold trace_of in Nd. rewrite map_map in Nd. exact Nd.
  - rewrite app_nil_r. destruct (stack_runs P start es st y S) as (_ & _ & R & _). unfold plain_start, node_new. cbn [nd_in]. rewrite R.
    rewrite <- (opposite_twice x). fold y. symmetry. apply (plain_all P key_of pre start es st y A B S Z); [unfold y; rewrite opposite_twice; exact Al|exact Ri|exact Ci].
Qed.
Print Assumptions C132_everything_arrives.
