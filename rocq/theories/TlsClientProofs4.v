(** Proofs about established TLS connections. *)
From Verif Require Import Base BaseProofs MplexModel BinaryModel BinaryProofs MessageProofs MessageProofs2 ProtobufProofs Asn1Model X509Model TlsCodesModel TlsTypesModel
  TlsTypesSpec TlsTypesProofs TlsTypesProofs2 TlsTypesProofs3 TlsRecordModel TlsRecordSpec TlsRecordProofs TlsRecordProps TlsClientModel TlsClientSpec TlsClientProofs TlsClientProofs2 TlsClientProofs3.
Local Open Scope string_scope. Local Open Scope list_scope. Local Open Scope N_scope.
Ltac Zify.zify_post_hook ::= Z.div_mod_to_equations.

(** *** Sending *)
Lemma protected_app P k l1 : forall seq l2, protected P k seq (l1 ++ l2) =
  match protected P k seq l1, protected P k (seq + N.of_nat (length l1)) l2 with Some a, Some b => Some (a ++ b) | _, _ => None end.
Proof.
  induction l1 as [|[c t] l1 IH]; intros seq l2.
  - cbn [app protected length]. rewrite N.add_0_r. destruct (protected P k seq l2); reflexivity.
  - cbn [app protected]. rewrite IH. replace (seq + 1 + N.of_nat (length l1)) with (seq + N.of_nat (length ((c, t) :: l1))) by (cbn [length]; lia).
    destruct (protect P k seq (inner_plaintext c t 0)); [|reflexivity]. destruct (protected P k (seq + 1) l1); [|reflexivity].
    destruct (protected P k (seq + N.of_nat (length ((c, t) :: l1))) l2); [|reflexivity]. rewrite app_assoc. reflexivity.
Qed.
Lemma protected_snoc P k seq l a c t r : protected P k seq l = Some a -> protect P k (seq + N.of_nat (length l)) (inner_plaintext c t 0) = Some r ->
  protected P k seq (l ++ [(c, t)]) = Some (a ++ r).
Proof. intros H1 H2. rewrite protected_app, H1. cbn [protected]. rewrite H2. rewrite app_nil_r. reflexivity. Qed.
Definition sending (P : primitives) (k : key) (tx : bytes) (c : connection) (pieces : list bytes) (closed : bool) : Prop :=
  t_client (e_secrets (se_enc (cn_seq c))) = k /\ protected P k 0 (sent_list pieces closed) = Some (tx ++ ps_out (cn_plain c)) /\
  se_client (cn_seq c) = N.of_nat (length (sent_list pieces closed)) /\ Forall (fun d => blen d <= 16384) pieces /\
  match ps_write (cn_plain c) with WsActive => closed = false | WsShutdown => closed = true | WsError _ => True end.
Lemma append_ok P k tx c pieces content ct x c' : aead_ok P -> key_ok k -> sending P k tx c pieces false -> se_client (cn_seq c) + 1 < two64 -> ps_write (cn_plain c) = WsActive ->
  append_record P c content ct = (x, c') ->
  (exists e, x = Err e /\ c' = set_write c (WsError e)) \/
  (x = Ok tt /\ blen content <= 16384 /\ protected P k 0 (sent_list pieces false ++ [(content, content_type_to ct)]) = Some (tx ++ ps_out (cn_plain c')) /\
   se_client (cn_seq c') = se_client (cn_seq c) + 1 /\ t_client (e_secrets (se_enc (cn_seq c'))) = k /\ ps_write (cn_plain c') = WsActive).
Proof.
  intros A K (I1 & I2 & I3 & I4 & I5) B W H. unfold append_record in H. rewrite I1 in H. rewrite (C56_sent_records P k _ content ct A K) in H by lia.
  destruct (16384 <? blen content) eqn:L; [left; exists TInvalidPlaintextRecord; injection H as <- <-; auto|].
  destruct (protect P k (se_client (cn_seq c)) (inner_plaintext content (content_type_to ct) 0)) as [raw|] eqn:E; [|left; exists TEncryptionFailed; injection H as <- <-; auto].
  unfold incr in H. destruct (two64 <=? se_client (cn_seq c) + 1) eqn:O; [lia|]. injection H as <- <-. right. split; [reflexivity|]. split; [lia|].
  cbn [cn_plain cn_seq se_client se_enc set_plain ps_out ps_write]. split; [|auto]. rewrite app_assoc. apply protected_snoc; [exact I2|]. rewrite N.add_0_l, <- I3. exact E.
Qed.
Lemma flush_sending P k tx c pieces closed w x c' w' sent : sending P k tx c pieces closed -> flush_encrypted c w = (x, c', w', sent) ->
  sending P k (tx ++ sent) c' pieces closed /\ (x = Done (Ok tt) -> ps_out (cn_plain c') = [] /\ ps_write (cn_plain c') = ps_write (cn_plain c)) /\
  se_client (cn_seq c') = se_client (cn_seq c) /\ x <> Done Panic /\ (ps_write (cn_plain c') = ps_write (cn_plain c) \/ exists e, ps_write (cn_plain c') = WsError e).
Proof.
  intros (I1 & I2 & I3 & I4 & I5) H. unfold flush_encrypted, stream_flush in H.
  destruct (flush_out (ps_out (cn_plain c)) (ps_write (cn_plain c)) w) as [[[[x1 o] ws] w1] s1] eqn:E. apply flush_spec in E. destruct E as (F1 & F2 & F3 & F4 & F5 & _).
  injection H as <- <- <- <-. unfold sending. cbn [cn_plain cn_seq set_plain ps_out ps_write]. rewrite <- app_assoc, <- F1.
  split; [|split; [exact F2|split; [reflexivity|split; [exact F4|destruct F5 as [F5|(e & F5 & _)]; [left; exact F5|right; exists e; exact F5]]]]].
  split; [exact I1|]. split; [exact I2|]. split; [exact I3|]. split; [exact I4|]. destruct F5 as [->|(e & -> & _)]; [exact I5|exact Logic.I].
Qed.
Lemma set_error_sending P k tx c pieces closed e : sending P k tx c pieces closed -> sending P k tx (set_write c (WsError e)) pieces closed.
Proof. intros (I1 & I2 & I3 & I4 & I5). unfold sending. cbn [set_write set_plain cn_plain cn_seq ps_out ps_write]. auto. Qed.
Lemma shutdown_rest_sending P k tx c pieces w x c' w' sent : sending P k tx c pieces true -> shutdown_rest c w = (x, c', w', sent) ->
  sending P k (tx ++ sent) c' pieces true /\ se_client (cn_seq c') = se_client (cn_seq c) /\ x <> Done Panic /\ (x = Done (Ok tt) -> ps_out (cn_plain c') = []) /\
  (ps_write (cn_plain c') = ps_write (cn_plain c) \/ exists e, ps_write (cn_plain c') = WsError e).
Proof.
  intros I H. unfold shutdown_rest in H. destruct (flush_encrypted c w) as [[[y c1] w1] s1] eqn:E.
  destruct (flush_sending P k tx c pieces true w y c1 w1 s1 I E) as (F1 & F2 & F3 & F4 & F5).
  destruct y as [|[[]|e|]]; [| | |contradiction F4; reflexivity].
  - injection H as <- <- <- <-. split; [exact F1|]. split; [exact F3|]. split; [discriminate|]. split; [discriminate|exact F5].
  - destruct w1 as [|[|n|e] w1]; injection H as <- <- <- <-; try (split; [exact F1|]; split; [exact F3|]; split; [discriminate|]; split; [discriminate|exact F5]).
    split; [apply set_error_sending; exact F1|]. split; [exact F3|]. split; [discriminate|]. split; [intros _; apply F2; reflexivity|]. right. eexists. reflexivity.
  - injection H as <- <- <- <-. split; [exact F1|]. split; [exact F3|]. split; [discriminate|]. split; [discriminate|exact F5].
Qed.
(** What a step does to the sending side. *)
Lemma read_keeps_sending fuel P : forall c answers x c' rest, fill_loop fuel P c answers = (x, c', rest) ->
  ps_out (cn_plain c') = ps_out (cn_plain c) /\ ps_write (cn_plain c') = ps_write (cn_plain c) /\ se_client (cn_seq c') = se_client (cn_seq c) /\ se_enc (cn_seq c') = se_enc (cn_seq c).
Proof.
  induction fuel as [|fuel IH]; intros c answers x c' rest H; cbn [fill_loop] in H.
  - injection H as <- <- <-. auto.
  - destruct (poll_recv (ps_receiver (cn_plain c)) answers) as [[y r1] a1] eqn:E1. destruct y as [|[[]|e|]]; try (injection H as <- <- <-; auto; fail).
    destruct (receive_encrypted_message P r1 (se_server (cn_seq (with_receiver c r1))) (se_enc (cn_seq (with_receiver c r1))) None) as [[[z r2] n2] ts2] eqn:E2.
    destruct z as [|[[m|]|e|]]; try (injection H as <- <- <-; auto; fail).
    destruct m as [| |a|h|d|]; try (injection H as <- <- <-; auto; fail).
    + destruct (a_description a); injection H as <- <- <-; auto.
    + destruct h; try (injection H as <- <- <-; auto; fail). destruct (IH _ _ _ _ _ H) as (X1 & X2 & X3 & X4). rewrite X1, X2, X3, X4. auto.
Qed.
Lemma step_sending P k tx c pieces closed o r c' rx sent : aead_ok P -> key_ok k -> sending P k tx c pieces closed -> se_client (cn_seq c) + 1 < two64 ->
  cstep P c o = (r, c', rx, sent) ->
  exists new closed', sending P k (tx ++ sent) c' (pieces ++ new) closed' /\ accepted_by o r = concat new /\ (length new <= 1)%nat /\
    (closed = true -> new = [] /\ closed' = true) /\ (closed' = true -> closed = true \/ is_shutdown o) /\ se_client (cn_seq c') <= se_client (cn_seq c) + 1 /\
    (r = RShutdown (Done (Ok tt)) -> closed' = true /\ ps_out (cn_plain c') = []) /\
    (is_shutdown o -> ps_write (cn_plain c') <> WsActive) /\ (ps_write (cn_plain c) <> WsActive -> ps_write (cn_plain c') <> WsActive) /\
    (ps_write (cn_plain c) <> WsActive -> new = [] /\ closed' = closed /\ match r with RWrite (Done (Err _)) | RFlush (Done (Err _)) | RRead _ | RShutdown _ => True | _ => False end) /\
    (r = RFlush (Done (Ok tt)) -> ps_out (cn_plain c') = []).
Proof.
  intros A K I B H. destruct o as [room answers|data w|w|w]; cbn [cstep] in H.
  - destruct (conn_read P c room answers) as [[x c1] remain] eqn:E. injection H as <- <- <- <-. exists [], closed. rewrite !app_nil_r.
    assert (X : ps_out (cn_plain c1) = ps_out (cn_plain c) /\ ps_write (cn_plain c1) = ps_write (cn_plain c) /\ se_client (cn_seq c1) = se_client (cn_seq c) /\ se_enc (cn_seq c1) = se_enc (cn_seq c)).
    { unfold conn_read in E. destruct (cn_read c); try (injection E as <- <- <-; auto; fail). unfold fill_incoming in E.
      destruct (cn_in c) eqn:En.
      - destruct (fill_loop (Datatypes.S (length answers)) P c answers) as [[y c2] a2] eqn:F. apply read_keeps_sending in F. destruct y as [|[[]|e|]]; injection E as <- <- <-; exact F.
      - injection E as <- <- <-. auto. }
    destruct X as (X1 & X2 & X3 & X4). destruct I as (I1 & I2 & I3 & I4 & I5). unfold sending. rewrite X1, X2, X3, X4.
    split; [auto 10|]. split; [reflexivity|]. split; [cbn; lia|]. split; [auto|]. split; [auto|]. split; [lia|]. split; [discriminate|]. split; [intros []|]. split; [auto|]. split; [auto|discriminate].
  - destruct (conn_write P c data w) as [[[x c1] w1] s1] eqn:E. injection H as <- <- <- <-. unfold conn_write in E.
    destruct (ps_write (cn_plain c)) eqn:W.
    + destruct (flush_encrypted c w) as [[[y c2] w2] s2] eqn:F. pose proof (flush_sending P k tx c pieces closed w y c2 w2 s2 I F) as (F1 & F2 & F3 & F4 & F5).
      assert (Cl : closed = false) by (destruct I as (_ & _ & _ & _ & I5); rewrite W in I5; exact I5). subst closed.
      destruct y as [|[[]|e|]]; [| | |contradiction F4; reflexivity].
      * injection E as <- <- <- <-. exists [], false. rewrite !app_nil_r. split; [exact F1|]. split; [reflexivity|]. split; [cbn; lia|]. split; [discriminate|]. split; [discriminate|]. split; [lia|]. split; [discriminate|].
        split; [intros []|]. split; [intros C; contradiction C; reflexivity|]. split; [intros C; contradiction C; reflexivity|discriminate].
      * destruct (F2 eq_refl) as [F6 F7]. set (amt := Nat.min (length data) (N.to_nat max_plaintext)) in E.
        destruct (append_application_data P c2 (firstn amt data)) as [z c3] eqn:G. rewrite W in F7.
        destruct (append_ok P k (tx ++ s2) c2 pieces (firstn amt data) CtApplicationData z c3 A K F1 ltac:(lia) F7 G) as [(e & -> & ->)|(-> & G1 & G2 & G3 & G4 & G5)].
        -- injection E as <- <- <- <-. exists [], false. rewrite !app_nil_r. split; [apply set_error_sending; exact F1|]. split; [reflexivity|]. split; [cbn; lia|]. split; [discriminate|]. split; [discriminate|].
           split; [cbn [set_write set_plain cn_seq]; lia|]. split; [discriminate|]. split; [intros []|]. split; [intros C; contradiction C; reflexivity|]. split; [intros C; contradiction C; reflexivity|discriminate].
        -- injection E as <- <- <- <-. exists [firstn amt data], false. cbn [accepted_by concat]. rewrite app_nil_r.
           assert (Q : sent_list (pieces ++ [firstn amt data]) false = sent_list pieces false ++ [(firstn amt data, content_type_to CtApplicationData)]) by (unfold sent_list; rewrite map_app, !app_nil_r; reflexivity).
           split.
           { destruct F1 as (H1 & H2 & H3 & H4 & H5). unfold sending. rewrite Q. split; [exact G4|]. split; [exact G2|]. split; [rewrite G3, H3, app_length; cbn [length]; lia|].
             split; [apply Forall_app; split; [exact H4|constructor; [exact G1|constructor]]|]. rewrite G5. reflexivity. }
           split; [reflexivity|]. split; [cbn; lia|]. split; [discriminate|]. split; [discriminate|]. split; [lia|]. split; [discriminate|]. split; [intros []|]. split; [intros C; contradiction C; reflexivity|]. split; [intros C; contradiction C; reflexivity|discriminate].
      * injection E as <- <- <- <-. exists [], false. rewrite !app_nil_r. split; [exact F1|]. split; [reflexivity|]. split; [cbn; lia|]. split; [discriminate|]. split; [discriminate|]. split; [lia|]. split; [discriminate|].
        split; [intros []|]. split; [intros C; contradiction C; reflexivity|]. split; [intros C; contradiction C; reflexivity|discriminate].
    + injection E as <- <- <- <-. exists [], closed. rewrite !app_nil_r. split; [exact I|]. split; [reflexivity|]. split; [cbn; lia|]. split; [auto|]. split; [auto|]. split; [lia|]. split; [discriminate|].
      split; [intros []|]. rewrite W. split; [auto|]. split; [auto|discriminate].
    + injection E as <- <- <- <-. exists [], closed. rewrite !app_nil_r. split; [exact I|]. split; [reflexivity|]. split; [cbn; lia|]. split; [auto|]. split; [auto|]. split; [lia|]. split; [discriminate|].
      split; [intros []|]. rewrite W. split; [auto|]. split; [auto|discriminate].
  - destruct (conn_flush c w) as [[[x c1] w1] s1] eqn:E. injection H as <- <- <- <-. unfold conn_flush in E.
    destruct (ps_write (cn_plain c)) eqn:W.
    + pose proof (flush_sending P k tx c pieces closed w x c1 w1 s1 I E) as (F1 & F2 & F3 & F4 & F5). exists [], closed. rewrite app_nil_r. split; [exact F1|]. split; [reflexivity|]. split; [cbn; lia|]. split; [auto|]. split; [auto|]. split; [lia|].
      split; [discriminate|]. split; [intros []|]. split; [intros C; contradiction C; reflexivity|]. split; [intros C; contradiction C; reflexivity|]. intros [=->]. apply F2. reflexivity.
    + injection E as <- <- <- <-. exists [], closed. rewrite !app_nil_r. split; [exact I|]. split; [reflexivity|]. split; [cbn; lia|]. split; [auto|]. split; [auto|]. split; [lia|]. split; [discriminate|].
      split; [intros []|]. rewrite W. split; [auto|]. split; [auto|discriminate].
    + injection E as <- <- <- <-. exists [], closed. rewrite !app_nil_r. split; [exact I|]. split; [reflexivity|]. split; [cbn; lia|]. split; [auto|]. split; [auto|]. split; [lia|]. split; [discriminate|].
      split; [intros []|]. rewrite W. split; [auto|]. split; [auto|discriminate].
  - destruct (conn_shutdown P c w) as [[[x c1] w1] s1] eqn:E. injection H as <- <- <- <-. unfold conn_shutdown in E.
    destruct (ps_write (cn_plain c)) eqn:W.
    + assert (Cl : closed = false) by (destruct I as (_ & _ & _ & _ & I5); rewrite W in I5; exact I5). subst closed.
      destruct (append_close_notify P c) as [z c3] eqn:G.
      destruct (append_ok P k tx c pieces _ CtAlert z c3 A K I ltac:(lia) W G) as [(e & -> & ->)|(-> & G1 & G2 & G3 & G4 & G5)].
      * injection E as <- <- <- <-. exists [], false. rewrite !app_nil_r. split; [apply set_error_sending; exact I|]. split; [reflexivity|]. split; [cbn; lia|]. split; [discriminate|]. split; [discriminate|].
        split; [cbn [set_write set_plain cn_seq]; lia|]. split; [discriminate|]. split; [intros _; discriminate|]. split; [intros _; discriminate|]. split; [auto|discriminate].
      * assert (I' : sending P k tx (set_write c3 WsShutdown) pieces true).
        { destruct I as (I1 & I2 & I3 & I4 & I5). unfold sending. cbn [set_write set_plain cn_plain cn_seq ps_out ps_write].
          assert (Q : sent_list pieces true = sent_list pieces false ++ [([1; 0], 21)]) by (unfold sent_list; rewrite app_nil_r; reflexivity). rewrite Q.
          split; [exact G4|]. split; [exact G2|]. split; [rewrite G3, I3, app_length; cbn [length]; lia|]. auto. }
        destruct (shutdown_rest_sending P k tx _ pieces w x c1 w1 s1 I' E) as (S1 & S2 & S3 & S4 & S5). exists [], true. rewrite app_nil_r. cbn [set_write set_plain cn_seq cn_plain ps_write] in S2, S5.
        assert (S6 : ps_write (cn_plain c1) <> WsActive) by (destruct S5 as [S5|(e & S5)]; rewrite S5; discriminate).
        split; [exact S1|]. split; [reflexivity|]. split; [cbn; lia|]. split; [auto|]. split; [right; exact Logic.I|]. split; [lia|]. split; [intros [=->]; split; [reflexivity|apply S4; reflexivity]|].
        split; [auto|]. split; [auto|]. split; [intros C; contradiction C; reflexivity|discriminate].
    + assert (Cl : closed = true) by (destruct I as (_ & _ & _ & _ & I5); rewrite W in I5; exact I5). subst closed.
      destruct (shutdown_rest_sending P k tx _ pieces w x c1 w1 s1 I E) as (S1 & S2 & S3 & S4 & S5). exists [], true. rewrite app_nil_r.
      assert (S6 : ps_write (cn_plain c1) <> WsActive) by (destruct S5 as [S5|(e & S5)]; rewrite S5, ?W; discriminate).
      split; [exact S1|]. split; [reflexivity|]. split; [cbn; lia|]. split; [auto|]. split; [auto|]. split; [lia|]. split; [intros [=->]; split; [reflexivity|apply S4; reflexivity]|].
      split; [auto|]. split; [auto|]. split; [auto|discriminate].
    + injection E as <- <- <- <-. exists [], closed. rewrite !app_nil_r. split; [exact I|]. split; [reflexivity|]. split; [cbn; lia|]. split; [auto|]. split; [auto|]. split; [lia|]. split; [discriminate|].
      rewrite W. split; [discriminate|]. split; [discriminate|]. split; [auto|discriminate].
Qed.
Lemma run_sending os : forall P k tx c pieces closed rs c' rx sent, aead_ok P -> key_ok k -> sending P k tx c pieces closed -> se_client (cn_seq c) + N.of_nat (length os) < two64 ->
  crun P c os = (rs, c', rx, sent) ->
  exists new closed', sending P k (tx ++ sent) c' (pieces ++ new) closed' /\ accepted os rs = concat new /\ length rs = length os /\
    (closed = true -> new = [] /\ closed' = true) /\ (closed' = true -> closed = true \/ Exists is_shutdown os) /\
    (ps_write (cn_plain c) <> WsActive -> new = [] /\ ps_write (cn_plain c') <> WsActive /\
       Forall (fun r => match r with RWrite (Done (Err _)) | RFlush (Done (Err _)) | RRead _ | RShutdown _ => True | _ => False end) rs) /\
    (In (RShutdown (Done (Ok tt))) rs -> closed' = true) /\
    (ps_write (cn_plain c) <> WsActive -> ps_out (cn_plain c) = [] -> ps_out (cn_plain c') = []) /\ (In (RShutdown (Done (Ok tt))) rs -> ps_out (cn_plain c') = []).
Proof.
  induction os as [|o os IH]; intros P k tx c pieces closed rs c' rx sent A K I B H; cbn [crun] in H.
  - injection H as <- <- <- <-. exists [], closed. rewrite !app_nil_r. split; [exact I|]. split; [reflexivity|]. split; [reflexivity|]. split; [auto|]. split; [auto|]. split; [auto|]. split; [intros []|]. split; [auto|intros []].
  - destruct (cstep P c o) as [[[r c1] rx1] s1] eqn:E. destruct (crun P c1 os) as [[[rs2 c2] rx2] s2] eqn:F. injection H as <- <- <- <-. cbn [length] in B.
    destruct (step_sending P k tx c pieces closed o r c1 rx1 s1 A K I ltac:(lia) E) as (new & cl & X1 & X2 & X3 & X4 & X5 & X6 & X7 & X8 & X9 & X10 & X11).
    destruct (IH P k (tx ++ s1) c1 (pieces ++ new) cl rs2 c2 rx2 s2 A K X1 ltac:(lia) F) as (new2 & cl2 & Y1 & Y2 & Y3 & Y4 & Y5 & Y6 & Y7 & Y8 & Y9).
    exists (new ++ new2), cl2. rewrite <- !app_assoc in Y1. split; [exact Y1|].
    split; [unfold accepted in *; cbn [combine map concat fst snd]; rewrite X2, Y2, concat_app; reflexivity|]. split; [cbn [length]; lia|].
    split; [intros C; destruct (X4 C) as [-> C']; destruct (Y4 C') as [-> ->]; auto|].
    split; [intros C; destruct (Y5 C) as [C'|C']; [destruct (X5 C') as [C2|C2]; [auto|right; constructor; exact C2]|right; apply Exists_cons_tl; exact C']|].
    split; [intros C; destruct (X10 C) as (-> & _ & C'); destruct (Y6 (X9 C)) as (-> & C3 & C4); split; [reflexivity|]; split; [exact C3|constructor; [exact C'|exact C4]]|].
    assert (St : ps_write (cn_plain c1) <> WsActive -> ps_out (cn_plain c1) = [] -> ps_out (cn_plain c2) = []) by exact Y8.
    split; [intros [C|C]; [destruct (X7 C) as [C' _]; exact (proj2 (Y4 C'))|exact (Y7 C)]|].
    split.
    + intros C D. apply St; [exact (X9 C)|]. destruct (X10 C) as (-> & -> & _). rewrite app_nil_r in X1.
      destruct X1 as (_ & Q & _), I as (_ & Q2 & _).
      rewrite Q2, D, app_nil_r in Q. assert (Z0 : tx = tx ++ (s1 ++ ps_out (cn_plain c1))) by (rewrite app_assoc; congruence).
      assert (s1 ++ ps_out (cn_plain c1) = []) as Z1 by (apply (app_inv_head tx); rewrite <- Z0, app_nil_r; reflexivity). apply app_eq_nil in Z1. tauto.
    + intros [C|C]; [|exact (Y9 C)]. destruct (X7 C) as [_ C']. apply St; [|exact C']. apply X8. destruct o; cbn [cstep] in E; try exact Logic.I; exfalso.
      * destruct (conn_read P c room answers) as [[? ?] ?]. congruence.
      * destruct (conn_write P c data w) as [[[? ?] ?] ?]. congruence.
      * destruct (conn_flush c w) as [[[? ?] ?] ?]. congruence.
Qed.
