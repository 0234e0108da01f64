(** Wake-ups on an mplex connection, and the sending side. *)
From Verif Require Import Base BaseProofs VarintModel MplexModel MplexProofs MplexProofs2 MplexStreamSpec MplexStreamProofs.

Definition nobody_sleeps (s : shared) : Prop := forall x, kept_waker s x = None.
(** Nobody sleeps on a frame that is theirs. *)
Definition served (s : shared) : Prop :=
  forall f x, sh_incoming s = Some f -> frame_is_for f x -> kept_waker s x = None.
(** Wakers are only taken out by waking them. *)
Definition wakes (s s' : shared) (skip : sleeper -> Prop) : Prop :=
  exists new, sh_woken s' = sh_woken s ++ new /\
    forall x w, kept_waker s x = Some w -> kept_waker s' x = Some w \/ In w new \/ skip x.
(** No waker comes from nowhere. *)
Definition fewer (s s' : shared) : Prop := forall x w, kept_waker s' x = Some w -> kept_waker s x = Some w.

Lemma wakes_refl s s' skip : sh_woken s' = sh_woken s -> (forall x, kept_waker s' x = kept_waker s x) -> wakes s s' skip.
Proof. intros E H. exists []. split; [rewrite app_nil_r; exact E|]. intros x w K. left. rewrite H. exact K. Qed.
Lemma wakes_trans s1 s2 s3 (skip : sleeper -> Prop) : wakes s1 s2 (fun _ => False) -> wakes s2 s3 skip -> wakes s1 s3 skip.
Proof.
  intros (n1 & E1 & H1) (n2 & E2 & H2). exists (n1 ++ n2). split; [rewrite E2, E1, app_assoc; reflexivity|].
  intros x w K. destruct (H1 x w K) as [K1|[K1|[]]]; [|right; left; apply in_or_app; left; exact K1].
  destruct (H2 x w K1) as [K2|[K2|K2]]; [left; exact K2|right; left; apply in_or_app; right; exact K2|right; right; exact K2].
Qed.
Lemma reader_get_in r i w : reader_get r i = Some (Some w) -> In w (flat_map (fun kw : stream_id * option task => opt_list (snd kw)) r).
Proof.
  induction r as [|[j v] r IH]; cbn [reader_get]; [discriminate|]. cbn [flat_map snd]. intros H. apply in_or_app.
  destruct (sid_eqb j i); [|right; auto]. injection H as ->. left. left. reflexivity.
Qed.
Lemma wake_all_nobody s : nobody_sleeps (wake_all_readers s).
Proof.
  intros [|i]; [reflexivity|]. unfold kept_waker, wake_all_readers. cbn [with_readers sh_readers wake_accept with_accept].
  rewrite reader_get_clear. destruct (reader_get (sh_readers s) i); reflexivity.
Qed.
Lemma wake_all_wakes s : wakes s (wake_all_readers s) (fun _ => False).
Proof.
  unfold wakes, wake_all_readers. cbn [with_readers sh_woken wake_accept with_accept sh_readers]. eexists. split; [rewrite <- app_assoc; reflexivity|].
  intros [|i] w; cbn [kept_waker].
  - intros H. right. left. rewrite H. left. reflexivity.
  - destruct (reader_get (sh_readers s) i) as [[v|]|] eqn:E; try discriminate. intros H. injection H as ->.
    right. left. apply in_or_app. right. eapply reader_get_in. exact E.
Qed.
Lemma wake_accept_spec s : wakes s (wake_accept s) (fun _ => False) /\ fewer s (wake_accept s) /\ kept_waker (wake_accept s) TheAcceptor = None.
Proof.
  split; [|split; [|reflexivity]].
  - exists (opt_list (sh_accept s)). split; [reflexivity|]. intros [|i] w; cbn [kept_waker wake_accept with_accept sh_accept sh_readers]; [|auto].
    intros ->. right. left. left. reflexivity.
  - intros [|i] w; cbn [kept_waker wake_accept with_accept sh_accept sh_readers]; [discriminate|auto].
Qed.
Lemma wake_reader_spec s i : wakes s (wake_reader s i) (fun _ => False) /\ fewer s (wake_reader s i) /\ kept_waker (wake_reader s i) (TheReader i) = None.
Proof.
  unfold wake_reader. destruct (reader_get (sh_readers s) i) as [v|] eqn:E.
  - split; [|split].
    + exists (opt_list v). split; [reflexivity|]. intros [|k] w; cbn [kept_waker with_readers sh_accept sh_readers]; [auto|].
      rewrite reader_get_set. destruct (sid_eqb i k) eqn:Ek; [|auto]. apply sid_eqb_eq in Ek. subst k. rewrite E.
      destruct v; [|discriminate]. intros H. injection H as ->. right. left. left. reflexivity.
    + intros [|k] w; cbn [kept_waker with_readers sh_accept sh_readers]; [auto|].
      rewrite reader_get_set. destruct (sid_eqb i k) eqn:Ek; [|auto]. destruct (reader_get (sh_readers s) k); discriminate.
    + cbn [kept_waker with_readers sh_readers]. rewrite reader_get_set, sid_eqb_refl, E. reflexivity.
  - split; [apply wakes_refl; reflexivity|]. split; [intros x w; auto|]. cbn [kept_waker]. rewrite E. reflexivity.
Qed.

Lemma fewer_refl s s' : (forall x, kept_waker s' x = kept_waker s x) -> fewer s s'.
Proof. intros H x w. rewrite H. auto. Qed.
Lemma fewer_trans a b c : fewer a b -> fewer b c -> fewer a c.
Proof. intros H1 H2 x w K. apply H1, H2, K. Qed.
Lemma fewer_none s s' x : fewer s s' -> kept_waker s x = None -> kept_waker s' x = None.
Proof. intros F K. destruct (kept_waker s' x) eqn:E; [|reflexivity]. apply F in E. congruence. Qed.
Lemma nobody_fewer s s' : nobody_sleeps s' -> fewer s s'.
Proof. intros H x w. rewrite (H x). discriminate. Qed.

Lemma fill_wakes fuel : forall s t answers r s' answers', served s ->
  fill_loop fuel s t answers = (r, s', answers') ->
  served s' /\ wakes s s' (fun _ => False) /\ fewer s s' /\ sh_closed s' = sh_closed s /\
  match r with
  | Some Wait => sh_incoming s' = None /\ sh_transport s' = Some t
  | Some (Done (Ok _)) =>
    match sh_incoming s' with
    | Some f => f_op f = New \/ have_reader s' (f_id f) = true
    | None => nobody_sleeps s'
    end
  | _ => True
  end.
Proof.
  induction fuel as [|fuel IH]; intros s t answers r s' answers' Sv; cbn [fill_loop].
  - intros H. injection H as <- <- <-. split; [exact Sv|]. split; [apply wakes_refl; reflexivity|]. split; [apply fewer_refl; reflexivity|]. split; [reflexivity|exact I].
  - destruct (sh_closed s) eqn:Ec.
    { intros H. injection H as <- <- <-. split; [exact Sv|]. split; [apply wakes_refl; reflexivity|]. split; [apply fewer_refl; reflexivity|]. split; [exact Ec|exact I]. }
    destruct (match sh_incoming s with Some f => op_eqb (f_op f) New || have_reader s (f_id f) | None => false end) eqn:Ek.
    { intros H. injection H as <- <- <-. split; [exact Sv|]. split; [apply wakes_refl; reflexivity|]. split; [apply fewer_refl; reflexivity|]. split; [exact Ec|].
      destruct (sh_incoming s) as [f|]; [|discriminate]. apply orb_true_iff in Ek as [Ek|Ek]; [left; apply op_eqb_eq; exact Ek|right; exact Ek]. }
    destruct (poll_read_frame (sh_frames (with_incoming s None)) answers) as [[r1 fs1] a1].
    set (s2 := with_transport (with_frames (with_incoming s None) fs1) None).
    assert (K2 : forall x, kept_waker s2 x = kept_waker s x) by (intros [|i]; reflexivity).
    assert (Sv2 : served s2) by (intros f x H; discriminate H).
    destruct r1 as [|[[f|]|e|]].
    + intros H. injection H as <- <- <-. split; [intros f x H; discriminate H|]. split; [apply wakes_refl; [reflexivity|intros [|i]; reflexivity]|].
      split; [apply fewer_refl; intros [|i]; reflexivity|]. split; [exact Ec|split; reflexivity].
    + set (s3 := match f_op f with New => wake_accept s2 | _ => wake_reader s2 (f_id f) end).
      assert (W : wakes s s3 (fun _ => False) /\ fewer s s3 /\ sh_closed s3 = sh_closed s /\ forall x, frame_is_for f x -> kept_waker s3 x = None).
      { assert (WS : wakes s s2 (fun _ => False)) by (apply wakes_refl; [reflexivity|exact K2]).
        assert (FS : fewer s s2) by (apply fewer_refl; exact K2).
        destruct (wake_accept_spec s2) as (A1 & A2 & A3). destruct (wake_reader_spec s2 (f_id f)) as (R1 & R2 & R3).
        destruct (wake_reader_frames s2 (f_id f)) as (_ & _ & Wc & _).
        unfold s3. destruct (f_op f) eqn:Eo.
        - split; [exact (wakes_trans _ _ _ _ WS A1)|]. split; [exact (fewer_trans _ _ _ FS A2)|]. split; [reflexivity|].
          intros [|i]; cbn [frame_is_for]; intros X; [exact A3|destruct X; congruence].
        - split; [exact (wakes_trans _ _ _ _ WS R1)|]. split; [exact (fewer_trans _ _ _ FS R2)|]. split; [rewrite Wc; reflexivity|].
          intros [|i]; cbn [frame_is_for]; intros X; [congruence|destruct X as [_ <-]; exact R3].
        - split; [exact (wakes_trans _ _ _ _ WS R1)|]. split; [exact (fewer_trans _ _ _ FS R2)|]. split; [rewrite Wc; reflexivity|].
          intros [|i]; cbn [frame_is_for]; intros X; [congruence|destruct X as [_ <-]; exact R3].
        - split; [exact (wakes_trans _ _ _ _ WS R1)|]. split; [exact (fewer_trans _ _ _ FS R2)|]. split; [rewrite Wc; reflexivity|].
          intros [|i]; cbn [frame_is_for]; intros X; [congruence|destruct X as [_ <-]; exact R3]. }
      destruct W as (W1 & W2 & W3 & W4).
      set (s4 := with_incoming s3 (Some f)).
      assert (K4 : forall x, kept_waker s4 x = kept_waker s3 x) by (intros [|i]; reflexivity).
      intros H. apply IH in H.
      * destruct H as (H1 & H2 & H3 & H4 & H5). split; [exact H1|].
        split; [eapply wakes_trans; [eapply wakes_trans; [exact W1|]|exact H2]; apply wakes_refl; [reflexivity|exact K4]|].
        split; [exact (fewer_trans _ _ _ (fewer_trans _ _ _ W2 (fewer_refl _ _ K4)) H3)|].
        split; [change (sh_closed s4) with (sh_closed s3) in H4; rewrite H4; exact W3 || (rewrite W3; exact Ec)|exact H5].
      * intros g x Hg. injection Hg as <-. intros X. change (kept_waker s4 x = None). rewrite K4. apply W4. exact X.
    + intros H. injection H as <- <- <-. split; [intros f x H; discriminate H|].
      split; [eapply wakes_trans; [|apply wake_all_wakes]; apply wakes_refl; [reflexivity|intros [|i]; reflexivity]|].
      split; [apply nobody_fewer, wake_all_nobody|]. split; [exact Ec|]. cbn [wake_all_readers with_readers sh_incoming wake_accept with_accept with_no_more s2 with_transport with_frames with_incoming].
      apply wake_all_nobody.
    + intros H. injection H as <- <- <-. split; [exact Sv2|]. split; [apply wakes_refl; [reflexivity|exact K2]|]. split; [apply fewer_refl; exact K2|]. split; [exact Ec|exact I].
    + intros H. injection H as <- <- <-. split; [exact Sv2|]. split; [apply wakes_refl; [reflexivity|exact K2]|]. split; [apply fewer_refl; exact K2|]. split; [exact Ec|exact I].
Qed.

(** Whoever sleeps will be woken: the frame in front is for somebody else who is there to
    take it, or the transport has promised to wake a task. *)
Definition guarded (s : shared) : Prop :=
  forall x w, kept_waker s x = Some w ->
    match sh_incoming s with
    | Some f => f_op f = New \/ have_reader s (f_id f) = true
    | None => sh_transport s <> None
    end.

Lemma kept_set_read s i t x : kept_waker (set_read_waker s i t) x =
  match x with
  | TheAcceptor => kept_waker s x
  | TheReader k => if sid_eqb i k && have_reader s i then Some t else kept_waker s x
  end.
Proof.
  destruct x as [|k]; [reflexivity|]. unfold set_read_waker, have_reader. cbn [kept_waker with_readers sh_readers]. rewrite reader_get_set.
  destruct (sid_eqb i k) eqn:E; [|reflexivity]. apply sid_eqb_eq in E. subst k. destruct (reader_get (sh_readers s) i); reflexivity.
Qed.
Lemma set_read_wakes s i t : wakes s (set_read_waker s i t) (fun x => x = TheReader i).
Proof.
  exists []. split; [cbn; reflexivity|]. intros x w K. rewrite kept_set_read. destruct x as [|k]; [auto|].
  destruct (sid_eqb i k) eqn:E; [|cbn [andb]; auto]. apply sid_eqb_eq in E. subst k. auto.
Qed.
Lemma wakes_weaken s s' (p q : sleeper -> Prop) : (forall x, p x -> q x) -> wakes s s' p -> wakes s s' q.
Proof. intros H (n & E & K). exists n. split; [exact E|]. intros x w X. destruct (K x w X) as [?|[?|?]]; auto. Qed.
Lemma want_nobody s : nobody_sleeps (want_another_frame s). Proof. apply wake_all_nobody. Qed.
Lemma want_wakes s : wakes s (want_another_frame s) (fun _ => False).
Proof.
  eapply wakes_trans; [|apply wake_all_wakes]. apply wakes_refl; [reflexivity|intros [|i]; reflexivity].
Qed.
Lemma add_wakes s i : wakes s (add_stream s i) (fun x => x = TheReader i).
Proof.
  exists []. split; [reflexivity|]. intros [|k] w; cbn [kept_waker add_stream with_writers with_readers sh_readers sh_accept]; [auto|].
  rewrite reader_get_insert. destruct (sid_eqb i k) eqn:E; [apply sid_eqb_eq in E; subst; auto|auto].
Qed.
Lemma add_fewer s i : fewer s (add_stream s i).
Proof.
  intros [|k] w; cbn [kept_waker add_stream with_writers with_readers sh_readers sh_accept]; [auto|].
  rewrite reader_get_insert. destruct (sid_eqb i k); [discriminate|auto].
Qed.
Lemma wakes_trans' s1 s2 s3 (p q : sleeper -> Prop) : wakes s1 s2 p -> wakes s2 s3 q -> wakes s1 s3 (fun x => p x \/ q x).
Proof.
  intros (n1 & E1 & H1) (n2 & E2 & H2). exists (n1 ++ n2). split; [rewrite E2, E1, app_assoc; reflexivity|].
  intros x w K. destruct (H1 x w K) as [K1|[K1|K1]]; [|right; left; apply in_or_app; left; exact K1|auto].
  destruct (H2 x w K1) as [K2|[K2|K2]]; [left; exact K2|right; left; apply in_or_app; right; exact K2|auto].
Qed.

Lemma perform_wakes s answers a e s' answers' : served s -> sh_closed s = false ->
  perform s answers a = (e, s', answers') ->
  served s' /\ wakes s s' (replaces a e) /\ sh_closed s' = false /\
  (guarded s -> (forall x, e <> EvError x) -> e <> EvPanic -> e <> EvStuck -> guarded s').
Proof.
  intros Sv Cl. destruct a as [t|i t room|name|i|i|out]; cbn [perform].
  - unfold poll_accept_id, poll_fill_incoming. destruct (fill_loop _ s t answers) as [[r s1] a1] eqn:Ef.
    apply fill_wakes in Ef; auto. destruct Ef as (S1 & W1 & F1 & C1 & R).
    assert (SA : wakes s (set_accept_waker s1 t) (replaces (Accept t) EvWait)).
    { eapply wakes_trans; [exact W1|]. exists []. split; [reflexivity|]. intros [|k] w K; [|left; exact K]. right. right. exists t. reflexivity. }
    destruct r as [[|[u|x|]]|].
    + destruct R as [R1 R2]. intros H. injection H as <- <- <-. split; [|split; [exact SA|split; [cbn; congruence|]]].
      * intros f x Hf. change (sh_incoming s1 = Some f) in Hf. congruence.
      * intros _ _ _ _ x w _. change (match sh_incoming s1 with Some f => f_op f = New \/ have_reader s1 (f_id f) = true | None => sh_transport s1 <> None end).
        rewrite R1, R2. discriminate.
    + destruct (sh_incoming s1) as [f|] eqn:Ei; [destruct (op_eqb (f_op f) New) eqn:Eo|]; intros H; injection H as <- <- <-.
      * split; [intros g x Hg; discriminate Hg|]. split; [|split; [cbn; congruence|]].
        -- eapply wakes_trans; [exact W1|]. eapply wakes_weaken; [|eapply wakes_trans'; [apply add_wakes|apply want_wakes]].
           intros x [->|[]]. cbn. auto.
        -- intros _ _ _ _ x w K. rewrite (want_nobody _ x) in K. discriminate.
      * split; [|split; [exact SA|split; [cbn; congruence|]]].
        -- intros g x Hg X. change (sh_incoming s1 = Some g) in Hg. destruct x as [|k]; [|exact (S1 g (TheReader k) Hg X)].
           cbn [frame_is_for] in X. apply op_eqb_eq in X. congruence.
        -- intros _ _ _ _ x w _. change (match sh_incoming s1 with Some f => f_op f = New \/ have_reader s1 (f_id f) = true | None => sh_transport s1 <> None end).
           rewrite Ei. exact R.
      * split; [exact S1|]. split; [eapply wakes_weaken; [|exact W1]; intros x []|]. split; [congruence|].
        intros _ _ _ _ x w K. rewrite (R x) in K. discriminate.
    + intros H; injection H as <- <- <-. split; [exact S1|]. split; [eapply wakes_weaken; [|exact W1]; intros ? []|]. split; [congruence|].
      intros _ X. exfalso. exact (X x eq_refl).
    + intros H; injection H as <- <- <-. split; [exact S1|]. split; [eapply wakes_weaken; [|exact W1]; intros ? []|]. split; [congruence|]. congruence.
    + intros H; injection H as <- <- <-. split; [exact S1|]. split; [eapply wakes_weaken; [|exact W1]; intros ? []|]. split; [congruence|]. congruence.
  - unfold poll_read, poll_fill_incoming. destruct (fill_loop _ s t answers) as [[r s1] a1] eqn:Ef.
    apply fill_wakes in Ef; auto. destruct Ef as (S1 & W1 & F1 & C1 & R).
    assert (SR : forall ev, wakes s (set_read_waker s1 i t) (replaces (Read i t room) ev)).
    { intros ev. eapply wakes_trans; [exact W1|]. eapply wakes_weaken; [|apply set_read_wakes]. intros x ->. left. eauto. }
    destruct r as [[|[u|x|]]|].
    + destruct R as [R1 R2]. intros H. injection H as <- <- <-. split; [|split; [apply SR|split; [cbn; congruence|]]].
      * intros f x Hf. change (sh_incoming s1 = Some f) in Hf. congruence.
      * intros _ _ _ _ x w _. cbn [set_read_waker with_readers sh_incoming sh_transport]. rewrite R1, R2. discriminate.
    + destruct (sh_incoming s1) as [f|] eqn:Ei.
      * destruct (sid_eqb (f_id f) i) eqn:Es.
        -- destruct (op_eqb (f_op f) Close) eqn:Eo.
           ++ intros H; injection H as <- <- <-. split; [intros g x Hg; discriminate Hg|]. split; [|split; [cbn; congruence|]].
              ** eapply wakes_trans; [exact W1|]. eapply wakes_weaken; [|apply want_wakes]. intros ? [].
              ** intros _ _ _ _ x w K. rewrite (want_nobody _ x) in K. discriminate.
           ++ set (rest := skipn _ _). set (s2 := with_incoming s1 (Some {| f_id := f_id f; f_op := f_op f; f_data := rest |})).
              assert (K2 : forall x, kept_waker s2 x = kept_waker s1 x) by (intros [|k]; reflexivity).
              assert (S2 : served s2).
              { intros g x Hg X. injection Hg as <-. rewrite K2. apply (S1 f x Ei). destruct x; exact X. }
              assert (W2 : wakes s s2 (fun _ => False)) by (eapply wakes_trans; [exact W1|]; apply wakes_refl; [reflexivity|exact K2]).
              intros H; injection H as <- <- <-. destruct rest eqn:Er.
              ** split; [intros g x Hg; discriminate Hg|]. split; [|split; [cbn; congruence|]].
                 --- eapply wakes_trans; [exact W2|]. eapply wakes_weaken; [|apply want_wakes]. intros ? [].
                 --- intros _ _ _ _ x w K. rewrite (want_nobody _ x) in K. discriminate.
              ** split; [exact S2|]. split; [eapply wakes_weaken; [|exact W2]; intros ? []|]. split; [cbn; congruence|].
                 intros _ _ _ _ x w _. exact R.
        -- intros H; injection H as <- <- <-. split; [|split; [apply SR|split; [cbn; congruence|]]].
           ++ intros g x Hg X. change (sh_incoming s1 = Some g) in Hg. rewrite kept_set_read.
              pose proof (S1 g x Hg X) as K. destruct x as [|k]; [exact K|]. destruct X as [_ X].
              assert (g = f) by congruence. subst g. rewrite X in Es. destruct (sid_eqb i k) eqn:Y; [|exact K].
              apply sid_eqb_eq in Y. rewrite Y, sid_eqb_refl in Es. discriminate.
           ++ intros _ _ _ _ x w _. change (sh_incoming (set_read_waker s1 i t)) with (sh_incoming s1). rewrite Ei.
              destruct R as [R|R]; [left; exact R|right]. change (have_reader (set_read_waker s1 i t) (f_id f) = true). rewrite have_set_read_waker. exact R.
      * intros H; injection H as <- <- <-. split; [exact S1|]. split; [eapply wakes_weaken; [|exact W1]; intros ? []|]. split; [congruence|].
        intros _ _ _ _ x w K. rewrite (R x) in K. discriminate.
    + intros H; injection H as <- <- <-. split; [exact S1|]. split; [eapply wakes_weaken; [|exact W1]; intros ? []|]. split; [congruence|].
      intros _ X. exfalso. exact (X x eq_refl).
    + intros H; injection H as <- <- <-. split; [exact S1|]. split; [eapply wakes_weaken; [|exact W1]; intros ? []|]. split; [congruence|]. congruence.
    + intros H; injection H as <- <- <-. split; [exact S1|]. split; [eapply wakes_weaken; [|exact W1]; intros ? []|]. split; [congruence|]. congruence.
  - unfold shared_append_new. destruct (two64 <=? sh_next s + 1).
    + intros H; injection H as <- <- <-. split; [exact Sv|]. split; [apply wakes_refl; reflexivity|]. split; [exact Cl|]. congruence.
    + set (i := Receiver (sh_next s)). set (s1 := with_next s (sh_next s + 1)).
      assert (K1 : forall x, kept_waker s1 x = kept_waker s x) by (intros [|k]; reflexivity).
      assert (Fw : fewer s (add_stream s1 i)) by (exact (fewer_trans _ _ _ (fewer_refl _ _ K1) (add_fewer _ _))).
      intros H; injection H as <- <- <-.
      set (s2 := with_frames _ _).
      assert (K2 : forall x, kept_waker s2 x = kept_waker (add_stream s1 i) x) by (intros [|k]; reflexivity).
      split; [|split; [|split; [exact Cl|]]].
      * intros f x Hf X. rewrite K2. apply (fewer_none s); [exact Fw|]. exact (Sv f x Hf X).
      * destruct (add_wakes s1 i) as (n & E & K). exists n. split; [exact E|]. intros x w Kx. rewrite <- K1 in Kx.
        destruct (K x w Kx) as [Y|[Y|Y]]; [left; rewrite K2; exact Y|auto|]. right. right. subst x. cbn. auto.
      * intros G _ _ _ x w K. rewrite K2 in K. apply Fw in K. specialize (G x w K). change (sh_incoming s2) with (sh_incoming s).
        destruct (sh_incoming s) as [f|]; [|exact G]. destruct G as [G|G]; [left; exact G|right].
        change (have_reader (add_stream s1 i) (f_id f) = true). rewrite have_add. change (have_reader s1 (f_id f)) with (have_reader s (f_id f)). rewrite G, orb_true_r. reflexivity.
  - intros H; injection H as <- <- <-. unfold remove_reader. split; [|split; [|split; [exact Cl|]]].
    + intros f x _ _. apply wake_all_nobody.
    + eapply wakes_weaken; [|eapply wakes_trans'; [|apply wake_all_wakes]].
      2: { instantiate (1 := fun x => x = TheReader i). exists []. split; [reflexivity|]. intros [|k] w; cbn [kept_waker with_readers sh_readers sh_accept]; [auto|].
           rewrite reader_get_remove. destruct (sid_eqb i k) eqn:E; [apply sid_eqb_eq in E; subst; auto|auto]. }
      intros x [->|[]]. cbn. auto.
    + intros _ _ _ _ x w K. rewrite (wake_all_nobody _ x) in K. discriminate.
  - intros H; injection H as <- <- <-. split; [exact Sv|]. split; [apply wakes_refl; [reflexivity|intros [|k]; reflexivity]|]. split; [exact Cl|]. intros G _ _ _. exact G.
  - intros H; injection H as <- <- <-. split; [exact Sv|]. split; [apply wakes_refl; [reflexivity|intros [|k]; reflexivity]|]. split; [exact Cl|]. intros G _ _ _. exact G.
Qed.

Lemma run_wakes acts : forall s answers es s' answers', served s -> sh_closed s = false ->
  run s answers acts = (es, s', answers') ->
  served s' /\ sh_closed s' = false /\
  (guarded s -> (forall x, ~ In (EvError x) es) -> ~ In EvPanic es -> ~ In EvStuck es -> guarded s').
Proof.
  induction acts as [|a acts IH]; intros s answers es s' answers' Sv Cl; cbn [run].
  - intros H. injection H as <- <- <-. auto.
  - destruct (perform s answers a) as [[e s1] a1] eqn:Ep. destruct (run s1 a1 acts) as [[es1 s2] a2] eqn:Er.
    intros H. injection H as <- <- <-. destruct (perform_wakes _ _ _ _ _ _ Sv Cl Ep) as (S1 & _ & C1 & G1).
    destruct (IH _ _ _ _ _ S1 C1 Er) as (S2 & C2 & G2). split; [exact S2|]. split; [exact C2|].
    intros G NE NP NS. apply G2; [apply G1; [exact G| | |]| | |].
    + intros x ->. apply (NE x). left. reflexivity.
    + intros ->. apply NP. left. reflexivity.
    + intros ->. apply NS. left. reflexivity.
    + intros x X. apply (NE x). right. exact X.
    + intros X. apply NP. right. exact X.
    + intros X. apply NS. right. exact X.
Qed.
