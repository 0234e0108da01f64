(** Lemmas about the shared mplex state. *)
From Verif Require Import Base BaseProofs VarintModel VarintSpec VarintProofs VarintProofs2 MplexModel MplexProofs MplexProofs2 MplexStreamSpec.
Ltac Zify.zify_post_hook ::= Z.div_mod_to_equations.

Lemma sid_eqb_eq a b : sid_eqb a b = true <-> a = b.
Proof.
  destruct a as [n|n], b as [m|m]; cbn [sid_eqb]; (split; intros H; try discriminate);
    try (apply N.eqb_eq in H; congruence); injection H as ->; apply N.eqb_refl.
Qed.
Lemma sid_eqb_refl a : sid_eqb a a = true. Proof. apply sid_eqb_eq. reflexivity. Qed.
Lemma op_eqb_eq a b : op_eqb a b = true <-> a = b.
Proof. destruct a, b; cbn; split; congruence. Qed.

Lemma taken_nil d : taken d [] d.
Proof. exists []. split; [reflexivity|constructor]. Qed.
Lemma taken_trans d1 fs1 d2 fs2 d3 : taken d1 fs1 d2 -> taken d2 fs2 d3 -> taken d1 (fs1 ++ fs2) d3.
Proof.
  intros (u1 & -> & F1) (u2 & -> & F2). exists (u1 ++ u2). split; [rewrite concat_app, app_assoc; reflexivity|apply Forall2_app; assumption].
Qed.
Lemma taken_suffix d fs d' : taken d fs d' -> exists u, d = u ++ d'.
Proof. intros (us & -> & _). eauto. Qed.
Lemma taken_ok d fs d' : taken d fs d' -> bytes_ok d -> bytes_ok d'.
Proof. intros (us & -> & _) B. apply Forall_app in B. tauto. Qed.
Lemma taken_fits d fs d' : taken d fs d' -> fits d -> fits d'.
Proof. intros (us & -> & _). apply fits_suffix. Qed.

(** Reading a frame: at most one frame leaves the unread bytes. *)
Lemma poll_read_frame_taken answers : forall fs r fs' answers',
  bytes_ok (fs_in fs ++ data_of answers) -> fits (fs_in fs ++ data_of answers) ->
  poll_read_frame fs answers = (r, fs', answers') ->
  (match r with
   | Done (Ok (Some f)) => taken (fs_in fs ++ data_of answers) [f] (fs_in fs' ++ data_of answers') /\
       (length (fs_in fs' ++ data_of answers') < length (fs_in fs ++ data_of answers))%nat
   | Done (Ok None) => fs_in fs ++ data_of answers = fs_in fs' ++ data_of answers' /\ fs_eof fs' = true /\ fs_in fs' = []
   | _ => fs_in fs ++ data_of answers = fs_in fs' ++ data_of answers'
   end) /\ fs_out fs' = fs_out fs /\ (fs_eof fs = true -> fs_eof fs' = true).
Proof.
  induction answers as [|a answers IH]; intros fs r fs' answers' B Fi; cbn [poll_read_frame].
  - cbn [data_of] in *. rewrite app_nil_r in *.
    destruct (buffered_frame (fs_in fs)) as [[[f rest]|]|e|] eqn:Eb.
    + intros H. injection H as <- <- <-. cbn [with_in fs_in fs_out fs_eof data_of]. rewrite !app_nil_r. split; [|tauto].
      pose proof (buffered_app (fs_in fs) []) as X. rewrite Eb in X. destruct X as (_ & L & _). split; [|lia].
      apply (buffered_frame_iff _ _ _ B Fi) in Eb as (u & E & Fb). exists [u]. split; [rewrite E; cbn; rewrite app_nil_r; reflexivity|repeat constructor; exact Fb].
    + destruct (fs_eof fs) eqn:Ee.
      * destruct (fs_in fs) eqn:Ei; intros H; injection H as <- <- <-; cbn [data_of]; rewrite Ei, ?app_nil_r; tauto.
      * intros H. injection H as <- <- <-. cbn [data_of]. rewrite app_nil_r. split; [reflexivity|]. split; [reflexivity|congruence].
    + intros H. injection H as <- <- <-. cbn [data_of]. rewrite app_nil_r. tauto.
    + intros H. injection H as <- <- <-. cbn [data_of]. rewrite app_nil_r. tauto.
  - destruct (buffered_frame (fs_in fs)) as [[[f rest]|]|e|] eqn:Eb.
    + intros H. injection H as <- <- <-. cbn [with_in fs_in fs_out fs_eof]. split; [|tauto].
      pose proof (buffered_app (fs_in fs) (data_of (a :: answers))) as X. rewrite Eb in X. destruct X as (X & L & _).
      split; [|rewrite !app_length; lia].
      apply (buffered_frame_iff _ _ _ B Fi) in X as (u & E & Fb). exists [u]. split; [rewrite E; cbn [concat]; rewrite app_nil_r; reflexivity|repeat constructor; exact Fb].
    + destruct (fs_eof fs) eqn:Ee.
      * destruct (fs_in fs) eqn:Ei; intros H; injection H as <- <- <-; rewrite Ei; tauto.
      * destruct a as [|[|b data]|e]; cbn [data_of] in *.
        -- intros H. injection H as <- <- <-. split; [reflexivity|]. split; [reflexivity|congruence].
        -- intros H. apply IH in H; cbn [fs_in fs_out fs_eof app] in *; auto. destruct H as (H1 & H2 & H3). split; [exact H1|]. split; [exact H2|]. congruence.
        -- intros H. apply IH in H; cbn [with_in fs_in fs_out fs_eof] in *; rewrite <- ?app_assoc in *; auto.
           destruct H as (H1 & H2 & H3). split; [exact H1|]. split; [exact H2|]. congruence.
        -- intros H. injection H as <- <- <-. split; [reflexivity|]. split; [reflexivity|congruence].
    + intros H. injection H as <- <- <-. split; [reflexivity|tauto].
    + intros H. injection H as <- <- <-. split; [reflexivity|tauto].
Qed.

(** *** Readers *)
Lemma reader_get_set r i w k : reader_get (reader_set r i w) k =
  if sid_eqb i k then (match reader_get r k with Some _ => Some w | None => None end) else reader_get r k.
Proof.
  induction r as [|[j v] r IH]; cbn [reader_set map reader_get fst]; [destruct (sid_eqb i k); reflexivity|].
  destruct (sid_eqb j i) eqn:Eji; cbn [reader_get].
  - apply sid_eqb_eq in Eji. subst j. destruct (sid_eqb i k) eqn:Eik; [reflexivity|exact IH].
  - destruct (sid_eqb j k) eqn:Ejk; [|exact IH]. apply sid_eqb_eq in Ejk. subst j.
    destruct (sid_eqb i k) eqn:Eik; [apply sid_eqb_eq in Eik; subst; rewrite sid_eqb_refl in Eji; discriminate|reflexivity].
Qed.
Lemma reader_get_remove r i k : reader_get (reader_remove r i) k = if sid_eqb i k then None else reader_get r k.
Proof.
  induction r as [|[j v] r IH]; cbn [reader_remove filter reader_get fst]; [destruct (sid_eqb i k); reflexivity|].
  destruct (sid_eqb j i) eqn:Eji; cbn [negb reader_get].
  - apply sid_eqb_eq in Eji. subst j. unfold reader_remove in IH. rewrite IH. destruct (sid_eqb i k); reflexivity.
  - destruct (sid_eqb j k) eqn:Ejk; [|exact IH]. apply sid_eqb_eq in Ejk. subst j.
    destruct (sid_eqb i k) eqn:Eik; [apply sid_eqb_eq in Eik; subst; rewrite sid_eqb_refl in Eji; discriminate|reflexivity].
Qed.
Lemma reader_get_insert r i w k : reader_get (reader_insert r i w) k = if sid_eqb i k then Some w else reader_get r k.
Proof. unfold reader_insert. cbn [reader_get]. rewrite reader_get_remove. destruct (sid_eqb i k); reflexivity. Qed.
Lemma reader_get_clear r k : reader_get (map (fun kw : stream_id * option task => (fst kw, None)) r) k =
  match reader_get r k with Some _ => Some None | None => None end.
Proof.
  induction r as [|[j v] r IH]; cbn [map reader_get fst]; [reflexivity|]. destruct (sid_eqb j k); [reflexivity|exact IH].
Qed.

Lemma have_wake_accept s k : have_reader (wake_accept s) k = have_reader s k. Proof. reflexivity. Qed.
Lemma have_set_read_waker s i t k : have_reader (set_read_waker s i t) k = have_reader s k.
Proof.
  unfold have_reader, set_read_waker. cbn [with_readers sh_readers]. rewrite reader_get_set.
  destruct (sid_eqb i k); [|reflexivity]. destruct (reader_get (sh_readers s) k); reflexivity.
Qed.
Lemma have_wake_reader s i k : have_reader (wake_reader s i) k = have_reader s k.
Proof.
  unfold wake_reader. destruct (reader_get (sh_readers s) i) eqn:E; [|reflexivity].
  unfold have_reader. cbn [with_readers sh_readers]. rewrite reader_get_set.
  destruct (sid_eqb i k); [|reflexivity]. destruct (reader_get (sh_readers s) k); reflexivity.
Qed.
Lemma have_wake_all s k : have_reader (wake_all_readers s) k = have_reader s k.
Proof.
  unfold have_reader, wake_all_readers. cbn [with_readers sh_readers wake_accept with_accept]. rewrite reader_get_clear.
  destruct (reader_get (sh_readers s) k); reflexivity.
Qed.
Lemma have_add s i k : have_reader (add_stream s i) k = sid_eqb i k || have_reader s k.
Proof.
  unfold have_reader, add_stream. cbn [with_writers with_readers sh_readers]. rewrite reader_get_insert.
  destruct (sid_eqb i k); reflexivity.
Qed.
Lemma have_want s k : have_reader (want_another_frame s) k = have_reader s k.
Proof. unfold want_another_frame. rewrite have_wake_all. reflexivity. Qed.
Lemma have_remove s i k : have_reader (remove_reader s i) k = negb (sid_eqb i k) && have_reader s k.
Proof.
  unfold remove_reader. rewrite have_wake_all. unfold have_reader. cbn [with_readers sh_readers]. rewrite reader_get_remove.
  destruct (sid_eqb i k); reflexivity.
Qed.
Lemma wake_reader_frames s i : sh_frames (wake_reader s i) = sh_frames s /\ sh_incoming (wake_reader s i) = sh_incoming s /\
  sh_closed (wake_reader s i) = sh_closed s /\ sh_next (wake_reader s i) = sh_next s /\ sh_accept (wake_reader s i) = sh_accept s /\
  sh_transport (wake_reader s i) = sh_transport s.
Proof. unfold wake_reader. destruct (reader_get (sh_readers s) i); repeat split. Qed.

(** *** Filling the place for the next frame *)
Definition of_nobody (s : shared) (f : frame) : Prop := f_op f <> New /\ have_reader s (f_id f) = false.

Lemma fill_spec fuel : forall s t answers r s' answers',
  bytes_ok (unread s answers) -> fits (unread s answers) ->
  (length (unread s answers) < fuel)%nat ->
  fill_loop fuel s t answers = (r, s', answers') ->
  exists fs drops,
    taken (unread s answers) fs (unread s' answers') /\
    opt_list (sh_incoming s) ++ fs = drops ++ opt_list (sh_incoming s') /\ Forall (of_nobody s) drops /\
    (forall k, have_reader s' k = have_reader s k) /\
    fs_out (sh_frames s') = fs_out (sh_frames s) /\ sh_closed s' = sh_closed s /\ sh_next s' = sh_next s /\
    (sh_incoming s = None -> Forall (fun f => In f fs) (opt_list (sh_incoming s'))) /\
    match r with
    | None => False
    | Some (Done (Ok _)) =>
      match sh_incoming s' with
      | Some f => f_op f = New \/ have_reader s (f_id f) = true
      | None => at_end s'
      end
    | Some Wait => sh_incoming s' = None
    | Some (Done _) => True
    end.
Proof.
  induction fuel as [|fuel IH]; intros s t answers r s' answers' B Fi L; [lia|].
  cbn [fill_loop].
  destruct (sh_closed s) eqn:Ec.
  { intros H. injection H as <- <- <-. exists [], []. split; [apply taken_nil|]. rewrite app_nil_r. cbn [app].
    split; [reflexivity|]. split; [constructor|]. split; [reflexivity|]. split; [reflexivity|]. split; [exact Ec|]. split; [reflexivity|].
    split; [intros ->; constructor|exact I]. }
  destruct (match sh_incoming s with Some f => op_eqb (f_op f) New || have_reader s (f_id f) | None => false end) eqn:Ek.
  { intros H. injection H as <- <- <-. exists [], []. split; [apply taken_nil|]. rewrite app_nil_r. cbn [app].
    split; [reflexivity|]. split; [constructor|]. split; [reflexivity|]. split; [reflexivity|]. split; [exact Ec|]. split; [reflexivity|].
    split; [intros ->; constructor|].
    destruct (sh_incoming s) as [f|]; [|discriminate]. apply orb_true_iff in Ek as [Ek|Ek]; [left; apply op_eqb_eq; exact Ek|right; exact Ek]. }
  set (s1 := with_incoming s None). change (sh_frames s1) with (sh_frames s).
  destruct (poll_read_frame (sh_frames s) answers) as [[r1 fs1] a1] eqn:Ep.
  destruct (poll_read_frame_taken _ _ _ _ _ B Fi Ep) as (P & Po & Pe).
  assert (D : Forall (of_nobody s) (opt_list (sh_incoming s))).
  { destruct (sh_incoming s) as [f|]; constructor; [|constructor]. apply orb_false_iff in Ek as [Ek1 Ek2].
    split; [intros X; apply op_eqb_eq in X; congruence|exact Ek2]. }
  set (s2 := with_transport (with_frames s1 fs1) None).
  assert (U : forall s3, sh_frames s3 = fs1 -> unread s3 a1 = fs_in fs1 ++ data_of a1) by (intros s3 E; unfold unread; rewrite E; reflexivity).
  destruct r1 as [|[[f|]|e|]].
  - intros H. injection H as <- <- <-. exists [], (opt_list (sh_incoming s)).
    split; [rewrite U by reflexivity; rewrite <- P; apply taken_nil|].
    split; [reflexivity|]. split; [exact D|]. split; [reflexivity|]. split; [exact Po|]. split; [exact Ec|]. split; [reflexivity|].
    split; [constructor|reflexivity].
  - destruct P as [P PL]. set (s3 := with_incoming (match f_op f with New => wake_accept s2 | _ => wake_reader s2 (f_id f) end) (Some f)).
    assert (Q : sh_frames s3 = fs1 /\ sh_closed s3 = sh_closed s /\ sh_next s3 = sh_next s /\ forall k, have_reader s3 k = have_reader s k).
    { unfold s3. destruct (wake_reader_frames s2 (f_id f)) as (W1 & W2 & W3 & W4 & _).
      destruct (f_op f); cbn [with_incoming sh_frames sh_closed sh_next]; rewrite ?W1, ?W3, ?W4;
        (split; [reflexivity|]; split; [reflexivity|]; split; [reflexivity|]; intros k);
        unfold have_reader; cbn [with_incoming sh_readers];
        try (fold (have_reader (wake_reader s2 (f_id f)) k); rewrite have_wake_reader); reflexivity. }
    destruct Q as (Q1 & Q2 & Q3 & Q4).
    intros H. change (with_incoming _ (Some f)) with s3 in H.
    assert (U3 : unread s3 a1 = fs_in fs1 ++ data_of a1) by (apply U; exact Q1).
    apply IH in H; [|rewrite U3; eapply taken_ok; [exact P|exact B]|rewrite U3; eapply taken_fits; [exact P|exact Fi]|].
    2: { rewrite U3. unfold unread in L. lia. }
    destruct H as (fs & drops & T & E & F & H1 & H2 & H3 & H4 & H5 & H6).
    exists ([f] ++ fs), (opt_list (sh_incoming s) ++ drops).
    split; [eapply taken_trans; [exact P|rewrite <- U3; exact T]|].
    assert (In3 : sh_incoming s3 = Some f) by reflexivity. rewrite In3 in E. cbn [opt_list] in E.
    split; [rewrite <- app_assoc, <- E; reflexivity|].
    split; [apply Forall_app; split; [exact D|]; eapply Forall_impl; [|exact F]; intros g [G1 G2]; split; [exact G1|rewrite <- Q4; exact G2]|].
    split; [intros k; rewrite H1; apply Q4|].
    split; [rewrite H2, Q1; exact Po|]. split; [rewrite H3; exact Q2 || (rewrite Q2; exact Ec)|]. split; [congruence|].
    split.
    { intros _. destruct (sh_incoming s') as [g|]; constructor; [|constructor].
      assert (X : In g ([f] ++ fs)) by (cbn [app opt_list] in *; rewrite E; apply in_or_app; right; left; reflexivity). exact X. }
    destruct r as [[|[u|e|]]|]; auto. destruct (sh_incoming s'); [|exact H6]. rewrite Q4 in H6. exact H6.
  - destruct P as (P & P1 & P2). intros H. injection H as <- <- <-. exists [], (opt_list (sh_incoming s)).
    split; [rewrite U by reflexivity; rewrite <- P; apply taken_nil|].
    split; [reflexivity|]. split; [exact D|]. split; [intros k; rewrite have_wake_all; reflexivity|]. split; [exact Po|]. split; [exact Ec|]. split; [reflexivity|].
    split; [constructor|]. split; assumption.
  - intros H. injection H as <- <- <-. exists [], (opt_list (sh_incoming s)).
    split; [rewrite U by reflexivity; rewrite <- P; apply taken_nil|].
    split; [reflexivity|]. split; [exact D|]. split; [reflexivity|]. split; [exact Po|]. split; [exact Ec|]. split; [reflexivity|].
    split; [constructor|exact I].
  - intros H. injection H as <- <- <-. exists [], (opt_list (sh_incoming s)).
    split; [rewrite U by reflexivity; rewrite <- P; apply taken_nil|].
    split; [reflexivity|]. split; [exact D|]. split; [reflexivity|]. split; [exact Po|]. split; [exact Ec|]. split; [reflexivity|].
    split; [constructor|exact I].
Qed.

Lemma poll_fill_spec s t answers r s' answers' :
  bytes_ok (unread s answers) -> fits (unread s answers) ->
  poll_fill_incoming s t answers = (r, s', answers') ->
  exists fs drops,
    taken (unread s answers) fs (unread s' answers') /\
    opt_list (sh_incoming s) ++ fs = drops ++ opt_list (sh_incoming s') /\ Forall (of_nobody s) drops /\
    (forall k, have_reader s' k = have_reader s k) /\
    match r with
    | None => False
    | Some (Done (Ok _)) =>
      match sh_incoming s' with
      | Some f => f_op f = New \/ have_reader s (f_id f) = true
      | None => at_end s'
      end
    | Some Wait => sh_incoming s' = None
    | Some (Done _) => True
    end.
Proof.
  intros B Fi H. unfold poll_fill_incoming in H. fold (unread s answers) in H.
  apply fill_spec in H; auto. destruct H as (fs & dr & H1 & H2 & H3 & H4 & _ & _ & _ & _ & H5).
  exists fs, dr. auto.
Qed.

(** *** One call *)
Definition keeps (s s' : shared) (a : action) (e : event) (k : stream_id) : bool :=
  match a, e with
  | Accept _, EvAccepted i => sid_eqb i k || have_reader s k
  | Connect _, EvConnected i => sid_eqb i k || have_reader s k
  | DropReader i, _ => negb (sid_eqb i k) && have_reader s k
  | _, _ => have_reader s k
  end.
Definition outcome_of_call (a : action) (mid : option frame) (s' : shared) (e : event) : Prop :=
  match e with
  | EvAccepted i => (exists t, a = Accept t) /\ sh_incoming s' = None /\ exists f, mid = Some f /\ f_op f = New /\ f_id f = i
  | EvBytes i room b => (exists t, a = Read i t room) /\
      ((mid = None /\ sh_incoming s' = None /\ b = [] /\ at_end s') \/
       exists f, mid = Some f /\ f_id f = i /\
         ((f_op f = Close /\ b = [] /\ sh_incoming s' = None) \/
          (f_op f <> Close /\ exists rest, f_data f = b ++ rest /\ length b = Nat.min (length (f_data f)) room /\
           sh_incoming s' = match rest with [] => None | _ => Some {| f_id := f_id f; f_op := f_op f; f_data := rest |} end)))
  | EvNoMoreStreams => (exists t, a = Accept t) /\ mid = None /\ sh_incoming s' = None /\ at_end s'
  | EvStuck => False
  | _ => sh_incoming s' = mid
  end.

Lemma perform_spec s answers a e s' answers' :
  bytes_ok (unread s answers) -> fits (unread s answers) ->
  perform s answers a = (e, s', answers') ->
  exists fs drops mid,
    taken (unread s answers) fs (unread s' answers') /\
    opt_list (sh_incoming s) ++ fs = drops ++ opt_list mid /\ Forall (of_nobody s) drops /\
    (forall k, have_reader s' k = keeps s s' a e k) /\ outcome_of_call a mid s' e.
Proof.
  intros B Fi. destruct a as [t|i t room|name|i|i|out]; cbn [perform].
  - unfold poll_accept_id. destruct (poll_fill_incoming s t answers) as [[r s1] a1] eqn:Ef.
    apply poll_fill_spec in Ef; auto. destruct Ef as (fs & drops & T & Q & D & HK & R).
    destruct r as [[|[u|x|]]|]; [| | | |destruct R].
    + intros H. injection H as <- <- <-. exists fs, drops, (sh_incoming s1).
      split; [exact T|]. split; [exact Q|]. split; [exact D|]. split; [exact HK|]. reflexivity.
    + destruct (sh_incoming s1) as [f|] eqn:Ei.
      * destruct (op_eqb (f_op f) New) eqn:Eo; intros H; injection H as <- <- <-; exists fs, drops, (Some f).
        -- split; [exact T|]. split; [exact Q|]. split; [exact D|]. split.
           { intros k. rewrite have_want, have_add, HK. reflexivity. }
           cbn [outcome_of_call]. split; [eauto|]. split; [reflexivity|]. exists f. split; [reflexivity|]. split; [apply op_eqb_eq; exact Eo|reflexivity].
        -- split; [exact T|]. split; [exact Q|]. split; [exact D|]. split; [exact HK|]. exact Ei.
      * intros H; injection H as <- <- <-; exists fs, drops, None.
        split; [exact T|]. split; [exact Q|]. split; [exact D|]. split; [exact HK|]. cbn [outcome_of_call]. eauto.
    + intros H; injection H as <- <- <-; exists fs, drops, (sh_incoming s1).
      split; [exact T|]. split; [exact Q|]. split; [exact D|]. split; [exact HK|]. reflexivity.
    + intros H; injection H as <- <- <-; exists fs, drops, (sh_incoming s1).
      split; [exact T|]. split; [exact Q|]. split; [exact D|]. split; [exact HK|]. reflexivity.
  - unfold poll_read. destruct (poll_fill_incoming s t answers) as [[r s1] a1] eqn:Ef.
    apply poll_fill_spec in Ef; auto. destruct Ef as (fs & drops & T & Q & D & HK & R).
    destruct r as [[|[u|x|]]|]; [| | | |destruct R].
    + intros H. injection H as <- <- <-. exists fs, drops, (sh_incoming s1).
      split; [exact T|]. split; [exact Q|]. split; [exact D|]. split; [intros k; rewrite have_set_read_waker; apply HK|]. reflexivity.
    + destruct (sh_incoming s1) as [f|] eqn:Ei.
      * destruct (sid_eqb (f_id f) i) eqn:Es.
        -- apply sid_eqb_eq in Es. destruct (op_eqb (f_op f) Close) eqn:Eo.
           ++ intros H; injection H as <- <- <-; exists fs, drops, (Some f).
              split; [exact T|]. split; [exact Q|]. split; [exact D|]. split; [intros k; rewrite have_want; apply HK|].
              cbn [outcome_of_call]. split; [eauto|]. right. exists f. split; [reflexivity|]. split; [exact Es|]. left. split; [apply op_eqb_eq; exact Eo|]. split; reflexivity.
           ++ set (amt := Nat.min (length (f_data f)) room). set (s2 := with_incoming s1 _).
              set (s3 := match skipn amt (f_data f) with [] => want_another_frame s2 | _ => s2 end).
              assert (K3 : unread s3 a1 = unread s1 a1 /\ (forall k, have_reader s3 k = have_reader s1 k) /\
                sh_incoming s3 = match skipn amt (f_data f) with [] => None | _ => Some {| f_id := f_id f; f_op := f_op f; f_data := skipn amt (f_data f) |} end).
              { unfold s3. destruct (skipn amt (f_data f)) eqn:Er.
                - split; [reflexivity|]. split; [intros k; rewrite have_want; reflexivity|reflexivity].
                - split; [reflexivity|]. split; [intros k; reflexivity|]. unfold s2. cbn [with_incoming sh_incoming]. rewrite ?Er. reflexivity. }
              destruct K3 as (K1 & K2 & K3).
              intros H. injection H as <- <- <-. exists fs, drops, (Some f).
              split; [rewrite K1; exact T|]. split; [exact Q|]. split; [exact D|]. split; [intros k; rewrite K2; apply HK|].
              cbn [outcome_of_call]. split; [eauto|]. right. exists f. split; [reflexivity|]. split; [exact Es|]. right.
              split; [intros X; apply op_eqb_eq in X; congruence|]. exists (skipn amt (f_data f)).
              split; [symmetry; apply firstn_skipn|]. split; [apply firstn_length_le; unfold amt; lia|exact K3].
        -- intros H; injection H as <- <- <-; exists fs, drops, (Some f).
           split; [exact T|]. split; [exact Q|]. split; [exact D|]. split; [intros k; rewrite have_set_read_waker; apply HK|]. exact Ei.
      * intros H; injection H as <- <- <-; exists fs, drops, None.
        split; [exact T|]. split; [exact Q|]. split; [exact D|]. split; [exact HK|]. cbn [outcome_of_call]. split; [eauto|]. left. auto.
    + intros H; injection H as <- <- <-; exists fs, drops, (sh_incoming s1).
      split; [exact T|]. split; [exact Q|]. split; [exact D|]. split; [exact HK|]. reflexivity.
    + intros H; injection H as <- <- <-; exists fs, drops, (sh_incoming s1).
      split; [exact T|]. split; [exact Q|]. split; [exact D|]. split; [exact HK|]. reflexivity.
  - unfold shared_append_new. destruct (two64 <=? sh_next s + 1); intros H; injection H as <- <- <-; exists [], [], (sh_incoming s);
      (split; [apply taken_nil|]); (split; [rewrite app_nil_r; reflexivity|]); (split; [constructor|]).
    + split; reflexivity.
    + split; [|reflexivity]. intros k. cbn [keeps].
      change (have_reader (add_stream (with_next s (sh_next s + 1)) (Receiver (sh_next s))) k = sid_eqb (Receiver (sh_next s)) k || have_reader s k).
      rewrite have_add. reflexivity.
  - intros H; injection H as <- <- <-; exists [], [], (sh_incoming s).
    split; [apply taken_nil|]. split; [rewrite app_nil_r; reflexivity|]. split; [constructor|]. split; [intros k; apply have_remove|reflexivity].
  - intros H; injection H as <- <- <-; exists [], [], (sh_incoming s).
    split; [apply taken_nil|]. split; [rewrite app_nil_r; reflexivity|]. split; [constructor|]. split; reflexivity.
  - intros H; injection H as <- <- <-; exists [], [], (sh_incoming s).
    split; [apply taken_nil|]. split; [rewrite app_nil_r; reflexivity|]. split; [constructor|]. split; reflexivity.
Qed.

(** *** Part of *)
Lemma part_refl {A} (l : list A) : part_of l l.
Proof. induction l; constructor; assumption. Qed.
Lemma part_empty {A} (l : list A) : part_of [] l.
Proof. induction l; constructor; assumption. Qed.
Lemma part_app {A} (l1 m1 l2 m2 : list A) : part_of l1 m1 -> part_of l2 m2 -> part_of (l1 ++ l2) (m1 ++ m2).
Proof. intros H1 H2. induction H1; cbn [app]; [exact H2|constructor; assumption|constructor; assumption]. Qed.
Lemma part_trans {A} (l m n : list A) : part_of l m -> part_of m n -> part_of l n.
Proof.
  intros H1 H2. revert l H1. induction H2 as [|x m n H2 IH|x m n H2 IH]; intros l H1; [exact H1| |constructor; apply IH; exact H1].
  inversion H1; subst; [constructor; apply IH; assumption|constructor; apply IH; assumption].
Qed.

Lemma payloads_app i a b : payloads_for i (a ++ b) = payloads_for i a ++ payloads_for i b.
Proof. apply flat_map_app. Qed.
Lemma opened_app a b : opened_by (a ++ b) = opened_by a ++ opened_by b.
Proof. apply flat_map_app. Qed.
Lemma payloads_nobody s i l : have_reader s i = true -> Forall (of_nobody s) l -> payloads_for i l = [].
Proof.
  intros Hr F. induction F as [|f l [F1 F2] F IH]; [reflexivity|]. unfold payloads_for in *. cbn [flat_map]. rewrite IH, app_nil_r.
  unfold payload_for. destruct (sid_eqb (f_id f) i) eqn:E; [|reflexivity]. apply sid_eqb_eq in E. congruence.
Qed.
Lemma opened_nobody s l : Forall (of_nobody s) l -> opened_by l = [].
Proof.
  intros F. induction F as [|f l [F1 F2] F IH]; [reflexivity|]. unfold opened_by in *. cbn [flat_map]. rewrite IH, app_nil_r.
  destruct (f_op f); congruence.
Qed.

(** A frame that opens a stream carries no payload. *)
Definition sane (o : option frame) : Prop := match o with Some f => f_op f = New -> f_data f = [] /\ exists n, f_id f = Initiator n | None => True end.
Lemma frame_bytes_sane u f : frame_bytes u f -> sane (Some f).
Proof. intros (h & p & hv & fl & _ & _ & _ & ->). destruct fl; cbn; try congruence. intros _. split; [reflexivity|eauto]. Qed.
Lemma taken_sane d fs d' : taken d fs d' -> Forall (fun f => sane (Some f)) fs.
Proof. intros (us & _ & F). induction F as [|u f us fs H F IH]; constructor; [apply (frame_bytes_sane u f H)|exact IH]. Qed.

(** What one call does to what stream [i] is owed. *)
Lemma call_payloads a mid s' e i : outcome_of_call a mid s' e -> sane mid ->
  payloads_for i (opt_list mid) = read_from_stream i [e] ++ payloads_for i (opt_list (sh_incoming s')) /\ sane (sh_incoming s').
Proof.
  destruct e as [k| |k room b|k| |x| | |]; cbn [outcome_of_call read_from_stream flat_map app]; intros H S;
    try (rewrite H; split; [reflexivity|exact S]); try (destruct H; fail).
  - destruct H as (_ & -> & f & -> & O & _). split; [|exact I]. unfold payloads_for, payload_for. cbn [opt_list flat_map]. rewrite O, app_nil_r.
    destruct (sid_eqb (f_id f) i); reflexivity.
  - destruct H as (_ & -> & -> & _). split; [reflexivity|exact I].
  - rewrite app_nil_r. destruct H as (_ & [(-> & -> & -> & _)|(f & -> & Ef & [(O & -> & ->)|(O & rest & E & L & ->)])]).
    + split; [destruct (sid_eqb k i); reflexivity|exact I].
    + split; [|exact I]. unfold payloads_for, payload_for. cbn [opt_list flat_map]. rewrite O, app_nil_r.
      destruct (sid_eqb (f_id f) i), (sid_eqb k i); reflexivity.
    + unfold payloads_for, payload_for. cbn [opt_list flat_map]. rewrite Ef, app_nil_r.
      assert (X : f_op f = New -> b = [] /\ rest = []) by (intros Y; destruct (S Y) as [S1 _]; rewrite S1 in E; symmetry in E; apply app_eq_nil in E; tauto).
      split.
      * destruct (sid_eqb k i) eqn:Es; [|destruct rest; [reflexivity|cbn [opt_list flat_map f_id f_op f_data]; rewrite Es; reflexivity]].
        destruct (f_op f) eqn:Eo; [destruct (X eq_refl) as [-> ->]; reflexivity| |congruence|];
          (rewrite E; destruct rest; [cbn; reflexivity|cbn [opt_list flat_map f_id f_op f_data]; rewrite Es, app_nil_r; reflexivity]).
      * destruct rest; [exact I|]. cbn [sane f_op f_data]. intros Y. destruct (X Y). congruence.
Qed.
Lemma call_opened a mid s' e : outcome_of_call a mid s' e ->
  opened_by (opt_list mid) = accepted [e] ++ opened_by (opt_list (sh_incoming s')) \/
  (exists i t room, a = Read i t room /\ accepted [e] = [] /\ sh_incoming s' = None /\ exists f, mid = Some f /\ f_op f = New /\ f_id f = i).
Proof.
  destruct e as [k| |k room b|k| |x| | |]; cbn [outcome_of_call accepted flat_map app]; intros H;
    try (left; rewrite H; reflexivity); try (destruct H; fail).
  - left. destruct H as (_ & -> & f & -> & O & <-). unfold opened_by. cbn [opt_list flat_map]. rewrite O. reflexivity.
  - left. destruct H as (_ & -> & -> & _). reflexivity.
  - destruct H as ((t & ->) & [(-> & -> & -> & _)|(f & -> & Ef & [(O & -> & ->)|(O & rest & E & L & H)])]).
    + left. reflexivity.
    + left. unfold opened_by. cbn [opt_list flat_map]. rewrite O. reflexivity.
    + destruct (f_op f) eqn:Eo; try congruence.
      2, 3: left; rewrite H; unfold opened_by; cbn [opt_list flat_map]; rewrite Eo; destruct rest; reflexivity.
      destruct rest as [|x rest].
      * right. exists k, t, room. split; [reflexivity|]. split; [reflexivity|]. split; [exact H|]. exists f. auto.
      * left. rewrite H. unfold opened_by. cbn [opt_list flat_map f_op f_id]. rewrite Eo. reflexivity.
Qed.

(** *** After the end *)
Lemma fill_at_end fuel : forall s t answers r s' answers', at_end s -> fill_loop fuel s t answers = (r, s', answers') ->
  at_end s' /\ answers' = answers.
Proof.
  destruct fuel as [|fuel]; intros s t answers r s' answers' A; cbn [fill_loop].
  - intros H. injection H as <- <- <-. auto.
  - destruct (sh_closed s); [intros H; injection H as <- <- <-; auto|].
    destruct (match sh_incoming s with Some f => op_eqb (f_op f) New || have_reader s (f_id f) | None => false end);
      [intros H; injection H as <- <- <-; auto|].
    destruct A as [A1 A2]. cbn [with_incoming sh_frames].
    assert (E : poll_read_frame (sh_frames s) answers = (Done (Ok None), sh_frames s, answers)).
    { destruct answers; cbn [poll_read_frame]; rewrite A2; cbn; rewrite A1; reflexivity. }
    rewrite E. intros H. injection H as <- <- <-. split; [split; assumption|reflexivity].
Qed.
Lemma perform_at_end s answers a e s' answers' : at_end s -> perform s answers a = (e, s', answers') ->
  at_end s' /\ answers' = answers.
Proof.
  intros A. destruct a as [t|i t room|name|i|i|out]; cbn [perform].
  - unfold poll_accept_id, poll_fill_incoming. destruct (fill_loop _ s t answers) as [[r s1] a1] eqn:Ef.
    apply fill_at_end in Ef as [A1 ->]; auto.
    destruct r as [[|[u|x|]]|]; [| destruct (sh_incoming s1) as [f|]; [destruct (op_eqb (f_op f) New)|] | | |];
      intros H; injection H as <- <- <-; (split; [exact A1|reflexivity]).
  - unfold poll_read, poll_fill_incoming. destruct (fill_loop _ s t answers) as [[r s1] a1] eqn:Ef.
    apply fill_at_end in Ef as [A1 ->]; auto.
    destruct r as [[|[u|x|]]|]; [| destruct (sh_incoming s1) as [f|]; [destruct (sid_eqb (f_id f) i); [destruct (op_eqb (f_op f) Close)|]|] | | |];
      intros H; injection H as <- <- <-; (split; [|reflexivity]); try exact A1.
    destruct (skipn _ _); exact A1.
  - unfold shared_append_new. destruct (two64 <=? sh_next s + 1); intros H; injection H as <- <- <-; (split; [exact A|reflexivity]).
  - intros H; injection H as <- <- <-; (split; [exact A|reflexivity]).
  - intros H; injection H as <- <- <-; (split; [exact A|reflexivity]).
  - intros H; injection H as <- <- <-; (split; [exact A|reflexivity]).
Qed.
Lemma run_at_end acts : forall s answers es s' answers', at_end s -> run s answers acts = (es, s', answers') ->
  at_end s' /\ answers' = answers.
Proof.
  induction acts as [|a acts IH]; intros s answers es s' answers' A; cbn [run].
  - intros H. injection H as <- <- <-. auto.
  - destruct (perform s answers a) as [[e s1] a1] eqn:Ep. destruct (run s1 a1 acts) as [[es1 s2] a2] eqn:Er.
    intros H. injection H as <- <- <-. apply perform_at_end in Ep as [A1 ->]; auto. eapply IH; eauto.
Qed.
Lemma frame_bytes_nonempty u f : frame_bytes u f -> (0 < length u)%nat.
Proof.
  intros (h & p & hv & fl & -> & (h1 & l1 & -> & V & _) & _). destruct V as (W & _).
  destruct h1 as [|b h1]; [destruct W as (x & y & E & _); destruct x; discriminate|]. cbn [app length]. lia.
Qed.
Lemma taken_none d fs : taken d fs d -> fs = [].
Proof.
  intros (us & E & F). destruct F as [|u f us fs H F]; [reflexivity|]. exfalso.
  apply frame_bytes_nonempty in H. apply (f_equal (@length N)) in E. cbn [concat] in E. rewrite !app_length in E. lia.
Qed.

Lemma seen_cons i e es : seen_by i (e :: es) = seen_by i [e] ++ seen_by i es.
Proof. unfold seen_by. cbn [flat_map]. rewrite app_nil_r. reflexivity. Qed.
Lemma shown_app i a b : shown_by i (a ++ b) = shown_by i a ++ shown_by i b.
Proof. apply flat_map_app. Qed.
Lemma shown_nobody s i l : have_reader s i = true -> Forall (of_nobody s) l -> shown_by i l = [].
Proof.
  intros Hr F. induction F as [|f l [F1 F2] F IH]; [reflexivity|]. unfold shown_by in *. cbn [flat_map]. rewrite IH, app_nil_r.
  destruct (sid_eqb (f_id f) i) eqn:E; [|reflexivity]. apply sid_eqb_eq in E. congruence.
Qed.
Lemma call_shown a mid s' e i : outcome_of_call a mid s' e -> (forall t room, a = Read i t room -> (0 < room)%nat) ->
  ~ In i (opened_by (opt_list mid)) ->
  seen_by i [e] ++ shown_by i (opt_list (sh_incoming s')) = shown_by i (opt_list mid) \/
  (seen_by i [e] = [None] /\ mid = None /\ sh_incoming s' = None /\ at_end s').
Proof.
  intros H R No. destruct e as [k| |k room b|k| |x| | |]; cbn [outcome_of_call seen_by flat_map app] in *;
    try (rewrite H; left; reflexivity); try (destruct H; fail).
  - left. destruct H as (_ & -> & f & -> & O & <-). unfold shown_by. cbn [opt_list flat_map].
    destruct (sid_eqb (f_id f) i) eqn:E; [|reflexivity]. exfalso. apply No. apply sid_eqb_eq in E.
    unfold opened_by. cbn [opt_list flat_map]. rewrite O. left. exact E.
  - left. destruct H as (_ & -> & -> & _). reflexivity.
  - rewrite app_nil_r. destruct H as ((t & ->) & H). destruct (sid_eqb k i) eqn:Es.
    + apply sid_eqb_eq in Es. subst k. specialize (R t room eq_refl).
      destruct H as [(-> & -> & -> & A)|(f & -> & Ef & [(O & -> & ->)|(O & rest & E & L & ->)])].
      * right. auto.
      * left. unfold shown_by. cbn [opt_list flat_map]. rewrite Ef, sid_eqb_refl, O. reflexivity.
      * left. unfold shown_by. cbn [opt_list flat_map]. rewrite Ef, sid_eqb_refl.
        assert (X : match f_op f, f_data f with Close, _ | _, [] => [None] | _, (_ :: _) as d => map Some d end =
                    match f_data f with [] => [None] | d => map Some d end) by (destruct (f_op f), (f_data f); congruence).
        rewrite X, app_nil_r. rewrite E in *. destruct b as [|b0 b].
        -- cbn [app length] in *. destruct rest as [|r0 rest]; [reflexivity|]. cbn [length] in L. lia.
        -- cbn [app]. destruct rest as [|r0 rest]; [rewrite !app_nil_r; reflexivity|].
           cbn [opt_list flat_map f_id f_op f_data]. rewrite sid_eqb_refl, app_nil_r. rewrite app_comm_cons, map_app.
           destruct (f_op f); congruence.
    + left. cbn [app]. destruct H as [(-> & -> & -> & A)|(f & -> & Ef & [(O & -> & ->)|(O & rest & E & L & ->)])].
      * reflexivity.
      * unfold shown_by. cbn [opt_list flat_map]. rewrite Ef, Es. reflexivity.
      * unfold shown_by. cbn [opt_list flat_map]. rewrite Ef, Es. destruct rest; [reflexivity|].
        cbn [opt_list flat_map f_id]. rewrite Es. reflexivity.
Qed.
Lemma opened_initiators l i : Forall (fun f => sane (Some f)) l -> In i (opened_by l) -> exists n, i = Initiator n.
Proof.
  intros F. induction F as [|f l S F IH]; [intros []|]. unfold opened_by in *. cbn [flat_map]. intros H. apply in_app_or in H as [H|H]; [|auto].
  destruct (f_op f) eqn:O; [|destruct H|destruct H|destruct H]. destruct H as [<-|[]]. apply S. exact O.
Qed.

(** *** Whole executions *)
Lemma run_taken acts : forall s answers es s' answers',
  bytes_ok (unread s answers) -> fits (unread s answers) -> sane (sh_incoming s) ->
  run s answers acts = (es, s', answers') ->
  exists fs, taken (unread s answers) fs (unread s' answers') /\ sane (sh_incoming s') /\ ~ In EvStuck es /\
    (forall i, part_of (read_from_stream i es ++ payloads_for i (opt_list (sh_incoming s'))) (payloads_for i (opt_list (sh_incoming s) ++ fs))) /\
    part_of (accepted es ++ opened_by (opt_list (sh_incoming s'))) (opened_by (opt_list (sh_incoming s) ++ fs)) /\
    (forall i, have_reader s i = true -> ~ In (DropReader i) acts ->
       have_reader s' i = true /\
       payloads_for i (opt_list (sh_incoming s) ++ fs) = read_from_stream i es ++ payloads_for i (opt_list (sh_incoming s'))) /\
    (forall i, have_reader s i = true -> ~ In (DropReader i) acts -> (forall t room, In (Read i t room) acts -> (0 < room)%nat) ->
       ~ In i (opened_by (opt_list (sh_incoming s) ++ fs)) ->
       exists n, seen_by i es ++ shown_by i (opt_list (sh_incoming s')) = shown_by i (opt_list (sh_incoming s) ++ fs) ++ repeat None n /\
         ((0 < n)%nat -> at_end s')) /\
    (forall O, reads_opened O acts es -> NoDup (opened_by (opt_list (sh_incoming s) ++ fs)) ->
       (forall i, In i O -> ~ In i (opened_by (opt_list (sh_incoming s) ++ fs))) ->
       accepted es ++ opened_by (opt_list (sh_incoming s')) = opened_by (opt_list (sh_incoming s) ++ fs)).
Proof.
  induction acts as [|a acts IH]; intros s answers es s' answers' B Fi S; cbn [run].
  - intros H. injection H as <- <- <-. exists []. split; [apply taken_nil|]. split; [exact S|]. split; [intros []|].
    rewrite app_nil_r. split; [intros i; apply part_refl|]. split; [apply part_refl|].
    split; [intros i Hi _; split; [exact Hi|reflexivity]|].
    split; [intros i _ _ _ _; exists 0%nat; split; [cbn; rewrite app_nil_r; reflexivity|lia]|].
    intros O _ _ _. reflexivity.
  - destruct (perform s answers a) as [[e s1] a1] eqn:Ep. destruct (run s1 a1 acts) as [[es1 s2] a2] eqn:Er.
    intros H. injection H as <- <- <-.
    destruct (perform_spec _ _ _ _ _ _ B Fi Ep) as (fs1 & drops & mid & T & Q & D & HK & OC).
    assert (Sm : sane mid).
    { destruct mid as [f|]; [|exact I]. cbn [opt_list] in Q.
      assert (X : In f (opt_list (sh_incoming s) ++ fs1)) by (rewrite Q; apply in_or_app; right; left; reflexivity).
      apply in_app_or in X as [X|X]; [|exact (proj1 (Forall_forall _ _) (taken_sane _ _ _ T) f X)].
      destruct (sh_incoming s) as [g|]; [|destruct X]. destruct X as [->|[]]. exact S. }
    assert (S1 := proj2 (call_payloads _ _ _ _ (Receiver 0) OC Sm)).
    destruct (IH s1 a1 es1 s2 a2 (taken_ok _ _ _ T B) (taken_fits _ _ _ T Fi) S1 Er) as (fs2 & T2 & S2 & St & P2 & A2 & K2 & N2 & O2).
    exists (fs1 ++ fs2). split; [eapply taken_trans; eassumption|]. split; [exact S2|].
    split; [intros [->|X]; [exact OC|exact (St X)]|].
    assert (RS : forall i, read_from_stream i (e :: es1) = read_from_stream i [e] ++ read_from_stream i es1) by (intros i; unfold read_from_stream; cbn [flat_map]; rewrite app_nil_r; reflexivity).
    assert (RA : accepted (e :: es1) = accepted [e] ++ accepted es1) by (unfold accepted; cbn [flat_map]; rewrite app_nil_r; reflexivity).
    assert (SQ : Forall (fun f => sane (Some f)) (drops ++ opt_list mid ++ fs2)).
    { rewrite app_assoc, <- Q. apply Forall_app; split; [|exact (taken_sane _ _ _ T2)]. apply Forall_app; split; [|exact (taken_sane _ _ _ T)].
      destruct (sh_incoming s) as [f|]; constructor; [exact S|constructor]. }
    assert (KR : forall i, have_reader s i = true -> a <> DropReader i -> have_reader s1 i = true).
    { intros i Hi Nd. rewrite HK. destruct a; cbn [keeps]; try (destruct e; rewrite ?Hi, ?orb_true_r; reflexivity).
      rewrite Hi, andb_true_r. destruct (sid_eqb i0 i) eqn:E; [|reflexivity]. apply sid_eqb_eq in E. subst. exfalso. apply Nd. reflexivity. }
    split; [|split; [|split; [|split]]].
    + intros i. rewrite app_assoc, Q, !payloads_app, RS, <- !app_assoc.
      rewrite (proj1 (call_payloads _ _ _ _ i OC Sm)), <- app_assoc.
      apply (part_app []); [apply part_empty|]. apply part_app; [apply part_refl|]. rewrite <- payloads_app. apply P2.
    + rewrite app_assoc, Q, !opened_app, RA, <- !app_assoc.
      apply (part_app []); [apply part_empty|].
      destruct (call_opened _ _ _ _ OC) as [-> |(i & t & room & _ & -> & E & _)].
      * rewrite <- app_assoc. apply part_app; [apply part_refl|]. rewrite <- opened_app. apply A2.
      * cbn [app]. apply (part_app []); [apply part_empty|]. rewrite E in A2. exact A2.
    + intros i Hi Nd.
      assert (H1 : have_reader s1 i = true) by (apply KR; [exact Hi|intros ->; apply Nd; left; reflexivity]).
      destruct (K2 i H1 (fun X => Nd (or_intror X))) as [H2 E2]. split; [exact H2|].
      rewrite app_assoc, Q, !payloads_app, RS, <- app_assoc.
      rewrite (payloads_nobody s i drops Hi D). cbn [app].
      rewrite (proj1 (call_payloads _ _ _ _ i OC Sm)), <- !app_assoc. f_equal. rewrite <- payloads_app. exact E2.
    + intros i Hi Nd Rm Nn.
      assert (H1 : have_reader s1 i = true) by (apply KR; [exact Hi|intros ->; apply Nd; left; reflexivity]).
      rewrite app_assoc, Q, <- app_assoc, !opened_app in Nn.
      assert (Nm : ~ In i (opened_by (opt_list mid))) by (intros X; apply Nn; apply in_or_app; right; apply in_or_app; left; exact X).
      destruct (N2 i H1 (fun X => Nd (or_intror X)) (fun t room X => Rm t room (or_intror X))) as (n & E2 & En).
      { intros X. apply Nn. apply in_or_app. right. rewrite opened_app in X. apply in_or_app. apply in_app_or in X as [X|X]; [|right; exact X].
        left. destruct (call_opened _ _ _ _ OC) as [-> |(? & ? & ? & _ & _ & E & _)]; [apply in_or_app; right; exact X|rewrite E in X; destruct X]. }
      rewrite app_assoc, Q, !shown_app, seen_cons, <- app_assoc, E2, (shown_nobody s i drops Hi D), shown_app. cbn [app].
      destruct (call_shown a mid s1 e i OC) as [E1|(E1 & M & I1 & AE)].
      * intros t room ->. apply (Rm t room). left. reflexivity.
      * exact Nm.
      * exists n. split; [rewrite <- E1, !app_assoc; reflexivity|exact En].
      * destruct (run_at_end _ _ _ _ _ _ AE Er) as [AE2 EA]. subst mid.
        assert (F2 : fs2 = []).
        { apply (taken_none (unread s1 a1)). assert (U : unread s2 a2 = unread s1 a1) by (unfold unread; rewrite (proj2 AE2), (proj2 AE), EA; reflexivity).
          rewrite U in T2. exact T2. }
        rewrite F2, I1, E1. exists (Datatypes.S n). split; [reflexivity|intros _; exact AE2].
    + intros O RO ND DJ. cbn [reads_opened] in RO. destruct RO as [Ra RO].
      rewrite app_assoc, Q, <- app_assoc in ND, DJ |- *. rewrite !opened_app in *. rewrite (opened_nobody s drops D) in *. cbn [app] in *.
      assert (Bad : opened_by (opt_list mid) = accepted [e] ++ opened_by (opt_list (sh_incoming s1))).
      { destruct (call_opened _ _ _ _ OC) as [E|(i & t & room & -> & _ & _ & f & -> & Of & Ei)]; [exact E|].
        exfalso. apply (DJ i Ra). apply in_or_app. left. unfold opened_by. cbn [opt_list flat_map]. rewrite Of. left. exact Ei. }
      rewrite RA, Bad, <- !app_assoc in *. f_equal.
      rewrite (O2 _ RO); [reflexivity| |].
      * clear - ND. revert ND. induction (accepted [e]) as [|x l IH]; [auto|]. intros ND. inversion ND. auto.
      * intros i Hi X.
        assert (Y : In i O -> False) by (intros Z; apply (DJ i Z); apply in_or_app; right; exact X).
        assert (Z : exists n, i = Initiator n).
        { apply (opened_initiators (drops ++ opt_list mid ++ fs2) i SQ). rewrite !opened_app, (opened_nobody s drops D), Bad. cbn [app].
          rewrite <- app_assoc. apply in_or_app. right. exact X. }
        destruct e as [k| |k room b|k| |x| | |]; try (exact (Y Hi)).
        -- destruct Hi as [->|Hi]; [|exact (Y Hi)]. cbn [accepted flat_map app] in ND. inversion ND as [|? ? N1 N2']; subst. exact (N1 X).
        -- destruct Hi as [->|Hi]; [|exact (Y Hi)]. clear - Z Ep. destruct Z as [n ->].
           destruct a; cbn [perform] in Ep.
           1: { destruct (poll_accept_id s t answers) as [[[[|[[?|]|?|]]|] ?] ?]; congruence. }
           1: { destruct (poll_read s i t room answers) as [[[[|[?|?|]]|] ?] ?]; congruence. }
           2, 3, 4: congruence.
           unfold shared_append_new in Ep. destruct (two64 <=? sh_next s + 1); congruence.
Qed.
