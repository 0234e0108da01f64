(** Lemmas about MplexLifeModel.v. *)
From Verif Require Import Base MplexModel MplexStreamSpec MplexStreamProofs MplexLifeModel.

Lemma holds_in i l : holds i l = true <-> In i l.
Proof.
  unfold holds. rewrite existsb_exists. split.
  - intros (x & H & E). apply sid_eqb_eq in E. subst. exact H.
  - intros H. exists i. split; [exact H|apply sid_eqb_refl].
Qed.
Lemma sid_dec (a b : stream_id) : {a = b} + {a <> b}.
Proof. destruct (sid_eqb a b) eqn:E; [left; apply sid_eqb_eq, E|right; intros H; apply sid_eqb_eq in H; congruence]. Qed.
Lemma without_in i k l : In k (without i l) -> In k l.
Proof. induction l as [|x l IH]; cbn [without]; [intros []|]. destruct (sid_eqb i x); [right; assumption|]. intros [->|H]; [left; reflexivity|right; apply IH, H]. Qed.
Lemma in_without i k l : In k l -> k <> i -> In k (without i l).
Proof.
  induction l as [|x l IH]; cbn [without]; [intros []|]. intros [->|H] D.
  - destruct (sid_eqb i k) eqn:E; [apply sid_eqb_eq in E; congruence|left; reflexivity].
  - destruct (sid_eqb i x); [exact H|right; apply IH; assumption].
Qed.
Lemma without_gone i l : NoDup l -> ~ In i (without i l).
Proof.
  induction 1 as [|x l H N IH]; cbn [without]; [intros []|]. destruct (sid_eqb i x) eqn:E; [apply sid_eqb_eq in E; congruence|].
  intros [->|X]; [rewrite sid_eqb_refl in E; discriminate|contradiction].
Qed.
Lemma without_nodup i l : NoDup l -> NoDup (without i l).
Proof.
  induction 1 as [|x l H N IH]; cbn [without]; [constructor|]. destruct (sid_eqb i x); [exact N|]. constructor; [|exact IH]. intros X. apply H. exact (without_in _ _ _ X).
Qed.

(** What the calls leave alone: the tables, the stream number, the bytes to send. *)
Definition same_tables (s s' : shared) : Prop :=
  (forall k, have_reader s' k = have_reader s k) /\ sh_writers s' = sh_writers s /\ sh_next s' = sh_next s /\
  fs_out (sh_frames s') = fs_out (sh_frames s) /\ sh_closed s' = sh_closed s.
Lemma same_refl s : same_tables s s.
Proof. repeat split. Qed.
Lemma same_trans a b c : same_tables a b -> same_tables b c -> same_tables a c.
Proof. intros (A1 & A2 & A3 & A4 & A5) (B1 & B2 & B3 & B4 & B5). repeat split; intros; congruence. Qed.
Lemma same_all s : same_tables s (wake_all_readers s).
Proof. repeat split. intros k. apply have_wake_all. Qed.
Lemma same_reader s i : same_tables s (wake_reader s i).
Proof. split; [intros; apply have_wake_reader|]. unfold wake_reader. destruct (reader_get _ _); repeat split. Qed.
Lemma same_incoming s f : same_tables s (with_incoming s f).
Proof. repeat split. Qed.
Lemma same_want s : same_tables s (want_another_frame s).
Proof. repeat split. intros k. apply have_want. Qed.
Lemma frame_out answers : forall fs r fs' a', poll_read_frame fs answers = (r, fs', a') -> fs_out fs' = fs_out fs.
Proof.
  induction answers as [|x answers IH]; intros fs r fs' a'; cbn [poll_read_frame]; destruct (buffered_frame (fs_in fs)) as [[[f rest]|]|e|]; try (intros [=<- <- <-]; reflexivity).
  - destruct (fs_eof fs); [destruct (fs_in fs)|]; intros [=<- <- <-]; reflexivity.
  - destruct (fs_eof fs); [destruct (fs_in fs); intros [=<- <- <-]; reflexivity|]. destruct x as [|[|b d]|e]; try (intros [=<- <- <-]; reflexivity); intros H; apply IH in H; exact H.
Qed.
Lemma fill_tables fuel : forall s t answers r s' a', fill_loop fuel s t answers = (r, s', a') -> same_tables s s'.
Proof.
  induction fuel as [|fuel IH]; intros s t answers r s' a'; cbn [fill_loop]; [intros [=<- <- <-]; apply same_refl|].
  destruct (sh_closed s); [intros [=<- <- <-]; apply same_refl|]. destruct (match sh_incoming s with Some f => _ | None => false end); [intros [=<- <- <-]; apply same_refl|].
  destruct (poll_read_frame (sh_frames (with_incoming s None)) answers) as [[x fs] a1] eqn:E. apply frame_out in E.
  assert (B : forall o, same_tables s (with_transport (with_frames (with_incoming s None) fs) o)) by (intros o; repeat split; exact E).
  destruct x as [|[[f|]|e|]]; try (intros [=<- <- <-]; apply B).
  - intros H. apply IH in H. refine (same_trans _ _ _ (B None) _). refine (same_trans _ _ _ _ H). refine (same_trans _ _ _ _ (same_incoming _ _)).
    destruct (f_op f); try apply same_reader. repeat split.
  - intros [=<- <- <-]. refine (same_trans _ _ _ (B None) _). refine (same_trans _ _ _ _ (same_all _)). repeat split.
Qed.
Lemma read_tables s i t room answers r s' a' : poll_read s i t room answers = (r, s', a') -> same_tables s s'.
Proof.
  unfold poll_read. destruct (poll_fill_incoming s t answers) as [[x s1] a1] eqn:E. apply fill_tables in E.
  assert (W : same_tables s (set_read_waker s1 i t)).
  { refine (same_trans _ _ _ E _). split; [intros k; apply have_set_read_waker|repeat split]. }
  destruct x as [[|[u|e|]]|]; try (intros [=<- <- <-]; first [exact E|exact W]). destruct (sh_incoming s1) as [f|]; [|intros [=<- <- <-]; exact E].
  destruct (sid_eqb (f_id f) i); [|intros [=<- <- <-]; exact W]. destruct (op_eqb (f_op f) Close); [intros [=<- <- <-]; exact (same_trans _ _ _ E (same_want _))|].
  intros [=<- <- <-]. refine (same_trans _ _ _ E _). destruct (skipn _ _); [|repeat split]. refine (same_trans _ _ _ _ (same_want _)). repeat split.
Qed.
Definition no_accept {A} (r : option (poll (outcome A (option stream_id)))) : Prop := forall i, r <> Some (Done (Ok (Some i))).
Lemma accept_tables s t answers r s' a' : poll_accept_id s t answers = (r, s', a') ->
  (no_accept r /\ same_tables s s') \/ (exists i s0, r = Some (Done (Ok (Some i))) /\ same_tables s s0 /\ same_tables (add_stream s0 i) s').
Proof.
  unfold poll_accept_id. destruct (poll_fill_incoming s t answers) as [[x s1] a1] eqn:E. apply fill_tables in E.
  assert (W : same_tables s (set_accept_waker s1 t)) by (refine (same_trans _ _ _ E _); repeat split).
  destruct x as [[|[u|e|]]|]; try (intros [=<- <- <-]; left; split; [intros k; discriminate|first [exact E|exact W]]).
  destruct (sh_incoming s1) as [f|]; [|intros [=<- <- <-]; left; split; [intros k; discriminate|exact E]].
  destruct (op_eqb (f_op f) New); [|intros [=<- <- <-]; left; split; [intros k; discriminate|exact W]].
  intros [=<- <- <-]. right. exists (f_id f), s1. split; [reflexivity|]. split; [exact E|apply same_want].
Qed.

(** *** The effect of a call on the tables *)
Lemma drain_no_panic out : forall w r out' w' sent, poll_drain out w = (r, out', w', sent) -> r <> Done Panic.
Proof.
  intros w. revert out. induction w as [|[|n|e] w IH]; intros out r out' w' sent; destruct out as [|b out]; cbn [poll_drain]; try (intros [=<- <- <- <-]; discriminate).
  destruct (poll_drain (skipn n (b :: out)) w) as [[[r1 o1] w1] s1] eqn:E. intros [=<- <- <- <-]. exact (IH _ _ _ _ _ E).
Qed.
Lemma drain_tables s w r s' w' sent : shared_drain s w = (r, s', w', sent) -> r <> Done Panic /\ (forall k, have_reader s' k = have_reader s k) /\ sh_writers s' = sh_writers s /\ sh_next s' = sh_next s /\ sh_closed s' = sh_closed s /\ sh_incoming s' = sh_incoming s.
Proof.
  unfold shared_drain. destruct (poll_drain (fs_out (sh_frames s)) w) as [[[x o] w1] s1] eqn:E. intros [=<- <- <- <-]. split; [exact (drain_no_panic _ _ _ _ _ _ E)|]. repeat split.
Qed.
Definition kept (s s' : shared) : Prop := (forall k, have_reader s' k = have_reader s k) /\ sh_writers s' = sh_writers s /\ sh_next s' = sh_next s /\ sh_closed s' = sh_closed s.
Lemma tables_kept s s' : same_tables s s' -> kept s s'.
Proof. intros (A & B & C & _ & D). repeat split; assumption. Qed.
Definition added (i : stream_id) (l : list stream_id) : list stream_id := i :: filter (fun k => negb (sid_eqb k i)) l.
Lemma in_added i k l : In k (added i l) <-> k = i \/ In k l.
Proof.
  unfold added. cbn [In]. rewrite filter_In. split.
  - intros [H|[H _]]; [left; congruence|right; exact H].
  - intros [->|H]; [left; reflexivity|]. destruct (sid_eqb k i) eqn:E; [left; apply sid_eqb_eq in E; congruence|right; split; [exact H|reflexivity]].
Qed.
(** The world after opening [i], but for the handle. *)
Definition opens_stream (s s' : shared) (i : stream_id) : Prop :=
  (forall k, have_reader s' k = sid_eqb i k || have_reader s k) /\ sh_writers s' = added i (sh_writers s) /\ sh_closed s' = sh_closed s.
Lemma connect_fresh w name wa e w' : do_connect w None name wa = (e, w') ->
  (two64 <= sh_next (wo_shared w) + 1 /\ e = EvPanic /\ w' = w) \/
  (let i := Receiver (sh_next (wo_shared w)) in
   sh_next (wo_shared w) + 1 < two64 /\ opens_stream (wo_shared w) (wo_shared w') i /\ sh_next (wo_shared w') = sh_next (wo_shared w) + 1 /\ wo_answers w' = wo_answers w /\
   sh_incoming (wo_shared w') = sh_incoming (wo_shared w) /\
   ((e = EvWait /\ wo_connects w' = i :: wo_connects w /\ wo_readers w' = wo_readers w /\ wo_writers w' = wo_writers w) \/
    (e = EvConnected i /\ wo_connects w' = wo_connects w /\ wo_readers w' = i :: wo_readers w /\ wo_writers w' = i :: wo_writers w) \/
    ((exists x, e = EvError x) /\ wo_connects w' = wo_connects w /\ wo_readers w' = wo_readers w /\ wo_writers w' = wo_writers w))).
Proof.
  unfold do_connect, connect_poll, shared_append_new. destruct (two64 <=? sh_next (wo_shared w) + 1) eqn:B.
  { intros [=<- <-]. left. split; [apply N.leb_le, B|]. split; [reflexivity|]. destruct w; reflexivity. }
  apply N.leb_gt in B. match goal with |- context [shared_drain ?s wa] => destruct (shared_drain s wa) as [[[r s1] w1] sent] eqn:D end.
  apply drain_tables in D. destruct D as (P & H1 & H2 & H3 & H4 & H5). intros H. right. cbv zeta. split; [exact B|].
  assert (O : opens_stream (wo_shared w) s1 (Receiver (sh_next (wo_shared w))) /\ sh_next s1 = sh_next (wo_shared w) + 1 /\ sh_incoming s1 = sh_incoming (wo_shared w)).
  { repeat split; try assumption. intros k. rewrite H1. match goal with |- have_reader (with_frames ?s _) k = _ => change (have_reader s k = sid_eqb (Receiver (sh_next (wo_shared w))) k || have_reader (wo_shared w) k) end. rewrite have_add. reflexivity. }
  destruct O as (O1 & O2 & O3). destruct r as [|[u|x|]]; try (contradiction P; reflexivity); injection H as <- <-; (split; [exact O1|]); (split; [exact O2|]); (split; [reflexivity|]); (split; [exact O3|]).
  - left. repeat split.
  - right. left. repeat split.
  - right. right. split; [eexists; reflexivity|]. repeat split.
Qed.
Lemma connect_again w i wa e w' : do_connect w (Some i) None wa = (e, w') ->
  kept (wo_shared w) (wo_shared w') /\ wo_answers w' = wo_answers w /\ sh_incoming (wo_shared w') = sh_incoming (wo_shared w) /\
   ((e = EvWait /\ wo_connects w' = i :: wo_connects w /\ wo_readers w' = wo_readers w /\ wo_writers w' = wo_writers w) \/
    (e = EvConnected i /\ wo_connects w' = wo_connects w /\ wo_readers w' = i :: wo_readers w /\ wo_writers w' = i :: wo_writers w) \/
    ((exists x, e = EvError x) /\ wo_connects w' = wo_connects w /\ wo_readers w' = wo_readers w /\ wo_writers w' = wo_writers w)).
Proof.
  unfold do_connect, connect_poll. destruct (shared_drain (wo_shared w) wa) as [[[r s1] w1] sent] eqn:D.
  apply drain_tables in D. destruct D as (P & H1 & H2 & H3 & H4 & H5). intros H.
  assert (K : kept (wo_shared w) s1) by (repeat split; assumption).
  destruct r as [|[u|x|]]; try (contradiction P; reflexivity); injection H as <- <-; (split; [exact K|]); (split; [reflexivity|]); (split; [exact H5|]).
  - left. repeat split.
  - right. left. repeat split.
  - right. right. split; [eexists; reflexivity|]. repeat split.
Qed.
Lemma accept_call s answers t e s' a' : perform s answers (Accept t) = (e, s', a') ->
  ((forall i, e <> EvAccepted i) /\ kept s s') \/ (exists i, e = EvAccepted i /\ opens_stream s s' i /\ sh_next s' = sh_next s).
Proof.
  cbn [perform]. destruct (poll_accept_id s t answers) as [[r s1] a1] eqn:E. intros [=<- <- <-]. destruct (accept_tables _ _ _ _ _ _ E) as [[N T]|(i & s0 & -> & T1 & T2)].
  - left. split; [|exact (tables_kept _ _ T)]. intros i. destruct r as [[|[[k|]|x|]]|]; try discriminate. contradiction (N k eq_refl).
  - right. exists i. split; [reflexivity|]. apply tables_kept in T1, T2. destruct T1 as (A1 & A2 & A3 & A4), T2 as (B1 & B2 & B3 & B4). repeat split.
    + intros k. rewrite B1, have_add, A1. reflexivity.
    + rewrite B2. cbn. rewrite A2. reflexivity.
    + rewrite B4. exact A4.
    + rewrite B3. exact A3.
Qed.
Lemma read_call s answers i t room e s' a' : perform s answers (Read i t room) = (e, s', a') -> kept s s' /\ (forall k, e <> EvAccepted k) /\ (forall k, e <> EvConnected k).
Proof.
  cbn [perform]. destruct (poll_read s i t room answers) as [[r s1] a1] eqn:E. intros [=<- <- <-]. apply read_tables, tables_kept in E. split; [exact E|].
  destruct r as [[|[b|x|]]|]; split; intros k; discriminate.
Qed.

(** *** The frame in front *)
(** A frame that opens a stream has a number of the other side and nothing in it. *)
Definition new_ok (o : option frame) : Prop := forall f, o = Some f -> f_op f = New -> f_data f = [] /\ exists n, f_id f = Initiator n.
Lemma new_ok_none : new_ok None.
Proof. intros f [=]. Qed.
Lemma buffered_new d f rest : buffered_frame d = Ok (Some (f, rest)) -> new_ok (Some f).
Proof.
  unfold buffered_frame. destruct (extract_varint_u64 d 0) as [[[h o]|]|e|]; cbn [bind]; try discriminate. destruct (flag_from_raw (N.land h 7)) as [fl|e|]; cbn [bind]; try discriminate.
  destruct (extract_varint_u64 d o) as [[[p o2]|]|e|]; cbn [bind]; try discriminate. destruct (two64 <=? N.of_nat o2 + p); [discriminate|]. destruct (N.of_nat o2 + p <=? blen d); [|discriminate].
  intros [=<- <-] g [=<-]. destruct fl; cbn; try discriminate. intros _. split; [reflexivity|eexists; reflexivity].
Qed.
Lemma frame_new answers : forall fs f fs' a', poll_read_frame fs answers = (Done (Ok (Some f)), fs', a') -> new_ok (Some f).
Proof.
  induction answers as [|x answers IH]; intros fs f fs' a'; cbn [poll_read_frame]; destruct (buffered_frame (fs_in fs)) as [[[g rest]|]|e|] eqn:E; try discriminate.
  - intros [=<- <- <-]. exact (buffered_new _ _ _ E).
  - destruct (fs_eof fs); [destruct (fs_in fs)|]; discriminate.
  - intros [=<- <- <-]. exact (buffered_new _ _ _ E).
  - destruct (fs_eof fs); [destruct (fs_in fs); discriminate|]. destruct x as [|[|b d]|e]; try discriminate; apply IH.
Qed.
(** After filling, the frame in front is new or has a reader. *)
Definition in_front (s : shared) : Prop := forall f, sh_incoming s = Some f -> f_op f = New \/ have_reader s (f_id f) = true.
Lemma fill_front fuel : forall s t answers r s' a', fill_loop fuel s t answers = (r, s', a') -> new_ok (sh_incoming s) ->
  new_ok (sh_incoming s') /\ (forall u, r = Some (Done (Ok u)) -> in_front s').
Proof.
  induction fuel as [|fuel IH]; intros s t answers r s' a'; cbn [fill_loop]; [intros [=<- <- <-] N; split; [exact N|discriminate]|].
  destruct (sh_closed s); [intros [=<- <- <-] N; split; [exact N|discriminate]|].
  destruct (match sh_incoming s with Some f => _ | None => false end) eqn:K.
  { intros [=<- <- <-] N. split; [exact N|]. intros u _ f F. rewrite F in K. apply orb_prop in K. destruct K as [K|K]; [left; apply op_eqb_eq, K|right; exact K]. }
  destruct (poll_read_frame (sh_frames (with_incoming s None)) answers) as [[x fs] a1] eqn:E. intros H N.
  destruct x as [|[[f|]|e|]]; try (injection H as <- <- <-; split; [exact new_ok_none|discriminate]).
  - apply IH in H; [exact H|]. exact (frame_new _ _ _ _ _ E).
Qed.
Lemma read_front s i t room answers r s' a' : poll_read s i t room answers = (r, s', a') -> new_ok (sh_incoming s) ->
  new_ok (sh_incoming s') /\ (have_reader s i = false -> forall b, r = Some (Done (Ok b)) -> b = []).
Proof.
  unfold poll_read. destruct (poll_fill_incoming s t answers) as [[x s1] a1] eqn:E. intros H N.
  pose proof (fill_tables _ _ _ _ _ _ _ E) as T. apply fill_front in E; [|exact N]. destruct E as [E1 E2].
  destruct x as [[|[u|e|]]|]; try (injection H as <- <- <-; split; [exact E1|intros _ b; discriminate]).
  specialize (E2 _ eq_refl). destruct (sh_incoming s1) as [f|] eqn:F; [|injection H as <- <- <-; split; [rewrite F; exact E1|intros _ b [=<-]; reflexivity]].
  destruct (sid_eqb (f_id f) i) eqn:I; [|injection H as <- <- <-; split; [cbn; rewrite F; exact E1|intros _ b; discriminate]].
  destruct (op_eqb (f_op f) Close) eqn:C; injection H as <- <- <-; [split; [exact new_ok_none|intros _ b [=<-]; reflexivity]|].
  split.
  - destruct (skipn _ _) eqn:R; [exact new_ok_none|]. intros g [=<-] G. cbn in G |- *. destruct (E1 _ eq_refl G) as [D G2]. rewrite D, skipn_nil in R. discriminate R.
  - intros Hf b [=<-]. destruct (E2 f F) as [O|O].
    + destruct (E1 f eq_refl O) as [-> _]. apply firstn_nil.
    + apply sid_eqb_eq in I. destruct T as (T & _). rewrite T, I in O. congruence.
Qed.
Lemma accept_front s t answers r s' a' : poll_accept_id s t answers = (r, s', a') -> new_ok (sh_incoming s) ->
  new_ok (sh_incoming s') /\ (forall i, r = Some (Done (Ok (Some i))) -> exists n, i = Initiator n).
Proof.
  unfold poll_accept_id. destruct (poll_fill_incoming s t answers) as [[x s1] a1] eqn:E. intros H N. apply fill_front in E; [|exact N]. destruct E as [E1 E2].
  destruct x as [[|[u|e|]]|]; try (injection H as <- <- <-; split; [exact E1|intros i; discriminate]).
  destruct (sh_incoming s1) as [f|] eqn:F; [|injection H as <- <- <-; split; [rewrite F; exact E1|intros i; discriminate]].
  destruct (op_eqb (f_op f) New) eqn:O; injection H as <- <- <-; [|split; [cbn; rewrite F; exact E1|intros i; discriminate]].
  split; [exact new_ok_none|]. intros i [=<-]. apply op_eqb_eq in O. exact (proj2 (E1 f eq_refl O)).
Qed.
(** While the frame in front is wanted by someone, it stays, and filling does nothing. *)
Definition wanted (s : shared) (f : frame) : Prop := sh_closed s = false /\ sh_incoming s = Some f /\ (f_op f = New \/ have_reader s (f_id f) = true).
Lemma fill_wanted fuel s t answers f : wanted s f -> fill_loop (S fuel) s t answers = (Some (Done (Ok tt)), s, answers).
Proof.
  intros (C & I & W). cbn [fill_loop]. rewrite C, I. destruct W as [W|W].
  - rewrite W. reflexivity.
  - rewrite W, orb_true_r. reflexivity.
Qed.
Lemma read_wanted s i t room answers f : wanted s f -> f_id f <> i -> poll_read s i t room answers = (Some Wait, set_read_waker s i t, answers).
Proof.
  intros W D. unfold poll_read, poll_fill_incoming. rewrite (fill_wanted _ _ _ _ _ W). destruct W as (_ & -> & _). destruct (sid_eqb (f_id f) i) eqn:E; [apply sid_eqb_eq in E; contradiction|reflexivity].
Qed.
Lemma accept_wanted s t answers f : wanted s f -> f_op f <> New -> poll_accept_id s t answers = (Some Wait, set_accept_waker s t, answers).
Proof.
  intros W D. unfold poll_accept_id, poll_fill_incoming. rewrite (fill_wanted _ _ _ _ _ W). destruct W as (_ & -> & _). destruct (op_eqb (f_op f) New) eqn:E; [apply op_eqb_eq in E; contradiction|reflexivity].
Qed.
