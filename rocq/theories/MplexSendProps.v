(** The sending side of mplex: C76. *)
From Verif Require Import Base BaseProofs VarintModel MplexModel MplexProofs MplexProps.

(** ** Specification *)
(** The application's calls: the first and later polls of a connect future, and the calls on
    the writer of a stream. *)
Inductive send_call :=
| CallConnect (name : option bytes) | CallConnectAgain (i : stream_id)
| CallWrite (i : stream_id) (buf : bytes) | CallFlush (i : stream_id) | CallShutdown (i : stream_id).
(** What comes back, and the frame the call has put in the queue. *)
Record send_result := { sr_result : poll (outcome ioerr unit); sr_queued : option sending }.
Definition forget {A} (r : poll (outcome ioerr A)) : poll (outcome ioerr unit) :=
  match r with Wait => Wait | Done (Ok _) => Done (Ok tt) | Done (Err e) => Done (Err e) | Done Panic => Done Panic end.
Definition succeeded {A} (r : poll (outcome ioerr A)) : bool := match r with Done (Ok _) => true | _ => false end.
(** The name the other end gives to a stream. *)
Definition other_end (i : stream_id) : stream_id := match i with Receiver n => Initiator n | Initiator n => Receiver n end.
(** [errs] is the error remembered by each writer. *)
Definition remember (errs : stream_id -> option ioerr) (i : stream_id) (e : option ioerr) : stream_id -> option ioerr :=
  fun k => if sid_eqb k i then e else errs k.
Definition send_step (s : shared) (errs : stream_id -> option ioerr) (w : list wanswer) (c : send_call)
  : send_result * shared * (stream_id -> option ioerr) * list wanswer * bytes :=
  match c with
  | CallConnect name =>
    let '(r, known, s', w', sent) := connect_poll s None name w in
    ({| sr_result := forget r; sr_queued := match known with Some (Receiver n) => Some (SendNew n name) | _ => None end |}, s', errs, w', sent)
  | CallConnectAgain i =>
    let '(r, _, s', w', sent) := connect_poll s (Some i) None w in ({| sr_result := forget r; sr_queued := None |}, s', errs, w', sent)
  | CallWrite i buf =>
    let '(r, e, s', w', sent) := writer_write s i (errs i) buf w in
    ({| sr_result := forget r; sr_queued := if succeeded r then Some (SendMessage (other_end i) buf) else None |}, s', remember errs i e, w', sent)
  | CallFlush i =>
    let '(r, e, s', w', sent) := writer_flush s (errs i) w in
    ({| sr_result := forget r; sr_queued := None |}, s', remember errs i e, w', sent)
  | CallShutdown i =>
    let '(r, e, s', w', sent) := writer_shutdown s i (errs i) w in
    ({| sr_result := forget r; sr_queued := if succeeded r then Some (SendClose (other_end i)) else None |}, s', remember errs i e, w', sent)
  end.
Fixpoint send_run (s : shared) (errs : stream_id -> option ioerr) (w : list wanswer) (cs : list send_call)
  : list send_result * shared * bytes :=
  match cs with
  | [] => ([], s, [])
  | c :: cs =>
    let '(r, s, errs, w, sent) := send_step s errs w c in
    let '(rs, s, more) := send_run s errs w cs in
    (r :: rs, s, sent ++ more)
  end.
Definition queued (rs : list send_result) : list sending := flat_map (fun r => opt_list (sr_queued r)) rs.

(** ** Lemmas *)
Lemma poll_drain_spec w : forall out r out' w' sent, poll_drain out w = (r, out', w', sent) ->
  out = sent ++ out' /\ (succeeded r = true -> out' = []).
Proof.
  induction w as [|a w IH]; intros out r out' w' sent; destruct out as [|b out]; cbn [poll_drain].
  - intros H. injection H as <- <- <- <-. split; [reflexivity|discriminate].
  - intros H. injection H as <- <- <- <-. split; [reflexivity|discriminate].
  - destruct a; intros H; injection H as <- <- <- <-; (split; [reflexivity|]); intros X; reflexivity.
  - destruct a as [|n|e].
    + intros H. injection H as <- <- <- <-. split; [reflexivity|discriminate].
    + destruct (poll_drain (skipn n (b :: out)) w) as [[[r1 o1] w1] s1] eqn:E. apply IH in E as [E1 E2].
      intros H. assert (r = r1 /\ out' = o1 /\ sent = firstn n (b :: out) ++ s1) as (-> & -> & ->) by (split; [congruence|split; congruence]).
      split; [|exact E2]. rewrite <- app_assoc, <- E1. symmetry. apply firstn_skipn.
    + intros H. injection H as <- <- <- <-. split; [reflexivity|discriminate].
Qed.
Lemma shared_drain_spec s w r s' w' sent : shared_drain s w = (r, s', w', sent) ->
  fs_out (sh_frames s) = sent ++ fs_out (sh_frames s') /\ (succeeded r = true -> fs_out (sh_frames s') = []).
Proof.
  unfold shared_drain. destruct (poll_drain (fs_out (sh_frames s)) w) as [[[r1 o] w1] st] eqn:E. intros H. injection H as <- <- <- <-.
  apply poll_drain_spec in E. exact E.
Qed.
Lemma forget_succeeded {A} (r : poll (outcome ioerr A)) : succeeded (forget r) = succeeded r.
Proof. destruct r as [|[?|?|]]; reflexivity. Qed.
Lemma writer_drain_spec s e w r e' s' w' sent : writer_drain s e w = (r, e', s', w', sent) ->
  fs_out (sh_frames s) = sent ++ fs_out (sh_frames s') /\ (succeeded r = true -> fs_out (sh_frames s') = []).
Proof.
  unfold writer_drain. destruct e as [x|].
  - intros H. injection H as <- <- <- <- <-. split; [reflexivity|discriminate].
  - destruct (shared_drain s w) as [[[r1 s1] w1] st] eqn:E. intros H. injection H as <- <- <- <- <-. eapply shared_drain_spec. exact E.
Qed.
Lemma send_step_spec s errs w c r s' errs' w' sent : send_step s errs w c = (r, s', errs', w', sent) ->
  sent ++ fs_out (sh_frames s') = fold_left send (opt_list (sr_queued r)) (fs_out (sh_frames s)) /\
  (succeeded (sr_result r) = true ->
     fs_out (sh_frames s') = match c with CallWrite _ _ | CallShutdown _ => fold_left send (opt_list (sr_queued r)) [] | _ => [] end).
Proof.
  destruct c as [name|i|i buf|i|i]; cbn [send_step].
  - unfold connect_poll, shared_append_new. destruct (two64 <=? sh_next s + 1).
    + intros H. injection H as <- <- <- <- <-. cbn [sr_queued sr_result opt_list fold_left forget succeeded]. split; [reflexivity|discriminate].
    + set (s1 := with_frames _ _). destruct (shared_drain s1 w) as [[[r1 s2] w1] st] eqn:E. apply shared_drain_spec in E as [E1 E2].
      intros H. injection H as <- <- <- <- <-. cbn [sr_queued sr_result opt_list fold_left]. rewrite forget_succeeded.
      split; [rewrite <- E1; reflexivity|]. intros X. apply E2. destruct r1 as [|[?|?|]]; (exact X || reflexivity).
  - unfold connect_poll. destruct (shared_drain s w) as [[[r1 s2] w1] st] eqn:E. apply shared_drain_spec in E as [E1 E2].
    intros H. injection H as <- <- <- <- <-. cbn [sr_queued sr_result opt_list fold_left]. rewrite forget_succeeded.
    split; [rewrite <- E1; reflexivity|]. intros X. apply E2. destruct r1 as [|[?|?|]]; (exact X || reflexivity).
  - unfold writer_write. destruct (writer_drain s (errs i) w) as [[[[r1 e1] s1] w1] st] eqn:E. apply writer_drain_spec in E as [E1 E2].
    destruct r1 as [|[u|x|]]; intros H; injection H as <- <- <- <- <-; cbn [sr_queued sr_result succeeded forget opt_list fold_left send];
      try (split; [symmetry; exact E1|discriminate]).
    unfold with_out. cbn [with_frames sh_frames fs_out]. rewrite (E2 eq_refl), app_nil_r in E1. rewrite (E2 eq_refl), E1. split; reflexivity.
  - unfold writer_flush. destruct (writer_drain s (errs i) w) as [[[[r1 e1] s1] w1] st] eqn:E. apply writer_drain_spec in E as [E1 E2].
    intros H. injection H as <- <- <- <- <-. cbn [sr_queued sr_result opt_list fold_left]. rewrite forget_succeeded. split; [symmetry; exact E1|exact E2].
  - unfold writer_shutdown. destruct (writer_drain s (errs i) w) as [[[[r1 e1] s1] w1] st] eqn:E. apply writer_drain_spec in E as [E1 E2].
    destruct r1 as [|[u|x|]]; intros H; injection H as <- <- <- <- <-; cbn [sr_queued sr_result succeeded forget opt_list fold_left send];
      try (split; [symmetry; exact E1|discriminate]).
    unfold with_out. cbn [with_frames sh_frames fs_out]. rewrite (E2 eq_refl), app_nil_r in E1. rewrite (E2 eq_refl), E1. split; reflexivity.
Qed.

(** ** C76 *)
(** Whatever the transport accepts, refuses or postpones: what it has taken, followed by what
    is still queued, is exactly the frames of the calls that queued one, in order.  Nothing
    is lost, doubled, torn or reordered between streams. *)
Theorem C76_queue_is_conserved : forall (cs : list send_call) (s : shared) (errs : stream_id -> option ioerr) (w : list wanswer)
    (rs : list send_result) (s' : shared) (sent : bytes),
  send_run s errs w cs = (rs, s', sent) ->
  sent ++ fs_out (sh_frames s') = fold_left send (queued rs) (fs_out (sh_frames s)).
Proof.
  induction cs as [|c cs IH]; intros s errs w rs s' sent; cbn [send_run].
  - intros H. injection H as <- <- <-. reflexivity.
  - destruct (send_step s errs w c) as [[[[r s1] e1] w1] st] eqn:E. destruct (send_run s1 e1 w1 cs) as [[rs1 s2] more] eqn:Er.
    intros H. injection H as <- <- <-. apply send_step_spec in E as [E _]. apply IH in Er.
    unfold queued. cbn [flat_map]. rewrite fold_left_app, <- E, <- app_assoc, Er. fold (queued rs1).
    rewrite !send_all. apply app_assoc.
Qed.
Print Assumptions C76_queue_is_conserved.
(** After a successful flush or connect nothing is left in the queue. *)
Theorem C76_flush_means_flushed_partial : forall (s : shared) (errs : stream_id -> option ioerr) (w : list wanswer) (c : send_call)
    (r : send_result) (s' : shared) (errs' : stream_id -> option ioerr) (w' : list wanswer) (sent : bytes),
  send_step s errs w c = (r, s', errs', w', sent) -> sr_result r = Done (Ok tt) ->
  match c with CallFlush _ | CallConnect _ | CallConnectAgain _ => fs_out (sh_frames s') = [] | _ => True end.
Proof.
  intros s errs w c r s' errs' w' sent H X. apply send_step_spec in H as [_ H]. rewrite X in H. specialize (H eq_refl).
  destruct c; auto.
Qed.
Print Assumptions C76_flush_means_flushed_partial.
(** Together with C38: if the frames queued by any calls reach the peer, in any pieces, the
    peer receives exactly those frames in order. *)
Theorem C76_peer_receives_the_calls : forall (cs : list send_call) (w : list wanswer) (rs : list send_result) (s' : shared) (sent : bytes)
    (answers : list answer),
  send_run shared_new (fun _ => None) w cs = (rs, s', sent) -> fs_out (sh_frames s') = [] ->
  Forall (fun x => number_of x < 2 ^ 61 /\ blen (payload_of x) < 2 ^ 63) (queued rs) ->
  delivers answers sent ->
  exists n0, forall n, (n0 <= n)%nat -> receive n frame_stream_new answers = (map arrives (queued rs), Finished_ok).
Proof.
  intros cs w rs s' sent answers H O F D. apply C76_queue_is_conserved in H. rewrite O, app_nil_r in H. subst sent.
  apply C38_frames_round_trip_partial; assumption.
Qed.
Print Assumptions C76_peer_receives_the_calls.
(** A shutdown that reports success has not sent anything: the close frame stays in the
    queue, and no later call on this writer sends it. *)
Theorem C76_shutdown_is_not_sent_refuted : forall (s : shared) (errs : stream_id -> option ioerr) (w : list wanswer) (i : stream_id)
    (r : send_result) (s' : shared) (errs' : stream_id -> option ioerr) (w' : list wanswer) (sent : bytes),
  send_step s errs w (CallShutdown i) = (r, s', errs', w', sent) -> sr_result r = Done (Ok tt) ->
  fs_out (sh_frames s') = send [] (SendClose (other_end i)) /\
  forall c w2, (c = CallFlush i \/ c = CallShutdown i \/ exists b, c = CallWrite i b) ->
    send_step s' errs' w2 c = ({| sr_result := Done (Err BrokenPipe); sr_queued := None |}, s', remember errs' i (Some BrokenPipe), w2, []).
Proof.
  intros s errs w i r s' errs' w' sent H X. pose proof H as H0. apply send_step_spec in H0 as [_ H0]. rewrite X in H0. specialize (H0 eq_refl). cbn [send_step] in H.
  unfold writer_shutdown in H. destruct (writer_drain s (errs i) w) as [[[[r1 e1] s1] w1] st] eqn:E.
  destruct r1 as [|[u|x|]]; injection H as <- <- <- <- <-; try discriminate X.
  split; [exact H0|].
  assert (Q : remember errs i (Some BrokenPipe) i = Some BrokenPipe) by (unfold remember; destruct i; cbn; rewrite N.eqb_refl; reflexivity).
  intros c w2 [->|[->|[b ->]]]; cbn [send_step]; unfold writer_flush, writer_shutdown, writer_write, writer_drain; rewrite Q; reflexivity.
Qed.
Print Assumptions C76_shutdown_is_not_sent_refuted.
Example C76_example :
  let w := [WOk 2; WPending; WOk 100; WOk 0; WOk 0; WOk 3; WPending] in
  let cs := [CallConnect (Some [97]); CallConnectAgain (Receiver 33); CallWrite (Receiver 33) [1; 2]; CallFlush (Receiver 33)] in
  let '(rs, s, sent) := send_run shared_new (fun _ => None) w cs in
  map sr_result rs = [Wait; Done (Ok tt); Done (Ok tt); Wait] /\
  queued rs = [SendNew 33 (Some [97]); SendMessage (Initiator 33) [1; 2]] /\
  sent = [136; 2; 1; 97; 138; 2; 2] /\ fs_out (sh_frames s) = [1; 2].
Proof. vm_compute. auto. Qed.
