(** mplex streams: C39, C41 and C75. *)
From Verif Require Import Base BaseProofs VarintModel MplexModel MplexProofs MplexProofs2 MplexProps MplexStreamSpec MplexStreamProofs MplexStreamProofs2.

(** The calls on the sending side change nothing but the outgoing data, so that [Output]
    covers them. *)
Lemma writer_ops_only_output s i e buf w :
  (exists out, (let '(_, _, s', _, _) := writer_write s i e buf w in s') = with_out s out) /\
  (exists out, (let '(_, _, s', _, _) := writer_flush s e w in s') = with_out s out) /\
  (exists out, (let '(_, _, s', _, _) := writer_shutdown s i e w in s') = with_out s out).
Proof.
  assert (Id : s = with_out s (fs_out (sh_frames s))) by (destruct s as [[? ? ?]]; reflexivity).
  unfold writer_write, writer_flush, writer_shutdown, writer_drain, shared_drain.
  destruct e; [split; [|split]; eexists; exact Id|].
  destruct (poll_drain (fs_out (sh_frames s)) w) as [[[r o] w1] st].
  destruct r as [|[u|x|]]; split; [|split| |split| |split| |split]; eexists; reflexivity.
Qed.

(** ** C39 *)
(** Any execution: for some sequence [fs] of frames taken, one after the other, off the bytes
    that arrived, - every stream was read bytes of its own frames, in order, each at most
    once; - the streams accepted are, in order, among those the peer opened. *)
Theorem C39_streams_do_not_mix : forall (acts : list action) (answers : list answer) (es : list event) (s : shared) (answers' : list answer),
  bytes_ok (data_of answers) -> blen (data_of answers) < 2 ^ 64 ->
  run shared_new answers acts = (es, s, answers') ->
  exists fs, taken (data_of answers) fs (unread s answers') /\ ~ In EvStuck es /\
    (forall i, part_of (read_from_stream i es) (payloads_for i fs)) /\ part_of (accepted es) (opened_by fs).
Proof.
  intros acts answers es s answers' B Fi H. apply run_taken in H; [|exact B|exact Fi|exact I].
  destruct H as (fs & T & _ & St & P & A & _). exists fs. split; [exact T|]. split; [exact St|]. cbn [shared_new sh_incoming opt_list app] in *.
  split.
  - intros i. eapply part_trans; [|apply P]. rewrite <- (app_nil_r (read_from_stream i es)) at 1. apply part_app; [apply part_refl|apply part_empty].
  - eapply part_trans; [|exact A]. rewrite <- (app_nil_r (accepted es)) at 1. apply part_app; [apply part_refl|apply part_empty].
Qed.
Print Assumptions C39_streams_do_not_mix.
(** While the reader of a stream is kept, nothing of the stream is lost: what is read, with
    what is left of the frame in front, is everything the frames carry to it. *)
Theorem C39_open_streams_lose_nothing : forall (before acts : list action) (answers : list answer) (es0 es : list event)
    (s s' : shared) (answers1 answers' : list answer) (i : stream_id),
  bytes_ok (data_of answers) -> blen (data_of answers) < 2 ^ 64 ->
  run shared_new answers before = (es0, s, answers1) -> have_reader s i = true ->
  run s answers1 acts = (es, s', answers') -> ~ In (DropReader i) acts ->
  exists fs, taken (unread s answers1) fs (unread s' answers') /\
    read_from_stream i es ++ payloads_for i (opt_list (sh_incoming s')) = payloads_for i (opt_list (sh_incoming s) ++ fs).
Proof.
  intros before acts answers es0 es s s' answers1 answers' i B Fi H0 Hr H Nd.
  apply run_taken in H0; [|exact B|exact Fi|exact I]. destruct H0 as (fs0 & T0 & S0 & _).
  apply run_taken in H; [|exact (taken_ok _ _ _ T0 B)|exact (taken_fits _ _ _ T0 Fi)|exact S0].
  destruct H as (fs & T & _ & _ & _ & _ & K & _). exists fs. split; [exact T|]. symmetry. apply K; assumption.
Qed.
Print Assumptions C39_open_streams_lose_nothing.
(** If the peer opens no stream twice and the application reads only streams it has been
    given, accepting returns every new stream, in order. *)
Theorem C39_every_stream_is_accepted_partial : forall (acts : list action) (answers : list answer) (es : list event) (s : shared) (answers' : list answer),
  bytes_ok (data_of answers) -> blen (data_of answers) < 2 ^ 64 ->
  run shared_new answers acts = (es, s, answers') -> reads_opened [] acts es ->
  exists fs, taken (data_of answers) fs (unread s answers') /\
    (NoDup (opened_by fs) -> accepted es ++ opened_by (opt_list (sh_incoming s)) = opened_by fs).
Proof.
  intros acts answers es s answers' B Fi H R. apply run_taken in H; [|exact B|exact Fi|exact I].
  destruct H as (fs & T & _ & _ & _ & _ & _ & _ & O). exists fs. split; [exact T|]. intros ND. apply (O [] R ND). intros i [].
Qed.
Print Assumptions C39_every_stream_is_accepted_partial.
(** Without the condition: a peer that opens a stream a second time can have the frame eaten
    by the reader of the stream, so that accepting misses it. *)
Definition opened_twice : list answer := [ARead (fold_left send [SendNew 7 None; SendNew 7 None; SendMessage (Initiator 7) [1]] [])].
Theorem C39_reopened_stream_refuted : exists acts es s answers',
  run shared_new opened_twice acts = (es, s, answers') /\ reads_opened [] acts es /\
  es = [EvAccepted (Initiator 7); EvBytes (Initiator 7) 10 []; EvBytes (Initiator 7) 10 [1]; EvWait] /\ unread s answers' = [].
Proof.
  exists [Accept 1; Read (Initiator 7) 2 10; Read (Initiator 7) 2 10; Accept 1].
  eexists. eexists. eexists. split; [vm_compute; reflexivity|]. vm_compute. repeat split; auto.
Qed.
Print Assumptions C39_reopened_stream_refuted.
Definition two_streams : list answer :=
  let d := fold_left send [SendNew 7 (Some [120]); SendMessage (Receiver 33) [10; 11; 12]; SendMessage (Initiator 7) [1; 2];
                           SendMessage (Initiator 9) [5]; SendMessage (Receiver 33) [13]; SendClose (Receiver 33); SendMessage (Initiator 7) [3]] [] in
  [ARead (firstn 5 d); APending; ARead (skipn 5 d); ARead []].
Example C39_example :
  let acts := [Connect None; Accept 1; Read (Receiver 33) 2 2; Read (Initiator 7) 3 9; Read (Receiver 33) 2 2; Read (Receiver 33) 2 2;
               Read (Initiator 7) 3 9; Read (Receiver 33) 2 2; Read (Receiver 33) 2 2; Read (Initiator 7) 3 9; Read (Initiator 7) 3 9] in
  let '(es, s, _) := run shared_new two_streams acts in
  es = [EvConnected (Receiver 33); EvAccepted (Initiator 7); EvWait; EvWait; EvBytes (Receiver 33) 2 [10; 11]; EvBytes (Receiver 33) 2 [12];
        EvBytes (Initiator 7) 9 [1; 2]; EvBytes (Receiver 33) 2 [13]; EvBytes (Receiver 33) 2 []; EvBytes (Initiator 7) 9 [3]; EvBytes (Initiator 7) 9 []].
Proof. vm_compute. reflexivity. Qed.

(** ** C41 *)
(** Exactly when a reader sees a zero-length read: for every close frame and every frame with
    an empty payload, in its place among the bytes; and after the transport has ended. *)
Theorem C41_when_reads_are_empty_partial : forall (before acts : list action) (answers : list answer) (es0 es : list event)
    (s s' : shared) (answers1 answers' : list answer) (i : stream_id),
  bytes_ok (data_of answers) -> blen (data_of answers) < 2 ^ 64 ->
  run shared_new answers before = (es0, s, answers1) -> have_reader s i = true ->
  run s answers1 acts = (es, s', answers') -> ~ In (DropReader i) acts ->
  (forall t room, In (Read i t room) acts -> (0 < room)%nat) ->
  exists fs, taken (unread s answers1) fs (unread s' answers') /\
    (~ In i (opened_by (opt_list (sh_incoming s) ++ fs)) ->
     exists n, seen_by i es ++ shown_by i (opt_list (sh_incoming s')) = shown_by i (opt_list (sh_incoming s) ++ fs) ++ repeat None n /\
       ((0 < n)%nat -> at_end s')).
Proof.
  intros before acts answers es0 es s s' answers1 answers' i B Fi H0 Hr H Nd Rm.
  apply run_taken in H0; [|exact B|exact Fi|exact I]. destruct H0 as (fs0 & T0 & S0 & _).
  apply run_taken in H; [|exact (taken_ok _ _ _ T0 B)|exact (taken_fits _ _ _ T0 Fi)|exact S0].
  destruct H as (fs & T & _ & _ & _ & _ & _ & K & _). exists fs. split; [exact T|]. intros No. apply K; assumption.
Qed.
Print Assumptions C41_when_reads_are_empty_partial.
(** An empty message reads as end of file although the stream is still open, and data after
    a close is delivered. *)
Theorem C41_false_end_of_file_refuted : exists acts es s answers',
  run shared_new [ARead (fold_left send [SendMessage (Receiver 33) []; SendMessage (Receiver 33) [1]; SendClose (Receiver 33); SendMessage (Receiver 33) [2]] [])] acts
    = (es, s, answers') /\
  es = [EvConnected (Receiver 33); EvBytes (Receiver 33) 10 []; EvBytes (Receiver 33) 10 [1]; EvBytes (Receiver 33) 10 []; EvBytes (Receiver 33) 10 [2]].
Proof.
  exists (Connect None :: repeat (Read (Receiver 33) 2 10) 4). eexists. eexists. eexists. split; vm_compute; reflexivity.
Qed.
Print Assumptions C41_false_end_of_file_refuted.
Example C41_example :
  shown_by (Receiver 33) (map arrives [SendMessage (Receiver 33) [4; 5]; SendMessage (Receiver 7) [6]; SendClose (Receiver 33)]) =
  [Some 4; Some 5; None].
Proof. reflexivity. Qed.

(** ** C75 *)
(** In every execution nobody's waker is kept while the frame in front is theirs. *)
Theorem C75_nobody_sleeps_on_their_frame : forall (acts : list action) (answers : list answer) (es : list event) (s : shared) (answers' : list answer) (f : frame) (x : sleeper),
  run shared_new answers acts = (es, s, answers') ->
  sh_incoming s = Some f -> frame_is_for f x -> kept_waker s x = None.
Proof.
  intros acts answers es s answers' f x H. apply run_wakes in H; [|intros ? ? X; discriminate X|reflexivity].
  destruct H as (Sv & _). apply Sv.
Qed.
Print Assumptions C75_nobody_sleeps_on_their_frame.
(** As long as no call has failed, whoever sleeps will be woken: the frame in front is for
    somebody who is there to take it, or else the transport has promised to wake a task. *)
Theorem C75_sleepers_are_guarded_partial : forall (acts : list action) (answers : list answer) (es : list event) (s : shared) (answers' : list answer) (x : sleeper) (w : task),
  bytes_ok (data_of answers) -> blen (data_of answers) < 2 ^ 64 ->
  run shared_new answers acts = (es, s, answers') ->
  (forall e, ~ In (EvError e) es) -> ~ In EvPanic es -> kept_waker s x = Some w ->
  match sh_incoming s with
  | Some f => f_op f = New \/ have_reader s (f_id f) = true
  | None => sh_transport s <> None
  end.
Proof.
  intros acts answers es s answers' x w B Fi H NE NP K. pose proof H as H0.
  apply run_wakes in H; [|intros ? ? X; discriminate X|reflexivity]. destruct H as (_ & _ & G).
  apply run_taken in H0; [|exact B|exact Fi|exact I]. destruct H0 as (_ & _ & _ & St & _).
  apply (G (fun y v Y => ltac:(destruct y; discriminate Y)) NE NP St x w K).
Qed.
Print Assumptions C75_sleepers_are_guarded_partial.
(** A call takes a waker out only by waking it, or to replace it by a new one of the same
    stream, or with the stream itself. *)
Theorem C75_wakers_are_not_lost : forall (acts : list action) (answers : list answer) (es : list event) (s : shared) (answers' : list answer)
    (a : action) (e : event) (s' : shared) (answers'' : list answer),
  run shared_new answers acts = (es, s, answers') -> perform s answers' a = (e, s', answers'') ->
  exists woken, sh_woken s' = sh_woken s ++ woken /\
    forall x w, kept_waker s x = Some w -> kept_waker s' x = Some w \/ In w woken \/ replaces a e x.
Proof.
  intros acts answers es s answers' a e s' answers'' H P. apply run_wakes in H; [|intros ? ? X; discriminate X|reflexivity].
  destruct H as (Sv & Cl & _). destruct (perform_wakes _ _ _ _ _ _ Sv Cl P) as (_ & W & _). exact W.
Qed.
Print Assumptions C75_wakers_are_not_lost.
(** When the transport fails, only the task that happened to poll it is told: the readers of
    all the other streams stay asleep with nobody left to wake them. *)
Theorem C75_error_strands_readers_refuted : exists acts es s,
  run shared_new [APending; APending; AError (OtherIo 5)] acts = (es, s, []) /\
  es = [EvConnected (Receiver 33); EvConnected (Receiver 34); EvWait; EvWait; EvError (OtherIo 5)] /\
  kept_waker s (TheReader (Receiver 33)) = Some 1 /\ ~ In 1 (sh_woken s) /\
  sh_incoming s = None /\ sh_transport s = None.
Proof.
  exists [Connect None; Connect None; Read (Receiver 33) 1 9; Read (Receiver 34) 2 9; Read (Receiver 34) 2 9].
  eexists. eexists. split; [vm_compute; reflexivity|]. vm_compute. repeat split; auto.
Qed.
Print Assumptions C75_error_strands_readers_refuted.
Example C75_example :
  let acts := [Connect None; Connect None; Read (Receiver 33) 1 9; Read (Receiver 34) 2 9; Read (Receiver 34) 2 9; Read (Receiver 33) 1 9] in
  let '(es, s, _) := run shared_new [APending; APending; ARead (send [] (SendMessage (Receiver 33) [1]))] acts in
  es = [EvConnected (Receiver 33); EvConnected (Receiver 34); EvWait; EvWait; EvWait; EvBytes (Receiver 33) 9 [1]] /\
  sh_woken s = [1; 2].
Proof. vm_compute. auto. Qed.
