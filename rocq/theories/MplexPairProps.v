(** C115: two mplex connections at the two ends of one transport. *)
From Verif Require Import Base BaseProofs VarintModel MplexModel MplexProofs MplexProofs2 MplexProps MplexSendProps MplexStreamSpec MplexStreamProofs MplexStreamProofs2.
Ltac Zify.zify_post_hook ::= Z.div_mod_to_equations.

(** ** Specification *)
(** One end: the connection, the errors remembered by the writers, what the transport will
    answer to reads and writes, and what it has taken so far. *)
Record node := { nd_shared : shared; nd_errs : stream_id -> option ioerr; nd_in : list answer; nd_out : list wanswer; nd_sent : bytes }.
Definition node_new (reads : list answer) (writes : list wanswer) : node :=
  {| nd_shared := shared_new; nd_errs := fun _ => None; nd_in := reads; nd_out := writes; nd_sent := [] |}.
(** The calls of the application: those of C39 and those of C76, in any order. *)
Inductive node_call := NAccept (t : task) | NRead (i : stream_id) (t : task) (room : nat)
| NDropReader (i : stream_id) | NDropWriter (i : stream_id) | NSend (c : send_call).
Inductive node_event := NGot (e : event) | NSent (r : send_result).
Definition got (n : node) (a : action) : node_event * node :=
  let '(e, s, reads) := perform (nd_shared n) (nd_in n) a in
  (NGot e, {| nd_shared := s; nd_errs := nd_errs n; nd_in := reads; nd_out := nd_out n; nd_sent := nd_sent n |}).
Definition node_step (n : node) (c : node_call) : node_event * node :=
  match c with
  | NAccept t => got n (Accept t)
  | NRead i t room => got n (Read i t room)
  | NDropReader i => got n (DropReader i)
  | NDropWriter i => got n (DropWriter i)
  | NSend c =>
    let '(r, s, errs, writes, sent) := send_step (nd_shared n) (nd_errs n) (nd_out n) c in
    (NSent r, {| nd_shared := s; nd_errs := errs; nd_in := nd_in n; nd_out := writes; nd_sent := nd_sent n ++ sent |})
  end.
Definition trace := list (node_call * node_event).
Fixpoint node_run (n : node) (cs : list node_call) : trace * node :=
  match cs with
  | [] => ([], n)
  | c :: cs => let '(e, n1) := node_step n c in let '(t, n2) := node_run n1 cs in ((c, e) :: t, n2)
  end.
(** What was written to, and read from, a stream; the streams opened, by which end. *)
Definition written (i : stream_id) (t : trace) : bytes :=
  flat_map (fun ce => match ce with
    | (NSend (CallWrite k buf), NSent r) => if sid_eqb k i && succeeded (sr_result r) then buf else []
    | _ => [] end) t.
Definition received (i : stream_id) (t : trace) : bytes :=
  flat_map (fun ce => match snd ce with NGot (EvBytes k _ b) => if sid_eqb k i then b else [] | _ => [] end) t.
Definition accepts (t : trace) : list stream_id :=
  flat_map (fun ce => match snd ce with NGot (EvAccepted i) => [i] | _ => [] end) t.
Definition connects (t : trace) : list stream_id :=
  flat_map (fun ce => match snd ce with NSent {| sr_queued := Some (SendNew n _) |} => [Receiver n] | _ => [] end) t.
(** Streams are used only after they were opened. *)
Definition opens (e : node_event) : list stream_id := connects [(NAccept 0, e)] ++ accepts [(NAccept 0, e)].
Definition uses (c : node_call) : list stream_id :=
  match c with NRead i _ _ | NSend (CallWrite i _) | NSend (CallShutdown i) => [i] | _ => [] end.
Fixpoint proper (opened : list stream_id) (t : trace) : Prop :=
  match t with
  | [] => True
  | (c, e) :: t => incl (uses c) opened /\ proper (opens e ++ opened) t
  end.

(** Two ends, and the calls at both in the order in which they happen. *)
Inductive side := SideA | SideB.
Definition opposite (x : side) : side := match x with SideA => SideB | SideB => SideA end.
Definition at_side (x : side) (xc : side * node_call) : bool :=
  match x, fst xc with SideA, SideA | SideB, SideB => true | _, _ => false end.
Definition calls_of (x : side) (sched : list (side * node_call)) : list node_call := map snd (filter (at_side x) sched).
Definition history (start : side -> node) (x : side) (sched : list (side * node_call)) : trace * node :=
  node_run (start x) (calls_of x sched).
(** The transport carries bytes in order: at any time, what one end has been given is the
    front of what the other end has sent by then. *)
Definition connected (start : side -> node) (sched : list (side * node_call)) : Prop :=
  forall x p rest, sched = p ++ rest -> exists came way,
    data_of (nd_in (start x)) = came ++ data_of (nd_in (snd (history start x p))) /\
    nd_sent (snd (history start (opposite x) p)) = came ++ way.
(** Sizes: fewer than 2^60 calls, less than 2^63 bytes per call, less than 2^64 altogether. *)
Definition sid_number (i : stream_id) : N := match i with Receiver n | Initiator n => n end.
Definition modest_call (c : node_call) : Prop :=
  match c with
  | NSend (CallConnect (Some name)) => blen name < 2 ^ 63
  | NSend (CallWrite i buf) => sid_number i < 2 ^ 61 /\ blen buf < 2 ^ 63
  | NSend (CallShutdown i) => sid_number i < 2 ^ 61
  | _ => True
  end.
Definition session (start : side -> node) (sched : list (side * node_call)) : Prop :=
  (exists reads writes, forall x, start x = node_new (reads x) (writes x)) /\
  (forall x, bytes_ok (data_of (nd_in (start x))) /\ blen (data_of (nd_in (start x))) < 2 ^ 64) /\
  N.of_nat (length sched) < 2 ^ 60 /\ Forall (fun xc => modest_call (snd xc)) sched /\
  connected start sched /\ (forall x, proper [] (fst (history start x sched))).

(** ** Lemmas *)
(** *** What is queued *)
Definition queue_of (t : trace) : list sending := flat_map (fun ce => match snd ce with NSent r => opt_list (sr_queued r) | _ => [] end) t.
Definition wires (q : list sending) : bytes := concat (map (fun x => wire_frame (header_for x) (payload_of x)) q).
Lemma wires_app a b : wires (a ++ b) = wires a ++ wires b.
Proof. unfold wires. rewrite map_app, concat_app. reflexivity. Qed.
Lemma poll_read_frame_out answers : forall fs r fs' a', poll_read_frame fs answers = (r, fs', a') -> fs_out fs' = fs_out fs.
Proof.
  induction answers as [|a answers IH]; intros fs r fs' a'; cbn [poll_read_frame];
    destruct (buffered_frame (fs_in fs)) as [[[f rest]|]|e|]; try (intros H; injection H as <- <- <-; reflexivity).
  - destruct (fs_eof fs); [destruct (fs_in fs); intros H; injection H as <- <- <-; reflexivity|intros H; injection H as <- <- <-; reflexivity].
  - destruct (fs_eof fs); [destruct (fs_in fs); intros H; injection H as <- <- <-; reflexivity|].
    destruct a as [|[|b d]|e]; try (intros H; injection H as <- <- <-; reflexivity); intros H; apply IH in H; exact H.
Qed.
Definition same_sending (s s' : shared) : Prop := fs_out (sh_frames s') = fs_out (sh_frames s) /\ sh_next s' = sh_next s.
Lemma fill_loop_out fuel : forall s t answers r s' a', fill_loop fuel s t answers = (r, s', a') -> same_sending s s'.
Proof.
  induction fuel as [|fuel IH]; intros s t answers r s' a'; cbn [fill_loop]; [intros H; injection H as <- <- <-; split; reflexivity|].
  destruct (sh_closed s); [intros H; injection H as <- <- <-; split; reflexivity|].
  destruct (match sh_incoming s with Some f => op_eqb (f_op f) New || have_reader s (f_id f) | None => false end); [intros H; injection H as <- <- <-; split; reflexivity|].
  change (sh_frames (with_incoming s None)) with (sh_frames s).
  destruct (poll_read_frame (sh_frames s) answers) as [[r1 fs1] a1] eqn:Ep. apply poll_read_frame_out in Ep.
  destruct r1 as [|[[f|]|e|]]; try (intros H; injection H as <- <- <-; split; [exact Ep|reflexivity]).
  intros H. apply IH in H. destruct H as [H1 H2]. set (s2 := with_transport _ _) in *.
  destruct (wake_reader_frames s2 (f_id f)) as (W1 & W2 & W3 & W4 & _).
  split; [rewrite H1|rewrite H2]; destruct (f_op f); cbn [with_incoming sh_frames sh_next]; rewrite ?W1, ?W3, ?W4; (exact Ep || reflexivity).
Qed.
Lemma got_sends_nothing n a e n' : match a with Connect _ | Output _ => False | _ => True end -> got n a = (e, n') ->
  same_sending (nd_shared n) (nd_shared n') /\ nd_sent n' = nd_sent n /\ exists ev, e = NGot ev.
Proof.
  unfold got. destruct (perform (nd_shared n) (nd_in n) a) as [[ev s'] i'] eqn:Ep. intros Ha H. injection H as <- <-.
  cbn [nd_shared nd_sent]. split; [|eauto]. destruct a as [t|i t room|name|i|i|out]; try contradiction; cbn [perform] in Ep.
  - unfold poll_accept_id, poll_fill_incoming in Ep. destruct (fill_loop _ (nd_shared n) t (nd_in n)) as [[r s1] a1] eqn:Ef. apply fill_loop_out in Ef.
    destruct r as [[|[u|x|]]|]; try (injection Ep as _ <- _; exact Ef).
    destruct (sh_incoming s1) as [f|]; [|injection Ep as _ <- _; exact Ef]. destruct (op_eqb (f_op f) New); injection Ep as _ <- _; exact Ef.
  - unfold poll_read, poll_fill_incoming in Ep. destruct (fill_loop _ (nd_shared n) t (nd_in n)) as [[r s1] a1] eqn:Ef. apply fill_loop_out in Ef.
    destruct r as [[|[u|x|]]|]; try (injection Ep as _ <- _; exact Ef).
    destruct (sh_incoming s1) as [f|]; [|injection Ep as _ <- _; exact Ef].
    destruct (sid_eqb (f_id f) i); [|injection Ep as _ <- _; exact Ef]. destruct (op_eqb (f_op f) Close); [injection Ep as _ <- _; exact Ef|].
    injection Ep as _ <- _. destruct (skipn (Nat.min (length (f_data f)) room) (f_data f)); exact Ef.
  - injection Ep as _ <- _. split; reflexivity.
  - injection Ep as _ <- _. split; reflexivity.
Qed.
Lemma drain_next s w r s' w' sent : shared_drain s w = (r, s', w', sent) -> sh_next s' = sh_next s /\ exists out, s' = with_out s out.
Proof.
  unfold shared_drain. destruct (poll_drain (fs_out (sh_frames s)) w) as [[[r1 o] w1] st]. intros H. injection H as <- <- <- <-. split; [reflexivity|]. eexists. reflexivity.
Qed.
Lemma with_out_self s : with_out s (fs_out (sh_frames s)) = s.
Proof. destruct s as [[? ? ?]]. reflexivity. Qed.
Lemma with_out_twice s a b : with_out (with_out s a) b = with_out s b.
Proof. reflexivity. Qed.
Lemma writer_drain_next s e w r e' s' w' sent : writer_drain s e w = (r, e', s', w', sent) -> exists out, s' = with_out s out.
Proof.
  unfold writer_drain. destruct e; [intros H; injection H as <- <- <- <- <-; exists (fs_out (sh_frames s)); symmetry; apply with_out_self|].
  destruct (shared_drain s w) as [[[r1 s1] w1] st] eqn:E. intros H. injection H as <- <- <- <- <-. apply drain_next in E. apply E.
Qed.
(** A call on the sending side, as calls of C39. *)
Lemma send_step_acts s errs w c r s' errs' w' sent : send_step s errs w c = (r, s', errs', w', sent) ->
  (exists out, s' = with_out s out /\ forall n name, sr_queued r <> Some (SendNew n name)) \/
  (exists name i s1 out, c = CallConnect name /\ shared_append_new s name = Ok (i, s1) /\ s' = with_out s1 out /\
     i = Receiver (sh_next s) /\ sh_next s1 = sh_next s + 1 /\ sr_queued r = Some (SendNew (sh_next s) name)).
Proof.
  destruct c as [name|i|i buf|i|i]; cbn [send_step].
  - unfold connect_poll. destruct (shared_append_new s name) as [[i s1]|e|] eqn:Ea.
    + destruct (shared_drain s1 w) as [[[r1 s2] w1] st] eqn:E. apply drain_next in E. destruct E as (E1 & out & E2).
      intros H. injection H as <- <- <- <- <-. right. exists name, i, s1, out. split; [reflexivity|]. split; [exact Ea|]. split; [exact E2|].
      unfold shared_append_new in Ea. destruct (two64 <=? sh_next s + 1); [discriminate|]. injection Ea as <- <-. auto.
    + unfold shared_append_new in Ea. destruct (two64 <=? sh_next s + 1); discriminate.
    + intros H. injection H as <- <- <- <- <-. left. exists (fs_out (sh_frames s)). split; [symmetry; apply with_out_self|discriminate].
  - unfold connect_poll. destruct (shared_drain s w) as [[[r1 s2] w1] st] eqn:E. apply drain_next in E. destruct E as (E1 & out & E2).
    intros H. injection H as <- <- <- <- <-. left. exists out. split; [exact E2|discriminate].
  - unfold writer_write. destruct (writer_drain s (errs i) w) as [[[[r1 e1] s1] w1] st] eqn:E. apply writer_drain_next in E. destruct E as (out & ->).
    destruct r1 as [|[u|x|]]; intros H; injection H as <- <- <- <- <-; left; eexists; (split; [reflexivity|]); cbn [sr_queued succeeded]; intros ? ?; discriminate.
  - unfold writer_flush. destruct (writer_drain s (errs i) w) as [[[[r1 e1] s1] w1] st] eqn:E. apply writer_drain_next in E. destruct E as (out & ->).
    intros H; injection H as <- <- <- <- <-. left. exists out. split; [reflexivity|discriminate].
  - unfold writer_shutdown. destruct (writer_drain s (errs i) w) as [[[[r1 e1] s1] w1] st] eqn:E. apply writer_drain_next in E. destruct E as (out & ->).
    destruct r1 as [|[u|x|]]; intros H; injection H as <- <- <- <- <-; left; eexists; (split; [reflexivity|]); cbn [sr_queued succeeded]; intros ? ?; discriminate.
Qed.
Lemma step_cases n c : match c with
  | NAccept t => node_step n c = got n (Accept t)
  | NRead i t room => node_step n c = got n (Read i t room)
  | NDropReader i => node_step n c = got n (DropReader i)
  | NDropWriter i => node_step n c = got n (DropWriter i)
  | NSend c => True
  end.
Proof. destruct c; auto. Qed.
Lemma step_sends n c e n' : node_step n c = (e, n') ->
  nd_sent n' ++ fs_out (sh_frames (nd_shared n')) = (nd_sent n ++ fs_out (sh_frames (nd_shared n))) ++ wires (queue_of [(c, e)]) /\
  (sh_next (nd_shared n) <= sh_next (nd_shared n') <= sh_next (nd_shared n) + 1) /\
  (forall k, In k (connects [(c, e)]) -> k = Receiver (sh_next (nd_shared n)) /\ sh_next (nd_shared n') = sh_next (nd_shared n) + 1) /\
  (connects [(c, e)] = [] -> sh_next (nd_shared n') = sh_next (nd_shared n)).
Proof.
  assert (G : forall a, match a with Connect _ | Output _ => False | _ => True end -> got n a = (e, n') ->
    nd_sent n' ++ fs_out (sh_frames (nd_shared n')) = (nd_sent n ++ fs_out (sh_frames (nd_shared n))) ++ wires (queue_of [(c, e)]) /\
    (sh_next (nd_shared n) <= sh_next (nd_shared n') <= sh_next (nd_shared n) + 1) /\
    (forall k, In k (connects [(c, e)]) -> k = Receiver (sh_next (nd_shared n)) /\ sh_next (nd_shared n') = sh_next (nd_shared n) + 1) /\
    (connects [(c, e)] = [] -> sh_next (nd_shared n') = sh_next (nd_shared n))).
  { intros a Ha H. apply got_sends_nothing in H; [|exact Ha]. destruct H as ((H1 & H2) & H3 & ev & ->).
    rewrite H1, H2, H3. unfold queue_of, wires, connects. cbn [flat_map snd app map concat]. rewrite app_nil_r. split; [reflexivity|]. split; [lia|]. split; [intros k []|auto]. }
  destruct c as [t|i t room|i|i|c]; cbn [node_step]; try (apply G; exact I).
  destruct (send_step (nd_shared n) (nd_errs n) (nd_out n) c) as [[[[r s'] errs'] w'] sent] eqn:E.
  intros H. injection H as <- <-. cbn [nd_shared nd_sent]. pose proof (send_step_spec _ _ _ _ _ _ _ _ _ E) as [Sp _]. split.
  - rewrite <- app_assoc, Sp, send_all. unfold queue_of. cbn [flat_map snd]. rewrite app_nil_r, <- app_assoc. reflexivity.
  - unfold connects. cbn [flat_map snd]. rewrite app_nil_r. apply send_step_acts in E. destruct E as [(out & -> & Nq)|(name & i & s1 & out & -> & Ea & -> & -> & En & Eq)].
    + destruct r as [res [[m nm|st dt|st]|]]; cbn [sr_queued] in *; try (exfalso; eapply Nq; reflexivity); cbn [with_out with_frames sh_next];
        (split; [lia|]; split; [intros k []|auto]).
    + destruct r as [res q]. cbn [sr_queued] in Eq. subst q. cbn [with_out with_frames sh_next]. rewrite En. split; [lia|]. split; [intros k [<-|[]]; auto|discriminate].
Qed.
Lemma queue_cons ce t : queue_of (ce :: t) = queue_of [ce] ++ queue_of t.
Proof. unfold queue_of. cbn [flat_map]. rewrite app_nil_r. reflexivity. Qed.
Lemma connects_cons ce t : connects (ce :: t) = connects [ce] ++ connects t.
Proof. unfold connects. cbn [flat_map]. rewrite app_nil_r. reflexivity. Qed.
Lemma accepts_cons ce t : accepts (ce :: t) = accepts [ce] ++ accepts t.
Proof. unfold accepts. cbn [flat_map]. rewrite app_nil_r. reflexivity. Qed.
Lemma received_cons i ce t : received i (ce :: t) = received i [ce] ++ received i t.
Proof. unfold received. cbn [flat_map]. rewrite app_nil_r. reflexivity. Qed.
Lemma written_cons i ce t : written i (ce :: t) = written i [ce] ++ written i t.
Proof. unfold written. cbn [flat_map]. rewrite app_nil_r. reflexivity. Qed.
Lemma queue_app a b : queue_of (a ++ b) = queue_of a ++ queue_of b. Proof. apply flat_map_app. Qed.
Lemma connects_app a b : connects (a ++ b) = connects a ++ connects b. Proof. apply flat_map_app. Qed.
Lemma accepts_app a b : accepts (a ++ b) = accepts a ++ accepts b. Proof. apply flat_map_app. Qed.
Lemma received_app i a b : received i (a ++ b) = received i a ++ received i b. Proof. apply flat_map_app. Qed.
Lemma written_app i a b : written i (a ++ b) = written i a ++ written i b. Proof. apply flat_map_app. Qed.
Lemma node_run_app cs1 : forall n cs2, node_run n (cs1 ++ cs2) =
  let '(t1, n1) := node_run n cs1 in let '(t2, n2) := node_run n1 cs2 in (t1 ++ t2, n2).
Proof.
  induction cs1 as [|c cs1 IH]; intros n cs2; cbn [app node_run]; [destruct (node_run n cs2); reflexivity|].
  destruct (node_step n c) as [e n1]. rewrite IH. destruct (node_run n1 cs1) as [t1 n2]. destruct (node_run n2 cs2). reflexivity.
Qed.
Lemma node_run_sends cs : forall n t n', node_run n cs = (t, n') ->
  nd_sent n' ++ fs_out (sh_frames (nd_shared n')) = (nd_sent n ++ fs_out (sh_frames (nd_shared n))) ++ wires (queue_of t) /\
  sh_next (nd_shared n) <= sh_next (nd_shared n') <= sh_next (nd_shared n) + N.of_nat (length cs) /\
  (forall k, In k (connects t) -> exists m, k = Receiver m /\ sh_next (nd_shared n) <= m < sh_next (nd_shared n')) /\
  NoDup (connects t) /\ map fst t = cs.
Proof.
  induction cs as [|c cs IH]; intros n t n'; cbn [node_run].
  - intros H. injection H as <- <-. cbn [queue_of flat_map wires map concat]. unfold wires. cbn [map concat]. rewrite app_nil_r. split; [reflexivity|]. split; [cbn; lia|].
    split; [intros k []|]. split; [constructor|reflexivity].
  - destruct (node_step n c) as [e n1] eqn:Es. destruct (node_run n1 cs) as [t1 n2] eqn:Er. intros H. injection H as <- <-.
    apply step_sends in Es. destruct Es as (S1 & S2 & S3 & S4). apply IH in Er. destruct Er as (R1 & R2 & R3 & R4 & R5).
    split; [rewrite R1, S1, (queue_cons _ t1), wires_app, <- !app_assoc; reflexivity|]. split; [cbn [length]; lia|].
    assert (Mem : forall k, In k (connects ((c, e) :: t1)) -> exists m, k = Receiver m /\ sh_next (nd_shared n) <= m < sh_next (nd_shared n2)).
    { intros k Hk. rewrite connects_cons in Hk. apply in_app_or in Hk. destruct Hk as [Hk|Hk].
      - apply S3 in Hk. destruct Hk as (-> & Hn). eexists. split; [reflexivity|]. lia.
      - apply R3 in Hk. destruct Hk as (m & -> & Hm). exists m. split; [reflexivity|]. lia. }
    split; [exact Mem|]. split; [|cbn [map fst]; rewrite R5; reflexivity].
    rewrite connects_cons. assert (L : connects [(c, e)] = [] \/ exists k, connects [(c, e)] = [k]).
    { unfold connects. cbn [flat_map snd]. rewrite app_nil_r. destruct e as [|[res [[m nm|st dt|st]|]]]; eauto. }
    destruct L as [->|(k & El)]; [exact R4|]. rewrite El. cbn [app]. constructor; [|exact R4].
    intros Hk. apply R3 in Hk. destruct Hk as (m & -> & Hm). destruct (S3 (Receiver m)) as (Hr & Hn); [rewrite El; left; reflexivity|].
    injection Hr as ->. lia.
Qed.
Lemma start_sends reads writes cs t n' : node_run (node_new reads writes) cs = (t, n') ->
  nd_sent n' ++ fs_out (sh_frames (nd_shared n')) = wires (queue_of t) /\
  sh_next (nd_shared n') <= 33 + N.of_nat (length cs) /\
  (forall k, In k (connects t) -> exists m, k = Receiver m /\ m < sh_next (nd_shared n')) /\ NoDup (connects t).
Proof.
  intros H. apply node_run_sends in H. destruct H as (H1 & H2 & H3 & H4 & _). cbn [node_new nd_sent nd_shared shared_new sh_frames frame_stream_new fs_out app sh_next] in *.
  split; [exact H1|]. split; [lia|]. split; [|exact H4]. intros k Hk. apply H3 in Hk. destruct Hk as (m & -> & Hm). exists m. split; [reflexivity|]. lia.
Qed.

(** *** The receiving side, as in C39 *)
Lemma run_app a1 : forall s answers a2, run s answers (a1 ++ a2) =
  let '(e1, s1, r1) := run s answers a1 in let '(e2, s2, r2) := run s1 r1 a2 in (e1 ++ e2, s2, r2).
Proof.
  induction a1 as [|a a1 IH]; intros s answers a2; cbn [app run]; [destruct (run s answers a2) as [[? ?] ?]; reflexivity|].
  destruct (perform s answers a) as [[e s1] r1]. rewrite IH. destruct (run s1 r1 a1) as [[e1 s2] r2]. destruct (run s2 r2 a2) as [[e2 s3] r3]. reflexivity.
Qed.
Definition now_open (O : list stream_id) (es : list event) : list stream_id :=
  fold_left (fun O e => match e with EvAccepted i | EvConnected i => i :: O | _ => O end) es O.
Lemma reads_opened_app a1 : forall O e1 a2 e2, length a1 = length e1 -> reads_opened O a1 e1 -> reads_opened (now_open O e1) a2 e2 ->
  reads_opened O (a1 ++ a2) (e1 ++ e2).
Proof.
  induction a1 as [|a a1 IH]; intros O e1 a2 e2 L H1 H2; destruct e1 as [|e e1]; try discriminate; cbn [app] in *; [exact H2|].
  cbn [reads_opened] in *. destruct H1 as [H1 H1']. split; [exact H1|]. apply IH; [cbn in L; lia|exact H1'|]. exact H2.
Qed.
Definition acted (s : shared) (reads : list answer) (t : trace) (s' : shared) (reads' : list answer) (acts : list action) (es : list event) : Prop :=
  run s reads acts = (es, s', reads') /\ length acts = length es /\
  (forall i, read_from_stream i es = received i t) /\ accepted es = accepts t /\
  (forall i, In (DropReader i) acts -> In (NDropReader i) (map fst t)).
Lemma step_acted n c e n' : node_step n c = (e, n') ->
  exists acts es, acted (nd_shared n) (nd_in n) [(c, e)] (nd_shared n') (nd_in n') acts es /\
    (forall O, incl (uses c) O -> reads_opened O acts es) /\ (forall O, now_open O es = opens e ++ O).
Proof.
  assert (G : forall a, match a with Connect _ | Output _ => False | _ => True end -> match a with Read i _ _ => uses c = [i] | DropReader i => c = NDropReader i | _ => True end ->
    got n a = (e, n') ->
    exists acts es, acted (nd_shared n) (nd_in n) [(c, e)] (nd_shared n') (nd_in n') acts es /\
    (forall O, incl (uses c) O -> reads_opened O acts es) /\ (forall O, now_open O es = opens e ++ O)).
  { intros a Ha Hr. unfold got. destruct (perform (nd_shared n) (nd_in n) a) as [[ev s'] i'] eqn:Ep. intros H. injection H as <- <-. cbn [nd_shared nd_in].
    exists [a], [ev]. split; [split; [|split; [reflexivity|split; [|split]]]|split].
    - cbn [run]. rewrite Ep. reflexivity.
    - intros i. reflexivity.
    - reflexivity.
    - intros i [->|[]]. left. exact Hr.
    - intros O Hi. cbn [reads_opened]. split; [|exact I]. destruct a; auto. rewrite Hr in Hi. apply Hi. left. reflexivity.
    - intros O. unfold now_open, opens, connects, accepts. cbn [fold_left flat_map snd app]. destruct ev; cbn [app]; try reflexivity.
      exfalso. destruct a; try contradiction; cbn [perform] in Ep.
      + destruct (poll_accept_id (nd_shared n) t (nd_in n)) as [[[[|[[?|]|?|]]|] ?] ?]; congruence.
      + destruct (poll_read (nd_shared n) i0 t room (nd_in n)) as [[[[|[?|?|]]|] ?] ?]; congruence.
      + congruence.
      + congruence. }
  destruct c as [t|i t room|i|i|c]; cbn [node_step]; try (apply G; (exact I || reflexivity)).
  destruct (send_step (nd_shared n) (nd_errs n) (nd_out n) c) as [[[[r s'] errs'] w'] sent] eqn:E.
  intros H. injection H as <- <-. cbn [nd_shared nd_in]. apply send_step_acts in E.
  destruct E as [(out & -> & Nq)|(name & i & s1 & out & -> & Ea & -> & Ei & En & Eq)].
  - exists [Output out], [EvDone]. split; [split; [|split; [reflexivity|split; [|split]]]|split].
    + reflexivity. + intros i; reflexivity. + reflexivity. + intros i [X|[]]; discriminate X.
    + intros O Hi. split; exact I.
    + intros O. unfold now_open, opens, connects, accepts. cbn [fold_left flat_map snd app]. destruct r as [res [[m nm|st dt|st]|]]; try reflexivity.
      exfalso. eapply Nq. reflexivity.
  - exists [Connect name; Output out], [EvConnected i; EvDone]. split; [split; [|split; [reflexivity|split; [|split]]]|split].
    + cbn [run perform]. rewrite Ea. reflexivity.
    + intros k; reflexivity. + reflexivity. + intros k [X|[X|[]]]; discriminate X.
    + intros O Hi. cbn [reads_opened]. auto.
    + intros O. unfold now_open, opens, connects, accepts. cbn [fold_left flat_map snd app]. destruct r as [res q]. cbn [sr_queued] in Eq. subst q i. reflexivity.
Qed.
Lemma node_run_acted cs : forall n t n', node_run n cs = (t, n') ->
  exists acts es, acted (nd_shared n) (nd_in n) t (nd_shared n') (nd_in n') acts es /\
    (forall O, proper O t -> reads_opened O acts es).
Proof.
  induction cs as [|c cs IH]; intros n t n'; cbn [node_run].
  - intros H. injection H as <- <-. exists [], []. split; [split; [|split; [|split; [|split]]]|]; try reflexivity; intros; auto.
  - destruct (node_step n c) as [e n1] eqn:Es. destruct (node_run n1 cs) as [t1 n2] eqn:Er. intros H. injection H as <- <-.
    apply step_acted in Es. destruct Es as (a1 & e1 & (S1 & S2 & S3 & S4 & S5) & S6 & S7). apply IH in Er. destruct Er as (a2 & e2 & (R1 & R2 & R3 & R4 & R5) & R6).
    exists (a1 ++ a2), (e1 ++ e2). split; [split; [|split; [|split; [|split]]]|].
    + rewrite run_app, S1, R1. reflexivity.
    + rewrite !app_length. lia.
    + intros i. rewrite received_cons, <- S3, <- R3. apply flat_map_app.
    + rewrite accepts_cons, <- S4, <- R4. apply flat_map_app.
    + intros i Hi. apply in_app_or in Hi. cbn [map fst]. destruct Hi as [Hi|Hi]; [left; apply S5 in Hi; destruct Hi as [Hi|[]]; exact Hi|right; apply R5; exact Hi].
    + intros O [P1 P2]. apply reads_opened_app; [exact S2|apply S6; exact P1|]. rewrite S7. apply R6. exact P2.
Qed.

(** *** The frames that arrive are those that were queued *)
Definition modest_sending (x : sending) : Prop := number_of x < 2 ^ 61 /\ blen (payload_of x) < 2 ^ 63.
Lemma frames_prefix us fs : Forall2 frame_bytes us fs -> forall q X tail, Forall modest_sending q ->
  bytes_ok (concat us ++ X) -> fits (concat us ++ X) -> concat us ++ X ++ tail = wires q ->
  exists q1 q2, q = q1 ++ q2 /\ fs = map arrives q1 /\ X ++ tail = wires q2.
Proof.
  induction 1 as [|u f us fs Fb F2 IH]; intros q X tail Mq B Fi E; cbn [concat app] in *.
  - exists [], q. auto.
  - rewrite <- app_assoc in *. destruct q as [|x q].
    { apply frame_bytes_nonempty in Fb. apply (f_equal (@length N)) in E. cbn [wires] in E. unfold wires in E. cbn [map concat] in E.
      rewrite app_length in E. cbn [length] in E. lia. }
    inversion Mq as [|? ? [M1 M2] Mq']; subst.
    assert (Hb : buffered_frame (u ++ concat us ++ X) = Ok (Some (f, concat us ++ X))) by (apply buffered_frame_iff; eauto).
    pose proof (buffered_app (u ++ concat us ++ X) tail) as Ba. rewrite Hb in Ba. destruct Ba as (Ba & _ & _).
    rewrite <- !app_assoc in Ba. unfold wires in E. cbn [map concat] in E. fold (wires q) in E. rewrite E, buffered_sent in Ba by assumption.
    assert (Ef : arrives x = f /\ wires q = concat us ++ X ++ tail) by (split; congruence). destruct Ef as [Ef Ew].
    destruct (IH q X tail Mq') as (q1 & q2 & -> & -> & E3).
    + apply Forall_app in B. apply B.
    + apply fits_suffix in Fi. exact Fi.
    + symmetry. exact Ew.
    + exists (x :: q1), q2. split; [reflexivity|]. split; [cbn [map]; rewrite Ef; reflexivity|exact E3].
Qed.
(** *** The frame in front is the last one taken *)
Definition same_frame (o : option frame) (l : list frame) : Prop :=
  match o with Some f => exists l' g, l = l' ++ [g] /\ f_id g = f_id f /\ f_op g = f_op f | None => True end.
Lemma snoc_cases {A} (l m a : list A) (x : A) : l ++ m = a ++ [x] -> (m = [] /\ l = a ++ [x]) \/ exists m', m = m' ++ [x].
Proof.
  intros E. destruct m as [|y m] using rev_ind; [left; rewrite app_nil_r in E; auto|]. right. exists m. rewrite app_assoc in E. apply app_inj_tail in E. destruct E as [_ ->]. reflexivity.
Qed.
Lemma outcome_same a mid s' e : outcome_of_call a mid s' e -> match sh_incoming s' with None => True | Some f => exists g, mid = Some g /\ f_id g = f_id f /\ f_op g = f_op f end.
Proof.
  destruct e as [i| |i room b|i| |x| | |]; cbn [outcome_of_call]; try (intros ->; destruct mid as [g|]; eauto; exact I).
  - intros (_ & -> & _). exact I.
  - intros (_ & _ & -> & _). exact I.
  - intros (_ & [(_ & -> & _)|(f & -> & Ei & [(_ & _ & ->)|(_ & rest & _ & _ & ->)])]); try exact I. destruct rest; [exact I|]. exists f. cbn [f_id f_op]. auto.
  - intros [].
Qed.
Lemma run_last acts : forall s answers es s' answers', bytes_ok (unread s answers) -> fits (unread s answers) ->
  run s answers acts = (es, s', answers') ->
  exists fs, taken (unread s answers) fs (unread s' answers') /\ same_frame (sh_incoming s') (opt_list (sh_incoming s) ++ fs).
Proof.
  induction acts as [|a acts IH]; intros s answers es s' answers' B Fi; cbn [run].
  - intros H. injection H as <- <- <-. exists []. split; [apply taken_nil|]. rewrite app_nil_r. unfold same_frame. destruct (sh_incoming s) as [f|]; [|exact I].
    exists [], f. auto.
  - destruct (perform s answers a) as [[e s1] a1] eqn:Ep. destruct (run s1 a1 acts) as [[es1 s2] a2] eqn:Er.
    intros H. injection H as <- <- <-. destruct (perform_spec _ _ _ _ _ _ B Fi Ep) as (fs1 & drops & mid & T & Q & D & HK & OC).
    destruct (IH s1 a1 es1 s2 a2 (taken_ok _ _ _ T B) (taken_fits _ _ _ T Fi) Er) as (fs2 & T2 & L2).
    exists (fs1 ++ fs2). split; [eapply taken_trans; eassumption|]. unfold same_frame in *. destruct (sh_incoming s2) as [f|]; [|exact I].
    destruct L2 as (l & g & E & G1 & G2). apply snoc_cases in E. rewrite app_assoc. destruct E as [(-> & E)|(m & ->)].
    + apply outcome_same in OC. destruct (sh_incoming s1) as [f1|]; [|destruct l; discriminate E]. destruct OC as (g1 & -> & O1 & O2).
      cbn [opt_list] in E. destruct l as [|? [|]]; try discriminate E. injection E as ->. rewrite Q, app_nil_r. cbn [opt_list]. exists drops, g1. split; [reflexivity|]. split; congruence.
    + exists ((opt_list (sh_incoming s) ++ fs1) ++ m), g. split; [rewrite <- !app_assoc; reflexivity|auto].
Qed.
Lemma accept_is_last acts s answers es s' answers' t s2 answers2 j : bytes_ok (unread s answers) -> fits (unread s answers) -> sh_incoming s = None ->
  run s answers acts = (es, s', answers') -> perform s' answers' (Accept t) = (EvAccepted j, s2, answers2) ->
  exists fs g, taken (unread s answers) (fs ++ [g]) (unread s2 answers2) /\ f_id g = j /\ f_op g = New.
Proof.
  intros B Fi Hi H P. destruct (run_last acts s answers es s' answers' B Fi H) as (fs0 & T0 & L). rewrite Hi in L. cbn [opt_list app] in L.
  destruct (perform_spec _ _ _ _ _ _ (taken_ok _ _ _ T0 B) (taken_fits _ _ _ T0 Fi) P) as (fs1 & drops & mid & T1 & Q & D & _ & OC).
  cbn [outcome_of_call] in OC. destruct OC as (_ & _ & f & -> & Of & Fj). cbn [opt_list] in Q. apply snoc_cases in Q. destruct Q as [(-> & Q)|(m & ->)].
  - destruct (sh_incoming s') as [f'|]; [|destruct drops; discriminate Q]. destruct drops as [|? [|]]; try discriminate Q. injection Q as ->.
    destruct L as (l & g & -> & G1 & G2). exists l, g. split; [|split; congruence]. rewrite <- (app_nil_r (l ++ [g])). eapply taken_trans; eassumption.
  - exists (fs0 ++ m), f. split; [|auto]. rewrite <- app_assoc. eapply taken_trans; eassumption.
Qed.

(** *** Writing *)
Lemma other_end_eqb k i : sid_eqb (other_end k) (other_end i) = sid_eqb k i.
Proof. destruct k, i; reflexivity. Qed.
Lemma send_step_queue s errs w c r s' errs' w' sent : send_step s errs w c = (r, s', errs', w', sent) ->
  match c with
  | CallConnect name => sr_queued r = None \/ sr_queued r = Some (SendNew (sh_next s) name)
  | CallWrite i buf => sr_queued r = (if succeeded (sr_result r) then Some (SendMessage (other_end i) buf) else None)
  | CallShutdown i => sr_queued r = (if succeeded (sr_result r) then Some (SendClose (other_end i)) else None)
  | _ => sr_queued r = None
  end.
Proof.
  destruct c as [name|i|i buf|i|i]; cbn [send_step].
  - intros H. assert (E : send_step s errs w (CallConnect name) = (r, s', errs', w', sent)) by exact H. apply send_step_acts in E.
    destruct E as [(out & _ & Nq)|(nm & i & s1 & out & Ec & _ & _ & _ & _ & Eq)].
    + left. destruct (connect_poll s None name w) as [[[[r1 known] s1] w1] st]. injection H as <- _ _ _ _. cbn [sr_queued] in *.
      destruct known as [[m|m]|]; try reflexivity. exfalso. eapply Nq. reflexivity.
    + right. injection Ec as <-. exact Eq.
  - destruct (connect_poll s (Some i) None w) as [[[[r1 known] s1] w1] st]. intros H. injection H as <- _ _ _ _. reflexivity.
  - destruct (writer_write s i (errs i) buf w) as [[[[r1 e1] s1] w1] st]. intros H. injection H as <- _ _ _ _. cbn [sr_queued sr_result]. rewrite forget_succeeded. reflexivity.
  - destruct (writer_flush s (errs i) w) as [[[[r1 e1] s1] w1] st]. intros H. injection H as <- _ _ _ _. reflexivity.
  - destruct (writer_shutdown s i (errs i) w) as [[[[r1 e1] s1] w1] st]. intros H. injection H as <- _ _ _ _. cbn [sr_queued sr_result]. rewrite forget_succeeded. reflexivity.
Qed.
Lemma got_got n a e n' : got n a = (e, n') -> exists ev, e = NGot ev.
Proof. unfold got. destruct (perform (nd_shared n) (nd_in n) a) as [[ev s'] i']. intros H. injection H as <- _. eauto. Qed.
(** What a step queues. *)
Lemma step_queue n c e n' : node_step n c = (e, n') ->
  (queue_of [(c, e)] = [] /\ forall i, written i [(c, e)] = []) \/
  (exists name, c = NSend (CallConnect name) /\ queue_of [(c, e)] = [SendNew (sh_next (nd_shared n)) name] /\ connects [(c, e)] = [Receiver (sh_next (nd_shared n))]) \/
  (exists k buf, c = NSend (CallWrite k buf) /\ queue_of [(c, e)] = [SendMessage (other_end k) buf] /\ forall i, written i [(c, e)] = if sid_eqb k i then buf else []) \/
  (exists k, c = NSend (CallShutdown k) /\ queue_of [(c, e)] = [SendClose (other_end k)]).
Proof.
  destruct c as [t|i t room|i|i|c]; cbn [node_step]; try (intros H; apply got_got in H; destruct H as (ev & ->); left; split; reflexivity).
  destruct (send_step (nd_shared n) (nd_errs n) (nd_out n) c) as [[[[r s'] errs'] w'] sent] eqn:E.
  intros H. injection H as <- <-. apply send_step_queue in E. unfold queue_of, written, connects. cbn [flat_map snd]. setoid_rewrite app_nil_r.
  destruct r as [res q]. cbn [sr_queued sr_result] in *. destruct c as [name|i|i buf|i|i]; try (subst q).
  - destruct E as [->| ->]; [left; split; reflexivity|]. right. left. exists name. auto.
  - left. split; reflexivity.
  - destruct (succeeded res); [|left; split; [reflexivity|]; intros k; rewrite andb_false_r; reflexivity].
    right. right. left. exists i, buf. split; [reflexivity|]. split; [reflexivity|]. intros k. rewrite andb_true_r. reflexivity.
  - left. split; reflexivity.
  - destruct (succeeded res); [|left; split; reflexivity]. right. right. right. exists i. auto.
Qed.
Lemma step_written n c e n' i : node_step n c = (e, n') -> written i [(c, e)] = payloads_for (other_end i) (map arrives (queue_of [(c, e)])).
Proof.
  intros H. destruct (step_queue n c e n' H) as [(Q & W)|[(name & Ec & Q & _)|[(k & buf & Ec & Q & W)|(k & Ec & Q)]]]; rewrite Q.
  - apply W.
  - subst c. unfold payloads_for, payload_for. cbn [map arrives flat_map f_id f_op]. destruct (sid_eqb _ _); reflexivity.
  - rewrite W. unfold payloads_for, payload_for. cbn [map arrives flat_map f_id f_op f_data]. rewrite other_end_eqb, app_nil_r. reflexivity.
  - subst c. unfold payloads_for, payload_for. cbn [map arrives flat_map f_id f_op]. destruct (sid_eqb _ _); reflexivity.
Qed.
Lemma payloads_arrives_app i a b : payloads_for i (map arrives (a ++ b)) = payloads_for i (map arrives a) ++ payloads_for i (map arrives b).
Proof. rewrite map_app. apply payloads_app. Qed.
Lemma node_run_written cs i : forall n t n', node_run n cs = (t, n') -> written i t = payloads_for (other_end i) (map arrives (queue_of t)).
Proof.
  induction cs as [|c cs IH]; intros n t n'; cbn [node_run]; [intros H; injection H as <- <-; reflexivity|].
  destruct (node_step n c) as [e n1] eqn:Es. destruct (node_run n1 cs) as [t1 n2] eqn:Er. intros H. injection H as <- <-.
  rewrite written_cons, queue_cons, payloads_arrives_app, <- (step_written _ _ _ _ i Es), <- (IH _ _ _ Er). reflexivity.
Qed.
Lemma node_run_modest cs : forall n t n', node_run n cs = (t, n') -> Forall modest_call cs ->
  sh_next (nd_shared n) + N.of_nat (length cs) <= 2 ^ 61 -> Forall modest_sending (queue_of t).
Proof.
  induction cs as [|c cs IH]; intros n t n'; cbn [node_run]; [intros H _ _; injection H as <- <-; constructor|].
  destruct (node_step n c) as [e n1] eqn:Es. destruct (node_run n1 cs) as [t1 n2] eqn:Er. intros H M L. injection H as <- <-.
  inversion M as [|? ? M1 M2]; subst. cbn [length] in L. rewrite queue_cons. apply Forall_app. split.
  - destruct (step_queue n c e n1 Es) as [(Q & W)|[(name & Ec & Q & _)|[(k & buf & Ec & Q & W)|(k & Ec & Q)]]]; rewrite Q; try constructor; try constructor; subst c; cbn [modest_call] in M1.
    + cbn [number_of]. lia.
    + cbn [payload_of]. destruct name; [exact M1|reflexivity].
    + destruct k; apply M1.
    + apply M1.
    + destruct k; exact M1.
    + reflexivity.
  - apply (IH _ _ _ Er M2). apply step_sends in Es. destruct Es as (_ & Es & _). lia.
Qed.
Lemma connects_queue cs : forall n t n', node_run n cs = (t, n') -> forall m name, In (SendNew m name) (queue_of t) -> In (Receiver m) (connects t).
Proof.
  induction cs as [|c cs IH]; intros n t n'; cbn [node_run]; [intros H; injection H as <- <-; intros m name []|].
  destruct (node_step n c) as [e n1] eqn:Es. destruct (node_run n1 cs) as [t1 n2] eqn:Er. intros H. injection H as <- <-. intros m name Hi.
  rewrite queue_cons in Hi. rewrite connects_cons. apply in_or_app. apply in_app_or in Hi. destruct Hi as [Hi|Hi]; [left|right; eapply IH; eassumption].
  destruct (step_queue n c e n1 Es) as [(Q & W)|[(nm & Ec & Q & Co)|[(k & buf & Ec & Q & W)|(k & Ec & Q)]]]; rewrite Q in Hi.
  - destruct Hi. - destruct Hi as [Hi|[]]. injection Hi as <- <-. rewrite Co. left. reflexivity.
  - destruct Hi as [Hi|[]]. discriminate Hi. - destruct Hi as [Hi|[]]. discriminate Hi.
Qed.

(** *** Cutting runs in two *)
Lemma node_run_calls cs n t n' : node_run n cs = (t, n') -> map fst t = cs.
Proof. intros H. apply node_run_sends in H. apply H. Qed.
Lemma node_run_split cs n t1 c e t2 n' : node_run n cs = (t1 ++ (c, e) :: t2, n') ->
  cs = map fst t1 ++ c :: map fst t2 /\ exists n1 n2, node_run n (map fst t1) = (t1, n1) /\ node_step n1 c = (e, n2) /\ node_run n2 (map fst t2) = (t2, n').
Proof.
  intros H. pose proof (node_run_calls _ _ _ _ H) as C. rewrite map_app in C. cbn [map fst] in C. split; [symmetry; exact C|].
  rewrite <- C, node_run_app in H. destruct (node_run n (map fst t1)) as [u1 n1] eqn:E1. cbn [node_run] in H.
  destruct (node_step n1 c) as [e' n2] eqn:E2. destruct (node_run n2 (map fst t2)) as [u2 n3] eqn:E3. injection H as H Hn.
  pose proof (node_run_calls _ _ _ _ E1) as L1. apply (f_equal (@length _)) in L1. rewrite !map_length in L1.
  assert (K : u1 = t1 /\ (c, e') :: u2 = (c, e) :: t2).
  { clear - H L1. revert t1 L1 H. induction u1 as [|a u1 IH]; intros t1 L1 H; destruct t1 as [|b t1]; try discriminate L1; cbn [app] in H; [auto|].
    injection H as -> H. cbn [length] in L1. destruct (IH t1) as [-> K]; [lia|exact H|auto]. }
  destruct K as [-> K]. injection K as -> ->. subst n3. exists n1, n2. auto.
Qed.
Lemma calls_app x a b : calls_of x (a ++ b) = calls_of x a ++ calls_of x b.
Proof. unfold calls_of. rewrite filter_app, map_app. reflexivity. Qed.
Lemma calls_split x sched : forall l1 c l2, calls_of x sched = l1 ++ c :: l2 ->
  exists p rest, sched = p ++ (x, c) :: rest /\ calls_of x p = l1 /\ calls_of x rest = l2.
Proof.
  induction sched as [|[z d] sched IH]; intros l1 c l2 E; [destruct l1; discriminate E|].
  unfold calls_of in E. cbn [filter] in E. destruct (at_side x (z, d)) eqn:Ez.
  - assert (z = x) as -> by (destruct x, z; (reflexivity || discriminate Ez)). cbn [map snd] in E. destruct l1 as [|d1 l1].
    + injection E as -> E. exists [], sched. auto.
    + cbn [app] in E. injection E as -> E. destruct (IH l1 c l2 E) as (p & rest & -> & <- & <-). exists ((x, d1) :: p), rest. split; [reflexivity|].
      split; [|reflexivity]. unfold calls_of. cbn [filter]. rewrite Ez. reflexivity.
  - destruct (IH l1 c l2 E) as (p & rest & -> & <- & <-). exists ((z, d) :: p), rest. split; [reflexivity|]. split; [|reflexivity].
    unfold calls_of. cbn [filter]. rewrite Ez. reflexivity.
Qed.
Lemma proper_app t1 : forall O c e t2, proper O (t1 ++ (c, e) :: t2) -> forall k, In k (uses c) -> In k O \/ In k (connects t1) \/ In k (accepts t1).
Proof.
  induction t1 as [|[c1 e1] t1 IH]; intros O c e t2 P k Hk; cbn [app proper] in P.
  - left. apply P. exact Hk.
  - destruct P as [_ P]. destruct (IH _ _ _ _ P k Hk) as [H|[H|H]].
    + apply in_app_or in H. destruct H as [H|H]; [|auto]. right. unfold opens in H. apply in_app_or in H.
      destruct H as [H|H]; [left; rewrite connects_cons|right; rewrite accepts_cons]; apply in_or_app; left; exact H.
    + right. left. rewrite connects_cons. apply in_or_app. auto.
    + right. right. rewrite accepts_cons. apply in_or_app. auto.
Qed.
Lemma proper_prefix t1 : forall O t2, proper O (t1 ++ t2) -> proper O t1.
Proof. induction t1 as [|[c e] t1 IH]; intros O t2 P; cbn [app proper] in *; [exact I|]. destruct P as [P1 P2]. split; [exact P1|eapply IH; exact P2]. Qed.
Lemma history_prefix start x p rest : exists t2, fst (history start x (p ++ rest)) = fst (history start x p) ++ t2.
Proof.
  unfold history. rewrite calls_app, node_run_app. destruct (node_run (start x) (calls_of x p)) as [t1 n1]. destruct (node_run n1 (calls_of x rest)) as [t2 n2].
  exists t2. reflexivity.
Qed.

(** *** Sessions *)
Lemma session_start start sched x : session start sched -> nd_shared (start x) = shared_new /\ unread (nd_shared (start x)) (nd_in (start x)) = data_of (nd_in (start x)) /\
  exists reads writes, start x = node_new reads writes.
Proof. intros ((rd & wr & E) & _). rewrite E. split; [reflexivity|]. split; [reflexivity|]. eauto. Qed.
Lemma calls_short x p : (length (calls_of x p) <= length p)%nat.
Proof. unfold calls_of. rewrite map_length. induction p as [|a p IH]; cbn [filter length]; [lia|]. destruct (at_side x a); cbn [length]; lia. Qed.
Lemma calls_modest x p : Forall (fun xc : side * node_call => modest_call (snd xc)) p -> Forall modest_call (calls_of x p).
Proof.
  intros F. unfold calls_of. apply Forall_forall. intros c Hc. apply in_map_iff in Hc. destruct Hc as (xc & <- & Hc). apply filter_In in Hc. destruct Hc as [Hc _].
  rewrite Forall_forall in F. apply (F xc Hc).
Qed.
Lemma queue_modest start sched x p rest : session start sched -> sched = p ++ rest -> Forall modest_sending (queue_of (fst (history start x p))).
Proof.
  intros S E. destruct (session_start start sched x S) as (_ & _ & rd & wr & Es). destruct S as (_ & _ & L & M & _). subst sched. unfold history.
  destruct (node_run (start x) (calls_of x p)) as [t n] eqn:Er. apply (node_run_modest _ _ _ _ Er).
  - apply calls_modest. apply Forall_app in M. apply M.
  - rewrite Es. cbn [node_new nd_shared shared_new sh_next]. pose proof (calls_short x p). rewrite app_length in L.
    change (2 ^ 61) with (2 * 2 ^ 60). assert (33 <= 2 ^ 60) by (vm_compute; discriminate). set (b := 2 ^ 60) in *. clearbody b. lia.
Qed.
(** Whatever frames one end has taken by some time, they are the front of what the other
    has queued by then. *)
Lemma frames_at start sched y p rest fs : session start sched -> sched = p ++ rest ->
  let ny := snd (history start y p) in let nx := snd (history start (opposite y) p) in
  taken (data_of (nd_in (start y))) fs (unread (nd_shared ny) (nd_in ny)) ->
  exists q1 q2 way, queue_of (fst (history start (opposite y) p)) = q1 ++ q2 /\ fs = map arrives q1 /\
    fs_in (sh_frames (nd_shared ny)) ++ way ++ fs_out (sh_frames (nd_shared nx)) = wires q2 /\
    exists came, data_of (nd_in (start y)) = came ++ data_of (nd_in ny) /\ nd_sent nx = came ++ way.
Proof.
  intros S E ny nx (us & Eu & F2). pose proof (queue_modest start sched (opposite y) p rest S E) as Mq.
  destruct (session_start start sched (opposite y) S) as (_ & _ & rd & wr & Es).
  destruct S as (_ & Bs & _ & _ & Cn & _). destruct (Bs y) as [B Fi]. destruct (Cn y p rest E) as (came & way & C1 & C2). fold ny in C1. fold nx in C2.
  assert (Ec : came = concat us ++ fs_in (sh_frames (nd_shared ny))).
  { rewrite C1 in Eu. unfold unread in Eu. rewrite app_assoc in Eu. apply app_inv_tail in Eu. exact Eu. }
  assert (Q : nd_sent nx ++ fs_out (sh_frames (nd_shared nx)) = wires (queue_of (fst (history start (opposite y) p)))).
  { unfold nx, history. rewrite Es. destruct (node_run (node_new rd wr) (calls_of (opposite y) p)) as [t n] eqn:Er. apply start_sends in Er. apply Er. }
  rewrite C2, Ec, <- !app_assoc in Q.
  destruct (frames_prefix us fs F2 _ (fs_in (sh_frames (nd_shared ny))) (way ++ fs_out (sh_frames (nd_shared nx))) Mq) as (q1 & q2 & Q1 & Q2 & Q3).
  - rewrite <- Ec. rewrite C1 in B. apply Forall_app in B. apply B.
  - rewrite <- Ec. unfold fits. rewrite C1, blen_app in Fi. change two64 with (2 ^ 64). set (b := 2 ^ 64) in *. clearbody b. lia.
  - exact Q.
  - exists q1, q2, way. split; [exact Q1|]. split; [exact Q2|]. split; [exact Q3|]. exists came. auto.
Qed.
Lemma history_bytes start sched y : session start sched -> bytes_ok (unread (nd_shared (start y)) (nd_in (start y))) /\ fits (unread (nd_shared (start y)) (nd_in (start y))).
Proof. intros S. destruct (session_start start sched y S) as (_ & -> & _). destruct S as (_ & Bs & _). destruct (Bs y) as [B Fi]. split; [exact B|exact Fi]. Qed.
(** Streams accepted were connected at the other end before. *)
Lemma accepted_connected start sched y p rest i : session start sched -> sched = p ++ rest -> In i (accepts (fst (history start y p))) ->
  exists m name, i = Initiator m /\ In (SendNew m name) (queue_of (fst (history start (opposite y) p))).
Proof.
  intros S E Hi. destruct (history_bytes start sched y S) as [B Fi]. destruct (session_start start sched y S) as (E0 & E1 & _).
  destruct (node_run (start y) (calls_of y p)) as [t n] eqn:Er. destruct (node_run_acted _ _ _ _ Er) as (acts & es & (R & _ & _ & Ra & _) & _).
  assert (Hh : history start y p = (t, n)) by exact Er.
  apply run_taken in R; [|exact B|exact Fi|rewrite E0; exact I]. destruct R as (fs & T & _ & _ & _ & A & _).
  rewrite E1 in T. pose proof (frames_at start sched y p rest fs S E) as Fa. rewrite Hh in Fa. cbn [fst snd] in Fa. destruct (Fa T) as (q1 & q2 & way & Q1 & Q2 & _).
  rewrite Hh in Hi. cbn [fst] in Hi. rewrite E0 in A. cbn [shared_new sh_incoming opt_list app] in A.
  assert (In i (opened_by fs)).
  { assert (Pi : forall (l m : list stream_id), part_of l m -> In i l -> In i m) by (induction 1; cbn [In]; intuition). apply (Pi _ _ A). apply in_or_app. left. rewrite Ra. exact Hi. }
  subst fs. unfold opened_by in H. apply in_flat_map in H. destruct H as (f & Hf & Hi'). apply in_map_iff in Hf. destruct Hf as (x & <- & Hx).
  destruct x as [m name|st d|st]; cbn [arrives f_op f_id] in Hi'; try contradiction. destruct Hi' as [<-|[]]. exists m, name. split; [reflexivity|].
  rewrite Q1. apply in_or_app. auto.
Qed.
(** Nothing is queued for a stream before the frame that opens it. *)
Lemma payloads_nonempty j l : payloads_for j (map arrives l) <> [] -> exists d, In (SendMessage j d) l.
Proof.
  induction l as [|x l IH]; cbn [map]; [intros H; exfalso; apply H; reflexivity|]. intros H. unfold payloads_for in H. cbn [flat_map] in H. fold (payloads_for j (map arrives l)) in H.
  destruct (payload_for j (arrives x)) as [|b r] eqn:Ep.
  - destruct (IH H) as (d & Hd). exists d. right. exact Hd.
  - unfold payload_for in Ep. destruct x as [m name|st d|st]; cbn [arrives f_id f_op f_data] in Ep; destruct (sid_eqb _ j) eqn:Es; try discriminate Ep.
    apply sid_eqb_eq in Es. subst st. exists d. left. reflexivity.
Qed.
Lemma in_queue t x : In x (queue_of t) -> exists t1 c r t2, t = t1 ++ (c, NSent r) :: t2 /\ sr_queued r = Some x.
Proof.
  intros H. unfold queue_of in H. apply in_flat_map in H. destruct H as ([c e] & Hc & Hx). cbn [snd] in Hx. destruct e as [ev|r]; [destruct Hx|].
  apply in_split in Hc. destruct Hc as (t1 & t2 & ->). exists t1, c, r, t2. split; [reflexivity|]. destruct (sr_queued r) as [y|]; [|destruct Hx]. destruct Hx as [->|[]]. reflexivity.
Qed.
Lemma message_was_written n t1 c r t2 n' j d cs : node_run n cs = (t1 ++ (c, NSent r) :: t2, n') -> sr_queued r = Some (SendMessage j d) ->
  exists k, c = NSend (CallWrite k d) /\ j = other_end k.
Proof.
  intros H Eq. apply node_run_split in H. destruct H as (_ & n1 & n2 & _ & Es & _).
  assert (Q0 : queue_of [(c, NSent r)] = [SendMessage j d]) by (unfold queue_of; cbn [flat_map snd]; rewrite Eq; reflexivity).
  destruct (step_queue n1 c _ n2 Es) as [(Q & W)|[(name & Ec & Q & _)|[(k & buf & Ec & Q & W)|(k & Ec & Q)]]]; rewrite Q0 in Q; try discriminate Q.
  injection Q as -> ->. eauto.
Qed.
Lemma other_end_inj a b : other_end a = other_end b -> a = b.
Proof. destruct a, b; cbn; intros H; congruence. Qed.
Lemma history_cut start x sched t1 c e t2 : fst (history start x sched) = t1 ++ (c, e) :: t2 ->
  exists p rest, sched = p ++ (x, c) :: rest /\ fst (history start x p) = t1.
Proof.
  intros E. unfold history in E. destruct (node_run (start x) (calls_of x sched)) as [t n] eqn:Er. cbn [fst] in E. subst t.
  apply node_run_split in Er. destruct Er as (Ec & n1 & n2 & R1 & _). apply calls_split in Ec. destruct Ec as (p & rest & -> & Ep & _).
  exists p, rest. split; [reflexivity|]. unfold history. rewrite Ep, R1. reflexivity.
Qed.
Lemma session_prefix start p rest : session start (p ++ rest) -> session start p.
Proof.
  intros (H1 & H2 & H3 & H4 & H5 & H6). split; [exact H1|]. split; [exact H2|]. split; [rewrite app_length in H3; set (b := 2 ^ 60) in *; clearbody b; lia|].
  split; [apply Forall_app in H4; apply H4|]. split.
  - intros x p1 r1 ->. apply (H5 x p1 (r1 ++ rest)). rewrite <- app_assoc. reflexivity.
  - intros x. destruct (history_prefix start x p rest) as (t2 & E). specialize (H6 x). rewrite E in H6. eapply proper_prefix. exact H6.
Qed.
(** A message for stream [j] of the other end was queued: then the stream is open, by then,
    at this end. *)
Lemma message_opened start sched x j d : session start sched -> In (SendMessage j d) (queue_of (fst (history start x sched))) ->
  exists p rest c, sched = p ++ (x, c) :: rest /\ (In (other_end j) (connects (fst (history start x p))) \/ In (other_end j) (accepts (fst (history start x p)))).
Proof.
  intros S Hi. apply in_queue in Hi. destruct Hi as (t1 & c & r & t2 & E & Eq). pose proof (history_cut start x sched t1 c _ t2 E) as (p & rest & Ep & Et).
  exists p, rest, c. split; [exact Ep|]. rewrite Et. destruct S as (_ & _ & _ & _ & _ & Pr). specialize (Pr x). rewrite E in Pr.
  assert (R : exists cs n n', node_run n cs = (t1 ++ (c, NSent r) :: t2, n')).
  { unfold history in E. destruct (node_run (start x) (calls_of x sched)) as [t n'] eqn:Er. cbn [fst] in E. subst t. eauto. }
  destruct R as (cs & n & n' & R). destruct (message_was_written n t1 c r t2 n' j d cs R Eq) as (k & -> & ->).
  destruct (proper_app _ _ _ _ _ Pr k) as [[]|H]; [left; reflexivity|]. destruct k; exact H.
Qed.
Lemma connects_are_receivers start sched x p i : session start sched -> In i (connects (fst (history start x p))) -> exists m, i = Receiver m /\ m < sh_next (nd_shared (snd (history start x p))).
Proof.
  intros S Hi. destruct (session_start start sched x S) as (_ & _ & rd & wr & Es). unfold history in *. rewrite Es in *.
  destruct (node_run (node_new rd wr) (calls_of x p)) as [t n] eqn:Er. cbn [fst snd] in *. apply start_sends in Er. destruct Er as (_ & _ & C & _). apply C. exact Hi.
Qed.
Lemma next_grows start x p rest : sh_next (nd_shared (snd (history start x p))) <= sh_next (nd_shared (snd (history start x (p ++ rest)))).
Proof.
  unfold history. rewrite calls_app, node_run_app. destruct (node_run (start x) (calls_of x p)) as [t1 n1]. destruct (node_run n1 (calls_of x rest)) as [t2 n2] eqn:E.
  apply node_run_sends in E. cbn [snd]. lia.
Qed.
Lemma taken_unique d fs1 : forall fs2 d', bytes_ok d -> fits d -> taken d fs1 d' -> taken d fs2 d' -> fs1 = fs2.
Proof.
  intros fs2 d' B Fi (us & E1 & F1) (vs & E2 & F2). revert d fs2 vs B Fi E1 E2 F2.
  induction F1 as [|u f us fs1 Fu F1 IH]; intros d fs2 vs B Fi E1 E2 F2; destruct F2 as [|v g vs fs2 Fv F2].
  - reflexivity.
  - cbn [concat app] in *. apply frame_bytes_nonempty in Fv. rewrite E1 in E2. apply (f_equal (@length N)) in E2. rewrite !app_length in E2. lia.
  - cbn [concat app] in *. apply frame_bytes_nonempty in Fu. rewrite E1 in E2. apply (f_equal (@length N)) in E2. rewrite !app_length in E2. lia.
  - cbn [concat] in *. rewrite <- app_assoc in *.
    assert (H1 : buffered_frame d = Ok (Some (f, concat us ++ d'))) by (apply buffered_frame_iff; eauto).
    assert (H2 : buffered_frame d = Ok (Some (g, concat vs ++ d'))) by (apply buffered_frame_iff; eauto).
    assert (E : f = g /\ concat us ++ d' = concat vs ++ d') by (split; congruence). destruct E as [-> E]. f_equal.
    apply (IH (concat us ++ d') fs2 vs); auto.
    + rewrite E1 in B. apply Forall_app in B. apply B.
    + rewrite E1 in Fi. apply fits_suffix in Fi. exact Fi.
Qed.
Lemma queue_split t : forall a x b, queue_of t = a ++ x :: b -> exists u1 c r u2, t = u1 ++ (c, NSent r) :: u2 /\ queue_of u1 = a /\ sr_queued r = Some x.
Proof.
  induction t as [|[c e] t IH]; intros a x b E; [destruct a; discriminate E|]. rewrite queue_cons in E.
  assert (Q : queue_of [(c, e)] = [] \/ exists r y, e = NSent r /\ sr_queued r = Some y /\ queue_of [(c, e)] = [y]).
  { unfold queue_of. cbn [flat_map snd]. rewrite app_nil_r. destruct e as [ev|[res [y|]]]; cbn [sr_queued opt_list]; eauto. right. exists {| sr_result := res; sr_queued := Some y |}, y. auto. }
  destruct Q as [Q|(r & y & -> & Eq & Q)]; rewrite Q in E; cbn [app] in E.
  - destruct (IH a x b E) as (u1 & c1 & r1 & u2 & -> & Q1 & Q2). exists ((c, e) :: u1), c1, r1, u2. split; [reflexivity|]. split; [rewrite queue_cons, Q, Q1; reflexivity|exact Q2].
  - destruct a as [|z a]; cbn [app] in E; injection E as -> E.
    + exists [], c, r, t. split; [reflexivity|]. split; [reflexivity|exact Eq].
    + destruct (IH a x b E) as (u1 & c1 & r1 & u2 & -> & Q1 & Q2). exists ((c, NSent r) :: u1), c1, r1, u2. split; [reflexivity|]. split; [rewrite queue_cons, Q, Q1; reflexivity|exact Q2].
Qed.
Lemma history_snoc start y p c e n1 n2 t1 : history start y p = (t1, n1) -> node_step n1 c = (e, n2) -> history start y (p ++ [(y, c)]) = (t1 ++ [(c, e)], n2).
Proof.
  intros H E. unfold history in *. rewrite calls_app, node_run_app, H. replace (calls_of y [(y, c)]) with [c] by (destruct y; reflexivity). cbn [node_run]. rewrite E. reflexivity.
Qed.
Lemma opposite_twice y : opposite (opposite y) = y. Proof. destruct y; reflexivity. Qed.
Lemma nil_dec {A} (l : list A) : l = [] \/ l <> []. Proof. destruct l; [left; reflexivity|right; discriminate]. Qed.
(** When a stream is opened, its reader is there, and no bytes for it were taken yet. *)
Lemma opened_fresh start y p c t1 n1 e n2 j : session start (p ++ [(y, c)]) -> history start y p = (t1, n1) -> node_step n1 c = (e, n2) -> In j (opens e) ->
  have_reader (nd_shared n2) j = true /\
  forall fs, taken (data_of (nd_in (start y))) fs (unread (nd_shared n2) (nd_in n2)) -> payloads_for j fs = [].
Proof.
  intros S Hh Es Hj. set (P := p ++ [(y, c)]) in *. pose proof (history_snoc start y p c e n1 n2 t1 Hh Es) as HP. fold P in HP.
  assert (FA : forall fs, taken (data_of (nd_in (start y))) fs (unread (nd_shared n2) (nd_in n2)) ->
    exists q1 q2, queue_of (fst (history start (opposite y) P)) = q1 ++ q2 /\ fs = map arrives q1).
  { intros fs T. pose proof (frames_at start P y P [] fs S ltac:(symmetry; apply app_nil_r)) as X. rewrite HP in X. cbn [snd] in X. destruct (X T) as (q1 & q2 & way & Q1 & Q2 & _). eauto. }
  unfold opens in Hj. apply in_app_or in Hj. destruct Hj as [Hj|Hj].
  - (* connected here *)
    unfold connects in Hj. cbn [flat_map snd] in Hj. rewrite app_nil_r in Hj. destruct e as [ev|[res [[m nm|st dt|st]|]]]; try contradiction. destruct Hj as [<-|[]].
    destruct c as [t|i t room|i|i|c]; cbn [node_step] in Es; try (apply got_got in Es; destruct Es as (ev & Es); discriminate Es).
    destruct (send_step (nd_shared n1) (nd_errs n1) (nd_out n1) c) as [[[[r s'] errs'] w'] sent] eqn:E.
    injection Es as Er <-. apply send_step_acts in E.
    destruct E as [(out & _ & Nq)|(name & i & s1 & out & Ec & Ea & -> & Ei & En & Eq)]; [exfalso; apply (Nq m nm); rewrite Er; reflexivity|].
    rewrite Er in Eq. cbn [sr_queued] in Eq. injection Eq as Em _. cbn [nd_shared nd_in] in *. split.
    + unfold shared_append_new in Ea. destruct (two64 <=? sh_next (nd_shared n1) + 1); [discriminate|]. injection Ea as <- <-.
      change (have_reader (add_stream (with_next (nd_shared n1) (sh_next (nd_shared n1) + 1)) (Receiver (sh_next (nd_shared n1)))) (Receiver m) = true).
      rewrite have_add, Em, sid_eqb_refl. reflexivity.
    + intros fs T. destruct (FA fs T) as (q1 & q2 & Q1 & ->). destruct (nil_dec (payloads_for (Receiver m) (map arrives q1))) as [Z|Z]; [exact Z|]. exfalso.
      apply payloads_nonempty in Z. destruct Z as (d & Hd).
      assert (Hq : In (SendMessage (Receiver m) d) (queue_of (fst (history start (opposite y) P)))) by (rewrite Q1; apply in_or_app; auto).
      destruct (message_opened start P (opposite y) _ d S Hq) as (p' & rest' & c' & Ep & Ho). cbn [other_end] in Ho.
      assert (Sp : session start (p' ++ (opposite y, c') :: rest')) by (rewrite <- Ep; exact S).
      destruct Ho as [Ho|Ho]; [apply (connects_are_receivers start P (opposite y) p' _ S) in Ho; destruct Ho as (? & Ho & _); discriminate Ho|].
      destruct (accepted_connected start _ (opposite y) p' _ _ Sp eq_refl Ho) as (m' & name' & Em' & Hn). injection Em' as <-. rewrite opposite_twice in Hn.
      assert (Hc : In (Receiver m) (connects (fst (history start y p')))).
      { unfold history in *. destruct (node_run (start y) (calls_of y p')) as [tt nn] eqn:Er'. cbn [fst] in *. eapply connects_queue; eassumption. }
      apply (connects_are_receivers start P y p' _ S) in Hc. destruct Hc as (m'' & Hm & Lt). injection Hm as <-.
      unfold P in Ep. destruct rest' as [|z rest'] using rev_ind.
      { apply app_inj_tail in Ep. destruct Ep as [_ Ep]. injection Ep as Ep _. destruct y; discriminate Ep. }
      rewrite app_comm_cons, app_assoc in Ep. apply app_inj_tail in Ep. destruct Ep as [Ep _]. pose proof (next_grows start y p' ((opposite y, c') :: rest')) as Ng.
      rewrite <- Ep, Hh in Ng. cbn [snd] in Ng. lia.
  - (* accepted here *)
    unfold accepts in Hj. cbn [flat_map snd] in Hj. rewrite app_nil_r in Hj. destruct e as [[j'| | | | | | | |]|r]; try contradiction. destruct Hj as [->|[]].
    assert (Ga : exists t, perform (nd_shared n1) (nd_in n1) (Accept t) = (EvAccepted j, nd_shared n2, nd_in n2)).
    { destruct c as [t|i t room|i|i|c]; cbn [node_step] in Es; unfold got in Es; cbn [perform] in Es.
      - exists t. cbn [perform]. destruct (poll_accept_id (nd_shared n1) t (nd_in n1)) as [[r s'] a']. injection Es as Ee <-. cbn [nd_shared nd_in]. rewrite Ee. reflexivity.
      - destruct (poll_read (nd_shared n1) i t room (nd_in n1)) as [[[[|[?|?|]]|] ?] ?]; discriminate Es.
      - discriminate Es. - discriminate Es.
      - destruct (send_step (nd_shared n1) (nd_errs n1) (nd_out n1) c) as [[[[r s'] errs'] w'] sent]. discriminate Es. }
    destruct Ga as (t & Ga). destruct (history_bytes start P y S) as [B Fi]. destruct (session_start start P y S) as (E0 & E1 & _).
    destruct (node_run_acted _ _ _ _ Hh) as (acts & es & (R & _) & _).
    assert (B1 : bytes_ok (unread (nd_shared n1) (nd_in n1)) /\ fits (unread (nd_shared n1) (nd_in n1))).
    { destruct (run_last _ _ _ _ _ _ B Fi R) as (fs0 & T0 & _). split; [exact (taken_ok _ _ _ T0 B)|exact (taken_fits _ _ _ T0 Fi)]. }
    split.
    + destruct (perform_spec _ _ _ _ _ _ (proj1 B1) (proj2 B1) Ga) as (_ & _ & _ & _ & _ & _ & HK & _). rewrite HK. cbn [keeps]. rewrite sid_eqb_refl. reflexivity.
    + intros fs T. destruct (accept_is_last acts _ _ es _ _ t _ _ j B Fi ltac:(rewrite E0; reflexivity) R Ga) as (l & g & T' & G1 & G2).
      rewrite E1 in *. pose proof (taken_unique _ _ _ _ B Fi T T') as ->. clear T'. destruct (FA _ T) as (q1 & q2 & Q1 & Q2).
      destruct q1 as [|x q1] using rev_ind; [destruct l; discriminate Q2|]. clear IHq1. rewrite map_app in Q2. cbn [map] in Q2. apply app_inj_tail in Q2. destruct Q2 as [-> ->].
      destruct x as [m nm|st dt|st]; cbn [arrives f_op f_id] in G1, G2; try discriminate G2. subst j.
      rewrite payloads_app. replace (payloads_for (Initiator m) [arrives (SendNew m nm)]) with (@nil N) by (unfold payloads_for, payload_for; cbn [flat_map arrives f_op f_id]; destruct (sid_eqb _ _); reflexivity).
      rewrite app_nil_r. destruct (nil_dec (payloads_for (Initiator m) (map arrives q1))) as [Z|Z]; [exact Z|]. exfalso. apply payloads_nonempty in Z. destruct Z as (d & Hd).
      rewrite <- app_assoc in Q1. cbn [app] in Q1. apply queue_split in Q1. destruct Q1 as (u1 & c0 & r0 & u2 & Eu & Qu & Qr).
      destruct (history_cut start _ P u1 c0 _ u2 Eu) as (p0 & rest0 & Ep0 & Eh0).
      assert (Sp0 : session start p0) by (apply (session_prefix start p0 ((opposite y, c0) :: rest0)); rewrite <- Ep0; exact S).
      rewrite <- Eh0 in Qu. rewrite <- Qu in Hd. destruct (message_opened start p0 (opposite y) _ d Sp0 Hd) as (p1 & rest1 & c1 & Ep1 & Ho). cbn [other_end] in Ho.
      assert (Lt : m < sh_next (nd_shared (snd (history start (opposite y) p1)))).
      { destruct Ho as [Ho|Ho].
        - apply (connects_are_receivers start P (opposite y) p1 _ S) in Ho. destruct Ho as (m' & Hm & Lt). injection Hm as <-. exact Lt.
        - assert (Sp1 : session start (p1 ++ (opposite y, c1) :: rest1)) by (rewrite <- Ep1; exact Sp0).
          destruct (accepted_connected start _ (opposite y) p1 _ _ Sp1 eq_refl Ho) as (m' & name' & Em' & _). discriminate Em'. }
      pose proof (next_grows start (opposite y) p1 ((opposite y, c1) :: rest1)) as Ng. rewrite <- Ep1 in Ng.
      assert (Em : m = sh_next (nd_shared (snd (history start (opposite y) p0)))).
      { unfold history in Eu. destruct (node_run (start (opposite y)) (calls_of (opposite y) P)) as [tt nn] eqn:Er. cbn [fst] in Eu. subst tt.
        apply node_run_split in Er. destruct Er as (Ec & n3 & n4 & R3 & S3 & _).
        assert (En3 : snd (history start (opposite y) p0) = n3).
        { unfold history in *. pose proof (f_equal (@length _) (node_run_calls _ _ _ _ R3)) as L3.
          destruct (node_run (start (opposite y)) (calls_of (opposite y) p0)) as [t0 n0] eqn:E00. cbn [fst snd] in *. subst t0. rewrite (node_run_calls _ _ _ _ E00) in R3. rewrite E00 in R3. congruence. }
        rewrite En3. apply step_sends in S3. destruct S3 as (_ & _ & S3 & _). destruct (S3 (Receiver m)) as [Hr _]; [unfold connects; cbn [flat_map snd]; destruct r0 as [res q]; cbn [sr_queued] in Qr; subst q; left; reflexivity|]. congruence. }
      lia.
Qed.
Lemma read_was_open start y sched j : proper [] (fst (history start y sched)) ->
  received j (fst (history start y sched)) <> [] -> In j (connects (fst (history start y sched)) ++ accepts (fst (history start y sched))).
Proof.
  unfold history. destruct (node_run (start y) (calls_of y sched)) as [t n'] eqn:Er. cbn [fst]. intros P H.
  assert (X : exists c e, In (c, e) t /\ exists room b, e = NGot (EvBytes j room b)).
  { clear - H. induction t as [|[c e] t IH]; [exfalso; apply H; reflexivity|]. rewrite received_cons in H. destruct (received j [(c, e)]) as [|b0 r0] eqn:E.
    - destruct (IH H) as (c1 & e1 & H1 & H2). exists c1, e1. split; [right; exact H1|exact H2].
    - exists c, e. split; [left; reflexivity|]. unfold received in E. cbn [flat_map snd] in E. destruct e as [[| |k room b| | | | | |]|]; try discriminate E.
      destruct (sid_eqb k j) eqn:Ek; [|discriminate E]. apply sid_eqb_eq in Ek. subst k. eauto. }
  destruct X as (c & e & Hi & room & b & ->). apply in_split in Hi. destruct Hi as (t1 & t2 & ->).
  apply node_run_split in Er. destruct Er as (_ & n1 & n2 & _ & Es & _).
  assert (Hc : uses c = [j]).
  { destruct c as [tt|i tt rm|i|i|c]; cbn [node_step] in Es; unfold got in Es; cbn [perform] in Es.
    - destruct (poll_accept_id (nd_shared n1) tt (nd_in n1)) as [[[[|[[?|]|?|]]|] ?] ?]; discriminate Es.
    - destruct (poll_read (nd_shared n1) i tt rm (nd_in n1)) as [[[[|[?|?|]]|] ?] ?]; try discriminate Es. injection Es as <- _ _ _. reflexivity.
    - discriminate Es. - discriminate Es.
    - destruct (send_step (nd_shared n1) (nd_errs n1) (nd_out n1) c) as [[[[r s'] errs'] w'] sent]. discriminate Es. }
  destruct (proper_app _ _ _ _ _ P j) as [[]|Ho]; [rewrite Hc; left; reflexivity|].
  rewrite connects_app, accepts_app. apply in_or_app. destruct Ho as [Ho|Ho]; [left|right]; apply in_or_app; auto.
Qed.
Lemma opened_somewhere t j : In j (connects t ++ accepts t) -> exists t1 c e t2, t = t1 ++ (c, e) :: t2 /\ In j (opens e).
Proof.
  intros H. assert (X : exists c e, In (c, e) t /\ In j (opens e)).
  { apply in_app_or in H. destruct H as [H|H]; unfold connects, accepts in H; apply in_flat_map in H; destruct H as ([c e] & Hi & Hj); exists c, e; (split; [exact Hi|]);
      unfold opens, connects, accepts; cbn [flat_map snd] in *; rewrite !app_nil_r; apply in_or_app; [left|right]; exact Hj. }
  destruct X as (c & e & Hi & Hj). apply in_split in Hi. destruct Hi as (t1 & t2 & ->). exists t1, c, e, t2. auto.
Qed.
(** Where the bytes of a stream are: read, in front, or (in the queue or on the way) not yet
    turned into frames. *)
Lemma where_the_bytes_are start sched x i : session start sched -> let y := opposite x in let j := other_end i in
  let tx := fst (history start x sched) in let ty := fst (history start y sched) in let nx := snd (history start x sched) in let ny := snd (history start y sched) in
  ~ In (NDropReader j) (calls_of y sched) -> In j (connects ty ++ accepts ty) ->
  exists q2 way came, written i tx = received j ty ++ payloads_for j (opt_list (sh_incoming (nd_shared ny))) ++ payloads_for j (map arrives q2) /\
    fs_in (sh_frames (nd_shared ny)) ++ way ++ fs_out (sh_frames (nd_shared nx)) = wires q2 /\
    data_of (nd_in (start y)) = came ++ data_of (nd_in ny) /\ nd_sent nx = came ++ way.
Proof.
  intros S y j tx ty nx ny Nd Ho. apply opened_somewhere in Ho. destruct Ho as (t1 & c & e & t2 & Et & Hj).
  destruct (history_bytes start sched y S) as [B Fi]. destruct (session_start start sched y S) as (E0 & E1 & _).
  pose proof (eq_refl (history start y sched)) as Hy. unfold history in Hy at 1. destruct (node_run (start y) (calls_of y sched)) as [t n] eqn:Er.
  assert (t = ty) by (unfold ty; rewrite <- Hy; reflexivity). assert (n = ny) by (unfold ny; rewrite <- Hy; reflexivity). subst t n. rewrite Et in Er.
  apply node_run_split in Er. destruct Er as (Ec & n1 & n2 & R1 & Es & R2). pose proof Ec as Ec'. apply calls_split in Ec'. destruct Ec' as (p & rest & Es' & Ep & Erest).
  assert (Hp : history start y p = (t1, n1)) by (unfold history; rewrite Ep; exact R1).
  assert (Sp : session start (p ++ [(y, c)])) by (apply (session_prefix start _ rest); rewrite <- app_assoc; cbn [app]; rewrite <- Es'; exact S).
  destruct (opened_fresh start y p c t1 n1 e n2 j Sp Hp Es Hj) as [Hr Fr].
  pose proof (history_snoc start y p c e n1 n2 t1 Hp Es) as HP.
  destruct (node_run_acted _ _ _ _ HP) as (acts1 & es1 & (A1 & _ & A3 & _) & _).
  apply run_taken in A1; [|exact B|exact Fi|rewrite E0; exact I]. destruct A1 as (fs1 & T1 & S1 & _ & P1 & _). rewrite E0 in P1. cbn [shared_new sh_incoming opt_list app] in P1.
  specialize (P1 j). rewrite E1 in T1. rewrite (Fr fs1 T1) in P1.
  assert (Z : forall l : bytes, part_of l [] -> l = []) by (intros l Hl; inversion Hl; reflexivity).
  apply Z in P1. apply app_eq_nil in P1. destruct P1 as [P1 P1']. rewrite A3 in P1.
  destruct (node_run_acted _ _ _ _ R2) as (acts2 & es2 & (A1 & _ & A4 & _ & A5) & _).
  rewrite E1 in B, Fi. apply run_taken in A1; [|exact (taken_ok _ _ _ T1 B)|exact (taken_fits _ _ _ T1 Fi)|exact S1].
  destruct A1 as (fs2 & T2 & _ & _ & _ & _ & K & _).
  destruct (K j Hr) as [_ K2]. { intros X. apply A5 in X. apply Nd. rewrite Ec. apply in_or_app. right. right. exact X. }
  rewrite payloads_app, P1', A4 in K2. cbn [app] in K2.
  pose proof (taken_trans _ _ _ _ _ T1 T2) as T.
  pose proof (frames_at start sched y sched [] (fs1 ++ fs2) S ltac:(symmetry; apply app_nil_r)) as Fa. cbn zeta in Fa. fold ny in Fa.
  destruct (Fa T) as (q1 & q2 & way & Q1 & Q2 & Q3 & came & C1 & C2). unfold y in Q1, Q3, C2. rewrite opposite_twice in Q1, Q3, C2. fold tx in Q1. fold nx in Q3, C2.
  exists q2, way, came. split; [|auto].
  assert (W : written i tx = payloads_for j (map arrives (queue_of tx))).
  { unfold tx, history. destruct (node_run (start x) (calls_of x sched)) as [t n] eqn:Er. exact (node_run_written _ i _ _ _ Er). }
  rewrite W, Q1, payloads_arrives_app, <- Q2, payloads_app, (Fr fs1 T1), K2. cbn [app].
  rewrite Et, received_app, received_cons. rewrite received_app in P1. apply app_eq_nil in P1. destruct P1 as [-> ->]. cbn [app]. symmetry. apply app_assoc.
Qed.

(** ** C115 *)
(** In any session, with anything else going on in either direction: what one end has read
    from a stream is the beginning of what the other end has written to it. *)
Theorem C115_streams_are_pipes : forall (start : side -> node) (sched : list (side * node_call)) (x : side) (i : stream_id),
  session start sched -> ~ In (NDropReader (other_end i)) (calls_of (opposite x) sched) ->
  exists rest, written i (fst (history start x sched)) = received (other_end i) (fst (history start (opposite x) sched)) ++ rest.
Proof.
  intros start sched x i S Nd. destruct (nil_dec (received (other_end i) (fst (history start (opposite x) sched)))) as [Z|Z]; [rewrite Z; eexists; reflexivity|].
  assert (Ho := read_was_open start (opposite x) sched (other_end i) (proj2 (proj2 (proj2 (proj2 (proj2 S)))) (opposite x)) Z).
  destruct (where_the_bytes_are start sched x i S Nd Ho) as (q2 & way & came & W & _). rewrite W. eexists. reflexivity.
Qed.
Print Assumptions C115_streams_are_pipes.
(** Once nothing is left in the sender's queue, on the way, buffered or in front at the
    receiver, everything written was read. *)
Theorem C115_everything_arrives : forall (start : side -> node) (sched : list (side * node_call)) (x : side) (i : stream_id),
  session start sched -> let y := opposite x in let j := other_end i in
  let nx := snd (history start x sched) in let ny := snd (history start y sched) in
  ~ In (NDropReader j) (calls_of y sched) -> In j (connects (fst (history start y sched)) ++ accepts (fst (history start y sched))) ->
  fs_out (sh_frames (nd_shared nx)) = [] -> data_of (nd_in (start y)) = nd_sent nx ++ data_of (nd_in ny) ->
  fs_in (sh_frames (nd_shared ny)) = [] -> sh_incoming (nd_shared ny) = None ->
  written i (fst (history start x sched)) = received j (fst (history start y sched)).
Proof.
  intros start sched x i S y j nx ny Nd Ho Fo Da Fi Inc.
  destruct (where_the_bytes_are start sched x i S Nd Ho) as (q2 & way & came & W & Q & C1 & C2).
  fold y in W, Q, C1. fold nx in Q, C2. fold ny in W, Q, C1. fold j in W. rewrite Inc in W. rewrite Fi, Fo in Q. rewrite Da in C1. apply app_inv_tail in C1. rewrite C1 in C2.
  assert (way = []) as -> by (apply (app_inv_head came); rewrite app_nil_r; symmetry; exact C2).
  assert (q2 = []) as ->.
  { destruct q2 as [|z q2]; [reflexivity|]. cbn [app] in Q. unfold wires in Q. cbn [map concat] in Q. unfold wire_frame in Q. symmetry in Q. apply app_eq_nil in Q. destruct Q as [Q _].
    apply app_eq_nil in Q. destruct Q as [Q _]. exfalso. exact (VarintProofs.encode_nonempty _ Q). }
  rewrite W. cbn [opt_list map]. rewrite !app_nil_r. reflexivity.
Qed.
Print Assumptions C115_everything_arrives.
(** Streams are accepted in the order in which the other end opened them, none left out. *)
Theorem C115_accepts_in_order : forall (start : side -> node) (sched : list (side * node_call)) (x : side), session start sched ->
  exists rest, map other_end (connects (fst (history start x sched))) = accepts (fst (history start (opposite x) sched)) ++ rest.
Proof.
  intros start sched x S. set (y := opposite x). destruct (history_bytes start sched y S) as [B Fi]. destruct (session_start start sched y S) as (E0 & E1 & _).
  destruct (node_run (start y) (calls_of y sched)) as [t n] eqn:Er. destruct (node_run_acted _ _ _ _ Er) as (acts & es & (R & _ & _ & Ra & _) & Ro).
  assert (Hh : history start y sched = (t, n)) by exact Er.
  apply run_taken in R; [|exact B|exact Fi|rewrite E0; exact I]. destruct R as (fs & T & _ & _ & _ & _ & _ & _ & A).
  rewrite E1 in T. pose proof (frames_at start sched y sched [] fs S ltac:(symmetry; apply app_nil_r)) as Fa. rewrite Hh in Fa. cbn [fst snd] in Fa.
  destruct (Fa T) as (q1 & q2 & way & Q1 & Q2 & _). unfold y in Q1. rewrite opposite_twice in Q1.
  rewrite E0 in A. cbn [shared_new sh_incoming opt_list app] in A.
  assert (P : proper [] t) by (pose proof (proj2 (proj2 (proj2 (proj2 (proj2 S)))) y) as P; rewrite Hh in P; exact P).
  assert (Oq : forall u, opened_by (map arrives (queue_of u)) = map other_end (connects u)).
  { induction u as [|ce u IH]; [reflexivity|]. rewrite queue_cons, connects_cons, !map_app. unfold opened_by in *. rewrite flat_map_app, IH. f_equal.
    destruct ce as [c [ev|[res [[m nm|st d|st]|]]]]; reflexivity. }
  assert (D : NoDup (map other_end (connects (fst (history start x sched))))).
  { destruct (session_start start sched x S) as (_ & _ & rd & wr & Es). unfold history. rewrite Es. destruct (node_run (node_new rd wr) (calls_of x sched)) as [u m] eqn:Eu.
    apply start_sends in Eu. destruct Eu as (_ & _ & _ & D). cbn [fst]. revert D. generalize (connects u). induction l as [|a l IH]; intros D; cbn [map]; [constructor|].
    inversion D; subst. constructor; [|auto]. intros H. apply in_map_iff in H. destruct H as (b & Hb & Hin). apply other_end_inj in Hb. subst b. contradiction. }
  rewrite <- Oq, Q1, map_app in D |- *. unfold opened_by in D |- *. rewrite flat_map_app in D |- *. rewrite <- Q2 in D |- *. fold (opened_by fs) in D |- *.
  rewrite <- (A [] (Ro [] P)), Ra, Hh; [|clear - D|intros i []]. { cbn [fst]. rewrite <- app_assoc. eexists. reflexivity. }
  revert D. generalize (opened_by fs). induction l as [|a l IH]; intros D; [constructor|]. cbn [app] in D. inversion D; subst. constructor; [|auto]. intros H. apply H1. apply in_or_app. auto.
Qed.
Print Assumptions C115_accepts_in_order.
(** But the streams are not independent: while one end does not take the frame in front
    (data of a stream that is open but not being read, or a stream not being accepted), no
    other stream delivers anything, none is accepted, and nothing more is read from the
    transport, however many calls are made. *)
Definition takes_front (f : frame) (c : node_call) : Prop :=
  c = NDropReader (f_id f) \/ (exists t room, c = NRead (f_id f) t room) \/ (f_op f = New /\ exists t, c = NAccept t).
Theorem C115_head_of_line_refuted : forall (cs : list node_call) (n : node) (f : frame) (t : trace) (n' : node),
  sh_incoming (nd_shared n) = Some f -> f_op f = New \/ have_reader (nd_shared n) (f_id f) = true ->
  node_run n cs = (t, n') -> (forall c, In c cs -> ~ takes_front f c) ->
  (forall k, received k t = []) /\ accepts t = [] /\ nd_in n' = nd_in n /\ sh_incoming (nd_shared n') = Some f.
Proof.
  induction cs as [|c cs IH]; intros n f t n' Hf Hk H Nc; cbn [node_run] in H.
  - injection H as <- <-. auto.
  - destruct (node_step n c) as [e n1] eqn:Es. destruct (node_run n1 cs) as [t1 n2] eqn:Er. injection H as <- <-.
    assert (X : (forall k, received k [(c, e)] = []) /\ accepts [(c, e)] = [] /\ nd_in n1 = nd_in n /\ sh_incoming (nd_shared n1) = Some f /\
      (f_op f = New \/ have_reader (nd_shared n1) (f_id f) = true)).
    { specialize (Nc c (or_introl eq_refl)). unfold takes_front in Nc.
      assert (Fl : forall tk, poll_fill_incoming (nd_shared n) tk (nd_in n) = (Some (Done (if sh_closed (nd_shared n) then Err BrokenPipe else Ok tt)), nd_shared n, nd_in n)).
      { intros tk. unfold poll_fill_incoming. cbn [fill_loop]. destruct (sh_closed (nd_shared n)); [reflexivity|]. rewrite Hf.
        assert (K : op_eqb (f_op f) New || have_reader (nd_shared n) (f_id f) = true) by (destruct Hk as [->| ->]; [reflexivity|apply orb_true_r]). rewrite K. reflexivity. }
      destruct c as [tk|i tk room|i|i|sc]; cbn [node_step] in Es; unfold got in Es; cbn [perform] in Es.
      - unfold poll_accept_id in Es. rewrite Fl in Es. destruct (sh_closed (nd_shared n)).
        + injection Es as <- <-. cbn [nd_in nd_shared]. auto.
        + rewrite Hf in Es. destruct (op_eqb (f_op f) New) eqn:Eo.
          * exfalso. apply Nc. right. right. split; [|eauto]. destruct (f_op f); try discriminate Eo; reflexivity.
          * injection Es as <- <-. cbn [nd_in nd_shared]. unfold set_accept_waker. cbn [with_accept sh_incoming]. auto.
      - unfold poll_read in Es. rewrite Fl in Es. destruct (sh_closed (nd_shared n)).
        + injection Es as <- <-. cbn [nd_in nd_shared]. auto.
        + rewrite Hf in Es. destruct (sid_eqb (f_id f) i) eqn:Eo.
          * exfalso. apply Nc. right. left. apply sid_eqb_eq in Eo. rewrite Eo. eauto.
          * injection Es as <- <-. cbn [nd_in nd_shared]. rewrite have_set_read_waker. unfold set_read_waker. cbn [with_readers sh_incoming]. auto.
      - injection Es as <- <-. cbn [nd_in nd_shared]. rewrite have_remove. unfold remove_reader, wake_all_readers. cbn [with_readers wake_accept with_accept sh_incoming].
        destruct (sid_eqb i (f_id f)) eqn:Eo; [apply sid_eqb_eq in Eo; subst i; exfalso; apply Nc; left; reflexivity|]. cbn [negb andb]. auto.
      - injection Es as <- <-. cbn [nd_in nd_shared]. auto.
      - destruct (send_step (nd_shared n) (nd_errs n) (nd_out n) sc) as [[[[r s'] errs'] w'] sent] eqn:E. injection Es as <- <-. cbn [nd_in nd_shared].
        apply send_step_acts in E. destruct E as [(out & -> & _)|(name & i & s1 & out & _ & Ea & -> & _)].
        + auto.
        + unfold shared_append_new in Ea. destruct (two64 <=? sh_next (nd_shared n) + 1); [discriminate|]. injection Ea as <- <-.
          split; [reflexivity|]. split; [reflexivity|]. split; [reflexivity|]. split; [exact Hf|]. destruct Hk as [Hk|Hk]; [left; exact Hk|right].
          change (have_reader (add_stream (with_next (nd_shared n) (sh_next (nd_shared n) + 1)) (Receiver (sh_next (nd_shared n)))) (f_id f) = true).
          rewrite have_add. change (have_reader (with_next (nd_shared n) (sh_next (nd_shared n) + 1)) (f_id f)) with (have_reader (nd_shared n) (f_id f)). rewrite Hk. apply orb_true_r. }
    destruct X as (X1 & X2 & X3 & X4 & X5). destruct (IH n1 f t1 n2 X4 X5 Er) as (Y1 & Y2 & Y3 & Y4); [intros c0 H0; apply Nc; right; exact H0|].
    split; [intros k; rewrite received_cons, X1, Y1; reflexivity|]. split; [rewrite accepts_cons, X2, Y2; reflexivity|]. split; [congruence|exact Y4].
Qed.
Print Assumptions C115_head_of_line_refuted.

(** A session: one end opens two streams and writes to both, the other accepts both, reads,
    and answers on the second; the bytes come in odd pieces. *)
Definition wire_ab : bytes := wires [SendNew 33 (Some [120]); SendMessage (Initiator 33) [1; 2; 3]; SendNew 34 None; SendMessage (Initiator 34) [9]].
Definition wire_ba : bytes := wires [SendMessage (Receiver 34) [7; 8]].
Definition ends (x : side) : node :=
  match x with
  | SideA => node_new [ARead (firstn 3 wire_ba); ARead (skipn 3 wire_ba)] (repeat (WOk 100) 10)
  | SideB => node_new [ARead (firstn 6 wire_ab); APending; ARead (skipn 6 wire_ab)] (repeat (WOk 100) 3)
  end.
Definition the_calls : list (side * node_call) :=
  [(SideA, NSend (CallConnect (Some [120]))); (SideA, NSend (CallWrite (Receiver 33) [1; 2; 3])); (SideA, NSend (CallFlush (Receiver 33)));
   (SideB, NAccept 1); (SideB, NRead (Initiator 33) 2 2);
   (SideA, NSend (CallConnect None)); (SideA, NSend (CallWrite (Receiver 34) [9])); (SideA, NSend (CallFlush (Receiver 34)));
   (SideB, NRead (Initiator 33) 2 2); (SideB, NAccept 1); (SideB, NRead (Initiator 33) 2 5); (SideB, NAccept 1);
   (SideB, NRead (Initiator 34) 3 5); (SideB, NSend (CallWrite (Initiator 34) [7; 8])); (SideB, NSend (CallFlush (Initiator 34)));
   (SideA, NRead (Receiver 34) 4 1); (SideA, NRead (Receiver 34) 4 9)].
Definition carried (start : side -> node) (p : list (side * node_call)) (x : side) : bool :=
  let d := data_of (nd_in (start x)) in let d' := data_of (nd_in (snd (history start x p))) in let came := firstn (length d - length d') d in
  bytes_eqb d (came ++ d') && bytes_eqb came (firstn (length came) (nd_sent (snd (history start (opposite x) p)))).
Lemma carried_connected start sched : forallb (fun n => forallb (carried start (firstn n sched)) [SideA; SideB]) (seq 0 (Datatypes.S (length sched))) = true -> connected start sched.
Proof.
  intros H x p rest E. rewrite forallb_forall in H. specialize (H (length p)). rewrite in_seq in H. rewrite E, app_length in H. specialize (H ltac:(lia)).
  rewrite firstn_app_length, forallb_forall in H. specialize (H x ltac:(destruct x; cbn; auto)). unfold carried in H. cbv zeta in H. apply andb_prop in H. destruct H as [H1 H2].
  apply bytes_eqb_eq in H1, H2. set (came := firstn _ _) in *. exists came, (skipn (length came) (nd_sent (snd (history start (opposite x) p)))).
  split; [exact H1|]. rewrite H2 at 1. symmetry. apply firstn_skipn.
Qed.
Example C115_example : session ends the_calls /\
  connects (fst (history ends SideA the_calls)) = [Receiver 33; Receiver 34] /\
  written (Receiver 33) (fst (history ends SideA the_calls)) = [1; 2; 3] /\
  accepts (fst (history ends SideB the_calls)) = [Initiator 33; Initiator 34] /\
  received (Initiator 33) (fst (history ends SideB the_calls)) = [1; 2; 3] /\
  received (Initiator 34) (fst (history ends SideB the_calls)) = [9] /\
  received (Receiver 34) (fst (history ends SideA the_calls)) = [7; 8].
Proof.
  split; [|vm_compute; repeat split; reflexivity]. split; [|split; [|split; [|split; [|split]]]].
  - exists (fun x => nd_in (ends x)), (fun x => nd_out (ends x)). intros []; reflexivity.
  - intros x. split; [apply bytes_okb_spec; destruct x; vm_compute; reflexivity|destruct x; vm_compute; reflexivity].
  - vm_compute; reflexivity.
  - repeat constructor; cbn; try exact I; try (split; reflexivity); reflexivity.
  - apply carried_connected. vm_compute. reflexivity.
  - intros []; vm_compute; repeat split; intros i H; intuition.
Qed.
