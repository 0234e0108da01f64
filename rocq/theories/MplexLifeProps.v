(** C143: how long an mplex stream lives, and what a stream that nobody reads does to the rest. *)
From Verif Require Import Base MplexModel MplexStreamSpec MplexStreamProofs VarintModel MplexLifeModel MplexLifeProofs.

(** *** Who is registered, told by the calls and what they returned *)
(** [next] is the number of the next stream opened here. *)
Fixpoint registered (i : stream_id) (next : N) (now : bool) (cs : list call) (es : list event) : bool :=
  match cs, es with
  | c :: cs, e :: es =>
    match c, e with
    | CConnect _ _, EvPanic => registered i next now cs es
    | CConnect _ _, _ => registered i (next + 1) (sid_eqb (Receiver next) i || now) cs es
    | CAccept _, EvAccepted k => registered i next (sid_eqb k i || now) cs es
    | CDropReader k, _ => registered i next (negb (sid_eqb k i) && now) cs es
    | _, _ => registered i next now cs es
    end
  | _, _ => now
  end.
Lemma kept_out s out : kept s (with_out s out).
Proof. repeat split. Qed.
Theorem C143_registered_exactly answers cs es w i : do_calls (world_new answers) cs = Some (es, w) ->
  have_reader (wo_shared w) i = registered i 33 false cs es.
Proof.
  assert (G : forall cs w0 es w, do_calls w0 cs = Some (es, w) -> have_reader (wo_shared w) i = registered i (sh_next (wo_shared w0)) (have_reader (wo_shared w0) i) cs es).
  { clear. induction cs as [|c cs IH]; intros w0 es w; cbn [do_calls]; [intros [=<- <-]; reflexivity|].
    destruct (do_call w0 c) as [[e w1]|] eqn:D; [|discriminate]. destruct (do_calls w1 cs) as [[es1 w2]|] eqn:R; [|discriminate]. intros [=<- <-].
    rewrite (IH _ _ _ R). clear IH R. cbn [registered].
    destruct c as [t|name wa|k wa|k|k t room|k|k|out]; cbn [do_call] in D.
    - destruct (perform (wo_shared w0) (wo_answers w0) (Accept t)) as [[e1 s1] a1] eqn:P. injection D as <- <-.
      destruct (accept_call _ _ _ _ _ _ P) as [[N (K1 & _ & K3 & _)]|(k & -> & (O1 & O2 & O3) & K3)].
      + destruct e1; cbn [with_stream wo_shared]; rewrite ?K1, ?K3; try reflexivity. contradiction (N i0 eq_refl).
      + cbn [with_stream wo_shared]. rewrite O1, K3. reflexivity.
    - injection D as D. destruct (connect_fresh _ _ _ _ _ D) as [(_ & -> & ->)|(B & (O1 & _) & O2 & _ & _ & O3)]; [reflexivity|].
      rewrite O1, O2. destruct O3 as [(-> & _)|[(-> & _)|([x ->] & _)]]; reflexivity.
    - destruct (holds k (wo_connects w0)); [|discriminate D]. injection D as D. apply connect_again in D. destruct D as ((K1 & _ & K3 & _) & _). cbn [with_connects wo_shared] in *. rewrite K1, K3. reflexivity.
    - destruct (holds k (wo_connects w0)); [|discriminate D]. injection D as <- <-. reflexivity.
    - destruct (holds k (wo_readers w0)); [|discriminate D]. destruct (perform (wo_shared w0) (wo_answers w0) (Read k t room)) as [[e1 s1] a1] eqn:P. injection D as <- <-.
      apply read_call in P. destruct P as ((K1 & _ & K3 & _) & _). cbn [wo_shared]. rewrite K1, K3. reflexivity.
    - destruct (holds k (wo_readers w0)); [|discriminate D]. injection D as <- <-. cbn [wo_shared]. rewrite have_remove. reflexivity.
    - destruct (holds k (wo_writers w0)); [|discriminate D]. injection D as <- <-. reflexivity.
    - injection D as <- <-. reflexivity. }
  intros H. exact (G _ _ _ _ H).
Qed.
Print Assumptions C143_registered_exactly.

(** *** Nothing is left behind *)
(** The other side does not open a stream again that has a handle here, and no opening of a
    stream fails or is given up. *)
Fixpoint tidy (w : world) (cs : list call) : Prop :=
  match cs with
  | [] => True
  | c :: cs =>
    match do_call w c with
    | Some (e, w') =>
      match c, e with
      | CAccept _, EvAccepted i => ~ In i (wo_readers w ++ wo_writers w)
      | CConnect _ _, EvError _ | CAgain _ _, EvError _ | CGiveUp _, _ => False
      | _, _ => True
      end /\ tidy w' cs
    | None => True
    end
  end.
(** The tables and the handles agree. *)
Definition agree (w : world) : Prop :=
  (forall i, have_reader (wo_shared w) i = true <-> In i (wo_readers w) \/ In i (wo_connects w)) /\
  (forall i, In i (sh_writers (wo_shared w)) <-> In i (wo_writers w) \/ In i (wo_connects w)).
(** The invariant: also, handles are different, and those opened here have numbers given out. *)
Definition mine (w : world) (l : list stream_id) : Prop := forall n, In (Receiver n) l -> n < sh_next (wo_shared w).
Definition numbered (w : world) : Prop :=
  new_ok (sh_incoming (wo_shared w)) /\ mine w (wo_readers w) /\ mine w (wo_writers w) /\ mine w (wo_connects w) /\ (forall i, In i (wo_connects w) -> exists n, i = Receiver n).
Lemma numbered_call w c e w' : numbered w -> do_call w c = Some (e, w') -> numbered w' /\ (forall i, e = EvAccepted i -> exists n, i = Initiator n) /\ sh_next (wo_shared w) <= sh_next (wo_shared w').
Proof.
  intros (N & R & W & C & I) D. unfold numbered, mine in *. destruct c as [t|name wa|k wa|k|k t room|k|k|out]; cbn [do_call] in D.
  - destruct (perform (wo_shared w) (wo_answers w) (Accept t)) as [[e1 s1] a1] eqn:P. pose proof P as P2. cbn [perform] in P2.
    destruct (poll_accept_id (wo_shared w) t (wo_answers w)) as [[r2 s2] a2] eqn:Q. injection P2 as P2 <- <-. apply accept_front in Q; [|exact N]. destruct Q as [Q1 Q2].
    injection D as <- <-. destruct (accept_call _ _ _ _ _ _ P) as [[X (K1 & _ & K3 & _)]|(k & -> & _ & K3)].
    + split; [destruct e1; try (exfalso; eapply X; reflexivity); cbn [wo_shared wo_readers wo_writers wo_connects with_stream]; rewrite K3; do 4 (split; [assumption|]); assumption|].
      split; [intros i ->; contradiction (X i eq_refl)|destruct e1; cbn [wo_shared with_stream]; rewrite K3; lia].
    + assert (A : exists n, k = Initiator n).
      { apply Q2. destruct r2 as [[|[[j|]|x|]]|]; try discriminate P2. injection P2 as <-. reflexivity. }
      split; [|split; [intros i [=<-]; exact A|cbn [wo_shared with_stream]; rewrite K3; lia]]. cbn [wo_shared wo_readers wo_writers wo_connects with_stream]. rewrite K3. destruct A as [n ->].
      split; [exact Q1|]. split; [intros m [H|H]; [discriminate H|apply R, H]|]. split; [intros m [H|H]; [discriminate H|apply W, H]|]. split; assumption.
  - injection D as D. destruct (connect_fresh _ _ _ _ _ D) as [(_ & -> & ->)|(B & _ & O2 & _ & O4 & O3)]; [split; [do 4 (split; [assumption|]); assumption|split; [discriminate|lia]]|]. rewrite O2, O4.
    assert (M : forall m l, (forall n, In (Receiver n) l -> n < sh_next (wo_shared w)) -> In (Receiver m) (Receiver (sh_next (wo_shared w)) :: l) -> m < sh_next (wo_shared w) + 1).
    { intros m l H [[=<-]|X]; [lia|]. specialize (H _ X). lia. }
    assert (M2 : forall m l, (forall n, In (Receiver n) l -> n < sh_next (wo_shared w)) -> In (Receiver m) l -> m < sh_next (wo_shared w) + 1).
    { intros m l H X. specialize (H _ X). lia. }
    destruct O3 as [(-> & -> & -> & ->)|[(-> & -> & -> & ->)|([x ->] & -> & -> & ->)]]; (split; [|split; [discriminate|lia]]); (split; [exact N|]).
    + split; [intros m; apply M2, R|]. split; [intros m; apply M2, W|]. split; [intros m; apply M, C|]. intros i [<-|H]; [eexists; reflexivity|apply I, H].
    + split; [intros m; apply M, R|]. split; [intros m; apply M, W|]. split; [intros m; apply M2, C|exact I].
    + split; [intros m; apply M2, R|]. split; [intros m; apply M2, W|]. split; [intros m; apply M2, C|exact I].
  - destruct (holds k (wo_connects w)) eqn:H; [|discriminate D]. apply holds_in in H. injection D as D. apply connect_again in D. cbn [with_connects wo_shared wo_readers wo_writers wo_connects] in D.
    destruct D as ((K1 & K2 & K3 & _) & _ & O4 & O3). rewrite K3, O4. destruct (I _ H) as [n ->]. pose proof (C _ H) as Cn.
    assert (V : forall m, In (Receiver m) (without (Receiver n) (wo_connects w)) -> m < sh_next (wo_shared w)) by (intros m X; apply C; exact (without_in _ _ _ X)).
    assert (V2 : forall i, In i (without (Receiver n) (wo_connects w)) -> exists n, i = Receiver n) by (intros i X; apply I; exact (without_in _ _ _ X)).
    destruct O3 as [(-> & -> & -> & ->)|[(-> & -> & -> & ->)|([x ->] & -> & -> & ->)]]; (split; [|split; [discriminate|lia]]); (split; [exact N|]).
    + split; [exact R|]. split; [exact W|]. split; [intros m [[=<-]|X]; [exact Cn|apply V, X]|]. intros i [<-|X]; [eexists; reflexivity|apply V2, X].
    + split; [intros m [[=<-]|X]; [exact Cn|apply R, X]|]. split; [intros m [[=<-]|X]; [exact Cn|apply W, X]|]. split; assumption.
    + repeat (split; [assumption|]). assumption.
  - destruct (holds k (wo_connects w)) eqn:H; [|discriminate D]. injection D as <- <-. cbn [with_connects wo_shared wo_readers wo_writers wo_connects]. split; [|split; [discriminate|lia]].
    do 3 (split; [assumption|]). split; [intros m X; apply C; exact (without_in _ _ _ X)|intros i X; apply I; exact (without_in _ _ _ X)].
  - destruct (holds k (wo_readers w)); [|discriminate D]. destruct (perform (wo_shared w) (wo_answers w) (Read k t room)) as [[e1 s1] a1] eqn:P. pose proof P as P2. cbn [perform] in P2.
    destruct (poll_read (wo_shared w) k t room (wo_answers w)) as [[r2 s2] a2] eqn:Q. injection P2 as P2 <- <-. apply read_front in Q; [|exact N]. destruct Q as [Q1 _].
    injection D as <- <-. apply read_call in P. destruct P as ((K1 & _ & K3 & _) & Y & _). cbn [wo_shared wo_readers wo_writers wo_connects]. rewrite K3. split; [|split; [intros i ->; contradiction (Y i eq_refl)|lia]]. repeat (split; [assumption|]). assumption.
  - destruct (holds k (wo_readers w)); [|discriminate D]. injection D as <- <-. cbn [wo_shared wo_readers wo_writers wo_connects]. split; [|split; [discriminate|cbn; lia]]. split; [exact N|]. split; [intros m X; apply R; exact (without_in _ _ _ X)|]. repeat (split; [assumption|]). assumption.
  - destruct (holds k (wo_writers w)); [|discriminate D]. injection D as <- <-. cbn [wo_shared wo_readers wo_writers wo_connects]. split; [|split; [discriminate|cbn; lia]]. split; [exact N|]. split; [exact R|]. split; [intros m X; apply W; exact (without_in _ _ _ X)|]. repeat (split; [assumption|]). assumption.
  - injection D as <- <-. split; [do 4 (split; [assumption|]); assumption|]. split; [discriminate|cbn; lia].
Qed.
Definition apart (a b : list stream_id) : Prop := forall i, In i a -> ~ In i b.
Definition settled (w : world) : Prop :=
  numbered w /\ agree w /\ NoDup (wo_readers w) /\ NoDup (wo_writers w) /\ NoDup (wo_connects w) /\
  apart (wo_connects w) (wo_readers w) /\ apart (wo_connects w) (wo_writers w).
Lemma settled_new answers : settled (world_new answers).
Proof.
  split; [split; [exact new_ok_none|]; split; [intros n []|]; split; [intros n []|]; split; [intros n []|intros i []]|].
  split; [split; intros i; (split; [|intros [[]|[]]]); [discriminate|intros []]|].
  do 3 (split; [constructor|]). split; intros i [].
Qed.
Lemma settled_call w c e w' : settled w -> do_call w c = Some (e, w') ->
  match c, e with
  | CAccept _, EvAccepted i => ~ In i (wo_readers w ++ wo_writers w)
  | CConnect _ _, EvError _ | CAgain _ _, EvError _ | CGiveUp _, _ => False
  | _, _ => True
  end -> settled w'.
Proof.
  intros (N & (A1 & A2) & R & W & C & P1 & P2) D T. destruct (numbered_call _ _ _ _ N D) as (N' & F & _). split; [exact N'|].
  destruct N as (_ & MR & MW & MC & OC). clear N'. unfold agree.
  assert (FR : ~ In (Receiver (sh_next (wo_shared w))) (wo_readers w)) by (intros X; apply MR in X; lia).
  assert (FW : ~ In (Receiver (sh_next (wo_shared w))) (wo_writers w)) by (intros X; apply MW in X; lia).
  assert (FC : ~ In (Receiver (sh_next (wo_shared w))) (wo_connects w)) by (intros X; apply MC in X; lia).
  assert (OA : forall i k, sid_eqb i k || have_reader (wo_shared w) k = true <-> k = i \/ In k (wo_readers w) \/ In k (wo_connects w)).
  { intros i k. rewrite orb_true_iff, sid_eqb_eq, A1. intuition congruence. }
  destruct c as [t|name wa|k wa|k|k t room|k|k|out]; cbn [do_call] in D.
  - destruct (perform (wo_shared w) (wo_answers w) (Accept t)) as [[e1 s1] a1] eqn:P. injection D as <- <-.
    destruct (accept_call _ _ _ _ _ _ P) as [[X (K1 & K2 & K3 & _)]|(k & -> & (O1 & O2 & _) & K3)].
    + assert (G : (forall i, have_reader s1 i = true <-> In i (wo_readers w) \/ In i (wo_connects w)) /\ (forall i, In i (sh_writers s1) <-> In i (wo_writers w) \/ In i (wo_connects w))).
      { split; intros i; [rewrite K1; apply A1|rewrite K2; apply A2]. }
      destruct e1; try (exfalso; eapply X; reflexivity); (split; [exact G|]); do 4 (split; [assumption|]); assumption.
    + cbn [with_stream wo_shared wo_readers wo_writers wo_connects]. destruct (F k eq_refl) as [n ->]. rewrite in_app_iff in T.
      split; [split; intros i|].
      * rewrite O1, OA. cbn [In]. intuition congruence.
      * rewrite O2, in_added, A2. cbn [In]. intuition congruence.
      * split; [constructor; tauto|]. split; [constructor; tauto|]. split; [exact C|]. split; intros i X [Y|Y].
        -- destruct (OC _ X) as [m ->]. discriminate Y.
        -- exact (P1 _ X Y).
        -- destruct (OC _ X) as [m ->]. discriminate Y.
        -- exact (P2 _ X Y).
  - injection D as D. destruct (connect_fresh _ _ _ _ _ D) as [(_ & -> & ->)|(B & (O1 & O2 & _) & _ & _ & _ & O3)]; [split; [split; assumption|]; repeat (split; [assumption|]); assumption|].
    destruct O3 as [(-> & -> & -> & ->)|[(-> & -> & -> & ->)|([x ->] & _)]]; [| |contradiction T].
    + split; [split; intros i; [rewrite O1, OA|rewrite O2, in_added, A2]; cbn [In]; intuition congruence|].
      split; [exact R|]. split; [exact W|]. split; [constructor; assumption|]. split; intros i [<-|X]; [exact FR|apply P1, X|exact FW|apply P2, X].
    + split; [split; intros i; [rewrite O1, OA|rewrite O2, in_added, A2]; cbn [In]; intuition congruence|].
      split; [constructor; assumption|]. split; [constructor; assumption|]. split; [exact C|]. split; intros i X [<-|Y]; [exact (FC X)|exact (P1 _ X Y)|exact (FC X)|exact (P2 _ X Y)].
  - destruct (holds k (wo_connects w)) eqn:H; [|discriminate D]. apply holds_in in H. injection D as D. apply connect_again in D. cbn [with_connects wo_shared wo_readers wo_writers wo_connects] in D.
    destruct D as ((K1 & K2 & _ & _) & _ & _ & O3). pose proof (without_gone k _ C) as GC. pose proof (without_nodup k _ C) as NC.
    assert (IC : forall i, In i (wo_connects w) <-> i = k \/ In i (without k (wo_connects w))).
    { intros i. split; [intros X; destruct (sid_dec i k) as [->|Y]; [left; reflexivity|right; apply in_without; assumption]|]. intros [->|X]; [exact H|exact (without_in _ _ _ X)]. }
    destruct O3 as [(-> & -> & -> & ->)|[(-> & -> & -> & ->)|([x ->] & _)]]; [| |contradiction T].
    + split; [split; intros i; [rewrite K1, A1, IC|rewrite K2, A2, IC]; cbn [In]; intuition congruence|].
      split; [exact R|]. split; [exact W|]. split; [constructor; assumption|]. split; intros i [<-|X]; [apply P1, H|apply P1, (without_in _ _ _ X)|apply P2, H|apply P2, (without_in _ _ _ X)].
    + split; [split; intros i; [rewrite K1, A1, IC|rewrite K2, A2, IC]; cbn [In]; intuition congruence|].
      split; [constructor; [apply P1, H|exact R]|]. split; [constructor; [apply P2, H|exact W]|]. split; [exact NC|].
      split; intros i X [<-|Y]; [exact (GC X)|exact (P1 _ (without_in _ _ _ X) Y)|exact (GC X)|exact (P2 _ (without_in _ _ _ X) Y)].
  - contradiction T.
  - destruct (holds k (wo_readers w)); [|discriminate D]. destruct (perform (wo_shared w) (wo_answers w) (Read k t room)) as [[e1 s1] a1] eqn:P.
    injection D as <- <-. apply read_call in P. destruct P as ((K1 & K2 & _ & _) & _). cbn [wo_shared wo_readers wo_writers wo_connects].
    split; [split; intros i; [rewrite K1; apply A1|rewrite K2; apply A2]|]. do 4 (split; [assumption|]). assumption.
  - destruct (holds k (wo_readers w)) eqn:H; [|discriminate D]. apply holds_in in H. injection D as <- <-. cbn [wo_shared wo_readers wo_writers wo_connects].
    pose proof (without_gone k _ R) as GR. split; [split; [|exact A2]|].
    + intros i. rewrite have_remove, andb_true_iff, A1, negb_true_iff. split.
      * intros [X [Y|Y]]; [left; apply in_without; [exact Y|]|right; exact Y]. intros ->. rewrite sid_eqb_refl in X. discriminate X.
      * intros [X|X]; (split; [destruct (sid_eqb k i) eqn:Q; [apply sid_eqb_eq in Q; subst i; exfalso|reflexivity]|]).
        -- exact (GR X).
        -- left. exact (without_in _ _ _ X).
        -- exact (P1 _ X H).
        -- right. exact X.
    + split; [apply without_nodup, R|]. split; [exact W|]. split; [exact C|]. split; [|exact P2]. intros i X Y. exact (P1 _ X (without_in _ _ _ Y)).
  - destruct (holds k (wo_writers w)) eqn:H; [|discriminate D]. apply holds_in in H. injection D as <- <-. cbn [wo_shared wo_readers wo_writers wo_connects].
    pose proof (without_gone k _ W) as GW. split; [split; [exact A1|]|].
    + intros i. unfold remove_writer. cbn [with_writers sh_writers]. rewrite filter_In, A2, negb_true_iff. split.
      * intros [[Y|Y] X]; [left; apply in_without; [exact Y|]|right; exact Y]. intros ->. rewrite sid_eqb_refl in X. discriminate X.
      * intros [X|X]; (split; [|destruct (sid_eqb i k) eqn:Q; [apply sid_eqb_eq in Q; subst i; exfalso|reflexivity]]).
        -- left. exact (without_in _ _ _ X).
        -- exact (GW X).
        -- right. exact X.
        -- exact (P2 _ X H).
    + split; [exact R|]. split; [apply without_nodup, W|]. split; [exact C|]. split; [exact P1|]. intros i X Y. exact (P2 _ X (without_in _ _ _ Y)).
  - injection D as <- <-. split; [split; [exact A1|exact A2]|]. do 4 (split; [assumption|]). assumption.
Qed.
Lemma settled_calls cs : forall w es w', settled w -> tidy w cs -> do_calls w cs = Some (es, w') -> settled w'.
Proof.
  induction cs as [|c cs IH]; intros w es w' S T; cbn [do_calls tidy] in *; [intros [=<- <-]; exact S|].
  destruct (do_call w c) as [[e w1]|] eqn:D; [|discriminate]. destruct T as [T1 T2]. pose proof (settled_call _ _ _ _ S D T1) as S1.
  destruct (do_calls w1 cs) as [[es1 w2]|] eqn:R; [|discriminate]. intros [=<- <-]. exact (IH _ _ _ S1 T2 R).
Qed.
(** In a tidy program the tables hold the streams that have handles and no others; without
    handles they are empty. *)
Theorem C143_tables_are_handles_partial answers cs es w : do_calls (world_new answers) cs = Some (es, w) -> tidy (world_new answers) cs ->
  agree w /\ (wo_readers w = [] -> wo_writers w = [] -> wo_connects w = [] -> sh_readers (wo_shared w) = [] /\ sh_writers (wo_shared w) = []).
Proof.
  intros H T. destruct (settled_calls _ _ _ _ (settled_new answers) T H) as (_ & (A1 & A2) & _). split; [split; assumption|]. intros R W C. split.
  - destruct (sh_readers (wo_shared w)) as [|[k v] l] eqn:E; [reflexivity|]. exfalso. specialize (A1 k). rewrite R, C in A1. enough (X : In k [] \/ In k []) by (destruct X as [[]|[]]). apply A1. unfold have_reader. rewrite E. cbn [reader_get]. rewrite sid_eqb_refl. reflexivity.
  - destruct (sh_writers (wo_shared w)) as [|k l] eqn:E; [reflexivity|]. exfalso. specialize (A2 k). rewrite W, C in A2. enough (X : In k [] \/ In k []) by (destruct X as [[]|[]]). apply A2. rewrite ?E. left. reflexivity.
Qed.
Print Assumptions C143_tables_are_handles_partial.

(** *** A stream that was given up stays for ever *)
Definition abandoned (w : world) (i : stream_id) : Prop :=
  numbered w /\ (exists n, i = Receiver n /\ n < sh_next (wo_shared w)) /\ ~ In i (wo_readers w) /\ ~ In i (wo_connects w) /\ have_reader (wo_shared w) i = true.
Lemma abandoned_call w i c e w' : abandoned w i -> do_call w c = Some (e, w') -> abandoned w' i.
Proof.
  intros (N & (n & -> & L) & R & C & H) D. destruct (numbered_call _ _ _ _ N D) as (N' & F & M). split; [exact N'|]. split; [exists n; split; [reflexivity|lia]|].
  destruct c as [t|name wa|k wa|k|k t room|k|k|out]; cbn [do_call] in D.
  - destruct (perform (wo_shared w) (wo_answers w) (Accept t)) as [[e1 s1] a1] eqn:P. injection D as <- <-.
    destruct (accept_call _ _ _ _ _ _ P) as [[X (K1 & _)]|(k & -> & (O1 & _) & _)].
    + destruct e1; try (exfalso; eapply X; reflexivity); cbn [wo_shared wo_readers wo_connects]; rewrite K1; repeat (split; [assumption|]); assumption.
    + cbn [with_stream wo_shared wo_readers wo_connects]. destruct (F k eq_refl) as [m ->]. split; [intros [X|X]; [discriminate X|exact (R X)]|]. split; [exact C|]. rewrite O1, H. apply orb_true_r.
  - injection D as D. destruct (connect_fresh _ _ _ _ _ D) as [(_ & -> & ->)|(B & (O1 & _) & _ & _ & _ & O3)]; [repeat (split; [assumption|]); assumption|].
    rewrite O1, H, orb_true_r. destruct O3 as [(-> & -> & -> & _)|[(-> & -> & -> & _)|([x ->] & -> & -> & _)]].
    + split; [exact R|]. split; [|reflexivity]. intros [X|X]; [|exact (C X)]. injection X as X. lia.
    + split; [|split; [exact C|reflexivity]]. intros [X|X]; [|exact (R X)]. injection X as X. lia.
    + split; [exact R|]. split; [exact C|reflexivity].
  - destruct (holds k (wo_connects w)) eqn:K; [|discriminate D]. apply holds_in in K. injection D as D. apply connect_again in D. cbn [with_connects wo_shared wo_readers wo_writers wo_connects] in D.
    destruct D as ((K1 & _) & _ & _ & O3). rewrite K1. assert (NE : k <> Receiver n) by (intros ->; exact (C K)). assert (C' : ~ In (Receiver n) (without k (wo_connects w))) by (intros X; exact (C (without_in _ _ _ X))).
    destruct O3 as [(-> & -> & -> & _)|[(-> & -> & -> & _)|([x ->] & -> & -> & _)]].
    + split; [exact R|]. split; [intros [X|X]; [exact (NE X)|exact (C' X)]|exact H].
    + split; [intros [X|X]; [exact (NE X)|exact (R X)]|]. split; [exact C'|exact H].
    + split; [exact R|]. split; [exact C'|exact H].
  - destruct (holds k (wo_connects w)); [|discriminate D]. injection D as <- <-. cbn. split; [exact R|]. split; [intros X; exact (C (without_in _ _ _ X))|exact H].
  - destruct (holds k (wo_readers w)); [|discriminate D]. destruct (perform (wo_shared w) (wo_answers w) (Read k t room)) as [[e1 s1] a1] eqn:P.
    injection D as <- <-. apply read_call in P. destruct P as ((K1 & _) & _). cbn [wo_shared wo_readers wo_connects]. rewrite K1. repeat (split; [assumption|]). assumption.
  - destruct (holds k (wo_readers w)) eqn:K; [|discriminate D]. apply holds_in in K. injection D as <- <-. cbn [wo_shared wo_readers wo_connects].
    split; [intros X; exact (R (without_in _ _ _ X))|]. split; [exact C|]. rewrite have_remove, H, andb_true_r. destruct (sid_eqb k (Receiver n)) eqn:E; [apply sid_eqb_eq in E; subst k; contradiction|reflexivity].
  - destruct (holds k (wo_writers w)); [|discriminate D]. injection D as <- <-. split; [exact R|]. split; [exact C|exact H].
  - injection D as <- <-. split; [exact R|]. split; [exact C|exact H].
Qed.
(** Everything before: the invariants that hold whatever the program does. *)
Definition pending_ok (w : world) : Prop :=
  numbered w /\ NoDup (wo_connects w) /\ apart (wo_connects w) (wo_readers w) /\ forall i, In i (wo_connects w) -> have_reader (wo_shared w) i = true.
Lemma pending_call w c e w' : pending_ok w -> do_call w c = Some (e, w') -> pending_ok w'.
Proof.
  intros (N & C & P & H) D. destruct (numbered_call _ _ _ _ N D) as (N' & F & M). split; [exact N'|]. destruct N as (_ & MR & _ & MC & OC).
  assert (FR : ~ In (Receiver (sh_next (wo_shared w))) (wo_readers w)) by (intros X; apply MR in X; lia).
  assert (FC : ~ In (Receiver (sh_next (wo_shared w))) (wo_connects w)) by (intros X; apply MC in X; lia).
  destruct c as [t|name wa|k wa|k|k t room|k|k|out]; cbn [do_call] in D.
  - destruct (perform (wo_shared w) (wo_answers w) (Accept t)) as [[e1 s1] a1] eqn:Q. injection D as <- <-.
    destruct (accept_call _ _ _ _ _ _ Q) as [[X (K1 & _)]|(k & -> & (O1 & _) & _)].
    + destruct e1; try (exfalso; eapply X; reflexivity); cbn [wo_shared wo_readers wo_connects]; (split; [exact C|]); (split; [exact P|]); intros i1 Y; rewrite K1; apply H, Y.
    + cbn [with_stream wo_shared wo_readers wo_connects]. destruct (F k eq_refl) as [m ->]. split; [exact C|]. split.
      * intros i X [Y|Y]; [destruct (OC _ X) as [o ->]; discriminate Y|exact (P _ X Y)].
      * intros i X. rewrite O1, (H _ X). apply orb_true_r.
  - injection D as D. destruct (connect_fresh _ _ _ _ _ D) as [(_ & -> & ->)|(B & (O1 & _) & _ & _ & _ & O3)]; [repeat (split; [assumption|]); assumption|].
    destruct O3 as [(-> & -> & -> & _)|[(-> & -> & -> & _)|([x ->] & -> & -> & _)]].
    + split; [constructor; assumption|]. split; [intros i [<-|X]; [exact FR|apply P, X]|]. intros i [<-|X]; rewrite O1; [rewrite sid_eqb_refl; reflexivity|rewrite (H _ X); apply orb_true_r].
    + split; [exact C|]. split; [intros i X [<-|Y]; [exact (FC X)|exact (P _ X Y)]|]. intros i X. rewrite O1, (H _ X). apply orb_true_r.
    + split; [exact C|]. split; [exact P|]. intros i X. rewrite O1, (H _ X). apply orb_true_r.
  - destruct (holds k (wo_connects w)) eqn:K; [|discriminate D]. apply holds_in in K. injection D as D. apply connect_again in D. cbn [with_connects wo_shared wo_readers wo_writers wo_connects] in D.
    destruct D as ((K1 & _) & _ & _ & O3). pose proof (without_gone k _ C) as GC. pose proof (without_nodup k _ C) as NC.
    destruct O3 as [(-> & -> & -> & _)|[(-> & -> & -> & _)|([x ->] & -> & -> & _)]].
    + split; [constructor; assumption|]. split; [intros i [<-|X]; [apply P, K|apply P, (without_in _ _ _ X)]|]. intros i [<-|X]; rewrite K1; [apply H, K|apply H, (without_in _ _ _ X)].
    + split; [exact NC|]. split; [intros i X [<-|Y]; [exact (GC X)|exact (P _ (without_in _ _ _ X) Y)]|]. intros i X. rewrite K1. apply H, (without_in _ _ _ X).
    + split; [exact NC|]. split; [intros i X; apply P, (without_in _ _ _ X)|]. intros i X. rewrite K1. apply H, (without_in _ _ _ X).
  - destruct (holds k (wo_connects w)); [|discriminate D]. injection D as <- <-. cbn [with_connects wo_shared wo_readers wo_connects].
    split; [apply without_nodup, C|]. split; [intros i X; apply P, (without_in _ _ _ X)|]. intros i X. apply H, (without_in _ _ _ X).
  - destruct (holds k (wo_readers w)); [|discriminate D]. destruct (perform (wo_shared w) (wo_answers w) (Read k t room)) as [[e1 s1] a1] eqn:Q.
    injection D as <- <-. apply read_call in Q. destruct Q as ((K1 & _) & _). cbn [wo_shared wo_readers wo_connects]. split; [exact C|]. split; [exact P|]. intros i X. rewrite K1. apply H, X.
  - destruct (holds k (wo_readers w)) eqn:K; [|discriminate D]. apply holds_in in K. injection D as <- <-. cbn [wo_shared wo_readers wo_connects].
    split; [exact C|]. split; [intros i X Y; exact (P _ X (without_in _ _ _ Y))|]. intros i X. rewrite have_remove, (H _ X), andb_true_r. destruct (sid_eqb k i) eqn:E; [apply sid_eqb_eq in E; subst k; contradiction (P _ X K)|reflexivity].
  - destruct (holds k (wo_writers w)); [|discriminate D]. injection D as <- <-. repeat (split; [assumption|]). assumption.
  - injection D as <- <-. repeat (split; [assumption|]). assumption.
Qed.
Lemma pending_calls cs : forall w es w', pending_ok w -> do_calls w cs = Some (es, w') -> pending_ok w'.
Proof.
  induction cs as [|c cs IH]; intros w es w' S; cbn [do_calls]; [intros [=<- <-]; exact S|]. destruct (do_call w c) as [[e w1]|] eqn:D; [|discriminate].
  destruct (do_calls w1 cs) as [[es1 w2]|] eqn:R; [|discriminate]. intros [=<- <-]. exact (IH _ _ _ (pending_call _ _ _ _ S D) R).
Qed.
Lemma pending_new answers : pending_ok (world_new answers).
Proof. destruct (settled_new answers) as (N & _ & _ & _ & C & P & _). split; [exact N|]. split; [exact C|]. split; [exact P|intros i []]. Qed.
Lemma abandoned_calls cs : forall w i es w', abandoned w i -> do_calls w cs = Some (es, w') -> abandoned w' i.
Proof.
  induction cs as [|c cs IH]; intros w i es w' S; cbn [do_calls]; [intros [=<- <-]; exact S|]. destruct (do_call w c) as [[e w1]|] eqn:D; [|discriminate].
  destruct (do_calls w1 cs) as [[es1 w2]|] eqn:R; [|discriminate]. intros [=<- <-]. exact (IH _ _ _ _ (abandoned_call _ _ _ _ _ S D) R).
Qed.
Lemma give_up_abandons w i w1 e : pending_ok w -> do_call w (CGiveUp i) = Some (e, w1) -> abandoned w1 i.
Proof.
  intros (N & C & P & H) D. destruct (numbered_call _ _ _ _ N D) as (N' & _). cbn [do_call] in D. destruct (holds i (wo_connects w)) eqn:K; [|discriminate D]. apply holds_in in K. injection D as <- <-.
  split; [exact N'|]. destruct N as (_ & _ & _ & MC & OC). cbn [with_connects wo_shared wo_readers wo_connects]. destruct (OC _ K) as [n ->]. split; [exists n; split; [reflexivity|apply MC, K]|]. split; [exact (P _ K)|]. split; [exact (without_gone _ _ C)|exact (H _ K)].
Qed.
(** After any use of the connection, give up the opening of a stream; then use it in any way:
    the stream stays registered, though it has no handle. *)
Theorem C143_given_up_stays_refuted answers before i after es w : do_calls (world_new answers) (before ++ CGiveUp i :: after) = Some (es, w) ->
  have_reader (wo_shared w) i = true /\ ~ In i (wo_readers w) /\ ~ In i (wo_connects w).
Proof.
  intros H. assert (E : exists es1 w1 es2, do_calls (world_new answers) before = Some (es1, w1) /\ do_calls w1 (CGiveUp i :: after) = Some (es2, w)).
  { revert H. generalize (world_new answers). revert es. induction before as [|c cs IH]; intros es w0; cbn [app do_calls].
    - intros H. exists [], w0, es. split; [reflexivity|exact H].
    - destruct (do_call w0 c) as [[e w1]|] eqn:D; [|discriminate]. destruct (do_calls w1 (cs ++ CGiveUp i :: after)) as [[es1 w2]|] eqn:R; [|discriminate]. intros [=<- <-].
      destruct (IH _ _ R) as (a & b & c2 & X & Y). rewrite X. exists (e :: a), b, c2. split; [reflexivity|exact Y]. }
  destruct E as (es1 & w1 & es2 & B & A). cbn [do_calls] in A. destruct (do_call w1 (CGiveUp i)) as [[e w2]|] eqn:D; [|discriminate A].
  destruct (do_calls w2 after) as [[es3 w3]|] eqn:R; [|discriminate A]. injection A as <- <-.
  destruct (abandoned_calls _ _ _ _ _ (give_up_abandons _ _ _ _ (pending_calls _ _ _ _ (pending_new answers) B) D) R) as (_ & _ & X & Y & Z). split; [exact Z|]. split; assumption.
Qed.
Print Assumptions C143_given_up_stays_refuted.

(** *** One frame stops the connection *)
(** The calls that take away the frame in front. *)
Definition takes (f : frame) (c : call) : Prop :=
  match c with CAccept _ => f_op f = New | CRead i _ _ => i = f_id f | CDropReader i => i = f_id f /\ f_op f <> New | _ => False end.
Definition is_waiting (c : call) (e : event) : Prop := match c with CAccept _ | CRead _ _ _ => e = EvWait | _ => True end.
Lemma wanted_call w f c e w' : wanted (wo_shared w) f -> ~ takes f c -> do_call w c = Some (e, w') -> wanted (wo_shared w') f /\ is_waiting c e.
Proof.
  intros W T D. pose proof W as (C & I & K). destruct c as [t|name wa|k wa|k|k t room|k|k|out]; cbn [do_call takes is_waiting] in *.
  - cbn [perform] in D. rewrite (accept_wanted _ _ _ _ W T) in D. injection D as <- <-. split; [exact W|reflexivity].
  - split; [|exact Logic.I]. injection D as D. destruct (connect_fresh _ _ _ _ _ D) as [(_ & -> & ->)|(B & (O1 & _ & O3) & _ & _ & O4 & _)]; [exact W|].
    split; [congruence|]. split; [congruence|]. destruct K as [K|K]; [left; exact K|right]. rewrite O1, K. apply orb_true_r.
  - split; [|exact Logic.I]. destruct (holds k (wo_connects w)); [|discriminate D]. injection D as D. apply connect_again in D. cbn [with_connects wo_shared] in D. destruct D as ((K1 & _ & _ & K4) & _ & O4 & _).
    split; [congruence|]. split; [congruence|]. rewrite K1. exact K.
  - split; [|exact Logic.I]. destruct (holds k (wo_connects w)); [|discriminate D]. injection D as <- <-. exact W.
  - destruct (holds k (wo_readers w)); [|discriminate D]. cbn [perform] in D. rewrite (read_wanted _ _ _ _ _ _ W) in D; [|congruence]. injection D as <- <-. split; [|reflexivity].
    split; [exact C|]. split; [exact I|]. cbn [wo_shared]. rewrite have_set_read_waker. exact K.
  - split; [|exact Logic.I]. destruct (holds k (wo_readers w)); [|discriminate D]. injection D as <- <-. split; [exact C|]. split; [exact I|]. cbn [wo_shared]. rewrite have_remove.
    destruct K as [K|K]; [left; exact K|]. destruct (f_op f) eqn:O; [left; reflexivity|..]; right; rewrite K, andb_true_r; (destruct (sid_eqb k (f_id f)) eqn:E; [apply sid_eqb_eq in E; exfalso; apply T; split; [exact E|discriminate]|reflexivity]).
  - split; [|exact Logic.I]. destruct (holds k (wo_writers w)); [|discriminate D]. injection D as <- <-. exact W.
  - split; [|exact Logic.I]. injection D as <- <-. exact W.
Qed.
(** While the frame in front is not taken, every read and every accept waits, whatever else has
    arrived for others. *)
Theorem C143_head_of_line w f cs es w' : wanted (wo_shared w) f -> Forall (fun c => ~ takes f c) cs -> do_calls w cs = Some (es, w') ->
  Forall2 is_waiting cs es /\ wanted (wo_shared w') f.
Proof.
  intros W F. revert w W es w'. induction F as [|c cs T F IH]; intros w W es w'; cbn [do_calls]; [intros [=<- <-]; split; [constructor|exact W]|].
  destruct (do_call w c) as [[e w1]|] eqn:D; [|discriminate]. destruct (wanted_call _ _ _ _ _ W T D) as [W1 X]. destruct (do_calls w1 cs) as [[es1 w2]|] eqn:R; [|discriminate]. intros [=<- <-].
  destruct (IH _ W1 _ _ R) as [Y Z]. split; [constructor; assumption|exact Z].
Qed.
Print Assumptions C143_head_of_line.
(** One frame for a stream whose opening was given up stops the connection for ever. *)
Theorem C143_given_up_stops_all_refuted answers before i es1 w1 e w2 middle es2 w3 f after es3 w4 :
  do_calls (world_new answers) before = Some (es1, w1) -> do_call w1 (CGiveUp i) = Some (e, w2) -> do_calls w2 middle = Some (es2, w3) ->
  sh_incoming (wo_shared w3) = Some f -> f_id f = i -> do_calls w3 after = Some (es3, w4) -> Forall2 is_waiting after es3.
Proof.
  intros B D M I F A. pose proof (abandoned_calls _ _ _ _ _ (give_up_abandons _ _ _ _ (pending_calls _ _ _ _ (pending_new answers) B) D) M) as X.
  assert (CL : forall cs w es w', sh_closed (wo_shared w) = false -> do_calls w cs = Some (es, w') -> sh_closed (wo_shared w') = false).
  { clear. induction cs as [|c cs IH]; intros w es w' C; cbn [do_calls]; [intros [=<- <-]; exact C|]. destruct (do_call w c) as [[e w1]|] eqn:D; [|discriminate].
    destruct (do_calls w1 cs) as [[es1 w2]|] eqn:R; [|discriminate]. intros [=<- <-]. apply (IH _ _ _) in R; [exact R|]. clear IH R.
    destruct c as [t|name wa|k wa|k|k t room|k|k|out]; cbn [do_call] in D.
    - destruct (perform (wo_shared w) (wo_answers w) (Accept t)) as [[e1 s1] a1] eqn:P. injection D as <- <-.
      destruct (accept_call _ _ _ _ _ _ P) as [[_ (_ & _ & _ & K)]|(k & -> & (_ & _ & K) & _)]; [destruct e1|]; cbn; congruence.
    - injection D as D. destruct (connect_fresh _ _ _ _ _ D) as [(_ & -> & ->)|(B & (_ & _ & O3) & _)]; congruence.
    - destruct (holds k (wo_connects w)); [|discriminate D]. injection D as D. apply connect_again in D. destruct D as ((_ & _ & _ & K) & _). cbn in K. congruence.
    - destruct (holds k (wo_connects w)); [|discriminate D]. injection D as <- <-. exact C.
    - destruct (holds k (wo_readers w)); [|discriminate D]. destruct (perform (wo_shared w) (wo_answers w) (Read k t room)) as [[e1 s1] a1] eqn:P. injection D as <- <-. apply read_call in P. destruct P as ((_ & _ & _ & K) & _). cbn. congruence.
    - destruct (holds k (wo_readers w)); [|discriminate D]. injection D as <- <-. exact C.
    - destruct (holds k (wo_writers w)); [|discriminate D]. injection D as <- <-. exact C.
    - injection D as <- <-. exact C. }
  assert (C3 : sh_closed (wo_shared w3) = false).
  { apply (CL _ _ _ _) in M; [exact M|]. cbn [do_call] in D. destruct (holds i (wo_connects w1)); [|discriminate D]. injection D as <- <-. cbn. exact (CL _ (world_new answers) _ _ eq_refl B). }
  assert (NN : f_op f <> New).
  { intros O. destruct X as ((N & _) & (n & E & _) & _). destruct (N _ I O) as [_ [m Q]]. congruence. }
  assert (G : forall cs w es w', abandoned w i -> wanted (wo_shared w) f -> do_calls w cs = Some (es, w') -> Forall2 is_waiting cs es).
  { clear - F NN. induction cs as [|c cs IH]; intros w es w' X W; cbn [do_calls]; [intros [=<- <-]; constructor|]. destruct (do_call w c) as [[e w1]|] eqn:D; [|discriminate].
    destruct (do_calls w1 cs) as [[es1 w2]|] eqn:R; [|discriminate]. intros [=<- <-].
    assert (T : ~ takes f c).
    { intros T. destruct X as (_ & _ & NR & _). destruct c; cbn [takes do_call] in *; try contradiction.
      - subst. destruct (holds (f_id f) (wo_readers w)) eqn:K; [apply holds_in in K; contradiction|discriminate D].
      - destruct T as [T _]. subst. destruct (holds (f_id f) (wo_readers w)) eqn:K; [apply holds_in in K; contradiction|discriminate D]. }
    destruct (wanted_call _ _ _ _ _ W T D) as [W1 Y]. constructor; [exact Y|]. exact (IH _ _ _ (abandoned_call _ _ _ _ _ X D) W1 R). }
  apply (G _ _ _ _ X) in A; [exact A|]. split; [exact C3|]. split; [exact I|]. right. rewrite F. exact (proj2 (proj2 (proj2 (proj2 X)))).
Qed.
Print Assumptions C143_given_up_stops_all_refuted.

(** *** A stream opened twice *)
(** A reader without an entry gets no bytes, until the other side opens the stream yet again. *)
Theorem C143_without_entry_no_bytes answers before es0 w i cs es w' : do_calls (world_new answers) before = Some (es0, w) ->
  have_reader (wo_shared w) i = false -> (exists n, i = Initiator n) ->
  do_calls w cs = Some (es, w') -> ~ In (EvAccepted i) es -> forall room b, In (EvBytes i room b) es -> b = [].
Proof.
  intros B H [n ->]. assert (N : numbered w) by exact (proj1 (pending_calls _ _ _ _ (pending_new answers) B)). clear B es0 before. revert w N H es w'. induction cs as [|c cs IH]; intros w N H es w'; cbn [do_calls]; [intros [=<- <-] _ room b []|].
  destruct (do_call w c) as [[e w1]|] eqn:D; [|discriminate]. destruct (do_calls w1 cs) as [[es1 w2]|] eqn:R; [|discriminate]. intros [=<- <-] A room b X.
  destruct (numbered_call _ _ _ _ N D) as (N1 & _). assert (A1 : ~ In (EvAccepted (Initiator n)) es1) by (intros Y; apply A; right; exact Y). assert (A0 : e <> EvAccepted (Initiator n)) by (intros Y; apply A; left; exact Y).
  assert (H1 : have_reader (wo_shared w1) (Initiator n) = false).
  { destruct c as [t|name wa|k wa|k|k t rm|k|k|out]; cbn [do_call] in D.
    - destruct (perform (wo_shared w) (wo_answers w) (Accept t)) as [[e1 s1] a1] eqn:P. injection D as <- <-.
      destruct (accept_call _ _ _ _ _ _ P) as [[_ (K & _)]|(k & -> & (K & _) & _)].
      + destruct e1; cbn; rewrite K; exact H.
      + cbn. rewrite K, H, orb_false_r. destruct (sid_eqb k (Initiator n)) eqn:E; [apply sid_eqb_eq in E; congruence|reflexivity].
    - injection D as D. destruct (connect_fresh _ _ _ _ _ D) as [(_ & -> & ->)|(B & (O1 & _) & _)]; [exact H|]. rewrite O1, H. reflexivity.
    - destruct (holds k (wo_connects w)); [|discriminate D]. injection D as D. apply connect_again in D. destruct D as ((K & _) & _). rewrite K. exact H.
    - destruct (holds k (wo_connects w)); [|discriminate D]. injection D as <- <-. exact H.
    - destruct (holds k (wo_readers w)); [|discriminate D]. destruct (perform (wo_shared w) (wo_answers w) (Read k t rm)) as [[e1 s1] a1] eqn:P. injection D as <- <-. apply read_call in P. destruct P as ((K & _) & _). cbn. rewrite K. exact H.
    - destruct (holds k (wo_readers w)); [|discriminate D]. injection D as <- <-. cbn [wo_shared]. rewrite have_remove, H. apply andb_false_r.
    - destruct (holds k (wo_writers w)); [|discriminate D]. injection D as <- <-. exact H.
    - injection D as <- <-. exact H. }
  destruct X as [->|X]; [|exact (IH _ N1 H1 _ _ R A1 _ _ X)].
  destruct c as [t|name wa|k wa|k|k t rm|k|k|out]; cbn [do_call] in D.
  - cbn [perform] in D. destruct (poll_accept_id (wo_shared w) t (wo_answers w)) as [[r s1] a1]. injection D as D _. destruct r as [[|[[j|]|x|]]|]; discriminate D.
  - injection D as D. destruct (connect_fresh _ _ _ _ _ D) as [(_ & [=] & _)|(_ & _ & _ & _ & _ & O3)]. destruct O3 as [([=] & _)|[([=] & _)|([x [=]] & _)]].
  - destruct (holds k (wo_connects w)); [|discriminate D]. injection D as D. apply connect_again in D. destruct D as (_ & _ & _ & O3). destruct O3 as [([=] & _)|[([=] & _)|([x [=]] & _)]].
  - destruct (holds k (wo_connects w)); [|discriminate D]. discriminate D.
  - destruct (holds k (wo_readers w)); [|discriminate D]. cbn [perform] in D. destruct (poll_read (wo_shared w) k t rm (wo_answers w)) as [[r s1] a1] eqn:P. injection D as D _.
    destruct r as [[|[bb|x|]]|]; try discriminate D. injection D as -> -> ->. apply read_front in P; [|exact (proj1 N)]. exact (proj2 P H b eq_refl).
  - destruct (holds k (wo_readers w)); [|discriminate D]. discriminate D.
  - destruct (holds k (wo_writers w)); [|discriminate D]. discriminate D.
  - discriminate D.
Qed.
Print Assumptions C143_without_entry_no_bytes.

(** The other side opens its stream 1 twice and sends two bytes: with both handles they are read,
    but after one of the two was dropped the other gets nothing. *)
Definition twice : list answer := [ARead [8; 0; 8; 0; 10; 2; 104; 105]].
Theorem C143_opened_twice_refuted : exists es1 w1 es2 w2 es3 w3,
  do_calls (world_new twice) [CAccept 1; CAccept 1] = Some (es1, w1) /\ es1 = [EvAccepted (Initiator 1); EvAccepted (Initiator 1)] /\
  do_calls w1 [CRead (Initiator 1) 2 9] = Some (es2, w2) /\ es2 = [EvBytes (Initiator 1) 9 [104; 105]] /\
  do_calls w1 [CDropReader (Initiator 1); CRead (Initiator 1) 2 9] = Some (es3, w3) /\ es3 = [EvDone; EvWait] /\ wo_readers w3 = [Initiator 1].
Proof. do 6 eexists. split; [vm_compute; reflexivity|]. split; [reflexivity|]. split; [vm_compute; reflexivity|]. split; [reflexivity|]. split; [vm_compute; reflexivity|]. split; reflexivity. Qed.
Print Assumptions C143_opened_twice_refuted.

(** *** Dropping says nothing, and numbers are given out once *)
(** The other side is told nothing by dropping a half or giving up an opening. *)
Theorem C143_drops_are_silent w c e w' : (exists i, c = CDropReader i \/ c = CDropWriter i \/ c = CGiveUp i) -> do_call w c = Some (e, w') ->
  fs_out (sh_frames (wo_shared w')) = fs_out (sh_frames (wo_shared w)) /\ wo_answers w' = wo_answers w.
Proof.
  intros [i [->|[->| ->]]]; cbn [do_call]; match goal with |- context [if ?b then _ else _] => destruct b; [|discriminate] end; intros [=<- <-]; split; reflexivity.
Qed.
Print Assumptions C143_drops_are_silent.
Definition connected (es : list event) : list stream_id := flat_map (fun e => match e with EvConnected i => [i] | _ => [] end) es.
Theorem C143_numbers_once answers cs es w : do_calls (world_new answers) cs = Some (es, w) -> NoDup (connected es) /\ Forall (fun i => exists n, i = Receiver n /\ 33 <= n < two64 - 1) (connected es).
Proof.
  assert (G : forall cs w0 es w, pending_ok w0 -> 33 <= sh_next (wo_shared w0) -> (forall n, In (Receiver n) (wo_connects w0) -> 33 <= n < two64 - 1) -> do_calls w0 cs = Some (es, w) ->
    NoDup (connected es) /\ Forall (fun i => (In i (wo_connects w0) \/ exists n, i = Receiver n /\ sh_next (wo_shared w0) <= n) /\ exists n, i = Receiver n /\ 33 <= n < two64 - 1) (connected es)).
  { clear. induction cs as [|c cs IH]; intros w0 es w S L LC; cbn [do_calls]; [intros [=<- <-]; split; constructor|].
    destruct (do_call w0 c) as [[e w1]|] eqn:D; [|discriminate]. destruct (do_calls w1 cs) as [[es1 w2]|] eqn:R; [|discriminate]. intros [=<- <-].
    pose proof (pending_call _ _ _ _ S D) as S1. destruct S as (N & C & P & H). destruct (numbered_call _ _ _ _ N D) as (N1 & _ & M).
    assert (Q : match e with EvConnected i => (In i (wo_connects w0) \/ i = Receiver (sh_next (wo_shared w0)) /\ sh_next (wo_shared w1) = sh_next (wo_shared w0) + 1) /\ ~ In i (wo_connects w1) /\ (exists n, i = Receiver n /\ n < sh_next (wo_shared w1) /\ 33 <= n < two64 - 1) | _ => True end /\
      forall i, In i (wo_connects w1) -> In i (wo_connects w0) \/ (i = Receiver (sh_next (wo_shared w0)) /\ sh_next (wo_shared w0) + 1 < two64)).
    { destruct N as (_ & _ & _ & MC & OC). destruct c as [t|name wa|k wa|k|k t room|k|k|out]; cbn [do_call] in D.
      - destruct (perform (wo_shared w0) (wo_answers w0) (Accept t)) as [[e1 s1] a1] eqn:X. cbn [perform] in X. destruct (poll_accept_id (wo_shared w0) t (wo_answers w0)) as [[r s2] a2]. injection X as X _ _. injection D as <- <-.
        destruct r as [[|[[j|]|x|]]|]; subst e1; (split; [exact Logic.I|]); intros i Y; left; exact Y.
      - injection D as D. destruct (connect_fresh _ _ _ _ _ D) as [(_ & -> & ->)|(B & _ & O2 & _ & _ & O3)]; [split; [exact Logic.I|intros i Y; left; exact Y]|].
        destruct O3 as [(-> & -> & _)|[(-> & -> & _)|([x ->] & -> & _)]].
        + split; [exact Logic.I|]. intros i [<-|Y]; [right; split; [reflexivity|exact B]|left; exact Y].
        + split; [|intros i Y; left; exact Y]. split; [right; split; [reflexivity|exact O2]|]. split; [intros Y; apply MC in Y; lia|]. eexists. split; [reflexivity|]. split; [lia|]. lia.
        + split; [exact Logic.I|]. intros i Y. left. exact Y.
      - destruct (holds k (wo_connects w0)) eqn:K; [|discriminate D]. apply holds_in in K. injection D as D. apply connect_again in D. cbn [with_connects wo_shared wo_connects] in D. destruct D as ((_ & _ & K3 & _) & _ & _ & O3).
        destruct O3 as [(-> & -> & _)|[(-> & -> & _)|([x ->] & -> & _)]].
        + split; [exact Logic.I|]. intros i [<-|Y]; left; [exact K|exact (without_in _ _ _ Y)].
        + split; [|intros i Y; left; exact (without_in _ _ _ Y)]. split; [left; exact K|]. split; [exact (without_gone _ _ C)|]. destruct (OC _ K) as [n ->]. exists n. split; [reflexivity|]. split; [rewrite K3; apply MC, K|apply LC, K].
        + split; [exact Logic.I|]. intros i Y. left. exact (without_in _ _ _ Y).
      - destruct (holds k (wo_connects w0)); [|discriminate D]. injection D as <- <-. split; [exact Logic.I|]. intros i Y. left. exact (without_in _ _ _ Y).
      - destruct (holds k (wo_readers w0)); [|discriminate D]. destruct (perform (wo_shared w0) (wo_answers w0) (Read k t room)) as [[e1 s1] a1] eqn:X. injection D as <- <-. apply read_call in X. destruct X as (_ & _ & X).
        split; [destruct e1; try exact Logic.I; exfalso; eapply X; reflexivity|intros i Y; left; exact Y].
      - destruct (holds k (wo_readers w0)); [|discriminate D]. injection D as <- <-. split; [exact Logic.I|]. intros i Y. left. exact Y.
      - destruct (holds k (wo_writers w0)); [|discriminate D]. injection D as <- <-. split; [exact Logic.I|]. intros i Y. left. exact Y.
      - injection D as <- <-. split; [exact Logic.I|]. intros i Y. left. exact Y. }
    destruct Q as [Q1 Q2].
    assert (LC1 : forall n, In (Receiver n) (wo_connects w1) -> 33 <= n < two64 - 1).
    { intros n Y. destruct (Q2 _ Y) as [Z|[[=->] Z]]; [apply LC, Z|lia]. }
    destruct (IH _ _ _ S1 (N.le_trans _ _ _ L M) LC1 R) as [I1 I2].
    assert (T : Forall (fun i => (In i (wo_connects w0) \/ exists n, i = Receiver n /\ sh_next (wo_shared w0) <= n) /\ exists n, i = Receiver n /\ 33 <= n < two64 - 1) (connected es1)).
    { eapply Forall_impl; [|exact I2]. intros i [[Y|(n & -> & Y)] Z]; (split; [|exact Z]).
      - destruct (Q2 _ Y) as [V|[-> _]]; [left; exact V|right; eexists; split; [reflexivity|lia]].
      - right. exists n. split; [reflexivity|lia]. }
    destruct e as [k| |k room b|k| |x| | |]; try (split; [exact I1|exact T]).
    change (connected (EvConnected k :: es1)) with (k :: connected es1). destruct Q1 as (Q1 & Q3 & n & -> & Q4 & Q5). split.
    - constructor; [|exact I1]. intros Y. rewrite Forall_forall in I2. destruct (I2 _ Y) as [[V|(m & [=<-] & V)] _]; [exact (Q3 V)|lia].
    - constructor; [|exact T]. split; [|exists n; split; [reflexivity|exact Q5]]. destruct Q1 as [Q1|[[=->] _]]; [left; exact Q1|right; eexists; split; [reflexivity|lia]]. }
  intros H. destruct (G _ _ _ _ (pending_new answers) (N.le_refl 33) (fun n X => match X with end) H) as [X Y]. split; [exact X|]. eapply Forall_impl; [|exact Y]. intros i [_ Z]. exact Z.
Qed.
Print Assumptions C143_numbers_once.

(** Opening a stream is given up before the transport took it; the other side answers on it with
    one byte and then opens a stream of its own: nobody is ever told. *)
Example C143_example_stopped :
  option_map fst (do_calls (world_new [ARead ([137; 2; 1; 7] ++ [8; 0])])
    [CConnect None []; CGiveUp (Receiver 33); CAccept 1; CAccept 1; CConnect None [WOk 100; WOk 1]; CRead (Receiver 34) 2 10; CAccept 1]) =
  Some [EvWait; EvDone; EvWait; EvWait; EvConnected (Receiver 34); EvWait; EvWait].
Proof. reflexivity. Qed.
(** A tidy program: a stream is opened, a stream is accepted, both are dropped. *)
Example C143_example_tidy :
  let cs := [CConnect None [WPending]; CAccept 1; CAgain (Receiver 33) [WOk 100; WOk 1]; CDropReader (Initiator 1); CRead (Receiver 33) 2 10;
             CDropWriter (Initiator 1); CDropWriter (Receiver 33); CDropReader (Receiver 33)] in
  tidy (world_new [ARead [8; 0; 137; 2; 1; 7]]) cs /\
  match do_calls (world_new [ARead [8; 0; 137; 2; 1; 7]]) cs with
  | Some (es, w) => es = [EvWait; EvAccepted (Initiator 1); EvConnected (Receiver 33); EvDone; EvBytes (Receiver 33) 10 [7]; EvDone; EvDone; EvDone] /\
      wo_readers w = [] /\ wo_writers w = [] /\ wo_connects w = [] /\ sh_readers (wo_shared w) = []
  | None => False
  end.
Proof. cbv zeta. split; [vm_compute; tauto|]. vm_compute. repeat split. Qed.
