(** What the relay programs print, C139: the proxy. *)
From Coq Require Import String Ascii.
From Verif Require Import Base BaseProofs UtilModel ChatModel Asn1PrintProps BencodePathModel DebugModel TemplateSpec MplexLogProps RelayModel RelayProps RelayLogModel.
Local Open Scope string_scope. Local Open Scope list_scope. Local Open Scope N_scope.

(** *** Runs with their log *)
Inductive pipe_log (size : nat) (delay : N) (input : bytes) : list psaying -> pipe -> Prop :=
| plog_start : pipe_log size delay input [] (pipe_new input)
| plog_then l p new q : pipe_log size delay input l p -> pipe_says size delay p new q -> pipe_log size delay input (l ++ new) q.
Inductive proxy_log (o : proxy_opt) : list (bytes * bytes) -> list xentry -> lproxy -> Prop :=
| xlog_start : proxy_log o [] [] lproxy_new
| xlog_then ins l x i new y : proxy_log o ins l x -> proxy_says o x i new y ->
    proxy_log o (ins ++ match i with Some p => [p] | None => [] end) (l ++ new) y.

(** ** C139: the log only adds lines: the runs are those of RelayModel.v *)
Lemma says_step size delay p q : (exists l, pipe_says size delay p l q) <-> pipe_step size delay p q.
Proof.
  split.
  - intros (l & H). destruct H; econstructor; eassumption.
  - intros H. destruct H; eexists; econstructor; eassumption.
  Unshelve. all: exact [].
Qed.
Theorem C139_proxy_runs o ins x :
  proxy_run o ins x <-> exists l w, proxy_log o ins l {| lx := x; lx_wait := w |}.
Proof.
  split.
  - intros H. assert (G : exists l w, proxy_log o ins l {| lx := x; lx_wait := w |} /\ (x_running x = true -> w = false)).
    { induction H as [|ins x i y H (l & w & L & W) S].
      - exists [], false. split; [apply xlog_start|reflexivity].
      - destruct S as [cl sv R|R|k c u R N S|k c d R N S].
        + specialize (W R). subst w. exists ((l ++ [XGot []]) ++ []), false. split; [|reflexivity].
          change (proxy_log o (ins ++ [(cl, sv)]) ((l ++ [XGot []]) ++ []) {| lx := {| x_conns := x_conns x ++ [{| c_up := pipe_new cl; c_down := pipe_new sv |}]; x_running := true |}; lx_wait := false |}).
          apply (xlog_then o ins _ {| lx := x; lx_wait := true |} (Some (cl, sv))); [|apply lx_connect; [exact R|reflexivity]].
          rewrite <- (app_nil_r ins). apply (xlog_then o ins l {| lx := x; lx_wait := false |} None); [exact L|]. apply lx_accept; [exact R|reflexivity].
        + exists (l ++ []), w. split; [|discriminate]. apply (xlog_then o ins l {| lx := x; lx_wait := w |} None); [exact L|]. apply (lx_fails o {| lx := x; lx_wait := w |} R).
        + apply says_step in S. destruct S as (n & S). eexists (l ++ _), w. split; [|intros _; apply W, R]. apply (xlog_then o ins l {| lx := x; lx_wait := w |} None); [exact L|]. apply (lx_up o {| lx := x; lx_wait := w |} k c n u R N S).
        + apply says_step in S. destruct S as (n & S). eexists (l ++ _), w. split; [|intros _; apply W, R]. apply (xlog_then o ins l {| lx := x; lx_wait := w |} None); [exact L|]. apply (lx_down o {| lx := x; lx_wait := w |} k c n d R N S). }
    destruct G as (l & w & G & _). exists l, w. exact G.
  - intros (l & w & H). change x with (lx {| lx := x; lx_wait := w |}). revert H. generalize {| lx := x; lx_wait := w |}. clear. intros x H.
    induction H as [|ins l x i new y H IH S]; [apply proxy_start|]. destruct S as [a R W|cl sv R W|R|k c n u R N S|k c n d R N S]; cbn [lx].
    + rewrite app_nil_r. exact IH.
    + apply (proxy_then o ins (lx x) (Some (cl, sv))); [exact IH|]. apply proxy_accept, R.
    + apply (proxy_then o ins (lx x) None); [exact IH|]. apply proxy_fails, R.
    + apply (proxy_then o ins (lx x) None); [exact IH|]. eapply proxy_up; [exact R|exact N|]. apply says_step. eauto.
    + apply (proxy_then o ins (lx x) None); [exact IH|]. eapply proxy_down; [exact R|exact N|]. apply says_step. eauto.
Qed.
Print Assumptions C139_proxy_runs.

(** ** C139: one direction: the lines are the blocks passed on, with their running totals *)
Definition sizes (ds : list bytes) : N := blen (concat ds).
Fixpoint story (before : N) (ds : list bytes) : list psaying :=
  match ds with
  | [] => []
  | d :: ds => [PRead (blen d) (before + blen d); PWrote (blen d) (before + blen d)] ++ story (before + blen d) ds
  end.
(** [ds] are the blocks that were read and written, [held] what was read and is being
    written, [last] the line that ended the loop. *)
Inductive narrated (p : pipe) : list bytes -> option bytes -> list psaying -> Prop :=
| narr_open ds : p_place p = Reading \/ p_place p = Sleeping -> p_out p = concat ds -> narrated p ds None []
| narr_writing ds d a b : p_place p = Writing -> d = a ++ b -> p_out p = concat ds ++ a -> p_buf p = b -> narrated p ds (Some d) []
| narr_eof ds : p_place p = Ended AtEof -> p_out p = concat ds -> narrated p ds None [PEof]
| narr_read_error ds e : p_place p = Ended ReadError -> p_out p = concat ds -> narrated p ds None [PReadError e]
| narr_write_error ds d a b e : p_place p = Ended WriteError -> d = a ++ b -> b <> [] -> p_out p = concat ds ++ a -> narrated p ds (Some d) [PWriteError e].
Definition held_bytes (h : option bytes) : list bytes := match h with Some d => [d] | None => [] end.
Definition held_line (t : N) (h : option bytes) : list psaying := match h with Some d => [PRead (blen d) (t + blen d)] | None => [] end.
Lemma story_snoc ds d t : story t (ds ++ [d]) = story t ds ++ [PRead (blen d) (t + sizes ds + blen d); PWrote (blen d) (t + sizes ds + blen d)].
Proof.
  revert t. induction ds as [|x ds IH]; intros t; [unfold sizes; cbn; rewrite ?blen_nil, ?N.add_0_r; reflexivity|]. cbn [story app]. rewrite IH. unfold sizes. cbn [concat]. rewrite blen_app. rewrite <- !N.add_assoc. reflexivity.
Qed.
Theorem C139_direction size delay input l p : pipe_log size delay input l p ->
  exists ds held last, Forall (fun d => d <> [] /\ (length d <= size)%nat) (ds ++ held_bytes held) /\
    input = concat ds ++ concat (held_bytes held) ++ p_todo p /\ narrated p ds held last /\
    l = story 0 ds ++ held_line (sizes ds) held ++ last.
Proof.
  intros H.
  assert (G : exists ds held last, Forall (fun d => d <> [] /\ (length d <= size)%nat) (ds ++ held_bytes held) /\
    input = concat ds ++ concat (held_bytes held) ++ p_todo p /\ narrated p ds held last /\
    l = story 0 ds ++ held_line (sizes ds) held ++ last /\
    p_read p = sizes ds + sizes (held_bytes held) /\ p_written p = sizes ds /\ (p_place p = Writing -> p_block p = sizes (held_bytes held))).
  { induction H as [|l p new q H (ds & held & last & F & I & A & L & R & W & B) S].
    - exists [], None, []. repeat split; try constructor; try discriminate; auto.
    - assert (NN : forall d : bytes, sizes [d] = blen d) by (intros d; unfold sizes; cbn; rewrite app_nil_r; reflexivity).
      destruct S as [d rest E T NE D|E T|e E|d rest E T NE|e E Q|E Q|E].
      + assert (X : held = None /\ last = [] /\ p_out p = concat ds) by (destruct A as [? P|? ? ? ? P|? P|? ? P|? ? ? ? ? P]; try congruence; auto).
        destruct X as (-> & -> & O). exists ds, (Some d), []. cbn [held_bytes held_line got p_todo p_read p_written p_block p_place concat] in *.
        rewrite app_nil_r in F. rewrite !app_nil_r in *. unfold sizes in R, W. cbn [concat] in R. rewrite blen_nil, N.add_0_r in R.
        split; [apply Forall_app; split; [exact F|constructor; [split; assumption|constructor]]|]. split; [rewrite I, T; reflexivity|].
        split; [apply (narr_writing _ ds d [] d); [reflexivity|reflexivity|rewrite app_nil_r; exact O|reflexivity]|]. split; [rewrite L, R; reflexivity|]. rewrite NN. split; [rewrite R; reflexivity|]. split; [exact W|]. reflexivity.
      + assert (X : held = None /\ last = [] /\ p_out p = concat ds) by (destruct A as [? P|? ? ? ? P|? P|? ? P|? ? ? ? ? P]; try congruence; auto).
        destruct X as (-> & -> & O). exists ds, None, [PEof]. do 2 (split; [assumption|]). split; [apply narr_eof; [reflexivity|exact O]|]. split; [rewrite L, <- !app_assoc; reflexivity|]. split; [exact R|]. split; [exact W|discriminate].
      + assert (X : held = None /\ last = [] /\ p_out p = concat ds) by (destruct A as [? P|? ? ? ? P|? P|? ? P|? ? ? ? ? P]; try congruence; auto).
        destruct X as (-> & -> & O). exists ds, None, [PReadError e]. do 2 (split; [assumption|]). split; [apply narr_read_error; [reflexivity|exact O]|]. split; [rewrite L, <- !app_assoc; reflexivity|]. split; [exact R|]. split; [exact W|discriminate].
      + destruct A as [? [P|P]|? d0 a b P Dd O Bb|? P|? ? P|? ? ? ? ? P]; try congruence.
        exists ds, (Some d0), []. do 2 (split; [assumption|]).
        split; [apply (narr_writing _ ds d0 (a ++ d) rest); [reflexivity|rewrite Dd, <- app_assoc, <- T, Bb; reflexivity|cbn [took p_out]; rewrite O, app_assoc; reflexivity|reflexivity]|].
        split; [rewrite app_nil_r; exact L|]. split; [exact R|]. split; [exact W|]. intros _. apply B, E.
      + destruct A as [? [P|P]|? d0 a b P Dd O Bb|? P|? ? P|? ? ? ? ? P]; try congruence.
        exists ds, (Some d0), [PWriteError e]. do 2 (split; [assumption|]). split; [apply (narr_write_error _ ds d0 a b e); [reflexivity|exact Dd|congruence|exact O]|].
        split; [rewrite L, app_nil_r, <- app_assoc; reflexivity|]. split; [exact R|]. split; [exact W|discriminate].
      + destruct A as [? [P|P]|? d0 a b P Dd O Bb|? P|? ? P|? ? ? ? ? P]; try congruence.
        specialize (B E). cbn [held_bytes held_line] in *. rewrite NN in B.
        assert (Dz : d0 = a) by (rewrite Dd, <- Bb, Q, app_nil_r; reflexivity).
        assert (Sz : sizes (ds ++ [d0]) = sizes ds + blen d0) by (unfold sizes; rewrite concat_app, blen_app; cbn; rewrite app_nil_r; reflexivity).
        exists (ds ++ [d0]), None, []. cbn [held_bytes held_line concat]. split; [rewrite app_nil_r; exact F|]. split; [rewrite I, concat_app, <- app_assoc; reflexivity|].
        split; [apply narr_open; [cbn; destruct (0 <? delay); auto|cbn [wrote p_out]; rewrite O, concat_app; cbn; rewrite app_nil_r, Dz; reflexivity]|].
        split; [rewrite L, B, W, story_snoc, N.add_0_l, !app_nil_r, <- app_assoc; reflexivity|]. cbn [wrote p_read p_written p_place]. rewrite Sz. split; [rewrite R, NN; unfold sizes; cbn; rewrite ?blen_nil; lia|]. split; [rewrite W, B; reflexivity|]. destruct (0 <? delay); discriminate.
      + assert (X : held = None /\ last = [] /\ p_out p = concat ds) by (destruct A as [? P|? ? ? ? P|? P|? ? P|? ? ? ? ? P]; try congruence; auto).
        destruct X as (-> & -> & O). exists ds, None, []. do 2 (split; [assumption|]). split; [apply narr_open; [left; reflexivity|exact O]|]. split; [rewrite L, app_nil_r; reflexivity|]. split; [exact R|]. split; [exact W|discriminate]. }
  destruct G as (ds & held & last & F & I & A & L & _). exists ds, held, last. auto.
Qed.
Print Assumptions C139_direction.
(** The totals: that of the last line of a kind is the number of bytes, and when the lines
    end with the end of the input both are the length of the input. *)
Definition last_read (l : list psaying) : N := fold_left (fun t x => match x with PRead _ n => n | _ => t end) l 0.
Definition last_written (l : list psaying) : N := fold_left (fun t x => match x with PWrote _ n => n | _ => t end) l 0.
Definition sum_read (l : list psaying) : N := fold_right (fun x t => match x with PRead n _ => n + t | _ => t end) 0 l.
Definition sum_written (l : list psaying) : N := fold_right (fun x t => match x with PWrote n _ => n + t | _ => t end) 0 l.
Theorem C139_totals size delay input l p : pipe_log size delay input l p ->
  last_read l = p_read p /\ sum_read l = p_read p /\ last_written l = p_written p /\ sum_written l = p_written p /\
  (In PEof l -> size <> O -> last_read l = blen input /\ last_written l = blen input) /\
  (In PEof l <-> p_place p = Ended AtEof) /\ ((exists e, In (PReadError e) l) <-> p_place p = Ended ReadError) /\ ((exists e, In (PWriteError e) l) <-> p_place p = Ended WriteError).
Proof.
  intros H.
  assert (G : last_read l = p_read p /\ sum_read l = p_read p /\ last_written l = p_written p /\ sum_written l = p_written p /\
    (In PEof l <-> p_place p = Ended AtEof) /\ ((exists e, In (PReadError e) l) <-> p_place p = Ended ReadError) /\ ((exists e, In (PWriteError e) l) <-> p_place p = Ended WriteError)).
  { assert (SR : forall a b, sum_read (a ++ b) = sum_read a + sum_read b) by (intros a b; unfold sum_read; induction a as [|x a IH]; [reflexivity|]; destruct x; cbn [app fold_right]; lia).
    assert (SW : forall a b, sum_written (a ++ b) = sum_written a + sum_written b) by (intros a b; unfold sum_written; induction a as [|x a IH]; [reflexivity|]; destruct x; cbn [app fold_right]; lia).
    induction H as [|l p new q H (A & B & C & D & E1 & E2 & E3) S].
    - cbn. repeat split; try discriminate; try (intros []; fail); intros (? & []).
    - rewrite SR, SW. unfold last_read, last_written in *. rewrite !fold_left_app, A, C, B, D.
      assert (NI : p_place p <> Ended AtEof -> p_place p <> Ended ReadError -> p_place p <> Ended WriteError -> forall x, In x l -> x <> PEof /\ (forall e, x <> PReadError e) /\ (forall e, x <> PWriteError e)).
      { intros N1 N2 N3 x X. split; [intros ->; tauto|]. split; intros e ->; [apply N2, E2|apply N3, E3]; eauto. }
      destruct S as [d rest E T NE L|E T|e E|d rest E T NE|e E Q|E Q|E]; specialize (NI ltac:(congruence) ltac:(congruence) ltac:(congruence));
        cbn [got took wrote set_place p_read p_written p_place fold_left sum_read sum_written fold_right]; rewrite ?app_nil_r, ?N.add_0_r; (do 4 (split; [lia|]));
        (split; [|split]); (split; [intros X; try (destruct X as (x0 & X)); try (apply in_app_iff in X; destruct X as [X|[X|[]]]); try (apply NI in X; destruct X as (X1 & X2 & X3); exfalso; solve [congruence|eapply X2; reflexivity|eapply X3; reflexivity]); try discriminate X; reflexivity
         |intros X; try (destruct (0 <? delay)); try discriminate X; try (exists e); apply in_or_app; right; left; reflexivity]). }
  destruct G as (A & B & C & D & E1 & E2 & E3). do 4 (split; [assumption|]). split; [|split; [exact E1|split; [exact E2|exact E3]]].
  intros X Z. rewrite A, C. apply E1 in X. assert (Acc : accounted size input p).
  { clear - H. induction H as [|l p new q H IH S]; [apply accounted_new|]. eapply accounted_step; [exact IH|]. apply says_step. eauto. }
  apply accounted_passes in Acc. destruct Acc as (_ & _ & _ & _ & Acc). destruct (Acc X Z) as (_ & P & Q). auto.
Qed.
Print Assumptions C139_totals.

(** ** C139: the whole log: that of every connection and direction, mixed *)
Definition of_side (i : nat) (s : side) (x : xentry) : list psaying :=
  match x with XSays j s' x => if ((i =? j)%nat && match s, s' with ClientToServer, ClientToServer | ServerToClient, ServerToClient => true | _, _ => false end)%bool then [x] else [] | XGot _ => [] end.
Definition is_got (x : xentry) : list bytes := match x with XGot a => [a] | _ => [] end.
Definition known (n : nat) (x : xentry) : Prop := match x with XSays i _ _ => (i < n)%nat | XGot _ => True end.
Lemma set_nth_other {A} i j (x : A) l : i <> j -> nth_error (set_nth i x l) j = nth_error l j.
Proof. revert i j. induction l as [|y l IH]; intros [|i] [|j] N; cbn; try reflexivity; try congruence. apply IH. congruence. Qed.
Lemma set_nth_same {A} i (x y : A) l : nth_error l i = Some y -> nth_error (set_nth i x l) i = Some x.
Proof. revert i. induction l as [|z l IH]; intros [|i] N; cbn in *; try discriminate N; [reflexivity|]. apply IH, N. Qed.
Lemma set_nth_length {A} i (x : A) l : length (set_nth i x l) = length l.
Proof. revert i. induction l as [|z l IH]; intros [|i]; cbn; try reflexivity. rewrite IH. reflexivity. Qed.
Lemma of_side_same i s l : flat_map (of_side i s) (map (XSays i s) l) = l.
Proof. induction l as [|x l IH]; [reflexivity|]. cbn [map flat_map of_side]. rewrite Nat.eqb_refl, IH. destruct s; reflexivity. Qed.
Lemma of_side_other i j s s' l : i <> j \/ s <> s' -> flat_map (of_side i s) (map (XSays j s') l) = [].
Proof.
  intros N. induction l as [|x l IH]; [reflexivity|]. cbn [map flat_map of_side]. rewrite IH. destruct N as [N|N].
  - apply Nat.eqb_neq in N. rewrite N. reflexivity.
  - destruct s, s'; try congruence; rewrite andb_false_r; reflexivity.
Qed.
Lemma of_side_unknown n i s l : Forall (known n) l -> (n <= i)%nat -> flat_map (of_side i s) l = [].
Proof.
  intros F L. induction F as [|x l K F IH]; [reflexivity|]. cbn [flat_map]. rewrite IH. destruct x as [|j s' x]; [reflexivity|]. cbn in *. destruct (i =? j)%nat eqn:E; [apply Nat.eqb_eq in E; lia|reflexivity].
Qed.
Theorem C139_proxy_log o ins l x : proxy_log o ins l x ->
  length ins = length (x_conns (lx x)) /\
  (forall i c cl sv, nth_error (x_conns (lx x)) i = Some c -> nth_error ins i = Some (cl, sv) ->
     pipe_log (up_size o) (up_delay o) cl (flat_map (of_side i ClientToServer) l) (c_up c) /\
     pipe_log (down_size o) (down_delay o) sv (flat_map (of_side i ServerToClient) l) (c_down c)) /\
  Forall (known (length ins)) l /\
  length (flat_map is_got l) = (length ins + if lx_wait x then 1 else 0)%nat.
Proof.
  intros H. induction H as [|ins l x k new y H (Len & P & K & G) S].
  - repeat split; try constructor; destruct i; discriminate.
  - assert (Kup : forall n m (q : list xentry), (n <= m)%nat -> Forall (known n) q -> Forall (known m) q).
    { intros n m q L F. eapply Forall_impl; [|exact F]. intros [a|j s e] Q; [exact I|]. cbn in *. lia. }
    assert (NG : forall i s (q : list psaying), flat_map is_got (map (XSays i s) q) = []) by (intros i s q; induction q as [|z q IH]; [reflexivity|exact IH]).
    destruct S as [a R W|cl sv R W|R|i c n u R N S|i c n u R N S]; cbn [lx lx_wait x_conns]; rewrite ?app_nil_r.
    + split; [exact Len|]. split.
      * intros i c cl sv N1 N2. rewrite !flat_map_app. cbn [flat_map of_side]. rewrite !app_nil_r. apply P; assumption.
      * split; [apply Forall_app; split; [exact K|constructor; [exact I|constructor]]|]. rewrite flat_map_app, app_length, G, W. cbn. lia.
    + rewrite !app_length. cbn [length]. split; [lia|]. split.
      * intros i c cl' sv' N1 N2. destruct (Nat.lt_ge_cases i (length ins)) as [B|B].
        -- rewrite nth_error_app1 in N1, N2 by lia. apply P; assumption.
        -- rewrite nth_error_app2 in N1, N2 by lia. rewrite Len in N2. destruct (i - length (x_conns (lx x)))%nat as [|m]; [|destruct m; discriminate N2]. injection N1 as <-. injection N2 as <- <-. cbn [c_up c_down].
           rewrite !(of_side_unknown (length ins)) by assumption. split; apply plog_start.
      * split; [eapply Kup; [|exact K]; lia|]. rewrite G, W. lia.
    + auto.
    + split; [rewrite set_nth_length; exact Len|]. split.
      * intros j c' cl sv N1 N2. rewrite !flat_map_app. rewrite (of_side_other j i ServerToClient ClientToServer) by (right; discriminate). rewrite app_nil_r.
        destruct (Nat.eq_dec i j) as [<-|D].
        -- rewrite (set_nth_same _ _ _ _ N) in N1. injection N1 as <-. cbn [c_up c_down]. rewrite of_side_same. destruct (P _ _ _ _ N N2) as (P1 & P2). split; [eapply plog_then; eassumption|exact P2].
        -- rewrite set_nth_other in N1 by exact D. rewrite of_side_other by (left; congruence). rewrite app_nil_r. apply P; assumption.
      * split; [apply Forall_app; split; [exact K|]|rewrite flat_map_app, NG, app_nil_r; exact G]. apply Forall_forall. intros z Z. apply in_map_iff in Z. destruct Z as (? & <- & _). cbn. rewrite Len. apply nth_error_Some. congruence.
    + split; [rewrite set_nth_length; exact Len|]. split.
      * intros j c' cl sv N1 N2. rewrite !flat_map_app. rewrite (of_side_other j i ClientToServer ServerToClient) by (right; discriminate). rewrite app_nil_r.
        destruct (Nat.eq_dec i j) as [<-|D].
        -- rewrite (set_nth_same _ _ _ _ N) in N1. injection N1 as <-. cbn [c_up c_down]. rewrite of_side_same. destruct (P _ _ _ _ N N2) as (P1 & P2). split; [exact P1|eapply plog_then; eassumption].
        -- rewrite set_nth_other in N1 by exact D. rewrite of_side_other by (left; congruence). rewrite app_nil_r. apply P; assumption.
      * split; [apply Forall_app; split; [exact K|]|rewrite flat_map_app, NG, app_nil_r; exact G]. apply Forall_forall. intros z Z. apply in_map_iff in Z. destruct Z as (? & <- & _). cbn. rewrite Len. apply nth_error_Some. congruence.
Qed.
Print Assumptions C139_proxy_log.

(** The lines do not say to which connection they belong: with two clients that send the same,
    it is not told which of them was read. *)
Theorem C139_which_connection_refuted o d : d <> [] -> (length d <= up_size o)%nat ->
  exists l l' x x', proxy_log o [(d, []); (d, [])] l x /\ proxy_log o [(d, []); (d, [])] l' x' /\ proxy_text l = proxy_text l' /\
    map (fun c => p_todo (c_up c)) (x_conns (lx x)) = [[]; d] /\ map (fun c => p_todo (c_up c)) (x_conns (lx x')) = [d; []].
Proof.
  intros NE L.
  assert (S0 : proxy_log o ((([] ++ []) ++ [(d, [])]) ++ []) ((([] ++ [XGot []]) ++ []) ++ [XGot []]) {| lx := {| x_conns := [{| c_up := pipe_new d; c_down := pipe_new [] |}]; x_running := true |}; lx_wait := true |}).
  { eapply (xlog_then o _ _ _ None); [eapply (xlog_then o _ _ _ (Some (d, []))); [eapply (xlog_then o _ _ _ None); [apply xlog_start|apply lx_accept; reflexivity]|apply lx_connect; reflexivity]|apply (lx_accept o {| lx := {| x_conns := [{| c_up := pipe_new d; c_down := pipe_new [] |}]; x_running := true |}; lx_wait := false |}); reflexivity]. }
  assert (S1 := xlog_then o _ _ _ (Some (d, [])) _ _ S0 (lx_connect o {| lx := {| x_conns := [{| c_up := pipe_new d; c_down := pipe_new [] |}]; x_running := true |}; lx_wait := true |} d [] eq_refl eq_refl)). cbn [app lx x_conns] in S1.
  assert (R0 : pipe_says (up_size o) (up_delay o) (pipe_new d) [PRead (blen d) (0 + blen d)] (got (pipe_new d) d [])) by (apply says_read; [reflexivity|symmetry; apply app_nil_r|exact NE|exact L]).
  assert (A := xlog_then o _ _ _ None _ _ S1 (lx_up o {| lx := {| x_conns := [{| c_up := pipe_new d; c_down := pipe_new [] |}; {| c_up := pipe_new d; c_down := pipe_new [] |}]; x_running := true |}; lx_wait := false |} 0 _ _ _ eq_refl eq_refl R0)).
  assert (B := xlog_then o _ _ _ None _ _ S1 (lx_up o {| lx := {| x_conns := [{| c_up := pipe_new d; c_down := pipe_new [] |}; {| c_up := pipe_new d; c_down := pipe_new [] |}]; x_running := true |}; lx_wait := false |} 1 _ _ _ eq_refl eq_refl R0)).
  eexists _, _, _, _. split; [exact A|]. split; [exact B|]. split; [reflexivity|]. split; reflexivity.
Qed.
Print Assumptions C139_which_connection_refuted.
