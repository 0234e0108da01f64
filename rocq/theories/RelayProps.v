(** Programs that pass bytes between sockets: the proxy (C105) and the echo server (C106). *)
From Verif Require Import Base BaseProofs RelayModel.

(** *** Runs *)
(** [n] steps of one loop. *)
Inductive pipe_run (size : nat) (delay : N) : nat -> pipe -> pipe -> Prop :=
| pipe_here p : pipe_run size delay 0 p p
| pipe_then n p q r : pipe_run size delay n p q -> pipe_step size delay q r -> pipe_run size delay (S n) p r.
(** A run of the proxy, with what the two sides of every connection send. *)
Inductive proxy_run (o : proxy_opt) : list (bytes * bytes) -> proxy -> Prop :=
| proxy_start : proxy_run o [] proxy_new
| proxy_then ins x l y : proxy_run o ins x -> proxy_step o x l y ->
    proxy_run o (ins ++ match l with Some p => [p] | None => [] end) y.
Inductive echo_run : list bytes -> echo -> Prop :=
| echo_start : echo_run [] echo_new
| echo_then ins x l y : echo_run ins x -> echo_step x l y ->
    echo_run (ins ++ match l with Some p => [p] | None => [] end) y.

(** *** What holds of one direction *)
(** The bytes read so far are those accepted and those held; the counters agree with them,
    and when the loop ended because the input did, everything was delivered. *)
Definition passes (size : nat) (input : bytes) (p : pipe) : Prop :=
  input = p_out p ++ p_buf p ++ p_todo p /\
  p_read p = blen (p_out p) + blen (p_buf p) /\ p_written p <= blen (p_out p) /\ (length (p_buf p) <= size)%nat /\
  (p_place p = Ended AtEof -> size <> O -> p_out p = input /\ p_read p = blen input /\ p_written p = blen input).
Definition accounted (size : nat) (input : bytes) (p : pipe) : Prop :=
  input = p_out p ++ p_buf p ++ p_todo p /\ p_read p = blen (p_out p) + blen (p_buf p) /\ (length (p_buf p) <= size)%nat /\
  match p_place p with
  | Reading | Sleeping => p_buf p = [] /\ p_written p = blen (p_out p)
  | Writing => p_written p + p_block p = blen (p_out p) + blen (p_buf p) /\ blen (p_buf p) <= p_block p
  | Ended AtEof => p_buf p = [] /\ p_written p = blen (p_out p) /\ (p_todo p = [] \/ size = O)
  | Ended _ => p_written p <= blen (p_out p)
  end.
Lemma accounted_new size input : accounted size input (pipe_new input).
Proof. unfold accounted, pipe_new. cbn. repeat split; lia. Qed.
Lemma accounted_step size delay input p q : accounted size input p -> pipe_step size delay p q -> accounted size input q.
Proof.
  intros (I & R & L & P) S. unfold accounted. destruct S as [d rest E T NE D|E T|E|d rest E T NE|E B|E B|E]; rewrite E in P; cbn [got took wrote set_place p_todo p_buf p_out p_read p_written p_block p_place].
  - destruct P as (B & W). rewrite B in *. rewrite T in I. cbn [app length] in *. rewrite blen_nil in R. repeat split; [exact I|lia|exact D|lia|lia].
  - destruct P as (B & W). repeat split; assumption.
  - destruct P as (B & W). repeat split; try assumption. lia.
  - destruct P as (W & V). rewrite T in *. rewrite blen_app in *. rewrite app_length in L. repeat split.
    + rewrite I, <- !app_assoc. reflexivity.
    + lia.
    + lia.
    + lia.
    + lia.
  - destruct P as (W & V). repeat split; try assumption. lia.
  - destruct P as (W & V). rewrite B in *. rewrite blen_nil in *. split; [exact I|]. split; [exact R|]. split; [exact L|]. destruct (0 <? delay); cbn; split; try reflexivity; lia.
  - repeat split; try assumption; apply P.
Qed.
Lemma accounted_run size delay input n p q : accounted size input p -> pipe_run size delay n p q -> accounted size input q.
Proof. intros A H. induction H; [exact A|]. eapply accounted_step; [apply IHpipe_run, A|eassumption]. Qed.
Lemma accounted_passes size input p : accounted size input p -> passes size input p.
Proof.
  intros (I & R & L & P). unfold passes. split; [exact I|]. split; [exact R|]. assert (W : p_written p <= blen (p_out p)).
  { destruct (p_place p) as [| | |[]]; try lia; destruct P as (A & B); lia. }
  split; [exact W|]. split; [exact L|]. intros E Z. rewrite E in P. destruct P as (B & W' & [T|T]); [|congruence]. rewrite B, T in I. rewrite !app_nil_r in I. rewrite B in R. rewrite blen_nil in R. rewrite I. repeat split; lia.
Qed.

(** C105: the two directions of every connection of the proxy, in every reachable state: what
    one side has got is the beginning of what the other sent, in order, without loss. *)
Theorem C105_forwards : forall o ins x, proxy_run o ins x ->
  Forall2 (fun i c => passes (up_size o) (fst i) (c_up c) /\ passes (down_size o) (snd i) (c_down c)) ins (x_conns x).
Proof.
  intros o ins x H.
  assert (A : Forall2 (fun i c => accounted (up_size o) (fst i) (c_up c) /\ accounted (down_size o) (snd i) (c_down c)) ins (x_conns x)).
  { induction H as [|ins x l y H IH S]; [constructor|]. destruct S as [cl sv R|R|i c u R N S|i c d R N S]; cbn [x_conns]; rewrite ?app_nil_r.
    - apply Forall2_app; [exact IH|]. constructor; [|constructor]. cbn. split; apply accounted_new.
    - exact IH.
    - clear H R. revert i N. induction IH as [|a b l l' P F IH2]; intros [|i] N; cbn [nth_error] in N; try discriminate N.
      + injection N as ->. cbn [set_nth]. constructor; [|exact F]. destruct P as (P & Q). cbn. split; [eapply accounted_step; eassumption|exact Q].
      + cbn [set_nth]. constructor; [exact P|]. apply IH2, N.
    - clear H R. revert i N. induction IH as [|a b l l' P F IH2]; intros [|i] N; cbn [nth_error] in N; try discriminate N.
      + injection N as ->. cbn [set_nth]. constructor; [|exact F]. destruct P as (P & Q). cbn. split; [exact P|eapply accounted_step; eassumption].
      + cbn [set_nth]. constructor; [exact P|]. apply IH2, N. }
  clear H. induction A as [|i c l l' (P & Q) F IH]; constructor; [|exact IH]. split; apply accounted_passes; assumption.
Qed.
Print Assumptions C105_forwards.

(** A loop always comes to an end, and until then it can go on without an error; so a loop
    with a buffer whose socket calls do not fail delivers all of its input. *)
Definition rank (x : place) : nat := match x with Reading => 1 | Sleeping => 2 | Writing => 3 | Ended _ => 0 end.
Definition left_over (p : pipe) : nat := 8 * length (p_todo p) + 4 * length (p_buf p) + rank (p_place p).
Lemma step_smaller size delay p q : pipe_step size delay p q -> (left_over q < left_over p)%nat.
Proof.
  intros S. unfold left_over. destruct S as [d rest E T NE D|E T|E|d rest E T NE|E B|E B|E]; rewrite E; cbn [got took wrote set_place p_todo p_buf p_out p_read p_written p_block p_place rank];
    try (rewrite T, app_length; destruct d; [congruence|cbn [length]; lia]); try lia.
  destruct (0 <? delay); cbn [rank]; lia.
Qed.
Theorem C105_delivers : forall size delay input n p, pipe_run size delay n (pipe_new input) p ->
  (n <= 8 * length input + 1)%nat /\
  (match p_place p with
   | Ended _ => ~ exists q, pipe_step size delay p q
   | _ => exists q, pipe_step size delay p q /\ p_place q <> Ended ReadError /\ p_place q <> Ended WriteError
   end) /\
  (p_place p = Ended AtEof -> size <> O -> p_out p = input).
Proof.
  intros size delay input n p H. pose proof (accounted_run _ _ _ _ _ _ (accounted_new size input) H) as A. split.
  { assert (X : (n + left_over p <= left_over (pipe_new input))%nat).
    { clear A. induction H as [q|n q r t H IH S]; [lia|]. apply step_smaller in S. lia. }
    unfold left_over at 2 in X. cbn in X. lia. }
  split; [|intros E Z; apply accounted_passes in A; apply A; assumption].
  destruct A as (I & R & L & P). destruct (p_place p) eqn:E.
  - destruct (p_todo p) as [|b t] eqn:T.
    + eexists. split; [apply step_eof; [exact E|left; exact T]|]. cbn. split; discriminate.
    + destruct size as [|size]; [eexists; split; [apply step_eof; [exact E|right; reflexivity]|cbn; split; discriminate]|].
      eexists. split; [apply (step_read _ _ _ [b] t); [exact E|exact T|discriminate|cbn; lia]|]. cbn. split; discriminate.
  - destruct (p_buf p) as [|b t] eqn:T.
    + eexists. split; [apply step_wrote; assumption|]. cbn. destruct (0 <? delay); split; discriminate.
    + eexists. split; [apply (step_write _ _ _ [b] t); [exact E|exact T|discriminate]|]. cbn. split; discriminate.
  - eexists. split; [apply step_woke, E|]. cbn. split; discriminate.
  - intros (q & S). destruct S; congruence.
Qed.
Print Assumptions C105_delivers.

(** With a buffer of no bytes (which the options allow) nothing is ever passed on: the first
    read looks like the end of the input. *)
Theorem C105_empty_buffer_refuted : forall delay input n p, pipe_run 0 delay n (pipe_new input) p ->
  p_out p = [] /\ p_todo p = input /\ p_read p = 0 /\ (n <= 1)%nat.
Proof.
  assert (X : forall delay input n p, pipe_run 0 delay n (pipe_new input) p ->
    (p = pipe_new input /\ n = 0%nat) \/ ((p = set_place (pipe_new input) (Ended AtEof) \/ p = set_place (pipe_new input) (Ended ReadError)) /\ n = 1%nat)).
  { intros delay input n p H. remember (pipe_new input) as s. induction H as [p|n p q r H IH S]; [left; auto|]. subst p. destruct (IH eq_refl) as [(-> & ->)|([->| ->] & ->)].
    - right. split; [|reflexivity]. destruct S as [d rest E T NE D|E T|E|d rest E T NE|E B|E B|E]; try discriminate E.
      + destruct d; [congruence|cbn in D; lia].
      + left. reflexivity.
      + right. reflexivity.
    - exfalso. destruct S as [d rest E T NE D|E T|E|d rest E T NE|E B|E B|E]; discriminate E.
    - exfalso. destruct S as [d rest E T NE D|E T|E|d rest E T NE|E B|E B|E]; discriminate E. }
  intros delay input n p H. destruct (X _ _ _ _ H) as [(-> & ->)|([->| ->] & ->)]; cbn; repeat split; lia.
Qed.
Print Assumptions C105_empty_buffer_refuted.

(** One connection that cannot be opened ends the proxy and every other connection with it,
    whatever they still have to deliver. *)
Theorem C105_failed_connect_refuted : forall o ins x, proxy_run o ins x -> x_running x = true ->
  exists y, proxy_run o ins y /\ x_conns y = x_conns x /\ forall l z, ~ proxy_step o y l z.
Proof.
  intros o ins x H R. exists {| x_conns := x_conns x; x_running := false |}. split.
  - rewrite <- (app_nil_r ins). apply (proxy_then o ins x None); [exact H|]. apply proxy_fails, R.
  - split; [reflexivity|]. intros l z S. destruct S; discriminate.
Qed.
Print Assumptions C105_failed_connect_refuted.

(** *** The echo server *)
Definition echoes (input : bytes) (c : econn) : Prop :=
  input = e_out c ++ e_buf c ++ e_todo c /\ (length (e_buf c) <= echo_size)%nat /\ (e_place c = EReturned -> e_out c = input).
(** What the counters should show: [r] and [s] are the parts of one connection. *)
Definition tallied (input : bytes) (c : econn) (r s : N) : Prop :=
  echoes input c /\
  match e_place c with
  | EReading => e_buf c = [] /\ r = blen (e_out c) /\ s = r
  | EGot n => n = blen (e_buf c) /\ r = blen (e_out c) /\ s = r /\ (n = 0 -> e_todo c = [])
  | EWriting n => r = blen (e_out c) + blen (e_buf c) /\ s + n = r /\ blen (e_buf c) <= n
  | EWritten n => e_buf c = [] /\ r = blen (e_out c) /\ s + n = r
  | EReturned => e_buf c = [] /\ e_todo c = [] /\ r = blen (e_out c) /\ s = r
  | EPanicked => r = blen (e_out c) + blen (e_buf c) /\ s <= blen (e_out c)
  end.
Lemma tallied_new input : tallied input (econn_new input) 0 0.
Proof. unfold tallied, echoes. cbn. repeat split; lia || discriminate. Qed.
Lemma tallied_step input c r s dr ds c' : tallied input c r s -> econn_step c dr ds c' -> tallied input c' (r + dr) (s + ds).
Proof.
  intros ((I & L & F) & P) S. unfold tallied, echoes.
  destruct S as [d rest E T NE D|E|n E|n d rest E T NE|n E B|n E B|n E]; rewrite E in P; cbn [eplaced e_todo e_buf e_out e_place]; rewrite ?N.add_0_r.
  - destruct P as (B & R & Q). rewrite B in I. rewrite T in I. cbn [app] in I. split; [split; [exact I|split; [exact D|discriminate]]|]. repeat split; try assumption.
    intros Z. destruct d as [|x d]; [|unfold blen in Z; cbn in Z; lia]. destruct NE as [NE|NE]; [congruence|]. rewrite NE in T. cbn in T. congruence.
  - destruct P as (B & R & Q). split; [split; [exact I|split; [exact L|discriminate]]|]. rewrite B, blen_nil. lia.
  - destruct P as (-> & R & Q & Z). destruct (blen (e_buf c) =? 0) eqn:Y.
    + apply N.eqb_eq in Y. assert (B : e_buf c = []) by (destruct (e_buf c); [reflexivity|unfold blen in Y; cbn in Y; lia]). specialize (Z Y). split; [split; [exact I|split; [exact L|]]|].
      * intros _. rewrite I, B, Z, !app_nil_r. reflexivity.
      * rewrite Y. repeat split; try assumption; lia.
    + split; [split; [exact I|split; [exact L|discriminate]]|]. repeat split; lia.
  - destruct P as (R & Q & V). rewrite T in *. rewrite blen_app in *. rewrite app_length in L. split; [split; [rewrite I, <- !app_assoc; reflexivity|split; [lia|discriminate]]|]. repeat split; lia.
  - destruct P as (R & Q & V). split; [split; [exact I|split; [exact L|discriminate]]|]. split; lia.
  - destruct P as (R & Q & V). rewrite B in *. rewrite blen_nil in *. split; [split; [exact I|split; [exact L|discriminate]]|]. repeat split; lia.
  - destruct P as (B & R & Q). split; [split; [exact I|split; [exact L|discriminate]]|]. repeat split; try assumption; lia.
Qed.
Definition total (l : list N) : N := fold_right N.add 0 l.
Lemma total_app a b : total (a ++ b) = total a + total b.
Proof. unfold total. induction a as [|x a IH]; cbn; [lia|]. rewrite IH. lia. Qed.
(** One entry for every connection. *)
Inductive tallies : list bytes -> list econn -> list N -> list N -> Prop :=
| tallies_nil : tallies [] [] [] []
| tallies_cons i c r s li lc lr ls : tallied i c r s -> tallies li lc lr ls -> tallies (i :: li) (c :: lc) (r :: lr) (s :: ls).
Lemma tallies_snoc li lc lr ls i c r s : tallies li lc lr ls -> tallied i c r s -> tallies (li ++ [i]) (lc ++ [c]) (lr ++ [r]) (ls ++ [s]).
Proof. intros H T. induction H; cbn; constructor; try assumption. constructor. Qed.
Lemma tallies_set li lc lr ls k c dr ds c' : tallies li lc lr ls -> nth_error lc k = Some c -> econn_step c dr ds c' ->
  exists lr' ls', tallies li (set_nth k c' lc) lr' ls' /\ total lr' = total lr + dr /\ total ls' = total ls + ds.
Proof.
  intros H. revert k. induction H as [|i x r s li lc lr ls T H IH]; intros k N S; [destruct k; discriminate N|]. destruct k as [|k].
  - injection N as ->. exists (r + dr :: lr), (s + ds :: ls). split; [constructor; [eapply tallied_step; eassumption|exact H]|]. unfold total. cbn. fold (total lr) (total ls). lia.
  - cbn in N. destruct (IH k N S) as (lr' & ls' & T' & A & B). exists (r :: lr'), (s :: ls'). split; [constructor; assumption|]. unfold total in *. cbn. lia.
Qed.
Lemma echo_tallies ins h : echo_run ins h -> exists lr ls, tallies ins (h_conns h) lr ls /\ h_received h = total lr /\ h_sent h = total ls.
Proof.
  intros H. induction H as [|ins x l y H IH S]; [exists [], []; repeat constructor|]. destruct IH as (lr & ls & T & A & B). destruct S as [input R|R|k c r s c' R N S]; cbn [h_conns h_received h_sent]; rewrite ?app_nil_r.
  - exists (lr ++ [0]), (ls ++ [0]). split; [apply tallies_snoc; [exact T|apply tallied_new]|]. rewrite !total_app. cbn. lia.
  - exists lr, ls. auto.
  - destruct (tallies_set _ _ _ _ _ _ _ _ _ T N S) as (lr' & ls' & T' & A' & B'). exists lr', ls'. split; [exact T'|]. lia.
Qed.

(** C106: every connection gets back the beginning of what it sent, and all of it when its
    task returns. *)
Theorem C106_echoes : forall ins h, echo_run ins h -> Forall2 echoes ins (h_conns h).
Proof.
  intros ins h H. destruct (echo_tallies _ _ H) as (lr & ls & T & _). clear H. induction T as [|i c r s li lc lr ls P T IH]; constructor; [apply P|exact IH].
Qed.
Print Assumptions C106_echoes.

(** The two counters: never more sent than received, never more received than there was; when
    every task has returned both are the number of bytes sent by all clients. *)
Theorem C106_statistics : forall ins h, echo_run ins h ->
  h_sent h <= h_received h /\ h_sent h <= total (map (fun c => blen (e_out c)) (h_conns h)) /\ h_received h <= total (map blen ins) /\
  (Forall (fun c => e_place c = EReturned) (h_conns h) -> h_received h = total (map blen ins) /\ h_sent h = total (map blen ins)).
Proof.
  intros ins h H. destruct (echo_tallies _ _ H) as (lr & ls & T & -> & ->). clear H.
  assert (X : forall i c r s, tallied i c r s -> s <= r /\ s <= blen (e_out c) /\ r <= blen i /\ (e_place c = EReturned -> r = blen i /\ s = blen i)).
  { intros i c r s ((I & L & F) & P). assert (B : blen i = blen (e_out c) + (blen (e_buf c) + blen (e_todo c))) by (rewrite I, !blen_app; reflexivity).
    destruct (e_place c).
    - destruct P as (P1 & P2 & P3). split; [lia|]. split; [lia|]. split; [lia|discriminate].
    - destruct P as (P1 & P2 & P3 & _). split; [lia|]. split; [lia|]. split; [lia|discriminate].
    - destruct P as (P1 & P2 & P3). split; [lia|]. split; [lia|]. split; [lia|discriminate].
    - destruct P as (P1 & P2 & P3). split; [lia|]. split; [lia|]. split; [lia|discriminate].
    - destruct P as (P1 & P2 & P3 & P4). rewrite P1, P2, !blen_nil in B. repeat split; lia.
    - destruct P as (P1 & P2). split; [lia|]. split; [lia|]. split; [lia|discriminate]. }
  induction T as [|i c r s li lc lr ls P T IH]; [cbn; repeat split; lia|]. apply X in P. destruct P as (A1 & A2 & A3 & A4). destruct IH as (B1 & B2 & B3 & B4). unfold total in *. cbn [map fold_right] in *.
  repeat split; try lia.
  - inversion H as [|? ? H1 H2]; subst. specialize (A4 H1). specialize (B4 H2). lia.
  - inversion H as [|? ? H1 H2]; subst. specialize (A4 H1). specialize (B4 H2). lia.
Qed.
Print Assumptions C106_statistics.

(** A task that panics touches neither the other connections nor the counters, and every task
    that is neither done nor panicked can go on without an error. *)
Theorem C106_tasks_are_separate : forall ins h i c, echo_run ins h -> h_running h = true -> nth_error (h_conns h) i = Some c ->
  e_place c <> EReturned -> e_place c <> EPanicked ->
  (exists c' r s, econn_step c r s c' /\ e_place c' <> EPanicked /\
     echo_step h None {| h_received := h_received h + r; h_sent := h_sent h + s; h_conns := set_nth i c' (h_conns h); h_running := true |}) /\
  (forall r s c', econn_step c r s c' -> e_place c' = EPanicked ->
     r = 0 /\ s = 0 /\ forall j, j <> i -> nth_error (set_nth i c' (h_conns h)) j = nth_error (h_conns h) j).
Proof.
  intros ins h i c H R N E1 E2. split.
  - assert (X : exists c' r s, econn_step c r s c' /\ e_place c' <> EPanicked).
    { destruct (e_place c) as [|n|n|n| |] eqn:E; try congruence.
      - destruct (e_todo c) as [|b t] eqn:T.
        + eexists _, _, _. split; [apply (echo_read c [] []); [exact E|exact T|right; exact T|cbn; lia]|]. discriminate.
        + eexists _, _, _. split; [apply (echo_read c [b] t); [exact E|exact T|left; discriminate|unfold echo_size; cbn; lia]|]. discriminate.
      - eexists _, _, _. split; [apply echo_count, E|]. cbn. destruct (n =? 0); discriminate.
      - destruct (e_buf c) as [|b t] eqn:B.
        + eexists _, _, _. split; [eapply echo_written; eassumption|]. discriminate.
        + eexists _, _, _. split; [apply (echo_write c n [b] t); [exact E|exact B|discriminate]|]. discriminate.
      - eexists _, _, _. split; [eapply echo_count_sent, E|]. discriminate. }
    destruct X as (c' & r & s & S & P). exists c', r, s. split; [exact S|]. split; [exact P|]. eapply echo_task; eassumption.
  - intros r s c' S P. assert (Z : r = 0 /\ s = 0).
    { destruct S; try (split; reflexivity); cbn in P; [destruct (n =? 0); discriminate P|discriminate P]. }
    split; [apply Z|]. split; [apply Z|]. intros j J. clear - J. revert i j J. induction (h_conns h) as [|x l IH]; intros [|i] [|j] J; cbn; try reflexivity; try congruence. apply IH. congruence.
Qed.
Print Assumptions C106_tasks_are_separate.

(** The server of sock.rs sends nothing back in any mode, echo included. *)
Inductive sock_run (mode : server_mode) (size : nat) : sconn -> sconn -> Prop :=
| sock_here c : sock_run mode size c c
| sock_then a b c : sock_run mode size a b -> sock_step mode size b c -> sock_run mode size a c.
Theorem C106_sock_echo_refuted : forall mode size input c, sock_run mode size (sconn_new input) c -> k_out c = [].
Proof. intros mode size input c H. remember (sconn_new input) as s. induction H as [c|a b c H IH S]; [subst; reflexivity|]. specialize (IH Heqs). destruct S; exact IH. Qed.
Print Assumptions C106_sock_echo_refuted.

(** The connection of iotest.rs hands on what it reads, in order; of its welcome it sends some
    beginning, not always all of it. *)
Inductive io_run : iconn -> iconn -> Prop :=
| io_here c : io_run c c
| io_then a b c : io_run a b -> iotest_step b c -> io_run a c.
Theorem C106_iotest_partial : forall input c, io_run (iconn_new input) c ->
  input = i_received c ++ i_todo c /\ (exists rest, welcome = i_out c ++ rest) /\
  (forall d rest, welcome = d ++ rest -> exists c', io_run (iconn_new input) c' /\ i_out c' = d /\ i_received c' = input /\ i_read_done c' = true /\ i_write_done c' = true).
Proof.
  intros input c H. split; [|split].
  - remember (iconn_new input) as s. induction H as [c|a b c H IH S]; [subst; reflexivity|]. specialize (IH Heqs). destruct S; cbn; try exact IH; [|rewrite <- H1; exact IH]. rewrite IH, H1, <- app_assoc. reflexivity.
  - assert (X : exists rest, welcome = i_out c ++ rest /\ (i_write_done c = false -> i_out c = [])).
    { remember (iconn_new input) as s. induction H as [c|a b c H IH S]; [subst; exists welcome; auto|]. destruct (IH Heqs) as (rest & A & B). destruct S as [d t D E NE L|D E|D|d t D E|D]; cbn; try (exists rest; split; [exact A|exact B]).
      - exists t. split; [rewrite (B D); exact E|discriminate].
      - exists rest. split; [exact A|discriminate]. }
    destruct X as (rest & X & _). exists rest. exact X.
  - intros d rest W. clear H c.
    assert (X : forall n todo done, (length todo <= n)%nat -> io_run (iconn_new input) {| i_todo := todo; i_received := done; i_out := []; i_read_done := false; i_write_done := false |} ->
      io_run (iconn_new input) {| i_todo := []; i_received := done ++ todo; i_out := []; i_read_done := false; i_write_done := false |}).
    { induction n as [|n IH]; intros todo dn L H; (destruct todo as [|b todo]; [rewrite app_nil_r; exact H|cbn in L; try lia]).
      replace (dn ++ b :: todo) with ((dn ++ [b]) ++ todo) by (rewrite <- app_assoc; reflexivity). apply IH; [lia|]. eapply io_then; [exact H|]. refine (io_read {| i_todo := b :: todo; i_received := dn; i_out := []; i_read_done := false; i_write_done := false |} [b] todo _ _ _ _); cbn; try reflexivity; [discriminate|lia]. }
    eexists {| i_todo := []; i_received := input; i_out := d; i_read_done := true; i_write_done := true |}. split; [|cbn; auto].
    eapply io_then; [eapply io_then; [apply (X (length input) input []); [lia|apply io_here]|exact (io_eof {| i_todo := []; i_received := input; i_out := []; i_read_done := false; i_write_done := false |} eq_refl eq_refl)]|]. exact (io_write {| i_todo := []; i_received := input; i_out := []; i_read_done := true; i_write_done := false |} d rest eq_refl W).
Qed.
Print Assumptions C106_iotest_partial.

(** A run of the proxy with a buffer of two bytes up and the default one down. *)
Definition example_opt : proxy_opt := {| o_read_size := Some 2%nat; o_read_delay := Some 5; o_write_size := None; o_write_delay := None |}.
Example C105_example :
  exists x, proxy_run example_opt [([1; 2; 3], [9])] x /\
    map (fun c => (p_out (c_up c), p_buf (c_up c), p_todo (c_up c), p_read (c_up c), p_written (c_up c), p_place (c_up c), p_place (c_down c))) (x_conns x) =
      [([1], [2], [3], 2, 0, Writing, Reading)].
Proof.
  eexists. split.
  - change [([1; 2; 3], [9])] with ((([] ++ [([1; 2; 3], [9])]) ++ []) ++ [] : list (bytes * bytes)).
    eapply proxy_then with (l := None); [eapply proxy_then with (l := None); [eapply proxy_then with (l := Some _); [apply proxy_start|apply proxy_accept; reflexivity]|]|].
    + eapply (proxy_up _ _ 0); [reflexivity|reflexivity|]. apply (step_read _ _ _ [1; 2] [3]); [reflexivity|reflexivity|discriminate|cbn; lia].
    + eapply (proxy_up _ _ 0); [reflexivity|reflexivity|]. apply (step_write _ _ _ [1] [2]); [reflexivity|reflexivity|discriminate].
  - reflexivity.
Qed.
Example C106_example :
  exists h, echo_run [[7; 8]] h /\ h_received h = 2 /\ h_sent h = 0 /\ map e_out (h_conns h) = [[7]] /\ map e_place (h_conns h) = [EPanicked].
Proof.
  eexists. split.
  - change [[7; 8]] with ((((([] ++ [[7; 8]]) ++ []) ++ []) ++ []) ++ [] : list bytes).
    eapply echo_then with (l := None); [eapply echo_then with (l := None); [eapply echo_then with (l := None); [eapply echo_then with (l := None); [eapply echo_then with (l := Some _); [apply echo_start|apply echo_accept; reflexivity]|]|]|]|].
    + eapply (echo_task _ 0); [reflexivity|reflexivity|]. apply (echo_read _ [7; 8] []); [reflexivity|reflexivity|left; discriminate|unfold echo_size; cbn; lia].
    + eapply (echo_task _ 0); [reflexivity|reflexivity|]. apply echo_count. reflexivity.
    + eapply (echo_task _ 0); [reflexivity|reflexivity|]. eapply (echo_write _ _ [7] [8]); [reflexivity|reflexivity|discriminate].
    + eapply (echo_task _ 0); [reflexivity|reflexivity|]. eapply echo_write_error; [reflexivity|discriminate].
  - repeat split; reflexivity.
Qed.
