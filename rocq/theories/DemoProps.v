(** The small concurrent programs: C121. *)
From Verif Require Import Base BaseProofs UtilModel ChatModel BencodePathModel DemoModel Asn1PrintProps.
Local Open Scope string_scope. Local Open Scope list_scope. Local Open Scope N_scope.

(** *** Specification *)
(** The lists mixed, each in its order. *)
Inductive shuffle {A} : list A -> list A -> list A -> Prop :=
| sh_nil : shuffle [] [] []
| sh_one x a b l : shuffle a b l -> shuffle (x :: a) b (x :: l)
| sh_two x a b l : shuffle a b l -> shuffle a (x :: b) (x :: l).
(** All ticks so far, after each poll, at most ten. *)
Definition counts (polls : list nat) : list N := map (fun n => N.min 10 (N.of_nat (list_sum (firstn n polls)))) (seq 1 (length polls)).
(** The datagrams that arrived at either socket, in order. *)
Definition arrived_one (l : list sevent) : list arrival := flat_map (fun e => match e with ArriveOne a => [a] | _ => [] end) l.
Definition arrived_two (l : list sevent) : list arrival := flat_map (fun e => match e with ArriveTwo a => [a] | _ => [] end) l.
Definition prompt (m : mode) : bytes := match m with Heap => ascii_bytes "Waiting to receive" ++ [10] | Stack => [] end.

(** *** threads *)
Lemma shuffle_snoc_one {A} (a b l : list A) x : shuffle a b l -> shuffle (a ++ [x]) b (l ++ [x]).
Proof. induction 1; cbn; [repeat constructor|constructor; assumption|constructor; assumption]. Qed.
Lemma shuffle_snoc_two {A} (a b l : list A) x : shuffle a b l -> shuffle a (b ++ [x]) (l ++ [x]).
Proof. induction 1; cbn; [repeat constructor|constructor; assumption|constructor; assumption]. Qed.
Lemma shuffle_app_one {A} (r a b l : list A) : shuffle a b l -> shuffle (a ++ r) b (l ++ r).
Proof. revert a l. induction r as [|x r IH]; intros a l H; [rewrite !app_nil_r; exact H|]. change (x :: r) with ([x] ++ r). rewrite !app_assoc. apply IH, shuffle_snoc_one, H. Qed.
Lemma shuffle_app_two {A} (r a b l : list A) : shuffle a b l -> shuffle a (b ++ r) (l ++ r).
Proof. revert b l. induction r as [|x r IH]; intros b l H; [rewrite !app_nil_r; exact H|]. change (x :: r) with ([x] ++ r). rewrite !app_assoc. apply IH, shuffle_snoc_two, H. Qed.
Definition left_over (o : option (list bytes)) : list bytes := match o with Some l => l | None => [] end.
Lemma threads_inv one two s : thruns (threads_init one two) s ->
  exists a b printed, one = a ++ left_over (th_one s) /\ two = b ++ left_over (th_two s) /\ shuffle a b (printed ++ th_queue s) /\ th_out s = flat_map got printed /\
    (th_over s = true -> th_one s = None /\ th_two s = None /\ th_queue s = []).
Proof.
  intros R. induction R as [|y z R IH St]; [exists [], [], []; cbn; repeat split; try discriminate; constructor|].
  destruct IH as (a & b & p & E1 & E2 & Sh & O & V). destruct St; cbn [th_one th_two th_queue th_out th_over left_over] in *.
  - exists (a ++ [w]), b, p. split; [rewrite <- app_assoc; exact E1|]. split; [exact E2|]. split; [rewrite app_assoc; apply shuffle_snoc_one; exact Sh|]. split; [exact O|discriminate].
  - exists a, b, p. repeat split; try assumption; discriminate.
  - exists a, (b ++ [w]), p. split; [exact E1|]. split; [rewrite <- app_assoc; exact E2|]. split; [rewrite app_assoc; apply shuffle_snoc_two; exact Sh|]. split; [exact O|discriminate].
  - exists a, b, p. repeat split; try assumption; discriminate.
  - exists a, b, (p ++ [w]). rewrite flat_map_app, <- O. cbn [flat_map]. rewrite app_nil_r, <- app_assoc. repeat split; try assumption; discriminate.
  - exists a, b, p. repeat split; assumption.
Qed.
(** However the threads run, what is printed is a beginning of the two lists mixed, and all of
    them when the program ends. *)
Theorem C121_threads one two s : thruns (threads_init one two) s ->
  exists printed rest, th_out s = flat_map got printed /\ shuffle one two (printed ++ rest) /\ (th_over s = true -> rest = []).
Proof.
  intros R. destruct (threads_inv _ _ _ R) as (a & b & p & -> & -> & Sh & O & V).
  exists p, (th_queue s ++ left_over (th_one s) ++ left_over (th_two s)). split; [exact O|]. split.
  - rewrite !app_assoc. apply shuffle_app_two, shuffle_app_one, Sh.
  - intros T. destruct (V T) as (-> & -> & ->). reflexivity.
Qed.
Print Assumptions C121_threads.
Definition work (s : threads) : nat :=
  (match th_one s with Some l => 2 * length l + 1 | None => 0 end + match th_two s with Some l => 2 * length l + 1 | None => 0 end + length (th_queue s) + (if th_over s then 0 else 1))%nat.
(** It always ends: every step uses up some work, and one is possible until the end. *)
Theorem C121_threads_end one two s : thruns (threads_init one two) s ->
  (forall s', thstep s s' -> (work s' < work s)%nat) /\ (th_over s = false -> exists s', thstep s s').
Proof.
  intros _. split.
  - intros s' St. destruct St; unfold work; cbn [th_one th_two th_queue th_out th_over length]; try rewrite app_length; cbn [length]; lia.
  - destruct s as [o1 o2 q o v]. cbn. intros ->. destruct o1 as [[|w ws]|]; [eexists; constructor|eexists; constructor|]. destruct o2 as [[|w ws]|]; [eexists; constructor|eexists; constructor|].
    destruct q; eexists; constructor.
Qed.
Print Assumptions C121_threads_end.
(** Every order is possible. *)
Theorem C121_threads_all one two l : shuffle one two l -> exists s, thruns (threads_init one two) s /\ th_over s = true /\ th_out s = flat_map got l.
Proof.
  intros Sh.
  assert (G : forall o x, thruns x {| th_one := Some one; th_two := Some two; th_queue := []; th_out := o; th_over := false |} ->
    thruns x {| th_one := Some []; th_two := Some []; th_queue := []; th_out := o ++ flat_map got l; th_over := false |}).
  { induction Sh as [|w a b l Sh IH|w a b l Sh IH]; intros o x R.
    - cbn. rewrite app_nil_r. exact R.
    - cbn [flat_map]. rewrite app_assoc. apply IH. eapply th_next; [eapply th_next; [exact R|constructor]|]. cbn [app]. constructor.
    - cbn [flat_map]. rewrite app_assoc. apply IH. eapply th_next; [eapply th_next; [exact R|constructor]|]. cbn [app]. constructor. }
  specialize (G [] _ (th_here _)). eexists. split; [|split; reflexivity || idtac].
  - eapply th_next; [|apply t_end]. eapply th_next; [|apply t_two_ends]. eapply th_next; [exact G|apply t_one_ends].
  - reflexivity.
  - reflexivity.
Qed.
Print Assumptions C121_threads_all.

(** *** manual_futures *)
Lemma producer_count k j : j_count j <= 10 -> j_produced j = (10 <=? j_count j) ->
  j_count (poll_producer k j) = N.min 10 (j_count j + N.of_nat k) /\ j_produced (poll_producer k j) = (10 <=? j_count (poll_producer k j)) /\ j_result (poll_producer k j) = j_result j.
Proof.
  revert j. induction k as [|k IH]; intros j L P.
  - assert (Z0 : poll_producer 0 j = j) by (cbn [poll_producer]; destruct (j_produced j); reflexivity). rewrite Z0. split; [lia|split; [exact P|reflexivity]].
  - cbn [poll_producer]. destruct (j_produced j) eqn:Q; [symmetry in P; split; [lia|]; split; [congruence|reflexivity]|]. symmetry in P. 
    match goal with |- context [poll_producer k ?x] => destruct (IH x) as (A & B & C) end; cbn [j_count j_produced j_result] in *; [lia|reflexivity|]. split; [rewrite A; lia|]. split; assumption.
Qed.
Lemma counts_snoc polls k : counts (polls ++ [k]) = counts polls ++ [N.min 10 (N.of_nat (list_sum polls + k))].
Proof.
  unfold counts. rewrite app_length, Nat.add_1_r, seq_S, map_app. cbn [map]. f_equal.
  - apply map_ext_in. intros n I1. apply in_seq in I1. rewrite firstn_app. replace (n - length polls)%nat with 0%nat by lia. cbn [firstn]. rewrite app_nil_r. reflexivity.
  - rewrite firstn_all2 by (rewrite app_length; cbn; lia). rewrite list_sum_app. cbn. rewrite Nat.add_0_r. reflexivity.
Qed.
Lemma find_snoc {A} f (l : list A) x : find f (l ++ [x]) = match find f l with Some y => Some y | None => if f x then Some x else None end.
Proof. induction l as [|y l IH]; cbn; [reflexivity|]. destruct (f y); [reflexivity|exact IH]. Qed.
Lemma joined_inv polls : let j := joined_runs polls in
  j_count j = N.min 10 (N.of_nat (list_sum polls)) /\ j_produced j = (10 <=? j_count j) /\ j_result j = find (fun c => 5 <=? c) (counts polls).
Proof.
  induction polls as [|k polls IH] using rev_ind; [split; [reflexivity|split; reflexivity]|].
  unfold joined_runs in *. rewrite fold_left_app. cbn [fold_left]. set (j := fold_left poll_join polls joined_init) in *. clearbody j. cbn zeta in *.
  destruct IH as (A & B & C). destruct (producer_count k j) as (D & E & F); [lia|exact B|].
  rewrite counts_snoc, find_snoc, list_sum_app. cbn [list_sum fold_right]. rewrite Nat.add_0_r, <- C.
  unfold poll_join, poll_consumer. rewrite F. destruct (j_result j) as [r|] eqn:R.
  - split; [rewrite D; lia|]. split; [exact E|]. congruence.
  - replace (N.min 10 (N.of_nat (list_sum polls + k))) with (j_count (poll_producer k j)) by (rewrite D; lia).
    destruct (5 <=? j_count (poll_producer k j)); cbn [j_count j_produced j_result]; (split; [|split; [exact E|reflexivity]]); rewrite D; lia.
Qed.
(** The count never passes ten; both futures are done exactly when ten ticks have passed,
    however they fall together and however often the task is polled for nothing; and the
    consumer gets the first count of at least five at the end of a poll. *)
Theorem C121_join polls : let j := joined_runs polls in
  j_count j = N.min 10 (N.of_nat (list_sum polls)) /\ (join_over j = true <-> (10 <= list_sum polls)%nat) /\ j_result j = find (fun c => 5 <=? c) (counts polls).
Proof.
  cbn zeta. destruct (joined_inv polls) as (A & B & C). split; [exact A|]. split; [|exact C]. unfold join_over. rewrite B. split.
  - intros H. apply andb_prop in H. destruct H as [H _]. rewrite A in H. apply N.leb_le in H. lia.
  - intros H. rewrite A, C. replace (10 <=? N.min 10 (N.of_nat (list_sum polls))) with true by (symmetry; apply N.leb_le; lia). cbn [andb].
    destruct (find _ _) eqn:F; [reflexivity|]. exfalso.
    assert (P : polls <> []) by (intros ->; cbn in H; lia). destruct (exists_last P) as (ps & k & ->). rewrite counts_snoc in F. rewrite find_snoc in F. rewrite list_sum_app in H. cbn in H.
    destruct (find _ (counts ps)); [discriminate|]. destruct (5 <=? _) eqn:G in F; [discriminate|]. apply N.leb_gt in G. lia.
Qed.
Print Assumptions C121_join.
(** With at most one tick at a time the consumer gets five. *)
Theorem C121_join_five polls : Forall (fun k => (k <= 1)%nat) polls -> (5 <= list_sum polls)%nat -> j_result (joined_runs polls) = Some 5.
Proof.
  intros F H. destruct (joined_inv polls) as (_ & _ & ->).
  assert (G : find (fun c => 5 <=? c) (counts polls) = if (5 <=? list_sum polls)%nat then Some 5 else None).
  { clear H. induction polls as [|k polls IH] using rev_ind; [reflexivity|]. apply Forall_app in F. destruct F as [F K]. inversion K as [|x y K' _]; subst. rewrite counts_snoc, find_snoc, (IH F), list_sum_app. cbn [list_sum fold_right].
    rewrite Nat.add_0_r. destruct (5 <=? list_sum polls)%nat eqn:E.
    - apply Nat.leb_le in E. destruct (5 <=? list_sum polls + k)%nat eqn:E2; [reflexivity|]. apply Nat.leb_gt in E2. lia.
    - apply Nat.leb_gt in E. destruct (5 <=? list_sum polls + k)%nat eqn:E2.
      + apply Nat.leb_le in E2. replace (N.min 10 (N.of_nat (list_sum polls + k))) with 5 by lia. reflexivity.
      + apply Nat.leb_gt in E2. destruct (5 <=? _) eqn:E3; [apply N.leb_le in E3; lia|reflexivity]. }
  rewrite G. replace (5 <=? list_sum polls)%nat with true by (symmetry; apply Nat.leb_le; exact H). reflexivity.
Qed.
Print Assumptions C121_join_five.

(** *** select_test *)
(** Every datagram that arrives is printed once, from its socket and in the order of that
    socket, cut to 1024 bytes, or is still waiting: giving up the receive that lost loses
    nothing. *)
Theorem C121_select lossy m l s : seruns lossy m selecting_init l s ->
  exists one two texts, arrived_one l = one ++ se_one s /\ arrived_two l = two ++ se_two s /\
    shuffle (map (receive_text lossy "First") one) (map (receive_text lossy "Second") two) texts /\
    se_out s = flat_map (fun t => prompt m ++ t) texts ++ (if se_waiting s then prompt m else []).
Proof.
  intros R. induction R as [|l e y z R IH St]; [exists [], [], []; repeat split; constructor|].
  destruct IH as (one & two & texts & E1 & E2 & Sh & O). unfold arrived_one, arrived_two in *. rewrite !flat_map_app, E1, E2. clear E1 E2 R. cbn [flat_map].
  destruct St as [a s|a s|o1 o2 out|a o1 o2 out|a o1 o2 out H]; cbn [se_one se_two se_waiting se_out app] in *; rewrite ?app_nil_r.
  - exists one, two, texts. rewrite <- app_assoc. auto.
  - exists one, two, texts. rewrite <- app_assoc. auto.
  - exists one, two, texts. rewrite app_nil_r in O. subst out. split; [reflexivity|]. split; [reflexivity|]. split; [exact Sh|]. destruct m; cbn [prompt]; [reflexivity|rewrite app_nil_r; reflexivity].
  - exists (one ++ [a]), two, (texts ++ [receive_text lossy "First" a]). rewrite <- app_assoc. split; [reflexivity|]. split; [reflexivity|]. rewrite map_app. split; [apply shuffle_snoc_one; exact Sh|].
    rewrite flat_map_app. cbn [flat_map]. rewrite !app_nil_r. subst out. rewrite <- !app_assoc. reflexivity.
  - exists one, (two ++ [a]), (texts ++ [receive_text lossy "Second" a]). rewrite <- app_assoc. split; [reflexivity|]. split; [reflexivity|]. rewrite map_app. split; [apply shuffle_snoc_two; exact Sh|].
    rewrite flat_map_app. cbn [flat_map]. rewrite !app_nil_r. subst out. rewrite <- !app_assoc. reflexivity.
Qed.
Print Assumptions C121_select.
(** What is printed for a datagram: its first 1024 bytes, the rest is lost. *)
Theorem C121_received lossy who : 
  (forall d, exists shown lost, d = shown ++ lost /\ blen shown <= 1024 /\ (lost <> [] -> blen shown = 1024) /\
     receive_text lossy who (Datagram d) = ascii_bytes who ++ ascii_bytes ": Received " ++ decimal (blen shown) ++ ascii_bytes " bytes: " ++ escape_string (lossy shown) ++ [10]) /\
  (forall text, receive_text lossy who (Fault text) = ascii_bytes who ++ ascii_bytes ": Error: " ++ text ++ [10]).
Proof.
  split; [|reflexivity]. intros d. exists (firstn (N.to_nat 1024) d), (skipn (N.to_nat 1024) d). split; [symmetry; apply firstn_skipn|].
  split; [unfold blen; rewrite firstn_length; lia|]. split; [|reflexivity]. intros H. unfold blen. rewrite firstn_length. destruct (Nat.le_gt_cases (length d) (N.to_nat 1024)) as [G|G]; [rewrite skipn_all2 in H by exact G; contradiction|lia].
Qed.
Print Assumptions C121_received.
(** The loop never gets stuck on a datagram that waits; but in the heap mode the second socket
    is only read while the first has nothing. *)
Theorem C121_select_moves lossy m s : se_one s <> [] \/ se_two s <> [] -> exists e z, sestep lossy m e s z /\ (if se_waiting s then e = TakeOne \/ e = TakeTwo else e = Begin).
Proof.
  destruct s as [one two w out]. cbn. intros H. destruct w.
  - destruct one as [|a one].
    + destruct two as [|b two]; [destruct H as [H|H]; congruence|]. exists TakeTwo. eexists. split; [apply se_second; reflexivity|right; reflexivity].
    + exists TakeOne. eexists. split; [apply se_first|left; reflexivity].
  - exists Begin. eexists. split; [apply se_begin|reflexivity].
Qed.
Print Assumptions C121_select_moves.
Theorem C121_priority lossy s z : sestep lossy Heap TakeTwo s z -> se_one s = [].
Proof. intros H. inversion H as [| | | |a one two out K]; subst. cbn. exact (K eq_refl). Qed.
Print Assumptions C121_priority.
(** So the second socket can wait for ever: for every [n] there is a run in which its first
    datagram arrives at the start and is not printed while [n] others are. *)
Theorem C121_starvation_refuted lossy m a (b : arrival) n : exists l s, seruns lossy m selecting_init (ArriveTwo a :: l) s /\
  se_two s = [a] /\ ~ In TakeTwo l /\ length (filter (fun e => match e with TakeOne => true | _ => false end) l) = n /\ (m = Heap -> forall z, ~ sestep lossy m TakeTwo s z).
Proof.
  assert (G : exists l s, seruns lossy m selecting_init (ArriveTwo a :: l) s /\ se_two s = [a] /\ ~ In TakeTwo l /\
    length (filter (fun e => match e with TakeOne => true | _ => false end) l) = n /\ se_waiting s = false /\ se_one s = []).
  { induction n as [|n (l & s & R & T & N1 & L & W & O)].
    - exists [], {| se_one := []; se_two := [a]; se_waiting := false; se_out := [] |}. split; [apply (se_next _ _ _ [] (ArriveTwo a) selecting_init _ (se_here _ _ _)), (se_arrive_two _ _ a selecting_init)|]. repeat split. intros [].
    - destruct s as [one two w out]. cbn in T, W, O. subst one two w. exists (((l ++ [ArriveOne b]) ++ [Begin]) ++ [TakeOne]). eexists. split; [|split; [|split; [|split; [|split]]]].
      + rewrite !app_comm_cons. eapply se_next; [eapply se_next; [eapply se_next; [exact R|apply se_arrive_one]|]|]; cbn [se_one se_two se_waiting se_out app]; [apply se_begin|apply se_first].
      + reflexivity.
      + rewrite !in_app_iff. cbn. intuition discriminate.
      + rewrite !filter_app, !app_length, L. cbn. lia.
      + reflexivity.
      + reflexivity. }
  destruct G as (l & s & R & T & N1 & L & W & O). exists l, s. split; [exact R|]. split; [exact T|]. split; [exact N1|]. split; [exact L|].
  intros _ z Z. inversion Z; subst. cbn in W. discriminate.
Qed.
Print Assumptions C121_starvation_refuted.

(** *** udptest *)
(** The server prints every datagram; the text of datagrams without a newline shows them all. *)
Theorem C121_udp lossy ds ds' : (forall d, In d ds \/ In d ds' -> ~ In 10 (lossy (firstn (N.to_nat 1024) d))) ->
  udp_server lossy ds = udp_server lossy ds' -> map (fun d => lossy (firstn (N.to_nat 1024) d)) ds = map (fun d => lossy (firstn (N.to_nat 1024) d)) ds'.
Proof.
  intros F H. unfold udp_server in H. apply app_inv_head in H. apply app_inv_head in H. revert ds' F H.
  induction ds as [|d ds IH]; intros [|d' ds'] F H; [reflexivity|discriminate H|discriminate H|]. cbn [flat_map map] in *. unfold udp_text at 1 3 in H. rewrite <- !app_assoc in H. apply app_inv_head in H. apply app_inv_head in H.
  assert (N1 := F d (or_introl (or_introl eq_refl))). assert (N2 := F d' (or_intror (or_introl eq_refl))).
  set (t := lossy (firstn (N.to_nat 1024) d)) in *. set (t' := lossy (firstn (N.to_nat 1024) d')) in *. clearbody t t'.
  change ([34; 10] ++ flat_map (udp_text lossy) ds) with ([34] ++ 10 :: flat_map (udp_text lossy) ds) in H. change ([34; 10] ++ flat_map (udp_text lossy) ds') with ([34] ++ 10 :: flat_map (udp_text lossy) ds') in H.
  rewrite !app_assoc in H. assert (Q : forall x : bytes, ~ In 10 x -> ~ In 10 (x ++ [34])) by (intros x X Y; apply in_app_or in Y; destruct Y as [Y|[Y|[]]]; [exact (X Y)|discriminate Y]).
  apply split_at in H; [|apply Q; assumption..]. destruct H as (H1 & H2). apply app_inv_tail in H1. subst t'. f_equal. apply IH; [|exact H2]. intros x [X|X]; apply F; [left|right]; right; exact X.
Qed.
Print Assumptions C121_udp.
(** With newlines it does not: one datagram can look like two. *)
Theorem C121_udp_forged_refuted : exists ds ds', length ds <> length ds' /\ udp_server (fun d => d) ds = udp_server (fun d => d) ds'.
Proof.
  exists [ascii_bytes "a" ++ [34; 10] ++ ascii_bytes "Server: Received " ++ [34] ++ ascii_bytes "b"], [ascii_bytes "a"; ascii_bytes "b"]. split; [discriminate|]. vm_compute. reflexivity.
Qed.
Print Assumptions C121_udp_forged_refuted.

Example C121_case :
  joined_runs [0; 1; 0; 1; 1; 1; 1; 1]%nat = {| j_count := 6; j_produced := false; j_result := Some 5; j_out := j_out (joined_runs [0; 1; 0; 1; 1; 1; 1; 1]%nat) |} /\
  j_result (joined_runs [0; 4; 3]%nat) = Some 7 /\ counts [0; 4; 3; 8]%nat = [0; 4; 7; 10] /\
  shuffle words_one words_two (map ascii_bytes ["hi"; "more"; "messages"; "from"; "the"; "for"; "thread"; "you"]) /\
  select_mode (Some (ascii_bytes "stack")) = Some Stack /\ select_mode None = None /\
  receive_text (fun d => d) "First" (Datagram [97; 10]) = ascii_bytes "First: Received 2 bytes: " ++ [34; 97; 92; 110; 34; 10].
Proof. split; [vm_compute; reflexivity|]. split; [vm_compute; reflexivity|]. split; [vm_compute; reflexivity|]. split; [repeat constructor|]. vm_compute. repeat split; reflexivity. Qed.
