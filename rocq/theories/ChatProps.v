(** C97 and C98: what every client of the chat server is sent. *)
From Verif Require Import Base BaseProofs UtilModel BencodeSpec ChatModel.

(** *** Specification *)
(** [a] is [b] with some elements left out: the same order, nothing twice. *)
Inductive subseq {A} : list A -> list A -> Prop :=
| sub_nil : subseq [] []
| sub_skip x a b : subseq a b -> subseq a (x :: b)
| sub_take x a b : subseq a b -> subseq (x :: a) (x :: b).
(** The pieces of sender [k] among the entries of a channel. *)
Definition from (k : nat) (h : list entry) : list bytes :=
  flat_map (fun e => match e with EFrom j d => if (j =? k)%nat then [d] else [] | EClose => [] end) h.
(** The line for each entry. *)
Definition text (lossy : bytes -> bytes) (e : entry) : bytes := match e with EFrom k d => response lossy k d | EClose => [] end.
(** The writer has not returned. *)
Definition open (c : conn) : Prop := c_writer c <> WClosed /\ c_writer c <> WFailed.

Lemma sub_refl {A} (l : list A) : subseq l l.
Proof. induction l; constructor; assumption. Qed.
Lemma sub_more {A} (a b : list A) x : subseq a b -> subseq a (b ++ [x]).
Proof. induction 1; cbn; [apply sub_skip, sub_nil|apply sub_skip; assumption|apply sub_take; assumption]. Qed.
Lemma sub_both {A} (a b : list A) x : subseq a b -> subseq (a ++ [x]) (b ++ [x]).
Proof. induction 1; cbn; [apply sub_refl|apply sub_skip; assumption|apply sub_take; assumption]. Qed.
Lemma sub_in {A} (a b : list A) x : subseq a b -> In x a -> In x b.
Proof. induction 1; cbn; [auto|auto|]. intros [H1|H1]; auto. Qed.
Lemma from_app k a b : from k (a ++ b) = from k a ++ from k b.
Proof. apply flat_map_app. Qed.
Lemma from_in k d h : In d (from k h) <-> In (EFrom k d) h.
Proof.
  unfold from. rewrite in_flat_map. split.
  - intros (e & H & I). destruct e as [j x|]; [|destruct I]. destruct (j =? k)%nat eqn:E; [|destruct I]. apply Nat.eqb_eq in E. subst j. destruct I as [<-|[]]. exact H.
  - intros H. exists (EFrom k d). split; [exact H|]. rewrite Nat.eqb_refl. left. reflexivity.
Qed.

(** *** The channel and the writer of one connection *)
Definition msg (lossy : bytes -> bytes) (e : entry) : wmessage := match e with EFrom k d => MWrite (response lossy k d) | EClose => MClose end.
Definition wbytes (l : list wmessage) : bytes := flat_map (fun m => match m with MWrite d => d | MClose => [] end) l.
Definition no_close (l : list wmessage) : Prop := ~ In MClose l.
Definition qinv (lossy : bytes -> bytes) (c : conn) : Prop :=
  exists taken, map (msg lossy) (c_hist c) = taken ++ c_queue c /\
  match c_writer c with
  | WIdle => no_close taken /\ c_out c = wbytes taken
  | WWriting d pos => exists t, taken = t ++ [MWrite d] /\ no_close t /\ c_out c = wbytes t ++ firstn pos d /\ (pos <= length d)%nat
  | WClosed => exists t, taken = t ++ [MClose] /\ no_close t /\ c_out c = wbytes t
  | WFailed => exists t d pos, taken = t ++ [MWrite d] /\ no_close t /\ c_out c = wbytes t ++ firstn pos d
  end.
Lemma wbytes_app a b : wbytes (a ++ b) = wbytes a ++ wbytes b.
Proof. apply flat_map_app. Qed.
Lemma no_close_app a b : no_close (a ++ b) <-> no_close a /\ no_close b.
Proof. unfold no_close. rewrite in_app_iff. tauto. Qed.
Lemma qinv_enqueue lossy c e : qinv lossy c -> qinv lossy (enqueue c (msg lossy e) e).
Proof.
  intros (taken & E & H). unfold enqueue, qinv.
  destruct (c_writer c) eqn:W; exists taken; cbn [c_hist c_queue c_writer c_out]; try rewrite W; (split; [|exact H]);
    first [exact E|rewrite map_app, E; cbn [map]; rewrite <- app_assoc; reflexivity].
Qed.
Lemma qinv_reader lossy c p : qinv lossy c -> qinv lossy (set_reader c p).
Proof. intros H. exact H. Qed.
Lemma qinv_log lossy c d : qinv lossy c -> qinv lossy (add_log c d).
Proof. intros H. exact H. Qed.
Lemma qinv_removed lossy c : qinv lossy c -> qinv lossy (set_removed c).
Proof. intros H. exact H. Qed.
Lemma qinv_take lossy c d q : c_writer c = WIdle -> c_queue c = MWrite d :: q -> qinv lossy c -> qinv lossy (set_writer (set_queue c q) (WWriting d 0)).
Proof.
  intros W Q (taken & E & H). rewrite W in H. destruct H as [N O]. exists (taken ++ [MWrite d]). cbn [set_writer set_queue c_hist c_queue c_writer c_out].
  split; [rewrite E, Q, <- app_assoc; reflexivity|]. exists taken. split; [reflexivity|]. split; [exact N|]. cbn [firstn]. rewrite app_nil_r. split; [exact O|lia].
Qed.
Lemma qinv_close lossy c q : c_writer c = WIdle -> c_queue c = MClose :: q -> qinv lossy c -> qinv lossy (set_writer (set_queue c q) WClosed).
Proof.
  intros W Q (taken & E & H). rewrite W in H. destruct H as [N O]. exists (taken ++ [MClose]). cbn [set_writer set_queue c_hist c_queue c_writer c_out].
  split; [rewrite E, Q, <- app_assoc; reflexivity|]. exists taken. split; [reflexivity|]. split; [exact N|exact O].
Qed.
Lemma firstn_more {A} (d : list A) pos n : (pos + n <= length d)%nat -> firstn (pos + n) d = firstn pos d ++ firstn n (skipn pos d).
Proof.
  intros L. rewrite <- (firstn_skipn pos d) at 1. rewrite firstn_app, firstn_length, Nat.min_l by lia.
  replace (pos + n - pos)%nat with n by lia. rewrite firstn_firstn, Nat.min_r by lia. reflexivity.
Qed.
Lemma qinv_write lossy c d pos n : c_writer c = WWriting d pos -> (pos + n <= length d)%nat -> qinv lossy c ->
  qinv lossy (set_writer (write_out c (firstn n (skipn pos d))) (WWriting d (pos + n))).
Proof.
  intros W L (taken & E & H). rewrite W in H. destruct H as (t & T & N & O & P). exists taken. cbn [set_writer write_out c_hist c_queue c_writer c_out].
  split; [exact E|]. exists t. split; [exact T|]. split; [exact N|]. split; [|exact L]. rewrite O, firstn_more, app_assoc by exact L. reflexivity.
Qed.
Lemma qinv_written lossy c d pos : c_writer c = WWriting d pos -> (length d <= pos)%nat -> qinv lossy c -> qinv lossy (set_writer c WIdle).
Proof.
  intros W L (taken & E & H). rewrite W in H. destruct H as (t & T & N & O & P). exists taken. cbn [set_writer c_hist c_queue c_writer c_out].
  split; [exact E|]. rewrite T. split; [apply no_close_app; split; [exact N|intros [X|[]]; discriminate]|]. rewrite O, wbytes_app, firstn_all2 by lia. cbn. rewrite app_nil_r. reflexivity.
Qed.
Lemma qinv_fail lossy c d pos : c_writer c = WWriting d pos -> qinv lossy c -> qinv lossy (set_writer c WFailed).
Proof.
  intros W (taken & E & H). rewrite W in H. destruct H as (t & T & N & O & P). exists taken. cbn [set_writer c_hist c_queue c_writer c_out].
  split; [exact E|]. exists t, d, pos. auto.
Qed.

(** *** All connections *)
Definition pair_inv (s : server) (k c : nat) : Prop :=
  let f := from k (c_hist (s_conn s c)) in
  let log := c_log (s_conn s k) in
  match c_reader (s_conn s k) with
  | RNew | RIdle | REnded => subseq f log
  | RGot d | RCounted d => exists l, log = l ++ [d] /\ subseq f l
  | RSending todo d => exists l, log = l ++ [d] /\ (In c todo -> subseq f l) /\ subseq f log
  | RSent d => exists l, log = l ++ [d] /\ subseq f log
  end.
Definition own_inv (s : server) (k : nat) : Prop :=
  let c := s_conn s k in
  let f := from k (c_hist c) in
  match c_reader c with
  | RNew | RIdle => open c -> f = c_log c
  | RSent d => (exists l, c_log c = l ++ [d]) /\ (open c -> f = c_log c)
  | RGot d | RCounted d => exists l, c_log c = l ++ [d] /\ (open c -> f = l)
  | RSending todo d => exists l, c_log c = l ++ [d] /\ (open c -> if in_dec Nat.eq_dec k todo then f = l else f = l ++ [d])
  | REnded => c_writer c = WFailed \/ exists h1 h2, c_hist c = h1 ++ EClose :: h2 /\ ~ In EClose h1 /\ from k h1 = c_log c /\ from k h2 = []
  end.
Definition list_inv (s : server) : Prop :=
  NoDup (s_list s) /\ (forall k, In k (s_list s) <-> (k < s_count s)%nat /\ c_reader (s_conn s k) <> RNew /\ c_removed (s_conn s k) = false) /\
  (forall k todo d, c_reader (s_conn s k) = RSending todo d -> NoDup todo /\ forall j, In j todo -> (j < s_count s)%nat) /\
  (forall k, c_removed (s_conn s k) = true -> c_reader (s_conn s k) = REnded) /\
  (forall k, (s_count s <= k)%nat -> s_conn s k = conn_new).
Definition cinv (lossy : bytes -> bytes) (s : server) : Prop :=
  list_inv s /\ (forall k, qinv lossy (s_conn s k)) /\ (forall k, c_reader (s_conn s k) <> REnded -> ~ In EClose (c_hist (s_conn s k))) /\
  (forall k, own_inv s k) /\ forall k c, pair_inv s k c.
Lemma upd_same f k c : upd f k c k = c.
Proof. unfold upd. rewrite Nat.eqb_refl. reflexivity. Qed.
Lemma upd_other f k c i : i <> k -> upd f k c i = f i.
Proof. intros H. unfold upd. apply Nat.eqb_neq in H. rewrite H. reflexivity. Qed.
Lemma upd_cases f k c i : i = k /\ upd f k c i = c \/ i <> k /\ upd f k c i = f i.
Proof. destruct (Nat.eq_dec i k) as [->|H]; [left; split; [reflexivity|apply upd_same]|right; split; [exact H|apply upd_other; exact H]]. Qed.
Lemma remove_first_in k l : NoDup l -> forall x, In x (remove_first k l) <-> In x l /\ x <> k.
Proof.
  induction 1 as [|y l N D IH]; intros x; [cbn; tauto|]. cbn [remove_first]. destruct (y =? k)%nat eqn:E.
  - apply Nat.eqb_eq in E. subst y. cbn [In]. split; [|intros [[->|H] Hn]; [contradiction|exact H]]. intros H. split; [right; exact H|]. intros ->. contradiction.
  - apply Nat.eqb_neq in E. cbn [In]. rewrite IH. split.
    + intros [->|[H1 H2]]; [split; [left; reflexivity|congruence]|split; [right; exact H1|exact H2]].
    + intros [[->|H1] H2]; [left; reflexivity|right; split; assumption].
Qed.
Lemma remove_first_nodup k l : NoDup l -> NoDup (remove_first k l).
Proof.
  induction 1 as [|y l N D IH]; [constructor|]. cbn [remove_first]. destruct (y =? k)%nat; [exact D|]. constructor; [|exact IH].
  rewrite remove_first_in by exact D. tauto.
Qed.
Lemma pair_frame s s' k c : c_reader (s_conn s' k) = c_reader (s_conn s k) -> c_log (s_conn s' k) = c_log (s_conn s k) ->
  c_hist (s_conn s' c) = c_hist (s_conn s c) -> pair_inv s k c -> pair_inv s' k c.
Proof. unfold pair_inv. intros -> -> -> H. exact H. Qed.
Lemma own_frame s s' k : c_reader (s_conn s' k) = c_reader (s_conn s k) -> c_log (s_conn s' k) = c_log (s_conn s k) -> c_hist (s_conn s' k) = c_hist (s_conn s k) ->
  (open (s_conn s' k) -> open (s_conn s k)) -> (c_writer (s_conn s k) = WFailed -> c_writer (s_conn s' k) = WFailed) -> own_inv s k -> own_inv s' k.
Proof.
  unfold own_inv. intros -> -> -> O F H. destruct (c_reader (s_conn s k)).
  - auto.
  - auto.
  - destruct H as (l & E & H). exists l. split; [exact E|intros X; exact (H (O X))].
  - destruct H as (l & E & H). exists l. split; [exact E|intros X; exact (H (O X))].
  - destruct H as (l & E & H). exists l. split; [exact E|intros X; exact (H (O X))].
  - destruct H as [E H]. split; [exact E|intros X; exact (H (O X))].
  - destruct H as [H|H]; auto.
Qed.
Lemma enqueue_same c m e : c_reader (enqueue c m e) = c_reader c /\ c_log (enqueue c m e) = c_log c /\ c_removed (enqueue c m e) = c_removed c /\ c_writer (enqueue c m e) = c_writer c.
Proof. unfold enqueue. destruct (c_writer c) eqn:W; cbn; auto. Qed.
Lemma enqueue_hist c m e : open c /\ c_hist (enqueue c m e) = c_hist c ++ [e] \/ ~ open c /\ enqueue c m e = c.
Proof.
  unfold enqueue, open. destruct (c_writer c) eqn:W; [left|left|right|right]; (split; [|reflexivity]); try (split; discriminate); intros [A B]; congruence.
Qed.
Lemma list_frame s s' : s_list s' = s_list s -> s_count s' = s_count s ->
  (forall k, c_reader (s_conn s' k) = RNew <-> c_reader (s_conn s k) = RNew) -> (forall k, c_removed (s_conn s' k) = c_removed (s_conn s k)) ->
  (forall k todo d, c_reader (s_conn s' k) = RSending todo d -> NoDup todo /\ forall j, In j todo -> (j < s_count s)%nat) ->
  (forall k, c_removed (s_conn s' k) = true -> c_reader (s_conn s' k) = REnded) -> (forall k, (s_count s <= k)%nat -> s_conn s' k = s_conn s k) ->
  list_inv s -> list_inv s'.
Proof.
  intros E1 E2 R M T D C (L1 & L2 & L3 & L4 & L5). unfold list_inv. rewrite E1, E2. split; [exact L1|]. split; [intros k; rewrite L2, R, M; tauto|].
  split; [exact T|]. split; [exact D|]. intros k K. rewrite C by exact K. apply L5. exact K.
Qed.
Lemma NoDup_app_one {A} (l : list A) x : NoDup l -> ~ In x l -> NoDup (l ++ [x]).
Proof.
  intros N X. apply NoDup_rev in N. rewrite <- (rev_involutive l). change [x] with (rev [x]). rewrite <- rev_app_distr. apply NoDup_rev. cbn. constructor; [rewrite <- in_rev; exact X|exact N].
Qed.
(** A step of the writer of [k]. *)
Lemma writer_step lossy s k c' : (k < s_count s)%nat ->
  c_reader c' = c_reader (s_conn s k) -> c_log c' = c_log (s_conn s k) -> c_hist c' = c_hist (s_conn s k) -> c_removed c' = c_removed (s_conn s k) ->
  (open c' -> open (s_conn s k)) -> (c_writer (s_conn s k) = WFailed -> c_writer c' = WFailed) -> qinv lossy c' -> cinv lossy s -> cinv lossy (set_conn s k c').
Proof.
  intros K R L H M O F Q (I1 & I2 & I3 & I4 & I5).
  assert (Same : forall i, c_reader (upd (s_conn s) k c' i) = c_reader (s_conn s i) /\ c_log (upd (s_conn s) k c' i) = c_log (s_conn s i) /\
    c_hist (upd (s_conn s) k c' i) = c_hist (s_conn s i) /\ c_removed (upd (s_conn s) k c' i) = c_removed (s_conn s i)).
  { intros i. destruct (upd_cases (s_conn s) k c' i) as [[-> E]|[N E]]; rewrite E; auto. }
  split; [|split; [|split; [|split]]].
  - apply list_frame with (s := s); cbn [set_conn s_conn s_list s_count]; try reflexivity.
    + intros i. destruct (Same i) as (-> & _). tauto.
    + intros i. destruct (Same i) as (_ & _ & _ & ->). reflexivity.
    + intros i todo d. destruct (Same i) as (-> & _). apply I1.
    + intros i. destruct (Same i) as (-> & _ & _ & ->). apply I1.
    + intros i Hi. apply upd_other. lia.
    + exact I1.
  - intros i. cbn [set_conn s_conn]. destruct (upd_cases (s_conn s) k c' i) as [[-> E]|[N E]]; rewrite E; [exact Q|apply I2].
  - intros i. cbn [set_conn s_conn]. destruct (Same i) as (-> & _ & -> & _). apply I3.
  - intros i. destruct (Same i) as (S1 & S2 & S3 & _). apply own_frame with (s := s); cbn [set_conn s_conn]; try assumption; try apply I4;
      destruct (upd_cases (s_conn s) k c' i) as [[-> E]|[N E]]; rewrite E; auto.
  - intros i c. destruct (Same i) as (S1 & S2 & _). destruct (Same c) as (_ & _ & S3 & _). apply pair_frame with (s := s); cbn [set_conn s_conn]; try assumption. apply I5.
Qed.
(** A step of the reader of [k] that puts nothing into a channel. *)
Lemma reader_step lossy s s' k c' : (k < s_count s)%nat -> s_count s' = s_count s -> s_conn s' = upd (s_conn s) k c' ->
  c_hist c' = c_hist (s_conn s k) -> c_writer c' = c_writer (s_conn s k) -> c_queue c' = c_queue (s_conn s k) -> c_out c' = c_out (s_conn s k) ->
  c_reader (s_conn s k) <> REnded -> c_reader c' <> REnded ->
  list_inv s' -> own_inv s' k -> (forall c, pair_inv s' k c) -> cinv lossy s -> cinv lossy s'.
Proof.
  intros K Cn E H W Q O R R' L Ow P (I1 & I2 & I3 & I4 & I5).
  assert (Hist : forall i, c_hist (s_conn s' i) = c_hist (s_conn s i)).
  { intros i. rewrite E. destruct (upd_cases (s_conn s) k c' i) as [[-> X]|[N X]]; rewrite X; auto. }
  split; [exact L|]. split; [|split; [|split]].
  - intros i. rewrite E. destruct (upd_cases (s_conn s) k c' i) as [[-> X]|[N X]]; rewrite X; [|apply I2]. unfold qinv. rewrite H, W, Q, O. apply I2.
  - intros i. rewrite Hist. rewrite E. destruct (upd_cases (s_conn s) k c' i) as [[-> X]|[N X]]; rewrite X; [intros _; apply I3; exact R|apply I3].
  - intros i. destruct (Nat.eq_dec i k) as [->|N]; [exact Ow|].
    assert (X : s_conn s' i = s_conn s i) by (rewrite E; apply upd_other; exact N). apply own_frame with (s := s); rewrite ?X; auto.
  - intros i c. destruct (Nat.eq_dec i k) as [->|N]; [apply P|].
    assert (X : s_conn s' i = s_conn s i) by (rewrite E; apply upd_other; exact N). apply pair_frame with (s := s); rewrite ?X, ?Hist; auto.
Qed.
Lemma reader_list s s' k c' : s_list s' = s_list s -> s_count s' = s_count s -> s_conn s' = upd (s_conn s) k c' -> (k < s_count s)%nat ->
  c_removed c' = c_removed (s_conn s k) -> c_reader (s_conn s k) <> RNew -> c_reader c' <> RNew -> c_reader (s_conn s k) <> REnded ->
  (forall todo d, c_reader c' = RSending todo d -> NoDup todo /\ forall j, In j todo -> (j < s_count s)%nat) -> list_inv s -> list_inv s'.
Proof.
  intros E1 E2 E K M R1 R2 R3 T I. apply list_frame with (s := s); try assumption.
  - intros i. rewrite E. destruct (upd_cases (s_conn s) k c' i) as [[-> X]|[N X]]; rewrite X; tauto.
  - intros i. rewrite E. destruct (upd_cases (s_conn s) k c' i) as [[-> X]|[N X]]; rewrite X; auto.
  - intros i todo d. rewrite E. destruct (upd_cases (s_conn s) k c' i) as [[-> X]|[N X]]; rewrite X; [apply T|apply I].
  - intros i. rewrite E. destruct (upd_cases (s_conn s) k c' i) as [[-> X]|[N X]]; rewrite X; [|apply I]. intros Y. rewrite M in Y. exfalso. apply R3. apply I. exact Y.
  - intros i Hi. rewrite E. apply upd_other. lia.
Qed.
Lemma cinv_step lossy s s' : cinv lossy s -> cstep lossy s s' -> cinv lossy s'.
Proof.
  intros I St. pose proof I as (I1 & I2 & I3 & I4 & I5). pose proof I1 as (L1 & L2 & L3 & L4 & L5).
  destruct St as [s|s k K R|s k d K R D Ld|s k K R|s k d K R|s k d K R|s k j todo d K R|s k d K R|s k d K R|s k d q K Rn W Q|s k q K Rn W Q|s k d pos n K W P1 P2|s k d pos K W P1|s k d pos K W P1|s k K R W M].
  - (* accept *) split; [|split; [exact I2|split; [exact I3|split; [exact I4|exact I5]]]].
    split; [exact L1|]. cbn [s_list s_count s_conn]. split; [|split; [intros i todo d Hr; destruct (L3 i todo d Hr) as [A B]; split; [exact A|intros j Hj; apply B in Hj; lia]|split; [exact L4|intros i Hi; apply L5; lia]]].
    intros i. rewrite L2. split; [intros (A & B & C); split; [lia|auto]|]. intros (A & B & C). split; [|auto]. destruct (Nat.eq_dec i (s_count s)) as [->|]; [|lia].
    exfalso. apply B. rewrite (L5 (s_count s) (le_n _)). reflexivity.
  - (* add *) pose proof (I4 k) as Ok. unfold own_inv in Ok. rewrite R in Ok.
    eapply reader_step with (k := k) (s := s); try reflexivity; try assumption; try discriminate; cbn [set_reader c_reader c_removed c_hist]; try congruence.
    + assert (Nk : ~ In k (s_list s)) by (rewrite L2; tauto).
      assert (Mk : c_removed (s_conn s k) = false) by (destruct (c_removed (s_conn s k)) eqn:X; [apply L4 in X; congruence|reflexivity]).
      split; [apply NoDup_app_one; assumption|]. cbn [s_list s_count s_conn]. split; [|split; [|split]].
      * intros i. rewrite in_app_iff, L2. destruct (upd_cases (s_conn s) k (set_reader (s_conn s k) RIdle) i) as [[-> X]|[N X]]; rewrite X; cbn [set_reader c_reader c_removed In].
        -- split; [intros _; split; [exact K|split; [discriminate|exact Mk]]|intros _; right; left; reflexivity].
        -- split; [intros [A|[A|[]]]; [exact A|congruence]|auto].
      * intros i todo d. destruct (upd_cases (s_conn s) k (set_reader (s_conn s k) RIdle) i) as [[-> X]|[N X]]; rewrite X; [discriminate|apply L3].
      * intros i. destruct (upd_cases (s_conn s) k (set_reader (s_conn s k) RIdle) i) as [[-> X]|[N X]]; rewrite X; cbn [set_reader c_reader c_removed]; [congruence|apply L4].
      * intros i Hi. rewrite upd_other by lia. apply L5. exact Hi.
    + unfold own_inv. cbn [s_conn]. rewrite upd_same. exact Ok.
    + intros c. pose proof (I5 k c) as X. unfold pair_inv in *. cbn [s_conn]. rewrite upd_same. rewrite R in X. cbn [set_reader c_reader c_log].
      destruct (upd_cases (s_conn s) k (set_reader (s_conn s k) RIdle) c) as [[-> Y]|[N Y]]; rewrite Y; exact X.
  - (* read *) pose proof (I4 k) as Ok. unfold own_inv in Ok. rewrite R in Ok.
    eapply reader_step with (k := k) (s := s); try reflexivity; try assumption; try discriminate; try congruence.
    + eapply reader_list with (k := k) (s := s); try reflexivity; try assumption; try discriminate; congruence.
    + unfold own_inv. cbn [set_conn s_conn]. rewrite upd_same. cbn [set_reader add_log c_reader c_log c_hist]. exists (c_log (s_conn s k)). split; [reflexivity|exact Ok].
    + intros c. pose proof (I5 k c) as X. unfold pair_inv in *. cbn [set_conn s_conn]. rewrite upd_same. rewrite R in X. cbn [set_reader add_log c_reader c_log].
      exists (c_log (s_conn s k)). split; [reflexivity|].
      destruct (upd_cases (s_conn s) k (set_reader (add_log (s_conn s k) d) (RGot d)) c) as [[-> Y]|[N Y]]; rewrite Y; exact X.
  - (* end *) pose proof (I4 k) as Ok. unfold own_inv in Ok. rewrite R in Ok.
    set (e := enqueue (s_conn s k) MClose EClose) in *. destruct (enqueue_same (s_conn s k) MClose EClose) as (S1 & S2 & S3 & S4). fold e in S1, S2, S3, S4.
    assert (NC : ~ In EClose (c_hist (s_conn s k))) by (apply I3; congruence).
    assert (Rm : c_removed (s_conn s k) = false) by (destruct (c_removed (s_conn s k)) eqn:X; [apply L4 in X; congruence|reflexivity]).
    assert (Fr : forall i, from i (c_hist e) = from i (c_hist (s_conn s k))).
    { intros i. destruct (enqueue_hist (s_conn s k) MClose EClose) as [[_ X]|[_ X]]; fold e in X; rewrite X; [|reflexivity]. rewrite from_app. cbn. apply app_nil_r. }
    split; [|split; [|split; [|split]]].
    + split; [exact L1|]. cbn [set_conn s_list s_count s_conn]. split; [|split; [|split]].
      * intros i. rewrite L2. destruct (upd_cases (s_conn s) k (set_reader e REnded) i) as [[-> X]|[N X]]; rewrite X; cbn [set_reader c_reader c_removed]; [|tauto].
        rewrite S3, R. split; intros (A & B & C); (split; [exact A|split; [discriminate|exact C]]).
      * intros i todo d. destruct (upd_cases (s_conn s) k (set_reader e REnded) i) as [[-> X]|[N X]]; rewrite X; [discriminate|apply L3].
      * intros i. destruct (upd_cases (s_conn s) k (set_reader e REnded) i) as [[-> X]|[N X]]; rewrite X; [reflexivity|apply L4].
      * intros i Hi. rewrite upd_other by lia. apply L5. exact Hi.
    + intros i. cbn [set_conn s_conn]. destruct (upd_cases (s_conn s) k (set_reader e REnded) i) as [[-> X]|[N X]]; rewrite X; [|apply I2].
      apply qinv_reader. exact (qinv_enqueue lossy (s_conn s k) EClose (I2 k)).
    + intros i. cbn [set_conn s_conn]. destruct (upd_cases (s_conn s) k (set_reader e REnded) i) as [[-> X]|[N X]]; rewrite X; [intros Y; exfalso; apply Y; reflexivity|apply I3].
    + intros i. destruct (Nat.eq_dec i k) as [->|N].
      * unfold own_inv. cbn [set_conn s_conn]. rewrite upd_same. cbn [set_reader c_reader c_writer c_hist c_log]. rewrite S2, S4.
        destruct (enqueue_hist (s_conn s k) MClose EClose) as [[Op X]|[Op X]]; fold e in X.
        -- right. exists (c_hist (s_conn s k)), []. split; [exact X|]. split; [exact NC|]. split; [apply Ok; exact Op|reflexivity].
        -- left. destruct (I2 k) as (taken & E & H). unfold open in Op. destruct (c_writer (s_conn s k)); try (exfalso; apply Op; split; discriminate); [|reflexivity].
           exfalso. destruct H as (t & -> & _). apply NC. assert (Y : In MClose (map (msg lossy) (c_hist (s_conn s k)))) by (rewrite E; apply in_or_app; left; apply in_or_app; right; left; reflexivity).
           apply in_map_iff in Y. destruct Y as ([j x|] & Y & Z); [discriminate|exact Z].
      * assert (X : upd (s_conn s) k (set_reader e REnded) i = s_conn s i) by (apply upd_other; exact N).
        apply own_frame with (s := s); cbn [set_conn s_conn]; rewrite ?X; auto.
    + intros i c. pose proof (I5 i c) as X. unfold pair_inv in *. cbn [set_conn s_conn].
      assert (Fc : forall i, from i (c_hist (upd (s_conn s) k (set_reader e REnded) c)) = from i (c_hist (s_conn s c))).
      { intros i'. destruct (upd_cases (s_conn s) k (set_reader e REnded) c) as [[-> Y]|[N Y]]; rewrite Y; [apply Fr|reflexivity]. }
      rewrite Fc. destruct (upd_cases (s_conn s) k (set_reader e REnded) i) as [[-> Y]|[N Y]]; rewrite Y; [|exact X].
      cbn [set_reader c_reader c_log]. rewrite S2. rewrite R in X. exact X.
  - (* count in *) pose proof (I4 k) as Ok. unfold own_inv in Ok. rewrite R in Ok.
    eapply reader_step with (k := k) (s := s); try reflexivity; try assumption; try discriminate; try congruence.
    + eapply reader_list with (k := k) (s := s); try reflexivity; try assumption; try discriminate; congruence.
    + unfold own_inv. cbn [s_conn]. rewrite upd_same. exact Ok.
    + intros c. pose proof (I5 k c) as X. unfold pair_inv in *. cbn [s_conn]. rewrite upd_same. rewrite R in X. cbn [set_reader c_reader c_log].
      destruct (upd_cases (s_conn s) k (set_reader (s_conn s k) (RCounted d)) c) as [[-> Y]|[N Y]]; rewrite Y; exact X.
  - (* snapshot *) pose proof (I4 k) as Ok. unfold own_inv in Ok. rewrite R in Ok.
    assert (Ik : In k (s_list s)). { apply L2. split; [exact K|]. rewrite R. split; [discriminate|]. destruct (c_removed (s_conn s k)) eqn:X; [apply L4 in X; congruence|reflexivity]. }
    eapply reader_step with (k := k) (s := s); try reflexivity; try assumption; try discriminate; try congruence.
    + eapply reader_list with (k := k) (s := s); try reflexivity; try assumption; try discriminate; try congruence. cbn [set_reader c_reader]. intros todo d' X. injection X as <- _. split; [exact L1|intros j Hj; apply L2 in Hj; apply Hj].
    + unfold own_inv. cbn [set_conn s_conn]. rewrite upd_same. cbn [set_reader c_reader c_log c_hist]. destruct Ok as (l & E & O). exists l. split; [exact E|].
      intros Op. destruct (in_dec Nat.eq_dec k (s_list s)) as [_|X]; [apply O; exact Op|contradiction].
    + intros c. pose proof (I5 k c) as X. unfold pair_inv in *. cbn [set_conn s_conn]. rewrite upd_same. rewrite R in X. cbn [set_reader c_reader c_log].
      destruct X as (l & E & X). exists l. split; [exact E|]. rewrite E.
      destruct (upd_cases (s_conn s) k (set_reader (s_conn s k) (RSending (s_list s) d)) c) as [[-> Y]|[N Y]]; rewrite Y; (split; [intros _; exact X|apply sub_more; exact X]).
  - (* send *) pose proof (I4 k) as Ok. unfold own_inv in Ok. rewrite R in Ok. pose proof (L3 k _ _ R) as [Nd Cj]. inversion Nd as [|? ? Nj Nt]; subst.
    cbn zeta. set (f1 := upd (s_conn s) k (set_reader (s_conn s k) (RSending todo d))). unfold set_conn. cbn [s_list s_received s_sent s_conn s_count]. fold f1.
    set (e := enqueue (f1 j) (MWrite (response lossy k d)) (EFrom k d)).
    destruct (enqueue_same (f1 j) (MWrite (response lossy k d)) (EFrom k d)) as (S1 & S2 & S3 & S4). fold e in S1, S2, S3, S4.
    assert (F1 : forall i, c_log (f1 i) = c_log (s_conn s i) /\ c_hist (f1 i) = c_hist (s_conn s i) /\ c_removed (f1 i) = c_removed (s_conn s i) /\ c_writer (f1 i) = c_writer (s_conn s i) /\ (i <> k -> c_reader (f1 i) = c_reader (s_conn s i))).
    { intros i. unfold f1. destruct (upd_cases (s_conn s) k (set_reader (s_conn s k) (RSending todo d)) i) as [[-> X]|[N X]]; rewrite X; cbn; auto 6; do 4 (split; [reflexivity|]); congruence. }
    assert (Rk : c_reader (f1 k) = RSending todo d) by (unfold f1; rewrite upd_same; reflexivity).
    set (f2 := upd f1 j e).
    assert (F2 : forall i, c_log (f2 i) = c_log (s_conn s i) /\ c_removed (f2 i) = c_removed (s_conn s i) /\ c_writer (f2 i) = c_writer (s_conn s i) /\ c_reader (f2 i) = c_reader (f1 i)).
    { intros i. unfold f2. destruct (F1 i) as (A & _ & B & C & _). destruct (upd_cases f1 j e i) as [[-> X]|[N X]]; rewrite X; [|auto]. rewrite S1, S2, S3, S4. auto. }
    assert (H2 : forall i, i <> j -> c_hist (f2 i) = c_hist (s_conn s i)).
    { intros i N. unfold f2. rewrite upd_other by exact N. apply F1. }
    assert (H3 : open (s_conn s j) /\ c_hist (f2 j) = c_hist (s_conn s j) ++ [EFrom k d] \/ ~ open (s_conn s j) /\ c_hist (f2 j) = c_hist (s_conn s j)).
    { unfold f2. rewrite upd_same. destruct (F1 j) as (_ & A & _ & B & _). destruct (enqueue_hist (f1 j) (MWrite (response lossy k d)) (EFrom k d)) as [[Op X]|[Op X]]; fold e in X; rewrite X, A; unfold open in Op; rewrite B in Op; [left|right]; auto. }
    assert (Other : forall i, i <> k -> forall c, from i (c_hist (f2 c)) = from i (c_hist (s_conn s c))).
    { intros i N c. destruct (Nat.eq_dec c j) as [->|Nc]; [|rewrite H2 by exact Nc; reflexivity]. destruct H3 as [[_ X]|[_ X]]; rewrite X; [|reflexivity].
      rewrite from_app. cbn. destruct (k =? i)%nat eqn:Y; [apply Nat.eqb_eq in Y; congruence|]. apply app_nil_r. }
    split; [|split; [|split; [|split]]].
    + apply list_frame with (s := s); cbn [s_list s_count s_conn]; try reflexivity; try exact I1.
      * intros i. cbn [s_conn]. fold f2. destruct (F2 i) as (_ & _ & _ & ->). destruct (Nat.eq_dec i k) as [->|N]; [rewrite Rk, R; split; discriminate|]. destruct (F1 i) as (_ & _ & _ & _ & X). rewrite X by exact N. tauto.
      * intros i. cbn [s_conn]. fold f2. destruct (F2 i) as (_ & -> & _). reflexivity.
      * intros i t x. fold f2. destruct (F2 i) as (_ & _ & _ & ->). destruct (Nat.eq_dec i k) as [->|N]; [rewrite Rk; intros X; injection X as <- _; split; [exact Nt|intros y Hy; apply Cj; right; exact Hy]|].
        destruct (F1 i) as (_ & _ & _ & _ & X). rewrite X by exact N. apply L3.
      * intros i. cbn [s_conn]. fold f2. destruct (F2 i) as (_ & -> & _ & ->). intros X. apply L4 in X. destruct (Nat.eq_dec i k) as [->|N]; [congruence|]. destruct (F1 i) as (_ & _ & _ & _ & Y). rewrite Y by exact N. exact X.
      * intros i Hi. fold f2. unfold f2. destruct (upd_cases f1 j e i) as [[-> X]|[N X]]; rewrite X.
        -- exfalso. specialize (Cj j (or_introl eq_refl)). lia.
        -- unfold f1. apply upd_other. lia.
    + intros i. cbn [s_conn]. fold f2. unfold f2. destruct (upd_cases f1 j e i) as [[-> X]|[N X]]; rewrite X.
      * apply (qinv_enqueue lossy (f1 j) (EFrom k d)). unfold f1. destruct (upd_cases (s_conn s) k (set_reader (s_conn s k) (RSending todo d)) j) as [[-> Y]|[N Y]]; rewrite Y; [apply qinv_reader|]; apply I2.
      * unfold f1. destruct (upd_cases (s_conn s) k (set_reader (s_conn s k) (RSending todo d)) i) as [[-> Y]|[N' Y]]; rewrite Y; [apply qinv_reader|]; apply I2.
    + intros i. cbn [s_conn]. fold f2. destruct (F2 i) as (_ & _ & _ & ->). intros X.
      assert (Y : ~ In EClose (c_hist (s_conn s i))). { apply I3. destruct (Nat.eq_dec i k) as [->|N]; [congruence|]. destruct (F1 i) as (_ & _ & _ & _ & Z). rewrite <- Z by exact N. exact X. }
      destruct (Nat.eq_dec i j) as [->|N]; [|rewrite H2 by exact N; exact Y]. destruct H3 as [[_ Z]|[_ Z]]; rewrite Z; [|exact Y].
      rewrite in_app_iff. intros [V|[V|[]]]; [exact (Y V)|discriminate].
    + intros i. destruct (Nat.eq_dec i k) as [->|N].
      * unfold own_inv. cbn [s_conn]. fold f2. destruct (F2 k) as (A & _ & B & C). rewrite C, Rk, A. destruct Ok as (l & E & O). exists l. split; [exact E|].
        intros Op. assert (Op' : open (s_conn s k)) by (unfold open in *; rewrite <- B; exact Op). specialize (O Op').
        destruct (Nat.eq_dec k j) as [<-|Nkj].
        -- destruct (in_dec Nat.eq_dec k (k :: todo)) as [_|X]; [|exfalso; apply X; left; reflexivity]. destruct (in_dec Nat.eq_dec k todo) as [X|_]; [contradiction|].
           destruct H3 as [[_ X]|[X _]]; [|contradiction]. rewrite X, from_app, O. cbn. rewrite Nat.eqb_refl. reflexivity.
        -- rewrite H2 by exact Nkj. destruct (in_dec Nat.eq_dec k todo) as [X|X]; destruct (in_dec Nat.eq_dec k (j :: todo)) as [Y|Y]; try exact O.
           ++ exfalso. apply Y. right. exact X.
           ++ exfalso. destruct Y as [Y|Y]; [congruence|contradiction].
      * pose proof (I4 i) as Oi. unfold own_inv in *. cbn [s_conn]. fold f2. destruct (F2 i) as (A & _ & B & C). destruct (F1 i) as (_ & _ & _ & _ & D). rewrite D in C by exact N.
        rewrite C, A, (Other i N i). unfold open in *. rewrite B. destruct (c_reader (s_conn s i)) eqn:Ri; try exact Oi.
        destruct Oi as [Oi|(h1 & h2 & X1 & X2 & X3 & X4)]; [left; exact Oi|]. right.
        destruct (Nat.eq_dec i j) as [->|Nij]; [|exists h1, h2; rewrite H2 by exact Nij; auto]. destruct H3 as [[_ Z]|[_ Z]]; rewrite Z; [|exists h1, h2; auto].
        exists h1, (h2 ++ [EFrom k d]). split; [rewrite X1, <- app_assoc; reflexivity|]. split; [exact X2|]. split; [exact X3|]. rewrite from_app, X4. cbn.
        destruct (k =? j)%nat eqn:Y; [apply Nat.eqb_eq in Y; congruence|reflexivity].
    + intros i c. destruct (Nat.eq_dec i k) as [->|N].
      * pose proof (I5 k c) as X. unfold pair_inv in *. cbn [s_conn]. fold f2. destruct (F2 k) as (A & _ & _ & C). rewrite C, Rk, A. rewrite R in X. destruct X as (l & E & X1 & X2). exists l. split; [exact E|].
        destruct (Nat.eq_dec c j) as [->|Nc].
        -- split; [intros Y; contradiction|]. specialize (X1 (or_introl eq_refl)). destruct H3 as [[_ Z]|[_ Z]]; rewrite Z; [|exact X2].
           rewrite from_app, E. cbn. rewrite Nat.eqb_refl. apply sub_both. exact X1.
        -- rewrite H2 by exact Nc. split; [intros Y; apply X1; right; exact Y|exact X2].
      * pose proof (I5 i c) as X. unfold pair_inv in *. cbn [s_conn]. fold f2. destruct (F2 i) as (A & _ & _ & C). destruct (F1 i) as (_ & _ & _ & _ & D). rewrite D in C by exact N.
        rewrite C, A, (Other i N c). exact X.
  - (* all sent *) pose proof (I4 k) as Ok. unfold own_inv in Ok. rewrite R in Ok.
    eapply reader_step with (k := k) (s := s); try reflexivity; try assumption; try discriminate; try congruence.
    + eapply reader_list with (k := k) (s := s); try reflexivity; try assumption; try discriminate; congruence.
    + unfold own_inv. cbn [set_conn s_conn]. rewrite upd_same. cbn [set_reader c_reader c_log c_hist]. destruct Ok as (l & E & O). split; [exists l; exact E|].
      intros Op. rewrite E. exact (O Op).
    + intros c. pose proof (I5 k c) as X. unfold pair_inv in *. cbn [set_conn s_conn]. rewrite upd_same. rewrite R in X. cbn [set_reader c_reader c_log].
      destruct X as (l & E & _ & X). exists l. split; [exact E|].
      destruct (upd_cases (s_conn s) k (set_reader (s_conn s k) (RSent d)) c) as [[-> Y]|[N Y]]; rewrite Y; exact X.
  - (* count out *) pose proof (I4 k) as Ok. unfold own_inv in Ok. rewrite R in Ok.
    eapply reader_step with (k := k) (s := s); try reflexivity; try assumption; try discriminate; try congruence.
    + eapply reader_list with (k := k) (s := s); try reflexivity; try assumption; try discriminate; congruence.
    + unfold own_inv. cbn [s_conn]. rewrite upd_same. exact (proj2 Ok).
    + intros c. pose proof (I5 k c) as X. unfold pair_inv in *. cbn [s_conn]. rewrite upd_same. rewrite R in X. cbn [set_reader c_reader c_log]. destruct X as (l & E & X).
      destruct (upd_cases (s_conn s) k (set_reader (s_conn s k) RIdle) c) as [[-> Y]|[N Y]]; rewrite Y; exact X.
  - apply writer_step; try reflexivity; try assumption; [intros _; unfold open; rewrite W; split; discriminate|congruence|]. apply qinv_take; auto.
  - apply writer_step; try reflexivity; try assumption; [intros [X _]; exfalso; apply X; reflexivity|congruence|]. apply qinv_close; auto.
  - apply writer_step; try reflexivity; try assumption; [intros _; unfold open; rewrite W; split; discriminate|congruence|]. apply qinv_write; auto.
  - apply writer_step; try reflexivity; try assumption; [intros _; unfold open; rewrite W; split; discriminate|congruence|]. apply (qinv_written lossy _ d pos); auto.
  - apply writer_step; try reflexivity; try assumption; [intros [_ X]; exfalso; apply X; reflexivity|]. apply (qinv_fail lossy _ d pos); auto.
  - (* remove *)
    assert (Same : forall i, let c := upd (s_conn s) k (set_removed (s_conn s k)) i in c_reader c = c_reader (s_conn s i) /\ c_log c = c_log (s_conn s i) /\ c_hist c = c_hist (s_conn s i) /\ c_writer c = c_writer (s_conn s i) /\ (i <> k -> c_removed c = c_removed (s_conn s i))).
    { intros i. cbn zeta. destruct (upd_cases (s_conn s) k (set_removed (s_conn s k)) i) as [[-> X]|[N X]]; rewrite X; cbn; auto 6. do 4 (split; [reflexivity|]). congruence. }
    split; [|split; [|split; [|split]]].
    + split; [apply remove_first_nodup; exact L1|]. cbn [s_list s_count s_conn]. split; [|split; [|split]].
      * intros i. rewrite remove_first_in, L2 by exact L1. destruct (Same i) as (-> & _ & _ & _ & X). destruct (Nat.eq_dec i k) as [->|N]; [|rewrite X by exact N; tauto].
        rewrite upd_same. cbn. split; [intros [_ Y]; congruence|intros (_ & _ & Y); discriminate].
      * intros i todo d. destruct (Same i) as (-> & _). apply L3.
      * intros i. destruct (Same i) as (-> & _ & _ & _ & X). destruct (Nat.eq_dec i k) as [->|N]; [intros _; exact R|rewrite X by exact N; apply L4].
      * intros i Hi. rewrite upd_other by lia. apply L5. exact Hi.
    + intros i. cbn [s_conn]. destruct (upd_cases (s_conn s) k (set_removed (s_conn s k)) i) as [[-> X]|[N X]]; rewrite X; [apply qinv_removed|]; apply I2.
    + intros i. cbn [s_conn]. destruct (Same i) as (-> & _ & -> & _). apply I3.
    + intros i. destruct (Same i) as (A & B & C & D & _). apply own_frame with (s := s); cbn [s_conn]; try assumption; [unfold open; rewrite D; auto|rewrite D; auto|apply I4].
    + intros i c. destruct (Same i) as (A & B & _). destruct (Same c) as (_ & _ & C & _). apply pair_frame with (s := s); cbn [s_conn]; try assumption. apply I5.
Qed.
