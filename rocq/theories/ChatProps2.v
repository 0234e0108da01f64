(** C97 and C98: the theorems about the chat server. *)
From Verif Require Import Base BaseProofs UtilModel BencodeSpec ChatModel ChatProps.

(** *** Specification *)
(** The lines of a list of entries. *)
Definition lines (lossy : bytes -> bytes) (h : list entry) : bytes := flat_map (text lossy) h.
(** The entries are pieces the connections really sent, those of each sender in the order in
    which it sent them and none of them twice. *)
Definition genuine (s : server) (h : list entry) : Prop := forall k, subseq (from k h) (c_log (s_conn s k)).
(** Digits that denote [n], without a leading zero. *)
Definition denotes (ds : bytes) (n : N) : Prop :=
  ds <> [] /\ Forall (fun c => 48 <= c <= 57) ds /\ dec_value ds = n /\ (forall t, ds = 48 :: t -> t = []).
(** Any number of further steps. *)
Inductive cruns (lossy : bytes -> bytes) : server -> server -> Prop :=
| runs_none s : cruns lossy s s
| runs_more s s1 s2 : cruns lossy s s1 -> cstep lossy s1 s2 -> cruns lossy s s2.

Lemma cinv_new lossy : cinv lossy server_new.
Proof.
  split; [|split; [|split; [|split]]].
  - split; [constructor|]. cbn. split; [intros k; split; [intros []|intros (A & _); lia]|]. split; [intros; discriminate|]. split; [intros; discriminate|reflexivity].
  - intros k. exists []. cbn. split; [reflexivity|]. split; [intros []|reflexivity].
  - intros k _ [].
  - intros k. cbn. intros _. reflexivity.
  - intros k c. cbn. constructor.
Qed.
Lemma cinv_reach lossy s : creach lossy s -> cinv lossy s.
Proof. induction 1 as [|s s' R IH St]; [apply cinv_new|]. exact (cinv_step lossy s s' IH St). Qed.
Lemma genuine_hist lossy s c : cinv lossy s -> genuine s (c_hist (s_conn s c)).
Proof.
  intros (_ & _ & _ & _ & P) k. specialize (P k c). unfold pair_inv in P.
  destruct (c_reader (s_conn s k)); try exact P; destruct P as (l & E & P); try (rewrite E; apply sub_more; exact P); tauto.
Qed.
Lemma sub_app_l {A} (a1 a2 b : list A) : subseq (a1 ++ a2) b -> subseq a1 b.
Proof.
  remember (a1 ++ a2) as a eqn:E. intros H. revert a1 E. induction H as [|x a b H IH|x a b H IH]; intros a1 E.
  - symmetry in E. apply app_eq_nil in E. destruct E as [-> _]. constructor.
  - apply sub_skip. apply IH. exact E.
  - destruct a1 as [|y a1]; [|injection E as -> ->; apply sub_take; apply IH; reflexivity]. clear. induction (x :: b) as [|z l IHl]; constructor. exact IHl.
Qed.
Lemma genuine_app s h1 h2 : genuine s (h1 ++ h2) -> genuine s h1.
Proof. intros G k. specialize (G k). rewrite from_app in G. exact (sub_app_l _ _ _ G). Qed.
Lemma map_split {A B} (f : A -> B) l a b : map f l = a ++ b -> exists l1 l2, l = l1 ++ l2 /\ map f l1 = a /\ map f l2 = b.
Proof.
  revert l. induction a as [|x a IH]; intros l E; [exists [], l; auto|]. destruct l as [|y l]; [discriminate|]. cbn in E. injection E as E1 E2.
  destruct (IH l E2) as (l1 & l2 & -> & M1 & M2). exists (y :: l1), l2. cbn. rewrite E1, M1. auto.
Qed.
Lemma wbytes_map lossy h : wbytes (map (msg lossy) h) = lines lossy h.
Proof. unfold wbytes, lines. induction h as [|[k d|] h IH]; [reflexivity| |]; cbn [map flat_map msg text]; rewrite IH; reflexivity. Qed.
Lemma no_close_map lossy h : no_close (map (msg lossy) h) -> ~ In EClose h.
Proof. intros N H. apply N. apply in_map_iff. exists EClose. auto. Qed.

(** Whatever a client has been sent is the start of the lines of genuine entries. *)
Theorem C97_in_order : forall lossy s, creach lossy s -> forall c, exists h rest, c_out (s_conn s c) ++ rest = lines lossy h /\ genuine s h.
Proof.
  intros lossy s R c. apply cinv_reach in R. pose proof (genuine_hist lossy s c R) as G. destruct R as (_ & Q & _). destruct (Q c) as (taken & E & H).
  exists (c_hist (s_conn s c)).
  assert (X : exists rest, c_out (s_conn s c) ++ rest = wbytes (taken ++ c_queue (s_conn s c))).
  { rewrite wbytes_app. destruct (c_writer (s_conn s c)) as [|d pos| |].
    - destruct H as [_ ->]. eauto.
    - destruct H as (t & -> & _ & -> & _). exists (skipn pos d ++ wbytes (c_queue (s_conn s c))). rewrite wbytes_app. cbn. rewrite app_nil_r, <- !app_assoc. f_equal. rewrite app_assoc, firstn_skipn. reflexivity.
    - destruct H as (t & -> & _ & ->). exists (wbytes (c_queue (s_conn s c))). rewrite wbytes_app. cbn. rewrite app_nil_r. reflexivity.
    - destruct H as (t & d & pos & -> & _ & ->). exists (skipn pos d ++ wbytes (c_queue (s_conn s c))). rewrite wbytes_app. cbn. rewrite app_nil_r, <- !app_assoc. f_equal. rewrite app_assoc, firstn_skipn. reflexivity. }
  destruct X as (rest & X). exists rest. split; [|exact G]. rewrite X, <- E. apply wbytes_map.
Qed.
Print Assumptions C97_in_order.
(** When a client's channel is empty and its pieces have been relayed, it has been sent its own lines, all of them. *)
Theorem C97_echo : forall lossy s, creach lossy s -> forall c, c_reader (s_conn s c) = RIdle -> c_writer (s_conn s c) = WIdle -> c_queue (s_conn s c) = [] ->
  exists h, c_out (s_conn s c) = lines lossy h /\ genuine s h /\ from c h = c_log (s_conn s c).
Proof.
  intros lossy s R c Rd W Q. apply cinv_reach in R. pose proof (genuine_hist lossy s c R) as G. destruct R as (_ & Qi & _ & O & _). destruct (Qi c) as (taken & E & H).
  rewrite W in H. destruct H as [_ H]. rewrite Q, app_nil_r in E. exists (c_hist (s_conn s c)). split; [rewrite H, <- E; apply wbytes_map|]. split; [exact G|].
  specialize (O c). unfold own_inv in O. rewrite Rd in O. apply O. unfold open. rewrite W. split; discriminate.
Qed.
Print Assumptions C97_echo.
(** A connection is closed only after all its own lines have been sent, in full. *)
Theorem C97_goodbye : forall lossy s, creach lossy s -> forall c, c_writer (s_conn s c) = WClosed ->
  c_reader (s_conn s c) = REnded /\ exists h, c_out (s_conn s c) = lines lossy h /\ genuine s h /\ from c h = c_log (s_conn s c).
Proof.
  intros lossy s R c W. apply cinv_reach in R. pose proof (genuine_hist lossy s c R) as G. destruct R as (_ & Qi & NC & O & _). destruct (Qi c) as (taken & E & H).
  rewrite W in H. destruct H as (t & -> & Nt & Out). rewrite <- app_assoc in E. apply map_split in E. destruct E as (h1 & h2 & E & M1 & M2).
  destruct h2 as [|e h2]; [discriminate|]. cbn [map app] in M2. injection M2 as Me M2. destruct e as [k d|]; [discriminate|].
  assert (Rd : c_reader (s_conn s c) = REnded).
  { destruct (c_reader (s_conn s c)) eqn:X; try reflexivity; exfalso; apply (NC c); rewrite ?X; try discriminate; rewrite E; apply in_or_app; right; left; reflexivity. }
  split; [exact Rd|]. exists h1. split; [rewrite Out, <- M1; apply wbytes_map|]. split; [rewrite E in G; exact (genuine_app _ _ _ G)|].
  specialize (O c). unfold own_inv in O. rewrite Rd, W in O. destruct O as [O|(g1 & g2 & X1 & X2 & X3 & _)]; [discriminate|].
  assert (N1 : ~ In EClose h1) by (apply (no_close_map lossy); rewrite M1; exact Nt).
  assert (h1 = g1) as ->; [|exact X3]. rewrite E in X1. clear - X1 X2 N1. revert g1 X1 X2. induction h1 as [|x h1 IH]; intros [|y g1] X1 X2.
  - reflexivity.
  - injection X1 as <- _. exfalso. apply X2. left. reflexivity.
  - injection X1 as -> _. exfalso. apply N1. left. reflexivity.
  - injection X1 as <- X1. f_equal. apply IH; [|exact X1|]; intros X; [apply N1|apply X2]; right; exact X.
Qed.
Print Assumptions C97_goodbye.
(** The list holds each connection once, from [add_connection] until both its tasks are done. *)
Lemma removed_done lossy s : creach lossy s -> forall k, c_removed (s_conn s k) = true -> ~ open (s_conn s k).
Proof.
  assert (U : forall f k (c' : conn) (P : conn -> Prop), P c' -> (forall i, P (f i)) -> forall i, P (upd f k c' i)).
  { intros f k c' P H H0 i. destruct (upd_cases f k c' i) as [[-> X]|[N X]]; rewrite X; auto. }
  assert (Eq : forall c m e, (c_removed c = true -> ~ open c) -> c_removed (enqueue c m e) = true -> ~ open (enqueue c m e)).
  { intros c m e H. destruct (enqueue_same c m e) as (_ & _ & A & B). unfold open. rewrite A, B. exact H. }
  induction 1 as [|s s' R IH St]; [cbn; discriminate|].
  destruct St as [s|s k K Rd|s k d K Rd D Ld|s k K Rd|s k d K Rd|s k d K Rd|s k j todo d K Rd|s k d K Rd|s k d K Rd|s k d q K Rn W Q|s k q K Rn W Q|s k d pos n K W P1 P2|s k d pos K W P1|s k d pos K W P1|s k K Rd W M];
    cbn [s_conn set_conn]; try exact IH; try (apply (U _ _ _ (fun c => c_removed c = true -> ~ open c)); [|exact IH]); try exact (IH k).
  - apply (Eq (s_conn s k)). apply IH.
  - apply (U _ _ _ (fun c => c_removed c = true -> ~ open c)); [|apply (U _ _ _ (fun c => c_removed c = true -> ~ open c)); [exact (IH k)|exact IH]].
    apply Eq. apply (U _ _ _ (fun c => c_removed c = true -> ~ open c)); [exact (IH k)|exact IH].
  - intros X. exfalso. apply (IH k X). unfold open. rewrite W. split; discriminate.
  - intros _ [X _]. apply X. reflexivity.
  - intros X. exfalso. apply (IH k X). unfold open. rewrite W. split; discriminate.
  - intros X. exfalso. apply (IH k X). unfold open. rewrite W. split; discriminate.
  - intros _ [_ X]. apply X. reflexivity.
  - intros _ [X Y]. cbn in X, Y. destruct W; contradiction.
Qed.
Theorem C97_list : forall lossy s, creach lossy s -> NoDup (s_list s) /\
  (forall k, In k (s_list s) <-> (k < s_count s)%nat /\ c_reader (s_conn s k) <> RNew /\ c_removed (s_conn s k) = false) /\
  (forall k, c_removed (s_conn s k) = true -> c_reader (s_conn s k) = REnded /\ (c_writer (s_conn s k) = WClosed \/ c_writer (s_conn s k) = WFailed)).
Proof.
  intros lossy s R. pose proof (removed_done lossy s R) as D. apply cinv_reach in R. destruct R as ((L1 & L2 & L3 & L4 & L5) & _). split; [exact L1|]. split; [exact L2|].
  intros k M. split; [apply L4; exact M|]. specialize (D k M). unfold open in D. destruct (c_writer (s_conn s k)); auto; exfalso; apply D; split; discriminate.
Qed.
Print Assumptions C97_list.

(** A piece that a client sends is put into the channel of everyone who is then connected. *)
Definition ends (h : list bytes) (d : bytes) : Prop := exists l, h = l ++ [d].
Definition relayed (s0 s : server) (k : nat) (d : bytes) (j : nat) : Prop :=
  (exists m, c_log (s_conn s k) = c_log (s_conn s0 k) ++ m) /\
  (open (s_conn s j) -> In j (s_list s)) /\
  (c_log (s_conn s k) = c_log (s_conn s0 k) -> open (s_conn s j) ->
   match c_reader (s_conn s k) with
   | RGot x | RCounted x => x = d
   | RSending todo x => x = d /\ (In j todo \/ ends (from k (c_hist (s_conn s j))) d)
   | RSent _ | RIdle | REnded => ends (from k (c_hist (s_conn s j))) d
   | RNew => False
   end).
Lemma relayed_frame s0 s s' k d j : c_reader (s_conn s' k) = c_reader (s_conn s k) -> c_log (s_conn s' k) = c_log (s_conn s k) ->
  from k (c_hist (s_conn s' j)) = from k (c_hist (s_conn s j)) -> (open (s_conn s' j) -> open (s_conn s j)) -> (open (s_conn s' j) -> In j (s_list s) -> In j (s_list s')) ->
  relayed s0 s k d j -> relayed s0 s' k d j.
Proof. unfold relayed. intros -> -> -> O L (A & B & C). split; [exact A|]. split; [auto|]. intros E Op. apply C; auto. Qed.
Lemma relayed_reader s0 s s' k d j c' : s_conn s' = upd (s_conn s) k c' -> c_hist c' = c_hist (s_conn s k) -> c_writer c' = c_writer (s_conn s k) -> c_log c' = c_log (s_conn s k) ->
  (open (s_conn s j) -> In j (s_list s) -> In j (s_list s')) ->
  (c_log (s_conn s k) = c_log (s_conn s0 k) -> open (s_conn s j) -> In j (s_list s) ->
   match c_reader (s_conn s k) with
   | RGot x | RCounted x => x = d
   | RSending todo x => x = d /\ (In j todo \/ ends (from k (c_hist (s_conn s j))) d)
   | RSent _ | RIdle | REnded => ends (from k (c_hist (s_conn s j))) d
   | RNew => False
   end ->
   match c_reader c' with
   | RGot x | RCounted x => x = d
   | RSending todo x => x = d /\ (In j todo \/ ends (from k (c_hist (s_conn s j))) d)
   | RSent _ | RIdle | REnded => ends (from k (c_hist (s_conn s j))) d
   | RNew => False
   end) -> relayed s0 s k d j -> relayed s0 s' k d j.
Proof.
  intros E H W L Ls St (A & B & C).
  assert (Hist : c_hist (s_conn s' j) = c_hist (s_conn s j) /\ c_writer (s_conn s' j) = c_writer (s_conn s j)).
  { rewrite E. destruct (upd_cases (s_conn s) k c' j) as [[-> X]|[N X]]; rewrite X; auto. }
  destruct Hist as [Hist Wr]. unfold relayed, open. rewrite Hist, Wr, E, upd_same, L. split; [exact A|]. split; [intros O; apply Ls; [exact O|exact (B O)]|].
  intros X O. apply St; [exact X|exact O|exact (B O)|exact (C X O)].
Qed.
Lemma relayed_step lossy s0 s s' k d j : cstep lossy s s' -> relayed s0 s k d j -> relayed s0 s' k d j.
Proof.
  intros St R.
  assert (Wr : forall i c', c_reader c' = c_reader (s_conn s i) -> c_log c' = c_log (s_conn s i) -> c_hist c' = c_hist (s_conn s i) -> (open c' -> open (s_conn s i)) ->
    relayed s0 (set_conn s i c') k d j).
  { intros i c' A B C D. apply relayed_frame with (s := s); cbn [set_conn s_conn s_list]; try exact R; try (intros _ X; exact X).
    - destruct (upd_cases (s_conn s) i c' k) as [[-> X]|[N X]]; rewrite X; auto.
    - destruct (upd_cases (s_conn s) i c' k) as [[-> X]|[N X]]; rewrite X; auto.
    - destruct (upd_cases (s_conn s) i c' j) as [[-> X]|[N X]]; rewrite X; [rewrite C|]; reflexivity.
    - destruct (upd_cases (s_conn s) i c' j) as [[-> X]|[N X]]; rewrite X; auto. }
  assert (Rd : forall s' i c', i <> k -> s_conn s' = upd (s_conn s) i c' -> from k (c_hist c') = from k (c_hist (s_conn s i)) -> c_writer c' = c_writer (s_conn s i) -> c_log c' = c_log (s_conn s i) \/ i <> k ->
    (open (s_conn s j) -> In j (s_list s) -> In j (s_list s')) -> relayed s0 s' k d j).
  { intros s1 i c' Ni E A B _ D. assert (X : s_conn s1 k = s_conn s k) by (rewrite E; apply upd_other; congruence).
    assert (O : from k (c_hist (s_conn s1 j)) = from k (c_hist (s_conn s j)) /\ c_writer (s_conn s1 j) = c_writer (s_conn s j)).
    { rewrite E. destruct (upd_cases (s_conn s) i c' j) as [[-> Y]|[N Y]]; rewrite Y; auto. }
    destruct O as [O1 O2]. apply relayed_frame with (s := s); rewrite ?X; auto; unfold open; rewrite O2; auto. }
  destruct St as [s|s i K Ri|s i x K Ri D Ld|s i K Ri|s i x K Ri|s i x K Ri|s i c todo x K Ri|s i x K Ri|s i x K Ri|s i x q K Rn W Q|s i q K Rn W Q|s i x pos n K W P1 P2|s i x pos K W P1|s i x pos K W P1|s i K Ri W M].
  - exact R.
  - destruct (Nat.eq_dec i k) as [->|N]; [|eapply Rd; [exact N|reflexivity|reflexivity|reflexivity|auto|intros _ X; apply in_or_app; auto]].
    eapply relayed_reader; [reflexivity|reflexivity|reflexivity|reflexivity|intros _ X; apply in_or_app; auto| |exact R]. rewrite Ri. intros _ _ _ [].
  - destruct (Nat.eq_dec i k) as [->|N]; [|eapply Rd; [exact N|reflexivity|reflexivity|reflexivity|auto|auto]].
    destruct R as ((m & E) & B & _). unfold relayed. cbn [set_conn s_conn s_list]. rewrite upd_same. cbn [set_reader add_log c_log c_reader]. split; [exists (m ++ [x]); rewrite E, app_assoc; reflexivity|].
    split; [destruct (upd_cases (s_conn s) k (set_reader (add_log (s_conn s k) x) (RGot x)) j) as [[-> X]|[N X]]; rewrite X; exact B|].
    intros X. exfalso. rewrite E, <- app_assoc in X. apply (f_equal (@length _)) in X. rewrite !app_length in X. cbn in X. lia.
  - destruct (enqueue_same (s_conn s i) MClose EClose) as (S1 & S2 & S3 & S4).
    assert (Fr : from k (c_hist (enqueue (s_conn s i) MClose EClose)) = from k (c_hist (s_conn s i))).
    { destruct (enqueue_hist (s_conn s i) MClose EClose) as [[_ X]|[_ X]]; rewrite X; [|reflexivity]. rewrite from_app. apply app_nil_r. }
    destruct (Nat.eq_dec i k) as [->|N]; [|eapply Rd; [exact N|reflexivity|exact Fr|exact S4|auto|auto]].
    destruct R as (A & B & C). unfold relayed. cbn [set_conn s_conn s_list]. rewrite upd_same. cbn [set_reader c_log c_reader]. rewrite S2. rewrite Ri in C. split; [exact A|].
    destruct (upd_cases (s_conn s) k (set_reader (enqueue (s_conn s k) MClose EClose) REnded) j) as [[-> X]|[N X]]; rewrite X; [|auto].
    unfold open. cbn [set_reader c_hist c_writer]. rewrite S4, Fr. auto.
  - destruct (Nat.eq_dec i k) as [->|N]; [|eapply Rd; [exact N|reflexivity|reflexivity|reflexivity|auto|auto]].
    eapply relayed_reader; [reflexivity|reflexivity|reflexivity|reflexivity|auto| |exact R]. rewrite Ri. cbn. auto.
  - destruct (Nat.eq_dec i k) as [->|N]; [|eapply Rd; [exact N|reflexivity|reflexivity|reflexivity|auto|auto]].
    eapply relayed_reader; [reflexivity|reflexivity|reflexivity|reflexivity|auto| |exact R]. rewrite Ri. cbn. auto.
  - cbn zeta. set (f1 := upd (s_conn s) i (set_reader (s_conn s i) (RSending todo x))). unfold set_conn. cbn [s_list s_received s_sent s_conn s_count]. fold f1.
    set (e := enqueue (f1 c) (MWrite (response lossy i x)) (EFrom i x)).
    destruct (enqueue_same (f1 c) (MWrite (response lossy i x)) (EFrom i x)) as (S1 & S2 & S3 & S4). fold e in S1, S2, S3, S4.
    assert (F1 : forall y, c_log (f1 y) = c_log (s_conn s y) /\ c_hist (f1 y) = c_hist (s_conn s y) /\ c_writer (f1 y) = c_writer (s_conn s y)).
    { intros y. unfold f1. destruct (upd_cases (s_conn s) i (set_reader (s_conn s i) (RSending todo x)) y) as [[-> X]|[N X]]; rewrite X; cbn; auto. }
    assert (W2 : c_log (upd f1 c e k) = c_log (s_conn s k) /\ c_writer (upd f1 c e j) = c_writer (s_conn s j) /\ c_reader (upd f1 c e k) = c_reader (f1 k)).
    { split; [|split].
      - destruct (upd_cases f1 c e k) as [[-> X]|[N X]]; rewrite X; [rewrite S2|]; apply F1.
      - destruct (upd_cases f1 c e j) as [[-> X]|[N X]]; rewrite X; [rewrite S4|]; apply F1.
      - destruct (upd_cases f1 c e k) as [[-> X]|[N X]]; rewrite X; [rewrite S1|]; reflexivity. }
    destruct W2 as (W1 & W2 & W3).
    destruct (Nat.eq_dec i k) as [->|N].
    + destruct R as (A & B & C). unfold relayed, open. cbn [s_conn s_list]. rewrite W1, W2, W3. split; [exact A|]. split; [exact B|]. intros E O. specialize (C E O). rewrite Ri in C. destruct C as [-> C].
      unfold f1 at 1. rewrite upd_same. cbn [set_reader c_reader]. split; [reflexivity|].
      destruct (upd_cases f1 c e j) as [[-> X]|[Nj X]]; rewrite X.
      * right. destruct (enqueue_hist (f1 c) (MWrite (response lossy k d)) (EFrom k d)) as [[_ Y]|[Y _]]; fold e in Y.
        -- exists (from k (c_hist (f1 c))). rewrite Y, from_app. cbn. rewrite Nat.eqb_refl. reflexivity.
        -- exfalso. apply Y. unfold open. destruct (F1 c) as (_ & _ & ->). exact O.
      * destruct (F1 j) as (_ & -> & _). destruct C as [[C|C]|C]; [congruence|left; exact C|right; exact C].
    + assert (X : c_reader (f1 k) = c_reader (s_conn s k)) by (unfold f1; rewrite upd_other by congruence; reflexivity).
      apply relayed_frame with (s := s); cbn [s_conn s_list]; rewrite ?W1, ?W3; auto; [|unfold open; rewrite W2; auto].
      destruct (upd_cases f1 c e j) as [[-> Y]|[Nj Y]]; rewrite Y.
      * destruct (F1 c) as (_ & Z & _). destruct (enqueue_hist (f1 c) (MWrite (response lossy i x)) (EFrom i x)) as [[_ V]|[_ V]]; fold e in V; rewrite V, ?from_app, Z; [|reflexivity]. cbn.
        apply Nat.eqb_neq in N. rewrite N. apply app_nil_r.
      * destruct (F1 j) as (_ & -> & _). reflexivity.
  - destruct (Nat.eq_dec i k) as [->|N]; [|eapply Rd; [exact N|reflexivity|reflexivity|reflexivity|auto|auto]].
    eapply relayed_reader; [reflexivity|reflexivity|reflexivity|reflexivity|auto| |exact R]. rewrite Ri. cbn. intros _ _ _ [_ [[]|X]]. exact X.
  - destruct (Nat.eq_dec i k) as [->|N]; [|eapply Rd; [exact N|reflexivity|reflexivity|reflexivity|auto|auto]].
    eapply relayed_reader; [reflexivity|reflexivity|reflexivity|reflexivity|auto| |exact R]. rewrite Ri. cbn. auto.
  - apply Wr; try reflexivity. intros _. unfold open. rewrite W. split; discriminate.
  - apply Wr; try reflexivity. intros [X _]. exfalso. apply X. reflexivity.
  - apply Wr; try reflexivity. intros _. unfold open. rewrite W. split; discriminate.
  - apply Wr; try reflexivity. intros _. unfold open. rewrite W. split; discriminate.
  - apply Wr; try reflexivity. intros [_ X]. exfalso. apply X. reflexivity.
  - apply relayed_frame with (s := s); cbn [s_conn s_list]; try exact R.
    + destruct (upd_cases (s_conn s) i (set_removed (s_conn s i)) k) as [[-> X]|[N X]]; rewrite X; reflexivity.
    + destruct (upd_cases (s_conn s) i (set_removed (s_conn s i)) k) as [[-> X]|[N X]]; rewrite X; reflexivity.
    + destruct (upd_cases (s_conn s) i (set_removed (s_conn s i)) j) as [[-> X]|[N X]]; rewrite X; reflexivity.
    + destruct (upd_cases (s_conn s) i (set_removed (s_conn s i)) j) as [[-> X]|[N X]]; rewrite X; auto.
    + destruct (upd_cases (s_conn s) i (set_removed (s_conn s i)) j) as [[-> X]|[N X]]; rewrite X.
      * intros [X1 X2]. cbn in X1, X2. destruct W; contradiction.
      * intros _. clear - N. intros L. induction (s_list s) as [|y l IH]; [destruct L|]. cbn [remove_first]. destruct (y =? i)%nat eqn:E.
        -- apply Nat.eqb_eq in E. subst y. destruct L as [L|L]; [congruence|exact L].
        -- destruct L as [L|L]; [left; exact L|right; auto].
Qed.
Theorem C97_everyone : forall lossy s s' k d, c_reader (s_conn s k) = RGot d -> cruns lossy s s' ->
  c_log (s_conn s' k) = c_log (s_conn s k) -> (c_reader (s_conn s' k) = RSent d \/ c_reader (s_conn s' k) = RIdle \/ c_reader (s_conn s' k) = REnded) ->
  forall j, In j (s_list s) -> open (s_conn s' j) -> exists l, from k (c_hist (s_conn s' j)) = l ++ [d].
Proof.
  intros lossy s s' k d R Run L E j Lj O.
  assert (X : relayed s s' k d j).
  { clear L E O. induction Run as [s|s s1 s2 Run IH St].
    - split; [exists []; rewrite app_nil_r; reflexivity|]. split; [auto|]. rewrite R. auto.
    - apply (relayed_step lossy s s1 s2 k d j St). auto. }
  destruct X as (_ & _ & X). specialize (X L O). destruct E as [E|[E|E]]; rewrite E in X; exact X.
Qed.
Print Assumptions C97_everyone.
(** When the channel is empty and the writer waits, all that was put into the channel has been sent. *)
Theorem C97_delivered : forall lossy s, creach lossy s -> forall c, c_writer (s_conn s c) = WIdle -> c_queue (s_conn s c) = [] ->
  c_out (s_conn s c) = lines lossy (c_hist (s_conn s c)).
Proof.
  intros lossy s R c W Q. apply cinv_reach in R. destruct R as (_ & Qi & _). destruct (Qi c) as (taken & E & H). rewrite W in H. rewrite Q, app_nil_r in E.
  destruct H as [_ ->]. rewrite <- E. apply wbytes_map.
Qed.
Print Assumptions C97_delivered.
(** What waits in a channel has no bound: a client that does not read makes it grow for ever. *)
Lemma grow lossy s : creach lossy s -> s_count s = 1%nat -> s_list s = [0%nat] -> c_reader (s_conn s 0%nat) = RIdle -> c_writer (s_conn s 0%nat) = WIdle ->
  exists s', creach lossy s' /\ s_count s' = 1%nat /\ s_list s' = [0%nat] /\ c_reader (s_conn s' 0%nat) = RIdle /\ c_writer (s_conn s' 0%nat) = WIdle /\
    length (c_queue (s_conn s' 0%nat)) = S (length (c_queue (s_conn s 0%nat))).
Proof.
  intros R K1 L Rd W. assert (K : (0 < s_count s)%nat) by lia.
  apply c_next with (s' := set_conn s 0 (set_reader (add_log (s_conn s 0%nat) [97]) (RGot [97]))) in R; [|apply c_read; [exact K|exact Rd|discriminate|cbn; lia]].
  eapply c_next in R; [|eapply (c_count_in _ _ 0%nat); [exact K|reflexivity]].
  eapply c_next in R; [|eapply (c_snapshot _ _ 0%nat); [exact K|reflexivity]]. cbn [set_conn s_list] in R. rewrite L in R.
  eapply c_next in R; [|eapply (c_send _ _ 0%nat); [exact K|reflexivity]].
  eapply c_next in R; [|eapply (c_all_sent _ _ 0%nat); [exact K|]; cbn; unfold enqueue; cbn; rewrite W; reflexivity].
  eapply c_next in R; [|eapply (c_count_out _ _ 0%nat); [exact K|reflexivity]].
  eexists. split; [exact R|]. cbn. unfold enqueue. cbn. rewrite W. cbn. rewrite app_length. cbn. split; [exact K1|]. split; [reflexivity|]. split; [reflexivity|]. split; [first [exact W|reflexivity]|]. lia.
Qed.
Theorem C97_queue_refuted : forall lossy n, exists s, creach lossy s /\ s_count s = 1%nat /\ (n <= length (c_queue (s_conn s 0%nat)))%nat.
Proof.
  intros lossy n.
  assert (X : forall n, exists s, creach lossy s /\ s_count s = 1%nat /\ s_list s = [0%nat] /\ c_reader (s_conn s 0%nat) = RIdle /\ c_writer (s_conn s 0%nat) = WIdle /\ length (c_queue (s_conn s 0%nat)) = n).
  2: { destruct (X n) as (s & R & C & _ & _ & _ & E). exists s. split; [exact R|]. split; [exact C|]. rewrite E. apply le_n. }
  clear n. induction n as [|n IH].
  - pose proof (c_start lossy) as R. eapply c_next in R; [|apply c_accept]. eapply c_next in R; [|apply (c_add _ _ 0%nat); [cbn; lia|reflexivity]].
    eexists. split; [exact R|]. cbn. auto 6.
  - destruct IH as (s & R & C & L & Rd & W & E). destruct (grow lossy s R C L Rd W) as (s' & R' & C' & L' & Rd' & W' & E'). exists s'. rewrite E', E. auto 7.
Qed.
Print Assumptions C97_queue_refuted.
(** Two clients; the first sends [a], the second hears it and leaves. *)
Tactic Notation "step" hyp(R) uconstr(st) := eapply c_next in R; [|refine st; first [reflexivity|discriminate|cbn; lia]]; vm_compute in R.
Example C97_example : exists s, creach (fun x => x) s /\ c_out (s_conn s 1%nat) = ascii_bytes "Received from 0: " ++ [34; 97; 34; 10] /\ c_writer (s_conn s 1%nat) = WClosed.
Proof.
  pose proof (c_start (fun x => x)) as R.
  step R (c_accept _ _). step R (c_accept _ _). step R (c_add _ _ 0%nat _ _). step R (c_add _ _ 1%nat _ _).
  step R (c_read _ _ 0%nat [97] _ _ _ _). step R (c_count_in _ _ 0%nat [97] _ _). step R (c_snapshot _ _ 0%nat [97] _ _).
  step R (c_send _ _ 0%nat 0%nat [1%nat] [97] _ _). step R (c_send _ _ 0%nat 1%nat [] [97] _ _). step R (c_end _ _ 1%nat _ _).
  step R (c_take _ _ 1%nat (response (fun x => x) 0 [97]) [MClose] _ _ _ _). step R (c_write _ _ 1%nat (response (fun x => x) 0 [97]) 0%nat 20%nat _ _ _ _).
  step R (c_write _ _ 1%nat (response (fun x => x) 0 [97]) 20%nat 1%nat _ _ _ _).
  step R (c_written _ _ 1%nat (response (fun x => x) 0 [97]) 21%nat _ _ _). step R (c_take_close _ _ 1%nat [] _ _ _ _).
  eexists. split; [exact R|]. split; reflexivity.
Qed.

(** *** C98: lines *)
Lemma dec_value_snoc s c : dec_value (s ++ [c]) = 10 * dec_value s + (c - 48).
Proof. unfold dec_value. rewrite fold_left_app. reflexivity. Qed.
Lemma decimal_loop_ok fuel n : n < 2 ^ N.of_nat fuel -> denotes (decimal_loop (Datatypes.S fuel) n) n /\ (0 < n -> forall t, decimal_loop (Datatypes.S fuel) n <> 48 :: t).
Proof.
  revert n. induction fuel as [|fuel IH]; intros n H.
  - change (2 ^ N.of_nat 0) with 1 in H. assert (n = 0) as -> by lia. cbn. split; [|lia]. split; [discriminate|]. split; [repeat constructor; lia|]. split; [reflexivity|]. intros t X. injection X as <-. reflexivity.
  - remember (Datatypes.S fuel) as f eqn:Ef. cbn [decimal_loop]. destruct (n <? 10) eqn:E.
    + apply N.ltb_lt in E. split; [|intros P t X; apply (f_equal (hd 0)) in X; change (48 + n = 48) in X; lia]. split; [discriminate|]. split; [repeat constructor; lia|]. split; [unfold dec_value; cbn [fold_left]; lia|]. intros t X. apply (f_equal (@tl N)) in X. symmetry. exact X.
    + apply N.ltb_ge in E. rewrite Ef in H. rewrite Nat2N.inj_succ, N.pow_succ_r' in H. assert (Q : n / 10 < 2 ^ N.of_nat fuel).
      { apply N.div_lt_upper_bound; [lia|]. set (p := 2 ^ N.of_nat fuel) in *. clearbody p. lia. }
      clear H. specialize (IH _ Q). clear Q. destruct IH as ((A & B & C & _) & Z). set (ds := decimal_loop f (n / 10)) in *.  clearbody ds.
      assert (P : 0 < n / 10) by lia. specialize (Z P).
      assert (Lead : forall t, ds ++ [48 + n mod 10] <> 48 :: t).
      { intros t X. destruct ds as [|x ds]; [exact (A eq_refl)|]. injection X as -> _. exact (Z ds eq_refl). }
      split; [|intros _; exact Lead]. split; [intros X; apply app_eq_nil in X; destruct X; discriminate|]. split; [apply Forall_app; split; [exact B|repeat constructor; lia]|].
      split; [rewrite dec_value_snoc, C; lia|]. intros t X. exfalso. exact (Lead t X).
Qed.
Lemma decimal_ok n : denotes (decimal n) n.
Proof.
  unfold decimal. destruct (N.eq_dec n 0) as [->|Z]; [cbn; split; [discriminate|]; split; [repeat constructor; lia|]; split; [reflexivity|]; intros t X; injection X as <-; reflexivity|].
  pose proof (N.log2_spec n ltac:(lia)) as [_ H].
  cbn [decimal_loop]. destruct (n <? 10) eqn:E.
  - apply N.ltb_lt in E. split; [discriminate|]. split; [repeat constructor; lia|]. split; [unfold dec_value; cbn [fold_left]; lia|]. intros t X. apply (f_equal (@tl N)) in X. symmetry. exact X.
  - apply N.ltb_ge in E. destruct (N.to_nat (N.log2 n)) as [|f] eqn:F.
    + exfalso. assert (N.log2 n = 0) as L by lia. rewrite L in H. change (2 ^ N.succ 0) with 2 in H. lia.
    + assert (Q : n / 10 < 2 ^ N.of_nat f).
      { apply N.div_lt_upper_bound; [lia|]. assert (L : N.succ (N.log2 n) = N.succ (N.succ (N.of_nat f))) by lia. rewrite L, !N.pow_succ_r' in H. set (p := 2 ^ N.of_nat f) in *. clearbody p. lia. }
      destruct (decimal_loop_ok f (n / 10) Q) as ((A & B & C & _) & Zr). specialize (Zr ltac:(lia)). set (ds := decimal_loop (Datatypes.S f) (n / 10)) in *. clearbody ds.
      split; [intros X; apply app_eq_nil in X; destruct X; discriminate|]. split; [apply Forall_app; split; [exact B|repeat constructor; lia]|].
      split; [rewrite dec_value_snoc, C; lia|]. intros t X. exfalso. destruct ds as [|x ds]; [exact (A eq_refl)|]. injection X as -> _. exact (Zr ds eq_refl).
Qed.
(** Every line says who sent it, and is one line whatever was sent. *)
Theorem C98_line : forall lossy k d, exists ds body, response lossy k d = ascii_bytes "Received from " ++ ds ++ ascii_bytes ": " ++ [34] ++ body ++ [34; 10] /\
  denotes ds (N.of_nat k) /\ ~ In 10 body /\ ~ In 13 body.
Proof.
  intros lossy k d. exists (decimal (N.of_nat k)), (flat_map escape_char (lossy d)). split; [unfold response, escape_string; rewrite <- !app_assoc; reflexivity|].
  split; [apply decimal_ok|].
  assert (X : forall c, In c (flat_map escape_char (lossy d)) -> c <> 10 /\ c <> 13).
  { intros c H. apply in_flat_map in H. destruct H as (x & _ & H). unfold escape_char in H.
    destruct (x =? 34) eqn:E1; [|destruct (x =? 13) eqn:E2; [|destruct (x =? 10) eqn:E3]]; cbn in H; intuition (subst; lia). }
  split; intros H; apply X in H; tauto.
Qed.
Print Assumptions C98_line.
Lemma response_shape lossy k d : exists r, response lossy k d = r ++ [10] /\ ~ In 10 r.
Proof.
  destruct (C98_line lossy k d) as (ds & body & E & (_ & D & _) & B & _).
  exists (ascii_bytes "Received from " ++ ds ++ ascii_bytes ": " ++ [34] ++ body ++ [34]). split; [rewrite E, <- !app_assoc; reflexivity|].
  rewrite !in_app_iff. intros [H|[H|[H|[H|[H|H]]]]]; try contradiction; try (cbn in H; intuition discriminate).
  rewrite Forall_forall in D. apply D in H. lia.
Qed.
Lemma first_newline (r1 r2 t1 t2 : bytes) : ~ In 10 r1 -> ~ In 10 r2 -> r1 ++ 10 :: t1 = r2 ++ 10 :: t2 -> r1 = r2 /\ t1 = t2.
Proof.
  revert r2. induction r1 as [|x r1 IH]; intros [|y r2] N1 N2 E; cbn in E; inversion E; subst.
  - auto.
  - exfalso. apply N2. left. reflexivity.
  - exfalso. apply N1. left. reflexivity.
  - destruct (IH r2) as [-> ->]; auto; intros X; [apply N1|apply N2]; right; exact X.
Qed.
(** The number of the sender cannot be mistaken. *)
Theorem C98_sender : forall lossy k d k' d', response lossy k d = response lossy k' d' -> k = k'.
Proof.
  intros lossy k d k' d' E. unfold response in E. apply app_inv_head in E.
  assert (X : forall a b t u, Forall (fun c => 48 <= c <= 57) a -> Forall (fun c => 48 <= c <= 57) b -> a ++ 58 :: t = b ++ 58 :: u -> a = b).
  { clear. induction a as [|x a IH]; intros [|y b] t u A B E; cbn in E; inversion E; subst; [reflexivity| | |].
    - inversion B; subst. lia.
    - inversion A; subst. lia.
    - inversion A; inversion B; subst. f_equal. eapply IH; eauto. }
  pose proof (decimal_ok (N.of_nat k)) as (_ & D1 & V1 & _). pose proof (decimal_ok (N.of_nat k')) as (_ & D2 & V2 & _).
  assert (Y : decimal (N.of_nat k) = decimal (N.of_nat k')) by (eapply X; [exact D1|exact D2|exact E]). rewrite Y in V1. lia.
Qed.
Print Assumptions C98_sender.
(** Any whole line that any client is ever sent is the line of something that the client it names sent. *)
Lemma lines_split lossy h : forall a line b, (a = [] \/ exists a', a = a' ++ [10]) -> ~ In 10 line -> lines lossy h = a ++ line ++ 10 :: b ->
  exists k d, In (EFrom k d) h /\ line ++ [10] = response lossy k d.
Proof.
  induction h as [|e h IH]; intros a line b A N E; [unfold lines in E; cbn in E; destruct a, line; discriminate|].
  unfold lines in E. cbn [flat_map] in E. fold (lines lossy h) in E. destruct e as [k d|]; cbn [text] in E.
  2: { cbn [app] in E. destruct (IH a line b A N E) as (k & d & H & X). exists k, d. split; [right; exact H|exact X]. }
  destruct (response_shape lossy k d) as (r & Er & Nr). rewrite Er, <- app_assoc in E. cbn [app] in E.
  destruct (in_dec N.eq_dec 10 a) as [Ia|Na].
  - (* the first line is within [a] *)
    assert (Sp : exists p q, a = p ++ 10 :: q /\ ~ In 10 p).
    { clear - Ia. induction a as [|x a IHa]; [destruct Ia|]. destruct (N.eq_dec x 10) as [->|Nx]; [exists [], a; split; [reflexivity|intros []]|].
      destruct Ia as [->|Ia]; [contradiction|]. destruct (IHa Ia) as (p & q & -> & Np). exists (x :: p), q. split; [reflexivity|]. intros [X|X]; [congruence|contradiction]. }
    destruct Sp as (p & q & -> & Np). rewrite <- app_assoc in E. cbn [app] in E. apply first_newline in E; [|exact Nr|exact Np]. destruct E as [_ E].
    assert (Aq : q = [] \/ exists q', q = q' ++ [10]).
    { destruct q as [|x q] using rev_ind; [left; reflexivity|]. right. destruct A as [A|(a' & A)]; [destruct p; discriminate|].
      change (p ++ 10 :: q ++ [x]) with (p ++ (10 :: q) ++ [x]) in A. rewrite app_assoc in A. apply app_inj_tail in A. destruct A as [_ ->]. exists q. reflexivity. }
    destruct (IH q line b Aq N E) as (k' & d' & H & X). exists k', d'. split; [right; exact H|exact X].
  - destruct A as [->|(a' & ->)]; [|exfalso; apply Na; apply in_or_app; right; left; reflexivity].
    cbn [app] in E. apply first_newline in E; [|exact Nr|exact N]. destruct E as [<- _]. exists k, d. split; [left; reflexivity|]. rewrite Er. reflexivity.
Qed.
Theorem C98_no_forgery : forall lossy s, creach lossy s -> forall c a line b, (a = [] \/ exists a', a = a' ++ [10]) -> ~ In 10 line ->
  c_out (s_conn s c) = a ++ line ++ 10 :: b -> exists k d, In d (c_log (s_conn s k)) /\ line ++ [10] = response lossy k d.
Proof.
  intros lossy s R c a line b A N E. destruct (C97_in_order lossy s R c) as (h & rest & X & G). rewrite E, <- !app_assoc in X. cbn [app] in X. symmetry in X.
  destruct (lines_split lossy h a line (b ++ rest) A N X) as (k & d & H & Y). exists k, d. split; [|exact Y]. apply (sub_in _ _ d (G k)). apply from_in. exact H.
Qed.
Print Assumptions C98_no_forgery.
(** What looks like a line of somebody else stays inside the sender's own line. *)
Example C98_example : response (fun x => x) 12 [97; 10; 34] = ascii_bytes "Received from 12: " ++ [34; 97; 92; 110; 92; 34; 34; 10].
Proof. reflexivity. Qed.
