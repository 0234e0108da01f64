(** Property C150: which retransmissions stop the QUIC crypto stream. *)
From Verif Require Import Base BaseProofs BinaryModel BinaryProofs MessageProofs MessageProofs2 QuicModel QuicSpec QuicProofs QuicProofs2 QuicProofs3.
From Coq Require Import Lia ZArith ZifyBool ZifyNat ZifyN Permutation.
Ltac Zify.zify_post_hook ::= Z.div_mod_to_equations.
Local Open Scope list_scope. Local Open Scope N_scope.

(** Each frame starts no later than the frames before it reach. *)
Fixpoint no_gap (e : N) (fs : list crypto_frame) : Prop :=
  match fs with
  | [] => True
  | f :: fs => cf_start f <= e /\ no_gap (N.max e (frame_end f)) fs
  end.
(** How far any of them reaches. *)
Definition furthest (e : N) (fs : list crypto_frame) : N := fold_left (fun m f => N.max m (frame_end f)) fs e.
(** A frame ends before one that came earlier. *)
Definition goes_back (fs : list crypto_frame) : Prop :=
  exists before f between g after, fs = before ++ f :: between ++ g :: after /\ frame_end g < frame_end f.

Lemma furthest_le fs : forall e, e <= furthest e fs.
Proof. induction fs as [|f fs IH]; intros e; cbn [furthest fold_left]; [lia|]. specialize (IH (N.max e (frame_end f))). unfold furthest in IH. lia. Qed.
Lemma furthest_max fs : forall e n, n < furthest e fs <-> n < e \/ exists f, In f fs /\ n < frame_end f.
Proof.
  induction fs as [|f fs IH]; intros e n; [cbn; split; [auto|intros [H|(f & [] & _)]; exact H]|].
  change (furthest e (f :: fs)) with (furthest (N.max e (frame_end f)) fs). rewrite IH. split.
  - intros [H|(g & I & H)]; [|right; exists g; split; [right; exact I|exact H]]. destruct (N.ltb_spec n e) as [Q|Q]; [auto|]. right. exists f. split; [left; reflexivity|lia].
  - intros [H|(g & [<-|I] & H)]; [left; lia|left; lia|right; eauto].
Qed.
(** *** One frame *)
Lemma take_settled e l f : Forall (fun g => e < cf_start g) l -> take_first e (l ++ [f]) = if cf_start f <=? e then Some (f, l) else None.
Proof.
  induction l as [|g l IH]; intros F; cbn [app take_first]; [reflexivity|]. inversion F as [|? ? F1 F2]; subst. destruct (N.leb_spec (cf_start g) e) as [Q|Q]; [lia|]. rewrite (IH F2). destruct (cf_start f <=? e); reflexivity.
Qed.
Lemma check_settles fuel : forall s s', check_pending fuel s = Ok s' -> Forall (fun g => blen (cs_data s') < cf_start g) (cs_pending s').
Proof.
  induction fuel as [|fuel IH]; intros s s' H; [discriminate H|]. cbn [check_pending] in H. destruct (take_first _ _) as [[f rest]|] eqn:T.
  - destruct (_ <? _); [discriminate H|]. exact (IH _ _ H).
  - injection H as <-. apply take_first_none, T.
Qed.
Lemma run_settles fs : forall s s', Forall (fun g => blen (cs_data s) < cf_start g) (cs_pending s) -> crypto_run s fs = Ok s' -> Forall (fun g => blen (cs_data s') < cf_start g) (cs_pending s').
Proof.
  induction fs as [|f fs IH]; intros s s' F H; cbn [crypto_run] in H; [injection H as <-; exact F|]. destruct (crypto_send s f) as [s1|e|] eqn:E; try discriminate H. cbn [bind] in H.
  apply (IH s1 s'); [apply (check_settles _ _ _ E)|exact H].
Qed.
Lemma run_app a b : forall s, crypto_run s (a ++ b) = let? s := crypto_run s a in crypto_run s b.
Proof. induction a as [|f a IH]; intros s; cbn [app crypto_run bind]; [reflexivity|]. destruct (crypto_send s f); cbn [bind]; [apply IH|reflexivity|reflexivity]. Qed.
(** Whatever frames have arrived: a frame after a gap is kept without an effect; one that ends
    before the end of the data stops the program; one that ends just there changes nothing. *)
Theorem C150_one_frame fs s f : crypto_run crypto_new fs = Ok s ->
  (blen (cs_data s) < cf_start f -> crypto_run crypto_new (fs ++ [f]) = Ok {| cs_pending := cs_pending s ++ [f]; cs_data := cs_data s |}) /\
  (frame_end f < blen (cs_data s) -> crypto_run crypto_new (fs ++ [f]) = Panic) /\
  (frame_end f = blen (cs_data s) -> crypto_run crypto_new (fs ++ [f]) = Ok s).
Proof.
  intros R. pose proof (run_settles fs crypto_new s (Forall_nil _) R) as F. rewrite run_app, R. cbn [bind crypto_run]. unfold crypto_send, frame_end. cbn [check_pending cs_pending cs_data].
  rewrite (take_settled _ _ f F). set (e := blen (cs_data s)) in *. split; [|split].
  - intros H. destruct (N.leb_spec (cf_start f) e) as [Q|Q]; [lia|]. reflexivity.
  - intros H. destruct (N.leb_spec (cf_start f) e) as [Q|Q]; [|lia]. destruct (N.ltb_spec (blen (cf_data f)) (e - cf_start f)) as [Q2|Q2]; [reflexivity|lia].
  - intros H. destruct (N.leb_spec (cf_start f) e) as [Q|Q]; [|lia]. destruct (N.ltb_spec (blen (cf_data f)) (e - cf_start f)) as [Q2|Q2]; [lia|].
    rewrite skipn_all2 by (unfold blen in *; lia). rewrite app_nil_r. fold e.
    assert (T : take_first e (cs_pending s) = None).
    { clear - F. induction (cs_pending s) as [|g l IH]; [reflexivity|]. inversion F as [|? ? F1 F2]; subst. cbn [take_first]. destruct (N.leb_spec (cf_start g) e) as [Q|Q]; [lia|]. rewrite (IH F2). reflexivity. }
    rewrite T. destruct s; reflexivity.
Qed.
Print Assumptions C150_one_frame.
Lemma send_in_order d f : cf_start f <= blen d ->
  crypto_send {| cs_pending := []; cs_data := d |} f =
  if frame_end f <? blen d then Panic else Ok {| cs_pending := []; cs_data := d ++ skipn (N.to_nat (blen d - cf_start f)) (cf_data f) |}.
Proof.
  intros L. unfold crypto_send, frame_end. cbn [cs_pending cs_data app length check_pending take_first]. destruct (N.leb_spec (cf_start f) (blen d)) as [Q|Q]; [|lia]. cbn [cs_pending].
  destruct (N.ltb_spec (blen (cf_data f)) (blen d - cf_start f)) as [Q1|Q1]; destruct (N.ltb_spec (cf_start f + blen (cf_data f)) (blen d)) as [Q2|Q2]; try lia; reflexivity.
Qed.
Lemma in_order_exact fs : forall d, no_gap (blen d) fs ->
  (exists data, crypto_run {| cs_pending := []; cs_data := d |} fs = Ok {| cs_pending := []; cs_data := data |} /\ blen data = furthest (blen d) fs /\
     forall before g after, fs = before ++ g :: after -> furthest (blen d) before <= frame_end g) \/
  (crypto_run {| cs_pending := []; cs_data := d |} fs = Panic /\ exists before g after, fs = before ++ g :: after /\ frame_end g < furthest (blen d) before).
Proof.
  induction fs as [|f fs IH]; intros d G.
  { left. exists d. split; [reflexivity|]. split; [reflexivity|]. intros [|? ?] g after Q; discriminate Q. }
  cbn [no_gap] in G. destruct G as [G1 G2]. cbn [crypto_run]. rewrite (send_in_order d f G1). destruct (N.ltb_spec (frame_end f) (blen d)) as [Q|Q]; cbn [bind].
  { right. split; [reflexivity|]. exists [], f, fs. split; [reflexivity|exact Q]. }
  set (d1 := d ++ skipn (N.to_nat (blen d - cf_start f)) (cf_data f)).
  assert (E : blen d1 = N.max (blen d) (frame_end f)) by (unfold d1, frame_end, blen in *; rewrite app_length, skipn_length; lia).
  rewrite <- E in G2. destruct (IH d1 G2) as [(data & R & B & A)|(R & before & g & after & A & B)].
  - left. exists data. split; [exact R|]. split; [rewrite B, E; reflexivity|]. intros [|x before] g after H; [injection H as -> ->; exact Q|]. injection H as -> ->.
    specialize (A before g after eq_refl). rewrite E in A. exact A.
  - right. split; [exact R|]. exists (f :: before), g, after. split; [rewrite A; reflexivity|]. rewrite E in B. exact B.
Qed.
(** Frames that leave no gap when they arrive stop the program exactly when one of them ends
    before one that came earlier, as a frame sent again does once more has arrived. *)
Theorem C150_exact fs : no_gap 0 fs -> (crypto_run crypto_new fs = Panic <-> goes_back fs).
Proof.
  intros G. change crypto_new with {| cs_pending := []; cs_data := [] |}. destruct (in_order_exact fs [] G) as [(data & R & B & A)|(R & before & g & after & A & B)]; rewrite R.
  - split; [discriminate|]. intros (before & f & between & g & after & -> & L). specialize (A (before ++ f :: between) g after ltac:(rewrite <- app_assoc; reflexivity)).
    assert (X : frame_end g < furthest (blen []) (before ++ f :: between)) by (apply furthest_max; right; exists f; split; [apply in_or_app; right; left; reflexivity|exact L]). lia.
  - split; [intros _|reflexivity]. apply furthest_max in B. destruct B as [B|(f & I & L)]; [cbn in B; lia|]. apply in_split in I. destruct I as (l1 & l2 & ->).
    exists l1, f, l2, g, after. split; [rewrite A, <- app_assoc; reflexivity|exact L].
Qed.
Print Assumptions C150_exact.
(** Otherwise all is used, and the data is as long as the furthest of them reaches. *)
Theorem C150_length fs : no_gap 0 fs -> ~ goes_back fs -> exists data, crypto_run crypto_new fs = Ok {| cs_pending := []; cs_data := data |} /\ blen data = furthest 0 fs.
Proof.
  intros G N. pose proof (C150_exact fs G) as X. change crypto_new with {| cs_pending := []; cs_data := [] |} in *. destruct (in_order_exact fs [] G) as [(data & R & B & _)|(R & _)]; [exists data; auto|].
  exfalso. apply N, X, R.
Qed.
Print Assumptions C150_length.
(** Whether a set of frames is taken depends on the order of arrival: of these two orders of
    the same overlapping frames one stops the program. *)
Definition fr (start len : N) : crypto_frame := {| cf_start := start; cf_data := repeat 7 (N.to_nat len) |}.
Theorem C150_order_matters_refuted : ~ (forall fs gs, Permutation fs gs -> (crypto_run crypto_new fs = Panic <-> crypto_run crypto_new gs = Panic)).
Proof.
  intros H. assert (P : Permutation [fr 3 7; fr 5 15; fr 0 5] [fr 5 15; fr 3 7; fr 0 5]) by apply perm_swap. apply H in P. destruct P as [_ P].
  assert (Q : crypto_run crypto_new [fr 5 15; fr 3 7; fr 0 5] = Panic) by reflexivity. apply P in Q. discriminate Q.
Qed.
Print Assumptions C150_order_matters_refuted.
Example C150_sample :
  no_gap 0 [fr 0 5; fr 3 4; fr 7 2; fr 0 9; fr 0 5] /\ goes_back [fr 0 5; fr 3 4; fr 7 2; fr 0 9; fr 0 5] /\
  crypto_run crypto_new [fr 0 5; fr 3 4; fr 7 2; fr 0 9; fr 0 5] = Panic /\
  crypto_run crypto_new [fr 0 5; fr 3 4; fr 7 2; fr 0 9] = Ok {| cs_pending := []; cs_data := repeat 7 9 |} /\ furthest 0 [fr 0 5; fr 3 4; fr 7 2; fr 0 9] = 9.
Proof.
  split; [vm_compute; repeat split; discriminate|]. split; [|repeat split; reflexivity]. exists [fr 0 5; fr 3 4; fr 7 2], (fr 0 9), [], (fr 0 5), []. split; reflexivity.
Qed.
