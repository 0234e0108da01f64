(** Lemmas about the crypto stream. *)
From Verif Require Import Base BaseProofs MessageProofs2 QuicModel QuicSpec.
From Coq Require Import Lia ZArith ZifyBool ZifyNat ZifyN Permutation.
Ltac Zify.zify_post_hook ::= Z.div_mod_to_equations.
Local Open Scope list_scope. Local Open Scope N_scope.

Lemma take_first_none e l : take_first e l = None -> Forall (fun f => e < cf_start f) l.
Proof.
  induction l as [|f l IH]; cbn [take_first]; [constructor|]. destruct (N.leb_spec (cf_start f) e); [discriminate|].
  destruct (take_first e l) as [[g t]|]; [discriminate|]. intros _. constructor; auto.
Qed.
Lemma take_first_some e l f t : take_first e l = Some (f, t) -> Permutation l (f :: t) /\ cf_start f <= e.
Proof.
  revert f t. induction l as [|g l IH]; intros f t; cbn [take_first]; [discriminate|]. destruct (N.leb_spec (cf_start g) e).
  - intros E. injection E as -> ->. split; [reflexivity|assumption].
  - destruct (take_first e l) as [[h u]|]; [|discriminate]. intros E. injection E as -> <-. destruct (IH f u eq_refl) as [Pm Le].
    split; [|exact Le]. rewrite Pm. apply perm_swap.
Qed.
Lemma disjoint_sym f g : disjoint f g -> disjoint g f.
Proof. unfold disjoint. tauto. Qed.
Lemma pairs_perm {A} (R : A -> A -> Prop) : (forall x y, R x y -> R y x) -> forall l l', Permutation l l' -> ForallOrdPairs R l -> ForallOrdPairs R l'.
Proof.
  intros Sy l l' Pm. induction Pm as [|x l l' Pm IH|x y l|l l' l'' P1 IH1 P2 IH2]; intros F; auto.
  - inversion F; subst. constructor; [|auto]. eapply Permutation_Forall; eassumption.
  - inversion F as [|? ? F1 F2]; subst. inversion F2 as [|? ? F3 F4]; subst. inversion F1; subst. repeat constructor; auto.
Qed.
Lemma pairs_app {A} (R : A -> A -> Prop) l l' x y : ForallOrdPairs R (l ++ l') -> In x l -> In y l' -> R x y.
Proof.
  induction l as [|z l IH]; cbn [app In]; [tauto|]. intros F [->|I] I'.
  - inversion F as [|? ? F1 F2]; subst. rewrite Forall_forall in F1. apply F1, in_or_app. auto.
  - inversion F; subst. auto.
Qed.

Section Stream.
Context (msg : bytes).
(** The frames [fs] have been sent. *)
Definition stream_inv (fs : list crypto_frame) (s : crypto_stream) : Prop :=
  exists used rest, Permutation fs (used ++ cs_pending s) /\ msg = cs_data s ++ rest /\
    (forall i, i < blen (cs_data s) -> exists f, In f used /\ cf_start f <= i < frame_end f) /\
    (forall f, In f used -> frame_end f <= blen (cs_data s)).
Definition settled (s : crypto_stream) : Prop := Forall (fun f => blen (cs_data s) < cf_start f) (cs_pending s).

Lemma append_part data rest f : msg = data ++ rest -> part_of msg f -> cf_start f <= blen data -> blen data - cf_start f <= blen (cf_data f) ->
  exists rest', msg = (data ++ skipn (N.to_nat (blen data - cf_start f)) (cf_data f)) ++ rest' /\
    blen (data ++ skipn (N.to_nat (blen data - cf_start f)) (cf_data f)) = frame_end f.
Proof.
  intros M (a & b & E & Es) L1 L2. exists b. unfold frame_end. unfold blen in *. set (k := N.to_nat (N.of_nat (length data) - cf_start f)).
  assert (D : data = a ++ firstn k (cf_data f)).
  { assert (X : firstn (length data) msg = data) by (rewrite M; apply firstn_app_length). rewrite <- X, E.
    rewrite firstn_app, firstn_all2 by lia. rewrite firstn_app. replace (length data - length a)%nat with k by lia.
    replace (k - length (cf_data f))%nat with 0%nat by lia. rewrite firstn_O, app_nil_r. reflexivity. }
  rewrite D at 1. rewrite <- !app_assoc. split.
  - rewrite E. f_equal. rewrite app_assoc, firstn_skipn. reflexivity.
  - rewrite app_length, skipn_length. subst k. lia.
Qed.
Lemma step_inv fs s f rest : Forall (part_of msg) fs -> stream_inv fs s -> take_first (blen (cs_data s)) (cs_pending s) = Some (f, rest) ->
  blen (cs_data s) - cf_start f <= blen (cf_data f) ->
  stream_inv fs {| cs_pending := rest; cs_data := cs_data s ++ skipn (N.to_nat (blen (cs_data s) - cf_start f)) (cf_data f) |}.
Proof.
  intros A (used & r & Pm & M & C & U) T L. apply take_first_some in T. destruct T as [T Le].
  assert (Pf : part_of msg f). { rewrite Forall_forall in A. apply A. eapply Permutation_in; [symmetry; exact Pm|]. apply in_or_app. right. eapply Permutation_in; [symmetry; exact T|]. left. reflexivity. }
  destruct (append_part _ _ _ M Pf Le L) as (r' & M' & B'). exists (f :: used), r'. cbn [cs_pending cs_data].
  split; [|split; [exact M'|split]].
  - rewrite Pm, T. cbn [app]. symmetry. apply Permutation_middle.
  - rewrite B'. intros i Hi. destruct (N.lt_ge_cases i (blen (cs_data s))) as [Hl|Hg].
    + destruct (C i Hl) as (g & Ig & Hg). exists g. split; [right; exact Ig|exact Hg].
    + exists f. split; [left; reflexivity|]. lia.
  - rewrite B'. intros g [<-|Ig]; [lia|]. specialize (U g Ig). unfold frame_end in *. lia.
Qed.
Lemma check_inv fs : Forall (part_of msg) fs -> forall fuel s s', stream_inv fs s -> check_pending fuel s = Ok s' -> stream_inv fs s' /\ settled s'.
Proof.
  intros A. induction fuel as [|fuel IH]; intros s s' H; cbn [check_pending]; [discriminate|]. cbv zeta.
  destruct (take_first (blen (cs_data s)) (cs_pending s)) as [[f rest]|] eqn:T.
  - destruct (N.ltb_spec (blen (cf_data f)) (blen (cs_data s) - cf_start f)) as [|L]; [discriminate|]. apply IH. eapply step_inv; eauto.
  - intros E. injection E as <-. split; [exact H|]. apply take_first_none, T.
Qed.
Lemma check_no_panic fs : Forall (part_of msg) fs -> ForallOrdPairs disjoint fs -> Forall (fun f => cf_data f <> []) fs ->
  forall fuel s, stream_inv fs s -> (length (cs_pending s) < fuel)%nat -> exists s', check_pending fuel s = Ok s'.
Proof.
  intros A D NE. induction fuel as [|fuel IH]; intros s H L; cbn [check_pending]; [lia|]. cbv zeta.
  destruct (take_first (blen (cs_data s)) (cs_pending s)) as [[f rest]|] eqn:T; [|eauto].
  destruct (N.ltb_spec (blen (cf_data f)) (blen (cs_data s) - cf_start f)) as [Bad|Lf].
  - exfalso. destruct H as (used & r & Pm & M & C & U). apply take_first_some in T. destruct T as [T Le].
    assert (If : In f (cs_pending s)) by (eapply Permutation_in; [symmetry; exact T|left; reflexivity]).
    assert (Nf : cf_data f <> []). { rewrite Forall_forall in NE. apply NE. eapply Permutation_in; [symmetry; exact Pm|]. apply in_or_app. auto. }
    assert (Lf : 1 <= blen (cf_data f)) by (unfold blen; destruct (cf_data f); [contradiction|cbn [length]; lia]).
    destruct (C (cf_start f) ltac:(lia)) as (h & Ih & Hh).
    pose proof (pairs_app _ _ _ _ _ (pairs_perm _ disjoint_sym _ _ Pm D) Ih If) as X. unfold disjoint, frame_end in *. lia.
  - apply IH; [eapply step_inv; eauto|]. cbn [cs_pending]. apply take_first_some in T. destruct T as [T _]. apply Permutation_length in T. cbn [length] in T. lia.
Qed.
Lemma send_inv fs s f : stream_inv fs s -> stream_inv (fs ++ [f]) {| cs_pending := cs_pending s ++ [f]; cs_data := cs_data s |}.
Proof.
  intros (used & r & Pm & M & C & U). exists used, r. cbn [cs_pending cs_data]. split; [|auto].
  rewrite app_assoc. apply Permutation_app_tail. exact Pm.
Qed.
Lemma new_inv : stream_inv [] crypto_new.
Proof.
  exists [], msg. cbn [crypto_new cs_pending cs_data app]. split; [constructor|]. split; [reflexivity|]. split; [|intros f []].
  intros i H. unfold blen in H. cbn in H. lia.
Qed.
Lemma run_inv_crypto fs : forall sent s s', Forall (part_of msg) (sent ++ fs) -> stream_inv sent s -> settled s -> crypto_run s fs = Ok s' -> stream_inv (sent ++ fs) s' /\ settled s'.
Proof.
  induction fs as [|f fs IH]; intros sent s s' A H S R; cbn [crypto_run] in R.
  - injection R as <-. rewrite app_nil_r. auto.
  - apply bind_ok in R. destruct R as (s1 & R1 & R). unfold crypto_send in R1. replace (sent ++ f :: fs) with ((sent ++ [f]) ++ fs) in * by (rewrite <- app_assoc; reflexivity).
    destruct (check_inv (sent ++ [f])) with (3 := R1) as [H1 S1]; [apply Forall_app in A; tauto|apply send_inv, H|]. eapply IH; eauto.
Qed.
Lemma run_no_panic fs : forall sent s, Forall (part_of msg) (sent ++ fs) -> ForallOrdPairs disjoint (sent ++ fs) -> Forall (fun f => cf_data f <> []) (sent ++ fs) ->
  stream_inv sent s -> exists s', crypto_run s fs = Ok s'.
Proof.
  induction fs as [|f fs IH]; intros sent s A D NE H; cbn [crypto_run]; [eauto|].
  replace (sent ++ f :: fs) with ((sent ++ [f]) ++ fs) in * by (rewrite <- app_assoc; reflexivity).
  assert (D1 : ForallOrdPairs disjoint (sent ++ [f])). { clear - D. induction (sent ++ [f]) as [|x l IH]; [constructor|]. cbn [app] in D. inversion D as [|? ? F1 F2]; subst. apply Forall_app in F1. constructor; [tauto|auto]. }
  destruct (check_no_panic (sent ++ [f])) with (fuel := S (S (length (cs_pending s)))) (s := {| cs_pending := cs_pending s ++ [f]; cs_data := cs_data s |}) as [s1 R1];
    [apply Forall_app in A; tauto|exact D1|apply Forall_app in NE; tauto|apply send_inv, H|cbn [cs_pending]; rewrite app_length; cbn [length]; lia|].
  unfold crypto_send. rewrite R1. cbn [bind]. apply (IH (sent ++ [f])); auto.
  apply Forall_app in A. destruct (check_inv (sent ++ [f])) with (3 := R1) as [H1 _]; [tauto|apply send_inv, H|exact H1].
Qed.
Lemma inv_reach fs s : stream_inv fs s -> settled s -> reach fs (blen (cs_data s)) /\ exists rest, msg = cs_data s ++ rest.
Proof.
  intros (used & r & Pm & M & C & U) S. split; [|eauto]. split.
  - intros i Hi. destruct (C i Hi) as (f & If & Hf). exists f. split; [|exact Hf]. eapply Permutation_in; [symmetry; exact Pm|]. apply in_or_app. auto.
  - intros f If Hf. eapply Permutation_in in If; [|exact Pm]. apply in_app_or in If. destruct If as [If|If]; [auto|].
    unfold settled in S. rewrite Forall_forall in S. specialize (S f If). lia.
Qed.
End Stream.

Lemma cut_part pieces : forall pre post, Forall (part_of (pre ++ concat pieces ++ post)) (cut (blen pre) pieces).
Proof.
  induction pieces as [|d l IH]; intros pre post; cbn [cut concat]; [constructor|]. constructor.
  - exists pre, (concat l ++ post). cbn [cf_data cf_start]. rewrite <- app_assoc. auto.
  - specialize (IH (pre ++ d) post). rewrite blen_app in IH. rewrite <- !app_assoc in *. exact IH.
Qed.
Lemma cut_after pieces : forall n f, In f (cut n pieces) -> n <= cf_start f.
Proof. induction pieces as [|d l IH]; intros n f; cbn [cut In]; [tauto|]. intros [<-|I]; [cbn; lia|]. specialize (IH _ _ I). lia. Qed.
Lemma cut_disjoint pieces : forall n, ForallOrdPairs disjoint (cut n pieces).
Proof.
  induction pieces as [|d l IH]; intros n; cbn [cut]; [constructor|]. constructor; [|apply IH].
  apply Forall_forall. intros f I. apply cut_after in I. left. exact I.
Qed.
Lemma cut_nonempty pieces : forall n, Forall (fun d => d <> []) pieces -> Forall (fun f => cf_data f <> []) (cut n pieces).
Proof. induction pieces as [|d l IH]; intros n F; cbn [cut]; [constructor|]. inversion F; subst. constructor; auto. Qed.
Lemma cut_covers pieces : forall n i, n <= i -> i < n + blen (concat pieces) -> exists f, In f (cut n pieces) /\ cf_start f <= i < frame_end f.
Proof.
  induction pieces as [|d l IH]; intros n i H1 H2; cbn [cut concat] in *; [rewrite blen_nil in H2; lia|]. rewrite blen_app in H2.
  destruct (N.lt_ge_cases i (n + blen d)) as [L|G].
  - eexists. split; [left; reflexivity|]. unfold frame_end. cbn [cf_start cf_data]. lia.
  - destruct (IH (n + blen d) i G ltac:(lia)) as (f & If & Hf). exists f. split; [right; exact If|exact Hf].
Qed.
