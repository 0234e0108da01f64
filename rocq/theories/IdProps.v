(** Identities, C141. *)
From Coq Require Import String Ascii ZifyBool ZifyNat ZifyN.
From Verif Require Import Base BaseProofs TemplateSpec IdModel.
Local Open Scope string_scope. Local Open Scope list_scope. Local Open Scope N_scope.
Ltac Zify.zify_post_hook ::= Z.div_mod_to_equations.

(** ** The specification: which identities are the same one, by what was done alone *)
Definition is_new (x : action) : bool := match x with ANew => true | _ => false end.
Definition news (l : list action) : nat := length (filter is_new l).
(** The call of [default] that an identity comes from, through any number of clones. *)
Fixpoint origins_from (acc : list nat) (k : nat) (l : list action) : list nat :=
  match l with
  | [] => acc
  | ANew :: l => origins_from (acc ++ [k]) (S k) l
  | AClone i :: l => origins_from (acc ++ [nth i acc O]) k l
  | ADrop _ :: l => origins_from acc k l
  end.
Definition origins (l : list action) : list nat := origins_from [] 0 l.
Definition dropped (l : list action) (i : nat) : bool := existsb (fun x => match x with ADrop j => Nat.eqb i j | _ => false end) l.
(** How many identities have the pointer [a]. *)
Definition holders (a : N) (l : list (option id)) : nat := length (filter (fun x => match x with Some b => b =? a | None => false end) l).

Lemma origins_app l l' : forall acc k, origins_from acc k (l ++ l') = origins_from (origins_from acc k l) (k + news l) l'.
Proof.
  induction l as [|[|i|i] l IH]; intros acc k; cbn [app origins_from].
  - unfold news. cbn. rewrite Nat.add_0_r. reflexivity.
  - rewrite IH. f_equal. unfold news. cbn [filter is_new length]. lia.
  - rewrite IH. reflexivity.
  - rewrite IH. reflexivity.
Qed.
Lemma origins_step l x : origins (l ++ [x]) = match x with ANew => origins l ++ [news l] | AClone i => origins l ++ [nth i (origins l) O] | ADrop _ => origins l end.
Proof. unfold origins. rewrite origins_app. destruct x; reflexivity. Qed.
Lemma news_step l x : news (l ++ [x]) = (news l + if is_new x then 1 else 0)%nat.
Proof. unfold news. rewrite filter_app, app_length. cbn [filter]. destruct (is_new x); reflexivity. Qed.

Lemma count_set a b n heap : count_of b (set_count a n heap) = if b =? a then match count_of a heap with Some _ => Some n | None => None end else count_of b heap.
Proof.
  induction heap as [|[c m] heap IH]; cbn [set_count count_of]; [destruct (b =? a); reflexivity|].
  destruct (a =? c) eqn:A; cbn [count_of].
  - apply N.eqb_eq in A. subst c. destruct (b =? a); reflexivity.
  - rewrite IH. destruct (b =? c) eqn:B; [|reflexivity]. apply N.eqb_eq in B. subst c. destruct (b =? a) eqn:C; [lia|reflexivity].
Qed.
Lemma count_in a heap : count_of a heap = None <-> ~ In a (map fst heap).
Proof. induction heap as [|[c m] heap IH]; cbn; [tauto|]. destruct (a =? c) eqn:A; [apply N.eqb_eq in A; subst; split; [discriminate|tauto]|]. apply N.eqb_neq in A. rewrite IH. split; [intros H [|]; [congruence|tauto]|tauto]. Qed.
Lemma set_keys a n heap : map fst (set_count a n heap) = map fst heap.
Proof. induction heap as [|[c m] heap IH]; cbn; [reflexivity|]. destruct (a =? c); cbn; [reflexivity|f_equal; exact IH]. Qed.
Lemma release_keys a heap x : In x (map fst (release a heap)) -> In x (map fst heap).
Proof. induction heap as [|[c m] heap IH]; cbn; [tauto|]. destruct (a =? c); cbn; tauto. Qed.
Lemma release_nodup a heap : NoDup (map fst heap) -> NoDup (map fst (release a heap)).
Proof.
  induction heap as [|[c m] heap IH]; cbn; intros D; [constructor|]. inversion D as [|? ? D1 D2]; subst. destruct (a =? c); [exact D2|]. cbn. constructor; [|auto].
  intros X. apply D1. eapply release_keys. exact X.
Qed.
Lemma count_release a b heap : NoDup (map fst heap) -> count_of b (release a heap) = if b =? a then None else count_of b heap.
Proof.
  induction heap as [|[c m] heap IH]; cbn [release count_of map fst]; intros D; [destruct (b =? a); reflexivity|]. inversion D as [|? ? D1 D2]; subst.
  destruct (a =? c) eqn:A.
  - apply N.eqb_eq in A. subst c. destruct (b =? a) eqn:B; [|reflexivity]. apply N.eqb_eq in B. subst b. apply count_in. exact D1.
  - cbn [count_of]. rewrite IH by exact D2. destruct (b =? c) eqn:B; [|reflexivity]. apply N.eqb_eq in B. subst c. destruct (b =? a) eqn:C; [lia|reflexivity].
Qed.
Lemma nth_forget i : forall l j, nth_error (forget i l) j = if Nat.eqb i j then match nth_error l j with Some _ => Some None | None => None end else nth_error l j.
Proof.
  induction i as [|i IH]; intros [|x l] [|j]; cbn [forget nth_error]; try reflexivity.
  - cbn. destruct (Nat.eqb i j); reflexivity.
  - rewrite IH. reflexivity.
Qed.
Lemma forget_length i : forall l, length (forget i l) = length l.
Proof. induction i as [|i IH]; intros [|x l]; cbn; congruence. Qed.
Lemma holders_app a l x : holders a (l ++ [x]) = (holders a l + match x with Some b => if (b =? a)%N then 1 else 0 | None => 0 end)%nat.
Proof. unfold holders. rewrite filter_app, app_length. cbn [filter]. destruct x as [b|]; [destruct (b =? a)%N|]; reflexivity. Qed.
Lemma holders_forget b i : forall l a, nth_error l i = Some (Some a) -> (holders b (forget i l) + if (a =? b)%N then 1 else 0)%nat = holders b l.
Proof.
  induction i as [|i IH]; intros [|x l] a H; try discriminate H; cbn [forget nth_error] in *.
  - injection H as ->. unfold holders. cbn [filter]. destruct (a =? b)%N; cbn [length]; lia.
  - apply IH in H. unfold holders in *. cbn [filter]. destruct x as [c|]; [destruct (c =? b)%N|]; cbn [length]; lia.
Qed.
Lemma holders_some a l : (0 < holders a l)%nat <-> exists i, nth_error l i = Some (Some a).
Proof.
  unfold holders. split.
  - intros H. destruct (filter (fun x => match x with Some b => b =? a | None => false end) l) as [|x r] eqn:F; [cbn in H; lia|]. assert (X : In x (filter (fun x => match x with Some b => b =? a | None => false end) l)) by (rewrite F; left; reflexivity).
    apply filter_In in X. destruct X as (X & Y). destruct x as [b|]; [|discriminate]. apply N.eqb_eq in Y. subst b. apply In_nth_error in X. exact X.
  - intros (i & H). apply nth_error_In in H. destruct (filter (fun x => match x with Some b => b =? a | None => false end) l) as [|x r] eqn:F; [|cbn; lia].
    assert (X : In (Some a) (filter (fun x => match x with Some b => b =? a | None => false end) l)) by (apply filter_In; split; [exact H|apply N.eqb_refl]). rewrite F in X. destruct X.
Qed.

Record sound (l : list action) (w : world) : Prop := {
  so_keys : NoDup (map fst (w_heap w));
  so_count : forall a n, count_of a (w_heap w) = Some n <-> (n = N.of_nat (holders a (w_ids w)) /\ n <> 0);
  so_length : length (w_ids w) = length (origins l);
  so_new : Forall (fun k => (k < news l)%nat) (origins l);
  so_same : forall i j a b, nth_error (w_ids w) i = Some (Some a) -> nth_error (w_ids w) j = Some (Some b) ->
    (a = b <-> nth_error (origins l) i = nth_error (origins l) j);
  so_live : forall i, dropped l i = false -> (i < length (w_ids w))%nat -> exists a, nth_error (w_ids w) i = Some (Some a);
  so_gone : forall i, dropped l i = true -> nth_error (w_ids w) i = Some None }.
Lemma nth_app_last {A} (l : list A) x i : nth_error (l ++ [x]) i = if (i <? length l)%nat then nth_error l i else if (i =? length l)%nat then Some x else None.
Proof.
  destruct (i <? length l)%nat eqn:I1; [apply nth_error_app1; lia|]. rewrite nth_error_app2 by lia. destruct (i =? length l)%nat eqn:I2.
  - replace (i - length l)%nat with O by lia. reflexivity.
  - apply nth_error_None. cbn. lia.
Qed.
Lemma dropped_app l x i : dropped (l ++ [x]) i = dropped l i || match x with ADrop j => Nat.eqb i j | _ => false end.
Proof. unfold dropped. rewrite existsb_app. cbn [existsb]. rewrite Bool.orb_false_r. reflexivity. Qed.
Lemma nth_lt {A} (l : list A) i x : nth_error l i = Some x -> (i < length l)%nat.
Proof. intros H. apply nth_error_Some. congruence. Qed.
Lemma same_add (ids : list (option id)) (os : list nat) a o :
  length ids = length os ->
  (forall i j a b, nth_error ids i = Some (Some a) -> nth_error ids j = Some (Some b) -> (a = b <-> nth_error os i = nth_error os j)) ->
  (forall i b, nth_error ids i = Some (Some b) -> (b = a <-> nth_error os i = Some o)) ->
  forall i j x y, nth_error (ids ++ [Some a]) i = Some (Some x) -> nth_error (ids ++ [Some a]) j = Some (Some y) -> (x = y <-> nth_error (os ++ [o]) i = nth_error (os ++ [o]) j).
Proof.
  intros L Sm Ne i j x y. rewrite !nth_app_last, <- L.
  destruct (i <? length ids)%nat eqn:I1, (j <? length ids)%nat eqn:J1.
  - apply Sm.
  - destruct (j =? length ids)%nat; [|discriminate]. intros X Y. injection Y as <-. apply Ne. exact X.
  - destruct (i =? length ids)%nat; [|discriminate]. intros X Y. injection X as <-. specialize (Ne _ _ Y). split; intros Q; [symmetry; apply Ne; congruence|symmetry; apply Ne; congruence].
  - destruct (i =? length ids)%nat; [|discriminate]. destruct (j =? length ids)%nat; [|discriminate]. intros X Y. split; congruence.
Qed.
Lemma run_sound l w : runs l w -> sound l w.
Proof.
  induction 1 as [|l w x w' R IH St].
  { split; cbn.
    - constructor.
    - intros a n. split; [discriminate|]. intros (-> & X). destruct (X eq_refl).
    - reflexivity.
    - constructor.
    - intros [|i] j a b X; discriminate X.
    - intros i _ X. lia.
    - intros i X. discriminate X. }
  destruct IH as [K C L Nw Sm Lv Gn]. inversion St as [a A0 A1 E1 E2|i a n I1 I2 E1 E2|i a n I1 I2 E1 E2]; subst x w'.
  - assert (Fr : forall i, nth_error (w_ids w) i <> Some (Some a)).
    { intros i X. assert (P : (0 < holders a (w_ids w))%nat) by (apply holders_some; eauto). assert (Q : count_of a (w_heap w) = Some (N.of_nat (holders a (w_ids w)))) by (apply C; split; [reflexivity|lia]). congruence. }
    assert (H0 : holders a (w_ids w) = O).
    { destruct (holders a (w_ids w)) eqn:Hh; [reflexivity|]. assert (P : (0 < holders a (w_ids w))%nat) by lia. apply holders_some in P. destruct P as (i & P). destruct (Fr i P). }
    split; cbn [w_heap w_ids].
    + cbn [map fst]. constructor; [apply count_in; exact A1|exact K].
    + intros b n. cbn [count_of]. rewrite holders_app. destruct (b =? a) eqn:B.
      * apply N.eqb_eq in B. subst b. rewrite N.eqb_refl, H0. split; [intros X; injection X as <-; split; [reflexivity|lia]|]. intros (-> & _). reflexivity.
      * rewrite (N.eqb_sym a b), B, Nat.add_0_r. apply C.
    + rewrite origins_step, !app_length, L. reflexivity.
    + rewrite origins_step, news_step. cbn [is_new]. apply Forall_app. split; [|repeat constructor; lia]. eapply Forall_impl; [|exact Nw]. cbn. intros k. lia.
    + rewrite origins_step. apply same_add; [exact L|exact Sm|]. intros i b X. split; [intros ->; destruct (Fr i X)|]. intros Y.
      rewrite Forall_forall in Nw. apply nth_error_In in Y. apply Nw in Y. lia.
    + intros i D Li. rewrite dropped_app, Bool.orb_false_r in D. rewrite app_length in Li. cbn [length] in Li. rewrite nth_app_last. destruct (i <? length (w_ids w))%nat eqn:I1; [apply Lv; [exact D|lia]|].
      assert (Q : (i =? length (w_ids w))%nat = true) by lia. rewrite Q. eauto.
    + intros i D. rewrite dropped_app, Bool.orb_false_r in D. apply Gn in D. rewrite nth_app_last. apply nth_lt in D as D'. assert (Q : (i <? length (w_ids w))%nat = true) by lia. rewrite Q. exact D.
  - assert (Io : nth_error (origins l) i = Some (nth i (origins l) O)).
    { apply nth_error_nth'. rewrite <- L. eapply nth_lt. exact I1. }
    split; cbn [w_heap w_ids].
    + rewrite set_keys. exact K.
    + intros b m. rewrite count_set, I2, holders_app. apply C in I2. destruct (b =? a) eqn:B.
      * apply N.eqb_eq in B. subst b. rewrite N.eqb_refl. split; [intros X; injection X as <-; lia|]. intros (-> & _). f_equal. lia.
      * rewrite (N.eqb_sym a b), B, Nat.add_0_r. apply C.
    + rewrite origins_step, !app_length, L. reflexivity.
    + rewrite origins_step, news_step. cbn [is_new]. rewrite Nat.add_0_r. apply Forall_app. split; [exact Nw|]. constructor; [|constructor]. rewrite Forall_forall in Nw. apply Nw. apply nth_error_In in Io. exact Io.
    + rewrite origins_step. apply same_add; [exact L|exact Sm|]. intros j b X. rewrite <- Io. apply Sm; assumption.
    + intros j D Li. rewrite dropped_app, Bool.orb_false_r in D. rewrite app_length in Li. cbn [length] in Li. rewrite nth_app_last. destruct (j <? length (w_ids w))%nat eqn:I3; [apply Lv; [exact D|lia]|].
      assert (Q : (j =? length (w_ids w))%nat = true) by lia. rewrite Q. eauto.
    + intros j D. rewrite dropped_app, Bool.orb_false_r in D. apply Gn in D. rewrite nth_app_last. apply nth_lt in D as D'. assert (Q : (j <? length (w_ids w))%nat = true) by lia. rewrite Q. exact D.
  - assert (Hf : forall b, (holders b (forget i (w_ids w)) + if (a =? b)%N then 1 else 0)%nat = holders b (w_ids w)) by (intros b; apply holders_forget; exact I1).
    assert (Cn := proj1 (C a n) I2).
    split; cbn [w_heap w_ids].
    + destruct (n =? 1); [apply release_nodup; exact K|rewrite set_keys; exact K].
    + intros b m. specialize (Hf b). destruct (n =? 1) eqn:N1.
      * apply N.eqb_eq in N1. rewrite count_release by exact K. destruct (b =? a) eqn:B.
        -- apply N.eqb_eq in B. subst b. rewrite N.eqb_refl in Hf. split; [discriminate|]. intros (-> & X). lia.
        -- rewrite (N.eqb_sym a b), B, Nat.add_0_r in Hf. rewrite Hf. apply C.
      * rewrite count_set, I2. destruct (b =? a) eqn:B.
        -- apply N.eqb_eq in B. subst b. rewrite N.eqb_refl in Hf. split; [intros X; injection X as <-; lia|]. intros (-> & X). f_equal. lia.
        -- rewrite (N.eqb_sym a b), B, Nat.add_0_r in Hf. rewrite Hf. apply C.
    + rewrite origins_step, forget_length. exact L.
    + rewrite origins_step, news_step. cbn [is_new]. rewrite Nat.add_0_r. exact Nw.
    + rewrite origins_step. intros j k x y X Y. rewrite nth_forget in X, Y. destruct (Nat.eqb i j); [destruct (nth_error (w_ids w) j); discriminate X|]. destruct (Nat.eqb i k); [destruct (nth_error (w_ids w) k); discriminate Y|]. apply Sm; assumption.
    + intros j D Lj. rewrite forget_length in Lj. rewrite dropped_app in D. apply Bool.orb_false_iff in D. destruct D as (D & D2). rewrite nth_forget, Nat.eqb_sym, D2. apply Lv; assumption.
    + intros j D. rewrite dropped_app in D. rewrite nth_forget. destruct (Nat.eqb i j) eqn:Ij.
      * apply Nat.eqb_eq in Ij. subst j. rewrite I1. reflexivity.
      * rewrite Nat.eqb_sym, Ij, Bool.orb_false_r in D. apply Gn. exact D.
Qed.

(** ** C141: in every run, two identities that are held are equal exactly when one was made
    from the other by cloning; whatever addresses the allocator gave *)
Theorem C141_equal_iff_clones l w i j a b : runs l w -> nth_error (w_ids w) i = Some (Some a) -> nth_error (w_ids w) j = Some (Some b) ->
  id_eq a b = true <-> nth_error (origins l) i = nth_error (origins l) j.
Proof. intros R A B. unfold id_eq. rewrite N.eqb_eq. apply (so_same _ _ (run_sound _ _ R)); assumption. Qed.
Print Assumptions C141_equal_iff_clones.
(** Exactly those that were not dropped are held, and only memory that is held is in use:
    freed with the last holder, not before. *)
Theorem C141_memory l w : runs l w ->
  length (w_ids w) = length (origins l) /\
  (forall i, (i < length (origins l))%nat -> (exists a, nth_error (w_ids w) i = Some (Some a)) <-> dropped l i = false) /\
  (forall a, In a (map fst (w_heap w)) <-> exists i, nth_error (w_ids w) i = Some (Some a)) /\
  (forall i a, nth_error (w_ids w) i = Some (Some a) -> exists n, count_of a (w_heap w) = Some n /\ n = N.of_nat (holders a (w_ids w)) /\ 0 < n).
Proof.
  intros R. destruct (run_sound _ _ R) as [K C L Nw Sm Lv Gn]. split; [exact L|]. split; [|split].
  - intros i Li. split; [|intros D; apply Lv; [exact D|lia]]. intros (a & X). destruct (dropped l i) eqn:D; [|reflexivity]. apply Gn in D. congruence.
  - intros a. rewrite <- holders_some. split.
    + intros X. destruct (count_of a (w_heap w)) as [n|] eqn:Q; [apply C in Q; lia|]. apply count_in in Q. contradiction.
    + intros X. assert (Q : count_of a (w_heap w) = Some (N.of_nat (holders a (w_ids w)))) by (apply C; split; [reflexivity|lia]).
      destruct (in_dec N.eq_dec a (map fst (w_heap w))) as [Y|Y]; [exact Y|]. apply count_in in Y. congruence.
  - intros i a X. assert (P : (0 < holders a (w_ids w))%nat) by (apply holders_some; eauto). exists (N.of_nat (holders a (w_ids w))). split; [apply C; split; [reflexivity|lia]|]. split; [reflexivity|lia].
Qed.
Print Assumptions C141_memory.
(** What is held can be cloned and dropped. *)
Theorem C141_never_stuck l w i a : runs l w -> nth_error (w_ids w) i = Some (Some a) -> (exists w', step w (AClone i) w') /\ exists w', step w (ADrop i) w'.
Proof. intros R X. destruct (C141_memory l w R) as (_ & _ & _ & M). destruct (M i a X) as (n & Cn & _). split; eexists; econstructor; eassumption. Qed.
Print Assumptions C141_never_stuck.
(** ** C141: the order is a total order that agrees with equality, as [BTreeMap] needs *)
Theorem C141_order a b c :
  (id_cmp a b = Eq <-> id_eq a b = true) /\ (id_cmp a b = Lt <-> id_cmp b a = Gt) /\ (id_cmp a b = Lt -> id_cmp b c = Lt -> id_cmp a c = Lt) /\
  id_partial_cmp a b = Some (id_cmp a b) /\ id_eq a a = true /\ id_eq a b = id_eq b a.
Proof.
  unfold id_partial_cmp, id_cmp, id_eq. split; [rewrite N.compare_eq_iff, N.eqb_eq; tauto|]. split; [rewrite N.compare_lt_iff, N.compare_gt_iff; tauto|].
  split; [rewrite !N.compare_lt_iff; lia|]. split; [reflexivity|]. split; [apply N.eqb_refl|apply N.eqb_sym].
Qed.
Print Assumptions C141_order.
(** ** C141: the text *)
(** The number that hexadecimal digits stand for. *)
Definition hex_value (c : N) : N := if c <? 58 then c - 48 else c - 87.
Definition hex_number (l : bytes) : N := fold_left (fun n c => 16 * n + hex_value c) l 0.
Lemma hex_number_app l c : hex_number (l ++ [c]) = 16 * hex_number l + hex_value c.
Proof. unfold hex_number. rewrite fold_left_app. reflexivity. Qed.
Lemma digit_value d : d < 16 -> hex_value (hex_digit d) = d.
Proof. intros H. unfold hex_value, hex_digit. destruct (d <? 10) eqn:D; [replace (48 + d <? 58) with true by lia; lia|replace (87 + d <? 58) with false by lia; lia]. Qed.
Lemma hexadecimal_spec fuel : forall n, n < 16 ^ N.of_nat fuel -> hex_number (hexadecimal_loop fuel n) = n /\
  Forall (fun c => 48 <= c < 58 \/ 97 <= c < 103) (hexadecimal_loop fuel n).
Proof.
  induction fuel as [|fuel IH]; intros n H; [cbn in *; split; [lia|constructor]|].
  assert (Dg : forall d, d < 16 -> 48 <= hex_digit d < 58 \/ 97 <= hex_digit d < 103) by (intros d Hd; unfold hex_digit; destruct (d <? 10) eqn:D; lia).
  cbn [hexadecimal_loop]. destruct (n <? 16) eqn:S.
  - split; [|constructor; [apply Dg; lia|constructor]]. unfold hex_number. cbn [fold_left]. rewrite digit_value by lia. reflexivity.
  - rewrite Nat2N.inj_succ, N.pow_succ_r' in H. destruct (IH (n / 16)) as (A & B); [apply N.div_lt_upper_bound; [lia|exact H]|].
    rewrite hex_number_app, A, digit_value by (apply N.mod_lt; lia). split; [symmetry; apply N.div_mod; lia|]. apply Forall_app. split; [exact B|]. constructor; [apply Dg; apply N.mod_lt; lia|constructor].
Qed.
Lemma fuel_enough n : n < 16 ^ N.of_nat (S (N.to_nat (N.log2 n))).
Proof.
  rewrite Nat2N.inj_succ, N2Nat.id. destruct (N.eq_0_gt_0_cases n) as [->|P]; [reflexivity|]. destruct (N.log2_spec n P) as (_ & H).
  eapply N.lt_le_trans; [exact H|]. apply N.pow_le_mono_l. lia.
Qed.
(** The text is [0x] and the digits of the address, which it tells; so held identities have
    the same text exactly when they are equal. *)
Theorem C141_text a b : id_text a = fill "0x{}" [hexadecimal a] /\ hex_number (hexadecimal a) = a /\ Forall (fun c => 48 <= c < 58 \/ 97 <= c < 103) (hexadecimal a) /\
  (id_text a = id_text b <-> id_eq a b = true).
Proof.
  destruct (hexadecimal_spec _ a (fuel_enough a)) as (A & A'). destruct (hexadecimal_spec _ b (fuel_enough b)) as (B & _). fold (hexadecimal a) in A, A'. fold (hexadecimal b) in B.
  split; [unfold id_text; cbn; rewrite app_nil_r; reflexivity|]. split; [exact A|]. split; [exact A'|]. unfold id_eq. rewrite N.eqb_eq. split; [|congruence].
  intros E. apply app_inv_head in E. congruence.
Qed.
Print Assumptions C141_text.
(** ** C141, refuted: an identity stands for one [default] for ever.  Any address that is no
    longer held can be the next one: the text in a log, or an address kept apart from the
    identity, then means something else. *)
Theorem C141_for_ever_refuted l w a i : runs l w -> a <> 0 -> nth_error (w_ids w) i = Some (Some a) -> holders a (w_ids w) = 1%nat ->
  exists w', runs (l ++ [ADrop i] ++ [ANew]) w' /\ nth_error (w_ids w') (length (origins l)) = Some (Some a) /\
    nth_error (origins (l ++ [ADrop i] ++ [ANew])) (length (origins l)) <> nth_error (origins l) i.
Proof.
  intros R A0 X H1. destruct (C141_memory l w R) as (Le & _ & _ & M). destruct (M i a X) as (n & Cn & Hn & _). rewrite H1 in Hn. cbn in Hn. subst n.
  assert (R1 := runs_step _ _ _ _ R (step_drop w i a 1 X Cn)). cbn [N.eqb Pos.eqb] in R1.
  assert (Sd := run_sound _ _ R).
  assert (F : count_of a (release a (w_heap w)) = None) by (rewrite count_release, N.eqb_refl by apply (so_keys _ _ Sd); reflexivity).
  assert (R2 := runs_step _ _ _ _ R1 (step_new {| w_heap := release a (w_heap w); w_ids := forget i (w_ids w) |} a A0 F)). cbn [w_heap w_ids] in R2.
  eexists. rewrite app_assoc. split; [exact R2|]. cbn [w_ids]. split.
  - rewrite nth_app_last, forget_length, Le, Nat.ltb_irrefl, Nat.eqb_refl. reflexivity.
  - rewrite !origins_step, nth_app_last, Nat.ltb_irrefl, Nat.eqb_refl. rewrite news_step. cbn [is_new]. rewrite Nat.add_0_r. intros E. symmetry in E. apply nth_error_In in E. pose proof (so_new _ _ Sd) as Nw. rewrite Forall_forall in Nw. apply Nw in E. lia.
Qed.
Print Assumptions C141_for_ever_refuted.
(** ** C141, refuted: the order is the order of making.  Both orders happen for the same
    actions. *)
Theorem C141_creation_order_refuted a b : a <> 0 -> b <> 0 -> a < b ->
  exists w w', runs [ANew; ANew] w /\ runs [ANew; ANew] w' /\ w_ids w = [Some a; Some b] /\ w_ids w' = [Some b; Some a] /\ id_cmp a b = Lt /\ id_cmp b a = Gt.
Proof.
  intros A B L. assert (E : forall x y, x <> 0 -> y <> 0 -> x <> y -> exists w, runs [ANew; ANew] w /\ w_ids w = [Some x; Some y]).
  { intros x y X Y XY. assert (R1 := runs_step _ _ _ _ runs_none (step_new empty_world x X eq_refl)). 
    assert (F : count_of y [(x, 1)] = None) by (cbn; destruct (y =? x) eqn:Q; [lia|reflexivity]).
    assert (R2 := runs_step _ _ _ _ R1 (step_new {| w_heap := [(x, 1)]; w_ids := [Some x] |} y Y F)). eexists. split; [exact R2|reflexivity]. }
  destruct (E a b A B ltac:(lia)) as (w & W1 & W2). destruct (E b a B A ltac:(lia)) as (w' & W3 & W4). exists w, w'. unfold id_cmp. do 4 (split; [assumption|]). split; [apply N.compare_lt_iff|apply N.compare_gt_iff]; lia.
Qed.
Print Assumptions C141_creation_order_refuted.
(** Three identities: a clone of the first is held when the first is dropped, so its memory
    is not given away; the text of one. *)
Example C141_case : exists w, runs [ANew; AClone 0; ADrop 0; ANew] w /\ w_ids w = [None; Some 4096; Some 48879] /\ w_heap w = [(48879, 1); (4096, 1)] /\
  origins [ANew; AClone 0; ADrop 0; ANew] = [0; 0; 1]%nat /\ id_text 48879 = ascii_bytes "0xbeef" /\ ~ exists w', step w ANew w' /\ nth_error (w_ids w') 3 = Some (Some 4096).
Proof.
  assert (R1 := runs_step _ _ _ _ runs_none (step_new empty_world 4096 ltac:(discriminate) eq_refl)).
  assert (R2 := runs_step _ _ _ _ R1 (step_clone {| w_heap := [(4096, 1)]; w_ids := [Some 4096] |} 0 4096 1 eq_refl eq_refl)).
  assert (R3 := runs_step _ _ _ _ R2 (step_drop {| w_heap := [(4096, 2)]; w_ids := [Some 4096; Some 4096] |} 0 4096 2 eq_refl eq_refl)).
  assert (R4 := runs_step _ _ _ _ R3 (step_new {| w_heap := [(4096, 1)]; w_ids := [None; Some 4096] |} 48879 ltac:(discriminate) eq_refl)).
  eexists. split; [exact R4|]. split; [reflexivity|]. split; [reflexivity|]. split; [reflexivity|]. split; [vm_compute; reflexivity|].
  intros (w' & St & E). inversion St as [a A0 A1| |]; subst. cbn in E. injection E as ->. cbn in A1. discriminate A1.
Qed.
