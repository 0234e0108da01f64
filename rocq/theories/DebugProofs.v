(** The formatter: the text [{:#?}] as a text at a depth, and texts that tell values apart. *)
From Verif Require Import Base BaseProofs UtilModel Asn1ToolModel Asn1PrintProps HexDumpModel HexDumpProps DebugModel.
Local Open Scope string_scope. Local Open Scope list_scope. Local Open Scope N_scope.

(** *** Induction over debug values *)
Definition dbg_rec' (P : dbg -> Prop) (T : forall p a, P (DText p a)) (M : forall n v, P v -> P (DNamed n v))
  (G : forall g n items, Forall P items -> P (DGroup g n items)) : forall d, P d :=
  fix go d := match d with
    | DText p a => T p a
    | DNamed n v => M n v (go v)
    | DGroup g n items => G g n items ((fix each l := match l return Forall P l with [] => Forall_nil P | x :: t => Forall_cons x (go x) (each t) end) items)
    end.

(** *** Depth *)
Definition sp (k : nat) : bytes := repeat 32 (4 * k).
Definition nl (k : nat) : bytes := 10 :: sp k.
Fixpoint shift (k : nat) (s : bytes) : bytes :=
  match s with [] => [] | c :: t => if c =? 10 then nl k ++ shift k t else c :: shift k t end.
Fixpoint at_depth (k : nat) (d : dbg) : bytes :=
  match d with
  | DText _ a => shift k a
  | DNamed n v => n ++ ascii_bytes ": " ++ at_depth k v
  | DGroup g n items =>
    match items with
    | [] => n ++ empty_group g
    | _ => n ++ pretty_open g ++ flat_map (fun i => nl (S k) ++ at_depth (S k) i ++ [44]) items ++ nl k ++ pretty_close g
    end
  end.
(** Names are on one line. *)
Fixpoint named_flat (d : dbg) : Prop :=
  match d with
  | DText _ _ => True
  | DNamed n v => ~ In 10 n /\ named_flat v
  | DGroup _ n items => ~ In 10 n /\ (fix all l := match l with [] => True | x :: t => named_flat x /\ all t end) items
  end.
Lemma named_all l : (fix all l := match l with [] => True | x :: t => named_flat x /\ all t end) l <-> Forall named_flat l.
Proof. induction l as [|x l IH]; [split; constructor|]. rewrite Forall_cons_iff, <- IH. tauto. Qed.

Lemma shift_app k a b : shift k (a ++ b) = shift k a ++ shift k b.
Proof. induction a as [|c a IH]; [reflexivity|]. cbn [shift app]. destruct (c =? 10); rewrite IH; [rewrite <- app_assoc|]; reflexivity. Qed.
Lemma shift_flat k a : ~ In 10 a -> shift k a = a.
Proof. induction a as [|c a IH]; [reflexivity|]. intros H. cbn [shift]. destruct (N.eqb_spec c 10) as [->|_]; [destruct H; left; reflexivity|]. rewrite IH; [reflexivity|]. intros X; apply H; right; exact X. Qed.
Lemma sp_flat k : ~ In 10 (sp k).
Proof. intros H. apply repeat_spec in H. discriminate. Qed.
Lemma sp_add a b : sp a ++ sp b = sp (a + b).
Proof. unfold sp. rewrite <- repeat_app. f_equal. lia. Qed.
Lemma shift_shift k j s : shift k (shift j s) = shift (k + j) s.
Proof.
  induction s as [|c s IH]; [reflexivity|]. cbn [shift]. destruct (N.eqb_spec c 10) as [->|N].
  - rewrite shift_app, IH. unfold nl. cbn [shift]. change (10 =? 10) with true. cbv iota. rewrite (shift_flat k (sp j)) by apply sp_flat. unfold nl. cbn [app]. rewrite sp_add. reflexivity.
  - cbn [shift]. apply N.eqb_neq in N. rewrite N, IH. reflexivity.
Qed.
Lemma shift_zero s : shift 0 s = s.
Proof. induction s as [|c s IH]; [reflexivity|]. cbn [shift]. destruct (N.eqb_spec c 10) as [->|N]; rewrite IH; reflexivity. Qed.
Lemma shift_inj k a b : shift k a = shift k b -> a = b.
Proof.
  revert b. induction a as [|c a IH]; intros [|c' b]; cbn [shift]; intros H; [reflexivity| | |].
  - destruct (c' =? 10); discriminate.
  - destruct (c =? 10); discriminate.
  - destruct (N.eqb_spec c 10) as [->|N], (N.eqb_spec c' 10) as [->|N'].
    + apply app_inv_head in H. rewrite (IH _ H). reflexivity.
    + injection H as H _. congruence.
    + injection H as H _. congruence.
    + injection H as -> H. rewrite (IH _ H). reflexivity.
Qed.
Lemma pad_ok s : forall b c t, c <> 10 -> pad b (s ++ c :: t) = (if b then sp 1 else []) ++ shift 1 s ++ c :: pad false t.
Proof.
  induction s as [|x s IH]; intros b c t N.
  - cbn [app pad shift]. apply N.eqb_neq in N. rewrite N. destruct b; reflexivity.
  - cbn [app pad shift]. destruct (N.eqb_spec x 10) as [->|X].
    + rewrite (IH true c t N). change (10 =? 10) with true. cbv iota. unfold nl. destruct b; reflexivity.
    + rewrite (IH false c t N). destruct b; reflexivity.
Qed.
Lemma pad_item s : pad true (s ++ [44; 10]) = sp 1 ++ shift 1 s ++ [44; 10].
Proof. rewrite pad_ok by discriminate. reflexivity. Qed.
Lemma nl_turn k (l : list bytes) e :
  nl k ++ flat_map (fun x => sp 1 ++ x ++ 44 :: nl k) l ++ e = flat_map (fun x => nl (S k) ++ x ++ [44]) l ++ nl k ++ e.
Proof.
  assert (E : nl (S k) = nl k ++ sp 1) by (unfold nl; cbn [app]; rewrite sp_add, Nat.add_1_r; reflexivity).
  set (f := fun x => nl (S k) ++ x ++ [44]). assert (F : forall x, f x = nl k ++ sp 1 ++ x ++ [44]) by (intros z; unfold f; rewrite E, <- app_assoc; reflexivity). clearbody f.
  induction l as [|x l IH]; [reflexivity|]. cbn [flat_map]. rewrite F, <- !app_assoc. do 3 f_equal.
  change ((44 :: nl k) ++ flat_map (fun x => sp 1 ++ x ++ 44 :: nl k) l ++ e) with (44 :: nl k ++ flat_map (fun x => sp 1 ++ x ++ 44 :: nl k) l ++ e). rewrite IH. reflexivity.
Qed.
Lemma group_flat g : ~ In 10 (pretty_open g) /\ ~ In 10 (pretty_close g) /\ ~ In 10 (empty_group g).
Proof. destruct g; repeat split; intros H; vm_compute in H; intuition discriminate. Qed.
Lemma at_depth_ok d : named_flat d -> forall k, shift k (pretty d) = at_depth k d.
Proof.
  induction d as [p a|n v IH|g n items IH] using dbg_rec'; intros F k.
  - reflexivity.
  - destruct F as [Fn Fv]. cbn [pretty at_depth]. rewrite !shift_app, (IH Fv), (shift_flat k n Fn). reflexivity.
  - destruct F as [Fn Fi]. apply named_all in Fi. destruct (group_flat g) as (Go & Gc & Ge). cbn [pretty at_depth]. destruct items as [|i0 items].
    + rewrite shift_app, (shift_flat k n Fn), (shift_flat k _ Ge). reflexivity.
    + rewrite !shift_app, (shift_flat k n Fn), (shift_flat k _ Go), (shift_flat k _ Gc). do 2 f_equal. change (shift k [10]) with (nl k ++ []). rewrite app_nil_r.
      transitivity (nl k ++ flat_map (fun x => sp 1 ++ x ++ 44 :: nl k) (map (at_depth (S k)) (i0 :: items)) ++ pretty_close g).
      * f_equal. f_equal. set (l := i0 :: items) in *. clearbody l. clear Go Gc Ge Fn. induction l as [|i l IHl]; [reflexivity|].
        inversion IH as [|? ? P1 P2]; subst. inversion Fi as [|? ? Q1 Q2]; subst. cbn [flat_map map]. rewrite shift_app, (IHl P2 Q2). f_equal. rewrite pad_item, !shift_app, (shift_flat k (sp 1) (sp_flat 1)), shift_shift, Nat.add_1_r, (P1 Q1). f_equal. f_equal. cbn [shift]. change (44 =? 10) with false. change (10 =? 10) with true. cbv iota. rewrite app_nil_r. reflexivity.
      * rewrite nl_turn. f_equal. rewrite !flat_map_concat_map, map_map. reflexivity.
Qed.
Lemma pretty_depth d : named_flat d -> pretty d = at_depth 0 d.
Proof. intros F. rewrite <- (at_depth_ok d F 0), shift_zero. reflexivity. Qed.

(** *** Texts that tell values apart *)
Definition stop (c : N) : Prop := c = 44 \/ c = 32 \/ c = 10 \/ c = 41 \/ c = 93 \/ c = 125.
Definition halts (s : bytes) : Prop := match s with [] => True | c :: _ => stop c end.
Definition bsep (t t' : bytes) (R : Prop) : Prop := forall s u, halts s -> halts u -> t ++ s = t' ++ u -> R /\ s = u.
Definition render (m : option nat) (d : dbg) : bytes := match m with None => plain d | Some k => at_depth k d end.
Definition sep (m : option nat) (d d' : dbg) (R : Prop) : Prop := bsep (render m d) (render m d') R.
Definition deeper (m : option nat) : option nat := option_map S m.

Lemma bsep_weak t t' (R Q : Prop) : (R -> Q) -> bsep t t' R -> bsep t t' Q.
Proof. intros W B s u Hs Hu E. destruct (B s u Hs Hu E) as [r e]. split; [exact (W r)|exact e]. Qed.
Lemma sep_text m t t' R : ~ In 10 t -> ~ In 10 t' -> bsep t t' R -> sep m (dtext t) (dtext t') R.
Proof. intros N N' B. unfold sep, render. destruct m as [k|]; cbn; [rewrite !shift_flat by assumption|]; exact B. Qed.
Lemma render_named m n v : render m (DNamed n v) = n ++ ascii_bytes ": " ++ render m v.
Proof. destruct m; reflexivity. Qed.
Lemma sep_named m n v v' R : sep m v v' R -> sep m (DNamed n v) (DNamed n v') R.
Proof. unfold sep. rewrite !render_named. intros B s u Hs Hu E. rewrite <- !app_assoc in E. apply app_inv_head, app_inv_head in E. exact (B s u Hs Hu E). Qed.
(** Lists of items, one by one. *)
Inductive seps (m : option nat) : list dbg -> list dbg -> Prop -> Prop :=
| seps_nil : seps m [] [] True
| seps_cons d d' l l' R Q : sep m d d' R -> seps m l l' Q -> seps m (d :: l) (d' :: l') (R /\ Q).
Lemma nl_cons k : nl k = 10 :: sp k. Proof. reflexivity. Qed.
Lemma seps_group m g n a l a' l' R : seps (deeper m) (a :: l) (a' :: l') R -> sep m (DGroup g n (a :: l)) (DGroup g n (a' :: l')) R.
Proof.
  intros S s u Hs Hu E. unfold render in E. destruct m as [k|].
  - cbn [at_depth] in E. rewrite <- !app_assoc in E. apply app_inv_head, app_inv_head in E.
    remember (a :: l) as x eqn:X. remember (a' :: l') as y eqn:Y. clear X Y a l a' l'. remember (deeper (Some k)) as dm eqn:M.
    revert s u Hs Hu E. induction S as [|d d' x x' P Q D S IH]; intros s u Hs Hu E.
    + split; [exact I|]. cbn [flat_map app] in E. injection E as E. apply app_inv_head, app_inv_head in E. exact E.
    + subst dm. cbn [flat_map deeper option_map] in *. rewrite <- !app_assoc in E. apply app_inv_head in E. cbn [app] in E.
      destruct (D (44 :: flat_map (fun i => nl (Datatypes.S k) ++ at_depth (Datatypes.S k) i ++ [44]) x ++ nl k ++ pretty_close g ++ s)
                  (44 :: flat_map (fun i => nl (Datatypes.S k) ++ at_depth (Datatypes.S k) i ++ [44]) x' ++ nl k ++ pretty_close g ++ u)) as [r e]; [left; reflexivity|left; reflexivity| |].
      { cbn [render]. exact E. }
      apply (f_equal (@tl N)) in e. cbn [tl] in e. destruct (IH s u Hs Hu e) as [q f]. split; [split; assumption|exact f].
  - cbn [plain] in E. rewrite <- !app_assoc in E. apply app_inv_head, app_inv_head in E.
    assert (C : forall z, halts (plain_close g ++ z)) by (intros z; destruct g; cbn; unfold stop; tauto).
    revert a' l' s u R S Hs Hu E. revert a. induction l as [|b l IH]; intros a a' l' s u R S Hs Hu E.
    + inversion S as [|? ? ? ? P Q D S']; subst. inversion S'; subst. cbn [map commas app] in E. destruct (D _ _ (C s) (C u) E) as [r e]. apply app_inv_head in e. split; [split; [exact r|exact I]|exact e].
    + inversion S as [|? ? ? ? P Q D S']; subst. inversion S' as [|? b' ? l2 P' Q' D' S'']; subst. change (map plain (a :: b :: l)) with (plain a :: plain b :: map plain l) in E. change (map plain (a' :: b' :: l2)) with (plain a' :: plain b' :: map plain l2) in E.
      change (commas (plain a :: plain b :: map plain l)) with (plain a ++ ascii_bytes ", " ++ commas (map plain (b :: l))) in E.
      change (commas (plain a' :: plain b' :: map plain l2)) with (plain a' ++ ascii_bytes ", " ++ commas (map plain (b' :: l2))) in E.
      rewrite <- !app_assoc in E. destruct (D (ascii_bytes ", " ++ commas (map plain (b :: l)) ++ plain_close g ++ s) (ascii_bytes ", " ++ commas (map plain (b' :: l2)) ++ plain_close g ++ u)) as [r e]; [left; reflexivity|left; reflexivity|exact E|].
      apply app_inv_head in e. destruct (IH b b' l2 s u _ S' Hs Hu e) as [q f]. split; [split; assumption|exact f].
Qed.
(** Vectors: also the number of items is told apart, when no item starts like the end. *)
Definition begins (t : bytes) : Prop := t <> [] /\ hd 0 t <> 93.
Lemma sep_vec {A} (f : A -> dbg) (R : A -> A -> Prop) m l : forall l',
  (forall x y, In x l -> In y l' -> sep (deeper m) (f x) (f y) (R x y)) ->
  (forall x, In x l \/ In x l' -> begins (render (deeper m) (f x))) ->
  sep m (dvec f l) (dvec f l') (Forall2 R l l').
Proof.
  destruct m as [k|].
  - intros l' D B s u Hs Hu E. unfold dvec in E. cbn [render deeper option_map] in *.
    assert (X : forall l l', (forall x y, In x l -> In y l' -> sep (Some (S k)) (f x) (f y) (R x y)) ->
      flat_map (fun i => nl (S k) ++ at_depth (S k) i ++ [44]) (map f l) ++ nl k ++ [93] ++ s =
      flat_map (fun i => nl (S k) ++ at_depth (S k) i ++ [44]) (map f l') ++ nl k ++ [93] ++ u -> Forall2 R l l' /\ s = u).
    { clear. intros l. assert (NE : forall a b c, nl (S k) ++ a = nl k ++ [93] ++ b -> c). { intros a b c H. exfalso. assert (EQ : nl (S k) = nl k ++ sp 1) by (unfold nl; cbn [app]; rewrite sp_add; repeat f_equal; lia). rewrite EQ, <- app_assoc in H. apply app_inv_head in H. discriminate H. }
      induction l as [|x l IH]; intros [|y l'] D E; cbn [map flat_map] in E.
      - cbn [app] in E. injection E as E. apply app_inv_head in E. injection E as E. split; [constructor|exact E].
      - rewrite <- !app_assoc in E. symmetry in E. exact (NE _ _ _ E).
      - rewrite <- !app_assoc in E. exact (NE _ _ _ E).
      - rewrite <- !app_assoc in E. apply app_inv_head in E. destruct (D x y (or_introl eq_refl) (or_introl eq_refl) _ _ (or_introl eq_refl : halts (44 :: _)) (or_introl eq_refl : halts (44 :: _)) E) as [r e]. cbn [app] in e. injection e as e.
        destruct (IH l') as [fr fe]; [intros a b Ia Ib; apply D; right; assumption|exact e|]. split; [constructor; assumption|exact fe]. }
    destruct l as [|x l], l' as [|y l'].
    + cbn in E. injection E as E. split; [constructor|exact E].
    + cbn in E. discriminate E.
    + cbn in E. discriminate E.
    + apply (X (x :: l) (y :: l')); [exact D|]. change (at_depth k (DGroup GList [] (map f (x :: l)))) with ([91] ++ flat_map (fun i => nl (S k) ++ at_depth (S k) i ++ [44]) (map f (x :: l)) ++ nl k ++ [93]) in E.
      change (at_depth k (DGroup GList [] (map f (y :: l')))) with ([91] ++ flat_map (fun i => nl (S k) ++ at_depth (S k) i ++ [44]) (map f (y :: l')) ++ nl k ++ [93]) in E. rewrite <- !app_assoc in E. apply app_inv_head in E. exact E.
  - intros l' D B s u Hs Hu E. unfold dvec in E. cbn [render deeper option_map] in *.
    assert (X : forall l l' x y, (forall a b, In a (x :: l) -> In b (y :: l') -> sep None (f a) (f b) (R a b)) ->
      commas (map plain (map f (x :: l))) ++ [93] ++ s = commas (map plain (map f (y :: l'))) ++ [93] ++ u -> Forall2 R (x :: l) (y :: l') /\ s = u).
    { clear. induction l as [|a l IH]; intros [|b l'] x y D E.
      - cbn [map commas app] in E. destruct (D x y (or_introl eq_refl) (or_introl eq_refl) (93 :: s) (93 :: u)) as [r e]; [unfold halts, stop; tauto|unfold halts, stop; tauto|exact E|]. injection e as e. split; [constructor; [exact r|constructor]|exact e].
      - change (commas (map plain (map f [x]))) with (plain (f x)) in E. change (commas (map plain (map f (y :: b :: l')))) with (plain (f y) ++ [44; 32] ++ commas (map plain (map f (b :: l')))) in E. rewrite <- !app_assoc in E.
        destruct (D x y (or_introl eq_refl) (or_introl eq_refl) (93 :: s) ([44; 32] ++ commas (map plain (map f (b :: l'))) ++ [93] ++ u)) as [r e]; [unfold halts, stop; tauto|unfold halts, stop; cbn; tauto|exact E|]. discriminate e.
      - change (commas (map plain (map f [y]))) with (plain (f y)) in E. change (commas (map plain (map f (x :: a :: l)))) with (plain (f x) ++ [44; 32] ++ commas (map plain (map f (a :: l)))) in E. rewrite <- !app_assoc in E.
        destruct (D x y (or_introl eq_refl) (or_introl eq_refl) ([44; 32] ++ commas (map plain (map f (a :: l))) ++ [93] ++ s) (93 :: u)) as [r e]; [unfold halts, stop; cbn; tauto|unfold halts, stop; tauto|exact E|]. discriminate e.
      - change (commas (map plain (map f (y :: b :: l')))) with (plain (f y) ++ [44; 32] ++ commas (map plain (map f (b :: l')))) in E. change (commas (map plain (map f (x :: a :: l)))) with (plain (f x) ++ [44; 32] ++ commas (map plain (map f (a :: l)))) in E. rewrite <- !app_assoc in E.
        destruct (D x y (or_introl eq_refl) (or_introl eq_refl) ([44; 32] ++ commas (map plain (map f (a :: l))) ++ [93] ++ s) ([44; 32] ++ commas (map plain (map f (b :: l'))) ++ [93] ++ u)) as [r e]; [unfold halts, stop; cbn; tauto|unfold halts, stop; cbn; tauto|exact E|].
        apply app_inv_head in e. destruct (IH l' a b) as [fr fe]; [intros p q Ip Iq; apply D; right; assumption|exact e|]. split; [constructor; assumption|exact fe]. }
    assert (Y : forall x l, plain (DGroup GList [] (map f (x :: l))) = [91] ++ commas (map plain (map f (x :: l))) ++ [93]) by reflexivity.
    assert (Z : forall x l c z, begins (plain (f x)) -> [93] ++ z <> commas (map plain (map f (x :: l))) ++ c).
    { clear. intros x l c z [P Q] H. assert (HD : commas (map plain (map f (x :: l))) = plain (f x) ++ match l with [] => [] | _ => [44; 32] ++ commas (map plain (map f l)) end) by (destruct l as [|a l]; [cbn [map commas]; rewrite app_nil_r|]; reflexivity).
      rewrite HD in H. destruct (plain (f x)) as [|c0 p]; [congruence|]. cbn in H. injection H as H _. cbn in Q. congruence. }
    destruct l as [|x l], l' as [|y l'].
    + cbn in E. injection E as E. split; [constructor|exact E].
    + rewrite Y in E. cbn [map plain empty_group] in E. change (([] ++ ascii_bytes "[]") ++ s) with ([91] ++ [93] ++ s) in E. rewrite <- !app_assoc in E. apply app_inv_head in E. exfalso. apply (Z y l' ([93] ++ u) s); [apply B; right; left; reflexivity|exact E].
    + rewrite Y in E. cbn [map plain empty_group] in E. change (([] ++ ascii_bytes "[]") ++ u) with ([91] ++ [93] ++ u) in E. rewrite <- !app_assoc in E. apply app_inv_head in E. exfalso. apply (Z x l ([93] ++ s) u); [apply B; left; left; reflexivity|symmetry; exact E].
    + apply (X l l' x y); [exact D|]. rewrite !Y, <- !app_assoc in E. apply app_inv_head in E. exact E.
Qed.

(** *** Leaves *)
Lemma run_sep (p : N -> Prop) t : forall t', (forall c, p c -> ~ stop c) -> Forall p t -> Forall p t' -> bsep t t' (t = t').
Proof.
  induction t as [|c t IH]; intros t' N F F' s u Hs Hu E; destruct t' as [|c' t'].
  - split; [reflexivity|exact E].
  - cbn [app] in E. subst s. inversion F' as [|? ? P ?]; subst. destruct (N _ P Hs).
  - cbn [app] in E. subst u. inversion F as [|? ? P ?]; subst. destruct (N _ P Hu).
  - cbn [app] in E. injection E as -> E. inversion F as [|? ? P Q]; subst. inversion F' as [|? ? P' Q']; subst. destruct (IH t' N Q Q' s u Hs Hu E) as [-> ->]. split; reflexivity.
Qed.
(** Letters, digits, the underscore. *)
Definition word (c : N) : Prop := 48 <= c <= 57 \/ 65 <= c <= 90 \/ c = 95 \/ 97 <= c <= 122.
Lemma word_go c : word c -> ~ stop c.
Proof. unfold word, stop. lia. Qed.
Definition wordb (c : N) : bool := ((48 <=? c) && (c <=? 57)) || ((65 <=? c) && (c <=? 90)) || (c =? 95) || ((97 <=? c) && (c <=? 122)).
Lemma words_ok t : forallb wordb t = true -> Forall word t.
Proof. intros H. apply Forall_forall. intros c Hc. rewrite forallb_forall in H. specialize (H c Hc). unfold wordb in H. unfold word. lia. Qed.
Lemma words_sep t t' : Forall word t -> Forall word t' -> bsep t t' (t = t').
Proof. apply run_sep. exact word_go. Qed.
Lemma decimal_words n : Forall word (ChatModel.decimal n).
Proof. eapply Forall_impl; [|apply decimal_digits]. intros c H. cbv beta in H. unfold word. lia. Qed.
Lemma decimal_sep n n' : bsep (ChatModel.decimal n) (ChatModel.decimal n') (n = n').
Proof. eapply bsep_weak; [apply decimal_inj|]. apply words_sep; apply decimal_words. Qed.
Lemma hex_word c : hex_char c -> word c.
Proof. unfold hex_char, word. lia. Qed.
Lemma to_hex_words d : bytes_ok d -> Forall word (to_hex d).
Proof. intros B. eapply Forall_impl; [|apply (to_hex_chars d B)]. intros c. apply hex_word. Qed.
Lemma to_hex_sep d d' : bytes_ok d -> bytes_ok d' -> bsep (to_hex d) (to_hex d') (d = d').
Proof. intros B B'. eapply bsep_weak; [apply (to_hex_inj d d' B B')|]. apply words_sep; apply to_hex_words; assumption. Qed.
Lemma hex_padded_chars w n : Forall hex_char (hex_padded w n).
Proof. unfold hex_padded. apply Forall_app. split; [|apply hex_number_ok]. apply Forall_forall. intros c H. apply repeat_spec in H. subst c. unfold hex_char. lia. Qed.
Lemma hex_padded_inj w n m : hex_padded w n = hex_padded w m -> n = m.
Proof. intros H. apply (f_equal hex_value) in H. unfold hex_padded in H. rewrite !hex_value_zeros in H. rewrite !(proj1 (hex_number_ok _)) in H. exact H. Qed.
Lemma hex_padded_some w n : hex_padded w n <> [].
Proof. intros H. assert (E : hex_number n = []) by (unfold hex_padded in H; destruct (repeat 48 (w - length (hex_number n))); [exact H|discriminate H]). unfold hex_number in E. cbn [hex_loop] in E. destruct (n <? 16); [discriminate E|]. destruct (hex_loop _ _); discriminate E. Qed.
Lemma words_flat t : Forall word t -> ~ In 10 t /\ ~ In 13 t.
Proof. intros F. rewrite Forall_forall in F. split; intros H; apply F in H; unfold word in H; lia. Qed.
(** Quoted text without backslashes. *)
Lemma quoted_sep s : forall s' x y, ~ In 92 s -> ~ In 92 s' -> flat_map escape_char s ++ 34 :: x = flat_map escape_char s' ++ 34 :: y -> s = s' /\ x = y.
Proof.
  induction s as [|c s IH]; intros [|c' s'] x y N N' E; cbn [flat_map app] in E.
  - injection E as E. split; [reflexivity|exact E].
  - exfalso. unfold escape_char in E. destruct (N.eqb_spec c' 34) as [->|A1]; [discriminate E|]. destruct (N.eqb_spec c' 13) as [->|A2]; [discriminate E|]. destruct (N.eqb_spec c' 10) as [->|A3]; [discriminate E|]. cbn in E. injection E as E _. congruence.
  - exfalso. unfold escape_char in E. destruct (N.eqb_spec c 34) as [->|A1]; [discriminate E|]. destruct (N.eqb_spec c 13) as [->|A2]; [discriminate E|]. destruct (N.eqb_spec c 10) as [->|A3]; [discriminate E|]. cbn in E. injection E as E _. congruence.
  - rewrite <- !app_assoc in E.
    assert (NC : c <> 92) by (intros ->; apply N; left; reflexivity). assert (NC' : c' <> 92) by (intros ->; apply N'; left; reflexivity).
    assert (NS : ~ In 92 s) by (intros H; apply N; right; exact H). assert (NS' : ~ In 92 s') by (intros H; apply N'; right; exact H).
    assert (C : c = c' /\ flat_map escape_char s ++ 34 :: x = flat_map escape_char s' ++ 34 :: y).
    { unfold escape_char in E at 1. unfold escape_char in E at 2. destruct (N.eqb_spec c 34) as [->|A1]; [|destruct (N.eqb_spec c 13) as [->|A2]; [|destruct (N.eqb_spec c 10) as [->|A3]]];
      (destruct (N.eqb_spec c' 34) as [->|A1']; [|destruct (N.eqb_spec c' 13) as [->|A2']; [|destruct (N.eqb_spec c' 10) as [->|A3']]]); cbn [app] in E; try discriminate E; try (injection E; intros; subst; contradiction);
      (split; [try reflexivity; injection E; intros; subst; reflexivity|injection E; intros; assumption]). }
    destruct C as [-> C]. destruct (IH s' x y NS NS' C) as [-> ->]. split; reflexivity.
Qed.
Lemma escape_sep s s' : ~ In 92 s -> ~ In 92 s' -> bsep (escape_string s) (escape_string s') (s = s').
Proof. intros N N' x y _ _ E. unfold escape_string in E. rewrite <- !app_assoc in E. cbn [app] in E. injection E as E. exact (quoted_sep s s' x y N N' E). Qed.
Lemma escape_char_flat c x : In x (escape_char c) -> x <> 10 /\ x <> 13.
Proof.
  unfold escape_char. destruct (N.eqb_spec c 34) as [_|A1]; [|destruct (N.eqb_spec c 13) as [_|A2]; [|destruct (N.eqb_spec c 10) as [_|A3]]]; cbn; intros H; intuition congruence.
Qed.
Lemma escape_flat s : ~ In 10 (escape_string s) /\ ~ In 13 (escape_string s).
Proof.
  unfold escape_string. split; intros H; rewrite !in_app_iff in H; destruct H as [[H|[]]|[H|[H|[]]]]; try discriminate H; apply in_flat_map in H; destruct H as (c & _ & H); apply escape_char_flat in H; destruct H as [P Q]; congruence.
Qed.
