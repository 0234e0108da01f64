(** The printer of ASN.1 trees, C103. *)
From Verif Require Import Base BaseProofs BencodeSpec UtilModel UtilProps Asn1Model Asn1Spec Asn1Proofs CaModel ChatModel Asn1ToolModel.
From Verif Require ChatProps2.
Local Open Scope string_scope. Local Open Scope list_scope. Local Open Scope N_scope.

(** *** Texts *)
Lemma split_at {A} (x : A) a b a' b' : ~ In x a -> ~ In x a' -> a ++ x :: b = a' ++ x :: b' -> a = a' /\ b = b'.
Proof.
  revert a'. induction a as [|y a IH]; intros [|y' a'] N N' H; cbn [app] in H.
  - injection H as H. auto.
  - injection H as <- _. destruct N'. left. reflexivity.
  - injection H as -> _. destruct N. left. reflexivity.
  - injection H as -> H. destruct (IH a') as (-> & ->); [intros X; apply N; right; exact X|intros X; apply N'; right; exact X|exact H|]. auto.
Qed.
Lemma decimal_digits n : Forall (fun c => 48 <= c < 58) (ChatModel.decimal n).
Proof. destruct (ChatProps2.decimal_ok n) as (_ & B & _). eapply Forall_impl; [|exact B]. cbv beta. intros a. lia. Qed.
Lemma decimal_inj n m : ChatModel.decimal n = ChatModel.decimal m -> n = m.
Proof. intros H. destruct (ChatProps2.decimal_ok n) as (_ & _ & C & _). destruct (ChatProps2.decimal_ok m) as (_ & _ & C' & _). congruence. Qed.
Lemma decimal_free n c : c < 48 \/ 58 <= c -> ~ In c (ChatModel.decimal n).
Proof. intros H X. pose proof (decimal_digits n) as D. rewrite Forall_forall in D. apply D in X. lia. Qed.
Lemma decimal_some n : ChatModel.decimal n <> [].
Proof. destruct (ChatProps2.decimal_ok n) as (A & _). exact A. Qed.
(** Hexadecimal numbers. *)
Definition hex_digit_value (c : N) : N := if c <? 58 then c - 48 else c - 87.
Definition hex_value (s : bytes) : N := fold_left (fun a c => 16 * a + hex_digit_value c) s 0.
Lemma hex_digit_ok v : v < 16 -> hex_digit_value (lower_hex_digit v) = v.
Proof. intros H. unfold hex_digit_value, lower_hex_digit. destruct (v <? 10) eqn:E; [rewrite (proj2 (N.ltb_lt (48 + v) 58)) by lia|rewrite (proj2 (N.ltb_ge (87 + v) 58)) by lia]; lia. Qed.
Definition hex_char (c : N) : Prop := 48 <= c < 58 \/ 97 <= c < 103.
Lemma hex_digit_char v : v < 16 -> hex_char (lower_hex_digit v).
Proof. intros H. unfold hex_char, lower_hex_digit. destruct (v <? 10) eqn:E; lia. Qed.
Lemma hex_loop_ok fuel n : n < 2 ^ N.of_nat fuel -> hex_value (hex_loop (Datatypes.S fuel) n) = n /\ Forall hex_char (hex_loop (Datatypes.S fuel) n).
Proof.
  revert n. induction fuel as [|fuel IH]; intros n H.
  - change (2 ^ N.of_nat 0) with 1 in H. assert (n = 0) as -> by lia. split; [reflexivity|]. repeat constructor; cbn; lia.
  - remember (Datatypes.S fuel) as f eqn:Ef. cbn [hex_loop]. destruct (n <? 16) eqn:E.
    + apply N.ltb_lt in E. split; [unfold hex_value; cbn [fold_left]; rewrite hex_digit_ok by exact E; lia|]. constructor; [apply hex_digit_char, E|constructor].
    + apply N.ltb_ge in E. rewrite Ef in H. rewrite Nat2N.inj_succ, N.pow_succ_r' in H. assert (Q : n / 16 < 2 ^ N.of_nat fuel).
      { apply N.div_lt_upper_bound; [lia|]. set (p := 2 ^ N.of_nat fuel) in *. clearbody p. lia. }
      destruct (IH _ Q) as (A & B). assert (M : n mod 16 < 16) by (apply N.mod_lt; discriminate). split.
      * unfold hex_value. rewrite fold_left_app. cbn [fold_left]. fold (hex_value (hex_loop f (n / 16))). rewrite A, hex_digit_ok by exact M. symmetry. apply N.div_mod. discriminate.
      * apply Forall_app. split; [exact B|]. constructor; [apply hex_digit_char, M|constructor].
Qed.
Lemma hex_number_ok n : hex_value (hex_number n) = n /\ Forall hex_char (hex_number n).
Proof.
  unfold hex_number. destruct (N.eq_dec n 0) as [->|Z]; [split; [reflexivity|repeat constructor; cbn; lia]|].
  pose proof (N.log2_spec n ltac:(lia)) as [_ H]. destruct (n <? 16) eqn:E.
  - cbn [hex_loop]. rewrite E. apply N.ltb_lt in E. split; [unfold hex_value; cbn [fold_left]; rewrite hex_digit_ok by exact E; lia|]. constructor; [apply hex_digit_char, E|constructor].
  - cbn [hex_loop]. rewrite E. apply N.ltb_ge in E. destruct (N.to_nat (N.log2 n)) as [|f] eqn:F.
    + exfalso. assert (N.log2 n = 0) as L by lia. rewrite L in H. change (2 ^ N.succ 0) with 2 in H. lia.
    + assert (Q : n / 16 < 2 ^ N.of_nat f).
      { apply N.div_lt_upper_bound; [lia|]. assert (L : N.succ (N.log2 n) = N.succ (N.succ (N.of_nat f))) by lia. rewrite L, !N.pow_succ_r' in H. set (p := 2 ^ N.of_nat f) in *. clearbody p. lia. }
      destruct (hex_loop_ok f _ Q) as (A & B). assert (M : n mod 16 < 16) by (apply N.mod_lt; discriminate). split.
      * unfold hex_value. rewrite fold_left_app. cbn [fold_left]. fold (hex_value (hex_loop (Datatypes.S f) (n / 16))). rewrite A, hex_digit_ok by exact M. symmetry. apply N.div_mod. discriminate.
      * apply Forall_app. split; [exact B|]. constructor; [apply hex_digit_char, M|constructor].
Qed.
Lemma hex_number_inj n m : hex_number n = hex_number m -> n = m.
Proof. intros H. rewrite <- (proj1 (hex_number_ok n)), H. apply hex_number_ok. Qed.
Lemma hex_number_free n c : ~ hex_char c -> ~ In c (hex_number n).
Proof. intros H X. pose proof (proj2 (hex_number_ok n)) as D. rewrite Forall_forall in D. apply H, D, X. Qed.
Lemma to_hex_inj d d' : bytes_ok d -> bytes_ok d' -> to_hex d = to_hex d' -> d = d'.
Proof. intros B B' H. destruct (C19_hex_round_trip d B) as (_ & _ & E). destruct (C19_hex_round_trip d' B') as (_ & _ & E'). congruence. Qed.
Lemma to_hex_chars d : bytes_ok d -> Forall hex_char (to_hex d).
Proof.
  induction d as [|b d IH]; intros B; [constructor|]. apply bytes_ok_cons in B. destruct B as (B & D). change (to_hex (b :: d)) with (lower_hex_digit (b / 16) :: lower_hex_digit (b mod 16) :: to_hex d).
  constructor; [apply hex_digit_char; apply N.div_lt_upper_bound; [discriminate|exact B]|]. constructor; [apply hex_digit_char, N.mod_lt; discriminate|apply IH, D].
Qed.
Lemma to_hex_free d c : bytes_ok d -> ~ hex_char c -> ~ In c (to_hex d).
Proof. intros B H X. pose proof (to_hex_chars d B) as D. rewrite Forall_forall in D. apply H, D, X. Qed.
Lemma oid_chars first arcs : Forall (fun c => 48 <= c < 58 \/ c = 46) (oid_text_from first arcs).
Proof.
  revert first. induction arcs as [|a t IH]; intros first; cbn [oid_text_from]; [constructor|]. apply Forall_app. split; [destruct first; repeat constructor; lia|]. apply Forall_app. split; [|apply IH].
  eapply Forall_impl; [|apply decimal_digits]. cbv beta. intros c; lia.
Qed.
Lemma oid_free arcs c : (c < 46 \/ c = 47 \/ 58 <= c) -> ~ In c (oid_text arcs).
Proof. intros H X. pose proof (oid_chars true arcs) as D. rewrite Forall_forall in D. apply D in X. lia. Qed.
Lemma oid_rest arcs : oid_text_from false arcs = [] \/ exists t, oid_text_from false arcs = 46 :: t.
Proof. destruct arcs as [|a t]; [left; reflexivity|right]. eexists. reflexivity. Qed.
Lemma oid_from_inj arcs : forall arcs' b, oid_text_from b arcs = oid_text_from b arcs' -> arcs = arcs'.
Proof.
  assert (X : forall a t a' t', ChatModel.decimal a ++ oid_text_from false t = ChatModel.decimal a' ++ oid_text_from false t' -> a = a' /\ oid_text_from false t = oid_text_from false t').
  { intros a t a' t' H. pose proof (decimal_free a 46 ltac:(lia)) as F. pose proof (decimal_free a' 46 ltac:(lia)) as F'.
    destruct (oid_rest t) as [E|(r & E)]; destruct (oid_rest t') as [E'|(r' & E')]; rewrite E, E' in *; rewrite ?app_nil_r in H.
    - split; [apply decimal_inj, H|reflexivity].
    - exfalso. apply F. rewrite H. apply in_or_app. right. left. reflexivity.
    - exfalso. apply F'. rewrite <- H. apply in_or_app. right. left. reflexivity.
    - apply split_at in H; [|exact F|exact F']. destruct H as (H & ->). split; [apply decimal_inj, H|reflexivity]. }
  induction arcs as [|a t IH]; intros [|a' t'] b H; [reflexivity| | |].
  - exfalso. cbn [oid_text_from] in H. destruct b; cbn [app] in H; [|discriminate H]. symmetry in H. apply app_eq_nil in H. exact (decimal_some a' (proj1 H)).
  - exfalso. cbn [oid_text_from] in H. destruct b; cbn [app] in H; [|discriminate H]. apply app_eq_nil in H. exact (decimal_some a (proj1 H)).
  - cbn [oid_text_from] in H. apply app_inv_head in H. apply X in H. destruct H as (-> & H). f_equal. exact (IH t' false H).
Qed.
Lemma escape_inj s s' : ~ In 92 s -> ~ In 92 s' -> escape_string s = escape_string s' -> s = s'.
Proof.
  intros N N' H. unfold escape_string in H. apply app_inv_head, app_inv_tail in H. revert s' N' H. induction s as [|c s IH]; intros [|c' s'] N' H; [reflexivity| | |].
  - exfalso. cbn [flat_map] in H. symmetry in H. apply app_eq_nil in H. destruct H as (H & _). unfold escape_char in H. destruct (c' =? 34), (c' =? 13), (c' =? 10); discriminate H.
  - exfalso. cbn [flat_map] in H. apply app_eq_nil in H. destruct H as (H & _). unfold escape_char in H. destruct (c =? 34), (c =? 13), (c =? 10); discriminate H.
  - assert (C : c <> 92) by (intros ->; apply N; left; reflexivity). assert (C' : c' <> 92) by (intros ->; apply N'; left; reflexivity).
    assert (T : c = c' /\ flat_map escape_char s = flat_map escape_char s').
    { cbn [flat_map] in H. unfold escape_char at 1 3 in H.
      destruct (c =? 34) eqn:E1; [|destruct (c =? 13) eqn:E2; [|destruct (c =? 10) eqn:E3]]; (destruct (c' =? 34) eqn:F1; [|destruct (c' =? 13) eqn:F2; [|destruct (c' =? 10) eqn:F3]]);
        cbn [app] in H; try discriminate H; first [injection H as H0 H; congruence|injection H as H0 H; split; [lia|exact H]|injection H as H; split; [lia|exact H]]. }
    destruct T as (-> & T). f_equal. apply IH; [intros X; apply N; right; exact X|intros X; apply N'; right; exact X|exact T].
Qed.

(** *** Lines *)
(** A value without what is below it. *)
Definition shape (v : value) : value :=
  match v with
  | VSequence _ => VSequence [] | VSet _ => VSet []
  | VApplication t _ => VApplication t (item_of VNull) | VContextSpecific t _ => VContextSpecific t (item_of VNull) | VPrivate t _ => VPrivate t (item_of VNull)
  | v => v
  end.
(** Text without backslashes; bytes that are bytes. *)
Definition plain (v : value) : Prop :=
  match v with
  | VInteger d | VOctetString d | VBitString _ d => bytes_ok d
  | VPrintableString s | VUtf8String s | VUtcTime s | VGeneralizedTime s => ~ In 92 s
  | _ => True
  end.
Ltac not_in := let X := fresh in intros X; cbn in X; repeat (destruct X as [X|X]; [discriminate X|]); exact X.
Lemma not_hex c : (c < 48 \/ 58 <= c < 97 \/ 103 <= c) -> ~ hex_char c.
Proof. unfold hex_char. lia. Qed.
Lemma app_cons_assoc {A} (a : list A) x b : a ++ x :: b = (a ++ [x]) ++ b.
Proof. rewrite <- app_assoc. reflexivity. Qed.
Lemma own_text_inj p v v' : pr_truncate p = false -> plain v -> plain v' -> own_text p v = own_text p v' -> shape v = shape v'.
Proof.
  intros T P P' H. assert (BS : forall d, bytes_to_string p d = to_hex d) by (intros d; unfold bytes_to_string; rewrite T; reflexivity).
  pose proof (f_equal (firstn 4) H) as K.
  destruct v, v'; try discriminate K; clear K; cbn [own_text plain shape] in *.
  - destruct b, b0; try reflexivity; discriminate H.
  - apply app_inv_head in H. rewrite !BS in H. f_equal. apply to_hex_inj; assumption.
  - apply app_inv_head in H. rewrite !BS in H. change (ascii_bytes " (") with [32; 40] in H. cbn [app] in H.
    apply split_at in H; [|apply to_hex_free; [assumption|apply not_hex; lia]..]. destruct H as (H1 & H). apply to_hex_inj in H1; [|assumption..]. subst d0.
    injection H as H. apply app_inv_head in H. injection H as H. apply app_inv_tail in H. apply decimal_inj in H. congruence.
  - apply app_inv_head in H. rewrite !BS in H. change (ascii_bytes " (") with [32; 40] in H. cbn [app] in H.
    apply split_at in H; [|apply to_hex_free; [assumption|apply not_hex; lia]..]. destruct H as (H1 & _). apply to_hex_inj in H1; [|assumption..]. congruence.
  - reflexivity.
  - apply app_inv_head in H. f_equal. change (ascii_bytes " (") with [32; 40] in H. change (ascii_bytes ")") with [41] in H.
    destruct (pr_registry p arcs) as [n|], (pr_registry p arcs0) as [n'|].
    + apply (oid_from_inj _ _ true). change (oid_text arcs = oid_text arcs0). apply (f_equal (@rev N)) in H. rewrite !rev_app_distr in H. cbn [rev app] in H. rewrite <- !app_assoc in H. cbn [app] in H.
      injection H as H. apply split_at in H; [|intros X; apply in_rev in X; revert X; apply oid_free; lia..]. destruct H as (H & _). apply (f_equal (@rev N)) in H. rewrite !rev_involutive in H. exact H.
    + exfalso. apply (oid_free arcs0 41); [lia|]. rewrite <- H. rewrite !in_app_iff. right. right. right. left. reflexivity.
    + exfalso. apply (oid_free arcs 41); [lia|]. rewrite H. rewrite !in_app_iff. right. right. right. left. reflexivity.
    + exact (oid_from_inj _ _ true H).
  - apply app_inv_head, escape_inj in H; [congruence|assumption..].
  - apply app_inv_head, escape_inj in H; [congruence|assumption..].
  - apply app_inv_head, escape_inj in H; [congruence|assumption..].
  - apply app_inv_head, escape_inj in H; [congruence|assumption..].
  - reflexivity.
  - reflexivity.
  - apply app_inv_head, app_inv_tail, decimal_inj in H. congruence.
  - apply app_inv_head, app_inv_tail, decimal_inj in H. congruence.
  - apply app_inv_head, app_inv_tail, decimal_inj in H. congruence.
  - destruct id as [c f t], id0 as [c' f' t']. apply app_inv_head in H. unfold identifier_text in H. cbn [id_class id_form id_tag] in H. rewrite <- !app_assoc in H. apply app_inv_head in H.
    assert (Q : c = c' /\ f = f' /\ ChatModel.decimal t ++ ascii_bytes " }" ++ ascii_bytes ", len = " ++ ChatModel.decimal len = ChatModel.decimal t' ++ ascii_bytes " }" ++ ascii_bytes ", len = " ++ ChatModel.decimal len0).
    { destruct c, c'; try discriminate H; apply app_inv_head in H; destruct f, f'; try discriminate H; (do 3 apply app_inv_head in H); (split; [reflexivity|]); (split; [reflexivity|exact H]). }
    destruct Q as (-> & -> & Q). change (ascii_bytes " }") with [32; 125] in Q. cbn [app] in Q. apply split_at in Q; [|apply decimal_free; lia..]. destruct Q as (Q1 & Q2). apply decimal_inj in Q1.
    injection Q2 as Q2. apply decimal_inj in Q2. congruence.
Qed.
(** The names of a registry are one line each. *)
Definition names_ok (p : printer) : Prop := forall oid name, pr_registry p oid = Some name -> ~ In 10 name.
Lemma ascii_free s : Forall (fun c => c <> 10) (ascii_bytes s) -> ~ In 10 (ascii_bytes s).
Proof. intros F X. rewrite Forall_forall in F. exact (F 10 X eq_refl). Qed.
Lemma escape_free s : ~ In 10 (escape_string s).
Proof. destruct (C73_escaped_text_is_one_quoted_line s) as (body & Q & _ & N & _). rewrite Q. rewrite !in_app_iff. intros [X|[X|X]]; [revert X; not_in|contradiction|revert X; not_in]. Qed.
Lemma hex_text_free p d : bytes_ok d -> ~ In 10 (bytes_to_string p d).
Proof.
  intros B. unfold bytes_to_string. destruct (pr_truncate p && (16 <? length d)%nat); [|apply to_hex_free; [exact B|apply not_hex; lia]].
  rewrite in_app_iff. intros [X|X]; [revert X; apply to_hex_free; [apply bytes_ok_firstn, B|apply not_hex; lia]|revert X; not_in].
Qed.
Lemma own_text_line p v : names_ok p -> plain v -> ~ In 10 (own_text p v).
Proof.
  intros R P. assert (D : forall n, ~ In 10 (ChatModel.decimal n)) by (intros n; apply decimal_free; lia).
  assert (O : forall a, ~ In 10 (oid_text a)) by (intros a; apply oid_free; lia).
  destruct v; cbn [own_text plain] in *; unfold identifier_text; rewrite ?in_app_iff;
    try (intros [X|X]; [revert X; not_in|]; revert X; first [apply escape_free|apply hex_text_free; exact P]);
    try (pose proof (hex_text_free p d P) as HD).
  - destruct b; intros [X|X]; revert X; not_in.
  - intros X. repeat (destruct X as [X|X]); first [exact (HD X)|exact (D _ X)|discriminate X|destruct X|revert X; not_in].
  - intros X. repeat (destruct X as [X|X]); first [exact (HD X)|exact (D _ X)|discriminate X|destruct X|revert X; not_in].
  - not_in.
  - intros [X|X]; [revert X; not_in|]. destruct (pr_registry p arcs) as [n|] eqn:E; [|exact (O _ X)]. rewrite !in_app_iff in X.
    repeat (destruct X as [X|X]); first [exact (R _ _ E X)|exact (O _ X)|discriminate X|destruct X|revert X; not_in].
  - not_in.
  - not_in.
  - intros X. repeat (destruct X as [X|X]); first [exact (D _ X)|discriminate X|destruct X|revert X; not_in].
  - intros X. repeat (destruct X as [X|X]); first [exact (D _ X)|discriminate X|destruct X|revert X; not_in].
  - intros X. repeat (destruct X as [X|X]); first [exact (D _ X)|discriminate X|destruct X|revert X; not_in].
  - intros X. destruct id as [c f t]. cbn [id_class id_form id_tag] in X. destruct c, f; repeat (destruct X as [X|X]); first [exact (D _ X)|discriminate X|destruct X|revert X; not_in].
Qed.
(** The line of an item: its range, if wanted, and its text. *)
Definition line (p : printer) (i : item) : bytes :=
  (if pr_ranges p then ascii_bytes "[" ++ hex_number (N.of_nat (item_start i)) ++ ascii_bytes ".." ++ hex_number (N.of_nat (item_stop i)) ++ ascii_bytes "] " else []) ++ own_text p (item_value i).
Lemma line_free p i : names_ok p -> plain (item_value i) -> ~ In 10 (line p i).
Proof.
  intros R P. unfold line. rewrite in_app_iff. intros [X|X]; [|exact (own_text_line p _ R P X)]. destruct (pr_ranges p); [|exact X]. rewrite !in_app_iff in X.
  assert (HN : forall n, ~ In 10 (hex_number n)) by (intros n; apply hex_number_free, not_hex; lia).
  repeat (destruct X as [X|X]); first [exact (HN _ X)|discriminate X|destruct X|revert X; not_in].
Qed.
Lemma line_inj p i j : pr_truncate p = false -> plain (item_value i) -> plain (item_value j) -> line p i = line p j ->
  shape (item_value i) = shape (item_value j) /\ (pr_ranges p = true -> item_start i = item_start j /\ item_stop i = item_stop j).
Proof.
  intros T P P' H. unfold line in H. destruct (pr_ranges p).
  - rewrite <- !app_assoc in H. apply app_inv_head in H. change (ascii_bytes "..") with [46; 46] in H. change (ascii_bytes "] ") with [93; 32] in H. cbn [app] in H.
    apply split_at in H; [|apply hex_number_free, not_hex; lia..]. destruct H as (H1 & H). injection H as H. apply split_at in H; [|apply hex_number_free, not_hex; lia..]. destruct H as (H2 & H).
    injection H as H. apply hex_number_inj in H1. apply hex_number_inj in H2. split; [exact (own_text_inj p _ _ T P P' H)|]. intros _. split; lia.
  - split; [exact (own_text_inj p _ _ T P P' H)|discriminate].
Qed.

(** *** Trees *)
Definition print_list (p : printer) (indent : bytes) : list item -> bytes :=
  fix print_list (l : list item) : bytes :=
    match l with
    | [] => []
    | i :: t =>
      (if (0 <? length t)%nat then print_item p i (indent ++ branch) (indent ++ bar) else print_item p i (indent ++ corner) (indent ++ blank)) ++ print_list t
    end.
Definition print_below (p : printer) (v : value) (indent : bytes) : bytes :=
  match v with
  | VSequence l | VSet l => print_list p indent l
  | VApplication _ i | VContextSpecific _ i | VPrivate _ i => print_item p i (indent ++ corner) (indent ++ blank)
  | _ => []
  end.
Lemma print_item_eq p i prefix indent : print_item p i prefix indent = prefix ++ line p i ++ [10] ++ print_below p (item_value i) indent.
Proof. destruct i as [s e v]. unfold line. cbn [item_start item_stop item_value]. rewrite <- !app_assoc. destruct v; reflexivity. Qed.
Definition marks : list bytes := [branch; corner; bar; blank].
(** A text that does not go on with a line of the tree below [indent]. *)
Definition done (indent r : bytes) : Prop := forall m t, In m marks -> r <> indent ++ m ++ t.
Lemma done_last indent r : done indent r -> done (indent ++ blank) r.
Proof. intros H m t _ E. rewrite <- app_assoc in E. exact (H blank (m ++ t) ltac:(right; right; right; left; reflexivity) E). Qed.
Lemma list_start p indent l : l <> [] -> exists m t, (m = branch \/ m = corner) /\ print_list p indent l = indent ++ m ++ t.
Proof.
  destruct l as [|i t]; [congruence|]. intros _. change (print_list p indent (i :: t)) with
    ((if (0 <? length t)%nat then print_item p i (indent ++ branch) (indent ++ bar) else print_item p i (indent ++ corner) (indent ++ blank)) ++ print_list p indent t).
  destruct (0 <? length t)%nat; rewrite print_item_eq, <- !app_assoc; eexists; eexists; (split; [|reflexivity]); auto.
Qed.
Lemma done_next p indent l r : l <> [] -> done (indent ++ bar) (print_list p indent l ++ r).
Proof.
  intros N m t _ E. destruct (list_start p indent l N) as (m1 & t1 & M & X). rewrite X in E. rewrite <- !app_assoc in E. apply app_inv_head in E. destruct M as [-> | ->]; discriminate E.
Qed.
(** What a printed tree shows of an item. *)
Definition shown (p : printer) (i : item) : item := if pr_ranges p then i else erase i.
Lemma shown_list p l l' : Forall2 (fun i j => shown p i = shown p j) l l' -> (if pr_ranges p then l = l' else map erase l = map erase l').
Proof. unfold shown. destruct (pr_ranges p); induction 1; cbn [map]; congruence. Qed.
Lemma print_below_leaf p v v' indent : shape v = shape v' -> (match v with VSequence _ | VSet _ | VApplication _ _ | VContextSpecific _ _ | VPrivate _ _ => False | _ => True end) -> v = v' /\ print_below p v indent = [] /\ print_below p v' indent = [].
Proof. intros S L. destruct v; try contradiction L; destruct v'; try discriminate S; cbn in S; (split; [congruence|]); split; reflexivity. Qed.
Lemma shown_node p s e v s' e' v' : (pr_ranges p = true -> s = s' /\ e = e') -> (if pr_ranges p then v = v' else item_value (erase (Item 0 0 v)) = item_value (erase (Item 0 0 v'))) -> shown p (Item s e v) = shown p (Item s' e' v').
Proof. unfold shown. destruct (pr_ranges p); intros R V; [destruct (R eq_refl) as (-> & ->); rewrite V; reflexivity|]. cbn [erase item_value] in *. f_equal. exact V. Qed.
Lemma print_inj p i : pr_truncate p = false -> names_ok p -> every plain i -> forall j indent r r', every plain j -> done indent r -> done indent r' ->
  print_item p i [] indent ++ r = print_item p j [] indent ++ r' -> shown p i = shown p j /\ r = r'.
Proof.
  intros T R. induction i as [s e v IH] using item_ind'. intros P [s' e' v'] indent r r' P' D D' H.
  assert (PV : plain v) by apply P. assert (PV' : plain v') by apply P'.
  rewrite !print_item_eq in H. cbn [app item_value] in H. rewrite <- !app_assoc in H. cbn [app] in H. apply split_at in H; [|apply line_free; assumption..]. destruct H as (HL & H).
  destruct (line_inj p (Item s e v) (Item s' e' v') T PV PV' HL) as (S & RG). cbn [item_value item_start item_stop] in S, RG.
  (* one child *)
  assert (ONE : forall i0 j0, (every plain i0 -> forall j indent r r', every plain j -> done indent r -> done indent r' ->
      print_item p i0 [] indent ++ r = print_item p j [] indent ++ r' -> shown p i0 = shown p j /\ r = r') -> every plain i0 -> every plain j0 ->
      print_item p i0 (indent ++ corner) (indent ++ blank) ++ r = print_item p j0 (indent ++ corner) (indent ++ blank) ++ r' -> shown p i0 = shown p j0 /\ r = r').
  { intros i0 j0 IH0 P0 P0' H0. apply (IH0 P0 j0 (indent ++ blank)); [exact P0'|apply done_last, D|apply done_last, D'|].
    rewrite !print_item_eq in H0. rewrite <- !app_assoc in H0. do 2 apply app_inv_head in H0. rewrite !print_item_eq. cbn [app]. rewrite <- !app_assoc. exact H0. }
  (* many children *)
  assert (MANY : forall l l', Forall (fun i0 => every plain i0 -> forall j indent r r', every plain j -> done indent r -> done indent r' ->
      print_item p i0 [] indent ++ r = print_item p j [] indent ++ r' -> shown p i0 = shown p j /\ r = r') l -> every_list plain l -> every_list plain l' ->
      print_list p indent l ++ r = print_list p indent l' ++ r' -> Forall2 (fun i j => shown p i = shown p j) l l' /\ r = r').
  { induction l as [|x t IHl]; intros [|x' t'] F Q Q' E.
    - split; [constructor|exact E].
    - exfalso. destruct (list_start p indent (x' :: t')) as (m & u & M & X); [discriminate|]. rewrite X in E. cbn [print_list app] in E. rewrite <- !app_assoc in E. apply (D m (u ++ r')); [destruct M as [-> | ->]; [left|right; left]; reflexivity|exact E].
    - exfalso. destruct (list_start p indent (x :: t)) as (m & u & M & X); [discriminate|]. rewrite X in E. cbn [print_list app] in E. rewrite <- !app_assoc in E. symmetry in E. apply (D' m (u ++ r)); [destruct M as [-> | ->]; [left|right; left]; reflexivity|exact E].
    - inversion F as [|? ? FX FT]. subst. destruct Q as (QX & QT). destruct Q' as (QX' & QT').
      change (print_list p indent (x :: t)) with ((if (0 <? length t)%nat then print_item p x (indent ++ branch) (indent ++ bar) else print_item p x (indent ++ corner) (indent ++ blank)) ++ print_list p indent t) in E.
      change (print_list p indent (x' :: t')) with ((if (0 <? length t')%nat then print_item p x' (indent ++ branch) (indent ++ bar) else print_item p x' (indent ++ corner) (indent ++ blank)) ++ print_list p indent t') in E.
      destruct t as [|y t]; destruct t' as [|y' t']; cbn [length Nat.ltb Nat.leb] in E.
      + cbn [print_list] in E. rewrite !app_nil_r in E. destruct (ONE x x' FX QX QX' E) as (A & B). split; [repeat constructor; exact A|exact B].
      + exfalso. rewrite !print_item_eq, <- !app_assoc in E. apply app_inv_head in E. discriminate E.
      + exfalso. rewrite !print_item_eq, <- !app_assoc in E. apply app_inv_head in E. discriminate E.
      + rewrite !print_item_eq, <- !app_assoc in E. do 2 apply app_inv_head in E.
        destruct (FX QX x' (indent ++ bar) (print_list p indent (y :: t) ++ r) (print_list p indent (y' :: t') ++ r') QX') as (A & B).
        { apply done_next. discriminate. } { apply done_next. discriminate. } { rewrite !print_item_eq. cbn [app]. rewrite <- !app_assoc. exact E. }
        destruct (IHl (y' :: t') FT QT QT' B) as (A' & B'). split; [constructor; assumption|exact B']. }
  destruct P as (_ & PC). destruct P' as (_ & PC').
  destruct v; cbn [children] in IH;
    try (destruct (print_below_leaf p _ v' indent S Logic.I) as (<- & E1 & E2); rewrite E2 in H; cbn [print_below app] in H; split; [apply shown_node; [exact RG|destruct (pr_ranges p); reflexivity]|exact H]).
  - destruct v'; try discriminate S. destruct (MANY l l0 IH PC PC' H) as (A & B). split; [|exact B]. apply shown_node; [exact RG|]. apply shown_list in A. destruct (pr_ranges p); cbn [erase item_value]; congruence.
  - destruct v'; try discriminate S. destruct (MANY l l0 IH PC PC' H) as (A & B). split; [|exact B]. apply shown_node; [exact RG|]. apply shown_list in A. destruct (pr_ranges p); cbn [erase item_value]; congruence.
  - destruct v'; try discriminate S. destruct (ONE i i0 IH PC PC' H) as (A & B). split; [|exact B]. apply shown_node; [exact RG|]. cbn [shape] in S. assert (tag = tag0) as -> by congruence. unfold shown in A. destruct (pr_ranges p); cbn [erase item_value]; congruence.
  - destruct v'; try discriminate S. destruct (ONE i i0 IH PC PC' H) as (A & B). split; [|exact B]. apply shown_node; [exact RG|]. cbn [shape] in S. assert (tag = tag0) as -> by congruence. unfold shown in A. destruct (pr_ranges p); cbn [erase item_value]; congruence.
  - destruct v'; try discriminate S. destruct (ONE i i0 IH PC PC' H) as (A & B). split; [|exact B]. apply shown_node; [exact RG|]. cbn [shape] in S. assert (tag = tag0) as -> by congruence. unfold shown in A. destruct (pr_ranges p); cbn [erase item_value]; congruence.
Qed.

(** *** C103 *)
(** The items of a tree in reading order, each with the way to it: for every step down, whether
    it is to the last child. *)
Fixpoint walk (path : list bool) (i : item) : list (list bool * item) :=
  let fix below (l : list item) : list (list bool * item) :=
    match l with
    | [] => []
    | j :: t => walk (path ++ [match t with [] => true | _ => false end]) j ++ below t
    end in
  (path, i) :: match item_value i with
               | VSequence l | VSet l => below l
               | VApplication _ j | VContextSpecific _ j | VPrivate _ j => walk (path ++ [true]) j
               | _ => []
               end.
(** The branches drawn in front of an item: a bar under every ancestor that has a sibling after
    it, and a branch or a corner for the item itself. *)
Definition margin (path : list bool) : bytes := concat (map (fun last : bool => if last then blank else bar) path).
Definition drawn (path : list bool) : bytes :=
  match path with [] => [] | _ => margin (removelast path) ++ (if last path true then corner else branch) end.
Lemma drawn_snoc path b : drawn (path ++ [b]) = margin path ++ (if b then corner else branch).
Proof.
  unfold drawn. destruct (path ++ [b]) eqn:E; [apply app_eq_nil in E; destruct E; discriminate|]. rewrite <- E, removelast_last, last_last. reflexivity.
Qed.
Lemma margin_snoc path b : margin (path ++ [b]) = margin path ++ (if b then blank else bar).
Proof. unfold margin. rewrite map_app, concat_app. cbn [map concat]. rewrite app_nil_r. reflexivity. Qed.
(** The printed text: one line for each item, in that order. *)
Theorem C103_layout p i : print_tree p i = concat (map (fun x => drawn (fst x) ++ line p (snd x) ++ [10]) (walk [] i)).
Proof.
  unfold print_tree. change (print_item p i [] []) with (print_item p i (drawn []) (margin [])). generalize (@nil bool) as path. revert p.
  induction i as [s e v IH] using item_ind'. intros p path. rewrite print_item_eq.
  assert (ONE : forall i0 b, (forall p path, print_item p i0 (drawn path) (margin path) = concat (map (fun x => drawn (fst x) ++ line p (snd x) ++ [10]) (walk path i0))) ->
    print_item p i0 (margin path ++ (if b : bool then corner else branch)) (margin path ++ (if b then blank else bar)) = concat (map (fun x => drawn (fst x) ++ line p (snd x) ++ [10]) (walk (path ++ [b]) i0))).
  { intros i0 b H. rewrite <- H, drawn_snoc, margin_snoc. reflexivity. }
  assert (MANY : forall l, Forall (fun i0 => forall p path, print_item p i0 (drawn path) (margin path) = concat (map (fun x => drawn (fst x) ++ line p (snd x) ++ [10]) (walk path i0))) l ->
    print_list p (margin path) l = concat (map (fun x => drawn (fst x) ++ line p (snd x) ++ [10])
      ((fix below (l : list item) : list (list bool * item) := match l with [] => [] | j :: t => walk (path ++ [match t with [] => true | _ => false end]) j ++ below t end) l))).
  { intros l F. induction F as [|x t X F IHl]; [reflexivity|]. rewrite map_app, concat_app, <- IHl, <- (ONE x _ X).
    change (print_list p (margin path) (x :: t)) with ((if (0 <? length t)%nat then print_item p x (margin path ++ branch) (margin path ++ bar) else print_item p x (margin path ++ corner) (margin path ++ blank)) ++ print_list p (margin path) t).
    destruct t; reflexivity. }
  destruct v; cbn [children] in IH; cbn [item_value print_below]; 
    try (cbn [walk item_value map concat fst snd]; rewrite !app_nil_r; reflexivity).
  - rewrite (MANY l IH). cbn [walk item_value map concat fst snd]. rewrite <- !app_assoc. reflexivity.
  - rewrite (MANY l IH). cbn [walk item_value map concat fst snd]. rewrite <- !app_assoc. reflexivity.
  - rewrite (ONE i true IH). cbn [walk item_value map concat fst snd]. rewrite <- !app_assoc. reflexivity.
  - rewrite (ONE i true IH). cbn [walk item_value map concat fst snd]. rewrite <- !app_assoc. reflexivity.
  - rewrite (ONE i true IH). cbn [walk item_value map concat fst snd]. rewrite <- !app_assoc. reflexivity.
Qed.
Print Assumptions C103_layout.
(** One line per item, whatever its text holds. *)
Fixpoint items (i : item) : nat :=
  match item_value i with
  | VSequence l | VSet l => S (list_sum (map items l))
  | VApplication _ j | VContextSpecific _ j | VPrivate _ j => S (items j)
  | _ => 1
  end.
Lemma count_free (l : bytes) x : ~ In x l -> count_occ N.eq_dec l x = 0%nat.
Proof. apply count_occ_not_In. Qed.
Lemma margin_free path : ~ In 10 (margin path).
Proof. unfold margin. intros X. apply in_concat in X. destruct X as (m & M & X). apply in_map_iff in M. destruct M as (b & <- & _). destruct b; revert X; not_in. Qed.
Lemma drawn_free path : ~ In 10 (drawn path).
Proof. unfold drawn. destruct path as [|b t]; [exact (fun X => X)|]. rewrite in_app_iff. intros [X|X]; [exact (margin_free _ X)|]. destruct (last (b :: t) true); revert X; not_in. Qed.
Lemma walk_length path i : length (walk path i) = items i.
Proof.
  revert path. induction i as [s e v IH] using item_ind'. intros path.
  assert (MANY : forall l, Forall (fun i => forall path, length (walk path i) = items i) l ->
    length ((fix below (l : list item) : list (list bool * item) := match l with [] => [] | j :: t => walk (path ++ [match t with [] => true | _ => false end]) j ++ below t end) l) = list_sum (map items l)).
  { intros l F. induction F as [|x t X F IHl]; [reflexivity|]. rewrite app_length, X, IHl. reflexivity. }
  destruct v; cbn [children] in IH; cbn [walk items item_value length]; try reflexivity; f_equal; try (apply (MANY l IH)); apply IH.
Qed.
Lemma walk_every q i : every q i -> forall path, Forall (fun x => q (item_value (snd x))) (walk path i).
Proof.
  induction i as [s e v IH] using item_ind'. intros (Q & C) path.
  assert (MANY : forall l, Forall (fun i => every q i -> forall path, Forall (fun x => q (item_value (snd x))) (walk path i)) l -> every_list q l ->
    Forall (fun x : list bool * item => q (item_value (snd x))) ((fix below (l : list item) : list (list bool * item) := match l with [] => [] | j :: t => walk (path ++ [match t with [] => true | _ => false end]) j ++ below t end) l)).
  { intros l F E. induction F as [|x t X F IHl]; [constructor|]. destruct E as (E1 & E2). apply Forall_app. split; [apply X, E1|apply IHl, E2]. }
  destruct v; cbn [children] in IH; cbn [walk item_value]; (constructor; [exact Q|]); try constructor; try (apply (MANY l IH C)); apply IH, C.
Qed.
Theorem C103_one_line_per_item p i : names_ok p -> every plain i -> count_occ N.eq_dec (print_tree p i) 10 = items i.
Proof.
  intros R P. rewrite C103_layout, <- (walk_length [] i). pose proof (walk_every plain i P []) as F. induction F as [|[path j] t X F IH]; [reflexivity|].
  cbn [map concat fst snd length]. rewrite !count_occ_app, IH, (count_free (drawn path)) by apply drawn_free. rewrite (count_free (line p j)) by (apply line_free; assumption). reflexivity.
Qed.
Print Assumptions C103_one_line_per_item.
(** Without truncation the printed text determines the tree, as long as no text has a backslash;
    with ranges it determines even where every item was. *)
Theorem C103_determines_partial p i j : pr_truncate p = false -> names_ok p -> every plain i -> every plain j -> print_tree p i = print_tree p j -> shown p i = shown p j.
Proof.
  intros T R P P' H. apply (print_inj p i T R P j [] [] []); [exact P'|intros m t M E|intros m t M E|]; [| |rewrite !app_nil_r; exact H];
    symmetry in E; apply app_eq_nil in E; destruct E as (_ & E); apply app_eq_nil in E; destruct E as (E & _); cbn in M; repeat (destruct M as [<-|M]; [discriminate E|]); exact M.
Qed.
Print Assumptions C103_determines_partial.
(** A backslash is not escaped, so a line break and a backslash with an n look the same. *)
Theorem C103_backslash_refuted : exists p i j, pr_truncate p = false /\ names_ok p /\ erase i <> erase j /\ print_tree p i = print_tree p j.
Proof.
  exists {| pr_truncate := false; pr_registry := fun _ => None; pr_ranges := true |}, (item_of (VUtf8String [10])), (item_of (VUtf8String [92; 110])).
  split; [reflexivity|]. split; [intros oid name X; discriminate X|]. split; [discriminate|reflexivity].
Qed.
Print Assumptions C103_backslash_refuted.
(** With truncation, as bin/asn1.rs prints, numbers that agree in their first 16 bytes look the
    same, whatever their lengths. *)
Theorem C103_truncated_refuted p d x y : pr_truncate p = true -> pr_ranges p = false -> length d = 16%nat -> x <> [] -> y <> [] ->
  print_tree p (item_of (VInteger (d ++ x))) = print_tree p (item_of (VInteger (d ++ y))).
Proof.
  intros T G L X Y. unfold print_tree. rewrite !print_item_eq. unfold line. rewrite G. cbn [item_of item_value own_text print_below app]. unfold bytes_to_string. rewrite T.
  assert (Q : forall z, z <> [] -> (16 <? length (d ++ z))%nat = true) by (intros z Z; apply Nat.ltb_lt; rewrite app_length, L; destruct z; [congruence|cbn [length]; lia]).
  rewrite (Q x X), (Q y Y). cbn [andb]. rewrite !firstn_app, L, Nat.sub_diag. reflexivity.
Qed.
Print Assumptions C103_truncated_refuted.
(** The [Debug] text of a bit string shows only how many bytes it has. *)
Theorem C103_bits_debug_refuted u d d' : length d = length d' -> bit_string_debug u d = bit_string_debug u d'.
Proof. intros H. unfold bit_string_debug. rewrite H. reflexivity. Qed.
Print Assumptions C103_bits_debug_refuted.
Definition sample_printer : printer := {| pr_truncate := true; pr_registry := fun o => if bytes_eqb o [1; 3; 101; 112] then Some (ascii_bytes "ED25519") else None; pr_ranges := false |}.
Example C103_example :
  print_tree sample_printer (item_of (VSequence [item_of (VOid [1; 3; 101; 112]); item_of (VSet []); item_of (VContextSpecific 3 (item_of (VUtf8String (ascii_bytes "a"))))])) =
  ascii_bytes "Sequence" ++ [10] ++ branch ++ ascii_bytes "OBJECT ED25519 (1.3.101.112)" ++ [10] ++ branch ++ ascii_bytes "Set" ++ [10] ++
  corner ++ ascii_bytes "ContextSpecific (3)" ++ [10] ++ blank ++ corner ++ ascii_bytes "UTF8String " ++ [34; 97; 34; 10] /\
  bit_string_debug 0 [255; 254] = bit_string_debug 0 [1; 2].
Proof. split; vm_compute; reflexivity. Qed.

(** The names the tools register: every object identifier once, no two under one name, and a
    name never looks like another identifier's dotted form; so the short and long names of
    x509's [to_string] determine the identifier. *)
Lemma find_rev_in (names : list (list N * string * option string)) oid s : lookup_long_name names oid = Some s -> exists e, In e names /\ fst (fst e) = oid /\ s = ascii_bytes (snd (fst e)).
Proof.
  unfold lookup_long_name. match goal with |- context [find ?f ?l] => destruct (find f l) as [e|] eqn:E; [|discriminate] end. intros H. injection H as <-. apply find_some in E. destruct E as (I1 & E). apply in_rev in I1. apply bytes_eqb_eq in E. exists e. auto.
Qed.
Lemma short_in names oid s : lookup_short names oid = Some s -> exists l t, In (oid, l, Some t) names /\ s = ascii_bytes t.
Proof.
  induction names as [|[[o l] [t|]] names IH]; cbn [lookup_short]; [discriminate| |].
  - destruct (bytes_eqb o oid) eqn:E; [|intros H; destruct (IH H) as (l' & t' & A & B); exists l', t'; split; [right; exact A|exact B]].
    apply bytes_eqb_eq in E. subst o. intros H. injection H as <-. exists l, t. split; [left; reflexivity|reflexivity].
  - intros H; destruct (IH H) as (l' & t' & A & B); exists l', t'; split; [right; exact A|exact B].
Qed.
Definition letters (s : bytes) : bool := match s with c :: _ => (65 <=? c) | [] => false end.
Lemma oid_not_letters arcs s : letters s = true -> oid_text arcs <> s.
Proof. destruct s as [|c s]; [discriminate|]. cbn [letters]. intros L E. apply N.leb_le in L. apply (oid_free arcs c); [lia|]. rewrite E. left. reflexivity. Qed.
Theorem C103_registry :
  (forall oid oid', get_long_name x509_names oid = get_long_name x509_names oid' -> oid = oid') /\
  (forall oid oid', get_short_name x509_names oid = get_short_name x509_names oid' -> oid = oid') /\
  (forall t r, names_ok {| pr_truncate := t; pr_registry := lookup_long_name x509_names; pr_ranges := r |}).
Proof.
  assert (LL : forallb (fun e => letters (ascii_bytes (snd (fst e))) && forallb (fun f => negb (bytes_eqb (ascii_bytes (snd (fst e))) (ascii_bytes (snd (fst f)))) || bytes_eqb (fst (fst e)) (fst (fst f))) x509_names) x509_names = true) by (vm_compute; reflexivity).
  assert (SS : forallb (fun e => match snd e with None => true | Some s => letters (ascii_bytes s) && forallb (fun f => match snd f with None => true | Some s' => negb (bytes_eqb (ascii_bytes s) (ascii_bytes s')) || bytes_eqb (fst (fst e)) (fst (fst f)) end) x509_names end) x509_names = true) by (vm_compute; reflexivity).
  rewrite forallb_forall in LL, SS. split; [|split].
  - intros oid oid' H. unfold get_long_name in H. destruct (lookup_long_name x509_names oid) as [s|] eqn:E1; destruct (lookup_long_name x509_names oid') as [s'|] eqn:E2.
    + apply find_rev_in in E1. apply find_rev_in in E2. destruct E1 as (e & E & <- & ->). destruct E2 as (e' & E' & <- & ->). specialize (LL e E). apply andb_true_iff in LL. destruct LL as (_ & LL).
      rewrite forallb_forall in LL. specialize (LL e' E'). unfold bytes in *. rewrite H, bytes_eqb_refl in LL. cbn [negb orb] in LL. apply bytes_eqb_eq, LL.
    + exfalso. apply find_rev_in in E1. destruct E1 as (e & E & _ & ->). specialize (LL e E). apply andb_true_iff in LL. destruct LL as (LL & _). symmetry in H. exact (oid_not_letters _ _ LL H).
    + exfalso. apply find_rev_in in E2. destruct E2 as (e & E & _ & ->). specialize (LL e E). apply andb_true_iff in LL. destruct LL as (LL & _). exact (oid_not_letters _ _ LL H).
    + exact (oid_from_inj _ _ true H).
  - intros oid oid' H. unfold get_short_name, lookup_short_name in H. destruct (lookup_short (rev x509_names) oid) as [s|] eqn:E1; destruct (lookup_short (rev x509_names) oid') as [s'|] eqn:E2.
    + apply short_in in E1. apply short_in in E2. destruct E1 as (l & t & E & ->). destruct E2 as (l' & t' & E' & ->). apply in_rev in E. apply in_rev in E'. specialize (SS _ E). cbn [fst snd] in SS. apply andb_true_iff in SS. destruct SS as (_ & SS).
      rewrite forallb_forall in SS. specialize (SS _ E'). cbn [fst snd] in SS. rewrite H, bytes_eqb_refl in SS. cbn [negb orb] in SS. apply bytes_eqb_eq, SS.
    + exfalso. apply short_in in E1. destruct E1 as (l & t & E & ->). apply in_rev in E. specialize (SS _ E). cbn [fst snd] in SS. apply andb_true_iff in SS. destruct SS as (SS & _). symmetry in H. exact (oid_not_letters _ _ SS H).
    + exfalso. apply short_in in E2. destruct E2 as (l & t & E & ->). apply in_rev in E. specialize (SS _ E). cbn [fst snd] in SS. apply andb_true_iff in SS. destruct SS as (SS & _). exact (oid_not_letters _ _ SS H).
    + exact (oid_from_inj _ _ true H).
  - intros t r oid name H. cbn [pr_registry] in H. apply find_rev_in in H. destruct H as (e & E & _ & ->).
    assert (NN : forallb (fun e : list N * string * option string => forallb (fun c => negb (c =? 10)) (ascii_bytes (snd (fst e)))) x509_names = true) by (vm_compute; reflexivity).
    rewrite forallb_forall in NN. specialize (NN e E). rewrite forallb_forall in NN. intros X. specialize (NN 10 X). discriminate NN.
Qed.
Print Assumptions C103_registry.
Example C103_names : get_short_name x509_names [2; 5; 4; 10] = ascii_bytes "o" /\ get_long_name x509_names [1; 2; 840; 113549; 1; 1; 11] = ascii_bytes "sha256WithRSAEncryption" /\
  get_long_name x509_names [2; 5; 4; 99] = ascii_bytes "2.5.4.99".
Proof. repeat split; vm_compute; reflexivity. Qed.
