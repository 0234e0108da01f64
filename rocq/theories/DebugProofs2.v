(** The debug texts of TLS messages tell them apart: the parts. *)
From Verif Require Import Base BaseProofs UtilModel Asn1ToolModel Asn1PrintProps HexDumpModel HexDumpProps TlsCodesModel TlsTypesModel DebugModel DebugSpec DebugProofs.
Local Open Scope string_scope. Local Open Scope list_scope. Local Open Scope N_scope.

Lemma bsep_prefix p t t' R : bsep t t' R -> bsep (p ++ t) (p ++ t') R.
Proof. intros B s u Hs Hu E. rewrite <- !app_assoc in E. apply app_inv_head in E. exact (B s u Hs Hu E). Qed.
Lemma bsep_differ t t' R : (forall s u, t ++ s <> t' ++ u) -> bsep t t' R.
Proof. intros D s u _ _ E. destruct (D s u E). Qed.
Lemma bsep_suffix t t' c R : stop c -> bsep t t' R -> bsep (t ++ [c]) (t' ++ [c]) R.
Proof. intros C B s u Hs Hu E. rewrite <- !app_assoc in E. destruct (B ([c] ++ s) ([c] ++ u) C C E) as [r e]. apply app_inv_head in e. split; assumption. Qed.
Lemma word_begins t : t <> [] -> Forall word t -> begins t.
Proof. intros N F. split; [exact N|]. destruct t as [|c t]; [congruence|]. inversion F as [|? ? W ?]; subst. cbn. unfold word in W. lia. Qed.
Lemma decimal_begins n : begins (ChatModel.decimal n).
Proof. apply word_begins; [apply decimal_some|apply decimal_words]. Qed.

(** *** Code points *)
Lemma scheme_words x : Forall word (scheme_text x) /\ scheme_text x <> [].
Proof. destruct x; try (split; [apply words_ok; reflexivity|discriminate]). split; [|apply hex_padded_some]. eapply Forall_impl; [|apply hex_padded_chars]. exact hex_word. Qed.
Lemma scheme_inj x y : scheme_text x = scheme_text y -> x = y.
Proof.
  intros H.
  assert (U : forall c z, hex_padded 4 c = scheme_text z -> exists c', z = SsUnknown c').
  { intros c z E. pose proof (hex_padded_chars 4 c) as F. rewrite E in F. destruct z; try (eexists; reflexivity); exfalso; inversion F as [|? ? W ?]; unfold hex_char in W; lia. }
  destruct x as [ | | | | | | | | | | | | | | | | c]; destruct y as [ | | | | | | | | | | | | | | | | c'];
    try reflexivity; try discriminate H; try (destruct (U _ _ H) as [? X]; discriminate X); try (symmetry in H; destruct (U _ _ H) as [? X]; discriminate X).
  cbn [scheme_text] in H. apply hex_padded_inj in H. congruence.
Qed.
Lemma scheme_sep x y : bsep (scheme_text x) (scheme_text y) (x = y).
Proof. eapply bsep_weak; [apply scheme_inj|]. apply words_sep; apply scheme_words. Qed.
Lemma group_words x : Forall word (group_text x) /\ group_text x <> [].
Proof. destruct x; try (split; [apply words_ok; reflexivity|discriminate]). split; [apply decimal_words|apply decimal_some]. Qed.
Lemma group_inj x y : group_text x = group_text y -> x = y.
Proof.
  intros H.
  assert (U : forall c z, ChatModel.decimal c = group_text z -> exists c', z = NgUnknown c').
  { intros c z E. pose proof (decimal_digits c) as F. rewrite E in F. destruct z; try (eexists; reflexivity); exfalso; inversion F as [|? ? W ?]; cbv beta in W; lia. }
  destruct x as [ | | | | | | | | | | c]; destruct y as [ | | | | | | | | | | c'];
    try reflexivity; try discriminate H; try (destruct (U _ _ H) as [? X]; discriminate X); try (symmetry in H; destruct (U _ _ H) as [? X]; discriminate X).
  cbn [group_text] in H. apply decimal_inj in H. congruence.
Qed.
Lemma group_sep x y : bsep (group_text x) (group_text y) (x = y).
Proof. eapply bsep_weak; [apply group_inj|]. apply words_sep; apply group_words. Qed.
Lemma suite_words x : Forall word (suite_text x) /\ suite_text x <> [].
Proof.
  destruct x; try (split; [apply words_ok; reflexivity|discriminate]). split; [|discriminate]. cbn [suite_text]. apply Forall_app. split; [apply words_ok; reflexivity|].
  eapply Forall_impl; [|apply hex_padded_chars]. exact hex_word.
Qed.
Lemma suite_inj x y : suite_text x = suite_text y -> x = y.
Proof.
  intros H. destruct x, y; try reflexivity; try discriminate H. cbn [suite_text] in H. apply app_inv_head in H. apply hex_padded_inj in H. congruence.
Qed.
Lemma suite_sep x y : bsep (suite_text x) (suite_text y) (x = y).
Proof. eapply bsep_weak; [apply suite_inj|]. apply words_sep; apply suite_words. Qed.
(** The derived text of an unknown code. *)
Definition other (c : N) : bytes := ascii_bytes "Other(" ++ ChatModel.decimal c ++ [41].
Lemma other_eq c : plain (dtuple "Other" [dnumber c]) = other c.
Proof. reflexivity. Qed.
Lemma other_sep c c' (R : Prop) : (c = c' -> R) -> bsep (other c) (other c') R.
Proof. intros H. apply bsep_prefix, bsep_suffix; [unfold stop; tauto|]. eapply bsep_weak; [exact H|apply decimal_sep]. Qed.
Definition plain_word (t : bytes) : Prop := Forall word t /\ t <> [] /\ hd 0 t <> 79.
Lemma other_differs c t R : plain_word t -> bsep (other c) t R /\ bsep t (other c) R.
Proof. intros (F & N & H). destruct t as [|x t]; [congruence|]. cbn in H. split; apply bsep_differ; intros s u E; cbn in E; injection E as E _; congruence. Qed.
Lemma curve_kind x : (exists c, x = NcOther c) \/ plain_word (curve_text x).
Proof. destruct x; try (left; eexists; reflexivity); right; (split; [apply words_ok; reflexivity|split; discriminate]). Qed.
Lemma curve_sep x y : bsep (curve_text x) (curve_text y) (x = y).
Proof.
  destruct (curve_kind x) as [[c ->]|X], (curve_kind y) as [[c' ->]|Y].
  - cbn [curve_text]. rewrite !other_eq. apply other_sep. congruence.
  - cbn [curve_text]. rewrite !other_eq. apply (other_differs c _ _ Y).
  - cbn [curve_text]. rewrite !other_eq. apply (other_differs c' _ _ X).
  - eapply bsep_weak; [|apply words_sep; [apply X|apply Y]]. intros H. destruct X as (_ & _ & X), Y as (_ & _ & Y). clear - H X Y. destruct x, y; first [reflexivity|discriminate H|destruct X; reflexivity|destruct Y; reflexivity].
Qed.
Lemma point_kind x : (exists c, x = PfOther c) \/ plain_word (point_text x).
Proof. destruct x; try (left; eexists; reflexivity); right; (split; [apply words_ok; reflexivity|split; discriminate]). Qed.
Lemma point_sep x y : bsep (point_text x) (point_text y) (x = y).
Proof.
  destruct (point_kind x) as [[c ->]|X], (point_kind y) as [[c' ->]|Y].
  - cbn [point_text]. rewrite !other_eq. apply other_sep. congruence.
  - cbn [point_text]. rewrite !other_eq. apply (other_differs c _ _ Y).
  - cbn [point_text]. rewrite !other_eq. apply (other_differs c' _ _ X).
  - eapply bsep_weak; [|apply words_sep; [apply X|apply Y]]. intros H. destruct X as (_ & _ & X), Y as (_ & _ & Y). clear - H X Y. destruct x, y; first [reflexivity|discriminate H|destruct X; reflexivity|destruct Y; reflexivity].
Qed.
Lemma psk_sep x y : bsep (psk_text x) (psk_text y) (x = y).
Proof.
  assert (D : forall c t, hd 0 t = 80 -> t <> [] -> bsep (ChatModel.decimal c) t (x = y) /\ bsep t (ChatModel.decimal c) (x = y)).
  { intros c t H N. destruct t as [|a t]; [congruence|]. cbn in H. subst a. pose proof (decimal_digits c) as F. pose proof (decimal_some c) as S0. destruct (ChatModel.decimal c) as [|b l]; [congruence|]. inversion F as [|? ? W ?]; subst.
    split; apply bsep_differ; intros s u E; cbn in E; injection E as E _; lia. }
  destruct x as [| |c], y as [| |c'].
  all: try (apply D; [reflexivity|discriminate]).
  all: try (apply bsep_differ; intros s u E; discriminate E).
  - intros s u _ _ E. apply app_inv_head in E. auto.
  - intros s u _ _ E. apply app_inv_head in E. auto.
  - eapply bsep_weak; [|apply decimal_sep]. congruence.
Qed.
Lemma share_sep x y : bytes_ok (ks_key x) -> bytes_ok (ks_key y) -> bsep (share_text x) (share_text y) (x = y).
Proof.
  intros B B' s u Hs Hu E. unfold share_text in E. rewrite <- !app_assoc in E. destruct (group_sep (ks_group x) (ks_group y) _ _ (or_intror (or_introl eq_refl) : halts (32 :: _)) (or_intror (or_introl eq_refl) : halts (32 :: _)) E) as [G e].
  apply (f_equal (@tl N)) in e. cbn [tl] in e. destruct (to_hex_sep _ _ B B' s u Hs Hu e) as [K f]. split; [destruct x, y; cbn in *; congruence|exact f].
Qed.
Lemma cut_sep (c : N) (l : bytes) : forall (l' a b : bytes), ~ In c l -> ~ In c l' -> l ++ c :: a = l' ++ c :: b -> l = l' /\ a = b.
Proof.
  induction l as [|x l IH]; intros [|y l'] a b N N' H; cbn [app] in H.
  - injection H as ->. split; reflexivity.
  - injection H as H _. destruct N'. left. symmetry. exact H.
  - injection H as H _. destruct N. left. exact H.
  - injection H as -> H. destruct (IH l' a b) as [-> ->]; [intros X; apply N; right; exact X|intros X; apply N'; right; exact X|exact H|split; reflexivity].
Qed.
Lemma name_sep x y : (forall s, x = HostName s -> ~ In 92 s) -> (forall s, y = HostName s -> ~ In 92 s) -> bsep (name_text x) (name_text y) (same_name x y).
Proof.
  intros X Y. destruct x as [s|c d], y as [s'|c' d'].
  - cbn [name_text same_name]. eapply bsep_weak; [|apply escape_sep; [apply X|apply Y]; reflexivity]. congruence.
  - apply bsep_differ. intros z w E. discriminate E.
  - apply bsep_differ. intros z w E. discriminate E.
  - cbn [name_text same_name]. intros z w Hz Hw E. rewrite <- !app_assoc in E. apply app_inv_head in E.
    assert (G : forall a b, ChatModel.decimal c ++ 62 :: a = ChatModel.decimal c' ++ 62 :: b -> c = c' /\ a = b).
    { intros a b H. assert (P : forall n, ~ In 62 (ChatModel.decimal n)) by (intros n; apply decimal_free; right; lia).
      destruct (cut_sep 62 _ _ a b (P c) (P c') H) as [Q ->]. split; [apply decimal_inj, Q|reflexivity]. }
    exact (G _ _ E).
Qed.

(** *** Lines *)
Definition flat (t : bytes) : Prop := ~ In 10 t /\ ~ In 13 t.
Lemma flat_nil : flat []. Proof. split; intros []. Qed.
Lemma flat_app a b : flat a -> flat b -> flat (a ++ b).
Proof. intros [A B] [C D]. split; rewrite in_app_iff; tauto. Qed.
Definition flatb (t : bytes) : bool := forallb (fun c => negb ((c =? 10) || (c =? 13))) t.
Lemma flatb_ok t : flatb t = true -> flat t.
Proof. intros H. unfold flatb in H. rewrite forallb_forall in H. split; intros X; apply H in X; discriminate X. Qed.
Fixpoint leaves_flat (d : dbg) : Prop :=
  match d with
  | DText p _ => flat p
  | DNamed n v => flat n /\ leaves_flat v
  | DGroup _ n items => flat n /\ (fix all l := match l with [] => True | x :: t => leaves_flat x /\ all t end) items
  end.
Lemma leaves_all l : (fix all l := match l with [] => True | x :: t => leaves_flat x /\ all t end) l <-> Forall leaves_flat l.
Proof. induction l as [|x l IH]; [split; constructor|]. rewrite Forall_cons_iff, <- IH. tauto. Qed.
Lemma commas_flat l : Forall flat l -> flat (commas l).
Proof.
  induction l as [|x l IH]; intros F; [apply flat_nil|]. inversion F as [|? ? A B]; subst. destruct l as [|y l]; [exact A|]. change (commas (x :: y :: l)) with (x ++ ascii_bytes ", " ++ commas (y :: l)).
  apply flat_app; [exact A|]. apply flat_app; [apply flatb_ok; reflexivity|apply IH, B].
Qed.
Lemma plain_flat d : leaves_flat d -> flat (plain d).
Proof.
  induction d as [p a|n v IH|g n items IH] using dbg_rec'; intros F.
  - exact F.
  - destruct F as [A B]. cbn [plain]. apply flat_app; [exact A|]. apply flat_app; [apply flatb_ok; reflexivity|apply IH, B].
  - destruct F as [A B]. apply leaves_all in B. cbn [plain]. destruct items as [|i items].
    + apply flat_app; [exact A|]. apply flatb_ok. destruct g; reflexivity.
    + apply flat_app; [exact A|]. apply flat_app; [apply flatb_ok; destruct g; reflexivity|]. apply flat_app; [|apply flatb_ok; destruct g; reflexivity]. apply commas_flat. apply Forall_map.
      rewrite Forall_forall in *. intros x Hx. apply IH; [exact Hx|apply B, Hx].
Qed.
Lemma vec_flat {A} (f : A -> dbg) l : (forall x, In x l -> leaves_flat (f x)) -> leaves_flat (dvec f l).
Proof. intros H. cbn [dvec leaves_flat]. split; [apply flat_nil|]. apply leaves_all, Forall_map, Forall_forall. exact H. Qed.
Lemma word_flat t : Forall word t -> flat t.
Proof. apply words_flat. Qed.
Lemma other_flat c : flat (other c).
Proof. apply flat_app; [apply flatb_ok; reflexivity|]. apply flat_app; [apply word_flat, decimal_words|apply flatb_ok; reflexivity]. Qed.
Lemma curve_flat x : flat (curve_text x).
Proof. destruct (curve_kind x) as [[c ->]|(F & _)]; [apply other_flat|apply word_flat, F]. Qed.
Lemma point_flat x : flat (point_text x).
Proof. destruct (point_kind x) as [[c ->]|(F & _)]; [apply other_flat|apply word_flat, F]. Qed.
Lemma psk_flat x : flat (psk_text x).
Proof. destruct x; try (apply flatb_ok; reflexivity). apply word_flat, decimal_words. Qed.
Lemma name_flat x : flat (name_text x).
Proof. destruct x as [s|c d]; [apply escape_flat|]. cbn [name_text]. apply flat_app; [apply flatb_ok; reflexivity|]. apply flat_app; [apply word_flat, decimal_words|apply flatb_ok; reflexivity]. Qed.
Lemma share_flat k : bytes_ok (ks_key k) -> flat (share_text k).
Proof. intros B. unfold share_text. apply flat_app; [apply word_flat, group_words|]. apply flat_app; [apply flatb_ok; reflexivity|apply word_flat, to_hex_words, B]. Qed.
Lemma extension_flat lossy x : extension_bytes x -> flat (extension_text lossy x).
Proof.
  intros B. destruct x; cbn [extension_text extension_bytes] in *; try (apply flatb_ok; reflexivity).
  all: apply flat_app; [apply flatb_ok; reflexivity|].
  - apply plain_flat, vec_flat. intros d _. apply escape_flat.
  - apply plain_flat, vec_flat. intros d _. apply word_flat, scheme_words.
  - apply plain_flat, vec_flat. intros d _. apply name_flat.
  - apply plain_flat, vec_flat. intros d _. apply curve_flat.
  - apply plain_flat, vec_flat. intros d _. apply point_flat.
  - apply flat_app; [apply word_flat, decimal_words|]. apply flat_app; [apply flatb_ok; reflexivity|apply word_flat, to_hex_words, B].
  - apply plain_flat, vec_flat. intros d _. apply word_flat, decimal_words.
  - apply plain_flat, vec_flat. intros d _. apply word_flat, decimal_words.
  - apply plain_flat, vec_flat. intros d _. apply psk_flat.
  - apply plain_flat, vec_flat. intros d Hd. rewrite Forall_forall in B. apply word_flat, to_hex_words, B, Hd.
  - apply plain_flat, vec_flat. intros d Hd. rewrite Forall_forall in B. apply share_flat, B, Hd.
  - apply share_flat, B.
  - apply word_flat, to_hex_words, B.
Qed.

(** *** Extensions *)
Lemma forall2_eq {A} (l l' : list A) : Forall2 eq l l' -> l = l'.
Proof. induction 1; congruence. Qed.
Lemma vec_sep {A} (f : A -> bytes) (R : A -> A -> Prop) (Q : Prop) l l' :
  (forall x y, In x l -> In y l' -> bsep (f x) (f y) (R x y)) -> (forall x, In x l \/ In x l' -> begins (f x)) ->
  (Forall2 R l l' -> Q) -> bsep (plain (dvec (fun x => dtext (f x)) l)) (plain (dvec (fun x => dtext (f x)) l')) Q.
Proof. intros D B W. eapply bsep_weak; [exact W|]. apply (sep_vec (fun x => dtext (f x)) R None); [exact D|exact B]. Qed.
Lemma numbers_sep l l' (Q : Prop) : (l = l' -> Q) -> bsep (plain (dvec dnumber l)) (plain (dvec dnumber l')) Q.
Proof. intros W. apply (vec_sep ChatModel.decimal eq); [intros x y _ _; apply decimal_sep|intros x _; apply decimal_begins|]. intros F. apply W, forall2_eq, F. Qed.
Lemma hex_begins d : bytes_ok d -> d <> [] -> begins (to_hex d).
Proof. intros B N. apply word_begins; [|apply to_hex_words, B]. destruct d; [congruence|discriminate]. Qed.
Lemma quote_begins s : begins (escape_string s).
Proof. split; discriminate. Qed.
Lemma extension_sep lossy x y : (forall d, utf8_valid d = true -> lossy d = d) ->
  extension_bytes x -> extension_bytes y -> clear_extension x -> clear_extension y ->
  bsep (extension_text lossy x) (extension_text lossy y) (same_extension x y).
Proof.
  intros L B B' C C'. destruct x, y; try (apply bsep_differ; intros s u E; discriminate E); cbn [extension_text extension_bytes clear_extension same_extension] in *; try (intros s u _ _ E; apply app_inv_head in E; auto; fail).
  all: apply bsep_prefix.
  - rewrite Forall_forall in C, C'. apply (vec_sep (protocol_text lossy) eq); [|intros d _; apply quote_begins|intros F; apply forall2_eq in F; congruence].
    intros a b Ia Ib. destruct (C a Ia) as [U P]. destruct (C' b Ib) as [U' P']. unfold protocol_text. rewrite (L a U), (L b U'). apply escape_sep; assumption.
  - apply (vec_sep scheme_text eq); [intros a b _ _; apply scheme_sep|intros a _; apply word_begins; apply scheme_words|intros F; apply forall2_eq in F; congruence].
  - apply (vec_sep name_text same_name); [|intros a _|auto].
    + intros a b Ia Ib. apply name_sep; intros s ->; [apply C|apply C']; assumption.
    + destruct a; [apply quote_begins|split; discriminate].
  - apply (vec_sep curve_text eq); [intros a b _ _; apply curve_sep|intros a _|intros F; apply forall2_eq in F; congruence].
    destruct (curve_kind a) as [[c ->]|(W & N & _)]; [split; discriminate|apply word_begins; assumption].
  - apply (vec_sep point_text eq); [intros a b _ _; apply point_sep|intros a _|intros F; apply forall2_eq in F; congruence].
    destruct (point_kind a) as [[c ->]|(W & N & _)]; [split; discriminate|apply word_begins; assumption].
  - intros s u Hs Hu E. rewrite <- !app_assoc in E. destruct (decimal_sep code code0 (41 :: 32 :: to_hex data ++ s) (41 :: 32 :: to_hex data0 ++ u)) as [-> e]; [unfold halts, stop; tauto|unfold halts, stop; tauto|exact E|].
    injection e as e. destruct (to_hex_sep _ _ B B' s u Hs Hu e) as [-> f]. auto.
  - apply numbers_sep. congruence.
  - apply numbers_sep. congruence.
  - apply (vec_sep psk_text eq); [intros a b _ _; apply psk_sep|intros a _|intros F; apply forall2_eq in F; congruence].
    destruct a; try (split; discriminate). apply decimal_begins.
  - rewrite Forall_forall in B, B'. apply (vec_sep to_hex eq); [intros a b Ia Ib; apply to_hex_sep; auto|intros a Ia|intros F; apply forall2_eq in F; congruence].
    apply hex_begins; [destruct Ia; auto|intros ->; destruct Ia; auto].
  - rewrite Forall_forall in B, B'. apply (vec_sep share_text eq); [intros a b Ia Ib; apply share_sep; auto|intros a _|intros F; apply forall2_eq in F; congruence].
    unfold share_text. destruct (group_words (ks_group a)) as [W N]. destruct (word_begins _ N W) as [P Q]. destruct (group_text (ks_group a)); [congruence|]. split; [discriminate|exact Q].
  - eapply bsep_weak; [|apply share_sep; assumption]. congruence.
  - eapply bsep_weak; [|apply to_hex_sep; assumption]. congruence.
Qed.
