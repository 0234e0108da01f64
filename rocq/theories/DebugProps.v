(** The debug texts of TLS messages, C127. *)
From Verif Require Import Base BaseProofs UtilModel Asn1ToolModel Asn1PrintProps HexDumpModel HexDumpProps TlsCodesModel X509Model TlsTypesModel DebugModel DebugSpec DebugProofs DebugProofs2.
Local Open Scope string_scope. Local Open Scope list_scope. Local Open Scope N_scope.

(** *** The data of a certificate entry *)
Lemma spaced_chars d : bytes_ok d -> Forall (fun c => hex_char c \/ c = 32) (spaced (map two_digits d)).
Proof.
  induction d as [|b d IH]; intros B; [constructor|]. apply bytes_ok_cons in B. destruct B as [Bb B].
  assert (T : Forall (fun c => hex_char c \/ c = 32) (two_digits b)) by (eapply Forall_impl; [|apply two_digits_chars, Bb]; tauto).
  destruct d as [|b' d]; [exact T|]. change (spaced (map two_digits (b :: b' :: d))) with (two_digits b ++ [32] ++ spaced (map two_digits (b' :: d))).
  apply Forall_app. split; [exact T|]. constructor; [tauto|apply IH, B].
Qed.
Lemma dump_plain_free d c : bytes_ok d -> ~ hex_char c -> c <> 32 -> ~ In c (dump_plain d).
Proof. intros B N M X. rewrite (plain_ok d B) in X. pose proof (spaced_chars d B) as F. rewrite Forall_forall in F. destruct (F c X); auto. Qed.
(** No line of the text ends with a comma. *)
Fixpoint fine (p : N) (t : bytes) : Prop := match t with [] => True | c :: t => (c = 10 -> p <> 44) /\ fine c t end.
Lemma fine_flat t : forall p, ~ In 10 t -> fine p t.
Proof. induction t as [|c t IH]; intros p N; [exact I|]. split; [intros ->; destruct N; left; reflexivity|]. apply IH. intros X. apply N. right. exact X. Qed.
Lemma fine_spaces y n : (forall q, fine q y) -> forall q, fine q (repeat 32 n ++ y).
Proof. intros F. induction n as [|n IH]; intros q; [apply F|]. cbn [repeat app fine]. split; [discriminate|apply IH]. Qed.
Lemma fine_line x : forall p k y, ~ In 10 x -> (forall q, fine q y) -> fine p ((x ++ [124]) ++ nl k ++ y).
Proof.
  induction x as [|c x IH]; intros p k y N F.
  - cbn [app fine nl]. split; [discriminate|]. split; [discriminate|]. apply fine_spaces, F.
  - cbn [app fine]. split; [intros ->; destruct N; left; reflexivity|]. apply IH; [intros X; apply N; right; exact X|exact F].
Qed.
Lemma fine_joined k l : Forall (fun r => exists x, r = x ++ [124] /\ ~ In 10 x) l -> forall p, fine p (shift k (joined l)).
Proof.
  induction l as [|r l IH]; intros F p; [exact I|]. inversion F as [|? ? (x & -> & N) G]; subst. assert (NX : ~ In 10 (x ++ [124])) by (rewrite in_app_iff; intros [X|[X|[]]]; [exact (N X)|discriminate X]).
  destruct l as [|r' l].
  - cbn [joined]. rewrite (shift_flat k _ NX). apply fine_flat, NX.
  - rewrite joined_cons by discriminate. rewrite shift_app, (shift_flat k _ NX), shift_app. change (shift k [10]) with (nl k ++ []). rewrite app_nil_r. apply fine_line; [exact N|apply IH, G].
Qed.
Lemma fine_split t : forall t' p s u, fine p t -> fine p t' -> t ++ 44 :: 10 :: s = t' ++ 44 :: 10 :: u -> t = t' /\ s = u.
Proof.
  induction t as [|c t IH]; intros [|c' t'] p s u F F' E; cbn [app] in E.
  - injection E as E. auto.
  - exfalso. injection E as <- E. destruct t' as [|c2 t']; [discriminate E|]. injection E as <- E. destruct F' as [_ [F' _]]. destruct (F' eq_refl eq_refl).
  - exfalso. injection E as -> E. destruct t as [|c2 t]; [discriminate E|]. injection E as -> E. destruct F as [_ [F _]]. destruct (F eq_refl eq_refl).
  - injection E as -> E. destruct F as [_ F], F' as [_ F']. destruct (IH t' _ s u F F' E) as [-> ->]. auto.
Qed.
Lemma dump_lines d : bytes_ok d -> exists l : list bytes, l <> [] /\ dump_alternate d = joined l /\ length l = Nat.max 1 ((length d + 15) / 16) /\ Forall (fun r => exists x, r = x ++ [124] /\ ~ In 10 x) l.
Proof.
  intros B. exists (map (numbered_line d) (seq 0 (line_count (length d)))). split; [pose proof (count_pos (length d)) as P; destruct (line_count (length d)); [congruence|discriminate]|]. split; [apply alternate_ok, B|].
  split; [rewrite map_length, seq_length; reflexivity|].
  apply Forall_forall. intros r R. apply in_map_iff in R. destruct R as (k & <- & _). pose proof (row_free (16 * N.of_nat k) (chunk d k)) as F.
  assert (C : bytes_ok (chunk d k)) by (unfold chunk; apply bytes_ok_firstn, bytes_ok_skipn, B). specialize (F C). unfold numbered_line, row_text in *. exists (hex_padded 8 (16 * N.of_nat k) ++ [32] ++ columns (firstn 8 (chunk d k)) ++ [32] ++ columns (skipn 8 (chunk d k)) ++ [32; 32; 124] ++ map shown (chunk d k)). split; [rewrite <- !app_assoc; reflexivity|].
  intros X. apply F. clear F. rewrite !in_app_iff in *. tauto.
Qed.
Lemma entry_sep lossy m e e' R :
  bytes_ok (en_data e) -> bytes_ok (en_data e') ->
  sep (deeper m) (dvec (dextension lossy) (en_extensions e)) (dvec (dextension lossy) (en_extensions e')) R ->
  sep m (dentry lossy e) (dentry lossy e') (en_data e = en_data e' /\ R).
Proof.
  intros B B' S s u Hs Hu E. destruct m as [k|].
  - cbn [deeper option_map] in S. cbn [render] in E.
    assert (Y : forall e, at_depth k (dentry lossy e) = (ascii_bytes "CertificateEntry {" ++ nl (Datatypes.S k) ++ ascii_bytes "data: ") ++ shift (Datatypes.S k) (dump_alternate (en_data e)) ++ [44; 10] ++ sp (Datatypes.S k) ++ ascii_bytes "extensions: " ++ at_depth (Datatypes.S k) (dvec (dextension lossy) (en_extensions e)) ++ [44] ++ nl k ++ [125]).
    { intros x. unfold dentry, dstruct. cbn [map fst snd at_depth flat_map pretty_open pretty_close]. rewrite <- !app_assoc. cbn [app]. reflexivity. }
    rewrite !Y in E. rewrite <- !app_assoc in E. do 3 apply app_inv_head in E. cbn [app] in E.
    destruct (dump_lines _ B) as (l & _ & L & _ & F). destruct (dump_lines _ B') as (l' & _ & L' & _ & F'). rewrite L, L' in E. apply (fine_split _ _ 0) in E; [|apply fine_joined; assumption|apply fine_joined; assumption].
    destruct E as [D E]. apply shift_inj in D. rewrite <- L, <- L' in D. apply C104_determines in D; [|assumption|assumption]. do 2 apply app_inv_head in E.
    destruct (S (44 :: nl k ++ 125 :: s) (44 :: nl k ++ 125 :: u)) as [r x]; [left; reflexivity|left; reflexivity|exact E|]. apply (f_equal (@tl N)) in x. cbn [tl] in x. apply app_inv_head in x. injection x as x. auto.
  - cbn [deeper option_map] in S. cbn [render] in E.
    assert (Y : forall e, plain (dentry lossy e) = ascii_bytes "CertificateEntry { data: " ++ dump_plain (en_data e) ++ [44] ++ ascii_bytes " extensions: " ++ plain (dvec (dextension lossy) (en_extensions e)) ++ ascii_bytes " }").
    { intros x. unfold dentry, dstruct. cbn [map fst snd plain commas plain_open plain_close]. rewrite <- !app_assoc. reflexivity. }
    rewrite !Y in E. rewrite <- !app_assoc in E. apply app_inv_head in E. cbn [app] in E.
    apply cut_sep in E; [|apply dump_plain_free; [assumption|unfold hex_char; lia|discriminate]|apply dump_plain_free; [assumption|unfold hex_char; lia|discriminate]].
    destruct E as [D E]. apply C104_plain in D; [|assumption|assumption]. apply app_inv_head in E.
    destruct (S (ascii_bytes " }" ++ s) (ascii_bytes " }" ++ u)) as [r x]; [cbn; unfold stop; tauto|cbn; unfold stop; tauto|exact E|]. apply app_inv_head in x. auto.
Qed.

(** *** Whole messages *)
Lemma extension_begins lossy x : begins (extension_text lossy x).
Proof. destruct x; split; discriminate. Qed.
Lemma text_begins m t : ~ In 10 t -> begins t -> begins (render m (dtext t)).
Proof. intros N B. destruct m as [k|]; cbn; [rewrite shift_flat by exact N|]; exact B. Qed.
Lemma extensions_sep lossy m l l' : (forall d, utf8_valid d = true -> lossy d = d) ->
  Forall extension_bytes l -> Forall extension_bytes l' -> Forall clear_extension l -> Forall clear_extension l' ->
  sep m (dvec (dextension lossy) l) (dvec (dextension lossy) l') (Forall2 same_extension l l').
Proof.
  intros L B B' C C'. rewrite Forall_forall in B, B', C, C'. apply sep_vec.
  - intros x y X Y. apply sep_text; [apply extension_flat; auto|apply extension_flat; auto|]. apply extension_sep; auto.
  - intros x X. apply text_begins; [|apply extension_begins]. apply extension_flat. destruct X; auto.
Qed.
Lemma decimal_flat n : ~ In 10 (ChatModel.decimal n).
Proof. apply words_flat, decimal_words. Qed.
Lemma number_sep m n n' : sep m (dnumber n) (dnumber n') (n = n').
Proof. apply sep_text; [apply decimal_flat|apply decimal_flat|apply decimal_sep]. Qed.
Lemma weaken m d d' (R Q : Prop) : (R -> Q) -> sep m d d' R -> sep m d d' Q.
Proof. apply bsep_weak. Qed.
Lemma vec_numbers_sep m l l' : sep m (dvec dnumber l) (dvec dnumber l') (l = l').
Proof. eapply weaken; [apply forall2_eq|]. apply sep_vec; [intros x y _ _; apply number_sep|]. intros x _. apply text_begins; [apply decimal_flat|apply decimal_begins]. Qed.
Lemma binary_sep m d d' : bytes_ok d -> bytes_ok d' -> sep m (dbinary d) (dbinary d') (d = d').
Proof. intros B B'. apply sep_text; [apply words_flat, to_hex_words, B|apply words_flat, to_hex_words, B'|apply to_hex_sep; assumption]. Qed.
Lemma dsuite_sep m x y : sep m (dsuite x) (dsuite y) (x = y).
Proof. apply sep_text; [apply words_flat, suite_words|apply words_flat, suite_words|apply suite_sep]. Qed.
Lemma suites_sep m l l' : sep m (dvec dsuite l) (dvec dsuite l') (l = l').
Proof. eapply weaken; [apply forall2_eq|]. apply sep_vec; [intros x y _ _; apply dsuite_sep|]. intros x _. apply text_begins; [apply words_flat, suite_words|]. destruct (suite_words x) as [W N]. apply word_begins; assumption. Qed.
Lemma scheme_leaf_sep m x y : sep m (dtext (scheme_text x)) (dtext (scheme_text y)) (x = y).
Proof. apply sep_text; [apply words_flat, scheme_words|apply words_flat, scheme_words|apply scheme_sep]. Qed.
Lemma dentry_begins m lossy e : begins (render m (dentry lossy e)).
Proof. destruct m; split; discriminate. Qed.
Ltac fields := first [apply seps_nil | apply seps_cons; [apply sep_named | fields]].
Lemma single m g n d d' R : sep (deeper m) d d' R -> sep m (DGroup g n [d]) (DGroup g n [d']) R.
Proof. intros S. eapply weaken; [|apply seps_group, seps_cons; [exact S|apply seps_nil]]. tauto. Qed.
Lemma message_sep lossy m h h' : (forall d, utf8_valid d = true -> lossy d = d) ->
  message_bytes h -> message_bytes h' -> Forall clear_extension (all_extensions h) -> Forall clear_extension (all_extensions h') ->
  sep m (dhandshake lossy h) (dhandshake lossy h') (same_message h h').
Proof.
  intros L B B' C C'. destruct h, h'; try (apply bsep_differ; destruct m; intros s u E; discriminate E); cbn [dhandshake message_bytes all_extensions same_message] in *.
  - destruct B as (B1 & B2 & B3), B' as (B1' & B2' & B3'). apply single. eapply weaken; [|apply seps_group; fields; [apply number_sep|apply binary_sep; assumption|apply binary_sep; assumption|apply suites_sep|apply vec_numbers_sep|apply extensions_sep; assumption]]. tauto.
  - destruct B as (B1 & B2 & B3), B' as (B1' & B2' & B3'). apply single. eapply weaken; [|apply seps_group; fields; [apply number_sep|apply binary_sep; assumption|apply binary_sep; assumption|apply dsuite_sep|apply number_sep|apply extensions_sep; assumption]]. tauto.
  - intros s u _ _ E. apply app_inv_head in E. auto.
  - apply single. apply single. apply sep_named. apply extensions_sep; assumption.
  - apply single. eapply weaken; [|apply seps_group; fields; [apply vec_numbers_sep|apply extensions_sep; assumption]]. tauto.
  - apply single. eapply weaken; [|apply seps_group; fields; [apply vec_numbers_sep|apply (sep_vec _ (fun e e' => en_data e = en_data e' /\ Forall2 same_extension (en_extensions e) (en_extensions e')))]]; [tauto| |intros x _; apply dentry_begins].
    rewrite Forall_forall in B, B', C, C'. intros x y X Y. destruct (B x X) as [D E], (B' y Y) as [D' E']. apply entry_sep; [exact D|exact D'|]. apply extensions_sep; [exact L|exact E|exact E'| |].
    + apply Forall_forall. intros z Z. apply C. apply in_flat_map. exists x. auto.
    + apply Forall_forall. intros z Z. apply C'. apply in_flat_map. exists y. auto.
  - apply single. eapply weaken; [|apply seps_group; fields; [apply scheme_leaf_sep|apply vec_numbers_sep]]. intros (P & Q & _). destruct v, v0; cbn in *; congruence.
  - apply single. apply single. apply sep_named. eapply weaken; [|apply vec_numbers_sep]. congruence.
  - destruct B as (B1 & B2 & B3), B' as (B1' & B2' & B3'). apply single. eapply weaken; [|apply seps_group; fields; [apply number_sep|apply number_sep|apply binary_sep; assumption|apply binary_sep; assumption|apply extensions_sep; assumption]]. tauto.
  - intros s u _ _ E. apply app_inv_head in E. auto.
  - eapply weaken; [|apply seps_group; apply seps_cons; [apply number_sep|apply seps_cons; [apply vec_numbers_sep|apply seps_nil]]]. intros (P & Q & _). congruence.
Qed.
(** Names are on one line. *)
Lemma vec_named {A} (f : A -> dbg) l : (forall x, named_flat (f x)) -> named_flat (dvec f l).
Proof. intros H. cbn [dvec named_flat]. split; [intros []|]. apply named_all, Forall_map, Forall_forall. intros x _. apply H. Qed.
Ltac no_lf := let X := fresh in intros X; vm_compute in X; repeat (destruct X as [X|X]; [discriminate X|]); exact X.
Ltac named_step :=
  match goal with
  | |- named_flat (dvec _ _) => apply vec_named; intros ?
  | |- named_flat (DText _ _) => exact I
  | |- _ /\ _ => split
  | |- True => exact I
  | |- ~ In 10 _ => no_lf
  | |- named_flat _ => progress cbn [named_flat dtuple dstruct map fst snd dnumber dbinary dtext dsuite dextension dentry dclient_hello dserver_hello dencrypted drequest dcertificates dverify dfinished dticket]
  end.
Lemma message_named lossy h : named_flat (dhandshake lossy h).
Proof. destruct h; cbn [dhandshake]; repeat named_step. Qed.

(** C127: the text [{:?}] of any TLS handshake message is on one line. *)
Ltac flat_step :=
  match goal with
  | |- leaves_flat (dvec _ _) => apply vec_flat; intros ? ?
  | |- _ /\ _ => split
  | |- True => exact I
  | |- flat [] => apply flat_nil
  | |- flat (ascii_bytes _) => apply flatb_ok; reflexivity
  | |- flat (ChatModel.decimal _) => apply word_flat, decimal_words
  | |- flat (scheme_text _) => apply word_flat, scheme_words
  | |- flat (suite_text _) => apply word_flat, suite_words
  | |- flat (to_hex _) => apply word_flat, to_hex_words; assumption
  | |- leaves_flat _ => progress cbn [leaves_flat dtuple dstruct map fst snd dnumber dbinary dtext dsuite dextension dentry dclient_hello dserver_hello dencrypted drequest dcertificates dverify dfinished dticket]
  end.
Theorem C127_one_line : forall lossy h, message_bytes h ->
  ~ In 10 (handshake_plain lossy h) /\ ~ In 13 (handshake_plain lossy h).
Proof.
  intros lossy h B. apply plain_flat.
  assert (X : forall l x, Forall extension_bytes l -> In x l -> flat (extension_text lossy x)) by (intros l x F I; rewrite Forall_forall in F; apply extension_flat, F, I).
  destruct h; cbn [dhandshake message_bytes] in *; try (destruct B as (B1 & B2 & B3)); repeat flat_step; try (eapply X; eassumption).
  - rewrite Forall_forall in B. destruct (B _ H) as [D _]. split; apply dump_plain_free; try assumption; try discriminate; unfold hex_char; lia.
  - rewrite Forall_forall in B. destruct (B _ H) as [_ D]. eapply X; eassumption.
Qed.
Print Assumptions C127_one_line.

(** C127: two messages with the same text, in either form, are the same message, but for
    what the text leaves out. *)
Theorem C127_plain_determines : forall lossy, (forall d, utf8_valid d = true -> lossy d = d) ->
  forall h h', message_bytes h -> message_bytes h' ->
  Forall clear_extension (all_extensions h) -> Forall clear_extension (all_extensions h') ->
  handshake_plain lossy h = handshake_plain lossy h' -> same_message h h'.
Proof.
  intros lossy L h h' B B' C C' E. apply (message_sep lossy None h h' L B B' C C' [] [] I I). cbn [render]. rewrite !app_nil_r. exact E.
Qed.
Print Assumptions C127_plain_determines.
Theorem C127_pretty_determines : forall lossy, (forall d, utf8_valid d = true -> lossy d = d) ->
  forall h h', message_bytes h -> message_bytes h' ->
  Forall clear_extension (all_extensions h) -> Forall clear_extension (all_extensions h') ->
  handshake_pretty lossy h = handshake_pretty lossy h' -> same_message h h'.
Proof.
  intros lossy L h h' B B' C C' E. apply (message_sep lossy (Some 0%nat) h h' L B B' C C' [] [] I I). cbn [render]. rewrite !app_nil_r.
  unfold handshake_pretty in E. rewrite !pretty_depth in E by apply message_named. exact E.
Qed.
Print Assumptions C127_pretty_determines.

(** C127: how many lines the text [{:#?}] has: it follows from the numbers of suites,
    extensions and so on, and from nothing that the peer can write into them. *)
Definition line_feeds (t : bytes) : nat := List.length (filter (fun c => c =? 10) t).
Definition listed (n : nat) : nat := match n with O => 0 | _ => n + 1 end.
Definition entry_feeds (e : certificate_entry) : nat :=
  (3 + (Nat.max 1 ((length (en_data e) + 15) / 16) - 1) + listed (length (en_extensions e)))%nat.
Definition expected_feeds (h : handshake) : nat :=
  match h with
  | HClientHello h => 9 + listed (length (ch_suites h)) + listed (length (ch_compression h)) + listed (length (ch_extensions h))
  | HServerHello h => 9 + listed (length (sh_extensions h))
  | HEndOfEarlyData | HKeyUpdate => 2
  | HEncryptedExtensions l => 4 + listed (length l)
  | HCertificateRequest r => 5 + listed (length (cr_context r)) + listed (length (cr_extensions r))
  | HCertificate c => 5 + listed (length (ct_context c)) + (listed (length (ct_list c)) + list_sum (map entry_feeds (ct_list c)))
  | HCertificateVerify v => 5 + listed (length (cv_signature v))
  | HFinished d => 4 + listed (length d)
  | HNewSessionTicket t => 8 + listed (length (st_extensions t))
  | HUnknown _ d => 3 + listed (length d)
  end%nat.
Lemma feeds_app a b : line_feeds (a ++ b) = (line_feeds a + line_feeds b)%nat.
Proof. unfold line_feeds. rewrite filter_app, app_length. reflexivity. Qed.
Lemma feeds_flat t : ~ In 10 t -> line_feeds t = 0%nat.
Proof. induction t as [|c t IH]; intros N; [reflexivity|]. unfold line_feeds. cbn [filter]. destruct (N.eqb_spec c 10) as [->|X]; [destruct N; left; reflexivity|]. apply IH. intros Y. apply N. right. exact Y. Qed.
Lemma feeds_cons c t : line_feeds (c :: t) = ((if (c =? 10)%N then 1 else 0) + line_feeds t)%nat.
Proof. unfold line_feeds. cbn [filter]. destruct (c =? 10); reflexivity. Qed.
Lemma feeds_pad t : forall b, line_feeds (pad b t) = line_feeds t.
Proof. induction t as [|c t IH]; intros b; [reflexivity|]. cbn [pad]. rewrite feeds_app, !feeds_cons, IH. destruct b; reflexivity. Qed.
Definition feeds (d : dbg) : nat := line_feeds (pretty d).
Lemma feeds_group g n items : ~ In 10 n -> feeds (DGroup g n items) = match items with [] => 0 | _ => 1 + list_sum (map (fun i => feeds i + 1) items) end%nat.
Proof.
  intros N. unfold feeds at 1. cbn [pretty]. destruct (group_flat g) as (Go & Gc & Ge). destruct items as [|i l].
  - rewrite feeds_app, !feeds_flat by assumption. reflexivity.
  - rewrite !feeds_app, (feeds_flat n N), (feeds_flat _ Go), (feeds_flat _ Gc). change (line_feeds [10]) with 1%nat.
    assert (X : forall l, line_feeds (flat_map (fun i => pad true (pretty i ++ [44; 10])) l) = list_sum (map (fun i => feeds i + 1)%nat l)).
    { clear. induction l as [|i l IH]; [reflexivity|]. cbn [flat_map map list_sum fold_right]. rewrite feeds_app, feeds_pad, feeds_app, IH. reflexivity. }
    rewrite X. lia.
Qed.
Lemma feeds_named n v : ~ In 10 n -> feeds (DNamed n v) = feeds v.
Proof. intros N. unfold feeds. cbn [pretty]. rewrite !feeds_app, (feeds_flat n N). reflexivity. Qed.
Lemma feeds_text t : ~ In 10 t -> feeds (dtext t) = 0%nat.
Proof. apply feeds_flat. Qed.
Lemma feeds_vec {A} (f : A -> dbg) l : (forall x, In x l -> feeds (f x) = 0%nat) -> feeds (dvec f l) = listed (length l).
Proof.
  intros H. unfold dvec. rewrite feeds_group by (intros []). destruct l as [|x l]; [reflexivity|]. cbn [listed length]. rewrite map_map.
  assert (X : forall k, (forall y, In y k -> feeds (f y) = 0%nat) -> list_sum (map (fun y => (feeds (f y) + 1)%nat) k) = length k).
  { induction k as [|y k IH]; intros K; [reflexivity|]. cbn [map list_sum fold_right length]. change (fold_right Nat.add 0%nat (map (fun y => (feeds (f y) + 1)%nat) k)) with (list_sum (map (fun y => (feeds (f y) + 1)%nat) k)). rewrite IH by (intros z Z; apply K; right; exact Z). rewrite (K y (or_introl eq_refl)). lia. }
  cbn [map]. change (map (fun x => (feeds (f x) + 1)%nat)) with (map (fun y => (feeds (f y) + 1)%nat)). change (list_sum ((feeds (f x) + 1)%nat :: map (fun y => (feeds (f y) + 1)%nat) l)) with (list_sum (map (fun y => (feeds (f y) + 1)%nat) (x :: l))). rewrite (X (x :: l) H). cbn [length]. lia.
Qed.
Lemma feeds_numbers l : feeds (dvec dnumber l) = listed (length l).
Proof. apply feeds_vec. intros x _. apply feeds_text, decimal_flat. Qed.
Lemma feeds_extensions lossy l : Forall extension_bytes l -> feeds (dvec (dextension lossy) l) = listed (length l).
Proof. intros F. rewrite Forall_forall in F. apply feeds_vec. intros x X. apply feeds_text, extension_flat, F, X. Qed.
Lemma feeds_joined (l : list bytes) : Forall (fun r => exists x, r = x ++ [124] /\ ~ In 10 x) l -> line_feeds (joined l) = (length l - 1)%nat.
Proof.
  induction l as [|r l IH]; intros F; [reflexivity|]. inversion F as [|? ? (x & -> & N) G]; subst. assert (Z : line_feeds (x ++ [124]) = 0%nat) by (rewrite feeds_app, (feeds_flat x N); reflexivity).
  destruct l as [|r' l]; [exact Z|]. rewrite joined_cons by discriminate. rewrite feeds_app, Z, feeds_app, (IH G). change (line_feeds [10]) with 1%nat. cbn [length]. lia.
Qed.
Ltac feeds_step :=
  first [rewrite feeds_group by (first [intros []|no_lf]) | rewrite feeds_named by no_lf | rewrite feeds_numbers
        | rewrite feeds_extensions by assumption | rewrite feeds_text by (first [apply decimal_flat|apply words_flat, to_hex_words; assumption|apply words_flat, scheme_words|apply words_flat, suite_words])].
Lemma feeds_entry lossy e : bytes_ok (en_data e) -> Forall extension_bytes (en_extensions e) -> feeds (dentry lossy e) = entry_feeds e.
Proof.
  intros B F. unfold dentry, dstruct, entry_feeds. cbn [map fst snd]. rewrite feeds_group by no_lf. cbn [map list_sum fold_right]. rewrite !feeds_named by no_lf. rewrite feeds_extensions by exact F.
  unfold feeds. cbn [pretty]. destruct (dump_lines _ B) as (l & _ & -> & L & G). rewrite (feeds_joined l G), L. lia.
Qed.
Theorem C127_line_count : forall lossy h, message_bytes h -> line_feeds (handshake_pretty lossy h) = expected_feeds h.
Proof.
  intros lossy h B. change (feeds (dhandshake lossy h) = expected_feeds h).
  assert (N : forall n, feeds (dnumber n) = 0%nat) by (intros n; apply feeds_text, decimal_flat).
  assert (H : forall d, bytes_ok d -> feeds (dbinary d) = 0%nat) by (intros d D; apply feeds_text, words_flat, to_hex_words, D).
  assert (S1 : forall x, feeds (dsuite x) = 0%nat) by (intros x; apply feeds_text, words_flat, suite_words).
  destruct h; cbn [dhandshake message_bytes expected_feeds] in *; try (destruct B as (B1 & B2 & B3));
    unfold dtuple, dclient_hello, dserver_hello, dencrypted, drequest, dcertificates, dverify, dfinished, dticket, dstruct; cbn [map fst snd];
    rewrite ?feeds_group by no_lf; cbn [map list_sum fold_right]; rewrite ?feeds_group by no_lf; cbn [map list_sum fold_right]; rewrite ?feeds_named by no_lf; rewrite ?feeds_numbers, ?N; rewrite ?H by assumption; rewrite ?S1; rewrite ?feeds_extensions by assumption.
  - rewrite (feeds_vec dsuite) by (intros x _; apply S1). lia.
  - lia.
  - lia.
  - lia.
  - lia.
  - unfold dvec at 1. rewrite feeds_group by (intros []). destruct c as [ctx l]. cbn [ct_list ct_context] in *. rewrite map_map.
    assert (X : list_sum (map (fun x => (feeds (dentry lossy x) + 1)%nat) l) = (length l + list_sum (map entry_feeds l))%nat).
    { induction l as [|e l IH]; [reflexivity|]. inversion B as [|? ? [D E] F]; subst. cbn [map list_sum fold_right length]. change (fold_right Nat.add 0%nat) with list_sum. rewrite (IH F), feeds_entry by assumption. lia. }
    destruct l as [|e l]; [cbn; lia|]. change (match map (dentry lossy) (e :: l) with [] => 0%nat | _ => (1 + list_sum (map (fun x => (feeds (dentry lossy x) + 1)%nat) (e :: l)))%nat end) with (1 + list_sum (map (fun x => (feeds (dentry lossy x) + 1)%nat) (e :: l)))%nat. rewrite X. cbn [listed length]. lia.
  - rewrite feeds_text by apply words_flat, scheme_words. lia.
  - lia.
  - lia.
  - lia.
  - lia.
Qed.
Print Assumptions C127_line_count.

(** C127: the text starts with the kind of the message. *)
Theorem C127_kind : forall lossy h, exists rest rest',
  let kind := match h with
    | HClientHello _ => "ClientHello(" | HServerHello _ => "ServerHello(" | HEndOfEarlyData => "EndOfEarlyData("
    | HEncryptedExtensions _ => "EncryptedExtensions(" | HCertificateRequest _ => "CertificateRequest(" | HCertificate _ => "Certificate("
    | HCertificateVerify _ => "CertificateVerify(" | HFinished _ => "Finished(" | HNewSessionTicket _ => "NewSessionTicket("
    | HKeyUpdate => "KeyUpdate(" | HUnknown _ _ => "Unknown(" end in
  handshake_plain lossy h = ascii_bytes kind ++ rest /\ handshake_pretty lossy h = ascii_bytes kind ++ 10 :: rest'.
Proof. intros lossy h. destruct h; eexists; eexists; cbv zeta; split; reflexivity. Qed.
Print Assumptions C127_kind.

(** C127 refuted in full: messages that differ can have the same texts.  The data of a
    server name of an unknown type is left out; a backslash in a name is not escaped; a list
    with one empty authority looks like the empty list. *)
Definition greeting (x : extension) : handshake := HEncryptedExtensions [x].
Theorem C127_determines_refuted : forall lossy,
  (forall c d d', handshake_plain lossy (greeting (XServerName [OtherName c d])) = handshake_plain lossy (greeting (XServerName [OtherName c d'])) /\
                  handshake_pretty lossy (greeting (XServerName [OtherName c d])) = handshake_pretty lossy (greeting (XServerName [OtherName c d']))) /\
  (forall a b, handshake_plain lossy (greeting (XServerName [HostName (a ++ [10] ++ b)])) = handshake_plain lossy (greeting (XServerName [HostName (a ++ [92; 110] ++ b)])) /\
               handshake_pretty lossy (greeting (XServerName [HostName (a ++ [10] ++ b)])) = handshake_pretty lossy (greeting (XServerName [HostName (a ++ [92; 110] ++ b)]))) /\
  handshake_plain lossy (greeting (XAuthorities [[]])) = handshake_plain lossy (greeting (XAuthorities [])) /\
  handshake_pretty lossy (greeting (XAuthorities [[]])) = handshake_pretty lossy (greeting (XAuthorities [])).
Proof.
  intros lossy. split; [intros c d d'; split; reflexivity|]. split; [|split; reflexivity]. intros a b.
  assert (E : escape_string (a ++ [10] ++ b) = escape_string (a ++ [92; 110] ++ b)) by (unfold escape_string; rewrite !flat_map_app'; reflexivity).
  assert (X : extension_text lossy (XServerName [HostName (a ++ [10] ++ b)]) = extension_text lossy (XServerName [HostName (a ++ [92; 110] ++ b)])).
  { cbn [extension_text]. unfold dvec. cbn [map name_text]. unfold dtext. cbn [plain]. rewrite E. reflexivity. }
  unfold handshake_plain, handshake_pretty, greeting. cbn [dhandshake]. unfold dencrypted, dvec. cbn [map]. unfold dextension. rewrite X. split; reflexivity.
Qed.
Print Assumptions C127_determines_refuted.

(** A client hello in both forms. *)
Definition sample_client : handshake := HClientHello {|
  ch_version := 771; ch_random := [1; 171]; ch_session := []; ch_suites := [CsTLSAES128GCMSHA256; CsUnknown 255];
  ch_compression := [0]; ch_extensions := [XServerName [HostName (ascii_bytes "a.b"); OtherName 7 [1]]; XSupportedGroups [NcX25519; NcOther 9];
    XKeyShareClient [{| ks_group := NgX25519; ks_key := [16] |}]; XUnknown 21 [0; 0]; XPskModes [PmPskDheKe; PmUnknown 5]; XSignatureAlgorithms [SsEd25519; SsUnknown 10]] |}.
Example C127_example_plain : handshake_plain (fun d => d) sample_client = ascii_bytes
  "ClientHello(ClientHello { legacy_version: 771, random: 01ab, legacy_session_id: , cipher_suites: [TLS_AES_128_GCM_SHA256, 0x00ff], legacy_compression_methods: [0], extensions: [ServerName [""a.b"", <other 7>], SupportedGroups [X25519, Other(9)], KeyShareClientHello [X25519 10], Unknown(21) 0000, PskKeyExchangeModes [PSK with (EC)DHE key establishment, 5], SignatureAlgorithms [Ed25519, 000a]] })".
Proof. vm_compute. reflexivity. Qed.
Example C127_example_pretty : handshake_pretty (fun d => d) (HServerHello {|
  sh_version := 771; sh_random := [255]; sh_session := [2]; sh_suite := CsTLSAES256GCMSHA384; sh_compression := 0;
  sh_extensions := [XAlpn [ascii_bytes "h2"]; XSupportedVersions [3; 4]] |}) = ascii_bytes
"ServerHello(
    ServerHello {
        legacy_version: 771,
        random: ff,
        legacy_session_id_echo: 02,
        cipher_suite: TLS_AES_256_GCM_SHA384,
        legacy_compression_method: 0,
        extensions: [
            ApplicationLayerProtocolNegotiation [""h2""],
            SupportedVersions [3, 4],
        ],
    },
)".
Proof. vm_compute. reflexivity. Qed.
(** The other kinds of messages. *)
Example C127_example_kinds : forall lossy, map (handshake_plain lossy)
  [HEndOfEarlyData; HKeyUpdate; HFinished [1; 2]; HUnknown 9 [3]; HEncryptedExtensions [XEncryptThenMac; XTransportParameters [10]];
   HCertificateRequest {| cr_context := []; cr_extensions := [XExtendedMasterSecret; XPostHandshakeAuth; XPointFormats [PfUncompressed; PfOther 4]] |};
   HCertificateVerify {| cv_algorithm := SsRsaPssRsaeSha256; cv_signature := [7] |};
   HNewSessionTicket {| st_lifetime := 1; st_age_add := 2; st_nonce := [3]; st_ticket := [4]; st_extensions := [XNextProtocol [5]; XKeyShareServer {| ks_group := NgUnknown 6; ks_key := [] |}] |};
   HCertificate {| ct_context := [8]; ct_list := [] |}] =
  map ascii_bytes ["EndOfEarlyData(EndOfEarlyData)"; "KeyUpdate(KeyUpdate)"; "Finished(Finished { verify_data: [1, 2] })"; "Unknown(9, [3])";
   "EncryptedExtensions(EncryptedExtensions { extensions: [EncryptThenMac, TransportParameters 0a] })";
   "CertificateRequest(CertificateRequest { certificate_request_context: [], extensions: [ExtendedMasterSecret, PostHandshakeAuth, ECPointFormats [Uncompressed, Other(4)]] })";
   "CertificateVerify(CertificateVerify { algorithm: RsaPssRsaeSha256, signature: [7] })";
   "NewSessionTicket(NewSessionTicket { ticket_lifetime: 1, ticket_age_add: 2, ticket_nonce: 03, ticket: 04, extensions: [NextProtocolNegotiation [5], KeyShareServerHello 6 ] })";
   "Certificate(Certificate { certificate_request_context: [8], certificate_list: [] })"].
Proof. intros lossy. vm_compute. reflexivity. Qed.
(** A certificate in both forms; the certificate read from the data does not matter. *)
Example C127_example_certificate : forall lossy cert,
  let h := HCertificate {| ct_context := []; ct_list := [{| en_data := [48; 65]; en_certificate := cert; en_extensions := [] |}] |} in
  handshake_plain lossy h = ascii_bytes "Certificate(Certificate { certificate_request_context: [], certificate_list: [CertificateEntry { data: 30 41, extensions: [] }] })" /\
  handshake_pretty lossy h = ascii_bytes
"Certificate(
    Certificate {
        certificate_request_context: [],
        certificate_list: [
            CertificateEntry {
                data: 00000000  30 41                                             |0A|,
                extensions: [],
            },
        ],
    },
)".
Proof. intros lossy cert. cbv zeta. split; vm_compute; reflexivity. Qed.
