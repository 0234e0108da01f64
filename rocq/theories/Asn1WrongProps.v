(** C137: what does not begin with an ASN.1 item is refused for one reason, that of
    Asn1Wrong.v, and everything else is read. *)
From Coq Require Import String.
From Verif Require Import Base BaseProofs BinaryModel BinarySpec BinaryProofs BinaryProofs2 Asn1Model Asn1Spec Asn1Proofs Asn1Proofs2 Asn1Grammar Asn1Proofs3 Asn1Props2 Asn1Wrong Asn1WrongProofs.
Local Open Scope string_scope. Local Open Scope list_scope. Local Open Scope N_scope.

(** The reader, at any place of a buffer, fails with [e] exactly if [e] is what is wrong there. *)
Theorem C137_why pre rest e : bytes_ok rest -> slice (pre ++ rest) ->
  (fst (read_der (at_pos pre rest)) = Err e <-> wrong (length pre) rest e).
Proof.
  intros B S. assert (W : forall e, wrong (length pre) rest e -> fst (read_der (at_pos pre rest)) = Err e).
  { intros e' H. unfold read_der. rewrite remaining_at. apply (proj1 wrong_read _ _ _ H B); [reflexivity|lia|exact S]. }
  split; [|apply W]. intros H. destruct (item_or (Datatypes.S (length rest)) rest (Nat.lt_succ_diag_r _) B (length pre)) as [(x & post & i & -> & D)|(e' & Q)].
  - apply bytes_ok_app in B. destruct (C90_all_of_the_grammar pre x post i (proj1 B) (slice_fits _ S) D) as (j & R & _). rewrite R in H. discriminate.
  - rewrite (W e' Q) in H. congruence.
Qed.
Print Assumptions C137_why.
(** So bytes begin with an item, or there is exactly one thing wrong; not both, and nothing else
    happens. *)
Theorem C137_one_of_two d : bytes_ok d -> slice d ->
  ((exists x post i, d = x ++ post /\ der x i) /\ (forall e, ~ wrong 0 d e) /\ exists i r, read_der (new_reader d) = (Ok i, r)) \/
  ((forall x post i, d = x ++ post -> ~ der x i) /\ exists e, wrong 0 d e /\ (forall e', wrong 0 d e' -> e' = e) /\ exists r, read_der (new_reader d) = (Err e, r)).
Proof.
  intros B S. change (new_reader d) with (at_pos [] d).
  assert (W : forall e, wrong 0 d e -> exists r, read_der (at_pos [] d) = (Err e, r)).
  { intros e H. apply (C137_why [] d e B S) in H. destruct (read_der _) as [y r]. cbn [fst] in H. subst y. eauto. }
  destruct (item_or (Datatypes.S (length d)) d (Nat.lt_succ_diag_r _) B 0%nat) as [(x & post & i & E & D)|(e & Q)].
  - left. destruct (C90_all_of_the_grammar [] x post i) as (j & R & _); [rewrite E in B; apply bytes_ok_app in B; apply B|cbn [app]; rewrite <- E; apply slice_fits, S|exact D|].
    rewrite <- E in R. split; [eauto|]. split; [|eauto]. intros e H. destruct (W e H) as (r & X). rewrite X in R. discriminate.
  - right. destruct (W e Q) as (r & R). split; [|exists e; split; [exact Q|]; split; [|eauto]].
    + intros x post i E D. destruct (C90_all_of_the_grammar [] x post i) as (j & R' & _); [rewrite E in B; apply bytes_ok_app in B; apply B|cbn [app]; rewrite <- E; apply slice_fits, S|exact D|].
      rewrite <- E, R in R'. discriminate.
    + intros e' H. destruct (W e' H) as (r' & X). rewrite R in X. congruence.
Qed.
Print Assumptions C137_one_of_two.
(** The things that can be said.  The reader's own message that a value consumed nothing
    is not among them. *)
Definition sayings : list string :=
  ["Unsupported: tag >= 31"; "noctets is 127"; "Unsupported: Indefinite form"; "noctets cannot fit in u32";
   "Boolean: incorrect length"; "Boolean value must be all zeros or ones"; "Null: incorrect length"] ++
  map (fun t => snd t ++ ": incorrect form")%string form_names.
Definition sayable (a z : nat) (e : berr) : Prop :=
  match e with
  | BPlain s => In s sayings
  | BUnexpectedEOF o n => (a <= o <= z)%nat /\ 0 < n
  | BInvalidUTF8 => True
  | _ => False
  end.
Lemma sayable_more a z a' z' e : (a' <= a)%nat -> (z <= z')%nat -> sayable a z e -> sayable a' z' e.
Proof. intros H1 H2. destruct e; cbn [sayable]; auto. lia. Qed.
Theorem C137_sayings d e r : bytes_ok d -> slice d -> read_der (new_reader d) = (Err e, r) -> sayable 0 (length d) e.
Proof.
  intros B S H. assert (W : wrong 0 d e) by (apply (C137_why [] d e B S); change (at_pos [] d) with (new_reader d); rewrite H; reflexivity). clear B S H.
  change (length d) with (0 + length d)%nat. revert W. generalize 0%nat as a. intros a W. revert a d e W.
  enough ((forall a d e, wrong a d e -> sayable a (a + length d) e) /\ (forall a d e, wrongs a d e -> sayable a (a + length d) e) /\
    (forall a b d e, unfit a b d e -> sayable a (a + length d) e)) by tauto.
  apply wrong_mutind; intros; cbn [sayable].
  - lia.
  - cbn. tauto.
  - eapply sayable_more; [| |instantiate (2 := (a + 1)%nat); instantiate (1 := (a + 1 + length s)%nat)]; [lia|cbn [length]; lia|].
    match goal with H : bad_length _ _ _ |- _ => destruct H end; cbn [sayable length]; try (cbn; tauto); lia.
  - cbn [length]. rewrite app_length. lia.
  - eapply sayable_more; [| |eassumption]; [lia|]. cbn [length]. rewrite !app_length. lia.
  - assumption.
  - eapply sayable_more; [| |eassumption]; [lia|]. rewrite !app_length. lia.
  - apply in_or_app. right. apply in_map_iff. exists (t, constructed, name). auto.
  - cbn. tauto.
  - cbn. tauto.
  - cbn [length]. lia.
  - cbn. tauto.
  - lia.
  - exact I.
  - assumption.
  - assumption.
Qed.
Print Assumptions C137_sayings.
(** An item that has not arrived completely is told from one that is wrong: what is missing
    is said to be missing. *)
Theorem C137_cut x i p q : der x i -> bytes_ok x -> slice x -> x = p ++ q -> q <> [] ->
  exists o n r, read_der (new_reader p) = (Err (BUnexpectedEOF o n), r) /\ (o <= length p)%nat /\ N.of_nat (length p) < N.of_nat o + n <= N.of_nat (length x).
Proof.
  intros D B S E N. assert (Bp : bytes_ok p) by (rewrite E in B; apply bytes_ok_app in B; apply B).
  assert (Sp : slice p) by (eapply slice_less; [|exact S]; rewrite E, app_length; lia).
  enough (exists o n, wrong 0 p (BUnexpectedEOF o n) /\ (o <= length p)%nat /\ N.of_nat (length p) < N.of_nat o + n <= N.of_nat (length x)) as (o & n & W & Q).
  { apply (C137_why [] p _ Bp Sp) in W. change (at_pos [] p) with (new_reader p) in W. destruct (read_der _) as [y r]. cbn [fst] in W. subst y. eauto 6. }
  assert (Q0 : (0 < length q)%nat) by (destruct q; [contradiction|cbn; lia]).
  assert (LX : length x = (length p + length q)%nat) by (rewrite E; apply app_length).
  destruct D as [b len c v LF H]. assert (M : b mod 32 <> 31).
  { destruct (proj2 (proj2 read_complete) _ _ _ H) as (cl & f & tag & T & -> & _); [|rewrite id_byte_mod by exact T; lia].
    apply bytes_ok_cons in B. destruct B as [_ B]. apply bytes_ok_app in B. apply B. }
  destruct p as [|b' p]; [exists 0%nat, 1; split; [constructor|]; cbn [length]; lia|]. cbn [app] in E. assert (b' = b) by congruence. subst b'. assert (E1 : len ++ c = p ++ q) by congruence. clear E.
  destruct (Nat.ltb_spec (length p) (length len)) as [Lp|Lp].
  - (* in the length *)
    assert (P : p = firstn (length p) len).
    { apply (f_equal (firstn (length p))) in E1. rewrite firstn_app_length, firstn_app in E1. replace (length p - length len)%nat with 0%nat in E1 by lia. rewrite firstn_O, app_nil_r in E1. auto. }
    destruct LF as [[-> LF]|(d & -> & K & LF)].
    + destruct p; [|cbn in Lp; lia]. exists 1%nat, 1. split; [apply wrong_length; [exact M|constructor]|]. cbn [length] in *. lia.
    + destruct p as [|k p]; [exists 1%nat, 1; split; [apply wrong_length; [exact M|constructor]|]; cbn [length] in *; lia|].
      cbn [length firstn] in P. assert (k = 128 + blen d) by congruence. subst k. cbn [length] in Lp, LX |- *.
      exists (0 + 1 + 1 + length p)%nat, 1. split; [apply wrong_length; [exact M|apply bl_cut; [lia|unfold blen; lia]]|]. lia.
  - assert (exists s, p = len ++ s) as (s & ->).
    { exists (skipn (length len) p). rewrite <- (firstn_skipn (length len) p) at 1. f_equal. apply (f_equal (firstn (length len))) in E1. rewrite firstn_app_length, firstn_app in E1.
      replace (length len - length p)%nat with 0%nat in E1 by lia. rewrite firstn_O, app_nil_r in E1. auto. }
    rewrite <- app_assoc in E1. apply app_inv_head in E1. subst c. exists (0 + 1 + length len)%nat, (blen (s ++ q)).
    split; [apply wrong_cut; [exact M|exact LF|unfold blen; rewrite app_length; lia]|]. cbn [length] in *. unfold blen. rewrite !app_length in *. lia.
Qed.
Print Assumptions C137_cut.
(** And more bytes do not help against anything else. *)
Theorem C137_no_cure d more e r : bytes_ok (d ++ more) -> slice (d ++ more) -> read_der (new_reader d) = (Err e, r) ->
  (forall o n, e = BUnexpectedEOF o n -> (N.of_nat o + n <= N.of_nat (length d))) -> exists r', read_der (new_reader (d ++ more)) = (Err e, r').
Proof.
  intros B S H NE. assert (Bd : bytes_ok d) by (apply bytes_ok_app in B; apply B). assert (Sd : slice d) by (eapply slice_less; [|exact S]; rewrite app_length; lia).
  assert (W : wrong 0 d e) by (apply (C137_why [] d e Bd Sd); change (at_pos [] d) with (new_reader d); rewrite H; reflexivity).
  enough (wrong 0 (d ++ more) e) as Q.
  { apply (C137_why [] _ _ B S) in Q. change (at_pos [] (d ++ more)) with (new_reader (d ++ more)) in Q. destruct (read_der (new_reader (d ++ more))) as [y r']. cbn [fst] in Q. subst y. eauto. }
  clear B S H Bd Sd r. inversion W as [a X Y Z|a b s M X Y Z|a b s e' M K X Y Z|a b len n s M K L X Y Z|a b len c post e' K U X Y Z]; subst; cbn [app].
  - specialize (NE _ _ eq_refl). cbn in NE. lia.
  - apply wrong_tag. exact M.
  - apply wrong_length; [exact M|]. destruct K; cbn [app]; try (constructor; assumption).
    + specialize (NE _ _ eq_refl). cbn in NE. lia.
    + specialize (NE _ _ eq_refl). cbn [length] in NE. lia.
  - specialize (NE _ _ eq_refl). cbn [length] in NE. rewrite app_length in NE. unfold blen in L. lia.
  - rewrite <- !app_assoc. apply wrong_contents; assumption.
Qed.
Print Assumptions C137_no_cure.

(** A sequence of a null and a tagged Boolean 7; the null with a byte; an object identifier that
    ends in the middle of an arc; a length of three bytes of which one is there; what is cut. *)
Example C137_case :
  wrong 0 [48; 7; 5; 0; 160; 3; 1; 1; 7] (BPlain "Boolean value must be all zeros or ones") /\
  fst (read_der (new_reader [48; 7; 5; 0; 160; 3; 1; 1; 7])) = Err (BPlain "Boolean value must be all zeros or ones") /\
  fst (read_der (new_reader [48; 3; 5; 1; 0])) = Err (BPlain "Null: incorrect length") /\
  fst (read_der (new_reader [48; 5; 6; 3; 42; 134; 200])) = Err (BUnexpectedEOF 7 1) /\
  wrong 0 [48; 5; 6; 3; 42; 134; 200] (BUnexpectedEOF 7 1) /\
  fst (read_der (new_reader [4; 131; 1])) = Err (BUnexpectedEOF 3 1) /\
  fst (read_der (new_reader [4; 3; 1])) = Err (BUnexpectedEOF 2 3) /\
  fst (read_der (new_reader [16; 0])) = Err (BPlain "Sequence: incorrect form").
Proof.
  assert (B : bytes_ok [48; 7; 5; 0; 160; 3; 1; 1; 7]) by (apply bytes_okb_spec; reflexivity).
  assert (B2 : bytes_ok [48; 5; 6; 3; 42; 134; 200]) by (apply bytes_okb_spec; reflexivity).
  split; [apply (C137_why [] _ _ B); reflexivity|]. do 3 (split; [reflexivity|]). split; [apply (C137_why [] _ _ B2); reflexivity|]. repeat split.
Qed.
