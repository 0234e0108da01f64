(** The ASN.1 reader looks only at the bytes of the item: what a part of an item is does not
    depend on the bytes around it. *)
From Verif Require Import Base BaseProofs BinaryModel BinarySpec BinaryProofs BinaryProofs2 Asn1Model Asn1Spec Asn1Proofs Asn1Proofs2.

(** [m] succeeds on [s] wherever [m] succeeded reading [s], with related results. *)
Definition carries {A B} (k : nat) (R : A -> B -> Prop) (m : rd A) (m' : rd B) : Prop :=
  forall pre rest a r', (length rest <= k)%nat -> m (at_pos pre rest) = (Ok a, r') ->
  exists s post, rest = s ++ post /\ r' = at_pos (pre ++ s) post /\
    forall pre' post', fits (pre' ++ s ++ post') -> exists a', R a a' /\ m' (at_pos pre' (s ++ post')) = (Ok a', at_pos (pre' ++ s) post').
Definition local {A} (m : rd A) : Prop := forall k, carries k eq m m.

Lemma local_take {A} size (f : bytes -> A) : local (take size f).
Proof.
  intros k pre rest a r' _ H. apply take_inv in H. destruct H as [(e & H & _)|(s & post & -> & L & H & ->)]; [discriminate H|]. injection H as ->.
  exists s, post. split; [reflexivity|]. split; [reflexivity|]. intros pre' post' F. exists (f s). split; [reflexivity|]. rewrite <- L. apply take_ok, F.
Qed.
Lemma local_ret {A} (a : A) : local (rret a).
Proof.
  intros k pre rest x r' _ H. injection H as -> <-. exists [], rest. rewrite app_nil_r. split; [reflexivity|]. split; [reflexivity|]. intros pre' post' _. exists x. rewrite app_nil_r. split; reflexivity.
Qed.
Lemma local_fail {A} e : local (@rfail A e).
Proof. intros k pre rest x r' _ H. discriminate H. Qed.
Lemma local_bind {A B} (m : rd A) (g : A -> rd B) : local m -> (forall a, local (g a)) -> local (rbind m g).
Proof.
  intros M G k pre rest b r' L H. unfold rbind in H. destruct (m (at_pos pre rest)) as [[a|e|] r1] eqn:E; [|discriminate H|discriminate H].
  destruct (M k _ _ _ _ L E) as (s & post & -> & -> & K). rewrite app_length in L. assert (L2 : (length post <= k)%nat) by lia. destruct (G a k _ _ _ _ L2 H) as (s2 & post2 & -> & -> & K2).
  exists (s ++ s2), post2. rewrite !app_assoc. split; [reflexivity|]. split; [reflexivity|]. intros pre' post' F. rewrite <- !app_assoc in F.
  destruct (K pre' (s2 ++ post') F) as (a' & <- & E'). destruct (K2 (pre' ++ s) post') as (b' & <- & E2); [rewrite <- app_assoc; exact F|].
  exists b. split; [reflexivity|]. unfold rbind. rewrite <- app_assoc, E', E2, app_assoc. reflexivity.
Qed.
Lemma local_u8 : local read_u8.
Proof. apply local_take. Qed.
Lemma local_identifier : local read_identifier.
Proof. unfold read_identifier. apply local_bind; [apply local_u8|]. intros b. cbv zeta. destruct (N.land b 31 =? 31); [apply local_fail|apply local_ret]. Qed.
Lemma local_length_loop n : forall v, local (length_loop n v).
Proof. induction n as [|n IH]; intros v; cbn [length_loop]; [apply local_ret|]. apply local_bind; [apply local_u8|]. intros b. apply IH. Qed.
Lemma local_length : local read_length.
Proof.
  unfold read_length. apply local_bind; [apply local_u8|]. intros b. destruct (N.land b 128 =? 0); [apply local_ret|]. cbv zeta.
  destruct (N.land b 127 =? 127); [apply local_fail|]. destruct (N.land b 127 =? 0); [apply local_fail|]. destruct (4 <? N.land b 127); [apply local_fail|apply local_length_loop].
Qed.
Lemma var_carries fuel : forall v pre rest a r', var_loop fuel v (at_pos pre rest) = (Ok a, r') ->
  exists s post, rest = s ++ post /\ r' = at_pos (pre ++ s) post /\
    forall f' pre' post', (length s < f')%nat -> fits (pre' ++ s ++ post') -> var_loop f' v (at_pos pre' (s ++ post')) = (Ok a, at_pos (pre' ++ s) post').
Proof.
  induction fuel as [|fuel IH]; intros v pre rest a r' H; [discriminate H|]. cbn [var_loop] in H. unfold rbind in H.
  destruct (read_u8 (at_pos pre rest)) as [[b|e|] r1] eqn:E; [|discriminate H|discriminate H].
  pose proof E as E0. apply take_inv in E0. destruct E0 as [(e & X & _)|(s & post & -> & Ls & X & ->)]; [discriminate X|]. injection X as ->.
  cbv zeta in H. destruct (N.land (of_be_bytes s) 128 =? 0) eqn:D.
  - injection H as <- <-. exists s, post. split; [reflexivity|]. split; [reflexivity|]. intros f' pre' post' L F. destruct f' as [|f']; [lia|]. cbn [var_loop]. unfold rbind.
    unfold read_u8. rewrite <- Ls, take_ok by exact F. cbv zeta. rewrite D. reflexivity.
  - destruct (IH _ _ _ _ _ H) as (s2 & post2 & -> & -> & K). exists (s ++ s2), post2. rewrite !app_assoc. split; [reflexivity|]. split; [reflexivity|].
    intros f' pre' post' L F. rewrite <- !app_assoc in F. rewrite app_length in L. destruct f' as [|f']; [lia|]. cbn [var_loop]. unfold rbind. rewrite <- app_assoc.
    unfold read_u8. rewrite <- Ls, take_ok by exact F. cbv zeta. rewrite D.
    assert (1 <= length s)%nat by (unfold blen in Ls; lia). rewrite app_assoc. apply K; [lia|]. rewrite <- app_assoc. exact F.
Qed.
Lemma local_var : local read_var_u64.
Proof.
  intros k pre rest a r' _ H. unfold read_var_u64 in H. destruct (var_carries _ _ _ _ _ _ H) as (s & post & -> & -> & K).
  exists s, post. split; [reflexivity|]. split; [reflexivity|]. intros pre' post' F. exists a. split; [reflexivity|]. unfold read_var_u64. rewrite remaining_at. apply K; [rewrite app_length; lia|exact F].
Qed.
Lemma until_carries {A B} (R : A -> B -> Prop) m m' k : carries k R m m' -> forall lf pre rest l, (length rest <= k)%nat -> until_empty lf m (at_pos pre rest) = Ok l ->
  forall lf' pre', (length rest < lf')%nat -> fits (pre' ++ rest) -> exists l', until_empty lf' m' (at_pos pre' rest) = Ok l' /\ Forall2 R l l'.
Proof.
  intros M. induction lf as [|lf IH]; intros pre rest l L H lf' pre' L' F; [discriminate H|]. destruct lf' as [|lf']; [lia|]. cbn [until_empty] in *. rewrite remaining_at in *.
  destruct (0 <? length rest)%nat; [|injection H as <-; exists []; split; [reflexivity|constructor]].
  destruct (m (at_pos pre rest)) as [[a|e|] r1] eqn:E; [|discriminate H|discriminate H]. destruct (M _ _ _ _ L E) as (s & post & -> & -> & K). rewrite remaining_at in H.
  destruct (K pre' post F) as (a' & Ra & E'). rewrite E', remaining_at. destruct (length post =? length (s ++ post))%nat eqn:D; [discriminate H|]. apply Nat.eqb_neq in D. rewrite app_length in *.
  destruct (until_empty lf m (at_pos (pre ++ s) post)) as [t|e|] eqn:T; [|discriminate H|discriminate H]. injection H as <-.
  assert (L2 : (length post <= k)%nat) by lia. assert (L3 : (length post < lf')%nat) by lia. destruct (IH _ _ _ L2 T lf' (pre' ++ s) L3) as (t' & T' & Rt); [rewrite <- app_assoc; exact F|].
  exists (a' :: t'). rewrite T'. split; [reflexivity|]. constructor; assumption.
Qed.
(** Items without their places. *)
Definition alike (i j : item) : Prop := erase i = erase j.
Definition alike_value (v w : value) : Prop := alike (Item 0 0 v) (Item 0 0 w).
Lemma alike_list l l' : Forall2 alike l l' -> map erase l = map erase l'.
Proof. induction 1 as [|a b l l' H HL IH]; [reflexivity|]. cbn [map]. rewrite IH. f_equal. exact H. Qed.
Lemma eq_list {A} (l l' : list A) : Forall2 eq l l' -> l = l'.
Proof. induction 1; congruence. Qed.
Lemma contents_carries k m m' id len pre c v : carries k alike m m' -> (length c <= k)%nat -> read_contents m id len (at_pos pre c) = Ok v ->
  forall pre', fits (pre' ++ c) -> exists w, read_contents m' id len (at_pos pre' c) = Ok w /\ alike_value v w.
Proof.
  intros M L H pre' F. unfold read_contents in *.
  assert (LIST : forall mk, (forall l l', map erase l = map erase l' -> alike_value (mk l) (mk l')) -> (let? l := until_empty (S (remaining (at_pos pre c))) m (at_pos pre c) in Ok (mk l)) = Ok v ->
    exists w, (let? l := until_empty (S (remaining (at_pos pre' c))) m' (at_pos pre' c) in Ok (mk l)) = Ok w /\ alike_value v w).
  { intros mk MK X. rewrite remaining_at in *. destruct (until_empty (S (length c)) m (at_pos pre c)) as [l|e|] eqn:E; [|discriminate X|discriminate X]. injection X as <-.
    destruct (until_carries alike m m' k M _ _ _ _ L E (S (length c)) pre' ltac:(lia) F) as (l' & E' & RL). rewrite E'. exists (mk l'). split; [reflexivity|]. apply MK, alike_list, RL. }
  assert (TAGGED : forall mk, (forall i j, erase i = erase j -> alike_value (mk i) (mk j)) -> (let? i := fst (m (at_pos pre c)) in Ok (mk i)) = Ok v ->
    exists w, (let? i := fst (m' (at_pos pre' c)) in Ok (mk i)) = Ok w /\ alike_value v w).
  { intros mk MK X. destruct (m (at_pos pre c)) as [[i|e|] r1] eqn:E; [|discriminate X|discriminate X]. cbn [fst bind] in X. injection X as <-.
    destruct (M _ _ _ _ L E) as (s & post & -> & -> & K). destruct (K pre' post F) as (j & RL & ->). exists (mk j). split; [reflexivity|]. apply MK, RL. }
  assert (TEXT : forall mk : bytes -> value, (let? s := read_text (at_pos pre c) in Ok (mk s)) = Ok v -> exists w, (let? s := read_text (at_pos pre' c) in Ok (mk s)) = Ok w /\ alike_value v w).
  { intros mk X. unfold read_text in *. rewrite remaining_data_at in *. cbn [bind] in *. destruct (utf8_valid c); [|discriminate X]. exists v. split; [exact X|reflexivity]. }
  assert (DATA : forall mk : bytes -> value, (let? s := fst (remaining_data (at_pos pre c)) in Ok (mk s)) = Ok v -> exists w, (let? s := fst (remaining_data (at_pos pre' c)) in Ok (mk s)) = Ok w /\ alike_value v w).
  { intros mk X. rewrite remaining_data_at in *. exists v. split; [exact X|reflexivity]. }
  assert (SAME : forall x : outcome berr value, x = Ok v -> exists w, x = Ok w /\ alike_value v w) by (intros x ->; exists v; split; reflexivity).
  destruct id as [cls frm tag]. cbn [id_class id_form id_tag] in *. destruct cls.
  2: destruct frm; [exact (SAME _ H)|revert H; apply (TAGGED (VApplication tag)); intros i j X; unfold alike_value, alike; cbn [erase]; rewrite X; reflexivity].
  2: destruct frm; [exact (SAME _ H)|revert H; apply (TAGGED (VContextSpecific tag)); intros i j X; unfold alike_value, alike; cbn [erase]; rewrite X; reflexivity].
  2: destruct frm; [exact (SAME _ H)|revert H; apply (TAGGED (VPrivate tag)); intros i j X; unfold alike_value, alike; cbn [erase]; rewrite X; reflexivity].
  destruct tag as [|p]; [exact (SAME _ H)|].
  repeat match goal with
  | |- context[match ?p with xI _ => _ | xO _ => _ | xH => _ end] => is_var p; destruct p
  end; try (destruct frm); try exact (SAME _ H); try discriminate H.
  all: try (revert H; apply (LIST VSequence); intros l l' X; unfold alike_value, alike; cbn [erase]; rewrite X; reflexivity).
  all: try (revert H; apply (LIST VSet); intros l l' X; unfold alike_value, alike; cbn [erase]; rewrite X; reflexivity).
  all: try (revert H; apply (TEXT VPrintableString)); try (revert H; apply (TEXT VUtf8String)); try (revert H; apply (TEXT VUtcTime)); try (revert H; apply (TEXT VGeneralizedTime));
    try (revert H; apply (DATA VInteger)); try (revert H; apply (DATA VOctetString)).
  - (* null *) rewrite !remaining_at in *. exact (SAME _ H).
  - (* bit string *) unfold rbind in *. destruct (read_u8 (at_pos pre c)) as [[u|e|] r1] eqn:E; [|discriminate H|discriminate H].
    destruct (local_u8 k _ _ _ _ L E) as (s & post & -> & -> & K). destruct (K pre' post F) as (u' & <- & ->).
    pose proof (remaining_data_at (pre ++ s) post) as X. destruct (remaining_data (at_pos (pre ++ s) post)) as [z r]. cbn [fst] in X. subst z. cbn [fst rret] in H.
    pose proof (remaining_data_at (pre' ++ s) post) as X. destruct (remaining_data (at_pos (pre' ++ s) post)) as [z r0]. cbn [fst] in X. subst z. cbn [fst rret]. exact (SAME _ H).
  - (* oid *) unfold read_object_identifier in *. rewrite !remaining_at in *. destruct (until_empty (S (length c)) read_var_u64 (at_pos pre c)) as [l|e|] eqn:E; [|discriminate H|discriminate H].
    destruct (until_carries eq _ _ k (local_var k) _ _ _ _ L E (S (length c)) pre' ltac:(lia) F) as (l' & E' & RL). apply eq_list in RL. subst l'. rewrite E'. exact (SAME _ H).
  - (* boolean *) rewrite !remaining_at in *. destruct (negb (length c =? 1)%nat); [discriminate H|].
    destruct (read_u8 (at_pos pre c)) as [[u|e|] r1] eqn:E; [|discriminate H|discriminate H]. destruct (local_u8 k _ _ _ _ L E) as (s & post & -> & -> & K). destruct (K pre' post F) as (u' & <- & ->).
    cbn [fst] in *. exact (SAME _ H).
Qed.
Lemma fits_inner pre s c post : fits (pre ++ (s ++ c) ++ post) -> fits ((pre ++ s) ++ c).
Proof. unfold fits. rewrite !blen_app. lia. Qed.
Lemma item_carries fuel : forall f' k, (k < f')%nat -> carries k alike (read_item fuel) (read_item f').
Proof.
  induction fuel as [|fuel IH]; intros f' k KF pre rest i r' L H; [discriminate H|]. destruct f' as [|f']; [lia|]. cbn [read_item] in H. unfold rbind at 1 in H.
  destruct (read_identifier (at_pos pre rest)) as [[id|e|] r1] eqn:E1; [|discriminate H|discriminate H].
  pose proof (identifier_consumes _ _ _ _ E1) as (b & rest0 & R0 & R1). destruct (local_identifier k _ _ _ _ L E1) as (s1 & rest1 & -> & -> & K1).
  assert (L1 : length s1 = 1%nat) by (apply (f_equal r_off) in R1; cbn [at_pos r_off] in R1; rewrite !app_length in R1; cbn [length] in R1; lia). clear R0 R1 b rest0.
  rewrite app_length in L. unfold rbind at 1 in H. destruct (read_length (at_pos (pre ++ s1) rest1)) as [[len|e|] r1] eqn:E2; [|discriminate H|discriminate H].
  assert (L2 : (length rest1 <= k)%nat) by lia. destruct (local_length k _ _ _ _ L2 E2) as (s2 & rest2 & -> & -> & K2). rewrite app_length in L.
  unfold rbind at 1 in H. destruct (read_nested len (at_pos ((pre ++ s1) ++ s2) rest2)) as [y r1] eqn:E3. apply nested_inv in E3.
  destruct E3 as [(e & -> & ->)|(c & post & -> & Lc & -> & ->)]; [discriminate H|]. rewrite app_length in L.
  unfold rbind, rlift in H. destruct (read_contents (read_item fuel) id len (at_pos ((pre ++ s1) ++ s2) c)) as [v|e|] eqn:E4; [|discriminate H|discriminate H].
  cbn [at_pos r_off] in H. injection H as <- <-. exists (s1 ++ s2 ++ c), post. split; [rewrite <- !app_assoc; reflexivity|]. split; [unfold at_pos; rewrite <- !app_assoc; reflexivity|].
  intros pre' post' F. rewrite <- !app_assoc in F. destruct (K1 pre' (s2 ++ c ++ post') F) as (id' & <- & X1). destruct (K2 (pre' ++ s1) (c ++ post')) as (len' & <- & X2); [rewrite <- app_assoc; exact F|].
  destruct (contents_carries (f' - 1) (read_item fuel) (read_item f') id len ((pre ++ s1) ++ s2) c v) with (pre' := (pre' ++ s1) ++ s2) as (w & X4 & RW); [apply IH; lia|lia|exact E4| |].
  { revert F. unfold fits. rewrite !blen_app. lia. }
  exists (Item (length pre') (length (((pre' ++ s1) ++ s2) ++ c)) w). split.
  { unfold alike_value, alike in *. cbn [erase] in *. injection RW as RW. rewrite RW. reflexivity. }
  cbn [read_item]. unfold rbind at 1. rewrite <- !app_assoc. rewrite X1. unfold rbind at 1. rewrite X2. unfold rbind at 1. rewrite <- Lc, nested_ok by (rewrite <- !app_assoc; exact F).
  unfold rbind, rlift. rewrite Lc, X4. cbn [at_pos r_off]. rewrite <- !app_assoc. reflexivity.
Qed.
(** The children of an item, and its parts: the item, its children, their children and so on. *)
Definition child (j i : item) : Prop :=
  match item_value i with
  | VSequence l | VSet l => In j l
  | VApplication _ k | VContextSpecific _ k | VPrivate _ k => j = k
  | _ => False
  end.
Inductive part_of : item -> item -> Prop :=
| part_self i : part_of i i
| part_child i j k : child j i -> part_of k j -> part_of k i.
(** [j] was read from the bytes [s] of [whole] that its place names. *)
Definition was_read (whole : bytes) (j : item) : Prop :=
  exists p s q, whole = p ++ s ++ q /\ item_start j = length p /\ item_stop j = length (p ++ s) /\
    exists fuel post, read_item fuel (at_pos p (s ++ post)) = (Ok j, at_pos (p ++ s) post).
Lemma was_read_more whole more j : was_read whole j -> was_read (whole ++ more) j.
Proof. intros (p & s & q & -> & S1 & S2 & R). exists p, s, (q ++ more). rewrite <- !app_assoc. auto. Qed.
Definition reads_parts (fuel : nat) : Prop := forall pre rest i r' j, read_item fuel (at_pos pre rest) = (Ok i, r') -> part_of j i -> was_read (pre ++ rest) j.
Lemma until_parts fuel : reads_parts fuel -> forall lf pre rest l i j, until_empty lf (read_item fuel) (at_pos pre rest) = Ok l -> In i l -> part_of j i -> was_read (pre ++ rest) j.
Proof.
  intros G. induction lf as [|lf IH]; intros pre rest l i j H K P; [discriminate H|]. cbn [until_empty] in H. rewrite remaining_at in H.
  destruct (0 <? length rest)%nat; [|injection H as <-; destruct K].
  destruct (read_item fuel (at_pos pre rest)) as [[a|e|] r1] eqn:E; [|discriminate H|discriminate H].
  destruct (item_carries fuel (S (length rest)) (length rest) (Nat.lt_succ_diag_r _) _ _ _ _ (Nat.le_refl _) E) as (s & post & -> & -> & _). rewrite remaining_at in H.
  destruct (length post =? length (s ++ post))%nat; [discriminate H|]. destruct (until_empty lf (read_item fuel) (at_pos (pre ++ s) post)) as [t|e|] eqn:T; [|discriminate H|discriminate H].
  injection H as <-. destruct K as [->|K].
  - exact (G _ _ _ _ _ E P).
  - rewrite app_assoc. exact (IH _ _ _ _ _ T K P).
Qed.
Lemma contents_parts fuel id len pre c v s e j k : reads_parts fuel -> read_contents (read_item fuel) id len (at_pos pre c) = Ok v -> child j (Item s e v) -> part_of k j -> was_read (pre ++ c) k.
Proof.
  intros G H C P. unfold read_contents in H. rewrite !remaining_at in H.
  assert (LIST : forall mk, (forall l, child j (Item s e (mk l)) -> In j l) -> (let? l := until_empty (S (length c)) (read_item fuel) (at_pos pre c) in Ok (mk l)) = Ok v -> was_read (pre ++ c) k).
  { intros mk MK X. destruct (until_empty (S (length c)) (read_item fuel) (at_pos pre c)) as [l|x|] eqn:E; [|discriminate X|discriminate X]. injection X as <-. exact (until_parts fuel G _ _ _ _ _ _ E (MK l C) P). }
  assert (TAGGED : forall mk, (forall i, child j (Item s e (mk i)) -> j = i) -> (let? i := fst (read_item fuel (at_pos pre c)) in Ok (mk i)) = Ok v -> was_read (pre ++ c) k).
  { intros mk MK X. destruct (read_item fuel (at_pos pre c)) as [[i|x|] r1] eqn:E; [|discriminate X|discriminate X]. injection X as <-. rewrite (MK i C) in P. exact (G _ _ _ _ _ E P). }
  assert (NONE : (forall l, v <> VSequence l) -> (forall l, v <> VSet l) -> (forall t i, v <> VApplication t i) -> (forall t i, v <> VContextSpecific t i) -> (forall t i, v <> VPrivate t i) -> was_read (pre ++ c) k).
  { intros N1 N2 N3 N4 N5. exfalso. destruct v; unfold child in C; cbn [item_value] in C; try contradiction; [eapply N1|eapply N2|eapply N3|eapply N4|eapply N5]; reflexivity. }
  destruct id as [cls frm tag]. cbn [id_class id_form id_tag] in *. destruct cls.
  2: destruct frm; [injection H as <-; destruct C|revert H; apply (TAGGED (VApplication tag)); intros i X; exact X].
  2: destruct frm; [injection H as <-; destruct C|revert H; apply (TAGGED (VContextSpecific tag)); intros i X; exact X].
  2: destruct frm; [injection H as <-; destruct C|revert H; apply (TAGGED (VPrivate tag)); intros i X; exact X].
  destruct tag as [|p]; [injection H as <-; destruct C|].
  repeat match type of H with
  | context[match ?p with xI _ => _ | xO _ => _ | xH => _ end] => is_var p; destruct p
  end; try (destruct frm); try discriminate H; try (injection H as <-; destruct C; fail).
  all: try (revert H; apply (LIST VSequence); intros l X; exact X).
  all: try (revert H; apply (LIST VSet); intros l X; exact X).
  all: apply NONE; intros; intros ->.
  all: repeat match type of H with
  | (let? _ := ?x in _) = _ => destruct x; cbn [bind] in H; try discriminate H
  | (if ?b then _ else _) = _ => destruct b; try discriminate H
  | fst (rbind _ _ _) = _ => unfold rbind at 1 in H; destruct (read_u8 (at_pos pre c)) as [[u|x|] r1]; try discriminate H
  | fst (rbind remaining_data _ ?r) = _ => unfold rbind at 1 in H; destruct (remaining_data r) as [[u'|x|] r2]; try discriminate H
  | fst (let (_, _) := remaining_data ?r in _) = _ => destruct (remaining_data r) as [[u'|x|] r2]; try discriminate H
  end.
Qed.
Lemma item_parts fuel : reads_parts fuel.
Proof.
  induction fuel as [|fuel IH]; intros pre rest i r' j H P; [discriminate H|].
  destruct (item_carries (S fuel) (S (length rest)) (length rest) (Nat.lt_succ_diag_r _) _ _ _ _ (Nat.le_refl _) H) as (s & post & -> & -> & _).
  pose proof H as H0. cbn [read_item] in H. unfold rbind at 1 in H.
  destruct (read_identifier (at_pos pre (s ++ post))) as [[id|e|] r1] eqn:E1; [|discriminate H|discriminate H].
  destruct (local_identifier _ _ _ _ _ (Nat.le_refl _) E1) as (s1 & rest1 & R1 & -> & _).
  unfold rbind at 1 in H. destruct (read_length (at_pos (pre ++ s1) rest1)) as [[len|e|] r1] eqn:E2; [|discriminate H|discriminate H].
  destruct (local_length _ _ _ _ _ (Nat.le_refl _) E2) as (s2 & rest2 & -> & -> & _).
  unfold rbind at 1 in H. destruct (read_nested len (at_pos ((pre ++ s1) ++ s2) rest2)) as [y r1] eqn:E3. apply nested_inv in E3.
  destruct E3 as [(e & -> & ->)|(c & post2 & -> & Lc & -> & ->)]; [discriminate H|].
  unfold rbind, rlift in H. destruct (read_contents (read_item fuel) id len (at_pos ((pre ++ s1) ++ s2) c)) as [v|e|] eqn:E4; [|discriminate H|discriminate H].
  cbn [at_pos r_off] in H. injection H as <- B O. inversion P as [|i' k j' C Q]; subst.
  - exists pre, s, post. split; [reflexivity|]. cbn [item_start item_stop]. split; [reflexivity|]. split; [exact O|]. exists (S fuel), post. exact H0.
  - rewrite R1. replace (pre ++ s1 ++ s2 ++ c ++ post2) with ((((pre ++ s1) ++ s2) ++ c) ++ post2) by (rewrite <- !app_assoc; reflexivity). apply was_read_more.
    exact (contents_parts fuel id _ _ c v _ _ _ _ IH E4 C Q).
Qed.
