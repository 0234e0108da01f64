(** The ASN.1 reader on arbitrary bytes: it ends, does not panic, and ranges are nested. *)
From Verif Require Import Base BaseProofs BinaryModel BinarySpec BinaryProofs BinaryProofs2 Asn1Model Asn1Spec Asn1Proofs.

Definition tile (e : nat) := fix tile (c : nat) (l : list item) : Prop :=
    match l with
    | [] => c = e
    | j :: t => item_start j = c /\ well_placed j /\ tile (item_stop j) t
    end.
Lemma var_loop_wb fuel : forall v pre rest, (length rest < fuel)%nat ->
  exists x s post, var_loop fuel v (at_pos pre rest) = (x, at_pos (pre ++ s) post) /\ rest = s ++ post /\ x <> Panic.
Proof.
  induction fuel as [|fuel IH]; intros v pre rest L; [lia|]. cbn [var_loop]. unfold rbind.
  destruct (read_u8 (at_pos pre rest)) as [y r1] eqn:E. apply take_inv in E. destruct E as [(e & -> & ->)|(s & post & -> & Ls & -> & ->)].
  - exists (Err e), [], rest. rewrite app_nil_r. split; [reflexivity|]. split; [reflexivity|discriminate].
  - destruct (N.land (of_be_bytes s) 128 =? 0).
    + eexists _, s, post. split; [reflexivity|]. split; [reflexivity|discriminate].
    + assert (1 <= length s)%nat by (unfold blen in Ls; lia). rewrite app_length in L.
      destruct (IH (N.lor (N.shiftl v 7 mod two64) (N.land (of_be_bytes s) 127)) (pre ++ s) post ltac:(lia)) as (x & s2 & p2 & E & -> & P).
      exists x, (s ++ s2), p2. rewrite E, !app_assoc. split; [reflexivity|]. split; [reflexivity|exact P].
Qed.
Lemma wb_var : well_behaved read_var_u64.
Proof. apply wb_at. intros pre rest. unfold read_var_u64. rewrite remaining_at. apply var_loop_wb. lia. Qed.
Lemma until_empty_total {A} (one : rd A) : well_behaved one -> forall fuel pre rest, (length rest < fuel)%nat -> until_empty fuel one (at_pos pre rest) <> Panic.
Proof.
  intros W. induction fuel as [|fuel IH]; intros pre rest L; [lia|]. cbn [until_empty]. rewrite remaining_at.
  destruct (0 <? length rest)%nat eqn:E0; [|discriminate]. destruct (proj1 (wb_at one) W pre rest) as (x & s & post & E & -> & P). rewrite E.
  destruct x as [a|e|]; [|discriminate|contradiction]. rewrite remaining_at, app_length in *. destruct (length post =? length s + length post)%nat eqn:E1; [discriminate|].
  apply Nat.eqb_neq in E1. specialize (IH (pre ++ s) post ltac:(lia)). destruct (until_empty fuel one (at_pos (pre ++ s) post)); [discriminate|discriminate|contradiction].
Qed.
Lemma wb_identifier : well_behaved read_identifier.
Proof. unfold read_identifier. apply wb_bind; [apply wb_u8|]. intros b. cbv zeta. destruct (N.land b 31 =? 31); [apply wb_fail|apply wb_ret]. Qed.
Lemma identifier_consumes pre rest id r' : read_identifier (at_pos pre rest) = (Ok id, r') -> exists b post, rest = b :: post /\ r' = at_pos (pre ++ [b]) post.
Proof.
  unfold read_identifier, rbind. destruct (read_u8 (at_pos pre rest)) as [y r1] eqn:E. apply take_inv in E.
  destruct E as [(e & -> & ->)|(s & post & -> & Ls & -> & ->)]; [discriminate|]. destruct s as [|b [|]]; cbn in Ls; try lia.
  cbv zeta. destruct (N.land (of_be_bytes [b]) 31 =? 31); [discriminate|]. intros H. injection H as _ <-. exists b, post. auto.
Qed.
Lemma length_form_nonempty s n : length_form s n -> (1 <= length s)%nat.
Proof. intros [[-> _]|(d & -> & _)]; cbn; lia. Qed.

Definition item_good (fuel : nat) : Prop := forall pre rest x r', (length rest < fuel)%nat -> bytes_ok rest -> read_item fuel (at_pos pre rest) = (x, r') ->
  x <> Panic /\ forall i, x = Ok i -> exists s post, rest = s ++ post /\ r' = at_pos (pre ++ s) post /\
    item_start i = length pre /\ item_stop i = length (pre ++ s) /\ (2 <= length s)%nat /\ well_placed i.
Lemma until_items_good fuel : item_good fuel -> forall lf pre rest x, (length rest < lf)%nat -> (length rest < fuel)%nat -> bytes_ok rest ->
  until_empty lf (read_item fuel) (at_pos pre rest) = x -> x <> Panic /\ forall l, x = Ok l -> tile (length (pre ++ rest)) (length pre) l.
Proof.
  intros G. induction lf as [|lf IH]; intros pre rest x L Lf B H; [lia|]. cbn [until_empty] in H. rewrite remaining_at in H.
  destruct (0 <? length rest)%nat eqn:E0.
  - destruct (read_item fuel (at_pos pre rest)) as [y r'] eqn:E. destruct (G _ _ _ _ Lf B E) as (P & Q).
    destruct y as [i|e|]; [|subst x; split; [discriminate|discriminate]|contradiction].
    destruct (Q i eq_refl) as (s & post & -> & -> & S1 & S2 & S3 & S4). rewrite remaining_at, app_length in H.
    replace (length post =? length s + length post)%nat with false in H by (symmetry; apply Nat.eqb_neq; lia).
    rewrite app_length in L, Lf. apply bytes_ok_app in B. destruct B as [_ B].
    destruct (IH (pre ++ s) post _ ltac:(lia) ltac:(lia) B eq_refl) as (P2 & Q2).
    destruct (until_empty lf (read_item fuel) (at_pos (pre ++ s) post)) as [l|e|]; subst x; [|split; discriminate|contradiction].
    split; [discriminate|]. intros l' X. cbn [bind] in X. injection X as <-. specialize (Q2 l eq_refl). cbn [tile].
    split; [exact S1|]. split; [exact S4|]. rewrite S2. rewrite app_assoc. exact Q2.
  - subst x. split; [discriminate|]. intros l X. injection X as <-. cbn [tile]. rewrite app_length. apply Nat.ltb_ge in E0. lia.
Qed.
Lemma remaining_total pre s : fst (remaining_data (at_pos pre s)) <> Panic.
Proof. rewrite remaining_data_at. discriminate. Qed.
Lemma read_text_total pre s : read_text (at_pos pre s) <> Panic.
Proof. unfold read_text. rewrite remaining_data_at. cbn [bind]. destruct (utf8_valid s); discriminate. Qed.
(** What the contents say about the children. *)
Definition placed_value (c e : nat) (v : value) : Prop :=
  match v with
  | VSequence l | VSet l => tile e c l
  | VApplication _ j | VContextSpecific _ j | VPrivate _ j => item_start j = c /\ (item_stop j <= e)%nat /\ well_placed j
  | _ => True
  end.
Lemma contents_good fuel id len pre rest x : item_good fuel -> (length rest < fuel)%nat -> bytes_ok rest ->
  read_contents (read_item fuel) id len (at_pos pre rest) = x -> x <> Panic /\ forall v, x = Ok v -> placed_value (length pre) (length (pre ++ rest)) v.
Proof.
  intros G Lf B. unfold read_contents.
  assert (LIST : forall mk x, (forall l, placed_value (length pre) (length (pre ++ rest)) (mk l) = tile (length (pre ++ rest)) (length pre) l) ->
    (let? l := until_empty (S (remaining (at_pos pre rest))) (read_item fuel) (at_pos pre rest) in Ok (mk l)) = x ->
    x <> Panic /\ forall v, x = Ok v -> placed_value (length pre) (length (pre ++ rest)) v).
  { intros mk y M H. rewrite remaining_at in H. destruct (until_items_good fuel G (S (length rest)) pre rest _ ltac:(lia) Lf B eq_refl) as (P & Q).
    destruct (until_empty (S (length rest)) (read_item fuel) (at_pos pre rest)) as [l|e|]; subst y; [|split; discriminate|contradiction].
    split; [discriminate|]. intros v X. cbn [bind] in X. injection X as <-. rewrite M. apply Q. reflexivity. }
  assert (TAGGED : forall mk x, (forall j, placed_value (length pre) (length (pre ++ rest)) (mk j) = (item_start j = length pre /\ (item_stop j <= length (pre ++ rest))%nat /\ well_placed j)) ->
    (let? i := fst (read_item fuel (at_pos pre rest)) in Ok (mk i)) = x ->
    x <> Panic /\ forall v, x = Ok v -> placed_value (length pre) (length (pre ++ rest)) v).
  { intros mk y M H. destruct (read_item fuel (at_pos pre rest)) as [z r'] eqn:E. destruct (G _ _ _ _ Lf B E) as (P & Q). cbn [fst] in H.
    destruct z as [i|e|]; subst y; [|split; discriminate|contradiction]. split; [discriminate|]. intros v X. cbn [bind] in X. injection X as <-. rewrite M.
    destruct (Q i eq_refl) as (s & post & -> & _ & S1 & S2 & S3 & S4). split; [exact S1|]. split; [rewrite S2, !app_length; lia|exact S4]. }
  assert (TEXT : forall mk x, (forall s, placed_value (length pre) (length (pre ++ rest)) (mk s) = True) ->
    (let? s := read_text (at_pos pre rest) in Ok (mk s)) = x -> x <> Panic /\ forall v, x = Ok v -> placed_value (length pre) (length (pre ++ rest)) v).
  { intros mk y M H. pose proof (read_text_total pre rest) as T. destruct (read_text (at_pos pre rest)) as [s|e|]; subst y; [|split; discriminate|contradiction].
    split; [discriminate|]. intros v X. cbn [bind] in X. injection X as <-. rewrite M. exact I. }
  assert (DATA : forall mk x, (forall s, placed_value (length pre) (length (pre ++ rest)) (mk s) = True) ->
    (let? s := fst (remaining_data (at_pos pre rest)) in Ok (mk s)) = x -> x <> Panic /\ forall v, x = Ok v -> placed_value (length pre) (length (pre ++ rest)) v).
  { intros mk y M H. rewrite remaining_data_at in H. subst y. split; [discriminate|]. intros v X. cbn [bind] in X. injection X as <-. rewrite M. exact I. }
  assert (UNK : Ok (VUnknown id len) = x -> x <> Panic /\ forall v, x = Ok v -> placed_value (length pre) (length (pre ++ rest)) v).
  { intros <-. split; [discriminate|]. intros v X. injection X as <-. exact I. }
  assert (ERR : forall e, Err e = x -> x <> Panic /\ forall v, x = Ok v -> placed_value (length pre) (length (pre ++ rest)) v).
  { intros e <-. split; discriminate. }
  destruct id as [cls frm tag]. cbn [id_class id_form id_tag] in *. destruct cls.
  2: destruct frm; [exact UNK|apply TAGGED; reflexivity]. 2: destruct frm; [exact UNK|apply TAGGED; reflexivity]. 2: destruct frm; [exact UNK|apply TAGGED; reflexivity].
  destruct tag as [|p]; [exact UNK|].
  repeat match goal with
  | |- context[match ?p with xI _ => _ | xO _ => _ | xH => _ end] => is_var p; destruct p
  end; try (destruct frm); try exact UNK; try (exact (ERR _)).
  all: try (apply (LIST VSequence); reflexivity); try (apply (LIST VSet); reflexivity);
    try (apply (TEXT VPrintableString); reflexivity); try (apply (TEXT VUtf8String); reflexivity); try (apply (TEXT VUtcTime); reflexivity); try (apply (TEXT VGeneralizedTime); reflexivity);
    try (apply (DATA VInteger); reflexivity); try (apply (DATA VOctetString); reflexivity).
  - (* null *) destruct (negb (remaining (at_pos pre rest) =? 0)%nat); intros <-; (split; [discriminate|]); [discriminate|]. intros v X. injection X as <-. exact I.
  - (* bit string *) destruct (proj1 (wb_at read_u8) wb_u8 pre rest) as (y & s & post & E & -> & P). unfold rbind. rewrite E. destruct y as [u|e|]; [| |contradiction].
    + pose proof (remaining_data_at (pre ++ s) post) as X. destruct (remaining_data (at_pos (pre ++ s) post)) as [z r]. cbn [fst] in X. subst z. cbn [fst rret].
      intros <-. split; [discriminate|]. intros v X. injection X as <-. exact I.
    + cbn [fst]. intros <-. split; discriminate.
  - (* oid *) unfold read_object_identifier. rewrite remaining_at. pose proof (until_empty_total read_var_u64 wb_var (S (length rest)) pre rest ltac:(lia)) as P.
    destruct (until_empty (S (length rest)) read_var_u64 (at_pos pre rest)) as [l|e|]; [| |contradiction]; cbn [bind]; intros <-; (split; [discriminate|]); [|discriminate].
    intros v X. injection X as <-. exact I.
  - (* boolean *) destruct (negb (remaining (at_pos pre rest) =? 1)%nat); [intros <-; split; discriminate|].
    destruct (proj1 (wb_at read_u8) wb_u8 pre rest) as (y & s & post & E & -> & P). rewrite E. cbn [fst]. destruct y as [b|e|]; [| |contradiction]; cbn [bind]; [|intros <-; split; discriminate].
    destruct (b =? 0); [|destruct (b =? 255)]; intros <-; (split; [discriminate|]); try discriminate; intros v X; injection X as <-; exact I.
Qed.
Lemma read_item_good fuel : item_good fuel.
Proof.
  induction fuel as [|fuel IH]; intros pre rest x r' L B H; [lia|]. cbn [read_item] in H. unfold rbind at 1 in H.
  destruct (read_identifier (at_pos pre rest)) as [y r1] eqn:E1. destruct y as [id|e|].
  2: { injection H as <- _. split; discriminate. }
  2: { exfalso. destruct (proj1 (wb_at _) wb_identifier pre rest) as (z & s & post & E & _ & P). rewrite E1 in E. injection E as <- _. contradiction. }
  apply identifier_consumes in E1. destruct E1 as (b & rest1 & -> & ->). apply bytes_ok_cons in B. destruct B as [_ B]. cbn [length] in L.
  unfold rbind at 1 in H. destruct (read_length (at_pos (pre ++ [b]) rest1)) as [y r1] eqn:E2. apply read_length_inv in E2; [|exact B].
  destruct E2 as (P & s1 & rest2 & -> & -> & Q). destruct y as [len|e|]; [|injection H as <- _; split; discriminate|contradiction].
  specialize (length_form_nonempty _ _ (Q len eq_refl)) as L1. rewrite app_length in L. apply bytes_ok_app in B. destruct B as [_ B].
  unfold rbind at 1 in H. destruct (read_nested len (at_pos ((pre ++ [b]) ++ s1) rest2)) as [y r1] eqn:E3. apply nested_inv in E3.
  destruct E3 as [(e & -> & ->)|(c & post & -> & Lc & -> & ->)]; [injection H as <- _; split; discriminate|].
  unfold rbind, rlift in H. rewrite app_length in L. apply bytes_ok_app in B. destruct B as [B _].
  destruct (contents_good fuel id len ((pre ++ [b]) ++ s1) c _ IH ltac:(lia) B eq_refl) as (P2 & Q2).
  destruct (read_contents (read_item fuel) id len (at_pos ((pre ++ [b]) ++ s1) c)) as [v|e|]; [|injection H as <- _; split; discriminate|contradiction].
  specialize (Q2 v eq_refl). cbn [at_pos r_off] in H. injection H as <- <-. split; [discriminate|]. intros i X. injection X as <-.
  exists (b :: s1 ++ c), post. rewrite <- !app_assoc in *. cbn [app] in *. split; [rewrite <- app_assoc; reflexivity|]. split; [reflexivity|]. split; [reflexivity|]. split; [reflexivity|].
  split; [cbn [length]; rewrite app_length; lia|]. cbn [well_placed].
  assert (E4 : (length pre + 2 <= length (pre ++ b :: s1))%nat) by (rewrite app_length; cbn [length]; lia).
  assert (E5 : (length pre + 2 <= length (pre ++ b :: s1 ++ c))%nat) by (rewrite app_length; cbn [length]; rewrite app_length; lia).
  split; [exact E5|]. destruct v; cbn [placed_value] in Q2; auto.
  - exists (length (pre ++ b :: s1)). split; [exact E4|exact Q2].
  - exists (length (pre ++ b :: s1)). split; [exact E4|exact Q2].
  - destruct Q2 as (A1 & A2 & A3). split; [lia|]. split; [exact A2|exact A3].
  - destruct Q2 as (A1 & A2 & A3). split; [lia|]. split; [exact A2|exact A3].
  - destruct Q2 as (A1 & A2 & A3). split; [lia|]. split; [exact A2|exact A3].
Qed.
