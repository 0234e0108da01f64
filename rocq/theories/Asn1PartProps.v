(** C48, continued: the place of any part of an ASN.1 item is where its bytes are, and those
    bytes alone read as that part. *)
From Verif Require Import Base BaseProofs BinaryModel BinarySpec BinaryProofs Asn1Model Asn1Spec Asn1Proofs Asn1LocalProofs.

Theorem C48_parts_alone d i r' j : fits d -> read_der (new_reader d) = (Ok i, r') -> part_of j i ->
  exists before s after j', d = before ++ s ++ after /\ item_start j = length before /\ item_stop j = length (before ++ s) /\
    read_der (new_reader s) = (Ok j', at_pos s []) /\ erase j' = erase j.
Proof.
  intros F R J. unfold read_der in R. rewrite new_at_pos in R.
  destruct (item_parts _ _ _ _ _ _ R J) as (p & s & q & D & S1 & S2 & fuel & post & RJ). cbn [app] in D.
  destruct (item_carries fuel (S (length (s ++ post))) (length (s ++ post)) (Nat.lt_succ_diag_r _) p (s ++ post) j _ (Nat.le_refl _) RJ) as (s2 & post2 & X1 & X2 & K).
  assert (X3 : s2 = s).
  { apply (f_equal r_off) in X2. cbn [at_pos r_off] in X2. rewrite !app_length in X2. assert (L : length s = length s2) by lia. apply (f_equal (firstn (length s))) in X1.
    rewrite firstn_app_length in X1. rewrite L, firstn_app_length in X1. symmetry. exact X1. }
  subst s2. assert (FS : fits ([] ++ s ++ [])) by (revert F; rewrite D; cbn [app]; rewrite app_nil_r; unfold fits; rewrite !blen_app; lia).
  destruct (K [] [] FS) as (j1 & A1 & R1). cbn [app] in R1. rewrite app_nil_r in R1.
  destruct (item_carries _ (S (length s)) (length s) (Nat.lt_succ_diag_r _) [] s j1 _ (Nat.le_refl _) R1) as (s3 & post3 & Y1 & Y2 & K3).
  assert (Y3 : s3 = s).
  { apply (f_equal r_off) in Y2. cbn [at_pos r_off app] in Y2. pose proof (f_equal (@length N) Y1) as Y4. rewrite app_length in Y4. assert (L : length post3 = 0%nat) by lia. apply length_zero_iff_nil in L. subst post3. rewrite app_nil_r in Y1. symmetry. exact Y1. }
  subst s3. destruct (K3 [] [] FS) as (j2 & A2 & R2). cbn [app] in R2. rewrite app_nil_r in R2.
  exists p, s, q, j2. split; [exact D|]. split; [exact S1|]. split; [exact S2|]. split.
  - unfold read_der. rewrite new_at_pos, remaining_at. exact R2.
  - unfold alike in A1, A2. congruence.
Qed.
Print Assumptions C48_parts_alone.
(** Reading does not depend on what follows the item. *)
Theorem C48_prefix d i r' : fits d -> read_der (new_reader d) = (Ok i, r') ->
  exists s after, d = s ++ after /\ r' = at_pos s after /\
    forall more, fits (s ++ more) -> exists i', read_der (new_reader (s ++ more)) = (Ok i', at_pos s more) /\ erase i' = erase i.
Proof.
  intros F R. unfold read_der in R. rewrite new_at_pos, remaining_at in R.
  destruct (item_carries (S (length d)) (S (length d)) (length d) (Nat.lt_succ_diag_r _) [] d i _ (Nat.le_refl _) R) as (s & post & -> & -> & K).
  exists s, post. split; [reflexivity|]. split; [reflexivity|]. intros more FM.
  destruct (K [] [] ltac:(cbn [app]; rewrite app_nil_r; revert F; unfold fits; rewrite blen_app; lia)) as (j1 & A1 & R1). cbn [app] in R1. rewrite app_nil_r in R1.
  destruct (item_carries _ (S (length (s ++ more))) (length s) ltac:(rewrite app_length; lia) [] s j1 _ (Nat.le_refl _) R1) as (s3 & post3 & Y1 & Y2 & K3).
  assert (Y3 : s3 = s).
  { apply (f_equal r_off) in Y2. cbn [at_pos r_off app] in Y2. pose proof (f_equal (@length N) Y1) as Y4. rewrite app_length in Y4. assert (L : length post3 = 0%nat) by lia. apply length_zero_iff_nil in L. subst post3. rewrite app_nil_r in Y1. symmetry. exact Y1. }
  subst s3. destruct (K3 [] more FM) as (j2 & A2 & R2). cbn [app] in R2. exists j2. split.
  - unfold read_der. rewrite new_at_pos, remaining_at. exact R2.
  - unfold alike in A1, A2. congruence.
Qed.
Print Assumptions C48_prefix.
Example C48_part_case :
  let d := [48; 8; 2; 1; 5; 49; 3; 4; 1; 7; 99] in
  read_der (new_reader d) = (Ok (Item 0 10 (VSequence [Item 2 5 (VInteger [5]); Item 5 10 (VSet [Item 7 10 (VOctetString [7])])])), at_pos [48; 8; 2; 1; 5; 49; 3; 4; 1; 7] [99]) /\
  read_der (new_reader (firstn 3 (skipn 7 d))) = (Ok (Item 0 3 (VOctetString [7])), at_pos [4; 1; 7] []).
Proof. split; vm_compute; reflexivity. Qed.
