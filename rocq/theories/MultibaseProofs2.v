(** The power-of-two encoders produce the RFC 4648 text. *)
From Verif Require Import BaseProofs MultibaseModel MultibaseSpec MultibaseProofs.

Lemma strict_nil b : pow2_base b -> strictly_denotes b [] [].
Proof.
  intros H. exists [], [], 0%nat, 0%nat. cbn [app repeat bit_string flat_map length].
  repeat split; auto; try constructor; try (destruct b; cbn in *; (lia || contradiction)).
Qed.
Lemma strict_app b ds0 data0 s data :
  Forall (fun d => d < radix b) ds0 -> bytes_ok data0 ->
  bit_string (char_bits b) ds0 = bit_string 8 data0 ->
  (length ds0 mod group b = 0)%nat ->
  strictly_denotes b s data ->
  strictly_denotes b (map (alpha (alphabet_of b)) ds0 ++ s) (data0 ++ data).
Proof.
  intros R O0 B G (cs & ds & z & p & -> & H & B' & Z & O & P).
  exists (map (alpha (alphabet_of b)) ds0 ++ cs), (ds0 ++ ds), z, p.
  rewrite app_assoc, !bit_string_app, B, B', app_assoc, bytes_ok_app.
  repeat split; auto.
  - apply Forall2_app; [apply alpha_stands_all; exact R|exact H].
  - rewrite app_length, map_length. destruct (padded b); [|exact P].
    destruct P as [P1 P2]. split; [exact P1|].
    pose proof (group_pos b) as Gp. rewrite <- Nat.add_assoc.
    rewrite Nat.add_mod, G, P2 by lia. apply Nat.mod_0_l. lia.
Qed.
(** The last, incomplete group. *)
Lemma strict_last b ds data z p :
  Forall (fun d => d < radix b) ds -> bytes_ok data ->
  bit_string (char_bits b) ds = bit_string 8 data ++ repeat false z ->
  (z < char_bits b)%nat ->
  (if padded b then (p < group b /\ (length ds + p) mod group b = 0) else p = 0)%nat ->
  strictly_denotes b (map (alpha (alphabet_of b)) ds ++ repeat (ch "=") p) data.
Proof.
  intros R O B Z P. exists (map (alpha (alphabet_of b)) ds), ds, z, p.
  rewrite map_length. repeat split; auto. apply alpha_stands_all, R.
Qed.

Lemma tb_shiftl x n m : N.testbit (N.shiftl x n) m = (n <=? m) && N.testbit x (m - n).
Proof.
  destruct (N.leb_spec n m) as [H|H].
  - rewrite N.shiftl_spec_high' by exact H. reflexivity.
  - rewrite N.shiftl_spec_low by exact H. reflexivity.
Qed.
Lemma tb_high x i : x < 256 -> 8 <= i -> N.testbit x i = false.
Proof.
  intros Hx Hi. destruct (N.eq_dec x 0) as [->|H0]; [apply N.bits_0|].
  apply N.bits_above_log2. apply N.lt_le_trans with 8; [|exact Hi].
  apply N.log2_lt_pow2; [lia|exact Hx].
Qed.
Ltac ispos p := match p with xH => idtac | xO ?q => ispos q | xI ?q => ispos q end.
Ltac isnum n := match n with N0 => idtac | Npos ?p => ispos p end.
Ltac tb_const := repeat match goal with
  | |- context [N.testbit ?a ?i] =>
      isnum a; isnum i; let v := eval vm_compute in (N.testbit a i) in
      change (N.testbit a i) with v
  | |- context [?a <=? ?i] =>
      isnum a; isnum i; let v := eval vm_compute in (a <=? i) in change (a <=? i) with v
  | |- context [N.testbit ?x (?a + ?i)] =>
      isnum a; isnum i; let v := eval vm_compute in (a + i) in change (a + i) with v
  | |- context [N.testbit ?x (?a - ?i)] =>
      isnum a; isnum i; let v := eval vm_compute in (a - i) in change (a - i) with v
  end.
Ltac tb := cbn [bit_string flat_map bits app repeat N.of_nat Pos.of_succ_nat Pos.succ];
  unfold shl8; rewrite ?N.lor_spec, ?N.land_spec, ?tb_shiftl, ?N.shiftr_spec', ?N.land_spec, ?tb_shiftl, ?N.bits_0;
  tb_const; cbn [andb orb]; 
  repeat match goal with
  | |- context [N.testbit ?x ?j] =>
      isnum j; rewrite (tb_high x j) by (assumption || (vm_compute; congruence))
  end;
  rewrite ?andb_true_r, ?andb_false_r, ?orb_false_r, ?N.bits_0; try reflexivity.

Lemma bound_land x m r : N.ones m < r -> N.land x (N.ones m) < r.
Proof.
  intros H. rewrite N.land_ones.
  assert (x mod 2 ^ m < 2 ^ m) by (apply N.mod_lt, N.pow_nonzero; lia).
  rewrite N.ones_equiv in H. lia.
Qed.
Lemma bits_bound k x : (forall i, N.of_nat k <= i -> N.testbit x i = false) -> x < 2 ^ N.of_nat k.
Proof.
  intros H. replace x with (x mod 2 ^ N.of_nat k).
  { apply N.mod_lt, N.pow_nonzero. lia. }
  apply N.bits_inj. intros i. destruct (N.lt_ge_cases i (N.of_nat k)) as [L|L].
  - apply N.mod_pow2_bits_low, L.
  - rewrite N.mod_pow2_bits_high by exact L. symmetry. apply H, L.
Qed.
Lemma const_bits_above c k i : c < 2 ^ k -> k <= i -> N.testbit c i = false.
Proof.
  intros Hc Hi. destruct (N.eq_dec c 0) as [->|H0]; [apply N.bits_0|].
  apply N.bits_above_log2. apply N.lt_le_trans with k; [|exact Hi].
  apply N.log2_lt_pow2; [lia|exact Hc].
Qed.
(** Digits are below the radix. *)
Ltac digit k kN :=
  let i := fresh "i" in let Hi := fresh "Hi" in
  apply (bits_bound k); intros i Hi; change (kN <= i) in Hi;
  unfold shl8; rewrite ?N.lor_spec, ?N.land_spec, ?N.shiftr_spec';
  repeat match goal with
  | |- context [N.testbit (Npos ?c) i] =>
      rewrite (const_bits_above (Npos c) kN i) by (exact Hi || (vm_compute; reflexivity))
  end;
  rewrite ?andb_false_r, ?orb_false_r; cbn [andb orb];
  repeat match goal with
  | |- context [N.testbit ?x ?j] => rewrite (tb_high x j) by (assumption || lia)
  end; reflexivity.

Lemma b64_digits i0 i1 i2 :
  i0 < 256 -> i1 < 256 -> i2 < 256 ->
  let ds := [N.shiftr i0 2; N.lor (N.land (shl8 i0 4) 0x30) (N.shiftr i1 4);
             N.lor (N.land (shl8 i1 2) 0x3c) (N.shiftr i2 6); N.land i2 0x3f] in
  Forall (fun d => d < 64) ds /\ bit_string 6 ds = bit_string 8 [i0; i1; i2].
Proof.
  intros H0 H1 H2 ds. split.
  - unfold ds. repeat (constructor; [change 64 with (2 ^ N.of_nat 6); digit 6%nat 6|]). constructor.
  - unfold ds. tb.
Qed.
Lemma b64_digits2 i0 i1 :
  i0 < 256 -> i1 < 256 ->
  let ds := [N.shiftr i0 2; N.lor (N.land (shl8 i0 4) 0x30) (N.shiftr i1 4);
             N.land (shl8 i1 2) 0x3c] in
  Forall (fun d => d < 64) ds /\ bit_string 6 ds = bit_string 8 [i0; i1] ++ repeat false 2.
Proof.
  intros H0 H1 ds. split.
  - unfold ds. repeat (constructor; [change 64 with (2 ^ N.of_nat 6); digit 6%nat 6|]). constructor.
  - unfold ds. tb.
Qed.
Lemma b64_digits1 i0 :
  i0 < 256 ->
  let ds := [N.shiftr i0 2; N.land (shl8 i0 4) 0x30] in
  Forall (fun d => d < 64) ds /\ bit_string 6 ds = bit_string 8 [i0] ++ repeat false 4.
Proof.
  intros H0 ds. split.
  - unfold ds. repeat (constructor; [change 64 with (2 ^ N.of_nat 6); digit 6%nat 6|]). constructor.
  - unfold ds. tb.
Qed.
Lemma b16_digits i0 :
  i0 < 256 ->
  let ds := [N.shiftr i0 4; N.land i0 0xf] in
  Forall (fun d => d < 16) ds /\ bit_string 4 ds = bit_string 8 [i0].
Proof.
  intros H0 ds. split.
  - unfold ds. repeat (constructor; [change 16 with (2 ^ N.of_nat 4); digit 4%nat 4|]). constructor.
  - unfold ds. tb.
Qed.
Definition b32_outputs i0 i1 i2 i3 i4 := [
  N.shiftr i0 3; N.lor (N.land (shl8 i0 2) 0x1f) (N.shiftr i1 6);
  N.land (N.shiftr i1 1) 0x1f; N.lor (N.land (shl8 i1 4) 0x1f) (N.shiftr i2 4);
  N.lor (N.land (shl8 i2 1) 0x1f) (N.shiftr i3 7); N.land (N.shiftr i3 2) 0x1f;
  N.lor (N.land (shl8 i3 3) 0x1f) (N.shiftr i4 5); N.land i4 0x1f].
Lemma b32_digits i0 i1 i2 i3 i4 :
  i0 < 256 -> i1 < 256 -> i2 < 256 -> i3 < 256 -> i4 < 256 ->
  Forall (fun d => d < 32) (b32_outputs i0 i1 i2 i3 i4) /\
  bit_string 5 (b32_outputs i0 i1 i2 i3 i4) = bit_string 8 [i0; i1; i2; i3; i4].
Proof.
  intros H0 H1 H2 H3 H4. split.
  - unfold b32_outputs. repeat (constructor; [change 32 with (2 ^ N.of_nat 5); digit 5%nat 5|]). constructor.
  - unfold b32_outputs. tb.
Qed.
Lemma bit_string_firstn k n l : bit_string k (firstn n l) = firstn (k * n) (bit_string k l).
Proof.
  revert l. induction n as [|n IH]; intros l.
  - rewrite Nat.mul_0_r. reflexivity.
  - destruct l as [|d l]; [rewrite firstn_nil; cbn; rewrite firstn_nil; reflexivity|].
    cbn [firstn bit_string flat_map]. fold (bit_string k (firstn n l)) (bit_string k l). rewrite (IH l).
    replace (k * S n)%nat with (length (bits k d) + k * n)%nat by (rewrite bits_length; lia).
    rewrite firstn_app_2. reflexivity.
Qed.
Lemma Forall_firstn {A} (P : A -> Prop) n l : Forall P l -> Forall P (firstn n l).
Proof.
  intros H. revert n. induction H; intros [|n]; cbn [firstn]; constructor; auto.
Qed.

Lemma encode64_strict b data :
  char_bits b = 6%nat -> bytes_ok data ->
  strictly_denotes b
    (encode_base64 data (alphabet_of b) (if padded b then Some (ch "=") else None)) data.
Proof.
  intros Hk. assert (Hb : pow2_base b) by (destruct b; exact I || discriminate).
  assert (Hr : radix b = 64) by (destruct b; reflexivity || discriminate).
  assert (G4 : (4 mod group b = 0)%nat) by (destruct b; reflexivity || discriminate).
  remember (length data) as n eqn:E. assert (Hn : (length data <= n)%nat) by lia. clear E.
  revert data Hn. induction n as [|n IH]; intros data Hn H.
  - destruct data; [|cbn [length] in Hn; lia]. apply strict_nil, Hb.
  - destruct data as [|i0 [|i1 [|i2 rest]]]; [apply strict_nil, Hb| | |].
    + inversion H; subst. destruct (b64_digits1 i0) as [D1 D2]; [assumption|].
      replace (encode_base64 _ _ _) with
        (map (alpha (alphabet_of b)) [N.shiftr i0 2; N.land (shl8 i0 4) 0x30] ++
         repeat (ch "=") (if padded b then 2 else 0)) by (destruct b; reflexivity || discriminate).
      apply strict_last with (z := 4%nat); [rewrite Hr; exact D1|exact H|rewrite Hk; exact D2|rewrite Hk; lia|].
      destruct b; try discriminate; cbn; repeat split; lia || reflexivity.
    + inversion H as [|? ? ? H']; subst. inversion H'; subst.
      destruct (b64_digits2 i0 i1) as [D1 D2]; [assumption|assumption|].
      replace (encode_base64 _ _ _) with
        (map (alpha (alphabet_of b)) [N.shiftr i0 2;
            N.lor (N.land (shl8 i0 4) 0x30) (N.shiftr i1 4); N.land (shl8 i1 2) 0x3c] ++
         repeat (ch "=") (if padded b then 1 else 0)) by (destruct b; reflexivity || discriminate).
      apply strict_last with (z := 2%nat); [rewrite Hr; exact D1|exact H|rewrite Hk; exact D2|rewrite Hk; lia|].
      destruct b; try discriminate; cbn; repeat split; lia || reflexivity.
    + inversion H as [|? ? K0 H']; subst. inversion H' as [|? ? K1 H'']; subst.
      inversion H'' as [|? ? K2 H3]; subst.
      destruct (b64_digits i0 i1 i2 K0 K1 K2) as [D1 D2].
      specialize (IH rest ltac:(cbn [length] in Hn; lia) H3).
      change (i0 :: i1 :: i2 :: rest) with ([i0; i1; i2] ++ rest) at 2.
      cbn [encode_base64].
      eapply (strict_app b _ [i0; i1; i2]) in IH;
        [|rewrite Hr; exact D1|repeat constructor; assumption|rewrite Hk; exact D2|exact G4].
      exact IH.
Qed.

Lemma encode16_strict b data :
  char_bits b = 4%nat -> bytes_ok data ->
  strictly_denotes b (encode_base16 data (alphabet_of b)) data.
Proof.
  intros Hk. assert (Hb : pow2_base b) by (destruct b; exact I || discriminate).
  assert (Hr : radix b = 16) by (destruct b; reflexivity || discriminate).
  assert (G : group b = 1%nat) by (destruct b; reflexivity || discriminate).
  induction 1 as [|x l Hx H IH]; [apply strict_nil, Hb|].
  destruct (b16_digits x Hx) as [D1 D2].
  change (x :: l) with ([x] ++ l). unfold encode_base16. rewrite flat_map_app.
  eapply (strict_app b _ [x]) in IH;
    [|rewrite Hr; exact D1|repeat constructor; assumption|rewrite Hk; exact D2|rewrite G; reflexivity].
  exact IH.
Qed.

Lemma last32_step n : last32 (5 + n) = last32 n.
Proof.
  unfold last32. replace ((5 + n) mod 5)%nat with (n mod 5)%nat; [reflexivity|].
  change (5 + n)%nat with (1 * 5 + n)%nat. rewrite Nat.add_comm, Nat.mod_add by lia. reflexivity.
Qed.
Lemma enc32_loop_strict b fuel data :
  char_bits b = 5%nat -> bytes_ok data -> (length data <= fuel)%nat ->
  strictly_denotes b
    (enc32_loop fuel (last32 (length data)) (alphabet_of b) (padded b) data) data.
Proof.
  intros Hk. assert (Hb : pow2_base b) by (destruct b; exact I || discriminate).
  assert (Hr : radix b = 32) by (destruct b; reflexivity || discriminate).
  assert (G8 : (8 mod group b = 0)%nat) by (destruct b; reflexivity || discriminate).
  revert data. induction fuel as [|fuel IH]; intros data H Hf.
  { destruct data; [|cbn [length] in Hf; lia]. apply strict_nil, Hb. }
  assert (Z : 0 < 256) by reflexivity.
  destruct data as [|i0 [|i1 [|i2 [|i3 [|i4 rest]]]]]; [apply strict_nil, Hb|..];
    cbn [enc32_loop nth]; fold (b32_outputs i0 0 0 0 0).
  - inversion H as [|? ? K0 _]; subst.
    destruct (b32_digits i0 0 0 0 0 K0 Z Z Z Z) as [D1 D2].
    change (last32 (length [i0])) with 2%nat. change (length [i0] <? 5)%nat with true. cbn iota.
    replace (enc32_loop fuel 2 (alphabet_of b) (padded b) (skipn 5 [i0])) with (@nil N) by (destruct fuel; reflexivity).
    rewrite app_nil_r.
    replace (if padded b then repeat (ch "=") (8 - 2) else []) with
      (repeat (ch "=") (if padded b then 6 else 0)) by (destruct (padded b); reflexivity).
    apply strict_last with (z := 2%nat);
      [rewrite Hr; apply Forall_firstn, D1|exact H|
       rewrite Hk, bit_string_firstn, D2; cbn [bit_string flat_map bits N.of_nat Pos.of_succ_nat Pos.succ]; rewrite !N.bits_0; reflexivity|rewrite Hk; lia|].
    destruct b; try discriminate; cbn; repeat split; lia || reflexivity.
  - fold (b32_outputs i0 i1 0 0 0).
    inversion H as [|? ? K0 H']; subst. inversion H' as [|? ? K1 _]; subst.
    destruct (b32_digits i0 i1 0 0 0 K0 K1 Z Z Z) as [D1 D2].
    change (last32 (length [i0; i1])) with 4%nat. change (length [i0; i1] <? 5)%nat with true. cbn iota.
    replace (enc32_loop fuel 4 (alphabet_of b) (padded b) (skipn 5 [i0; i1])) with (@nil N) by (destruct fuel; reflexivity).
    rewrite app_nil_r.
    replace (if padded b then repeat (ch "=") (8 - 4) else []) with
      (repeat (ch "=") (if padded b then 4 else 0)) by (destruct (padded b); reflexivity).
    apply strict_last with (z := 4%nat);
      [rewrite Hr; apply Forall_firstn, D1|exact H|
       rewrite Hk, bit_string_firstn, D2; cbn [bit_string flat_map bits N.of_nat Pos.of_succ_nat Pos.succ]; rewrite !N.bits_0; reflexivity|rewrite Hk; lia|].
    destruct b; try discriminate; cbn; repeat split; lia || reflexivity.
  - fold (b32_outputs i0 i1 i2 0 0).
    inversion H as [|? ? K0 H']; subst. inversion H' as [|? ? K1 H'']; subst.
    inversion H'' as [|? ? K2 _]; subst.
    destruct (b32_digits i0 i1 i2 0 0 K0 K1 K2 Z Z) as [D1 D2].
    change (last32 (length [i0; i1; i2])) with 5%nat. change (length [i0; i1; i2] <? 5)%nat with true. cbn iota.
    replace (enc32_loop fuel 5 (alphabet_of b) (padded b) (skipn 5 [i0; i1; i2])) with (@nil N) by (destruct fuel; reflexivity).
    rewrite app_nil_r.
    replace (if padded b then repeat (ch "=") (8 - 5) else []) with
      (repeat (ch "=") (if padded b then 3 else 0)) by (destruct (padded b); reflexivity).
    apply strict_last with (z := 1%nat);
      [rewrite Hr; apply Forall_firstn, D1|exact H|
       rewrite Hk, bit_string_firstn, D2; cbn [bit_string flat_map bits N.of_nat Pos.of_succ_nat Pos.succ]; rewrite !N.bits_0; reflexivity|rewrite Hk; lia|].
    destruct b; try discriminate; cbn; repeat split; lia || reflexivity.
  - fold (b32_outputs i0 i1 i2 i3 0).
    inversion H as [|? ? K0 H']; subst. inversion H' as [|? ? K1 H'']; subst.
    inversion H'' as [|? ? K2 H3]; subst. inversion H3 as [|? ? K3 _]; subst.
    destruct (b32_digits i0 i1 i2 i3 0 K0 K1 K2 K3 Z) as [D1 D2].
    change (last32 (length [i0; i1; i2; i3])) with 7%nat. change (length [i0; i1; i2; i3] <? 5)%nat with true. cbn iota.
    replace (enc32_loop fuel 7 (alphabet_of b) (padded b) (skipn 5 [i0; i1; i2; i3])) with (@nil N) by (destruct fuel; reflexivity).
    rewrite app_nil_r.
    replace (if padded b then repeat (ch "=") (8 - 7) else []) with
      (repeat (ch "=") (if padded b then 1 else 0)) by (destruct (padded b); reflexivity).
    apply strict_last with (z := 3%nat);
      [rewrite Hr; apply Forall_firstn, D1|exact H|
       rewrite Hk, bit_string_firstn, D2; cbn [bit_string flat_map bits N.of_nat Pos.of_succ_nat Pos.succ]; rewrite !N.bits_0; reflexivity|rewrite Hk; lia|].
    destruct b; try discriminate; cbn; repeat split; lia || reflexivity.
  - fold (b32_outputs i0 i1 i2 i3 i4).
    inversion H as [|? ? K0 H']; subst. inversion H' as [|? ? K1 H'']; subst.
    inversion H'' as [|? ? K2 H3]; subst. inversion H3 as [|? ? K3 H4]; subst.
    inversion H4 as [|? ? K4 H5]; subst.
    destruct (b32_digits i0 i1 i2 i3 i4 K0 K1 K2 K3 K4) as [D1 D2].
    change (length (i0 :: i1 :: i2 :: i3 :: i4 :: rest)) with (5 + length rest)%nat.
    rewrite last32_step.
    replace (5 + length rest <? 5)%nat with false by (symmetry; apply Nat.ltb_ge; lia).
    cbn iota. change (skipn 5 (i0 :: i1 :: i2 :: i3 :: i4 :: rest)) with rest.
    replace (if padded b then repeat (ch "=") (8 - 8) else []) with (@nil N) by (destruct (padded b); reflexivity).
    specialize (IH rest H5 ltac:(cbn [length] in Hf; lia)).
    change (i0 :: i1 :: i2 :: i3 :: i4 :: rest) with ([i0; i1; i2; i3; i4] ++ rest).
    eapply (strict_app b _ [i0; i1; i2; i3; i4]) in IH;
      [|rewrite Hr; exact D1|repeat constructor; assumption|rewrite Hk; exact D2|exact G8].
    exact IH.
Qed.

Lemma encode_strict b data :
  pow2_base b -> bytes_ok data -> strictly_denotes b (encode_noprefix data b) data.
Proof.
  intros Hb H. destruct b; try contradiction.
  - exact (encode16_strict Base16 data eq_refl H).
  - exact (encode16_strict Base16Upper data eq_refl H).
  - exact (enc32_loop_strict Base32 _ data eq_refl H (le_n _)).
  - exact (enc32_loop_strict Base32Upper _ data eq_refl H (le_n _)).
  - exact (enc32_loop_strict Base32Pad _ data eq_refl H (le_n _)).
  - exact (enc32_loop_strict Base32PadUpper _ data eq_refl H (le_n _)).
  - exact (encode64_strict Base64 data eq_refl H).
  - exact (encode64_strict Base64Pad data eq_refl H).
  - exact (encode64_strict Base64URL data eq_refl H).
  - exact (encode64_strict Base64URLPad data eq_refl H).
Qed.
