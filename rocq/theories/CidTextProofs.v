From Verif Require Import BaseProofs ProtobufProofs MessageProofs CidModel CidSpec CidProofs MultibaseModel MultibaseSpec
  MultibaseProofs MultibaseProofs3 MultibaseProofs4 CidTextModel CidTextSpec.

Lemma Forall2_length {A B} (P : A -> B -> Prop) l l' : Forall2 P l l' -> length l = length l'.
Proof. induction 1; cbn [length]; congruence. Qed.

(** ** Size of a number and its leading digits *)
Lemma be_value_bound r l :
  Forall (fun d => d < r) l -> be_value r l < r ^ N.of_nat (length l).
Proof.
  induction 1 as [|d l Hd Hl IH]; [reflexivity|].
  rewrite be_value_cons. cbn [length]. rewrite Nat2N.inj_succ, N.pow_succ_r'.
  set (P := r ^ N.of_nat (length l)) in *. clearbody P. nia.
Qed.
Lemma be_value_lower r d l : d <> 0 -> r ^ N.of_nat (length l) <= be_value r (d :: l).
Proof.
  intros H. rewrite be_value_cons. set (P := r ^ N.of_nat (length l)). clearbody P. nia.
Qed.
Lemma be_length r l n :
  1 < r -> Forall (fun d => d < r) l -> no_leading_zero l ->
  r ^ N.of_nat n <= be_value r l < r ^ N.of_nat (S n) -> length l = S n.
Proof.
  intros Hr F NZ [L U]. pose proof (be_value_bound r l F) as B.
  destruct l as [|d l].
  - exfalso. cbn in B, L. assert (r ^ N.of_nat n <> 0) by (apply N.pow_nonzero; lia). lia.
  - apply nlz_head in NZ. pose proof (be_value_lower r d l NZ) as Lo. cbn [length] in *.
    assert (L1 : N.of_nat n < N.of_nat (S (length l)))
      by (apply (N.pow_lt_mono_r_iff r); lia).
    assert (L2 : N.of_nat (length l) < N.of_nat (S n))
      by (apply (N.pow_lt_mono_r_iff r); lia).
    lia.
Qed.
Lemma be_head r d l :
  1 < r -> Forall (fun d => d < r) (d :: l) ->
  be_value r (d :: l) / r ^ N.of_nat (length l) = d.
Proof.
  intros Hr F. inversion F; subst. rewrite be_value_cons.
  pose proof (be_value_bound r l ltac:(assumption)) as B.
  rewrite N.add_comm, N.div_add by lia. rewrite N.div_small by exact B. reflexivity.
Qed.
Lemma stands_digits b cs ds : Forall2 (stands_for b) cs ds -> Forall (fun d => d < radix b) ds.
Proof. induction 1; constructor; auto. eapply stands_for_lt; eauto. Qed.

(** Facts about the numbers 0x12 0x20 ... and Qm.... *)
Lemma v0_bounds : 23 * 58 ^ 45 + 44 * 58 ^ 44 <= 0x1220 * 256 ^ 32 /\
  0x1221 * 256 ^ 32 <= 23 * 58 ^ 45 + 45 * 58 ^ 44.
Proof. split; vm_compute; congruence. Qed.

Lemma v0_text h :
  bytes_ok h -> length h = 32%nat ->
  exists rest, encode_noprefix (0x12 :: 0x20 :: h) Base58BTC = ch "Q" :: ch "m" :: rest /\
    length rest = 44%nat.
Proof.
  intros Hh L.
  assert (Hb : bytes_ok (0x12 :: 0x20 :: h)) by (repeat (constructor; [reflexivity|]); exact Hh).
  pose proof (encode58_denotes Base58BTC _ (fun x => x) Hb) as (z & one & num & ds & cs & E & O & -> & F & N1 & N2 & B & V).
  assert (z = 0%nat /\ num = 0x12 :: 0x20 :: h) as [-> ->].
  { destruct z; [auto|]. discriminate. }
  cbn [repeat app] in *.
  pose proof (stands_digits _ _ _ F) as D. change (radix Base58BTC) with 58 in D.
  rewrite be_value_cons, be_value_cons in V. cbn [length] in V. rewrite L in V.
  pose proof (be_value_bound 256 h Hh) as Bh. rewrite L in Bh.
  change (N.of_nat 33) with 33 in V. change (N.of_nat 32) with 32 in *.
  pose proof v0_bounds as [K1 K2].
  assert (VB : 23 * 58 ^ 45 + 44 * 58 ^ 44 <= be_value 58 ds < 23 * 58 ^ 45 + 45 * 58 ^ 44).
  { rewrite V. replace (18 * 256 ^ 33) with (0x1200 * 256 ^ 32) by reflexivity. lia. }
  clear V K1 K2 Bh E.
  assert (Ld : length ds = 46%nat).
  { apply (be_length 58); auto; [lia|]. change (N.of_nat 45) with 45. change (N.of_nat 46) with 46.
    split; eapply N.le_trans || eapply N.lt_le_trans; [|apply VB|apply VB|]; vm_compute; congruence. }
  destruct ds as [|d0 [|d1 ds]]; try discriminate.
  assert (Lr : length ds = 44%nat) by (cbn [length] in Ld; lia).
  inversion D as [|? ? D0 D']; subst. inversion D' as [|? ? D1 D'']; subst.
  pose proof (be_value_bound 58 ds D'') as Br. rewrite Lr in Br.
  rewrite !be_value_cons in VB. cbn [length] in VB. rewrite Lr in VB.
  change (N.of_nat 45) with 45 in VB. change (N.of_nat 44) with 44 in *.
  assert (E45 : 58 ^ 45 = 58 * 58 ^ 44) by (vm_compute; reflexivity). rewrite E45 in VB. clear E45.
  assert (HP : 0 < 58 ^ 44) by (vm_compute; reflexivity).
  set (P := 58 ^ 44) in *. clearbody P.
  set (R := be_value 58 ds) in *. clearbody R.
  assert (d0 = 23 /\ d1 = 44) as [-> ->].
  { assert (Q : (d0 * 58 + d1) * P + R < 1379 * P /\ 1378 * P <= (d0 * 58 + d1) * P + R) by lia.
    assert (d0 * 58 + d1 = 1378) by (destruct Q; nia). lia. }
  inversion F as [|c0 ? cs0 ? C0 F0]; subst. inversion F0 as [|c1 ? cs1 ? C1 F1]; subst.
  vm_compute in C0, C1. injection C0 as <-. injection C1 as <-.
  exists cs1. split; [reflexivity|]. apply Forall2_length in F1. lia.
Qed.

Lemma Qm_bytes rest data :
  length rest = 44%nat ->
  decode_noprefix (ch "Q" :: ch "m" :: rest) Base58BTC = Ok data ->
  exists t, data = 0x12 :: t /\ length t = 33%nat.
Proof.
  intros L H. apply decode58_iff in H as (z & one & num & ds & cs & -> & O & E & F & N1 & N2 & B & V);
    [|exact (fun x => x)].
  assert (one = ch "1") as -> by (vm_compute in O; injection O as <-; reflexivity).
  destruct z as [|z]; [|discriminate]. cbn [repeat app] in *. subst cs.
  inversion F as [|? d0 ? ds0 C0 F0]; subst. inversion F0 as [|? d1 ? ds1 C1 F1]; subst.
  assert (d0 = 23) as -> by (eapply stands_for_fun; [exact C0|reflexivity]).
  assert (d1 = 44) as -> by (eapply stands_for_fun; [exact C1|reflexivity]).
  pose proof (stands_digits _ _ _ F1) as D. change (radix Base58BTC) with 58 in D.
  pose proof (be_value_bound 58 ds1 D) as Br.
  assert (Lr : length ds1 = 44%nat) by (apply Forall2_length in F1; lia).
  rewrite !be_value_cons in V. cbn [length] in V. rewrite Lr in *.
  change (N.of_nat 45) with 45 in V. change (N.of_nat 44) with 44 in *.
  assert (K1 : 0x12 * 256 ^ 33 <= 23 * 58 ^ 45 + 44 * 58 ^ 44) by (vm_compute; congruence).
  assert (K2 : 23 * 58 ^ 45 + 45 * 58 ^ 44 < 0x13 * 256 ^ 33) by (vm_compute; congruence).
  assert (VB : 0x12 * 256 ^ 33 <= be_value 256 num < 0x13 * 256 ^ 33) by lia.
  clear V K1 K2 Br.
  assert (Ln : length num = 34%nat).
  { apply (be_length 256); auto; [lia|]. change (N.of_nat 33) with 33. change (N.of_nat 34) with 34.
    split; eapply N.le_trans || eapply N.lt_le_trans; [|apply VB|apply VB|]; vm_compute; congruence. }
  destruct num as [|x t]; [discriminate|]. exists t. cbn [length] in Ln. split; [|lia].
  f_equal. inversion B as [|? ? Bx Bt]; subst.
  pose proof (be_value_bound 256 t Bt) as Bv. rewrite be_value_cons in VB.
  replace (length t) with 33%nat in * by lia. change (N.of_nat 33) with 33 in *.
  assert (HP : 0 < 256 ^ 33) by (vm_compute; reflexivity).
  set (P := 256 ^ 33) in *. clearbody P. nia.
Qed.

(** ** Lengths *)
Lemma reads_as_length b s data : reads_as b s data -> (length data <= length s)%nat /\ bytes_ok data.
Proof.
  intros R. destruct (pow2_dec b) as [P|P].
  - assert (Lo : loosely_denotes b s data) by (destruct b; auto; contradiction).
    destruct Lo as (ds & left & F & B & L & O). split; [|exact O].
    assert (Hk : (char_bits b <= 8)%nat) by (destruct b; cbn; lia).
    apply (f_equal (@length bool)) in B. rewrite app_length, !bit_string_length in B.
    apply Forall2_length in F.
    assert (length (body b s) <= length s)%nat.
    { unfold body. destruct (padded b); [|lia]. clear. induction s as [|c s IH]; cbn [until_pad length]; [lia|].
      destruct (c =? ch "="); cbn [length]; lia. }
    nia.
  - assert (D : denotes58 b s data) by (destruct b; auto; exfalso; apply P; exact I).
    assert (R58 : radix b = 58) by (destruct b; try (exfalso; apply P; exact I); reflexivity).
    destruct D as (z & one & num & ds & cs & -> & O & -> & F & N1 & N2 & B & V).
    split.
    + rewrite !app_length, !repeat_length. apply Nat.add_le_mono_l.
      rewrite (Forall2_length _ _ _ F). pose proof (stands_digits _ _ _ F) as D. rewrite R58 in D.
      pose proof (be_value_bound 58 ds D) as U. rewrite V in U.
      destruct num as [|x num]; [cbn; lia|]. apply nlz_head in N1.
      pose proof (be_value_lower 256 x num N1) as Lo. cbn [length].
      assert (N.of_nat (length num) < N.of_nat (length ds)); [|lia].
      apply (N.pow_lt_mono_r_iff 256); [lia|]. eapply N.le_lt_trans; [exact Lo|].
      eapply N.lt_le_trans; [exact U|]. apply N.pow_le_mono_l. lia.
    + apply bytes_ok_app. split; [|exact B]. clear. induction z; cbn [repeat]; constructor; auto. reflexivity.
Qed.

(** ** Parsing text *)
Lemma cid_from_string_ok s c :
  fits s -> (cid_from_string s = Ok c <-> cid_text s c).
Proof.
  intros Hf.
  assert (FL : forall data, (length data <= length s)%nat -> fits data)
    by (unfold fits, blen in *; intros; lia).
  unfold cid_from_string. destruct ((length s =? 46)%nat && starts_with_Qm s) eqn:Q.
  - apply andb_true_iff in Q as [Q1 Q2]. apply Nat.eqb_eq in Q1.
    destruct s as [|q [|m rest]]; try discriminate.
    apply andb_true_iff in Q2 as [Qq Qm]. apply N.eqb_eq in Qq, Qm. subst q m.
    assert (L : length rest = 44%nat) by (cbn [length] in Q1; lia).
    rewrite bind_ok. split.
    + intros (data & D & C). apply map_err_ok in D. apply map_err_ok in C.
      destruct (Qm_bytes _ _ L D) as (t & -> & Lt).
      apply reads_as_iff in D. destruct (reads_as_length _ _ _ D) as [Ld Od].
      apply cid_from_bytes_ok in C; [|exact Od|exact (FL _ Ld)].
      unfold cid_text. unfold cid_wire in C. destruct (cid_ver c) eqn:Ev.
      * exists (0x12 :: t). split; [exact D|]. unfold cid_wire. rewrite Ev. exact C.
      * destruct C as (? & ? & ? & C & _). discriminate.
    + unfold cid_text. destruct (cid_ver c) eqn:Ev.
      * intros (data & D & W). exists data.
        assert (D' : decode_noprefix (ch "Q" :: ch "m" :: rest) Base58BTC = Ok data)
          by (apply reads_as_iff; exact D).
        rewrite D'. destruct (reads_as_length Base58BTC _ _ D) as [Ld Od].
        split; [reflexivity|]. apply map_err_ok. apply cid_from_bytes_ok; auto.
      * intros (b & t & data & E & _). exfalso. destruct b; discriminate.
  - rewrite bind_ok. split.
    + intros (data & D & C). apply map_err_ok in D. apply map_err_ok in C.
      unfold decode in D. destruct s as [|code t]; [discriminate|].
      destruct (for_code code) as [b|] eqn:Eb; [|discriminate].
      apply for_code_iff in Eb. subst code.
      assert (D' : decode_noprefix t b = Ok data).
      { destruct t; [|exact D]. rewrite <- decode_prefix. unfold decode. rewrite for_code_base. exact D. }
      apply reads_as_iff in D'. destruct (reads_as_length _ _ _ D') as [Ld Od].
      apply cid_from_bytes_v1_ok in C as [Ev W];
        [|exact Od|apply FL; cbn [length]; lia].
      unfold cid_text. rewrite Ev. exists b, t, data. auto.
    + unfold cid_text. destruct (cid_ver c) eqn:Ev.
      * intros (data & D & W). exfalso. unfold cid_wire in W. rewrite Ev in W.
        destruct W as (-> & L & _). apply denotes_iff_encode in D as [-> Hb].
        inversion Hb as [|? ? _ Hb']; subst. inversion Hb' as [|? ? _ Hh]; subst.
        destruct (v0_text _ Hh L) as (rest & E & Lr). rewrite E in Q. cbn [length] in Q.
        rewrite Lr in Q. discriminate.
      * intros (b & t & data & -> & R & W). exists data.
        rewrite decode_prefix. rewrite (proj2 (reads_as_iff _ _ _) R). split; [reflexivity|].
        destruct (reads_as_length _ _ _ R) as [Ld Od].
        apply map_err_ok. apply cid_from_bytes_v1_ok; auto. apply FL. cbn [length]. lia.
Qed.
Lemma cid_from_string_not_panic s : fits s -> cid_from_string s <> Panic.
Proof.
  intros Hf. unfold cid_from_string.
  assert (FL : forall data, (length data <= length s)%nat -> fits data)
    by (unfold fits, blen in *; intros; lia).
  destruct ((length s =? 46)%nat && starts_with_Qm s).
  - apply bind_not_panic; [apply map_err_not_panic, decode_noprefix_not_panic|].
    intros data D. apply map_err_ok in D. apply reads_as_iff in D.
    destruct (reads_as_length _ _ _ D) as [Ld Od].
    apply map_err_not_panic, cid_from_bytes_not_panic; auto.
  - apply bind_not_panic; [apply map_err_not_panic, decode_not_panic|].
    intros data D. apply map_err_ok in D.
    assert (K : bytes_ok data /\ fits data).
    { unfold decode in D. destruct s as [|code t]; [discriminate|].
      destruct (for_code code) as [b|]; [|discriminate].
      destruct t; [assert (data = []) as -> by congruence; split; [constructor|reflexivity]|].
      apply reads_as_iff in D. destruct (reads_as_length _ _ _ D) as [Ld Od].
      split; [exact Od|]. apply FL. cbn [length] in *. lia. }
    apply map_err_not_panic, cid_from_bytes_v1_not_panic; tauto.
Qed.

(** ** Printing *)
Lemma cid_string_text c :
  cid_ok c -> fits (cid_hash c) -> cid_text (cid_to_string c) c.
Proof.
  intros H F. pose proof (cid_to_bytes_wire c H F) as W.
  pose proof (cid_to_bytes_ok c H) as Hb.
  unfold cid_text, cid_to_string. destruct (cid_ver c) eqn:Ev.
  - destruct H as (_ & _ & _ & H0). destruct (H0 Ev) as (E1 & E2 & E3).
    assert (E : cid_to_bytes c = 0x12 :: 0x20 :: cid_hash c).
    { unfold cid_to_bytes. rewrite Ev, E1, E2, E3. reflexivity. }
    assert (V0 : is_cid_v0 (cid_to_bytes c) = true) by (apply cid_v0_spec; eauto).
    rewrite V0. exists (cid_to_bytes c). split; [|exact W]. apply encode_denotes, Hb.
  - assert (V0 : is_cid_v0 (cid_to_bytes c) = false).
    { destruct (is_cid_v0 (cid_to_bytes c)) eqn:E; [|reflexivity].
      apply cid_v0_spec in E as (h & E & _). unfold cid_wire in W. rewrite Ev in W.
      destruct W as (? & ? & ? & W & _). congruence. }
    rewrite V0. exists Base32, (encode_noprefix (cid_to_bytes c) Base32), (cid_to_bytes c).
    split; [reflexivity|]. split; [|exact W]. apply reads_as_iff, round_trip_noprefix, Hb.
Qed.
Lemma cid_text_shape c :
  cid_ok c ->
  match cid_ver c with
  | CIDv0 => length (cid_to_string c) = 46%nat /\ starts_with_Qm (cid_to_string c) = true
  | CIDv1 => exists t, cid_to_string c = ch "b" :: t
  end.
Proof.
  intros H. unfold cid_to_string. destruct (cid_ver c) eqn:Ev.
  - destruct H as (Hh & _ & _ & H0). destruct (H0 Ev) as (E1 & E2 & E3).
    assert (E : cid_to_bytes c = 0x12 :: 0x20 :: cid_hash c).
    { unfold cid_to_bytes. rewrite Ev, E1, E2, E3. reflexivity. }
    assert (V0 : is_cid_v0 (cid_to_bytes c) = true) by (apply cid_v0_spec; eauto).
    rewrite V0, E. destruct (v0_text _ Hh E3) as (rest & -> & L).
    cbn [length]. rewrite L. auto.
  - assert (E : exists t, cid_to_bytes c = 1 :: t).
    { unfold cid_to_bytes. rewrite Ev. eexists. reflexivity. }
    destruct E as [t ->]. assert (V0 : is_cid_v0 (1 :: t) = false).
    { unfold is_cid_v0. destruct t; [reflexivity|]. cbn [N.eqb Pos.eqb andb]. apply andb_false_r. }
    rewrite V0. eexists. reflexivity.
Qed.
