(** Proofs about the varint model. *)
From Verif Require Import Base BaseProofs VarintModel VarintSpec.
Ltac Zify.zify_post_hook ::= Z.div_mod_to_equations.

(** ** Encoding *)
Lemma shiftr7 v : N.shiftr v 7 = v / 128.
Proof. rewrite shiftr_pow. reflexivity. Qed.

Lemma encode_loop_fuel f1 f2 v :
  v < 2 ^ N.of_nat f1 -> v < 2 ^ N.of_nat f2 -> (0 < f1)%nat -> (0 < f2)%nat ->
  encode_loop f1 v = encode_loop f2 v.
Proof.
  revert f2 v; induction f1 as [|f1 IH]; intros f2 v H1 H2 P1 P2; [lia|].
  destruct f2 as [|f2]; [lia|].
  cbn [encode_loop]. rewrite shiftr7.
  destruct (N.eqb_spec (v / 128) 0) as [E|E]; cbn [negb]; [reflexivity|].
  assert (D : forall f, v < 2 ^ N.of_nat (S f) -> v / 128 < 2 ^ N.of_nat f).
  { intros f Hf. rewrite Nat2N.inj_succ, N.pow_succ_r' in Hf. lia. }
  assert (P : forall f, v < 2 ^ N.of_nat (S f) -> (0 < f)%nat).
  { intros f Hf. destruct f; [|lia]. cbn in Hf. lia. }
  f_equal. apply IH; auto.
Qed.

Lemma encode_u64_eq v :
  encode_u64 v = if v <? 128 then [v] else (v mod 128 + 128) :: encode_u64 (v / 128).
Proof.
  unfold encode_u64 at 1. cbn [encode_loop]. rewrite shiftr7, land_127.
  destruct (N.ltb_spec v 128) as [H|H].
  - replace (v / 128) with 0 by lia. cbn [N.eqb negb].
    replace (v mod 128) with v by lia. reflexivity.
  - destruct (N.eqb_spec (v / 128) 0) as [E|E]; [lia|]. cbn [negb].
    rewrite lor_128 by lia. f_equal. unfold encode_u64.
    assert (S1 : v < 2 ^ N.size v) by apply N.size_gt.
    apply encode_loop_fuel.
    + rewrite N2Nat.id. lia.
    + pose proof (N.size_gt (v / 128)) as S2.
      rewrite Nat2N.inj_succ, N2Nat.id, N.pow_succ_r'. lia.
    + destruct (N.size v) eqn:Es; [|lia]. cbn in S1. lia.
    + lia.
Qed.

Lemma encode_ind (P : N -> Prop) :
  (forall v, v < 128 -> P v) ->
  (forall v, 128 <= v -> P (v / 128) -> P v) ->
  forall v, P v.
Proof.
  intros Hb Hs v. induction v as [v IH] using (well_founded_induction N.lt_wf_0).
  destruct (N.ltb_spec v 128) as [H|H]; [auto|].
  apply Hs; [exact H|]. apply IH. lia.
Qed.

Lemma encode_small v : v < 128 -> encode_u64 v = [v].
Proof. intros H. rewrite encode_u64_eq. destruct (N.ltb_spec v 128); [reflexivity|lia]. Qed.
Lemma encode_big v : 128 <= v -> encode_u64 v = (v mod 128 + 128) :: encode_u64 (v / 128).
Proof. intros H. rewrite encode_u64_eq. destruct (N.ltb_spec v 128); [lia|reflexivity]. Qed.

Lemma encode_bytes_ok v : bytes_ok (encode_u64 v).
Proof.
  induction v as [v H|v H IH] using encode_ind.
  - rewrite encode_small by exact H. apply bytes_ok_cons. split; [lia|constructor].
  - rewrite encode_big by exact H. apply bytes_ok_cons. split; [lia|exact IH].
Qed.

Lemma well_terminated_one b : b < 128 -> well_terminated [b].
Proof. intros H. exists [], b. repeat split; auto. Qed.
Lemma well_terminated_cons b t :
  128 <= b -> (well_terminated (b :: t) <-> well_terminated t).
Proof.
  intros Hb. split; intros (pre & last & E & Hp & Hl).
  - destruct pre as [|p pre]; inversion E; subst; [lia|].
    inversion Hp; subst. exists pre, last. auto.
  - exists (b :: pre), last. subst t. repeat split; auto.
Qed.
Lemma well_terminated_nil : ~ well_terminated [].
Proof. intros (pre & last & E & _). destruct pre; discriminate. Qed.
Lemma well_terminated_small b t : b < 128 -> (well_terminated (b :: t) <-> t = []).
Proof.
  intros Hb; split.
  - intros (pre & last & E & Hp & Hl). destruct pre as [|p pre]; inversion E; subst; auto.
    inversion Hp; lia.
  - intros ->. apply well_terminated_one, Hb.
Qed.

Lemma encode_well_terminated v : well_terminated (encode_u64 v).
Proof.
  induction v as [v H|v H IH] using encode_ind.
  - rewrite encode_small by exact H. apply well_terminated_one, H.
  - rewrite encode_big by exact H. apply well_terminated_cons; [lia|exact IH].
Qed.

Lemma encode_value v : base128_value (encode_u64 v) = v.
Proof.
  induction v as [v H|v H IH] using encode_ind.
  - rewrite encode_small by exact H. cbn [base128_value]. lia.
  - rewrite encode_big by exact H. cbn [base128_value]. rewrite IH. lia.
Qed.

Lemma encode_nonempty v : encode_u64 v <> [].
Proof. rewrite encode_u64_eq. destruct (v <? 128); discriminate. Qed.

Lemma encode_length_le n v :
  v < 128 ^ N.of_nat (S n) -> (length (encode_u64 v) <= S n)%nat.
Proof.
  revert v; induction n as [|n IH]; intros v H.
  - rewrite encode_small by (cbn in H; lia). cbn; lia.
  - destruct (N.ltb_spec v 128) as [L|L].
    + rewrite encode_small by exact L. cbn; lia.
    + rewrite encode_big by exact L. cbn [length].
      apply le_n_S. apply IH.
      rewrite Nat2N.inj_succ, N.pow_succ_r' in H. lia.
Qed.
Lemma encode_length_u64 v : u64_ok v -> (1 <= length (encode_u64 v) <= 10)%nat.
Proof.
  intros H. split.
  - destruct (encode_u64 v) eqn:E; [apply encode_nonempty in E; tauto|cbn; lia].
  - apply (encode_length_le 9). unfold u64_ok, two64 in H.
    change (128 ^ N.of_nat 10) with 1180591620717411303424. lia.
Qed.

Lemma encode_minimal v l :
  bytes_ok l -> well_terminated l -> base128_value l = v ->
  (length (encode_u64 v) <= length l)%nat.
Proof.
  revert v; induction l as [|b l IH]; intros v Hok Hw Hv.
  - apply well_terminated_nil in Hw. tauto.
  - apply bytes_ok_cons in Hok as [Hb Hok].
    destruct (N.ltb_spec b 128) as [L|L].
    + apply well_terminated_small in Hw; [|exact L]. subst l.
      cbn [base128_value] in Hv. subst v. rewrite encode_small by lia. cbn; lia.
    + apply well_terminated_cons in Hw; [|exact L].
      cbn [base128_value length] in *.
      destruct (N.ltb_spec v 128) as [M|M].
      * rewrite encode_small by exact M. cbn; lia.
      * rewrite encode_big by exact M. cbn [length].
        apply le_n_S, IH; auto. lia.
Qed.

(** ** The slice decoder *)
Lemma pow2_7S k : 2 ^ (7 * N.of_nat (S k)) = 128 * 2 ^ (7 * N.of_nat k).
Proof.
  replace (7 * N.of_nat (S k)) with (7 + 7 * N.of_nat k) by lia.
  rewrite N.pow_add_r. reflexivity.
Qed.
Lemma pow2_7_le63 k : (k <= 9)%nat -> 2 ^ (7 * N.of_nat k) <= two63.
Proof.
  intros H. change two63 with (2 ^ 63). apply N.pow_le_mono_r; lia.
Qed.
Lemma pow2_pos n : 0 < 2 ^ n.
Proof. apply N.neq_0_lt_0, N.pow_nonzero. discriminate. Qed.

Lemma step_res res k b :
  (k < 9)%nat -> res < 2 ^ (7 * N.of_nat k) ->
  N.lor res (N.shiftl (N.land b 127) (7 * N.of_nat k) mod two64) =
  res + (b mod 128) * 2 ^ (7 * N.of_nat k).
Proof.
  intros Hk Hr. rewrite land_127, N.mod_small.
  - apply lor_disjoint, Hr.
  - rewrite N.shiftl_mul_pow2.
    pose proof (pow2_7_le63 (S k) ltac:(lia)) as P. rewrite pow2_7S in P.
    unfold two63 in P. unfold two64.
    pose proof (pow2_pos (7 * N.of_nat k)). nia.
Qed.
Lemma step_bound res k b :
  res < 2 ^ (7 * N.of_nat k) ->
  res + (b mod 128) * 2 ^ (7 * N.of_nat k) < 2 ^ (7 * N.of_nat (S k)).
Proof.
  intros Hr. rewrite pow2_7S. pose proof (pow2_pos (7 * N.of_nat k)).
  assert (b mod 128 <= 127) by lia. nia.
Qed.

Lemma base128_all_zero_or (l : bytes) : 0 <= base128_value l.
Proof. lia. Qed.

Lemma value_lt_pow l : base128_value l < 2 ^ (7 * N.of_nat (length l)).
Proof.
  induction l as [|b l IH]; [cbn; lia|].
  cbn [base128_value length]. rewrite pow2_7S. lia.
Qed.

Lemma shift_ge64 k : (64 <=? 7 * N.of_nat k) = (10 <=? k)%nat.
Proof. lia. Qed.
Lemma shift_eq63 k : (7 * N.of_nat k =? 63) = (k =? 9)%nat.
Proof. lia. Qed.
Lemma shift_next k : 7 * N.of_nat k + 7 = 7 * N.of_nat (S k).
Proof. lia. Qed.

Lemma decode_loop_ok data : forall res k v,
  bytes_ok data -> res < 2 ^ (7 * N.of_nat k) ->
  (decode_loop res (7 * N.of_nat k) data = Ok v <->
   well_terminated data /\ (k + length data <= 10)%nat /\
   v = res + base128_value data * 2 ^ (7 * N.of_nat k) /\ u64_ok v).
Proof.
  induction data as [|b data IH]; intros res k v Hok Hr.
  - cbn [decode_loop]. split; [discriminate|].
    intros [H _]. apply well_terminated_nil in H. tauto.
  - apply bytes_ok_cons in Hok as [Hb Hok].
    cbn [decode_loop]. rewrite top_bit_clear by exact Hb.
    rewrite shift_ge64, shift_eq63.
    destruct (Nat.leb_spec 10 k) as [K|K].
    { split; [discriminate|]. intros (_ & H & _). cbn [length] in H. lia. }
    destruct (Nat.eqb_spec k 9) as [K9|K9]; cbn [andb].
    + (* tenth byte *)
      subst k. change (7 * N.of_nat 9) with 63 in *.
      destruct (N.ltb_spec 1 b) as [B|B].
      * split; [discriminate|]. intros (Hw & Hl & Hv & Hu). cbn [length] in Hl.
        destruct data; [|cbn [length] in Hl; lia].
        destruct (N.ltb_spec b 128) as [L|L].
        2:{ apply well_terminated_cons in Hw; [|exact L]. apply well_terminated_nil in Hw. tauto. }
        cbn [base128_value] in Hv. unfold u64_ok, two64 in Hu.
        change (2 ^ 63) with 9223372036854775808 in *. lia.
      * destruct (N.ltb_spec b 128) as [L|L]; [|lia].
        rewrite land_127. replace (b mod 128) with b by lia.
        rewrite N.mod_small.
        2:{ rewrite N.shiftl_mul_pow2. change (2 ^ 63) with 9223372036854775808. unfold two64. lia. }
        rewrite lor_disjoint by exact Hr.
        destruct data as [|c data].
        -- split.
           ++ intros E. injection E as <-. split; [apply well_terminated_one, L|].
              cbn [length base128_value]. split; [lia|].
              replace (b mod 128 + 128 * 0) with b by lia. split; [reflexivity|].
              unfold u64_ok, two64. change (2 ^ 63) with 9223372036854775808 in *. lia.
           ++ intros (_ & _ & Hv & _). cbn [base128_value] in Hv. subst v.
              replace (b mod 128 + 128 * 0) with b by lia. reflexivity.
        -- split; [discriminate|]. intros (Hw & _). apply well_terminated_small in Hw; [|exact L].
           discriminate.
    + assert (K' : (k < 9)%nat) by lia.
      rewrite step_res by assumption.
      pose proof (step_bound res k b Hr) as Hr'.
      destruct (N.ltb_spec b 128) as [L|L].
      * destruct data as [|c data].
        -- split.
           ++ intros E. injection E as <-. split; [apply well_terminated_one, L|].
              cbn [length base128_value]. split; [lia|].
              rewrite N.mul_0_r, N.add_0_r. split; [reflexivity|]. unfold u64_ok.
              pose proof (pow2_7_le63 (S k) ltac:(lia)) as P.
              eapply N.lt_trans; [exact Hr'|]. eapply N.le_lt_trans; [exact P|]. reflexivity.
           ++ intros (_ & _ & Hv & _). cbn [base128_value] in Hv. subst v.
              rewrite N.mul_0_r, N.add_0_r. reflexivity.
        -- split; [discriminate|]. intros (Hw & _). apply well_terminated_small in Hw; [|exact L].
           discriminate.
      * rewrite shift_next. rewrite IH by assumption.
        rewrite well_terminated_cons by exact L.
        cbn [length base128_value]. rewrite pow2_7S.
        split; intros (H1 & H2 & H3 & H4); (split; [exact H1|]; split; [lia|]; split; [|exact H4]);
          subst v; generalize (2 ^ (7 * N.of_nat k)) (b mod 128) (base128_value data); intros; ring.
Qed.

Theorem decode_u64_ok data v :
  bytes_ok data ->
  (decode_u64 data = Ok v <->
   well_terminated data /\ (length data <= 10)%nat /\ base128_value data = v /\ v < 2 ^ 64).
Proof.
  intros H. unfold decode_u64. rewrite (decode_loop_ok data 0 O v H) by (cbn; lia).
  change (2 ^ (7 * N.of_nat 0)) with 1. unfold u64_ok, two64.
  change (2 ^ 64) with 18446744073709551616.
  split; intros (H1 & H2 & H3 & H4); (split; [exact H1|]; split; [lia|]; split; lia).
Qed.

Theorem decode_encode v : u64_ok v -> decode_u64 (encode_u64 v) = Ok v.
Proof.
  intros H. apply decode_u64_ok; [apply encode_bytes_ok|].
  split; [apply encode_well_terminated|]. split; [apply encode_length_u64, H|].
  split; [apply encode_value|exact H].
Qed.

Lemma decode_loop_missing data : forall res k,
  bytes_ok data -> (k <= 9)%nat ->
  (decode_loop res (7 * N.of_nat k) data = Err MissingFinalByte <->
   Forall (fun b => 128 <= b) data /\ (k + length data <= 9)%nat).
Proof.
  induction data as [|b data IH]; intros res k Hok Hk.
  - cbn [decode_loop length]. split; intros; [split; [constructor|lia]|reflexivity].
  - apply bytes_ok_cons in Hok as [Hb Hok].
    cbn [decode_loop]. rewrite top_bit_clear by exact Hb.
    rewrite shift_ge64, shift_eq63.
    destruct (Nat.leb_spec 10 k) as [K|K]; [lia|].
    destruct (Nat.eqb_spec k 9) as [K9|K9]; cbn [andb].
    + destruct (N.ltb_spec 1 b) as [B|B].
      * split; [discriminate|]. intros [_ H]. cbn [length] in H. lia.
      * destruct (N.ltb_spec b 128) as [L|L]; [|lia].
        split; [destruct data; discriminate|]. intros [H _]. inversion H; lia.
    + destruct (N.ltb_spec b 128) as [L|L].
      * split; [destruct data; discriminate|]. intros [H _]. inversion H; lia.
      * rewrite shift_next, IH by (auto; lia). cbn [length].
        split.
        -- intros [H1 H2]. split; [constructor; auto|lia].
        -- intros [H1 H2]. inversion H1; subst. split; [auto|lia].
Qed.

Lemma decode_loop_misplaced data : forall res k,
  bytes_ok data -> res < 2 ^ (7 * N.of_nat k) -> (k <= 10)%nat ->
  (decode_loop res (7 * N.of_nat k) data = Err MisplacedFinalByte <->
   exists p q v, data = p ++ q /\ q <> [] /\ decode_loop res (7 * N.of_nat k) p = Ok v).
Proof.
  induction data as [|b data IH]; intros res k Hok Hr Hk.
  - cbn [decode_loop]. split; [discriminate|].
    intros (p & q & v & E & Hq & _). destruct p; cbn in E; [subst; tauto|discriminate].
  - pose proof Hok as Hok0. apply bytes_ok_cons in Hok as [Hb Hok].
    split.
    + cbn [decode_loop]. rewrite top_bit_clear by exact Hb.
      rewrite shift_ge64, shift_eq63.
      destruct (Nat.leb_spec 10 k) as [K|K]; [discriminate|].
      destruct (Nat.eqb_spec k 9) as [K9|K9]; cbn [andb].
      * destruct (N.ltb_spec 1 b) as [B|B]; [discriminate|].
        destruct (N.ltb_spec b 128) as [L|L]; [|lia].
        destruct data as [|c data]; [discriminate|]. intros _.
        eexists [b], (c :: data), _. split; [reflexivity|]. split; [discriminate|].
        cbn [decode_loop]. rewrite top_bit_clear, shift_ge64, shift_eq63 by exact Hb.
        destruct (Nat.leb_spec 10 k); [lia|]. destruct (Nat.eqb_spec k 9); [|lia].
        destruct (N.ltb_spec 1 b); [lia|]. destruct (N.ltb_spec b 128); [|lia].
        reflexivity.
      * destruct (N.ltb_spec b 128) as [L|L].
        -- destruct data as [|c data]; [discriminate|]. intros _.
           eexists [b], (c :: data), _. split; [reflexivity|]. split; [discriminate|].
           cbn [decode_loop]. rewrite top_bit_clear, shift_ge64, shift_eq63 by exact Hb.
           destruct (Nat.leb_spec 10 k); [lia|]. destruct (Nat.eqb_spec k 9); [lia|].
           destruct (N.ltb_spec b 128); [|lia]. reflexivity.
        -- rewrite shift_next. intros E.
           rewrite step_res in E by (auto; lia).
           apply IH in E; [|auto|apply step_bound; auto|lia].
           destruct E as (p & q & v & E & Hq & Hp).
           exists (b :: p), q, v. split; [cbn; f_equal; exact E|]. split; [exact Hq|].
           cbn [decode_loop]. rewrite top_bit_clear, shift_ge64, shift_eq63 by exact Hb.
           destruct (Nat.leb_spec 10 k); [lia|]. destruct (Nat.eqb_spec k 9); [lia|].
           destruct (N.ltb_spec b 128); [lia|]. cbn [andb].
           rewrite step_res by (auto; lia). rewrite shift_next. exact Hp.
    + intros (p & q & v & E & Hq & Hp).
      destruct p as [|b' p]; [cbn in Hp; discriminate|].
      cbn in E. injection E as E1 E2. subst b' data.
      cbn [decode_loop] in Hp |- *.
      rewrite top_bit_clear, shift_ge64, shift_eq63 in * by exact Hb.
      destruct (Nat.leb_spec 10 k); [discriminate|].
      destruct (Nat.eqb_spec k 9) as [K9|K9]; cbn [andb] in *.
      * destruct (N.ltb_spec 1 b); [discriminate|].
        destruct (N.ltb_spec b 128); [|lia].
        destruct p; [|discriminate]. destruct q; [tauto|reflexivity].
      * destruct (N.ltb_spec b 128).
        -- destruct p; [|discriminate]. destruct q; [tauto|reflexivity].
        -- rewrite shift_next in *. rewrite step_res in * by (auto; lia).
           apply IH; [auto|apply step_bound; auto|lia|].
           exists p, q, v. auto.
Qed.

Lemma decode_loop_not_panic data : forall res s, decode_loop res s data <> Panic.
Proof.
  induction data as [|b data IH]; intros res s; cbn [decode_loop]; [discriminate|].
  destruct (64 <=? s); [discriminate|].
  destruct ((s =? 63) && (1 <? b)); [discriminate|].
  destruct (N.land b 128 =? 0); [destruct data; discriminate|]. apply IH.
Qed.

Lemma decode_missing data :
  bytes_ok data ->
  (decode_u64 data = Err MissingFinalByte <->
   Forall (fun b => 128 <= b) data /\ (length data <= 9)%nat).
Proof. intros H. apply (decode_loop_missing data 0 0 H). lia. Qed.
Lemma decode_misplaced data :
  bytes_ok data ->
  (decode_u64 data = Err MisplacedFinalByte <->
   exists p q v, data = p ++ q /\ q <> [] /\ decode_u64 p = Ok v).
Proof. intros H. apply (decode_loop_misplaced data 0 0 H); [cbn; lia|lia]. Qed.
Lemma decode_not_panic data : decode_u64 data <> Panic.
Proof. apply decode_loop_not_panic. Qed.

(** ** Scanning *)
Lemma scan_well_terminated l rest :
  bytes_ok l -> well_terminated l -> scan_varint (l ++ rest) = Some (length l).
Proof.
  induction l as [|b l IH]; intros Hok Hw.
  - apply well_terminated_nil in Hw. tauto.
  - apply bytes_ok_cons in Hok as [Hb Hok].
    cbn [app scan_varint]. rewrite top_bit_clear by exact Hb.
    destruct (N.ltb_spec b 128) as [L|L].
    + apply well_terminated_small in Hw; [|exact L]. subst l. reflexivity.
    + apply well_terminated_cons in Hw; [|exact L].
      rewrite IH by assumption. reflexivity.
Qed.
Lemma scan_some l n :
  bytes_ok l -> scan_varint l = Some n ->
  (0 < n <= length l)%nat /\ well_terminated (firstn n l).
Proof.
  revert n; induction l as [|b l IH]; intros n Hok H; cbn [scan_varint] in H; [discriminate|].
  apply bytes_ok_cons in Hok as [Hb Hok]. rewrite top_bit_clear in H by exact Hb.
  destruct (N.ltb_spec b 128) as [L|L].
  - injection H as <-. cbn [length firstn]. split; [lia|]. apply well_terminated_one, L.
  - destruct (scan_varint l) as [m|] eqn:E; [|discriminate]. injection H as <-.
    destruct (IH m Hok eq_refl) as [H1 H2]. cbn [length firstn]. split; [lia|].
    apply well_terminated_cons; auto.
Qed.
Lemma scan_none l :
  bytes_ok l -> (scan_varint l = None <-> Forall (fun b => 128 <= b) l).
Proof.
  induction l as [|b l IH]; intros Hok; cbn [scan_varint]; [split; auto|].
  apply bytes_ok_cons in Hok as [Hb Hok]. rewrite top_bit_clear by exact Hb.
  destruct (N.ltb_spec b 128) as [L|L].
  - split; [discriminate|]. intros H; inversion H; lia.
  - specialize (IH Hok). destruct (scan_varint l); cbn [option_map].
    + split; [discriminate|]. intros H; inversion H; subst. apply IH in H3. discriminate.
    + split; [|reflexivity]. intros _. constructor; [exact L|]. apply IH; reflexivity.
Qed.

Lemma read_from_encode pre v rest :
  read_from (pre ++ encode_u64 v ++ rest) (length pre) =
  (Some (encode_u64 v), (length pre + length (encode_u64 v))%nat).
Proof.
  unfold read_from. rewrite skipn_app_length.
  rewrite scan_well_terminated; [|apply encode_bytes_ok|apply encode_well_terminated].
  rewrite get_range_app. reflexivity.
Qed.

(** ** The incremental decoder *)
Lemma feed_ok l : forall res k rest,
  bytes_ok l -> well_terminated l -> (k + length l <= 10)%nat ->
  res < 2 ^ (7 * N.of_nat k) ->
  feed {| dec_res := res; dec_shift := 7 * N.of_nat k |} (l ++ rest) =
  (Finished ((res + base128_value l * 2 ^ (7 * N.of_nat k)) mod two64), length l).
Proof.
  induction l as [|b l IH]; intros res k rest Hok Hw Hk Hr.
  - apply well_terminated_nil in Hw. tauto.
  - apply bytes_ok_cons in Hok as [Hb Hok]. cbn [length] in Hk.
    cbn [app feed]. unfold decoder_input, checked_shl64. cbn [dec_res dec_shift].
    rewrite top_bit_clear by exact Hb.
    destruct (N.ltb_spec (7 * N.of_nat k) 64) as [S|S]; [|lia].
    destruct (N.ltb_spec b 128) as [L|L].
    + apply well_terminated_small in Hw; [|exact L]. subst l.
      cbn [base128_value length]. f_equal. f_equal.
      destruct (Nat.eq_dec k 9) as [->|K9].
      * change (7 * N.of_nat 9) with 63 in *. change (2 ^ 63) with 9223372036854775808 in *.
        rewrite land_127, N.shiftl_mul_pow2.
        change (2 ^ 63) with 9223372036854775808.
        replace ((b mod 128 * 9223372036854775808) mod two64)
          with (N.shiftl (b mod 2) 63).
        -- rewrite lor_disjoint by exact Hr.
           change (2 ^ 63) with 9223372036854775808. unfold two64. lia.
        -- rewrite N.shiftl_mul_pow2. change (2 ^ 63) with 9223372036854775808.
           unfold two64. lia.
      * rewrite step_res by (auto; lia). rewrite N.mul_0_r, N.add_0_r.
        symmetry. apply N.mod_small.
        pose proof (step_bound res k b Hr) as B.
        pose proof (pow2_7_le63 (Datatypes.S k) ltac:(lia)) as P.
        eapply N.lt_trans; [exact B|]. eapply N.le_lt_trans; [exact P|]. reflexivity.
    + apply well_terminated_cons in Hw; [|exact L].
      assert (K : (k < 9)%nat).
      { destruct l; [apply well_terminated_nil in Hw; tauto|]. cbn [length] in Hk. lia. }
      rewrite step_res by assumption. rewrite shift_next.
      rewrite IH by (auto using step_bound; lia).
      cbn [base128_value length]. rewrite pow2_7S. f_equal. f_equal. f_equal.
      generalize (2 ^ (7 * N.of_nat k)) (b mod 128) (base128_value l); intros; ring.
Qed.

Lemma feed_pending l : forall res k,
  bytes_ok l -> Forall (fun b => 128 <= b) l -> (k + length l <= 10)%nat ->
  feed {| dec_res := res; dec_shift := 7 * N.of_nat k |} l = (Pending, length l).
Proof.
  induction l as [|b l IH]; intros res k Hok Hc Hk; [reflexivity|].
  apply bytes_ok_cons in Hok as [Hb Hok]. inversion Hc; subst. cbn [length] in Hk.
  cbn [feed]. unfold decoder_input, checked_shl64. cbn [dec_res dec_shift].
  rewrite top_bit_clear by exact Hb.
  destruct (N.ltb_spec (7 * N.of_nat k) 64) as [S|S]; [|lia].
  destruct (N.ltb_spec b 128) as [L|L]; [lia|].
  rewrite shift_next. rewrite IH by (auto; lia). reflexivity.
Qed.

Lemma feed_overflow l : forall res k rest,
  bytes_ok (l ++ rest) -> Forall (fun b => 128 <= b) l -> (k + length l = 10)%nat ->
  rest <> [] ->
  feed {| dec_res := res; dec_shift := 7 * N.of_nat k |} (l ++ rest) =
  (DOverflow, Datatypes.S (length l)).
Proof.
  induction l as [|b l IH]; intros res k rest Hok Hc Hk Hrest.
  - destruct rest as [|c rest]; [tauto|].
    cbn [app feed length]. unfold decoder_input, checked_shl64. cbn [dec_res dec_shift].
    cbn [length] in Hk. destruct (N.ltb_spec (7 * N.of_nat k) 64) as [S|S]; [lia|]. reflexivity.
  - cbn [app] in Hok. apply bytes_ok_cons in Hok as [Hb Hok]. inversion Hc; subst. cbn [length] in Hk.
    cbn [app feed]. unfold decoder_input, checked_shl64. cbn [dec_res dec_shift].
    rewrite top_bit_clear by exact Hb.
    destruct (N.ltb_spec (7 * N.of_nat k) 64) as [S|S]; [|lia].
    destruct (N.ltb_spec b 128) as [L|L]; [lia|].
    rewrite shift_next. rewrite IH by (auto; lia). reflexivity.
Qed.

Lemma feed_new_ok l rest :
  bytes_ok l -> well_terminated l -> (length l <= 10)%nat ->
  feed decoder_new (l ++ rest) = (Finished (base128_value l mod two64), length l).
Proof.
  intros H1 H2 H3. unfold decoder_new.
  pose proof (feed_ok l 0 0 rest H1 H2 H3) as F. change (7 * N.of_nat 0) with 0 in F.
  rewrite F by (cbn; lia). f_equal. f_equal. f_equal. cbn. lia.
Qed.

Theorem feed_decode l v rest :
  bytes_ok l -> decode_u64 l = Ok v -> feed decoder_new (l ++ rest) = (Finished v, length l).
Proof.
  intros Hok H. apply decode_u64_ok in H as (H1 & H2 & H3 & H4); [|exact Hok].
  rewrite feed_new_ok by assumption. subst v.
  change (2 ^ 64) with two64 in H4. rewrite N.mod_small by exact H4. reflexivity.
Qed.

Theorem feed_encode v rest :
  u64_ok v -> feed decoder_new (encode_u64 v ++ rest) = (Finished v, length (encode_u64 v)).
Proof. intros H. apply feed_decode; [apply encode_bytes_ok|apply decode_encode, H]. Qed.
