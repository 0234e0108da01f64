(** Multibase as a whole: round trip, canonical forms, totality. *)
From Verif Require Import BaseProofs ProtobufProofs MultibaseModel MultibaseSpec
  MultibaseProofs MultibaseProofs2 MultibaseProofs3.

Lemma pow2_dec b : {pow2_base b} + {~ pow2_base b}.
Proof. destruct b; cbn; auto. Qed.

Lemma encode_denotes b data : bytes_ok data -> denotes b (encode_noprefix data b) data.
Proof.
  intros H. destruct (pow2_dec b) as [P|P].
  - pose proof (encode_strict b data P H). destruct b; auto; contradiction.
  - pose proof (encode58_denotes b data P H). destruct b; auto; exfalso; apply P; exact I.
Qed.
Lemma denotes_unique b s s' data : denotes b s data -> denotes b s' data -> s = s'.
Proof.
  intros H H'. destruct (pow2_dec b) as [P|P].
  - apply (strict_unique b s s' data P); destruct b; auto; contradiction.
  - apply (denotes58_unique_text b s s' data); destruct b; auto; cbn; try lia; exfalso; apply P; exact I.
Qed.
Lemma denotes_bytes b s data : denotes b s data -> bytes_ok data.
Proof.
  assert (S : strictly_denotes b s data -> bytes_ok data)
    by (intros (? & ? & ? & ? & H); tauto).
  assert (D : denotes58 b s data -> bytes_ok data).
  { intros (z & ? & num & ? & ? & -> & _ & _ & _ & _ & _ & H & _). apply bytes_ok_app.
    split; [|exact H]. clear. induction z; cbn [repeat]; constructor; auto. reflexivity. }
  destruct b; auto.
Qed.
Lemma decode_denotes b s data : denotes b s data -> decode_noprefix s b = Ok data.
Proof.
  intros H. destruct (pow2_dec b) as [P|P].
  - apply loose_iff; [exact P|]. apply strict_loose; [exact P|].
    destruct b; auto; contradiction.
  - apply decode58_iff; [exact P|]. destruct b; auto; exfalso; apply P; exact I.
Qed.
Lemma denotes_iff_encode b s data : denotes b s data <-> s = encode_noprefix data b /\ bytes_ok data.
Proof.
  split.
  - intros H. pose proof (denotes_bytes _ _ _ H). split; [|assumption].
    eapply denotes_unique; [exact H|apply encode_denotes; assumption].
  - intros [-> H]. apply encode_denotes, H.
Qed.
Lemma round_trip_noprefix b data :
  bytes_ok data -> decode_noprefix (encode_noprefix data b) b = Ok data.
Proof. intros H. apply decode_denotes, encode_denotes, H. Qed.
Lemma for_code_base b : for_code (base_code b) = Some b.
Proof. destruct b; reflexivity. Qed.
Lemma decode_prefix b s : decode (base_code b :: s) = decode_noprefix s b.
Proof.
  unfold decode. rewrite for_code_base. destruct s; [|reflexivity]. destruct b; reflexivity.
Qed.
Lemma round_trip b data : bytes_ok data -> decode (encode data b) = Ok data.
Proof. intros H. unfold encode. rewrite decode_prefix. apply round_trip_noprefix, H. Qed.
Lemma base58_canonical b s data :
  ~ pow2_base b ->
  (decode_noprefix s b = Ok data <-> s = encode_noprefix data b /\ bytes_ok data).
Proof.
  intros P. rewrite <- denotes_iff_encode, decode58_iff by exact P.
  destruct b; try reflexivity; exfalso; apply P; exact I.
Qed.

(** ** Errors *)
Lemma foreign_inv b c : foreign b c <-> inv_get (inv_of b) c = None.
Proof.
  unfold foreign. split.
  - intros H. destruct (inv_get (inv_of b) c) as [d|] eqn:E; [|reflexivity].
    apply table_ok in E. destruct (H d E).
  - intros H d K. apply table_ok in K. congruence.
Qed.
Lemma basen_loop_cases b s o st :
  (exists st', decode_basen_loop s o (char_bits b) (inv_of b) (padded b) st = Ok st') \/
  (exists k c, decode_basen_loop s o (char_bits b) (inv_of b) (padded b) st
                = Err (EInvalidChar (o + k) c) /\ first_foreign b s k c).
Proof.
  revert o st. induction s as [|c s IH]; intros o st; [left; eexists; reflexivity|].
  cbn [decode_basen_loop]. destruct (padded b && (c =? ch "=")) eqn:P; [left; eexists; reflexivity|].
  destruct (inv_get (inv_of b) c) as [d|] eqn:E.
  - destruct (IH (S o) (fold_left (dec_bit d) (seq (8 - char_bits b) (char_bits b)) st)) as [L|(k & c' & R & F)]; [left; exact L|].
    right. exists (S k), c'. rewrite <- Nat.add_succ_comm. split; [exact R|].
    destruct F as (F1 & F2 & F3 & F4). repeat split; auto.
    cbn [firstn]. constructor; auto. exists d. apply table_ok, E.
  - right. exists 0%nat, c. rewrite Nat.add_0_r. repeat split; auto.
    + apply foreign_inv, E.
    + intros Hp ->. rewrite Hp in P. discriminate.
    + constructor.
Qed.
Lemma loop58_cases b s o dec :
  padded b = false ->
  (exists out, decode58_loop s o (inv_of b) dec = Ok out) \/
  (exists k c, decode58_loop s o (inv_of b) dec = Err (EInvalidChar (o + k) c) /\
     first_foreign b s k c).
Proof.
  intros Pb. revert o dec. induction s as [|c s IH]; intros o st; [left; eexists; reflexivity|].
  cbn [decode58_loop].
  destruct (inv_get (inv_of b) c) as [d|] eqn:E.
  - destruct (IH (S o) (mul58 d st)) as [L|(k & c' & R & F)]; [left; exact L|].
    right. exists (S k), c'. rewrite <- Nat.add_succ_comm. split; [exact R|].
    destruct F as (F1 & F2 & F3 & F4). repeat split; auto.
    cbn [firstn]. constructor; auto. exists d. apply table_ok, E.
  - right. exists 0%nat, c. rewrite Nat.add_0_r. repeat split; auto.
    + apply foreign_inv, E.
    + congruence.
    + constructor.
Qed.
Lemma decode_noprefix_cases b s :
  (exists data, decode_noprefix s b = Ok data) \/
  (exists k c, decode_noprefix s b = Err (EInvalidChar k c) /\ first_foreign b s k c).
Proof.
  destruct (pow2_dec b) as [P|P].
  - rewrite decode_noprefix_basen by exact P. unfold decode_basen.
    destruct (basen_loop_cases b s 0 ([], 0, 0)) as [(st & ->)|(k & c & -> & F)].
    + left. eexists. reflexivity.
    + right. exists k, c. split; [reflexivity|exact F].
  - assert (E : decode_noprefix s b = decode_base58 s (inv_of b))
      by (destruct b; try (exfalso; apply P; exact I); reflexivity).
    assert (Pb : padded b = false) by (destruct b; try (exfalso; apply P; exact I); reflexivity).
    rewrite E. unfold decode_base58.
    destruct (loop58_cases b s 0 [] Pb) as [(st & ->)|(k & c & -> & F)].
    + left. eexists. reflexivity.
    + right. exists k, c. split; [reflexivity|exact F].
Qed.
(** If some character is foreign, decoding fails at the first such one. *)
Lemma first_foreign_rejected b s k c :
  first_foreign b s k c -> decode_noprefix s b = Err (EInvalidChar k c).
Proof.
  intros F. destruct (decode_noprefix_cases b s) as [(data & D)|(k' & c' & D & F')].
  - exfalso.
    assert (K : exists ds, Forall2 (stands_for b) (body b s) ds).
    { destruct (pow2_dec b) as [P|P].
      - apply loose_iff in D as (ds & _ & H & _); [|exact P]. eauto.
      - apply decode58_iff in D as (z & one & num & ds & cs & _ & O & -> & H & _); [|exact P].
        exists (repeat 0 z ++ ds). replace (body b (repeat one z ++ cs)) with (repeat one z ++ cs)
          by (destruct b; try (exfalso; apply P; exact I); reflexivity).
        apply Forall2_app; [apply Forall2_repeat, O|exact H]. }
    destruct K as [ds K]. destruct F as (F1 & F2 & F3 & F4).
    assert (IN : In c (body b s)).
    { unfold body. destruct (padded b).
      - specialize (F3 eq_refl). clear K D. revert k F1 F4. induction s as [|x s IH]; intros k F1 F4.
        { destruct k; discriminate. }
        destruct k as [|k].
        + injection F1 as ->. cbn [until_pad]. destruct (N.eqb_spec c (ch "=")); [congruence|left; reflexivity].
        + cbn [nth_error firstn] in *. inversion F4 as [|? ? [d Hd] F4']; subst. cbn [until_pad].
          destruct (N.eqb_spec x (ch "=")) as [->|]; [apply stands_for_not_pad in Hd; contradiction|].
          right. apply (IH k); assumption.
      - eapply nth_error_In; eauto. }
    clear -K IN F2. induction K as [|x d cs ds H _ IH]; [contradiction|].
    destruct IN as [->|IN]; [destruct (F2 d H)|auto].
  - rewrite D. destruct F as (F1 & F2 & F3 & F4), F' as (G1 & G2 & G3 & G4).
    assert (k = k') as <-; [|congruence].
    assert (Lt : forall i j ci cj, nth_error s i = Some ci -> foreign b ci ->
       Forall (fun x => exists d, stands_for b x d) (firstn j s) -> nth_error s j = Some cj -> ~ (i < j)%nat).
    { clear. intros i j ci cj H1 H2 H3 H4 L.
      assert (In ci (firstn j s)).
      { rewrite <- (firstn_skipn j s) in H1. rewrite nth_error_app1 in H1.
        - eapply nth_error_In; eauto.
        - rewrite firstn_length. assert (nth_error s j <> None) as Q by congruence.
          apply nth_error_Some in Q. lia. }
      rewrite Forall_forall in H3. destruct (H3 _ H) as [d Hd]. exact (H2 d Hd). }
    pose proof (Lt _ _ _ _ F1 F2 G4 G1). pose proof (Lt _ _ _ _ G1 G2 F4 F1). lia.
Qed.
Lemma decode_noprefix_not_panic b s : decode_noprefix s b <> Panic.
Proof.
  destruct (decode_noprefix_cases b s) as [(data & ->)|(k & c & -> & _)]; discriminate.
Qed.
Lemma decode_not_panic s : decode s <> Panic.
Proof.
  unfold decode. destruct s as [|c s]; [discriminate|].
  destruct (for_code c); [|discriminate]. destruct s; [discriminate|apply decode_noprefix_not_panic].
Qed.
Lemma for_code_iff c b : for_code c = Some b <-> c = base_code b.
Proof.
  split; [|intros ->; apply for_code_base]. unfold for_code.
  repeat match goal with |- context [if ?x =? ?y then _ else _] =>
    destruct (N.eqb_spec x y) as [->|]; [intros H; injection H as <-; reflexivity|] end.
  discriminate.
Qed.
Lemma decode_unknown c s : (forall b, c <> base_code b) -> decode (c :: s) = Err (EUnsupportedEncoding c).
Proof.
  intros H. unfold decode. destruct (for_code c) as [b|] eqn:E; [|reflexivity].
  apply for_code_iff in E. destruct (H b E).
Qed.
Lemma reads_as_iff b s data : decode_noprefix s b = Ok data <-> reads_as b s data.
Proof.
  destruct (pow2_dec b) as [P|P].
  - rewrite loose_iff by exact P. destruct b; try reflexivity; contradiction.
  - rewrite decode58_iff by exact P. destruct b; try reflexivity; exfalso; apply P; exact I.
Qed.
