(** Hex text (C19), the deterministic generator (C71) and string escaping (C73). *)
From Verif Require Import Base BaseProofs UtilModel.
Ltac Zify.zify_post_hook ::= Z.div_mod_to_equations.

(** ** Specification of hex text: the digit characters, in order. *)
Definition lower_digits : bytes := ascii_bytes "0123456789abcdef".
Definition upper_digits : bytes := ascii_bytes "0123456789ABCDEF".
(** [c] is a digit of value [v]. *)
Definition digit (c v : N) : Prop :=
  nth_error lower_digits (N.to_nat v) = Some c \/ nth_error upper_digits (N.to_nat v) = Some c.
(** Text of a byte string: two digits a byte, the high half first. *)
Inductive hex_text : bytes -> bytes -> Prop :=
| HT_nil : hex_text [] []
| HT_cons : forall c1 c2 v1 v2 t l, digit c1 v1 -> digit c2 v2 -> hex_text t l ->
    hex_text (c1 :: c2 :: t) (16 * v1 + v2 :: l).
(** ASCII lower case of a letter A-F. *)
Definition lower (c : N) : N := if (65 <=? c) && (c <=? 70) then c + 32 else c.

Lemma digit_lt c v : digit c v -> v < 16.
Proof.
  intros [H|H].
  - assert (L : (N.to_nat v < length lower_digits)%nat) by (apply nth_error_Some; congruence).
    change (length lower_digits) with 16%nat in L. lia.
  - assert (L : (N.to_nat v < length upper_digits)%nat) by (apply nth_error_Some; congruence).
    change (length upper_digits) with 16%nat in L. lia.
Qed.
Lemma sixteen v : v < 16 ->
  v = 0 \/ v = 1 \/ v = 2 \/ v = 3 \/ v = 4 \/ v = 5 \/ v = 6 \/ v = 7 \/ v = 8 \/ v = 9 \/
  v = 10 \/ v = 11 \/ v = 12 \/ v = 13 \/ v = 14 \/ v = 15.
Proof. lia. Qed.
Lemma hex_from_byte_digit c v : hex_from_byte c = Some v <-> digit c v.
Proof.
  split.
  - unfold hex_from_byte. intros H.
    assert (V : v < 16).
    { destruct ((48 <=? c) && (c <=? 57)) eqn:E1; [injection H as <-; lia|].
      destruct ((97 <=? c) && (c <=? 102)) eqn:E2; [injection H as <-; lia|].
      destruct ((65 <=? c) && (c <=? 70)) eqn:E3; [injection H as <-; lia|discriminate]. }
    destruct ((48 <=? c) && (c <=? 57)) eqn:E1.
    { injection H as <-. left. assert (D : c = 48 + (c - 48)) by lia.
      revert V D. generalize (c - 48). intros v V ->.
      destruct (sixteen v V) as [->|[->|[->|[->|[->|[->|[->|[->|[->|[->|D]]]]]]]]]]; try reflexivity; lia. }
    destruct ((97 <=? c) && (c <=? 102)) eqn:E2.
    { injection H as <-. left. assert (D : c = 87 + (c - 97 + 10)) by lia.
      assert (G : 10 <= c - 97 + 10) by lia. revert V D G. generalize (c - 97 + 10). intros v V -> G.
      assert (D : v = 10 \/ v = 11 \/ v = 12 \/ v = 13 \/ v = 14 \/ v = 15) by lia.
      destruct D as [->|[->|[->|[->|[->| ->]]]]]; reflexivity. }
    destruct ((65 <=? c) && (c <=? 70)) eqn:E3; [|discriminate].
    injection H as <-. right. assert (D : c = 55 + (c - 65 + 10)) by lia.
    assert (G : 10 <= c - 65 + 10) by lia. revert V D G. generalize (c - 65 + 10). intros v V -> G.
    assert (D : v = 10 \/ v = 11 \/ v = 12 \/ v = 13 \/ v = 14 \/ v = 15) by lia.
    destruct D as [->|[->|[->|[->|[->| ->]]]]]; reflexivity.
  - intros D. pose proof (digit_lt c v D) as V.
    destruct (sixteen v V) as [->|[->|[->|[->|[->|[->|[->|[->|[->|[->|[->|[->|[->|[->|[->| ->]]]]]]]]]]]]]]];
      destruct D as [D|D]; vm_compute in D; injection D as <-; reflexivity.
Qed.
Lemma lower_hex_digit_digit v : v < 16 -> digit (lower_hex_digit v) v.
Proof.
  intros V. left.
  destruct (sixteen v V) as [->|[->|[->|[->|[->|[->|[->|[->|[->|[->|[->|[->|[->|[->|[->| ->]]]]]]]]]]]]]]];
    reflexivity.
Qed.
Lemma nibbles hi lo : hi < 16 -> lo < 16 -> N.lor (N.shiftl hi 4 mod 256) lo = 16 * hi + lo.
Proof.
  intros H1 H2. rewrite N.lor_comm. rewrite N.mod_small.
  - rewrite lor_disjoint by (change (2 ^ 4) with 16; auto). change (2 ^ 4) with 16. lia.
  - rewrite N.shiftl_mul_pow2. change (2 ^ 4) with 16. lia.
Qed.
Lemma from_hex_loop_spec n : forall s l, (length s <= n)%nat -> Nat.odd (length s) = false ->
  (from_hex_loop s = Some l <-> hex_text s l).
Proof.
  induction n as [|n IH]; intros s l L O.
  - destruct s; [|cbn in L; lia]. cbn [from_hex_loop]. split.
    + intros H. injection H as <-. constructor.
    + intros H. inversion H. reflexivity.
  - destruct s as [|a [|b t]].
    + cbn [from_hex_loop]. split; [intros H; injection H as <-; constructor | intros H; inversion H; reflexivity].
    + discriminate.
    + cbn [length] in *. cbn [from_hex_loop].
      assert (O' : Nat.odd (length t) = false) by (rewrite <- O; reflexivity).
      split.
      * destruct (hex_from_byte a) as [hi|] eqn:E1; [|discriminate].
        destruct (hex_from_byte b) as [lo|] eqn:E2; [|discriminate].
        destruct (from_hex_loop t) as [l'|] eqn:E3; [|discriminate].
        intros H. injection H as <-.
        apply hex_from_byte_digit in E1, E2. rewrite nibbles by (eapply digit_lt; eauto).
        constructor; auto. apply IH; auto. lia.
      * intros H. inversion H as [|c1 c2 v1 v2 t' l' D1 D2 T]; subst.
        rewrite (proj2 (hex_from_byte_digit a v1) D1), (proj2 (hex_from_byte_digit b v2) D2).
        rewrite (proj2 (IH t l' ltac:(lia) O') T). rewrite nibbles by (eapply digit_lt; eauto). reflexivity.
Qed.
Lemma hex_text_even s l : hex_text s l -> Nat.odd (length s) = false.
Proof. induction 1; auto. Qed.

(** *** C19 *)
(** Parsing accepts exactly the texts made of pairs of digits of either case, and returns
    their bytes. *)
Theorem C19_hex_parse_exact : forall s l, from_hex s = Some l <-> hex_text s l.
Proof.
  intros s l. unfold from_hex. split.
  - destruct (Nat.odd (length s)) eqn:O; [discriminate|]. apply (from_hex_loop_spec (length s)); auto.
  - intros H. pose proof (hex_text_even s l H) as O. rewrite O. apply (from_hex_loop_spec (length s)); auto.
Qed.
Print Assumptions C19_hex_parse_exact.
(** Formatting writes such a text, without upper-case letters, and parses back. *)
Theorem C19_hex_round_trip : forall l, bytes_ok l ->
  hex_text (to_hex l) l /\ Forall (fun c => In c lower_digits) (to_hex l) /\ from_hex (to_hex l) = Some l.
Proof.
  intros l B.
  assert (T : hex_text (to_hex l) l).
  { induction l as [|b l IH]; cbn [to_hex flat_map app]; [constructor|].
    apply bytes_ok_cons in B. destruct B as [Hb B].
    assert (E : b = 16 * (b / 16) + b mod 16) by lia. rewrite E at 3.
    constructor; auto; apply lower_hex_digit_digit; lia. }
  split; [exact T|]. split; [|apply C19_hex_parse_exact; exact T].
  clear T. induction l as [|b l IH]; cbn [to_hex flat_map app]; [constructor|].
  apply bytes_ok_cons in B. destruct B as [Hb B].
  assert (K : forall v, v < 16 -> In (lower_hex_digit v) lower_digits).
  { intros v V. destruct (lower_hex_digit_digit v V) as [H|H].
    - eapply nth_error_In; eauto.
    - destruct (sixteen v V) as [->|[->|[->|[->|[->|[->|[->|[->|[->|[->|[->|[->|[->|[->|[->| ->]]]]]]]]]]]]]]];
        vm_compute; tauto. }
  constructor; [apply K; lia|]. constructor; [apply K; lia|]. apply IH; auto.
Qed.
Print Assumptions C19_hex_round_trip.
(** Parsing does not depend on the case of the letters; formatting a parsed text gives its
    lower-case form. *)
Lemma digit_lower c v : digit c v -> lower c = lower_hex_digit v.
Proof.
  intros D. pose proof (digit_lt c v D) as V.
  destruct (sixteen v V) as [->|[->|[->|[->|[->|[->|[->|[->|[->|[->|[->|[->|[->|[->|[->| ->]]]]]]]]]]]]]]];
    destruct D as [D|D]; vm_compute in D; injection D as <-; reflexivity.
Qed.
Theorem C19_hex_normalises : forall s l,
  from_hex s = Some l -> bytes_ok l /\ to_hex l = map lower s /\ from_hex (map lower s) = Some l.
Proof.
  intros s l H. apply C19_hex_parse_exact in H.
  assert (B : bytes_ok l).
  { induction H; constructor; auto. apply digit_lt in H, H0. unfold byte_ok. lia. }
  assert (E : to_hex l = map lower s).
  { induction H as [|c1 c2 v1 v2 t l D1 D2 T IH]; [reflexivity|].
    apply bytes_ok_cons in B. destruct B as [_ B].
    cbn [to_hex flat_map app map]. pose proof (digit_lt _ _ D1). pose proof (digit_lt _ _ D2).
    rewrite (digit_lower _ _ D1), (digit_lower _ _ D2).
    replace ((16 * v1 + v2) / 16) with v1 by lia. replace ((16 * v1 + v2) mod 16) with v2 by lia.
    f_equal. f_equal. apply IH; auto. }
  split; [auto|]. split; [auto|]. rewrite <- E. apply (C19_hex_round_trip l B).
Qed.
Print Assumptions C19_hex_normalises.
Example C19_example :
  from_hex (ascii_bytes "00fF7A") = Some [0; 255; 122] /\ to_hex [0; 255; 122] = ascii_bytes "00ff7a" /\
  from_hex (ascii_bytes "0g") = None /\ from_hex (ascii_bytes "123") = None.
Proof. repeat split; vm_compute; reflexivity. Qed.

(** ** C71 *)

(** The sum 1 + a + ... + a^(n-1). *)
Definition geo (n : N) : N := N.iter n (fun g => lcg_a * g + 1) 0.
Lemma geo_0 : geo 0 = 0. Proof. reflexivity. Qed.
Lemma geo_succ n : geo (N.succ n) = lcg_a * geo n + 1.
Proof. unfold geo. rewrite N.iter_succ. reflexivity. Qed.
Lemma geo_pow n : lcg_a ^ n = 1 + 214012 * geo n.
Proof.
  induction n as [|n IH] using N.peano_ind; [reflexivity|].
  rewrite geo_succ, N.pow_succ_r', IH. unfold lcg_a. lia.
Qed.
Lemma geo_add n m : geo (n + m) = geo n + lcg_a ^ n * geo m.
Proof.
  induction n as [|n IH] using N.peano_ind.
  - rewrite N.add_0_l, geo_0, N.pow_0_r. lia.
  - rewrite N.add_succ_l, !geo_succ, IH, N.pow_succ_r'. lia.
Qed.
Lemma geo_double n : geo (2 * n) = geo n * (2 * (1 + 107006 * geo n)).
Proof. replace (2 * n) with (n + n) by lia. rewrite geo_add, geo_pow. lia. Qed.
Lemma geo_odd n : geo (2 * n + 1) mod 2 = 1.
Proof. rewrite N.add_1_r, geo_succ, geo_double. unfold lcg_a. lia. Qed.
Lemma cancel_odd k x o : o mod 2 = 1 -> (N.divide (2 ^ k) (x * o) <-> N.divide (2 ^ k) x).
Proof.
  intros O. split.
  - revert x. induction k as [|k IH] using N.peano_ind; intros x.
    + intros _. rewrite N.pow_0_r. apply N.divide_1_l.
    + rewrite N.pow_succ_r'. intros [q Q].
      assert (E : x mod 2 = 0).
      { destruct (N.mod_lt x 2) as []; [lia|].
        assert (D : (x * o) mod 2 = 0) by (rewrite Q; rewrite N.mul_assoc, (N.mul_comm q 2), <- N.mul_assoc, N.mul_comm; apply N.mod_mul; lia).
        rewrite N.mul_mod, O in D by lia. lia. }
      assert (X : x = 2 * (x / 2)) by lia. set (y := x / 2) in *. clearbody y. subst x.
      destruct (IH y) as [r R].
      { exists q. nia. }
      exists r. rewrite R. lia.
  - intros D. apply N.divide_mul_l. exact D.
Qed.
Lemma double_div k x : N.divide (2 ^ N.succ k) (2 * x) <-> N.divide (2 ^ k) x.
Proof. rewrite N.pow_succ_r'. apply N.mul_divide_cancel_l. lia. Qed.
Lemma even_div k x : x mod 2 = 1 -> ~ N.divide (2 ^ N.succ k) x.
Proof.
  intros O [q Q]. rewrite N.pow_succ_r' in Q.
  replace (q * (2 * 2 ^ k)) with (q * 2 ^ k * 2) in Q by lia.
  rewrite Q, N.mod_mul in O; lia.
Qed.
Lemma geo_div k n : N.divide (2 ^ k) (geo n) <-> N.divide (2 ^ k) n.
Proof.
  revert n. induction k as [|k IH] using N.peano_ind; intros n.
  - rewrite N.pow_0_r. split; intros _; apply N.divide_1_l.
  - assert (P : n = 2 * (n / 2) \/ n = 2 * (n / 2) + 1) by lia.
    set (m := n / 2) in *. clearbody m. destruct P as [-> | ->].
    + rewrite geo_double. replace (geo m * (2 * (1 + 107006 * geo m))) with (2 * (geo m * (1 + 107006 * geo m))) by lia.
      rewrite !double_div, cancel_odd by lia. apply IH.
    + split; intros H; exfalso; revert H; apply even_div; [apply geo_odd | lia].
Qed.
Lemma iter_formula n s : s < two32 ->
  N.iter n next_u32 s = (s + geo n * (214012 * s + lcg_c)) mod two32.
Proof.
  intros S. induction n as [|n IH] using N.peano_ind.
  - rewrite geo_0, N.mul_0_l, N.add_0_r. cbn [N.iter]. symmetry. apply N.mod_small. auto.
  - rewrite N.iter_succ, IH. unfold next_u32. rewrite geo_succ.
    rewrite N.mul_mod_idemp_r, N.add_mod_idemp_l by (unfold two32; lia).
    f_equal. unfold lcg_a, lcg_c. nia.
Qed.

(** Each step is a bijection on the 32-bit seeds. *)
Theorem C71_step_is_a_bijection :
  (forall s, s < two32 -> next_u32 s < two32) /\
  (forall s t, s < two32 -> t < two32 -> next_u32 s = next_u32 t -> s = t) /\
  (forall t, t < two32 -> exists s, s < two32 /\ next_u32 s = t).
Proof.
  assert (Inv : forall t, t < two32 -> next_u32 (N.iter (two32 - 1) next_u32 t) = t).
  { intros t T. rewrite <- N.iter_succ. replace (N.succ (two32 - 1)) with two32 by reflexivity.
    rewrite iter_formula by auto.
    assert (D : N.divide (2 ^ 32) (geo two32)) by (apply geo_div; exists 1; reflexivity).
    destruct D as [q Q]. rewrite Q. change (2 ^ 32) with two32.
    replace (q * two32 * (214012 * t + lcg_c)) with (q * (214012 * t + lcg_c) * two32) by lia.
    rewrite N.mod_add by (unfold two32; lia). apply N.mod_small. auto. }
  assert (Inv2 : forall t, t < two32 -> N.iter (two32 - 1) next_u32 (next_u32 t) = t).
  { intros t T. rewrite <- N.iter_succ_r. rewrite N.iter_succ. apply Inv. auto. }
  assert (Rng : forall s, next_u32 s < two32).
  { intros s. unfold next_u32. apply N.mod_lt. unfold two32; lia. }
  split; [auto|]. split.
  - intros s t S T E. rewrite <- (Inv2 s S), <- (Inv2 t T), E. reflexivity.
  - intros t T. exists (N.iter (two32 - 1) next_u32 t). split; [|auto].
    rewrite iter_formula by auto. apply N.mod_lt. unfold two32; lia.
Qed.
Print Assumptions C71_step_is_a_bijection.
(** From any seed, the seed comes back after exactly the multiples of 2^32 steps. *)
Theorem C71_full_period : forall (s n : N), s < two32 ->
  (N.iter n next_u32 s = s <-> N.divide two32 n).
Proof.
  intros s n S. rewrite iter_formula by auto.
  assert (O : (214012 * s + lcg_c) mod 2 = 1) by (unfold lcg_c; lia).
  set (o := 214012 * s + lcg_c) in *. clearbody o.
  assert (E : (s + geo n * o) mod two32 = s <-> N.divide two32 (geo n * o)).
  { set (X := geo n * o). clearbody X. unfold two32 in *. split.
    - intros H. apply N.mod_divide; [lia|]. lia.
    - intros H. apply N.mod_divide in H; [|lia]. lia. }
  rewrite E. change two32 with (2 ^ 32). rewrite cancel_odd by auto. apply geo_div.
Qed.
Print Assumptions C71_full_period.
(** Every 32-bit value appears in the sequence of every seed. *)
Theorem C71_different_seeds_never_merge : forall (s t n : N), s < two32 -> t < two32 ->
  N.iter n next_u32 s = N.iter n next_u32 t -> s = t.
Proof.
  intros s t n S T. revert s t S T. induction n as [|n IH] using N.peano_ind; intros s t S T; [auto|].
  rewrite !N.iter_succ_r. intros H. apply IH in H; try (unfold next_u32; apply N.mod_lt; unfold two32; lia).
  apply (proj1 (proj2 C71_step_is_a_bijection)); auto.
Qed.
Print Assumptions C71_different_seeds_never_merge.
Example C71_example : next_u32 0 = 2531011 /\ next_u32 2531011 = 505908858.
Proof. split; vm_compute; reflexivity. Qed.

(** ** C73 *)
(** The escaped text has no line breaks, begins and ends with a quote, and inside it every
    quote follows a backslash; text without the three special characters is only quoted. *)
Definition quoted (out body : list N) : Prop := out = [34] ++ body ++ [34].
Fixpoint quotes_escaped (prev : N) (l : list N) : Prop :=
  match l with
  | [] => True
  | c :: t => (c = 34 -> prev = 92) /\ quotes_escaped c t
  end.
Lemma flat_escape_quotes s prev : quotes_escaped prev (flat_map escape_char s).
Proof.
  revert prev. induction s as [|c s IH]; intros prev; cbn [flat_map]; [exact I|].
  unfold escape_char. destruct (c =? 34) eqn:E1; [|destruct (c =? 13) eqn:E2; [|destruct (c =? 10) eqn:E3]];
    cbn [app quotes_escaped]; repeat split; auto; intros; try discriminate; lia.
Qed.
Theorem C73_escaped_text_is_one_quoted_line : forall s, exists body,
  quoted (escape_string s) body /\ quotes_escaped 34 body /\ ~ In 10 body /\ ~ In 13 body /\
  ((forall c, In c s -> c <> 34 /\ c <> 13 /\ c <> 10) -> body = s).
Proof.
  intros s. exists (flat_map escape_char s). split; [reflexivity|]. split; [apply flat_escape_quotes|].
  assert (K : forall c, In c (flat_map escape_char s) -> c <> 10 /\ c <> 13).
  { intros c H. apply in_flat_map in H. destruct H as (x & _ & H). unfold escape_char in H.
    destruct (x =? 34) eqn:E1; [|destruct (x =? 13) eqn:E2; [|destruct (x =? 10) eqn:E3]]; cbn [In] in H; lia. }
  split; [intros H; apply K in H; lia|]. split; [intros H; apply K in H; lia|].
  intros H. induction s as [|c s IH]; [reflexivity|]. cbn [flat_map].
  rewrite IH; [|intros x Hx; apply K; cbn [flat_map]; apply in_or_app; auto|intros x Hx; apply H; right; auto].
  unfold escape_char. destruct (H c (or_introl eq_refl)) as (H1 & H2 & H3).
  replace (c =? 34) with false by lia. replace (c =? 13) with false by lia. replace (c =? 10) with false by lia.
  reflexivity.
Qed.
Print Assumptions C73_escaped_text_is_one_quoted_line.
(** On text without backslashes the original can be recovered; in general it cannot, since
    backslashes are not escaped. *)
Lemma escape_char_inj c d t u : c <> 92 -> d <> 92 ->
  escape_char c ++ t = escape_char d ++ u -> c = d /\ t = u.
Proof.
  intros C D. unfold escape_char.
  destruct (c =? 34) eqn:E1; [|destruct (c =? 13) eqn:E2; [|destruct (c =? 10) eqn:E3]];
    (destruct (d =? 34) eqn:F1; [|destruct (d =? 13) eqn:F2; [|destruct (d =? 10) eqn:F3]]);
    cbn [app]; intros H; try discriminate H;
    try (injection H; intros; subst; try lia; split; auto; lia).
Qed.
Theorem C73_escape_injective_without_backslash : forall s t,
  ~ In 92 s -> ~ In 92 t -> escape_string s = escape_string t -> s = t.
Proof.
  intros s t S T H. unfold escape_string in H. apply app_inv_head in H. apply app_inv_tail in H.
  revert t T H. induction s as [|c s IH]; intros t T H.
  - destruct t as [|d t]; [auto|]. cbn [flat_map] in H. unfold escape_char in H.
    destruct (d =? 34); [discriminate|]. destruct (d =? 13); [discriminate|]. destruct (d =? 10); discriminate.
  - destruct t as [|d t].
    + cbn [flat_map] in H. unfold escape_char in H.
      destruct (c =? 34); [discriminate|]. destruct (c =? 13); [discriminate|]. destruct (c =? 10); discriminate.
    + cbn [flat_map] in H. apply escape_char_inj in H.
      * destruct H as [-> H]. f_equal. apply IH; auto; intros I; [apply S | apply T]; right; auto.
      * intros ->. apply S. left; auto.
      * intros ->. apply T. left; auto.
Qed.
Print Assumptions C73_escape_injective_without_backslash.
Theorem C73_escape_injective_refuted : exists s t, s <> t /\ escape_string s = escape_string t.
Proof. exists [10], [92; 110]. split; [discriminate | vm_compute; reflexivity]. Qed.
Print Assumptions C73_escape_injective_refuted.
Example C73_example : escape_string [97; 34; 10] = [34; 97; 92; 34; 92; 110; 34].
Proof. vm_compute. reflexivity. Qed.
