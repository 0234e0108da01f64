(** The hex dump and the indentation of texts, C104. *)
From Verif Require Import Base BaseProofs UtilModel Asn1ToolModel Asn1PrintProps HexDumpModel.
Local Open Scope string_scope. Local Open Scope list_scope. Local Open Scope N_scope.

(** *** What the dump should look like, row by row. *)
(** Two hexadecimal digits. *)
Definition digits : list N := ascii_bytes "0123456789abcdef".
Definition two_digits (b : N) : bytes := [nth (N.to_nat (b / 16)) digits 0; nth (N.to_nat (b mod 16)) digits 0].
(** An offset: eight hexadecimal digits, more only when eight are not enough. *)
Definition offset_text (off : N) (t : bytes) : Prop :=
  Forall hex_char t /\ hex_value t = off /\ (length t = 8%nat \/ ((8 < length t)%nat /\ hd 0 t <> 48)).
(** Eight columns, blank where there are no more bytes. *)
Definition columns (row : bytes) : bytes :=
  flat_map (fun b => 32 :: two_digits b) row ++ repeat 32 (3 * (8 - length row)).
(** Characters that can be shown. *)
Definition shown (b : N) : N := if (b <? 32) || (126 <? b) then 46 else b.
Definition row_text (off row : bytes) : bytes :=
  off ++ [32] ++ columns (firstn 8 row) ++ [32] ++ columns (skipn 8 row) ++ [32; 32; 124] ++ map shown row ++ [124].
(** The rows: sixteen bytes each, the last one whatever is left. *)
Inductive rows : bytes -> list bytes -> Prop :=
| rows_last d : (length d <= 16)%nat -> rows d [d]
| rows_more r d l : length r = 16%nat -> d <> [] -> rows d l -> rows (r ++ d) (r :: l).
(** Lines with line feeds in between. *)
Fixpoint joined (l : list bytes) : bytes :=
  match l with
  | [] => []
  | [x] => x
  | x :: t => x ++ [10] ++ joined t
  end.
(** The lines of the dump of [d]: line [k] starts with the text of [16 * k]. *)
Inductive numbered : nat -> list bytes -> list bytes -> Prop :=
| numbered_nil k : numbered k [] []
| numbered_cons k r l o t : offset_text (16 * N.of_nat k) o -> numbered (S k) l t -> numbered k (r :: l) (row_text o r :: t).

(** *** Proofs *)
Lemma two_digits_ok b : b < 256 -> hex_padded 2 b = two_digits b.
Proof.
  intros H. apply (byte_sweep (fun b => bytes_eqb (hex_padded 2 b) (two_digits b))) in H; [|vm_compute; reflexivity].
  apply bytes_eqb_eq, H.
Qed.
Lemma hex_loop_len fuel n k : (1 <= k)%nat -> n < 16 ^ N.of_nat k -> (length (hex_loop fuel n) <= k)%nat.
Proof.
  revert n k. induction fuel as [|fuel IH]; intros n k K H; [cbn; lia|]. cbn [hex_loop]. destruct (n <? 16) eqn:E; [cbn; lia|].
  apply N.ltb_ge in E. destruct k as [|[|k]]; [lia|change (16 ^ N.of_nat 1) with 16 in H; lia|].
  rewrite app_length. cbn [length]. enough (length (hex_loop fuel (n / 16)) <= S k)%nat by lia. apply IH; [lia|].
  apply N.div_lt_upper_bound; [lia|]. rewrite Nat2N.inj_succ, N.pow_succ_r' in H. exact H.
Qed.
Lemma hex_loop_head fuel n : 0 < n -> n < 2 ^ N.of_nat fuel -> hd 0 (hex_loop (S fuel) n) <> 48 /\ hex_loop (S fuel) n <> [].
Proof.
  revert n. induction fuel as [|fuel IH]; intros n P H; [change (2 ^ N.of_nat 0) with 1 in H; lia|].
  remember (S fuel) as f eqn:Ef. cbn [hex_loop]. destruct (n <? 16) eqn:E.
  - apply N.ltb_lt in E. cbn [hd]. unfold lower_hex_digit. destruct (n <? 10) eqn:T; (split; [lia|discriminate]).
  - apply N.ltb_ge in E. rewrite Ef in H. rewrite Nat2N.inj_succ, N.pow_succ_r' in H. assert (Q : n / 16 < 2 ^ N.of_nat fuel).
    { apply N.div_lt_upper_bound; [lia|]. set (p := 2 ^ N.of_nat fuel) in *. clearbody p. lia. }
    assert (0 < n / 16) by (apply N.div_str_pos; lia). destruct (IH _ H0 Q) as (A & B). destruct (hex_loop f (n / 16)); [destruct B; reflexivity|]. cbn [app hd] in *. split; [exact A|discriminate].
Qed.
Lemma hex_number_head n : 0 < n -> hd 0 (hex_number n) <> 48.
Proof.
  intros P. unfold hex_number. cbn [hex_loop]. destruct (n <? 16) eqn:E.
  - apply N.ltb_lt in E. cbn [hd]. unfold lower_hex_digit. destruct (n <? 10) eqn:T; lia.
  - apply N.ltb_ge in E. pose proof (N.log2_spec n ltac:(lia)) as [_ H]. destruct (N.to_nat (N.log2 n)) as [|f] eqn:F.
    + exfalso. assert (N.log2 n = 0) as L by lia. rewrite L in H. change (2 ^ N.succ 0) with 2 in H. lia.
    + assert (Q : n / 16 < 2 ^ N.of_nat f).
      { apply N.div_lt_upper_bound; [lia|]. assert (L : N.succ (N.log2 n) = N.succ (N.succ (N.of_nat f))) by lia. rewrite L, !N.pow_succ_r' in H. set (p := 2 ^ N.of_nat f) in *. clearbody p. lia. }
      assert (0 < n / 16) by (apply N.div_str_pos; lia). destruct (hex_loop_head _ _ H0 Q) as (A & B). destruct (hex_loop (S f) (n / 16)); [destruct B; reflexivity|]. exact A.
Qed.
Lemma hex_value_zeros k t : hex_value (repeat 48 k ++ t) = hex_value t.
Proof. induction k as [|k IH]; [reflexivity|]. exact IH. Qed.
Lemma offset_ok n : offset_text n (hex_padded 8 n).
Proof.
  unfold offset_text, hex_padded. destruct (hex_number_ok n) as (V & C). set (t := hex_number n) in *. split; [|split].
  - apply Forall_app. split; [|exact C]. clear. induction (8 - length t)%nat; constructor; [unfold hex_char; lia|exact IHn0].
  - rewrite hex_value_zeros. exact V.
  - rewrite app_length, repeat_length. destruct (Nat.le_gt_cases (length t) 8) as [L|L]; [left; lia|right]. split; [lia|].
    replace (8 - length t)%nat with 0%nat by lia. cbn [repeat app]. apply hex_number_head. destruct (N.eq_dec n 0) as [->|]; [|lia]. exfalso. subst t. vm_compute in L. lia.
Qed.
Lemma offset_short n : n < two32 -> length (hex_padded 8 n) = 8%nat.
Proof.
  intros H. unfold hex_padded. rewrite app_length, repeat_length. enough (length (hex_number n) <= 8)%nat by lia. apply hex_loop_len; [lia|]. exact H.
Qed.
Lemma joined_cons x t : t <> [] -> joined (x :: t) = x ++ [10] ++ joined t.
Proof. destruct t; [congruence|reflexivity]. Qed.

Lemma map_nth_seq {A} (f : N -> A) d k : (k <= length d)%nat -> map (fun i => f (nth i d 0)) (seq 0 k) = map f (firstn k d).
Proof.
  revert d. induction k as [|k IH]; intros d H; [reflexivity|]. destruct d as [|x d]; [cbn in H; lia|]. cbn [seq map firstn nth]. f_equal.
  rewrite <- seq_shift, map_map. apply IH. cbn in H. lia.
Qed.
Lemma columns_len row : (length row <= 8)%nat -> length (columns row) = 24%nat.
Proof.
  intros H. unfold columns. rewrite app_length, repeat_length. enough (length (flat_map (fun b => 32%N :: two_digits b) row) = 3 * length row)%nat by lia. clear. induction row; cbn in *; lia.
Qed.
(** A cell of the loop. *)
Definition cell (d : bytes) (i : nat) : bytes := if (i <? length d)%nat then [32] ++ hex_padded 2 (nth i d 0) else ascii_bytes "   ".
Lemma blank_cells n i : flat_map (cell []) (seq i n) = repeat 32 (3 * n).
Proof. revert i. induction n as [|n IH]; intros i; [reflexivity|]. cbn [seq flat_map]. rewrite IH. replace (3 * S n)%nat with (3 + 3 * n)%nat by lia. reflexivity. Qed.
Lemma cells_ok d n : bytes_ok d -> (length d <= n)%nat ->
  flat_map (cell d) (seq 0 n) = flat_map (fun b => 32 :: two_digits b) d ++ repeat 32 (3 * (n - length d)).
Proof.
  revert n. induction d as [|b d IH]; intros n B H.
  - cbn [length flat_map app]. rewrite Nat.sub_0_r. apply blank_cells.
  - apply bytes_ok_cons in B. destruct B as (B & D). destruct n as [|n]; [cbn in H; lia|]. cbn [seq flat_map length]. change (cell (b :: d) 0) with (32 :: hex_padded 2 b). rewrite two_digits_ok by exact B.
    rewrite <- seq_shift, flat_map_concat_map, map_map. rewrite (map_ext _ (cell d)) by reflexivity. rewrite <- flat_map_concat_map, IH; [|exact D|cbn in H; lia]. rewrite <- !app_assoc. reflexivity.
Qed.
Lemma flat_map_app' {A B} (f : A -> list B) l l' : flat_map f (l ++ l') = flat_map f l ++ flat_map f l'.
Proof. rewrite !flat_map_concat_map, map_app, concat_app. reflexivity. Qed.
Lemma cell_skip d a i : cell (skipn a d) i = cell d (a + i).
Proof.
  unfold cell. rewrite skipn_length. replace (i <? length d - a)%nat with (a + i <? length d)%nat by (destruct (Nat.ltb_spec (a + i) (length d)); destruct (Nat.ltb_spec i (length d - a)); lia || reflexivity).
  destruct (a + i <? length d)%nat eqn:H; [|reflexivity]. do 2 f_equal. apply Nat.ltb_lt in H. revert d H. induction a as [|a IH]; intros d H; [reflexivity|]. destruct d; [cbn in H; lia|]. cbn [skipn]. rewrite IH by (cbn in H; lia). reflexivity.
Qed.
Lemma nth_firstn n (d : bytes) i : (i < n)%nat -> nth i (firstn n d) 0 = nth i d 0.
Proof. revert d i. induction n as [|n IH]; intros d i H; [lia|]. destruct d; [reflexivity|]. destruct i; [reflexivity|]. cbn. apply IH. lia. Qed.
Lemma cell_first d n i : (i < n)%nat -> cell (firstn n d) i = cell d i.
Proof.
  intros H. unfold cell. rewrite firstn_length. replace (i <? Nat.min n (length d))%nat with (i <? length d)%nat by (destruct (Nat.ltb_spec i (length d)); destruct (Nat.ltb_spec i (Nat.min n (length d))); lia || reflexivity).
  destruct (i <? length d)%nat; [|reflexivity]. rewrite nth_firstn by exact H. reflexivity.
Qed.
Lemma seq_from a n : seq a n = map (Nat.add a) (seq 0 n).
Proof. revert n. induction a as [|a IH]; intros n; [rewrite map_ext with (g := fun x => x) by reflexivity; rewrite map_id; reflexivity|]. rewrite <- seq_shift, IH, map_map. reflexivity. Qed.
Lemma cells_from d a : bytes_ok d -> flat_map (cell d) (seq a 8) = columns (firstn 8 (skipn a d)).
Proof.
  intros B. rewrite seq_from, flat_map_concat_map, map_map.
  rewrite (map_ext_in _ (cell (firstn 8 (skipn a d)))) by (intros i I; apply in_seq in I; rewrite cell_first by lia; symmetry; apply cell_skip).
  rewrite <- flat_map_concat_map. apply cells_ok; [apply bytes_ok_firstn, bytes_ok_skipn, B|rewrite firstn_length; lia].
Qed.
Lemma group_cells d a : (a mod 8 = 0)%nat ->
  flat_map (fun i => (if (i mod 8 =? 0)%nat then [32] else []) ++ cell d i) (seq a 8) = [32] ++ flat_map (cell d) (seq a 8).
Proof.
  intros H. cbn [seq flat_map]. rewrite H. assert (X : forall k, (0 < k < 8)%nat -> ((a + k) mod 8 =? 0)%nat = false).
  { intros k K. apply Nat.eqb_neq. rewrite Nat.add_mod, H, Nat.add_0_l, Nat.mod_mod, Nat.mod_small by lia. lia. }
  pose proof (X 1%nat ltac:(lia)) as X1. pose proof (X 2%nat ltac:(lia)) as X2. pose proof (X 3%nat ltac:(lia)) as X3. pose proof (X 4%nat ltac:(lia)) as X4. pose proof (X 5%nat ltac:(lia)) as X5. pose proof (X 6%nat ltac:(lia)) as X6. pose proof (X 7%nat ltac:(lia)) as X7. clear X.
  replace (S a) with (a + 1)%nat by lia. replace (S (a + 1)) with (a + 2)%nat by lia. replace (S (a + 2)) with (a + 3)%nat by lia. replace (S (a + 3)) with (a + 4)%nat by lia. replace (S (a + 4)) with (a + 5)%nat by lia. replace (S (a + 5)) with (a + 6)%nat by lia. replace (S (a + 6)) with (a + 7)%nat by lia.
  rewrite X1, X2, X3, X4, X5, X6, X7. reflexivity.
Qed.
Lemma skipn_skipn' {A} a b (l : list A) : skipn a (skipn b l) = skipn (b + a) l.
Proof. revert l. induction b as [|b IH]; intros l; [reflexivity|]. destruct l; [destruct a; reflexivity|]. cbn. apply IH. Qed.
Lemma firstn_skipn_swap {A} a b (l : list A) : firstn a (skipn b l) = skipn b (firstn (b + a) l).
Proof. revert l. induction b as [|b IH]; intros l; [reflexivity|]. destruct l; [destruct a; reflexivity|]. cbn. apply IH. Qed.
Lemma line_ok d k : bytes_ok d -> dump_line d (k * 16) = row_text (hex_padded 8 (16 * N.of_nat k)) (firstn 16 (skipn (k * 16) d)).
Proof.
  intros B. unfold dump_line, row_text. replace (N.of_nat (k * 16)) with (16 * N.of_nat k) by lia. f_equal. set (a := (k * 16)%nat).
  assert (A : (a mod 8 = 0)%nat) by (subst a; replace (k * 16)%nat with ((k * 2) * 8)%nat by lia; apply Nat.mod_mul; lia).
  assert (A' : ((a + 8) mod 8 = 0)%nat) by (replace (a + 8)%nat with (a + 1 * 8)%nat by lia; rewrite Nat.mod_add by lia; exact A).
  change 16%nat with (8 + 8)%nat at 1. rewrite seq_app, flat_map_app'. pose proof (group_cells d a A) as G1. pose proof (group_cells d (a + 8) A') as G2. unfold cell at 1 in G1. unfold cell at 1 in G2. unfold bytes in *. rewrite G1, G2.
  rewrite !cells_from by exact B. set (row := firstn 16 (skipn a d)).
  assert (R1 : firstn 8 (skipn a d) = firstn 8 row) by (unfold row; rewrite firstn_firstn; reflexivity). rewrite R1.
  assert (R2 : firstn 8 (skipn (a + 8) d) = skipn 8 row) by (unfold row; rewrite <- skipn_skipn', firstn_skipn_swap; reflexivity). rewrite R2.
  rewrite <- !app_assoc. do 4 f_equal. unfold dump_chars. change (ascii_bytes "  |") with [32; 32; 124]. change (ascii_bytes "|") with [124]. f_equal. f_equal.
  replace (Nat.min (a + 16) (length d) - a)%nat with (length row) by (subst row; rewrite firstn_length, skipn_length; lia).
  rewrite seq_from, map_map. transitivity (map (fun i => shown (nth i row 0)) (seq 0 (length row))).
  - apply map_ext_in. intros i I. apply in_seq in I. replace (nth (a + i) d 0) with (nth i row 0).
    + unfold shown. destruct (N.leb_spec 32 (nth i row 0)), (N.leb_spec (nth i row 0) 126), (N.ltb_spec (nth i row 0) 32), (N.ltb_spec 126 (nth i row 0)); cbn; lia || reflexivity.
    + subst row. rewrite firstn_length, skipn_length in I. rewrite nth_firstn by lia. clear - I. assert (a + i < length d)%nat as H by lia. clear I. revert d H. induction a as [|a IH]; intros d H; [reflexivity|]. destruct d; [cbn in H; lia|]. cbn in *. apply IH. lia.
  - rewrite map_nth_seq, firstn_all by lia. reflexivity.
Qed.

Definition chunk (d : bytes) (k : nat) : bytes := firstn 16 (skipn (k * 16) d).
Definition line_count (n : nat) : nat := Nat.max 1 ((n + 15) / 16).
Lemma count_ok (d : bytes) : match d with [] => 1%nat | _ => ((length d + 15) / 16)%nat end = line_count (length d).
Proof.
  unfold line_count. destruct d as [|x d]; [reflexivity|]. assert (1 <= (length (x :: d) + 15) / 16)%nat; [|lia].
  change 1%nat with (16 / 16)%nat at 1. apply Nat.div_le_mono; [lia|]. cbn. lia.
Qed.
Lemma count_more n : (16 < n)%nat -> line_count n = S (line_count (n - 16)).
Proof.
  intros H. unfold line_count. replace (n + 15)%nat with ((n - 16 + 15) + 1 * 16)%nat by lia. rewrite Nat.div_add by lia.
  assert (1 <= (n - 16 + 15) / 16)%nat; [|lia]. change 1%nat with (16 / 16)%nat at 1. apply Nat.div_le_mono; lia.
Qed.
Lemma count_one n : (n <= 16)%nat -> line_count n = 1%nat.
Proof. intros H. unfold line_count. assert ((n + 15) / 16 < 2)%nat by (apply Nat.div_lt_upper_bound; lia). lia. Qed.
Lemma chunks_rows m d : (length d <= m)%nat -> rows d (map (chunk d) (seq 0 (line_count (length d)))).
Proof.
  revert d. induction m as [|m IH]; intros d M; (destruct (Nat.le_gt_cases (length d) 16) as [L|L]; [rewrite count_one by exact L; cbn [seq map]; unfold chunk; cbn [Nat.mul skipn]; rewrite firstn_all2 by lia; constructor; exact L|]).
  - lia.
  - rewrite count_more by exact L. cbn [seq map]. rewrite <- seq_shift, map_map. rewrite <- (firstn_skipn 16 d) at 1. unfold chunk at 1. cbn [Nat.mul]. change (skipn 0 d) with d. apply rows_more.
    + rewrite firstn_length. lia.
    + intros X. apply (f_equal (@length N)) in X. rewrite skipn_length in X. cbn in X. lia.
    + replace (map _ _) with (map (chunk (skipn 16 d)) (seq 0 (line_count (length (skipn 16 d))))); [apply IH; rewrite skipn_length; lia|].
      rewrite skipn_length. apply map_ext. intros k. unfold chunk. rewrite skipn_skipn'. reflexivity.
Qed.
Lemma lines_joined (f : nat -> bytes) n a :
  flat_map (fun k => f k ++ (if (k + 1 <? a + n)%nat then [10] else [])) (seq a n) = joined (map f (seq a n)).
Proof.
  revert a. induction n as [|n IH]; intros a; [reflexivity|]. cbn [seq flat_map map]. destruct n as [|n].
  - cbn [seq flat_map map joined]. rewrite (proj2 (Nat.ltb_ge _ _)) by lia. rewrite !app_nil_r. reflexivity.
  - rewrite joined_cons by discriminate. rewrite (proj2 (Nat.ltb_lt (a + 1) (a + S (S n)))) by lia. rewrite <- app_assoc. do 2 f_equal.
    replace (a + S (S n))%nat with (S a + S n)%nat by lia. apply IH.
Qed.
Definition numbered_line (d : bytes) (k : nat) : bytes := row_text (hex_padded 8 (16 * N.of_nat k)) (chunk d k).
Lemma alternate_ok d : bytes_ok d -> dump_alternate d = joined (map (numbered_line d) (seq 0 (line_count (length d)))).
Proof.
  intros B. unfold dump_alternate. rewrite count_ok. etransitivity; [exact (lines_joined (fun k => dump_line d (k * 16)) (line_count (length d)) 0)|]. f_equal. apply map_ext. intros k. apply line_ok, B.
Qed.
Lemma numbered_ok d n a : numbered a (map (chunk d) (seq a n)) (map (numbered_line d) (seq a n)).
Proof. revert a. induction n as [|n IH]; intros a; [constructor|]. cbn [seq map]. constructor; [apply offset_ok|apply IH]. Qed.
Lemma rows_concat d l : rows d l -> concat l = d.
Proof. induction 1; cbn; [apply app_nil_r|congruence]. Qed.
Lemma digit_char v : v < 16 -> hex_char (nth (N.to_nat v) digits 0).
Proof.
  intros H. assert (A : forallb (fun c => ((48 <=? c) && (c <? 58)) || ((97 <=? c) && (c <? 103)))%bool digits = true) by reflexivity. rewrite forallb_forall in A.
  specialize (A (nth (N.to_nat v) digits 0)). assert (I : In (nth (N.to_nat v) digits 0) digits) by (apply nth_In; change (length digits) with 16%nat; lia). specialize (A I). unfold hex_char. lia.
Qed.
Lemma two_digits_chars b : b < 256 -> Forall hex_char (two_digits b).
Proof. intros H. assert (b / 16 < 16) by (apply N.div_lt_upper_bound; lia). assert (b mod 16 < 16) by (apply N.mod_lt; lia). constructor; [apply digit_char; assumption|]. constructor; [apply digit_char; assumption|constructor]. Qed.
Lemma two_digits_inj a b : a < 256 -> b < 256 -> two_digits a = two_digits b -> a = b.
Proof.
  intros A B H. assert (X : forall a, a < 256 -> hex_value (two_digits a) = a).
  { intros c C. apply (byte_sweep (fun c => hex_value (two_digits c) =? c)) in C; [|vm_compute; reflexivity]. apply N.eqb_eq, C. }
  rewrite <- (X a A), <- (X b B), H. reflexivity.
Qed.
Lemma digits_split a b x y : a < 256 -> b < 256 -> two_digits a ++ x = two_digits b ++ y -> a = b /\ x = y.
Proof.
  intros A B E. pose proof (f_equal (firstn 2) E) as E1. change (firstn 2 (two_digits a ++ x)) with (two_digits a) in E1. change (firstn 2 (two_digits b ++ y)) with (two_digits b) in E1.
  apply two_digits_inj in E1; try assumption. subst b. apply app_inv_head in E. auto.
Qed.
Lemma columns_inj n r r' : bytes_ok r -> bytes_ok r' -> (length r <= n)%nat -> (length r' <= n)%nat ->
  flat_map (fun b => 32 :: two_digits b) r ++ repeat 32 (3 * (n - length r)) = flat_map (fun b => 32 :: two_digits b) r' ++ repeat 32 (3 * (n - length r')) -> r = r'.
Proof.
  assert (X : forall b d n k, b < 256 -> flat_map (fun b => 32 :: two_digits b) (b :: d) ++ repeat 32 k = repeat 32 n -> False).
  { intros b d m k Hb E. pose proof (two_digits_chars b Hb) as C. destruct (two_digits b) as [|x t] eqn:T; [discriminate T|]. inversion C as [|? ? C1 _]; subst. cbn [flat_map app] in E. rewrite T in E. destruct m as [|[|m]]; cbn in E; [discriminate E|discriminate E|]. injection E as E _. subst x. unfold hex_char in C1. lia. }
  revert n r'. induction r as [|b r IH]; intros n r' B B' L L' E.
  - destruct r' as [|b' r']; [reflexivity|]. exfalso. symmetry in E. apply bytes_ok_cons in B'. exact (X _ _ _ _ (proj1 B') E).
  - apply bytes_ok_cons in B. destruct B as (Bb & B). destruct r' as [|b' r']; [exfalso; exact (X _ _ _ _ Bb E)|]. apply bytes_ok_cons in B'. destruct B' as (Bb' & B').
    destruct n as [|n]; [cbn in L; lia|]. cbn [flat_map length Nat.sub] in E. rewrite <- !app_assoc in E. change (32 :: two_digits b ++ (flat_map (fun b => 32 :: two_digits b) r ++ repeat 32 (3 * (n - length r))) = 32 :: two_digits b' ++ (flat_map (fun b => 32 :: two_digits b) r' ++ repeat 32 (3 * (n - length r')))) in E. apply (f_equal (@tl N)) in E. cbn [tl] in E. apply digits_split in E; [|assumption|assumption]. destruct E as (E1 & E3). f_equal.
    + exact E1.
    + apply (IH n r' B B'); [cbn in L; lia|cbn in L'; lia|exact E3].
Qed.
Lemma prefix_eq (a b x y : bytes) : length a = length b -> a ++ x = b ++ y -> a = b.
Proof. revert b. induction a as [|c a IH]; intros [|c' b] L E; cbn in L; try discriminate L; [reflexivity|]. injection E as -> E. f_equal. apply (IH b); [lia|exact E]. Qed.
Lemma row_inj o r r' : bytes_ok r -> bytes_ok r' -> (length r <= 16)%nat -> (length r' <= 16)%nat -> row_text o r = row_text o r' -> r = r'.
Proof.
  intros B B' L L' E. unfold row_text in E. apply app_inv_head in E. apply (app_inv_head [32]) in E.
  assert (H : forall r : bytes, (length r <= 16)%nat -> (length (firstn 8 r) <= 8)%nat /\ (length (skipn 8 r) <= 8)%nat) by (intros x X; rewrite firstn_length, skipn_length; lia).
  destruct (H r L) as (H1 & H2). destruct (H r' L') as (H1' & H2'). assert (E1 : columns (firstn 8 r) = columns (firstn 8 r')).
  { eapply prefix_eq; [|exact E]. rewrite !columns_len by assumption. reflexivity. }
  rewrite E1 in E. apply app_inv_head in E. apply (app_inv_head [32]) in E. assert (E2 : columns (skipn 8 r) = columns (skipn 8 r')).
  { eapply prefix_eq; [|exact E]. rewrite !columns_len by assumption. reflexivity. }
  rewrite <- (firstn_skipn 8 r), <- (firstn_skipn 8 r'). f_equal.
  - apply (columns_inj 8); try assumption; try (apply bytes_ok_firstn; assumption).
  - apply (columns_inj 8); try assumption; try (apply bytes_ok_skipn; assumption).
Qed.
Lemma columns_free r : bytes_ok r -> ~ In 10 (columns r).
Proof.
  intros B X. unfold columns in X. apply in_app_or in X. destruct X as [X|X].
  - apply in_flat_map in X. destruct X as (b & I & X). destruct X as [X|X]; [discriminate X|]. unfold bytes_ok in B. rewrite Forall_forall in B. pose proof (two_digits_chars b (B b I)) as C. rewrite Forall_forall in C. specialize (C _ X). unfold hex_char in C. lia.
  - apply repeat_spec in X. discriminate X.
Qed.
Lemma row_free k r : bytes_ok r -> ~ In 10 (row_text (hex_padded 8 k) r).
Proof.
  intros B X. unfold row_text in X. apply in_app_or in X. destruct X as [X|X].
  - destruct (offset_ok k) as (C & _). rewrite Forall_forall in C. specialize (C _ X). unfold hex_char in C. lia.
  - cbn [app In] in X. destruct X as [X|X]; [discriminate X|]. apply in_app_or in X. destruct X as [X|X]; [exact (columns_free _ (bytes_ok_firstn _ _ B) X)|].
    cbn [app In] in X. destruct X as [X|X]; [discriminate X|]. apply in_app_or in X. destruct X as [X|X]; [exact (columns_free _ (bytes_ok_skipn _ _ B) X)|].
    cbn [app In] in X. destruct X as [X|[X|[X|X]]]; [discriminate X|discriminate X|discriminate X|]. apply in_app_or in X. destruct X as [X|[X|[]]]; [|discriminate X].
    apply in_map_iff in X. destruct X as (b & X & _). unfold shown in X. destruct ((b <? 32) || (126 <? b))%bool eqn:E; [discriminate X|]. lia.
Qed.
Lemma joined_inj t t' : t <> [] -> t' <> [] -> Forall (fun x => ~ In 10 x) t -> Forall (fun x => ~ In 10 x) t' -> joined t = joined t' -> t = t'.
Proof.
  revert t'. induction t as [|x t IH]; intros t' N N' F F' E; [congruence|]. destruct t' as [|x' t']; [congruence|]. inversion F as [|? ? Fx Ft]; subst. inversion F' as [|? ? Fx' Ft']; subst.
  assert (Z : forall (y a : bytes) l, ~ In 10 a -> a = y ++ [10] ++ l -> False) by (intros y a l A ->; apply A; apply in_or_app; right; left; reflexivity).
  destruct t as [|y t]; destruct t' as [|y' t'].
  - cbn in E. congruence.
  - exfalso. rewrite (joined_cons x') in E by discriminate. exact (Z _ _ _ Fx E).
  - exfalso. rewrite (joined_cons x) in E by discriminate. symmetry in E. exact (Z _ _ _ Fx' E).
  - rewrite !joined_cons in E by discriminate. destruct (split_at _ _ _ _ _ Fx Fx' E) as (-> & E'). f_equal. apply IH; congruence || assumption.
Qed.
Lemma map_two {A B C} (f f' : A -> B) (g g' : A -> C) l : (forall k, In k l -> f k = f' k -> g k = g' k) -> map f l = map f' l -> map g l = map g' l.
Proof. induction l as [|x l IH]; intros H E; [reflexivity|]. cbn [map] in *. injection E as E1 E2. f_equal; [apply H; [left; reflexivity|exact E1]|]. apply IH; [intros k K; apply H; right; exact K|exact E2]. Qed.
Lemma count_pos n : line_count n <> 0%nat.
Proof. unfold line_count. lia. Qed.

(** C104: [{:#?}] of a hex dump is exactly the rows of the specification: sixteen bytes a
    row, the offset of the row in front, two groups of eight columns, and the characters. *)
Theorem C104_layout : forall d, bytes_ok d ->
  exists l t, rows d l /\ numbered 0 l t /\ dump_alternate d = joined t /\ length t = Nat.max 1 ((length d + 15) / 16).
Proof.
  intros d B. exists (map (chunk d) (seq 0 (line_count (length d)))), (map (numbered_line d) (seq 0 (line_count (length d)))).
  split; [apply (chunks_rows (length d)); lia|]. split; [apply numbered_ok|]. split; [apply alternate_ok, B|]. rewrite map_length, seq_length. reflexivity.
Qed.
Print Assumptions C104_layout.

(** No two data have the same dump, in either form. *)
Theorem C104_determines : forall d d', bytes_ok d -> bytes_ok d' -> dump_alternate d = dump_alternate d' -> d = d'.
Proof.
  intros d d' B B' E. rewrite !alternate_ok in E by assumption.
  assert (F : forall d n, bytes_ok d -> Forall (fun x => ~ In 10 x) (map (numbered_line d) (seq 0 n))).
  { intros x n X. apply Forall_forall. intros y Y. apply in_map_iff in Y. destruct Y as (k & <- & _). apply row_free. unfold chunk. apply bytes_ok_firstn, bytes_ok_skipn, X. }
  assert (NE : forall d n, n <> 0%nat -> map (numbered_line d) (seq 0 n) <> []) by (intros x [|n] X; [congruence|discriminate]).
  apply joined_inj in E; [|apply NE, count_pos|apply NE, count_pos|apply F, B|apply F, B'].
  assert (C : line_count (length d) = line_count (length d')) by (apply (f_equal (@length bytes)) in E; rewrite !map_length, !seq_length in E; exact E).
  rewrite <- C in E. apply (map_two _ _ (chunk d) (chunk d')) in E.
  - pose proof (rows_concat _ _ (chunks_rows _ d (le_n _))) as R. pose proof (rows_concat _ _ (chunks_rows _ d' (le_n _))) as R'. rewrite <- R, <- R', <- C. unfold bytes in *. rewrite E. reflexivity.
  - intros k _. apply row_inj; try (unfold chunk; apply bytes_ok_firstn, bytes_ok_skipn; assumption); unfold chunk; rewrite firstn_length; lia.
Qed.
Print Assumptions C104_determines.

(** Of less than 4 GiB every line is 62 characters and one more for each of its bytes. *)
Theorem C104_widths : forall d, bytes_ok d -> blen d < two32 ->
  exists l t, rows d l /\ dump_alternate d = joined t /\ Forall2 (fun r line => length line = 62 + length r)%nat l t.
Proof.
  intros d B L. exists (map (chunk d) (seq 0 (line_count (length d)))), (map (numbered_line d) (seq 0 (line_count (length d)))).
  split; [apply (chunks_rows (length d)); lia|]. split; [apply alternate_ok, B|].
  assert (X : forall k, In k (seq 0 (line_count (length d))) -> 16 * N.of_nat k < two32).
  { intros k K. apply in_seq in K. unfold blen in L. destruct (Nat.eq_dec k 0) as [->|Z]; [reflexivity|]. unfold line_count in K.
    assert (16 * ((length d + 15) / 16) <= length d + 15)%nat by (apply Nat.mul_div_le; lia). lia. }
  revert X. generalize (seq 0 (line_count (length d))). induction l as [|k l IH]; intros X; [constructor|]. cbn [map]. constructor; [|apply IH; intros j J; apply X; right; exact J].
  unfold numbered_line, row_text. rewrite !app_length, !columns_len, offset_short, map_length by (try apply X; try (left; reflexivity); unfold chunk; try rewrite skipn_length; rewrite !firstn_length; lia). cbn [length]. lia.
Qed.
Print Assumptions C104_widths.

(** *** The plain form *)
Fixpoint spaced (l : list bytes) : bytes :=
  match l with
  | [] => []
  | [x] => x
  | x :: t => x ++ [32] ++ spaced t
  end.
Lemma plain_ok d : bytes_ok d -> dump_plain d = spaced (map two_digits d).
Proof.
  intros B. unfold dump_plain.
  assert (X : forall d, bytes_ok d -> forall n pre, n = length pre -> flat_map (fun i => hex_padded 2 (nth i (pre ++ d) 0) ++ (if (i + 1 <? length (pre ++ d))%nat then [32] else [])) (seq n (length d)) = spaced (map two_digits d)).
  { clear. induction d as [|b d IH]; intros B n pre ->; [reflexivity|]. apply bytes_ok_cons in B. destruct B as (Bb & B). cbn [length seq flat_map map].
    rewrite app_nth2, Nat.sub_diag by lia. cbn [nth]. rewrite two_digits_ok by exact Bb.
    specialize (IH B (S (length pre)) (pre ++ [b])). rewrite app_length in IH. cbn [length] in IH. specialize (IH ltac:(lia)). rewrite <- !app_assoc in IH. cbn [app] in IH. rewrite IH. rewrite app_length. cbn [length].
    destruct d as [|b' d]; [rewrite (proj2 (Nat.ltb_ge _ _)) by (cbn; lia); cbn; reflexivity|]. rewrite (proj2 (Nat.ltb_lt _ _)) by (cbn; lia). cbn [map spaced]. rewrite <- app_assoc. reflexivity. }
  apply (X d B 0%nat []). reflexivity.
Qed.
(** C104: [{:?}] is the digits of every byte with one space in between, and determines the
    bytes. *)
Theorem C104_plain : forall d, bytes_ok d ->
  dump_plain d = spaced (map two_digits d) /\ length (dump_plain d) = (3 * length d - 1)%nat /\
  forall d', bytes_ok d' -> dump_plain d = dump_plain d' -> d = d'.
Proof.
  intros d B. split; [apply plain_ok, B|]. split.
  - rewrite plain_ok by exact B. clear B. induction d as [|b d IH]; [reflexivity|]. destruct d as [|b' d]; [reflexivity|]. cbn [map spaced] in *. rewrite !app_length, IH. cbn [length two_digits]. lia.
  - intros d' B' E. rewrite !plain_ok in E by assumption. revert d' B' E. induction d as [|b d IH]; intros d' B' E.
    + destruct d' as [|b' [|b'' d']]; [reflexivity|discriminate E|discriminate E].
    + apply bytes_ok_cons in B. destruct B as (Bb & B). destruct d' as [|b' d']; [destruct d; discriminate E|]. apply bytes_ok_cons in B'. destruct B' as (Bb' & B'). specialize (IH B).
      destruct d as [|c d]; destruct d' as [|c' d'].
      * cbn [map spaced] in E. f_equal. apply two_digits_inj; assumption.
      * exfalso. apply (f_equal (@length N)) in E. cbn [map spaced] in E. rewrite !app_length in E. cbn in E. lia.
      * exfalso. apply (f_equal (@length N)) in E. cbn [map spaced] in E. rewrite !app_length in E. cbn in E. lia.
      * cbn [map] in E. change (two_digits b ++ [32] ++ spaced (map two_digits (c :: d)) = two_digits b' ++ [32] ++ spaced (map two_digits (c' :: d'))) in E.
        apply digits_split in E; [|assumption|assumption]. destruct E as (E1 & E3). injection E3 as E3. f_equal; [exact E1|]. apply IH; assumption.
Qed.
Print Assumptions C104_plain.

(** *** Indentation *)
Definition four : bytes := [32; 32; 32; 32].
Definition plain_line (x : bytes) : Prop := ~ In 10 x /\ last x 0 <> 13.
Lemma lines_until x cur rest : ~ In 10 x -> lines_from cur (x ++ 10 :: rest) = strip_return (rev x ++ cur) :: lines_from [] rest.
Proof.
  revert cur. induction x as [|c x IH]; intros cur H; [reflexivity|]. cbn [app lines_from]. destruct (c =? 10) eqn:E; [apply N.eqb_eq in E; destruct H; left; congruence|].
  rewrite IH by (intros X; apply H; right; exact X). cbn [rev]. rewrite <- app_assoc. reflexivity.
Qed.
Lemma lines_last x cur : ~ In 10 x -> x ++ cur <> [] -> lines_from cur x = [rev cur ++ x].
Proof.
  revert cur. induction x as [|c x IH]; intros cur H NE.
  - cbn [lines_from]. destruct cur; [destruct NE; reflexivity|]. rewrite app_nil_r. reflexivity.
  - cbn [lines_from]. destruct (c =? 10) eqn:E; [apply N.eqb_eq in E; destruct H; left; congruence|].
    rewrite IH; [|intros X; apply H; right; exact X|intros X; apply app_eq_nil in X; destruct X; discriminate]. cbn [rev]. rewrite <- app_assoc. reflexivity.
Qed.
Lemma strip_plain x : last x 0 <> 13 -> strip_return (rev x ++ []) = x.
Proof.
  intros H. rewrite app_nil_r. destruct x as [|c x] using rev_ind; [reflexivity|]. rewrite last_last in H. rewrite rev_app_distr. cbn [rev app strip_return].
  rewrite (proj2 (N.eqb_neq c 13)) by exact H. cbn [rev]. rewrite rev_involutive. reflexivity.
Qed.
Lemma lines_of_joined l : l <> [] -> Forall plain_line l -> last l [] <> [] -> text_lines (joined l) = l.
Proof.
  intros NE F L. unfold text_lines. induction l as [|x l IH]; [congruence|]. inversion F as [|? ? (Fx & Lx) Fl]; subst. destruct l as [|y l].
  - cbn [joined]. rewrite lines_last; [reflexivity|exact Fx|]. cbn [last] in L. rewrite app_nil_r. exact L.
  - rewrite joined_cons by discriminate. change (x ++ [10] ++ joined (y :: l)) with (x ++ 10 :: joined (y :: l)). rewrite lines_until by exact Fx. rewrite strip_plain by exact Lx. f_equal. apply IH; [discriminate|exact Fl|exact L].
Qed.
Lemma indent_joined l b : l <> [] -> indent_lines b l = (if b then [] else [10]) ++ joined (map (app four) l).
Proof.
  revert b. induction l as [|x l IH]; intros b NE; [congruence|]. cbn [indent_lines map]. destruct l as [|y l].
  - cbn [indent_lines map joined]. rewrite app_nil_r. reflexivity.
  - rewrite IH by discriminate. rewrite joined_cons by discriminate. change (ascii_bytes "    ") with four. rewrite <- !app_assoc. reflexivity.
Qed.

(** C104: [Indent] puts four spaces in front of every line. *)
Theorem C104_indent : forall l, l <> [] -> Forall plain_line l -> last l [] <> [] ->
  indent (joined l) = joined (map (app four) l).
Proof. intros l NE F L. unfold indent. rewrite lines_of_joined by assumption. rewrite indent_joined by exact NE. reflexivity. Qed.
Print Assumptions C104_indent.

(** In particular the lines of an indented dump are the lines of the dump, and an indented
    dump still determines the bytes. *)
Theorem C104_indented_dump : forall d, bytes_ok d ->
  (exists t, dump_alternate d = joined t /\ indent (dump_alternate d) = joined (map (app four) t)) /\
  forall d', bytes_ok d' -> indent (dump_alternate d) = indent (dump_alternate d') -> d = d'.
Proof.
  assert (X : forall d, bytes_ok d -> exists t, t <> [] /\ Forall (fun x => ~ In 10 x) t /\ dump_alternate d = joined t /\ indent (dump_alternate d) = joined (map (app four) t)).
  { intros d B. exists (map (numbered_line d) (seq 0 (line_count (length d)))). rewrite alternate_ok by exact B.
    assert (NE : map (numbered_line d) (seq 0 (line_count (length d))) <> []).
    { pose proof (count_pos (length d)). destruct (line_count (length d)); [congruence|discriminate]. }
    assert (F : Forall (fun x => ~ In 10 x /\ exists y, x = y ++ [124]) (map (numbered_line d) (seq 0 (line_count (length d))))).
    { apply Forall_forall. intros x I. apply in_map_iff in I. destruct I as (k & <- & _). split; [apply row_free; unfold chunk; apply bytes_ok_firstn, bytes_ok_skipn, B|].
      unfold numbered_line, row_text. eexists. rewrite !app_assoc. reflexivity. }
    split; [exact NE|]. split; [eapply Forall_impl; [|exact F]; intros x H; apply H|]. split; [reflexivity|]. apply C104_indent; [exact NE| |].
    - eapply Forall_impl; [|exact F]. intros x (H & y & ->). split; [exact H|]. rewrite last_last. discriminate.
    - revert NE F. generalize (map (numbered_line d) (seq 0 (line_count (length d)))). intros l NE F. destruct (exists_last NE) as (l' & x & ->). rewrite last_last. apply Forall_app in F. destruct F as (_ & F). inversion F as [|? ? (_ & y & ->) _]; subst. intros E. apply app_eq_nil in E. destruct E; discriminate. }
  intros d B. destruct (X d B) as (t & NE & F & E & I). split; [exists t; auto|]. intros d' B' Q. destruct (X d' B') as (t' & NE' & F' & E' & I').
  apply C104_determines; try assumption. rewrite E, E'. rewrite I, I' in Q.
  apply joined_inj in Q.
  - f_equal. revert Q. clear. revert t'. induction t as [|x t IH]; intros [|x' t'] Q; try discriminate Q; [reflexivity|]. cbn [map] in Q. assert (Q1 := f_equal (hd []) Q). assert (Q2 := f_equal (@tl bytes) Q). cbn [hd tl] in Q1, Q2. apply app_inv_head in Q1. f_equal; [exact Q1|apply IH, Q2].
  - destruct t; [congruence|discriminate].
  - destruct t'; [congruence|discriminate].
  - clear - F. induction F as [|x l H F IH]; [constructor|]. cbn [map]. constructor; [|exact IH]. intros Y. apply in_app_or in Y. destruct Y as [Y|Y]; [|exact (H Y)]. repeat (destruct Y as [Y|Y]; [discriminate Y|]). exact Y.
  - clear - F'. induction F' as [|x l H F IH]; [constructor|]. cbn [map]. constructor; [|exact IH]. intros Y. apply in_app_or in Y. destruct Y as [Y|Y]; [|exact (H Y)]. repeat (destruct Y as [Y|Y]; [discriminate Y|]). exact Y.
Qed.
Print Assumptions C104_indented_dump.

(** An arbitrary text is not determined: a line feed at the end and carriage returns before
    line feeds are lost. *)
Theorem C104_indent_determines_refuted : forall s c, c <> 10 -> c <> 13 ->
  indent (s ++ [c; 10]) = indent (s ++ [c]) /\ s ++ [c; 10] <> s ++ [c] /\
  indent (s ++ [c; 13; 10; c]) = indent (s ++ [c; 10; c]).
Proof.
  intros s c C C'. assert (X : forall s cur, lines_from cur (s ++ [c; 10]) = lines_from cur (s ++ [c]) /\ lines_from cur (s ++ [c; 13; 10; c]) = lines_from cur (s ++ [c; 10; c])).
  { clear s. induction s as [|x s IH]; intros cur.
    - cbn [app lines_from]. rewrite (proj2 (N.eqb_neq c 10)) by exact C. change (10 =? 10) with true. change (13 =? 10) with false. cbn match. unfold strip_return. rewrite (proj2 (N.eqb_neq c 13)) by exact C'. change (13 =? 13) with true. split; reflexivity.
    - cbn [app lines_from]. destruct (x =? 10); [|apply IH]. destruct (IH []) as (A & B). rewrite A, B. split; reflexivity. }
  split; [unfold indent, text_lines; rewrite (proj1 (X s [])); reflexivity|]. split; [|unfold indent, text_lines; rewrite (proj2 (X s [])); reflexivity].
  intros E. apply app_inv_head in E. discriminate E.
Qed.
Print Assumptions C104_indent_determines_refuted.

Example C104_example :
  dump_alternate (ascii_bytes "Hello, world! 0123" ++ [0; 255]) =
    ascii_bytes "00000000  48 65 6c 6c 6f 2c 20 77  6f 72 6c 64 21 20 30 31  |Hello, world! 01|" ++ [10] ++
    ascii_bytes "00000010  32 33 00 ff                                       |23..|" /\
  dump_alternate [] = ascii_bytes "00000000                                                    ||" /\
  dump_plain [1; 171] = ascii_bytes "01 ab" /\
  indent (dump_alternate []) = ascii_bytes "    00000000                                                    ||" /\
  indent (ascii_bytes "a" ++ [10; 10] ++ ascii_bytes "b" ++ [10]) = ascii_bytes "    a" ++ [10] ++ ascii_bytes "    " ++ [10] ++ ascii_bytes "    b".
Proof. vm_compute. repeat split; reflexivity. Qed.
