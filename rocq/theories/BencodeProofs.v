(** Proofs about the bencode parser. *)
From Verif Require Import Base BaseProofs BencodeModel BencodeSpec.
Ltac Zify.zify_post_hook ::= Z.div_mod_to_equations.

(** ** Maps *)
Lemma bytes_ltb_irrefl a : bytes_ltb a a = false.
Proof. induction a as [|x a IH]; cbn [bytes_ltb]; auto. rewrite N.eqb_refl. auto. Qed.
Lemma bytes_ltb_trans a b c : bytes_ltb a b = true -> bytes_ltb b c = true -> bytes_ltb a c = true.
Proof.
  revert b c. induction a as [|x a IH]; intros [|y b] [|z c]; cbn [bytes_ltb]; auto; try discriminate.
  destruct (x =? y) eqn:E1, (y =? z) eqn:E2, (x =? z) eqn:E3; try lia; eauto.
Qed.
Lemma bytes_ltb_total a b : bytes_ltb a b = false -> bytes_eqb a b = false -> bytes_ltb b a = true.
Proof.
  revert b. induction a as [|x a IH]; intros [|y b]; cbn [bytes_ltb bytes_eqb]; auto; try discriminate.
  destruct (x =? y) eqn:E1, (y =? x) eqn:E2; cbn [andb]; try lia. auto.
Qed.
Lemma bytes_eqb_neq a b : bytes_eqb a b = false <-> a <> b.
Proof.
  split.
  - intros H E. subst b. rewrite bytes_eqb_refl in H. discriminate.
  - intros H. destruct (bytes_eqb a b) eqn:E; auto. apply bytes_eqb_eq in E. contradiction.
Qed.

Lemma insert_in {A} k (v : A) m k' v' :
  In (k', v') (map_insert k v m) -> (k' = k /\ v' = v) \/ In (k', v') m.
Proof.
  induction m as [|[k1 v1] m IH]; cbn [map_insert].
  - intros [H|[]]. injection H as <- <-. auto.
  - destruct (bytes_ltb k k1); [|destruct (bytes_eqb k k1)].
    + intros [H|H]; auto. injection H as <- <-. auto.
    + intros [H|H]; [injection H as <- <-; auto | right; right; auto].
    + intros [H|H]; [right; left; auto|]. destruct (IH H); auto. right; right; auto.
Qed.
Lemma insert_sorted {A} k (v : A) m : key_sorted m -> key_sorted (map_insert k v m).
Proof.
  induction 1 as [|k1 v1 m L S IH]; cbn [map_insert].
  - constructor; [intros ? ? []|constructor].
  - destruct (bytes_ltb k k1) eqn:E1; [|destruct (bytes_eqb k k1) eqn:E2].
    + constructor; [|constructor; auto]. intros k' v' [H|H].
      * injection H as <- <-. auto.
      * eapply bytes_ltb_trans; eauto.
    + apply bytes_eqb_eq in E2. subst k1. constructor; auto.
    + constructor; auto. intros k' v' H. apply insert_in in H. destruct H as [[-> ->]|H]; eauto.
      apply bytes_ltb_total; auto.
Qed.
Lemma insert_spec {A} k (v : A) m k' v' : key_sorted m ->
  (In (k', v') (map_insert k v m) <-> (k' = k /\ v' = v) \/ (k' <> k /\ In (k', v') m)).
Proof.
  intros S. split.
  - induction S as [|k1 v1 m L S IH]; cbn [map_insert].
    + intros [H|[]]. injection H as <- <-. auto.
    + destruct (bytes_ltb k k1) eqn:E1; [|destruct (bytes_eqb k k1) eqn:E2].
      * intros [H|H]; [injection H as <- <-; auto|]. right. split; auto. intros ->.
        destruct H as [H|H].
        -- injection H as <- <-. rewrite bytes_ltb_irrefl in E1. discriminate.
        -- pose proof (L _ _ H) as L'. pose proof (bytes_ltb_trans _ _ _ E1 L') as T.
           rewrite bytes_ltb_irrefl in T. discriminate.
      * apply bytes_eqb_eq in E2. subst k1. intros [H|H]; [injection H as <- <-; auto|].
        right. split; [|right; auto]. intros ->. pose proof (L _ _ H) as L'.
        rewrite bytes_ltb_irrefl in L'. discriminate.
      * intros [H|H].
        -- injection H as <- <-. right. split; [|left; auto]. apply bytes_eqb_neq in E2. auto.
        -- destruct (IH H) as [H'|[H1 H2]]; auto. right. split; auto. right; auto.
  - intros [[-> ->]|[N1 H]].
    + clear S. induction m as [|[k1 v1] m IH]; cbn [map_insert]; [left; auto|].
      destruct (bytes_ltb k k1); [left; auto|]. destruct (bytes_eqb k k1); [left; auto|right; auto].
    + induction m as [|[k1 v1] m IH]; [destruct H|]. cbn [map_insert].
      destruct (bytes_ltb k k1); [right; auto|]. destruct (bytes_eqb k k1) eqn:E.
      * destruct H as [H|H]; [|right; auto]. injection H as <- <-. apply bytes_eqb_eq in E. congruence.
      * destruct H as [H|H]; [left; auto|]. right. apply IH; auto. inversion S; auto.
Qed.
Definition map_fold {A} (es m : list (bytes * A)) : list (bytes * A) :=
  fold_left (fun m e => map_insert (fst e) (snd e) m) es m.
Lemma in_dec_key (k : bytes) (l : list bytes) : {In k l} + {~ In k l}.
Proof. apply in_dec. apply list_eq_dec. apply N.eq_dec. Qed.
Lemma map_fold_spec {A} (es : list (bytes * A)) m : key_sorted m ->
  key_sorted (map_fold es m) /\
  forall k b, In (k, b) (map_fold es m) <-> last_binding k b es \/ (~ In k (map fst es) /\ In (k, b) m).
Proof.
  revert m. induction es as [|[k1 b1] es IH]; intros m S; cbn [map_fold fold_left].
  - split; auto. intros k b. split.
    + intros H. right. auto.
    + intros [(es1 & es2 & H & _)|[_ H]]; auto. destruct es1; discriminate.
  - destruct (IH (map_insert k1 b1 m) (insert_sorted _ _ _ S)) as [S' I]. split; [exact S'|].
    intros k b. cbn [fst snd]. fold (map_fold es (map_insert k1 b1 m)). rewrite I, insert_spec by auto.
    cbn [map fst In]. split.
    + intros [(es1 & es2 & -> & NI)|[NI [[-> ->]|[N1 H]]]].
      * left. exists ((k1, b1) :: es1), es2. auto.
      * left. exists [], es. auto.
      * right. split; auto. intros [->|H']; auto.
    + intros [(es1 & es2 & E & NI)|[NI H]].
      * destruct es1 as [|e es1]; cbn [app] in E.
        -- injection E as <- <- ->. right. auto.
        -- injection E as <- ->. left. exists es1, es2. auto.
      * right. split; [intros I1; apply NI; auto|]. right. split; [intros ->; apply NI; auto|exact H].
Qed.
Lemma sorted_unique {A} (m1 m2 : list (bytes * A)) : key_sorted m1 -> key_sorted m2 ->
  (forall k b, In (k, b) m1 <-> In (k, b) m2) -> m1 = m2.
Proof.
  intros S1. revert m2. induction S1 as [|k1 v1 m1 L1 S1 IH]; intros m2 S2 H.
  - destruct m2 as [|[k v] m2]; auto. destruct (proj2 (H k v)); left; auto.
  - inversion S2 as [|k2 v2 m2' L2 S2']; subst.
    + destruct (proj1 (H k1 v1)); left; auto.
    + assert (E : (k1, v1) = (k2, v2)).
      { destruct (proj1 (H k1 v1) (or_introl eq_refl)) as [E|E]; [auto|].
        destruct (proj2 (H k2 v2) (or_introl eq_refl)) as [E'|E']; [auto|].
        apply L1 in E'. apply L2 in E. pose proof (bytes_ltb_trans _ _ _ E E') as T.
        rewrite bytes_ltb_irrefl in T. discriminate. }
      injection E as <- <-. f_equal. apply IH; auto. intros k b. split; intros I.
      * destruct (proj1 (H k b) (or_intror I)) as [E|E]; auto. injection E as <- <-.
        apply L1 in I. rewrite bytes_ltb_irrefl in I. discriminate.
      * destruct (proj2 (H k b) (or_intror I)) as [E|E]; auto. injection E as <- <-.
        apply L2 in I. rewrite bytes_ltb_irrefl in I. discriminate.
Qed.
Lemma map_of_fold {A} (es m : list (bytes * A)) : is_map_of es m <-> m = map_fold es [].
Proof.
  destruct (map_fold_spec es (@nil (bytes * A)) ks_nil) as [S I]. split.
  - intros [S' I']. apply sorted_unique; auto. intros k b. rewrite I, I'. cbn [In]. tauto.
  - intros ->. split; auto. intros k b. rewrite I. cbn [In]. tauto.
Qed.
Lemma map_get_in {A} (m : list (bytes * A)) k v : map_get k m = Some v -> In (k, v) m.
Proof.
  induction m as [|[k1 v1] m IH]; cbn [map_get]; [discriminate|].
  destruct (bytes_eqb k k1) eqn:E; [|right; auto].
  intros H. injection H as ->. apply bytes_eqb_eq in E. subst. left; auto.
Qed.

(** ** Numbers and byte strings *)
Lemma is_digit_spec c : is_digit c = true <-> 48 <= c <= 57.
Proof. unfold is_digit. lia. Qed.
Definition no_digit (post : bytes) : Prop :=
  match post with [] => True | c :: _ => is_digit c = false end.
Lemma nth_at {A} (pre : list A) c post : nth_error (pre ++ c :: post) (length pre) = Some c.
Proof. rewrite nth_error_app2 by lia. rewrite Nat.sub_diag. reflexivity. Qed.
Lemma nth_at_end {A} (pre : list A) : nth_error (pre ++ []) (length pre) = None.
Proof. rewrite app_nil_r. apply nth_error_None. lia. Qed.
Lemma advance_at pre c post : advance (pre ++ c :: post) (length pre) = length (pre ++ [c]).
Proof.
  unfold advance. rewrite !app_length. cbn [length].
  replace (length pre <? length pre + S (length post))%nat with true by lia. lia.
Qed.
Lemma snoc_assoc {A} (pre : list A) c post : pre ++ c :: post = (pre ++ [c]) ++ post.
Proof. rewrite <- app_assoc. reflexivity. Qed.
Lemma skip_digits_ok fuel pre ds post :
  Forall (fun c => 48 <= c <= 57) ds -> no_digit post -> (length ds <= fuel)%nat ->
  skip_digits fuel (pre ++ ds ++ post) (length pre) = length (pre ++ ds).
Proof.
  revert pre ds. induction fuel as [|fuel IH]; intros pre ds D P L; cbn [skip_digits].
  - destruct ds; [|cbn in L; lia]. rewrite app_nil_r. reflexivity.
  - destruct ds as [|c ds].
    + rewrite app_nil_r. cbn [app]. unfold peek. destruct post as [|c post].
      * rewrite nth_at_end. reflexivity.
      * rewrite nth_at. cbn [no_digit] in P. rewrite P. reflexivity.
    + inversion D as [|? ? Dc Dds]; subst. cbn [app]. unfold peek. rewrite nth_at.
      rewrite (proj2 (is_digit_spec c) Dc), advance_at, snoc_assoc, IH; auto.
      * rewrite <- app_assoc. reflexivity.
      * cbn [length] in L. lia.
Qed.
Lemma digits_split rest : exists ds post, rest = ds ++ post /\ Forall (fun c => 48 <= c <= 57) ds /\ no_digit post.
Proof.
  induction rest as [|c rest (ds & post & -> & D & P)].
  - exists [], []. repeat split; auto.
  - destruct (is_digit c) eqn:E.
    + exists (c :: ds), post. repeat split; auto. constructor; auto. apply is_digit_spec; auto.
    + exists [], (c :: ds ++ post). repeat split; auto.
Qed.
Lemma dec_from acc s : fold_left (fun a c => 10 * a + (c - 48)) s acc >= acc.
Proof.
  revert acc. induction s as [|c s IH]; intros acc; cbn [fold_left]; [lia|].
  specialize (IH (10 * acc + (c - 48))). lia.
Qed.
Lemma parse_decimal_from_spec s acc : acc < two64 ->
  parse_decimal_from acc s =
  let n := fold_left (fun a c => 10 * a + (c - 48)) s acc in if n <? two64 then Some n else None.
Proof.
  revert acc. induction s as [|c s IH]; intros acc A; cbn [parse_decimal_from fold_left].
  - cbv zeta. replace (acc <? two64) with true by lia. reflexivity.
  - destruct (two64 <=? 10 * acc + (c - 48)) eqn:E.
    + pose proof (dec_from (10 * acc + (c - 48)) s) as G. cbv zeta.
      replace (_ <? two64) with false by lia. reflexivity.
    + apply IH. lia.
Qed.
Lemma parse_decimal_spec s : parse_decimal s = if dec_value s <? two64 then Some (dec_value s) else None.
Proof. unfold parse_decimal. rewrite parse_decimal_from_spec by (unfold two64; lia). reflexivity. Qed.

Lemma index_at {E} (pre s post : bytes) :
  index_range (E := E) (pre ++ s ++ post) (length pre) (length (pre ++ s)) = Ok s.
Proof. unfold index_range. rewrite app_length, get_range_app. reflexivity. Qed.
Lemma usize_eval pre ds post : Forall (fun c => 48 <= c <= 57) ds -> no_digit post ->
  parse_usize (pre ++ ds ++ post) (length pre) =
  match ds with
  | [] => Err (PExpectedDigit (length pre))
  | _ => if dec_value ds <? two64 then Ok (dec_value ds, length (pre ++ ds)) else Err (PBadInteger (length pre))
  end.
Proof.
  intros D P. unfold parse_usize. rewrite skip_digits_ok; auto.
  2:{ rewrite !app_length. lia. }
  destruct ds as [|c ds].
  - rewrite app_nil_r, Nat.eqb_refl. reflexivity.
  - rewrite index_at. rewrite !app_length. cbn [length].
    replace (length pre + S (length ds) =? length pre)%nat with false by lia.
    cbn [bind]. rewrite parse_decimal_spec. destruct (dec_value (c :: ds) <? two64); reflexivity.
Qed.
Lemma usize_ok pre ds post n : decimal ds n -> no_digit post ->
  parse_usize (pre ++ ds ++ post) (length pre) = Ok (n, length (pre ++ ds)).
Proof.
  intros (NE & D & V & L) P. rewrite usize_eval by auto. rewrite V.
  replace (n <? two64) with true by lia. destruct ds; [congruence|reflexivity].
Qed.
Lemma usize_inv pre rest n e : parse_usize (pre ++ rest) (length pre) = Ok (n, e) ->
  exists ds post, rest = ds ++ post /\ decimal ds n /\ e = length (pre ++ ds) /\ no_digit post.
Proof.
  destruct (digits_split rest) as (ds & post & -> & D & P). rewrite usize_eval by auto.
  destruct ds as [|c ds]; [discriminate|]. destruct (_ <? two64) eqn:E; [|discriminate].
  intros H. injection H as <- <-. exists (c :: ds), post. repeat split; auto; try discriminate. lia.
Qed.
Lemma usize_total pre rest : parse_usize (pre ++ rest) (length pre) <> Panic /\
  parse_usize (pre ++ rest) (length pre) <> Err POutOfFuel.
Proof.
  destruct (digits_split rest) as (ds & post & -> & D & P). rewrite usize_eval by auto.
  destruct ds; [split; discriminate|]. destruct (_ <? two64); split; discriminate.
Qed.
Lemma expect_ok pre c post : expect_byte (pre ++ c :: post) (length pre) c = Ok (length (pre ++ [c])).
Proof. unfold expect_byte, peek. rewrite nth_at, N.eqb_refl, advance_at. reflexivity. Qed.
Lemma expect_inv pre rest c e : expect_byte (pre ++ rest) (length pre) c = Ok e ->
  exists post, rest = c :: post /\ e = length (pre ++ [c]).
Proof.
  unfold expect_byte, peek. destruct rest as [|b post].
  - rewrite nth_at_end. discriminate.
  - rewrite nth_at. destruct (b =? c) eqn:E; cbn [negb]; [|discriminate].
    rewrite advance_at. intros H. injection H as <-. exists post. assert (b = c) by lia. subst. auto.
Qed.
Lemma expect_total d o c : expect_byte d o c <> Panic /\ expect_byte d o c <> Err POutOfFuel.
Proof. unfold expect_byte. destruct (peek d o) as [b|]; [destruct (negb (b =? c))|]; split; discriminate. Qed.

Lemma byte_string_ok pre s d post : bstring s d -> fits (pre ++ s ++ post) ->
  parse_byte_string (pre ++ s ++ post) (length pre) = Ok (d, length (pre ++ s)).
Proof.
  intros (ds & D & ->) F. unfold parse_byte_string. rewrite <- !app_assoc in *. cbn [app] in *.
  rewrite (usize_ok pre ds (58 :: d ++ post) (blen d) D) by reflexivity. cbn [bind].
  rewrite app_assoc, expect_ok. cbn [bind]. rewrite (snoc_assoc (pre ++ ds) 58 (d ++ post)). unfold fits in F.
  rewrite !blen_app, blen_cons, blen_app in F. unfold blen in *.
  replace (two64 <=? N.of_nat (length ((pre ++ ds) ++ [58])) + N.of_nat (length d)) with false.
  2:{ rewrite !app_length. cbn [length]. lia. }
  match goal with |- context [N.of_nat ?a <? ?b] => replace (N.of_nat a <? b) with false end.
  2:{ symmetry. apply N.ltb_ge. rewrite !app_length. cbn [length]. lia. }
  replace (N.to_nat (N.of_nat (length ((pre ++ ds) ++ [58])) + N.of_nat (length d)))
    with (length (((pre ++ ds) ++ [58]) ++ d)) by (rewrite (app_length _ d); lia).
  rewrite index_at. cbn [bind]. f_equal. f_equal. f_equal. rewrite <- !app_assoc. reflexivity.
Qed.
Lemma byte_string_inv pre rest d e : parse_byte_string (pre ++ rest) (length pre) = Ok (d, e) ->
  exists s post, rest = s ++ post /\ bstring s d /\ e = length (pre ++ s).
Proof.
  unfold parse_byte_string. intros H. apply bind_ok in H. destruct H as ([size o1] & H1 & H).
  apply usize_inv in H1. destruct H1 as (ds & post & -> & D & -> & P).
  rewrite app_assoc in H. apply bind_ok in H. destruct H as (o2 & H2 & H).
  apply expect_inv in H2. destruct H2 as (post' & -> & ->). rewrite (snoc_assoc (pre ++ ds) 58 post') in H.
  destruct (two64 <=? _) eqn:E1; [discriminate|]. destruct (_ <? _) eqn:E2; [discriminate|].
  unfold blen in E2. rewrite (app_length _ post') in E2.
  set (x := firstn (N.to_nat size) post'). 
  assert (Lx : length x = N.to_nat size) by (unfold x; apply firstn_length_le; lia).
  assert (Hp : post' = x ++ skipn (N.to_nat size) post') by (unfold x; rewrite firstn_skipn; reflexivity).
  rewrite Hp in H at 1.
  replace (N.to_nat (N.of_nat (length ((pre ++ ds) ++ [58])) + size))
    with (length (((pre ++ ds) ++ [58]) ++ x)) in H by (rewrite (app_length _ x); lia).
  rewrite index_at in H. cbn [bind] in H. injection H as <- <-.
  exists (ds ++ [58] ++ x), (skipn (N.to_nat size) post'). split; [|split].
  - rewrite <- !app_assoc. cbn [app]. rewrite <- Hp. reflexivity.
  - exists ds. split; auto. replace (blen x) with size by (unfold blen; lia). auto.
  - rewrite <- !app_assoc. reflexivity.
Qed.
Lemma byte_string_total pre rest : parse_byte_string (pre ++ rest) (length pre) <> Panic /\
  parse_byte_string (pre ++ rest) (length pre) <> Err POutOfFuel.
Proof.
  unfold parse_byte_string. destruct (usize_total pre rest) as [U1 U2].
  destruct (parse_usize (pre ++ rest) (length pre)) as [[size o1]|e|] eqn:E; cbn [bind];
    [|split; congruence|congruence].
  destruct (expect_total (pre ++ rest) o1 58) as [X1 X2].
  destruct (expect_byte (pre ++ rest) o1 58) as [o2|e|] eqn:E2; cbn [bind]; [|split; congruence|congruence].
  destruct (two64 <=? _) eqn:E3; [split; discriminate|].
  destruct (_ <? _) eqn:E4; [split; discriminate|].
  unfold index_range, get_range. unfold blen in E4.
  destruct (_ && _)%bool eqn:E5; cbn [bind]; [split; discriminate|]. exfalso.
  apply andb_false_iff in E5. destruct E5 as [E5|E5]; apply Nat.leb_gt in E5; lia.
Qed.
Lemma utf8_string_ok pre s d post : bstring s d -> utf8_valid d = true -> fits (pre ++ s ++ post) ->
  parse_utf8_string (pre ++ s ++ post) (length pre) = Ok (d, length (pre ++ s)).
Proof.
  intros B U F. unfold parse_utf8_string. rewrite (byte_string_ok _ _ _ _ B F). cbn [bind].
  rewrite U. reflexivity.
Qed.
Lemma utf8_string_inv pre rest d e : parse_utf8_string (pre ++ rest) (length pre) = Ok (d, e) ->
  exists s post, rest = s ++ post /\ bstring s d /\ utf8_valid d = true /\ e = length (pre ++ s).
Proof.
  unfold parse_utf8_string. intros H. apply bind_ok in H. destruct H as ([x o] & H1 & H).
  destruct (utf8_valid x) eqn:U; [|discriminate]. injection H as <- <-.
  apply byte_string_inv in H1. destruct H1 as (s & post & -> & B & ->). exists s, post. auto.
Qed.
Lemma utf8_string_total pre rest : parse_utf8_string (pre ++ rest) (length pre) <> Panic /\
  parse_utf8_string (pre ++ rest) (length pre) <> Err POutOfFuel.
Proof.
  unfold parse_utf8_string. destruct (byte_string_total pre rest) as [U1 U2].
  destruct (parse_byte_string (pre ++ rest) (length pre)) as [[x o]|e|]; cbn [bind]; try (split; congruence).
  destruct (utf8_valid x); split; discriminate.
Qed.

(** ** The first byte of a value tells its kind *)
Definition first_ok (s : bytes) (b : bval) : Prop :=
  match s, b with
  | c :: _, BInt _ => c = 105
  | c :: _, BList _ => c = 108
  | c :: _, BDict _ => c = 100
  | c :: _, BBytes _ => 48 <= c <= 57
  | [], _ => False
  end.
Lemma bstring_first s d : bstring s d -> match s with c :: _ => 48 <= c <= 57 | [] => False end.
Proof.
  intros (ds & (NE & D & _) & ->). destruct ds as [|c ds]; [congruence|]. inversion D; subst. auto.
Qed.
Lemma ben_first s b : ben s b -> first_ok s b.
Proof.
  intros H. inversion H; subst; cbn [app first_ok]; auto. apply bstring_first in H0.
  destruct s; auto.
Qed.
Lemma ben_first_not_e s b : ben s b -> exists c t, s = c :: t /\ c <> 101.
Proof.
  intros H. apply ben_first in H. destruct s as [|c t]; [easy|]. exists c, t. split; auto.
  destruct b; cbn in H; lia.
Qed.
Lemma bstring_not_e s d : bstring s d -> exists c t, s = c :: t /\ c <> 101.
Proof.
  intros H. apply bstring_first in H. destruct s as [|c t]; [easy|]. exists c, t. split; auto. lia.
Qed.

(** ** Soundness: what is accepted is in the grammar, and every location is right *)
Inductive good (d : bytes) (lo hi : nat) (v : value) : Prop :=
| good_intro : (lo <= l_start (loc_of v) <= l_end (loc_of v))%nat -> (l_end (loc_of v) <= hi)%nat ->
    ben (slice d (loc_of v)) (strip v) ->
    (forall w, child w v -> good d (l_start (loc_of v)) (l_end (loc_of v)) w) -> good d lo hi v.
Lemma good_weaken d lo hi lo' hi' v : good d lo hi v -> (lo' <= lo)%nat -> (hi <= hi')%nat -> good d lo' hi' v.
Proof. intros [H1 H2 H3 H4] L1 L2. constructor; auto; lia. Qed.
Lemma slice_at pre s post : slice (pre ++ s ++ post) (mkloc (length pre) (length (pre ++ s))) = s.
Proof.
  unfold slice, mkloc; cbn [l_start l_end]. rewrite skipn_app_length, app_length.
  replace (length pre + length s - length pre)%nat with (length s) by lia. apply firstn_app_length.
Qed.
Definition strip_map (m : list (bytes * value)) : list (bytes * bval) :=
  map (fun e => (fst e, strip (snd e))) m.
Lemma strip_insert k v m : strip_map (map_insert k v m) = map_insert k (strip v) (strip_map m).
Proof.
  induction m as [|[k1 v1] m IH]; cbn [map_insert strip_map map fst snd]; auto.
  destruct (bytes_ltb k k1); [reflexivity|]. destruct (bytes_eqb k k1); [reflexivity|].
  cbn [map fst snd]. f_equal. exact IH.
Qed.

Lemma parse_sound fuel :
  (forall pre rest v e, parse_value fuel (pre ++ rest) (length pre) = Ok (v, e) ->
     exists s post, rest = s ++ post /\ e = length (pre ++ s) /\ ben s (strip v) /\
       loc_of v = mkloc (length pre) e /\ good (pre ++ rest) (length pre) e v) /\
  (forall pre rest l e, parse_items fuel (pre ++ rest) (length pre) = Ok (l, e) ->
     exists s post, rest = s ++ [101] ++ post /\ e = length (pre ++ s ++ [101]) /\
       ben_items s (map strip l) /\
       (forall w, In w l -> good (pre ++ rest) (length pre) (length (pre ++ s)) w)) /\
  (forall pre rest m m' e, parse_entries fuel (pre ++ rest) (length pre) m = Ok (m', e) ->
     exists s post es, rest = s ++ [101] ++ post /\ e = length (pre ++ s ++ [101]) /\
       ben_entries s es /\ strip_map m' = map_fold es (strip_map m) /\
       (forall k w, In (k, w) m' -> In (k, w) m \/ good (pre ++ rest) (length pre) (length (pre ++ s)) w)).
Proof.
  induction fuel as [|fuel (IHv & IHi & IHe)]; [repeat split; intros; discriminate|].
  split; [|split].
  - intros pre rest v e. cbn [parse_value]. unfold peek. destruct rest as [|b rest].
    { rewrite nth_at_end. discriminate. }
    rewrite nth_at. destruct (b =? 105) eqn:B1; [|destruct (b =? 108) eqn:B2; [|destruct (b =? 100) eqn:B3;
      [|destruct (is_digit b) eqn:B4; [|discriminate]]]].
    + intros H. apply bind_ok in H. destruct H as ([n o] & H1 & H). injection H as <- <-.
      unfold parse_integer in H1. apply bind_ok in H1. destruct H1 as (o1 & X1 & H1).
      apply expect_inv in X1. destruct X1 as (post & E & ->). injection E as -> <-.
      rewrite (snoc_assoc pre 105) in H1. apply bind_ok in H1. destruct H1 as ([n' o2] & U & H1).
      apply usize_inv in U. destruct U as (ds & post & -> & D & -> & P).
      rewrite app_assoc in H1. apply bind_ok in H1. destruct H1 as (o3 & X2 & H1).
      apply expect_inv in X2. destruct X2 as (post' & -> & ->). injection H1 as <- <-.
      exists ([105] ++ ds ++ [101]), post'.
      assert (E : ((pre ++ [105]) ++ ds) ++ [101] = pre ++ [105] ++ ds ++ [101]) by (rewrite <- !app_assoc; reflexivity).
      rewrite E.
      assert (E2 : 105 :: ds ++ 101 :: post' = ([105] ++ ds ++ [101]) ++ post') by (rewrite <- !app_assoc; reflexivity).
      rewrite E2. split; [reflexivity|]. split; [reflexivity|].
      assert (Hb : ben ([105] ++ ds ++ [101]) (BInt n')) by (constructor; auto).
      split; [exact Hb|]. split; [reflexivity|].
      constructor; cbn [loc_of mkloc l_start l_end strip child]; [rewrite !app_length; lia | lia | | ].
      * change ({| l_start := _; l_end := _ |}) with (mkloc (length pre) (length (pre ++ [105] ++ ds ++ [101]))).
        rewrite slice_at. exact Hb.
      * intros w [].
    + intros H. apply bind_ok in H. destruct H as (o1 & X1 & H).
      apply expect_inv in X1. destruct X1 as (post & E & ->). injection E as -> <-.
      rewrite (snoc_assoc pre 108) in H. apply bind_ok in H. destruct H as ([l o2] & I & H). injection H as <- <-.
      apply IHi in I. destruct I as (s & post & -> & -> & Bi & G).
      exists ([108] ++ s ++ [101]), post.
      assert (E : (pre ++ [108]) ++ s ++ [101] = pre ++ [108] ++ s ++ [101]) by (rewrite <- !app_assoc; reflexivity).
      rewrite E.
      assert (E2 : 108 :: s ++ [101] ++ post = ([108] ++ s ++ [101]) ++ post) by (cbn [app]; rewrite <- !app_assoc; reflexivity).
      rewrite E2. split; [reflexivity|]. split; [reflexivity|].
      assert (Hb : ben ([108] ++ s ++ [101]) (BList (map strip l))) by (constructor; auto).
      split; [exact Hb|]. split; [reflexivity|].
      constructor; cbn [loc_of mkloc l_start l_end strip child]; [rewrite !app_length; lia | lia | | ].
      * change ({| l_start := _; l_end := _ |}) with (mkloc (length pre) (length (pre ++ [108] ++ s ++ [101]))).
        rewrite slice_at. exact Hb.
      * intros w Hw. rewrite <- E2, snoc_assoc. eapply good_weaken; [apply G; auto | |];
          rewrite !app_length; cbn [length]; lia.
    + intros H. apply bind_ok in H. destruct H as (o1 & X1 & H).
      apply expect_inv in X1. destruct X1 as (post & E & ->). injection E as -> <-.
      rewrite (snoc_assoc pre 100) in H. apply bind_ok in H. destruct H as ([m o2] & I & H). injection H as <- <-.
      apply IHe in I. destruct I as (s & post & es & -> & -> & Be & Sm & G).
      exists ([100] ++ s ++ [101]), post.
      assert (E : (pre ++ [100]) ++ s ++ [101] = pre ++ [100] ++ s ++ [101]) by (rewrite <- !app_assoc; reflexivity).
      rewrite E.
      assert (E2 : 100 :: s ++ [101] ++ post = ([100] ++ s ++ [101]) ++ post) by (cbn [app]; rewrite <- !app_assoc; reflexivity).
      rewrite E2. split; [reflexivity|]. split; [reflexivity|].
      assert (Hb : ben ([100] ++ s ++ [101]) (BDict (strip_map m))).
      { econstructor; eauto. apply map_of_fold. exact Sm. }
      split; [exact Hb|]. split; [reflexivity|].
      constructor; cbn [loc_of mkloc l_start l_end strip child]; [rewrite !app_length; lia | lia | | ].
      * change ({| l_start := _; l_end := _ |}) with (mkloc (length pre) (length (pre ++ [100] ++ s ++ [101]))).
        rewrite slice_at. exact Hb.
      * intros w [k Hw]. rewrite <- E2, snoc_assoc.
        destruct (G k w Hw) as [[]|Gw]. eapply good_weaken; [exact Gw | |];
          rewrite !app_length; cbn [length]; lia.
    + intros H. apply bind_ok in H. destruct H as ([s o] & H1 & H). injection H as <- <-.
      apply byte_string_inv in H1. destruct H1 as (t & post & -> & Bs & ->).
      exists t, post. split; [reflexivity|]. split; [reflexivity|].
      assert (Hb : ben t (BBytes s)) by (constructor; auto).
      split; [exact Hb|]. split; [reflexivity|].
      constructor; cbn [loc_of mkloc l_start l_end strip child]; [rewrite !app_length; lia | lia | | ].
      * change ({| l_start := _; l_end := _ |}) with (mkloc (length pre) (length (pre ++ t))).
        rewrite slice_at. exact Hb.
      * intros w [].
  - intros pre rest l e. cbn [parse_items]. unfold peek. destruct rest as [|b rest].
    { rewrite nth_at_end. discriminate. }
    rewrite nth_at. destruct (b =? 101) eqn:B1.
    + intros H. injection H as <- <-. assert (b = 101) by lia. subst b. rewrite advance_at.
      exists [], rest. split; [reflexivity|]. split; [reflexivity|]. split; [constructor|]. intros w [].
    + intros H. apply bind_ok in H. destruct H as ([v o1] & H1 & H).
      apply IHv in H1. destruct H1 as (s1 & post & E & -> & Bv & Lv & Gv). rewrite E in *.
      rewrite app_assoc in H. apply bind_ok in H. destruct H as ([l' o2] & H2 & H). injection H as <- <-.
      apply IHi in H2. destruct H2 as (s2 & post' & -> & -> & Bi & G).
      exists (s1 ++ s2), post'. rewrite <- !app_assoc.
      split; [reflexivity|]. split; [reflexivity|]. split.
      * cbn [map]. constructor; auto.
      * intros w [<-|Hw].
        -- eapply good_weaken; [exact Gv | lia | rewrite !app_length; lia].
        -- specialize (G w Hw). rewrite <- app_assoc in G. rewrite <- app_assoc in G.
           eapply good_weaken; [exact G | | ]; rewrite !app_length; lia.
  - intros pre rest m m' e. cbn [parse_entries]. unfold peek. destruct rest as [|b rest].
    { rewrite nth_at_end. discriminate. }
    rewrite nth_at. destruct (b =? 101) eqn:B1.
    + intros H. injection H as <- <-. assert (b = 101) by lia. subst b. rewrite advance_at.
      exists [], rest, []. split; [reflexivity|]. split; [reflexivity|]. split; [constructor|]. split; [reflexivity|]. intros k w Hw. left. exact Hw.
    + intros H. apply bind_ok in H. destruct H as ([k o1] & H1 & H).
      apply utf8_string_inv in H1. destruct H1 as (ks & post0 & E & Bk & Uk & ->). rewrite E in *.
      rewrite app_assoc in H. apply bind_ok in H. destruct H as ([v o2] & H2 & H).
      apply IHv in H2. destruct H2 as (s1 & post & -> & -> & Bv & Lv & Gv).
      rewrite app_assoc in H. apply IHe in H.
      destruct H as (s2 & post' & es & -> & -> & Be & Sm & G).
      exists (ks ++ s1 ++ s2), post', ((k, strip v) :: es). rewrite <- !app_assoc in *.
      split; [reflexivity|]. split; [reflexivity|]. split; [|split].
      * constructor; auto.
      * rewrite Sm. unfold map_fold. cbn [fold_left fst snd]. rewrite strip_insert. reflexivity.
      * intros k' w Hw. destruct (G k' w Hw) as [I|Gw].
        -- apply insert_in in I. destruct I as [[-> ->]|I]; [right|left; auto].
           eapply good_weaken; [exact Gv | | ]; rewrite !app_length; lia.
        -- right. eapply good_weaken; [exact Gw | | ]; rewrite !app_length; lia.
Qed.
