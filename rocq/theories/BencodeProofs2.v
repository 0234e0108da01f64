(** Bencode: completeness, totality, canonical encoding. *)
From Verif Require Import Base BaseProofs BencodeModel BencodeSpec BencodeProofs.
Ltac Zify.zify_post_hook ::= Z.div_mod_to_equations.

Scheme ben_mut := Induction for ben Sort Prop
  with ben_items_mut := Induction for ben_items Sort Prop
  with ben_entries_mut := Induction for ben_entries Sort Prop.
Combined Scheme ben_mutind from ben_mut, ben_items_mut, ben_entries_mut.

Lemma no_digit_e post : no_digit ([101] ++ post).
Proof. reflexivity. Qed.
Lemma ben_nonempty s b : ben s b -> (0 < length s)%nat.
Proof. intros H. apply ben_first_not_e in H. destruct H as (c & t & -> & _). cbn. lia. Qed.
Lemma peek_first (pre s1 x : bytes) c t : s1 = c :: t -> peek (pre ++ s1 ++ x) (length pre) = Some c.
Proof. intros ->. unfold peek. cbn [app]. apply nth_at. Qed.
Lemma fits_mid (a b c : bytes) : fits (a ++ b ++ c) -> fits ((a ++ b) ++ c).
Proof. rewrite app_assoc. auto. Qed.

Lemma parse_complete :
  (forall s b, ben s b -> forall fuel pre post, (2 * length s <= fuel)%nat -> fits (pre ++ s ++ post) ->
     exists v, parse_value fuel (pre ++ s ++ post) (length pre) = Ok (v, length (pre ++ s)) /\ strip v = b) /\
  (forall s l, ben_items s l -> forall fuel pre post, (2 * length s + 1 <= fuel)%nat ->
     fits (pre ++ s ++ [101] ++ post) ->
     exists vs, parse_items fuel (pre ++ s ++ [101] ++ post) (length pre) =
                Ok (vs, length (pre ++ s ++ [101])) /\ map strip vs = l) /\
  (forall s es, ben_entries s es -> forall fuel pre post m, (2 * length s + 1 <= fuel)%nat ->
     fits (pre ++ s ++ [101] ++ post) ->
     exists m', parse_entries fuel (pre ++ s ++ [101] ++ post) (length pre) m =
                Ok (m', length (pre ++ s ++ [101])) /\ strip_map m' = map_fold es (strip_map m)).
Proof.
  apply ben_mutind.
  - intros ds n D fuel pre post L F. destruct fuel; [cbn in L; lia|].
    cbn [parse_value]. rewrite <- !app_assoc in *. cbn [app] in *. unfold peek. rewrite nth_at.
    change (105 =? 105) with true. cbn [andb]. unfold parse_integer.
    rewrite expect_ok. cbn [bind]. rewrite (snoc_assoc pre 105 (ds ++ 101 :: post)).
    rewrite (usize_ok (pre ++ [105]) ds (101 :: post) n D) by reflexivity. cbn [bind].
    rewrite app_assoc, expect_ok. cbn [bind].
    eexists. split; [rewrite <- !app_assoc; reflexivity|reflexivity].
  - intros s d B fuel pre post L F. destruct fuel.
    { apply bstring_not_e in B. destruct B as (c & t & -> & _). cbn in L. lia. }
    pose proof (bstring_first s d B) as Fs. destruct s as [|c s]; [easy|].
    cbn [parse_value]. unfold peek. cbn [app]. rewrite nth_at.
    replace (c =? 105) with false by lia. replace (c =? 108) with false by lia.
    replace (c =? 100) with false by lia. rewrite (proj2 (is_digit_spec c) Fs).
    change (c :: s ++ post) with ((c :: s) ++ post).
    rewrite (byte_string_ok _ _ _ _ B F). cbn [bind]. eexists. split; reflexivity.
  - intros s l Bi IH fuel pre post L F. destruct fuel; [cbn in L; lia|].
    rewrite !app_length in L. cbn [length] in L.
    cbn [parse_value]. rewrite <- !app_assoc in *. cbn [app] in *. unfold peek. rewrite nth_at.
    change (108 =? 105) with false. change (108 =? 108) with true. cbv iota.
    rewrite expect_ok. cbn [bind]. rewrite (snoc_assoc pre 108 (s ++ 101 :: post)) in *.
    destruct (IH fuel (pre ++ [108]) post) as (vs & E & <-); [lia | exact F |].
    cbn [app] in E. rewrite E. cbn [bind]. eexists.
    split; [rewrite <- !app_assoc; reflexivity|reflexivity].
  - intros s es m Be IH Hm fuel pre post L F. destruct fuel; [cbn in L; lia|].
    rewrite !app_length in L. cbn [length] in L.
    cbn [parse_value]. rewrite <- !app_assoc in *. cbn [app] in *. unfold peek. rewrite nth_at.
    change (100 =? 105) with false. change (100 =? 108) with false. change (100 =? 100) with true. cbv iota.
    rewrite expect_ok. cbn [bind]. rewrite (snoc_assoc pre 100 (s ++ 101 :: post)) in *.
    destruct (IH fuel (pre ++ [100]) post []) as (m' & E & Sm); [lia | exact F |].
    cbn [app] in E. rewrite E. cbn [bind]. eexists. split; [rewrite <- !app_assoc; reflexivity|].
    cbn [strip]. f_equal. apply map_of_fold in Hm. rewrite Hm. exact Sm.
  - intros fuel pre post L F. destruct fuel; [lia|]. cbn [parse_items app]. unfold peek. rewrite nth_at.
    change (101 =? 101) with true. cbv iota. rewrite advance_at. eexists. split; reflexivity.
  - intros s1 s2 b l B IH1 Bi IH2 fuel pre post L F. destruct fuel; [lia|].
    pose proof (ben_nonempty s1 b B) as NE.
    destruct (ben_first_not_e s1 b B) as (c & t & Es & Nc).
    rewrite app_length in L. rewrite <- !app_assoc in *.
    destruct (IH1 fuel pre (s2 ++ [101] ++ post)) as (v & Ev & <-); [lia | exact F |].
    destruct (IH2 fuel (pre ++ s1) post) as (vs & Ei & <-); [lia | rewrite <- app_assoc; exact F |].
    rewrite <- !app_assoc in Ei.
    cbn [parse_items]. rewrite (peek_first _ _ _ _ _ Es).
    replace (c =? 101) with false by lia. rewrite Ev. cbn [bind]. rewrite Ei. cbn [bind].
    eexists. split; [reflexivity|]. reflexivity.
  - intros fuel pre post m L F. destruct fuel; [lia|]. cbn [parse_entries app]. unfold peek. rewrite nth_at.
    change (101 =? 101) with true. cbv iota. rewrite advance_at. eexists. split; reflexivity.
  - intros ks k s1 s2 b es Bk Uk B IH1 Be IH2 fuel pre post m L F. destruct fuel; [lia|].
    pose proof (ben_nonempty s1 b B) as NE.
    destruct (bstring_not_e ks k Bk) as (c & t & Es & Nc).
    rewrite !app_length in L. rewrite <- !app_assoc in *.
    pose proof (utf8_string_ok pre ks k _ Bk Uk F) as Ek.
    destruct (IH1 fuel (pre ++ ks) (s2 ++ [101] ++ post)) as (v & Ev & <-); [lia | rewrite <- app_assoc; exact F |].
    rewrite <- !app_assoc in Ev.
    destruct (IH2 fuel (pre ++ ks ++ s1) post (map_insert k v m)) as (m' & Ei & Sm);
      [lia | rewrite <- !app_assoc; exact F |].
    rewrite <- !app_assoc in Ei.
    cbn [parse_entries]. rewrite (peek_first _ _ _ _ _ Es).
    replace (c =? 101) with false by lia. rewrite Ek. cbn [bind]. rewrite Ev. cbn [bind]. rewrite Ei.
    eexists. split; [reflexivity|]. rewrite Sm, strip_insert. reflexivity.
Qed.

(** ** Totality *)
Definition fine {A} (x : outcome perr A) : Prop := x <> Panic /\ x <> Err POutOfFuel.
Lemma fine_bind {A B} (x : outcome perr A) (f : A -> outcome perr B) :
  fine x -> (forall a, x = Ok a -> fine (f a)) -> fine (bind x f).
Proof.
  intros [X1 X2] F. destruct x as [a|e|]; cbn [bind].
  - apply F. reflexivity.
  - split; congruence.
  - congruence.
Qed.
Lemma fine_ok {A} (a : A) : fine (Ok a). Proof. split; discriminate. Qed.
Lemma parse_total fuel :
  (forall pre rest, (2 * length rest + 1 <= fuel)%nat -> fine (parse_value fuel (pre ++ rest) (length pre))) /\
  (forall pre rest, (2 * length rest + 2 <= fuel)%nat -> fine (parse_items fuel (pre ++ rest) (length pre))) /\
  (forall pre rest m, (2 * length rest + 2 <= fuel)%nat -> fine (parse_entries fuel (pre ++ rest) (length pre) m)).
Proof.
  induction fuel as [|fuel (IHv & IHi & IHe)]; [repeat split; intros; lia|].
  split; [|split].
  - intros pre rest L. cbn [parse_value]. unfold peek. destruct rest as [|b rest].
    { rewrite nth_at_end. split; discriminate. }
    rewrite nth_at. cbn [length] in L.
    destruct (b =? 105); [|destruct (b =? 108); [|destruct (b =? 100); [|destruct (is_digit b)]]].
    + apply fine_bind; [|intros [v e] _; apply fine_ok].
      unfold parse_integer. apply fine_bind; [apply expect_total|].
      intros o1 X. apply expect_inv in X. destruct X as (post & E & ->). injection E as <- ->.
      rewrite (snoc_assoc pre b). apply fine_bind; [apply usize_total|].
      intros [v o2] _. apply fine_bind; [apply expect_total|]. intros o3 _. apply fine_ok.
    + apply fine_bind; [apply expect_total|].
      intros o1 X. apply expect_inv in X. destruct X as (post & E & ->). injection E as <- ->.
      rewrite (snoc_assoc pre b). apply fine_bind; [apply IHi; lia|]. intros [v e] _. apply fine_ok.
    + apply fine_bind; [apply expect_total|].
      intros o1 X. apply expect_inv in X. destruct X as (post & E & ->). injection E as <- ->.
      rewrite (snoc_assoc pre b). apply fine_bind; [apply IHe; lia|]. intros [v e] _. apply fine_ok.
    + apply fine_bind; [apply byte_string_total|]. intros [v e] _. apply fine_ok.
    + split; discriminate.
  - intros pre rest L. cbn [parse_items]. unfold peek. destruct rest as [|b rest].
    { rewrite nth_at_end. split; discriminate. }
    rewrite nth_at. destruct (b =? 101); [apply fine_ok|].
    apply fine_bind; [apply IHv; lia|]. intros [v o1] H.
    apply (proj1 (parse_sound fuel)) in H. destruct H as (s & post & E & -> & Bv & _). rewrite E in *.
    apply ben_nonempty in Bv. rewrite app_length in L.
    rewrite app_assoc. apply fine_bind; [apply IHi; lia|]. intros [l o2] _. apply fine_ok.
  - intros pre rest m L. cbn [parse_entries]. unfold peek. destruct rest as [|b rest].
    { rewrite nth_at_end. split; discriminate. }
    rewrite nth_at. destruct (b =? 101); [apply fine_ok|].
    apply fine_bind; [apply utf8_string_total|]. intros [k o1] H.
    apply utf8_string_inv in H. destruct H as (ks & post & E & _ & _ & ->). rewrite E in *.
    rewrite app_length in L. rewrite app_assoc. apply fine_bind; [apply IHv; lia|]. intros [v o2] H.
    apply (proj1 (parse_sound fuel)) in H. destruct H as (s & post' & -> & -> & Bv & _).
    apply ben_nonempty in Bv. rewrite app_length in L.
    rewrite app_assoc. apply IHe. lia.
Qed.

(** ** The canonical encoding *)
Lemma dec_value_snoc ds c : dec_value (ds ++ [c]) = 10 * dec_value ds + (c - 48).
Proof. unfold dec_value. rewrite fold_left_app. reflexivity. Qed.
Lemma dec_digits_spec fuel n acc : n < 10 ^ N.of_nat fuel -> (0 < fuel)%nat ->
  exists ds, dec_digits fuel n acc = ds ++ acc /\ ds <> [] /\ Forall (fun c => 48 <= c <= 57) ds /\ dec_value ds = n.
Proof.
  revert n acc. induction fuel as [|fuel IH]; intros n acc L P; [lia|]. cbn [dec_digits].
  destruct (n <? 10) eqn:E.
  - exists [48 + n mod 10]. split; [reflexivity|]. split; [discriminate|]. split.
    + constructor; [lia|constructor].
    + unfold dec_value. cbn [fold_left]. lia.
  - assert (K : 10 ^ N.of_nat (S fuel) = 10 * 10 ^ N.of_nat fuel).
    { rewrite Nat2N.inj_succ, N.pow_succ_r'. reflexivity. }
    rewrite K in L. assert (F0 : (0 < fuel)%nat).
    { destruct fuel; [|lia]. change (10 ^ N.of_nat 0) with 1 in L. lia. }
    destruct (IH (n / 10) (48 + n mod 10 :: acc)) as (ds & -> & NE & D & V); auto.
    { apply N.div_lt_upper_bound; lia. }
    exists (ds ++ [48 + n mod 10]). rewrite <- app_assoc. split; [reflexivity|]. split.
    + destruct ds; discriminate.
    + split; [apply Forall_app; split; auto; constructor; [lia|constructor]|].
      rewrite dec_value_snoc, V. lia.
Qed.
Lemma dec_text_ok n : n < two64 -> decimal (dec_text n) n.
Proof.
  intros L. unfold dec_text. destruct (dec_digits_spec 20 n []) as (ds & -> & NE & D & V).
  - change (10 ^ N.of_nat 20) with 100000000000000000000. unfold two64 in L. lia.
  - lia.
  - rewrite app_nil_r. repeat split; auto.
Qed.
Lemma bstring_text_ok d : fits d -> bstring (bstring_text d) d.
Proof. intros F. exists (dec_text (blen d)). split; [apply dec_text_ok; auto | reflexivity]. Qed.
Lemma sorted_is_map {A} (m : list (bytes * A)) : key_sorted m -> is_map_of m m.
Proof.
  intros S. split; auto. intros k b. split.
  - intros I. apply in_split in I. destruct I as (m1 & m2 & ->). exists m1, m2. split; auto.
    intros H. apply in_map_iff in H. destruct H as ([k' b'] & E & I). cbn [fst] in E. subst k'.
    induction m1 as [|[k1 b1] m1 IH]; cbn [app] in S; inversion S; subst; auto.
    pose proof (H1 _ _ I) as C. rewrite bytes_ltb_irrefl in C. discriminate.
  - intros (m1 & m2 & -> & _). apply in_or_app. right. left. auto.
Qed.
Fixpoint bval_size (b : bval) : nat :=
  match b with
  | BBytes _ | BInt _ => 1
  | BList l => S (fold_right Nat.add 0%nat (map bval_size l))
  | BDict m => S (fold_right Nat.add 0%nat (map (fun e => bval_size (snd e)) m))
  end.
Lemma ben_text_ok n : forall b, (bval_size b <= n)%nat -> bval_ok b -> ben (ben_text b) b.
Proof.
  induction n as [|n IH]; intros b L O; [destruct b; cbn in L; lia|].
  destruct b as [d|k|l|m]; cbn [ben_text bval_ok bval_size] in *.
  - constructor. apply bstring_text_ok. auto.
  - constructor. apply dec_text_ok. auto.
  - constructor. induction l as [|x l IHl]; cbn [map concat fold_right] in *; [constructor|].
    constructor; [apply IH; [lia|tauto] | apply IHl; [lia|tauto]].
  - destruct O as [S O]. apply ben_dict with (es := m); [|apply sorted_is_map; auto]. clear S.
    induction m as [|[k x] m IHm]; cbn [map concat fold_right fst snd] in *; [constructor|].
    rewrite <- app_assoc. destruct O as [(O1 & O2 & O3) O4].
    constructor; [apply bstring_text_ok; auto | auto | apply IH; [lia|auto] | apply IHm; [lia|auto]].
Qed.
