(** The bencode parser: C28-C30. *)
From Verif Require Import Base BaseProofs BencodeModel BencodeSpec BencodeProofs BencodeProofs2.
Ltac Zify.zify_post_hook ::= Z.div_mod_to_equations.

Lemma prefix_sound d v e : parse_prefix d = Ok (v, e) ->
  exists s post, d = s ++ post /\ e = length s /\ ben s (strip v) /\
    loc_of v = mkloc 0 (length s) /\ good d 0 (length s) v.
Proof.
  unfold parse_prefix. intros H. apply (proj1 (parse_sound _) []) in H. cbn [app length] in H.
  destruct H as (s & post & -> & -> & B & L & G). exists s, post. auto 10.
Qed.
Lemma parse_inv d v : parse d = Ok v -> exists e, parse_prefix d = Ok (v, e).
Proof.
  unfold parse. intros H. apply bind_ok in H. destruct H as ([v' e] & H & E). injection E as <-. eauto.
Qed.
Lemma prefix_complete s post b : ben s b -> fits (s ++ post) ->
  exists v, parse_prefix (s ++ post) = Ok (v, length s) /\ strip v = b.
Proof.
  intros B F. unfold parse_prefix.
  destruct (proj1 parse_complete s b B (fuel_for (s ++ post)) [] post) as (v & E & S); auto.
  - unfold fuel_for. rewrite app_length. lia.
  - exists v. auto.
Qed.
Lemma good_sub d lo hi v w : good d lo hi v -> subvalue w v ->
  ben (slice d (loc_of w)) (strip w) /\ inside (loc_of w) {| l_start := lo; l_end := hi |} /\
  inside (loc_of w) (loc_of v).
Proof.
  intros G S. revert lo hi G. induction S as [v|u w v S IH C]; intros lo hi [G1 G2 G3 G4].
  - unfold inside; cbn [l_start l_end]. split; auto. lia.
  - destruct (IH _ _ (G4 w C)) as (B & I & I2). split; auto. unfold inside in *. cbn [l_start l_end] in *. lia.
Qed.

(** ** C28 *)
(** The bytes at the recorded location of a value, at any depth, are a bencoding of that
    value, and parsing them on their own gives the value and consumes them all. *)
Theorem C28_locations_identify_values : forall (d : bytes) (v w : value),
  fits d -> parse d = Ok v -> subvalue w v ->
  ben (slice d (loc_of w)) (strip w) /\
  exists w', parse_prefix (slice d (loc_of w)) = Ok (w', length (slice d (loc_of w))) /\ strip w' = strip w.
Proof.
  intros d v w F P S. apply parse_inv in P. destruct P as [e P]. apply prefix_sound in P.
  destruct P as (s & post & -> & _ & _ & _ & G). destruct (good_sub _ _ _ _ _ G S) as (B & _).
  split; [exact B|].
  pose proof (prefix_complete (slice (s ++ post) (loc_of w)) [] (strip w) B) as C.
  rewrite app_nil_r in C. apply C. unfold fits, blen, slice in *.
  rewrite firstn_length, skipn_length. lia.
Qed.
Print Assumptions C28_locations_identify_values.

(** ** C29 *)
(** The parser accepts exactly the inputs that begin with a text of the grammar, and
    returns the value of that text. *)
Theorem C29_parser_accepts_exactly_the_grammar : forall (d : bytes) (b : bval),
  fits d ->
  ((exists v, parse d = Ok v /\ strip v = b) <-> exists s post, d = s ++ post /\ ben s b).
Proof.
  intros d b F. split.
  - intros (v & P & <-). apply parse_inv in P. destruct P as [e P]. apply prefix_sound in P.
    destruct P as (s & post & -> & _ & B & _). eauto.
  - intros (s & post & -> & B). destruct (prefix_complete s post b B F) as (v & E & S).
    exists v. unfold parse. rewrite E. auto.
Qed.
Print Assumptions C29_parser_accepts_exactly_the_grammar.
(** The canonical encoding of any value, whatever follows it, parses to that value and is
    consumed exactly. *)
Theorem C29_round_trip : forall (b : bval) (post : bytes),
  bval_ok b -> fits (ben_text b ++ post) ->
  exists v, parse_prefix (ben_text b ++ post) = Ok (v, length (ben_text b)) /\
            parse (ben_text b ++ post) = Ok v /\ strip v = b.
Proof.
  intros b post O F. pose proof (ben_text_ok (bval_size b) b (le_n _) O) as B.
  destruct (prefix_complete _ post b B F) as (v & E & S). exists v.
  unfold parse. rewrite E. auto.
Qed.
Print Assumptions C29_round_trip.
(** The grammar is unambiguous: a text is at most one value, and no accepted text is a
    proper prefix of another. *)
Theorem C29_grammar_unambiguous : forall s1 s2 p1 p2 b1 b2,
  ben s1 b1 -> ben s2 b2 -> fits (s1 ++ p1) -> s1 ++ p1 = s2 ++ p2 -> s1 = s2 /\ b1 = b2.
Proof.
  intros s1 s2 p1 p2 b1 b2 B1 B2 F E.
  destruct (prefix_complete s1 p1 b1 B1 F) as (v1 & E1 & S1).
  rewrite E in F. destruct (prefix_complete s2 p2 b2 B2 F) as (v2 & E2 & S2).
  rewrite E, E2 in E1. injection E1 as -> L. split; [|congruence].
  apply (f_equal (firstn (length s1))) in E. rewrite firstn_app_length in E.
  rewrite <- L, firstn_app_length in E. auto.
Qed.
Print Assumptions C29_grammar_unambiguous.

(** ** C30 *)
(** On every byte string the parser stops with a value or one of its errors. *)
Theorem C30_parser_total : forall d : bytes, parse d <> Panic /\ parse d <> Err POutOfFuel.
Proof.
  intros d. unfold parse, parse_prefix.
  destruct (proj1 (parse_total (fuel_for d)) [] d) as [P1 P2]; [unfold fuel_for; lia|].
  cbn [app length] in *. destruct (parse_value (fuel_for d) d 0) as [[v e]|e|]; cbn [bind]; split; congruence.
Qed.
Print Assumptions C30_parser_total.
(** Locations are inside the input and inside the location of the enclosing value. *)
Theorem C30_locations_nested : forall (d : bytes) (v w u : value),
  parse d = Ok v -> subvalue w v -> subvalue u w ->
  inside (loc_of w) {| l_start := 0; l_end := length d |} /\ inside (loc_of u) (loc_of w).
Proof.
  intros d v w u P S1 S2. apply parse_inv in P. destruct P as [e P]. apply prefix_sound in P.
  destruct P as (s & post & -> & _ & _ & _ & G).
  assert (Gw : exists lo hi, good (s ++ post) lo hi w).
  { clear S2. revert G. generalize 0%nat (length s). induction S1 as [v|u' w v S IH C]; intros lo hi G; eauto.
    destruct G as [G1 G2 G3 G4]. apply (IH _ _ (G4 w C)). }
  destruct Gw as (lo & hi & Gw). destruct (good_sub _ _ _ _ _ G S1) as (_ & I & _).
  destruct (good_sub _ _ _ _ _ Gw S2) as (_ & _ & I2). split; auto.
  unfold inside in *. cbn [l_start l_end] in *. rewrite app_length. lia.
Qed.
Print Assumptions C30_locations_nested.

(** A dictionary holding an integer, a byte string and a list, with trailing bytes; the
    duplicate key keeps its last value. *)
Example C29_example :
  let d := ascii_bytes "d1:bi07e1:ali1e3:abcd2:xyi0eee1:bi42eeTAIL" in
  match parse d with
  | Ok v =>
    strip v = BDict [(ascii_bytes "a", BList [BInt 1; BBytes (ascii_bytes "abc");
                       BDict [(ascii_bytes "xy", BInt 0)]]); (ascii_bytes "b", BInt 42)] /\
    slice d (loc_of v) = ascii_bytes "d1:bi07e1:ali1e3:abcd2:xyi0eee1:bi42ee" /\
    (exists w, subvalue w v /\ slice d (loc_of w) = ascii_bytes "d2:xyi0ee")
  | _ => False
  end.
Proof.
  vm_compute. split; [reflexivity|]. split; [reflexivity|].
  eexists. split; [|].
  2:{ instantiate (1 := VDict {| l_start := 20; l_end := 29 |} [([120; 121], VInt {| l_start := 25; l_end := 28 |} 0)]).
      vm_compute. reflexivity. }
  eapply sub_step; [eapply sub_step; [apply sub_refl|]|].
  2:{ exists [97]. left. reflexivity. }
  cbn [child]. right. right. left. reflexivity.
Qed.
Example C30_example :
  parse (ascii_bytes "l18446744073709551616:x") = Err (PBadInteger 1) /\
  parse (ascii_bytes "18446744073709551615:x") = Err (PIntegerOverflow 21) /\
  parse (ascii_bytes "5:abc") = Err (PBeyondEnd 2) /\ parse (ascii_bytes "i-3e") = Err (PExpectedDigit 1).
Proof. repeat split; vm_compute; reflexivity. Qed.
