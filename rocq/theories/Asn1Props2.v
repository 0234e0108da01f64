(** The language of the ASN.1 reader: C90, C91. *)
From Verif Require Import Base BaseProofs BinaryModel BinarySpec BinaryProofs BinaryProofs2 Asn1Model Asn1Spec Asn1Proofs Asn1Proofs2 Asn1Grammar Asn1Proofs3 X509Model.

(** *** C90 *)
(** Whatever the reader accepts, anywhere in any bytes, is an item of the grammar with the
    meaning the grammar gives it, and the reader stops right behind it. *)
Theorem C90_only_the_grammar pre rest i r' : bytes_ok rest -> read_der (at_pos pre rest) = (Ok i, r') ->
  exists s post, rest = s ++ post /\ r' = at_pos (pre ++ s) post /\ der s (erase i).
Proof. intros B. unfold read_der. rewrite remaining_at. apply read_item_sound; [lia|exact B]. Qed.
Print Assumptions C90_only_the_grammar.
(** And every item of the grammar is accepted. *)
Theorem C90_all_of_the_grammar pre s post j : bytes_ok s -> fits (pre ++ s ++ post) -> der s j ->
  exists i, read_der (at_pos pre (s ++ post)) = (Ok i, at_pos (pre ++ s) post) /\ erase i = j.
Proof. intros B F D. unfold read_der. rewrite remaining_at. apply (proj1 read_complete s j D B); [rewrite app_length; lia|exact F]. Qed.
Print Assumptions C90_all_of_the_grammar.
(** So bytes begin with at most one item, and it has one meaning. *)
Theorem C90_unambiguous s j s' j' post post' : bytes_ok (s ++ post) -> fits (s ++ post) -> der s j -> der s' j' -> s ++ post = s' ++ post' -> s = s' /\ j = j'.
Proof.
  intros B F D D' E. pose proof B as B'. rewrite E in B'. apply bytes_ok_app in B. apply bytes_ok_app in B'.
  destruct (C90_all_of_the_grammar [] s post j (proj1 B) F D) as (i & R & <-).
  pose proof F as F'. rewrite E in F'. destruct (C90_all_of_the_grammar [] s' post' j' (proj1 B') F' D') as (i' & R' & <-).
  rewrite E in R. rewrite R in R'. assert (X : i = i') by congruence. assert (Y : at_pos ([] ++ s) post = at_pos ([] ++ s') post') by congruence.
  unfold at_pos in Y. cbn [app] in Y. apply (f_equal r_off) in Y. cbn [r_off] in Y. subst i'. split; [|reflexivity].
  apply (f_equal (firstn (length s))) in E. rewrite firstn_app_length, Y, firstn_app_length in E. exact E.
Qed.
Print Assumptions C90_unambiguous.
(** Strictness that follows: a Boolean is one byte, 0 or 255; a null is empty; a sequence or
    set is filled by its items; text is UTF-8. *)
Theorem C90_strict d i r' : bytes_ok d -> read_der (new_reader d) = (Ok i, r') ->
  match item_value i with
  | VBoolean b => exists len, length_form len 1 /\ firstn (S (S (length len))) d = 1 :: len ++ [if b then 255 else 0]
  | VNull => exists len, length_form len 0 /\ firstn (S (length len)) d = 5 :: len
  | VPrintableString s | VUtf8String s | VUtcTime s | VGeneralizedTime s => utf8_valid s = true
  | _ => True
  end.
Proof.
  intros B H. change (new_reader d) with (at_pos [] d) in H. destruct (C90_only_the_grammar _ _ _ _ B H) as (s & post & -> & _ & D). clear B H.
  destruct i as [st e v]. cbn [item_value]. inversion D as [first len c w L Hd E1 E2]. subst s. clear D. cbn [erase] in E2. assert (E : w = match v with
     | VSequence l => VSequence (map erase l) | VSet l => VSet (map erase l) | VApplication t i => VApplication t (erase i)
     | VContextSpecific t i => VContextSpecific t (erase i) | VPrivate t i => VPrivate t (erase i) | v => v end) by congruence. clear E2.
  assert (T : forall k t j w, tagged k t j = w -> match w with VApplication _ _ | VContextSpecific _ _ | VPrivate _ _ => True | _ => False end) by (intros [] ? ? ? <-; exact I).
  destruct v; try exact I; subst w; inversion Hd; subst; try assumption;
    try (match goal with H : tagged _ _ _ = _ |- _ => destruct (T _ _ _ _ H) end).
  - exists len. split; [exact L|]. replace (S (S (length len))) with (length (1 :: len ++ [0])) by (cbn [length]; rewrite app_length; cbn [length]; lia). apply firstn_app_length.
  - exists len. split; [exact L|]. replace (S (S (length len))) with (length (1 :: len ++ [255])) by (cbn [length]; rewrite app_length; cbn [length]; lia). apply firstn_app_length.
  - exists len. split; [exact L|]. rewrite app_nil_r. change (S (length len)) with (length (5 :: len)). apply firstn_app_length.
Qed.
Print Assumptions C90_strict.
(** DER allows one encoding for each value; the reader also takes others: a length that is not
    the shortest, bytes behind the item in a tagged value, padded arcs. *)
Theorem C90_canonical_refuted :
  (exists s s' j, s <> s' /\ der s j /\ der s' j) /\
  (forall c tag s j junk len, c <> CUniversal -> tag <= 30 -> der s j -> length_form len (blen (s ++ junk)) ->
     der ((64 * class_no c + 32 + tag) :: len ++ s ++ junk) (Item 0 0 (tagged c tag j))).
Proof.
  split.
  - exists [2; 1; 7], [2; 130; 0; 1; 7], (Item 0 0 (VInteger [7])). split; [discriminate|]. split.
    + apply (der_item 2 [1] [7]); [left; split; [reflexivity|vm_compute; reflexivity]|constructor].
    + apply (der_item 2 [130; 0; 1] [7]); [right; exists [0; 1]; split; [reflexivity|]; split; [split; vm_compute; discriminate|reflexivity]|constructor].
  - intros. constructor; [assumption|]. constructor; assumption.
Qed.
Print Assumptions C90_canonical_refuted.
(** A sequence of a Boolean, a tagged null with a byte behind it, and a string of another
    type; then what is refused: a Boolean of 1, a null with a byte, a constructed integer, a
    primitive sequence, a tag of 31, text that is not UTF-8, a length beyond the end. *)
Example C90_cases :
  read_der (new_reader [48; 10; 1; 1; 255; 161; 3; 5; 0; 9; 22; 0; 77]) =
    (Ok (Item 0 12 (VSequence [Item 2 5 (VBoolean true); Item 5 10 (VContextSpecific 1 (Item 7 9 VNull)); Item 10 12 (VUnknown {| id_class := CUniversal; id_form := FPrimitive; id_tag := 22 |} 0)])),
     {| r_buf := [48; 10; 1; 1; 255; 161; 3; 5; 0; 9; 22; 0; 77]; r_off := 12 |}) /\
  Forall (fun d => match fst (read_der (new_reader d)) with Err _ => True | _ => False end)
    [[1; 1; 1]; [5; 1; 0]; [34; 1; 7]; [16; 0]; [31; 0]; [12; 1; 255]; [4; 3; 1; 2]; [1; 2; 0; 0]; [128; 128]; []].
Proof. split; [vm_compute; reflexivity|]. repeat constructor. Qed.

(** *** C91 *)
(** An object identifier is read as the arcs its bytes spell, provided each number is below
    2^64. *)
Theorem C91_faithful_partial pre len d ps post : bytes_ok (len ++ d) -> fits (pre ++ 6 :: len ++ d ++ post) -> length_form len (blen d) ->
  d = concat ps -> Forall arc_form ps -> Forall (fun s => base128 s < two64) ps ->
  exists i, fst (read_der (at_pos pre (6 :: len ++ d ++ post))) = Ok i /\
    item_value i = VOid (match map base128 ps with [] => [] | p :: t => p / 40 :: p mod 40 :: t end).
Proof.
  intros B F L -> A V. assert (P : parts_form (concat ps) (map base128 ps)).
  { clear - A V. induction ps as [|s ps IH]; [constructor|]. inversion A; inversion V; subst. cbn [concat map]. rewrite <- (N.mod_small (base128 s) two64) by assumption. constructor; auto. }
  assert (B' : bytes_ok (6 :: len ++ concat ps)) by (constructor; [change (6 < 256); lia|exact B]).
  destruct (C90_all_of_the_grammar pre (6 :: len ++ concat ps) post (Item 0 0 (VOid (split_first (map base128 ps)))) B') as (i & R & E).
  - cbn [app]. rewrite <- app_assoc. exact F.
  - constructor; [exact L|]. constructor. exact P.
  - exists i. cbn [app] in R. rewrite <- app_assoc in R. rewrite R. split; [reflexivity|]. destruct i as [a b v]. cbn [item_value]. cbn [erase] in E.
    destruct v; try discriminate E. assert (VOid arcs = VOid (split_first (map base128 ps))) by congruence. exact H.
Qed.
Print Assumptions C91_faithful_partial.
(** Beyond that the number is cut to 64 bits without an error: two different object identifiers
    are read as the same one.  Here 1.3.101.(2^64+112) is taken for Ed25519. *)
Theorem C91_confused_refuted : exists d a b,
  fst (read_der (new_reader d)) = Ok (Item 0 (length d) (VOid CRYPTO_ED25519)) /\
  d = [6; blen (a ++ b)] ++ a ++ b /\ arc_form b /\ base128 b = two64 + 112 /\ base128 b <> nth 3 CRYPTO_ED25519 0.
Proof.
  exists [6; 12; 43; 101; 130; 128; 128; 128; 128; 128; 128; 128; 128; 112], [43; 101], [130; 128; 128; 128; 128; 128; 128; 128; 128; 112].
  split; [vm_compute; reflexivity|]. split; [reflexivity|]. split; [|split; [vm_compute; reflexivity|vm_compute; discriminate]].
  exists [130; 128; 128; 128; 128; 128; 128; 128; 128], 112. split; [reflexivity|]. split; [repeat constructor; lia|lia].
Qed.
Print Assumptions C91_confused_refuted.
(** In general: adding any multiple of 2^64 to a number changes nothing. *)
Theorem C91_cut s s' d l : arc_form s -> arc_form s' -> base128 s mod two64 = base128 s' mod two64 -> parts_form d l ->
  parts_form (s ++ d) (base128 s mod two64 :: l) /\ parts_form (s' ++ d) (base128 s mod two64 :: l).
Proof. intros A A' E P. split; [constructor; assumption|]. rewrite E. constructor; assumption. Qed.
Print Assumptions C91_cut.
Example C91_case : base128 [134; 247; 13] = 113549 /\
  fst (read_der (new_reader [6; 9; 42; 134; 72; 134; 247; 13; 1; 1; 11])) = Ok (Item 0 11 (VOid [1; 2; 840; 113549; 1; 1; 11])).
Proof. split; vm_compute; reflexivity. Qed.
