(** ASN.1 DER: C46, C47, C48, C49. *)
From Verif Require Import Base BaseProofs BinaryModel BinarySpec BinaryProofs BinaryProofs2 Asn1Model Asn1Spec Asn1Proofs Asn1Proofs2.

(** A sequence holding one of everything, with a content of more than 127 bytes, a tagged
    value and an object identifier with a large arc. *)
Definition sample_tree : item :=
  Item 0 0 (VSequence [
    Item 0 0 (VInteger [0; 200; 1]);
    Item 0 0 (VOid [1; 2; 840; 113549; 1; 1; 11]);
    Item 0 0 (VBoolean false); Item 0 0 VNull;
    Item 0 0 (VContextSpecific 3 (Item 0 0 (VSet [Item 0 0 (VUtf8String (ascii_bytes "caf")); Item 0 0 (VBitString 4 [240])])));
    Item 0 0 (VOctetString (repeat 7 200))]).

(** *** C46 *)
Lemma erase_not_true : forall i, every not_true i -> drop_true i = i.
Proof.
  induction i as [s e v IH] using item_ind'. intros H. destruct H as [N H]. cbn [drop_true]. f_equal.
  destruct v; auto; cbn [children] in IH.
  - destruct b; [destruct (N eq_refl)|reflexivity].
  - f_equal. change (every_list not_true l) in H. rewrite every_list_Forall in H. rewrite <- (map_id l) at 2. apply map_ext_in. intros j J. rewrite Forall_forall in *. auto.
  - f_equal. change (every_list not_true l) in H. rewrite every_list_Forall in H. rewrite <- (map_id l) at 2. apply map_ext_in. intros j J. rewrite Forall_forall in *. auto.
  - f_equal. auto.
  - f_equal. auto.
  - f_equal. auto.
Qed.
(** What the reader makes of the writer's output, exactly: the same tree except that every
    Boolean is false; the rest of the input is left untouched. *)
Theorem C46_written_then_read i d pre post : encode_item i = Ok d -> every node_ok i -> blen d < two32 -> fits (pre ++ d ++ post) ->
  exists j, read_der (at_pos pre (d ++ post)) = (Ok j, at_pos (pre ++ d) post) /\ erase j = erase (drop_true i) /\
    item_start j = length pre /\ item_stop j = length (pre ++ d).
Proof.
  intros E O L F. destruct (reads_back_all i d E O L) as (_ & H). unfold read_der. rewrite remaining_at.
  apply (H (S (length (d ++ post))) pre post); [rewrite app_length; lia|exact F].
Qed.
Print Assumptions C46_written_then_read.
(** The full round trip, for trees without a true Boolean. *)
Theorem C46_round_trip_partial i d pre post : encode_item i = Ok d -> every node_ok i -> every not_true i -> blen d < two32 -> fits (pre ++ d ++ post) ->
  exists j, read_der (at_pos pre (d ++ post)) = (Ok j, at_pos (pre ++ d) post) /\ erase j = erase i.
Proof.
  intros E O N L F. destruct (C46_written_then_read i d pre post E O L F) as (j & R & J & _). exists j. rewrite (erase_not_true i N) in J. auto.
Qed.
Print Assumptions C46_round_trip_partial.
Example C46_sample : exists d, encode_item sample_tree = Ok d /\ firstn 4 d = [48; 129; 237; 2] /\
  exists j, fst (read_der (new_reader (d ++ [99]))) = Ok j /\ erase j = erase sample_tree.
Proof. eexists. split; [vm_compute; reflexivity|]. split; [reflexivity|]. eexists. split; vm_compute; reflexivity. Qed.
(** The full statement is false: a true Boolean is written as false. *)
Theorem C46_true_refuted : exists i d j, encode_item i = Ok d /\ every node_ok i /\ fst (read_der (new_reader d)) = Ok j /\ erase j <> erase i.
Proof.
  exists (Item 0 0 (VBoolean true)), [1; 1; 0], (Item 0 3 (VBoolean false)). split; [reflexivity|]. split; [split; exact I|]. split; [reflexivity|discriminate].
Qed.
Print Assumptions C46_true_refuted.
(** A tree is written exactly when it has no tag above 30, no value of unknown kind, and no
    object identifier whose first two arcs, as one number, need more than 64 bits. *)
Theorem C46_writer_refusals i : (exists d, encode_item i = Ok d) <-> every writable i.
Proof.
  induction i as [s e v IH] using item_ind'.
  assert (LIST : forall c tag l, tag <= 30 -> Forall (fun i => (exists d, encode_item i = Ok d) <-> every writable i) l ->
     ((exists d, (let? d := encode_list l in encode_raw c FConstructed tag d) = Ok d) <-> every_list writable l)).
  { intros c tag l T F.
    assert (X : (exists d, encode_list l = Ok d) <-> every_list writable l).
    { induction F as [|j l J F IHl]; [split; [reflexivity|exists []; reflexivity]|]. cbn [encode_list every_list]. rewrite <- J, <- IHl.
      split.
      - intros (d & H). apply bind_ok in H. destruct H as (a & Ea & H). apply bind_ok in H. destruct H as (b & Eb & H). split; [exists a|exists b]; assumption.
      - intros ((a & Ea) & (b & Eb)). rewrite Ea, Eb. eexists. reflexivity. }
    rewrite <- X. split.
    - intros (d & H). apply bind_ok in H. destruct H as (a & Ea & H). exists a. exact Ea.
    - intros (a & Ea). rewrite Ea. cbn [bind]. rewrite encode_raw_ok by exact T. eexists. reflexivity. }
  assert (TAG : forall c tag j, ((exists d, encode_item j = Ok d) <-> every writable j) ->
     ((exists d, (let? d := encode_item j in encode_raw c FConstructed tag d) = Ok d) <-> (tag <= 30 /\ every writable j))).
  { intros c tag j J. rewrite <- J. split.
    - intros (d & H). apply bind_ok in H. destruct H as (a & Ea & H). split; [|exists a; exact Ea]. unfold encode_raw, encode_identifier in H.
      destruct (30 <? tag) eqn:E; [discriminate|lia].
    - intros (T & a & Ea). rewrite Ea. cbn [bind]. rewrite encode_raw_ok by exact T. eexists. reflexivity. }
  destruct v; cbn [children] in IH; try (split; [intros _; split; exact I|intros _; eexists; cbn [encode_item]; apply encode_raw_ok; lia]).
  - cbn [encode_item every writable]. destruct arcs as [|a [|b t]]; [split; [intros _; split; exact I|intros _; eexists; apply encode_raw_ok; lia]|split; [intros _; split; exact I|intros _; eexists; apply encode_raw_ok; lia]|].
    unfold arcs_overflow. destruct (N.leb_spec two64 (a * 40 + b)) as [O|O].
    + split; [intros (d & H); discriminate H|intros [H _]; lia].
    + split; [intros _; split; [exact O|exact I]|intros _; eexists; apply encode_raw_ok; lia].
  - specialize (LIST CUniversal 16 l ltac:(lia) IH). split; [intros H; split; [exact I|]; apply LIST; exact H|intros [_ H]; apply LIST; exact H].
  - specialize (LIST CUniversal 17 l ltac:(lia) IH). split; [intros H; split; [exact I|]; apply LIST; exact H|intros [_ H]; apply LIST; exact H].
  - apply TAG. exact IH.
  - apply TAG. exact IH.
  - apply TAG. exact IH.
  - split; [intros (d & H); discriminate|intros [[] _]].
Qed.
Print Assumptions C46_writer_refusals.
Example C46_refused : encode_item (Item 0 0 (VSequence [Item 0 0 (VPrivate 31 (Item 0 0 VNull))])) = Err WInvalidData
  /\ encode_item (Item 0 0 (VSequence [Item 0 0 (VPrivate 30 (Item 0 0 VNull))])) = Ok [48; 4; 254; 2; 5; 0]
  /\ encode_item (Item 0 0 (VOid [18446744073709551615; 1])) = Panic.
Proof. split; [reflexivity|]. split; reflexivity. Qed.

(** *** C47 *)
(** The written form is the shortest: one byte below 128, otherwise as many length bytes as
    the number needs in base 256. *)
Theorem C47_minimal n : n < two64 ->
  (n < 128 /\ encode_length n = [n]) \/
  (128 <= n /\ exists k, encode_length n = 128 + N.of_nat k :: be_bytes k n /\ 256 ^ N.of_nat k <= 256 * n /\ n < 256 ^ N.of_nat k).
Proof.
  intros B. destruct (encode_length_spec n B) as [H|(L & k & K & K1 & K2 & E)]; [left; exact H|right]. split; [exact L|]. exists k. auto.
Qed.
Print Assumptions C47_minimal.
Theorem C47_read_back n pre post : n < two32 -> fits (pre ++ encode_length n ++ post) ->
  read_length (at_pos pre (encode_length n ++ post)) = (Ok n, at_pos (pre ++ encode_length n) post).
Proof. intros B F. destruct (encode_length_form n B) as (L & O & _). apply length_form_read; assumption. Qed.
Print Assumptions C47_read_back.
(** Which bytes are a length for the reader: exactly the short form and the long form with
    one to four octets; the indefinite form (128), longer forms and cut input are errors.  The
    long form need not be minimal. *)
Theorem C47_read_exact l n : bytes_ok l -> fits l ->
  (fst (read_length (new_reader l)) = Ok n <-> exists s rest, l = s ++ rest /\ length_form s n).
Proof.
  intros O F. split.
  - destruct (read_length (new_reader l)) as [x r'] eqn:E. change (new_reader l) with (at_pos [] l) in E. destruct (read_length_inv _ _ _ _ E O) as (_ & s & post & -> & _ & Q).
    cbn [fst]. intros ->. exists s, post. auto.
  - intros (s & rest & -> & L). apply bytes_ok_app in O. destruct O as [O _]. change (new_reader (s ++ rest)) with (at_pos [] (s ++ rest)).
    rewrite (length_form_read s n [] rest L O F). reflexivity.
Qed.
Print Assumptions C47_read_exact.
Theorem C47_no_panic l : bytes_ok l -> fst (read_length (new_reader l)) <> Panic.
Proof. intros O. destruct (read_length (new_reader l)) as [x r'] eqn:E. exact (proj1 (read_length_inv [] l _ _ E O)). Qed.
Print Assumptions C47_no_panic.
(** Lengths of 2^32 and more are written but not read. *)
Theorem C47_long_rejected n rest : two32 <= n -> n < two64 -> bytes_ok rest -> fits (encode_length n ++ rest) ->
  exists e, fst (read_length (new_reader (encode_length n ++ rest))) = Err e.
Proof.
  intros A B O F. destruct (encode_length_spec n B) as [[L _]|(L & k & K & K1 & K2 & E)]; [unfold two32 in A; lia|].
  assert (O' : bytes_ok (encode_length n ++ rest)).
  { rewrite E. apply bytes_ok_app. split; [|exact O]. constructor; [change (128 + N.of_nat k < 256); lia|apply be_bytes_ok]. }
  pose proof (C47_no_panic _ O') as P. destruct (fst (read_length (new_reader (encode_length n ++ rest)))) as [m|e|] eqn:X; [|exists e; reflexivity|contradiction].
  exfalso. apply C47_read_exact in X; [|exact O'|exact F]. destruct X as (s & r & H & LF). rewrite E in H. destruct LF as [[-> S]|(d & -> & S & _)].
  - apply (f_equal (hd 0)) in H. cbn [app hd] in H. lia.
  - apply (f_equal (hd 0)) in H. cbn [app hd] in H. assert (K4 : (4 < k)%nat).
    { destruct (Nat.leb_spec k 4) as [K4|K4]; [exfalso|lia]. unfold two32 in A. assert (256 ^ N.of_nat k <= 256 ^ 4) by (apply N.pow_le_mono_r; lia). change (256 ^ 4) with 4294967296 in *. lia. }
    lia.
Qed.
Print Assumptions C47_long_rejected.
Example C47_cases : encode_length 127 = [127] /\ encode_length 128 = [129; 128] /\ encode_length 65536 = [131; 1; 0; 0] /\
  encode_length 4294967296 = [133; 1; 0; 0; 0; 0] /\
  fst (read_length (new_reader [131; 1; 0; 0; 9])) = Ok 65536 /\ fst (read_length (new_reader [130; 0; 5])) = Ok 5 /\
  fst (read_length (new_reader [128])) <> Ok 0 /\ (exists e, fst (read_length (new_reader [133; 1; 0; 0; 0; 0])) = Err e).
Proof. repeat (split; [vm_compute; try reflexivity; discriminate|]). eexists. vm_compute. reflexivity. Qed.

(** *** C48 *)
(** Reading any bytes anywhere ends without panic; on success the item's range is exactly the
    bytes consumed, and (in [well_placed]) each child's range is inside its parent's, the
    children of a list tile the parent's contents without gap or overlap. *)
Theorem C48_total_and_nested pre rest : bytes_ok rest ->
  (exists e, fst (read_der (at_pos pre rest)) = Err e) \/
  (exists i s post, rest = s ++ post /\ read_der (at_pos pre rest) = (Ok i, at_pos (pre ++ s) post) /\
     item_start i = length pre /\ item_stop i = length (pre ++ s) /\ well_placed i).
Proof.
  intros B. unfold read_der. rewrite remaining_at. destruct (read_item (S (length rest)) (at_pos pre rest)) as [x r'] eqn:E.
  destruct (read_item_good (S (length rest)) pre rest x r' ltac:(lia) B E) as (P & Q). destruct x as [i|e|]; [right|left; exists e; reflexivity|contradiction].
  destruct (Q i eq_refl) as (s & post & -> & -> & S1 & S2 & _ & W). exists i, s, post. auto.
Qed.
Print Assumptions C48_total_and_nested.
(** A consequence of tiling: every descendant's range is inside the item's. *)
Fixpoint descendant (j i : item) : Prop :=
  let fix any (l : list item) : Prop := match l with [] => False | k :: t => (j = k \/ descendant j k) \/ any t end in
  let (_, _, v) := i in
  match v with
  | VSequence l | VSet l => any l
  | VApplication _ k | VContextSpecific _ k | VPrivate _ k => j = k \/ descendant j k
  | _ => False
  end.
Theorem C48_descendants_inside i j : well_placed i -> descendant j i -> (item_start i < item_start j /\ item_start j + 2 <= item_stop j <= item_stop i)%nat.
Proof.
  induction i as [s e v IH] using item_ind'. intros W D.
  assert (SELF : forall k, well_placed k -> (item_start k + 2 <= item_stop k)%nat) by (intros [? ? ?] H; apply H).
  cbn [item_start item_stop].
  assert (LIST : forall l c, Forall (fun i => well_placed i -> descendant j i -> (item_start i < item_start j /\ item_start j + 2 <= item_stop j <= item_stop i)%nat) l ->
    tile e c l -> (c <= e)%nat /\ ((fix any (l : list item) : Prop := match l with [] => False | k :: t => (j = k \/ descendant j k) \/ any t end) l ->
    (c <= item_start j /\ item_start j + 2 <= item_stop j <= e)%nat)).
  { induction l as [|k l IHl]; intros c F T; cbn [tile] in T; [subst c; split; [lia|intros []]|]. inversion F as [|? ? Fk Fl]; subst. destruct T as (T1 & T2 & T3).
    destruct (IHl _ Fl T3) as (A1 & A2). pose proof (SELF k T2) as A3. split; [lia|]. intros [[->|Dk]|Dl].
    - lia.
    - specialize (Fk T2 Dk). lia.
    - specialize (A2 Dl). lia. }
  assert (TAG : forall k, (well_placed k -> descendant j k -> (item_start k < item_start j /\ item_start j + 2 <= item_stop j <= item_stop k)%nat) ->
    (s + 2 <= item_start k)%nat /\ (item_stop k <= e)%nat /\ well_placed k -> (j = k \/ descendant j k) -> (s < item_start j /\ item_start j + 2 <= item_stop j <= e)%nat).
  { intros k K (A1 & A2 & A3) [->|Dk]; [pose proof (SELF k A3); lia|]. specialize (K A3 Dk). lia. }
  destruct W as [W0 W]. destruct v; cbn [children] in IH; try (destruct D; fail).
  - destruct W as (c & C & T). destruct (LIST l c IH T) as (_ & A). specialize (A D). lia.
  - destruct W as (c & C & T). destruct (LIST l c IH T) as (_ & A). specialize (A D). lia.
  - exact (TAG _ IH W D).
  - exact (TAG _ IH W D).
  - exact (TAG _ IH W D).
Qed.
Print Assumptions C48_descendants_inside.
Example C48_cases : exists e, fst (read_der (new_reader [48; 6; 2; 1; 5; 4; 2; 7])) = Err e /\
  fst (read_der (new_reader [48; 6; 2; 1; 5; 4; 1; 7; 99])) = Ok (Item 0 8 (VSequence [Item 2 5 (VInteger [5]); Item 5 8 (VOctetString [7])])).
Proof. eexists. split; vm_compute; reflexivity. Qed.

(** *** C49 *)
(** Object identifiers whose second arc is below 40 come back; later arcs are any 64-bit
    numbers. *)
Theorem C49_round_trip_partial s e arcs pre post d :
  oid_ok arcs -> encode_item (Item s e (VOid arcs)) = Ok d -> blen d < two32 -> fits (pre ++ d ++ post) ->
  exists j, read_der (at_pos pre (d ++ post)) = (Ok j, at_pos (pre ++ d) post) /\ item_value j = VOid arcs.
Proof.
  intros O E L F. destruct (C46_written_then_read (Item s e (VOid arcs)) d pre post E (conj O I) L F) as (j & R & J & _). exists j. split; [exact R|].
  destruct j as [js je v]. cbn [erase drop_true] in J. injection J as J. destruct v; try discriminate J. injection J as ->. reflexivity.
Qed.
Print Assumptions C49_round_trip_partial.
(** The contents are base-128 groups, most significant first, the first arc combined with the
    second. *)
Theorem C49_distinct s e s' e' arcs arcs' d : oid_ok arcs -> oid_ok arcs' -> blen d < two32 ->
  encode_item (Item s e (VOid arcs)) = Ok d -> encode_item (Item s' e' (VOid arcs')) = Ok d -> arcs = arcs'.
Proof.
  intros O O' L E E'. assert (F : fits ([] ++ d ++ [])) by (rewrite app_nil_r; unfold fits; cbn [app]; unfold two32, two64 in *; lia).
  destruct (C49_round_trip_partial s e arcs [] [] d O E L F) as (j & R & J). destruct (C49_round_trip_partial s' e' arcs' [] [] d O' E' L F) as (j' & R' & J').
  congruence.
Qed.
Print Assumptions C49_distinct.
(** Full statement false: under joint-iso-itu-t (2) an arc of 40 or more is legal, and it is
    read as something else. *)
Theorem C49_second_arc_refuted : exists arcs d j, encode_item (Item 0 0 (VOid arcs)) = Ok d /\ fst (read_der (new_reader d)) = Ok j /\
  nth 0 arcs 0 = 2 /\ item_value j <> VOid arcs.
Proof. exists [2; 999; 3], [6; 3; 136; 55; 3]. eexists. split; [vm_compute; reflexivity|]. split; [vm_compute; reflexivity|]. split; [reflexivity|discriminate]. Qed.
Print Assumptions C49_second_arc_refuted.
Example C49_rsa : encode_item (Item 0 0 (VOid [1; 2; 840; 113549; 1; 1; 11])) = Ok [6; 9; 42; 134; 72; 134; 247; 13; 1; 1; 11]
  /\ oid_ok [1; 2; 840; 113549; 1; 1; 11] /\ oid_ok [2; 5; 29; 18446744073709551615].
Proof. split; [vm_compute; reflexivity|]. split; (split; [lia|]; split; [unfold two64; lia|]; repeat constructor; unfold two64; lia). Qed.
