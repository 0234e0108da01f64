(** The re-encoder of bin/asn1.rs, C102. *)
From Verif Require Import Base BaseProofs BinaryModel BinaryProofs UtilModel MultibaseModel MultibaseSpec MultibaseProofs PemModel PemProps Asn1Model Asn1Spec Asn1Grammar Asn1Proofs Asn1Proofs2 Asn1Props Asn1Props2 CaModel Asn1ToolModel.
Local Open Scope string_scope. Local Open Scope list_scope. Local Open Scope N_scope.

(** Whatever the grammar accepts holds bytes, UTF-8 and identifiers the writer can express. *)
Lemma parts_lt d l : parts_form d l -> Forall (fun x => x < two64) l.
Proof. induction 1; constructor; [apply N.mod_lt; discriminate|assumption]. Qed.
Lemma split_ok l : Forall (fun x => x < two64) l -> oid_ok (split_first l).
Proof.
  destruct l as [|p t]; [intros _; exact Logic.I|]. intros H. inversion H as [|? ? A B]. subst. cbn [split_first oid_ok].
  split; [apply N.mod_lt; discriminate|]. split; [|exact B]. pose proof (N.div_mod p 40 ltac:(discriminate)). lia.
Qed.
Lemma grammar_ok : (forall s i, der s i -> bytes_ok s -> every node_ok i) /\ (forall s l, ders s l -> bytes_ok s -> Forall (every node_ok) l) /\
  (forall f d v, holds f d v -> bytes_ok d -> every node_ok (Item 0 0 v)).
Proof.
  apply der_mutind.
  - intros first len c v _ _ IH B. apply IH. apply bytes_ok_cons in B. destruct B as (_ & B). apply bytes_ok_app in B. apply B.
  - constructor.
  - intros s i d l _ IH1 _ IH2 B. apply bytes_ok_app in B. constructor; [apply IH1|apply IH2]; apply B.
  - intros _. split; exact Logic.I.
  - intros _. split; exact Logic.I.
  - intros d B. split; [exact B|exact Logic.I].
  - intros u d B. apply bytes_ok_cons in B. split; [exact B|exact Logic.I].
  - intros d B. split; [exact B|exact Logic.I].
  - intros _. split; exact Logic.I.
  - intros d parts P _. split; [apply split_ok, (parts_lt d), P|exact Logic.I].
  - intros d U _. split; [exact U|exact Logic.I].
  - intros d U _. split; [exact U|exact Logic.I].
  - intros d U _. split; [exact U|exact Logic.I].
  - intros d U _. split; [exact U|exact Logic.I].
  - intros d l _ IH B. split; [exact Logic.I|]. change (every_list node_ok l). apply every_list_Forall, IH, B.
  - intros d l _ IH B. split; [exact Logic.I|]. change (every_list node_ok l). apply every_list_Forall, IH, B.
  - intros c tag s junk j C T _ IH B. apply bytes_ok_app in B. specialize (IH (proj1 B)). destruct c; cbn; (split; [exact Logic.I|exact IH]).
  - intros. split; exact Logic.I.
  - intros. split; exact Logic.I.
Qed.
(** The writer does not look at byte ranges, nor at the value of a Boolean. *)
Lemma encode_map (g : item -> item) :
  (forall s e v, exists s' e', g (Item s e v) = Item s' e' match v with
     | VSequence l => VSequence (map g l) | VSet l => VSet (map g l) | VApplication t i => VApplication t (g i) | VContextSpecific t i => VContextSpecific t (g i)
     | VPrivate t i => VPrivate t (g i) | VBoolean b => match item_value (g (Item s e v)) with VBoolean b' => VBoolean b' | _ => VBoolean b end | v => v end) ->
  forall i, encode_item (g i) = encode_item i.
Proof.
  intros G. induction i as [s e v IH] using item_ind'. destruct (G s e v) as (s' & e' & E).
  assert (LIST : forall l, Forall (fun i => encode_item (g i) = encode_item i) l -> encode_list (map g l) = encode_list l).
  { intros l F. induction F as [|j l J F IHl]; [reflexivity|]. cbn [map].
    change (encode_list (g j :: map g l)) with (let? a := encode_item (g j) in let? b := encode_list (map g l) in Ok (a ++ b)).
    change (encode_list (j :: l)) with (let? a := encode_item j in let? b := encode_list l in Ok (a ++ b)). rewrite J, IHl. reflexivity. }
  destruct v; cbn [children] in IH; try (rewrite E; reflexivity).
  - destruct (item_value (g (Item s e (VBoolean b)))); rewrite E; reflexivity.
  - rewrite E. change ((let? d := encode_list (map g l) in encode_raw CUniversal FConstructed 16 d) = (let? d := encode_list l in encode_raw CUniversal FConstructed 16 d)). rewrite (LIST l IH). reflexivity.
  - rewrite E. change ((let? d := encode_list (map g l) in encode_raw CUniversal FConstructed 17 d) = (let? d := encode_list l in encode_raw CUniversal FConstructed 17 d)). rewrite (LIST l IH). reflexivity.
  - rewrite E. change ((let? d := encode_item (g i) in encode_raw CApplication FConstructed tag d) = (let? d := encode_item i in encode_raw CApplication FConstructed tag d)). rewrite IH. reflexivity.
  - rewrite E. change ((let? d := encode_item (g i) in encode_raw CContext FConstructed tag d) = (let? d := encode_item i in encode_raw CContext FConstructed tag d)). rewrite IH. reflexivity.
  - rewrite E. change ((let? d := encode_item (g i) in encode_raw CPrivate FConstructed tag d) = (let? d := encode_item i in encode_raw CPrivate FConstructed tag d)). rewrite IH. reflexivity.
Qed.
Lemma encode_erase i : encode_item (erase i) = encode_item i.
Proof. apply encode_map. intros s e v. exists 0%nat, 0%nat. destruct v; reflexivity. Qed.
Lemma encode_drop i : encode_item (drop_true i) = encode_item i.
Proof. apply encode_map. intros s e v. exists s, e. destruct v; reflexivity. Qed.
(** What is written does not look like PEM, and is bytes. *)
Lemma raw_start c f tag d x : tag <= 30 -> (c <> CUniversal \/ tag <> 13) -> encode_raw c f tag d = Ok x -> exists b t, x = b :: t /\ b <> 45.
Proof.
  intros T N H. rewrite encode_raw_ok in H by exact T. injection H as <-. eexists. eexists. split; [reflexivity|].
  assert (X : forallb (fun t => negb (id_byte c f t =? 45) || (match c with CUniversal => true | _ => false end && (t =? 13))) (map N.of_nat (seq 0 31)) = true) by (destruct c, f; vm_compute; reflexivity).
  rewrite forallb_forall in X. specialize (X tag). intros Q. rewrite Q in X. cbn [N.eqb negb orb] in X. change (45 =? 45) with true in X. cbn [negb orb] in X.
  assert (In tag (map N.of_nat (seq 0 31))) as IN by (apply in_map_iff; exists (N.to_nat tag); split; [lia|apply in_seq; lia]). specialize (X IN). destruct c; try discriminate X. destruct N as [N|N]; [apply N; reflexivity|]. cbn [andb] in X. lia.
Qed.
Lemma encode_start i d : encode_item i = Ok d -> exists b t, d = b :: t /\ b <> 45.
Proof.
  destruct i as [s e v]. intros E.
  assert (E' : match v with VOid a => encode_raw CUniversal FPrimitive 6 (encode_arcs a) | _ => encode_item (Item s e v) end = Ok d).
  { destruct v; try exact E. cbn [encode_item] in E. destruct (arcs_overflow arcs); [discriminate E|exact E]. }
  clear E. rename E' into E.
  destruct v; [revert E; apply raw_start; [lia|right; discriminate]..| | | | | |discriminate E].
  - change (encode_item (Item s e (VSequence l))) with (let? d := encode_list l in encode_raw CUniversal FConstructed 16 d) in E. apply bind_ok in E. destruct E as (x & _ & E). revert E. apply raw_start; [lia|right; discriminate].
  - change (encode_item (Item s e (VSet l))) with (let? d := encode_list l in encode_raw CUniversal FConstructed 17 d) in E. apply bind_ok in E. destruct E as (x & _ & E). revert E. apply raw_start; [lia|right; discriminate].
  - assert (W : every writable (Item s e (VApplication tag i))) by (apply C46_writer_refusals; exists d; exact E). apply bind_ok in E. destruct E as (x & _ & E). revert E. apply raw_start; [apply W|left; discriminate].
  - assert (W : every writable (Item s e (VContextSpecific tag i))) by (apply C46_writer_refusals; exists d; exact E). apply bind_ok in E. destruct E as (x & _ & E). revert E. apply raw_start; [apply W|left; discriminate].
  - assert (W : every writable (Item s e (VPrivate tag i))) by (apply C46_writer_refusals; exists d; exact E). apply bind_ok in E. destruct E as (x & _ & E). revert E. apply raw_start; [apply W|left; discriminate].
Qed.
(** The data a file stands for. *)
Definition file_data (file data : bytes) : Prop :=
  (nth_error file 0 <> Some 45 /\ data = file) \/ exists label, nth_error file 0 = Some 45 /\ pem_text file label data.
Lemma tool_read_ok file i : tool_read file = GOk i <-> exists data, file_data file data /\ fst (read_der (new_reader data)) = Ok i.
Proof.
  unfold tool_read, file_data. destruct file as [|b t].
  - cbn [gbind]. split; [intros H; exists []; split; [left; split; [discriminate|reflexivity]|vm_compute in H; discriminate H]|].
    intros (data & [(_ & ->)|(l & X & _)] & H); [vm_compute in H; discriminate H|discriminate X].
  - destruct (N.eq_dec b 45) as [->|N].
    + change (45 =? 45) with true. cbv iota. split.
      * destruct (decode_pem (45 :: t)) as [[lb x] r|e|] eqn:E; cbn [gbind snd]; try discriminate. intros H. exists x. split.
        -- right. exists lb. split; [reflexivity|]. exact (proj2 (proj1 (C51_accepts_exactly _ _ _ _) E)).
        -- destruct (fst (read_der (new_reader x))); try discriminate H. injection H as <-. reflexivity.
      * intros (data & [(X & _)|(lb & _ & T)] & H); [contradiction X; reflexivity|]. rewrite (proj2 (C51_accepts_exactly _ lb data []) (conj eq_refl T)). cbn [gbind snd]. rewrite H. reflexivity.
    + apply N.eqb_neq in N. rewrite N. apply N.eqb_neq in N. cbn [gbind]. split.
      * intros H. exists (b :: t). split; [left; split; [cbn; congruence|reflexivity]|]. destruct (fst (read_der _)); try discriminate H. injection H as <-. reflexivity.
      * intros (data & [(_ & ->)|(lb & X & _)] & H); [rewrite H; reflexivity|cbn in X; congruence].
Qed.

(** Base64 text decodes to bytes, and to no more of them than it has characters. *)
Lemma Forall2_length' {A B} (P : A -> B -> Prop) l l' : Forall2 P l l' -> length l = length l'.
Proof. induction 1; cbn [length]; congruence. Qed.
Lemma decode_pad s data : decode_noprefix s Base64Pad = Ok data -> bytes_ok data /\ (length data <= length s)%nat.
Proof.
  intros H. apply (proj1 (loose_iff Base64Pad s data Logic.I)) in H. destruct H as (ds & left & F & E & _ & B). split; [exact B|].
  apply (f_equal (@length bool)) in E. rewrite app_length, !bit_string_length in E. change (char_bits Base64Pad) with 6%nat in E.
  apply Forall2_length' in F. change (body Base64Pad s) with (until_pad s) in F.
  assert (U : (length (until_pad s) <= length s)%nat) by (clear; induction s as [|c s IH]; cbn [until_pad length]; [lia|]; destruct (c =? ch "="); cbn [length]; lia). lia.
Qed.
Lemma joined_length s : (length (joined s) <= length s)%nat.
Proof. unfold joined. induction s as [|c s IH]; cbn [filter length]; [lia|]. destruct (negb _); cbn [length]; lia. Qed.

(** *** C102 *)
Lemma reencode_ok file d : reencode file = GOk d <-> exists data i, file_data file data /\ fst (read_der (new_reader data)) = Ok i /\ encode_item i = Ok d.
Proof.
  unfold reencode. split.
  - destruct (tool_read file) as [i| | |] eqn:E; cbn [gbind]; try discriminate. intros H. apply tool_read_ok in E. destruct E as (data & S & R). exists data, i. split; [exact S|]. split; [exact R|].
    destruct (encode_item i); try discriminate H. injection H as <-. reflexivity.
  - intros (data & i & S & R & E). rewrite (proj2 (tool_read_ok file i)) by (exists data; auto). cbn [gbind]. rewrite E. reflexivity.
Qed.
Lemma read_whole data i : bytes_ok data -> fst (read_der (new_reader data)) = Ok i -> every node_ok (erase i) /\ exists s post, data = s ++ post /\ der s (erase i).
Proof.
  intros B H. destruct (read_der (new_reader data)) as [x r'] eqn:R. cbn [fst] in H. subst x.
  destruct (C90_only_the_grammar [] data i r' B R) as (s & post & -> & _ & D). apply bytes_ok_app in B. split; [apply (proj1 grammar_ok s); [exact D|apply B]|]. exists s, post. auto.
Qed.
Lemma written_read i d junk : encode_item i = Ok d -> every node_ok i -> blen d < two32 -> fits (d ++ junk) ->
  exists j, fst (read_der (new_reader (d ++ junk))) = Ok j /\ erase j = erase (drop_true i).
Proof. intros E O L F. destruct (C46_written_then_read i d [] junk E O L F) as (j & R & J & _). exists j. change (new_reader (d ++ junk)) with (at_pos [] (d ++ junk)). rewrite R. auto. Qed.
(** When a file is re-encoded: it stands for data (itself, or the data of its PEM text) that
    begins with an item of the grammar without tags or kinds the writer lacks; what follows the
    item does not matter. *)
Theorem C102_reencodes_exactly file : bytes_ok file -> fits file ->
  ((exists d, reencode file = GOk d) <-> exists data s post j, file_data file data /\ data = s ++ post /\ der s j /\ every writable j).
Proof.
  intros B F. assert (SB : forall data, file_data file data -> bytes_ok data /\ fits data).
  { intros data [(_ & ->)|(label & _ & T)]; [auto|]. destruct T as (body & h & f & -> & (n1 & n2 & nl & _ & _ & _ & _ & BO & ->) & _ & D).
    destruct (decode_pad _ _ D) as (X & Y). split; [exact X|]. pose proof (joined_length body) as Z. unfold fits, blen in *. rewrite !app_length in F. lia. }
  split.
  - intros (d & H). apply reencode_ok in H. destruct H as (data & i & S & R & E). destruct (SB data S) as (B' & F').
    destruct (read_whole data i B' R) as (_ & s & post & -> & D). exists (s ++ post), s, post, (erase i). split; [exact S|]. split; [reflexivity|]. split; [exact D|].
    apply C46_writer_refusals. exists d. rewrite encode_erase. exact E.
  - intros (data & s & post & j & S & -> & D & W). destruct (SB _ S) as (B' & F'). apply bytes_ok_app in B'. destruct (C90_all_of_the_grammar [] s post j (proj1 B') F' D) as (i & R & J).
    apply C46_writer_refusals in W. destruct W as (d & E). exists d. apply reencode_ok. exists (s ++ post), i. split; [exact S|]. split; [change (new_reader (s ++ post)) with (at_pos [] (s ++ post)); rewrite R; reflexivity|].
    rewrite <- encode_erase, J. exact E.
Qed.
Print Assumptions C102_reencodes_exactly.
(** Whatever this writer once wrote comes out unchanged, even with other bytes behind it. *)
Theorem C102_written_unchanged i d junk : encode_item i = Ok d -> every node_ok i -> blen d < two32 -> fits (d ++ junk) -> reencode (d ++ junk) = GOk d.
Proof.
  intros E O L F. destruct (written_read i d junk E O L F) as (j & R & J). apply reencode_ok. exists (d ++ junk), j. split.
  - left. split; [|reflexivity]. destruct (encode_start i d E) as (b & t & -> & N). cbn. congruence.
  - split; [exact R|]. rewrite <- encode_erase, J, encode_erase, encode_drop. exact E.
Qed.
Print Assumptions C102_written_unchanged.
Lemma every_erase p i : every p (erase i) -> (forall v, p (item_value (erase (Item 0 0 v))) -> p v) -> every p i.
Proof.
  intros H P. induction i as [s e v IH] using item_ind'. cbn [erase every] in *. destruct H as (H1 & H2). split; [apply P; exact H1|].
  assert (L : forall l, Forall (fun i => every p (erase i) -> every p i) l -> every_list p (map erase l) -> every_list p l).
  { intros l F. rewrite !every_list_Forall. rewrite !Forall_forall in *. intros X j J. apply F; [exact J|]. apply X, in_map, J. }
  destruct v; cbn [children] in IH; try exact Logic.I; try (apply IH; exact H2); apply (L l IH H2).
Qed.
Lemma node_ok_erase i : every node_ok (erase i) -> every node_ok i.
Proof. intros H. apply every_erase; [exact H|]. intros v. destruct v; cbn; auto. Qed.
(** Re-encoding once is enough: the result, re-encoded, is itself. *)
Theorem C102_idempotent file d : bytes_ok file -> reencode file = GOk d -> blen d < two32 -> reencode d = GOk d.
Proof.
  intros B H L. apply reencode_ok in H. destruct H as (data & i & S & R & E).
  assert (B' : bytes_ok data).
  { destruct S as [(_ & ->)|(label & _ & T)]; [exact B|]. destruct T as (body & h & f & _ & _ & _ & D). exact (proj1 (decode_pad _ _ D)). }
  destruct (read_whole data i B' R) as (O & _). apply node_ok_erase in O.
  rewrite <- (app_nil_r d) at 1. apply (C102_written_unchanged i); [exact E|exact O|exact L|]. rewrite app_nil_r. unfold fits, two32, two64 in *. lia.
Qed.
Print Assumptions C102_idempotent.
(** The result means what the input meant, except that every Boolean is false. *)
Theorem C102_meaning_partial file d : bytes_ok file -> reencode file = GOk d -> blen d < two32 ->
  exists i j, tool_read file = GOk i /\ tool_read d = GOk j /\ erase j = erase (drop_true i).
Proof.
  intros B H L. pose proof H as H0. apply reencode_ok in H. destruct H as (data & i & S & R & E).
  assert (B' : bytes_ok data).
  { destruct S as [(_ & ->)|(label & _ & T)]; [exact B|]. destruct T as (body & h & f & _ & _ & _ & D). exact (proj1 (decode_pad _ _ D)). }
  destruct (read_whole data i B' R) as (O & _). apply node_ok_erase in O.
  destruct (written_read i d [] E O L) as (j & Rj & J); [rewrite app_nil_r; unfold fits, two32, two64 in *; lia|]. rewrite app_nil_r in Rj.
  exists i, j. split; [apply tool_read_ok; exists data; auto|]. split; [|exact J]. apply tool_read_ok. exists d. split; [|exact Rj].
  left. split; [|reflexivity]. destruct (encode_start i d E) as (b & t & -> & N). cbn. congruence.
Qed.
Print Assumptions C102_meaning_partial.
(** So DER does not survive: this critical basicConstraints extension (CA:TRUE) becomes
    non-critical CA:FALSE. *)
Definition critical_ca : bytes := [48; 15; 6; 3; 85; 29; 19; 1; 1; 255; 4; 5; 48; 3; 1; 1; 255].
Theorem C102_true_refuted : exists d, reencode critical_ca = GOk d /\ d <> critical_ca /\ d = [48; 15; 6; 3; 85; 29; 19; 1; 1; 0; 4; 5; 48; 3; 1; 1; 255].
Proof. eexists. split; [vm_compute; reflexivity|]. split; [discriminate|reflexivity]. Qed.
Print Assumptions C102_true_refuted.
(** And bytes behind the first item, or inside a tagged value, are dropped without an error. *)
Theorem C102_trailing_refuted : reencode [5; 0; 5; 0] = GOk [5; 0] /\ reencode [160; 4; 5; 0; 5; 0] = GOk [160; 2; 5; 0].
Proof. split; vm_compute; reflexivity. Qed.
Print Assumptions C102_trailing_refuted.
(** The tool never panics; it hangs exactly on PEM text that stops inside a keyword. *)
Theorem C102_ends file : bytes_ok file -> reencode file <> GPanic /\ (reencode file = GLoop <-> stops file).
Proof.
  intros B. assert (NP : forall data, bytes_ok data -> fst (read_der (new_reader data)) <> Panic).
  { intros data D. destruct (C48_total_and_nested [] data D) as [(e & X)|(i & s & post & _ & X & _)]; change (at_pos [] data) with (new_reader data) in X; rewrite X; discriminate. }
  assert (EP : forall i, every node_ok i -> encode_item i <> Panic).
  { intros i O. destruct (encode_item i) as [x| |] eqn:E; try discriminate. exfalso. revert O E.
    induction i as [s e v IH] using item_ind'. intros [NV EV].
    assert (RW : forall c f tag d, encode_raw c f tag d <> Panic) by (intros c f tag d; unfold encode_raw, encode_identifier; destruct (30 <? tag); discriminate).
    assert (LS : forall l c tag, Forall (fun i => every node_ok i -> encode_item i = Panic -> False) l -> every_list node_ok l -> (let? d := encode_list l in encode_raw c FConstructed tag d) <> Panic).
    { intros l c tag F EL. assert (X : encode_list l <> Panic).
      { induction F as [|j l J F IHl]; [discriminate|]. destruct EL as [EJ EL]. specialize (J EJ). specialize (IHl EL). change (encode_list (j :: l)) with (let? a := encode_item j in let? b := encode_list l in Ok (a ++ b)).
        destruct (encode_item j); [|discriminate|contradiction]. cbn [bind]. destruct (encode_list l); [discriminate|discriminate|contradiction]. }
      destruct (encode_list l); [apply RW|discriminate|contradiction]. }
    destruct v; cbn [children] in IH; try apply RW; try (apply (LS l); [exact IH|exact EV]); try discriminate;
      [rewrite encode_oid by exact NV; apply RW|..];
      cbn [encode_item]; specialize (IH EV); destruct (encode_item i) as [y| |]; [apply RW|discriminate|contradiction|apply RW|discriminate|contradiction|apply RW|discriminate|contradiction]. }
  assert (K : forall x : command item, (forall i, x <> GPanic) -> x <> GPanic) by (intros x X; exact (X (item_of VNull))). clear K.
  unfold reencode, tool_read. rewrite <- C51_loops_exactly. destruct file as [|b t]; [split; [vm_compute; discriminate|split; vm_compute; discriminate]|].
  assert (T : forall data, bytes_ok data -> forall y, gbind (gbind (GOk data) (fun d => ok_or (fst (read_der (new_reader d))))) (fun i => ok_or (encode_item i)) = y -> y <> GPanic /\ y <> GLoop).
  { intros data D y <-. cbn [gbind]. specialize (NP data D). destruct (fst (read_der (new_reader data))) as [i| |] eqn:RD; [|split; discriminate|contradiction]. cbn [ok_or gbind].
    specialize (EP i (node_ok_erase i (proj1 (read_whole data i D RD)))). destruct (encode_item i); [split; discriminate|split; discriminate|contradiction]. }
  destruct (b =? 45) eqn:E.
  - destruct (decode_pem (b :: t)) as [p r|e|] eqn:P; [|split; [discriminate|split; discriminate]|split; [discriminate|split; reflexivity]].
    assert (D : bytes_ok (snd p)).
    { destruct p as [lb x]. destruct (proj1 (C51_accepts_exactly _ _ _ _) P) as (_ & body & h & f & _ & _ & _ & D). exact (proj1 (decode_pad _ _ D)). }
    destruct (T (snd p) D _ eq_refl) as (T1 & T2). split; [exact T1|]. split; [intros X; contradiction|discriminate].
  - destruct (T (b :: t) B _ eq_refl) as (T1 & T2). split; [exact T1|]. split; [intros X; contradiction|].
    intros X. exfalso. unfold decode_pem, expect_dashes in X. cbn [span] in X. rewrite N.eqb_sym, E in X. cbn [length Nat.eqb pbind] in X. discriminate X.
Qed.
Print Assumptions C102_ends.
Example C102_example :
  reencode (encode_pem (critical_ca ++ [7]) (ascii_bytes "X")) = reencode critical_ca /\ reencode [48; 128] = GErr /\ reencode [128; 0] = GErr /\
  reencode [48; 129; 3; 2; 1; 5] = GOk [48; 3; 2; 1; 5].
Proof. repeat split; vm_compute; reflexivity. Qed.
