(** C42, C43 and C44: length-prefixed messages, multistream negotiation, service dispatch. *)
From Verif Require Import Base BaseProofs VarintModel VarintSpec VarintProofs VarintProofs2 MplexModel MplexProofs LpioModel LpioSpec LpioProofs.

Definition frames (msgs : list bytes) : bytes := concat (map write_message msgs).
(** The data starts with a length prefix of at most ten bytes naming the length of [m], then [m]. *)
Definition starts_with (data m rest : bytes) : Prop :=
  exists l, data = l ++ m ++ rest /\ well_terminated l /\ (length l <= 10)%nat /\ base128_value l mod two64 = blen m.
(** Eleven bytes of a length prefix without an end. *)
Definition bad_prefix (data : bytes) : Prop := exists l rest, data = l ++ rest /\ length l = 10%nat /\ Forall (fun b => 128 <= b) l /\ rest <> [].

Lemma none_spec src r lim' src' : clean src -> read_opt_message None src = (r, lim', src') ->
  exists r0, r = Some r0 /\ lim' = None /\ clean src' /\ (length src' <= length src)%nat /\ flat_message (bytes_of src) = (r0, bytes_of src').
Proof.
  intros C H. apply read_opt_message_spec in H; [|exact C]. destruct H as (u & r0 & (M1 & M2 & M3 & M4 & M5) & -> & F).
  cbn [after] in M2. subst lim'. exists r0. split; [reflexivity|]. split; [reflexivity|]. split; [exact M4|]. split; [lia|exact F].
Qed.
Lemma flat_write m rest : fits m -> flat_message (write_message m ++ rest) = (Ok (Some m), rest).
Proof.
  intros F. unfold write_message, encode_usize. rewrite <- app_assoc. unfold flat_message, flat_varint. rewrite feed_encode by exact F.
  rewrite skipn_app_length, blen_app. replace (blen m <=? blen m + blen rest) with true by lia.
  replace (N.to_nat (blen m)) with (length m) by (unfold blen; lia). rewrite firstn_app_length, skipn_app_length. reflexivity.
Qed.
Lemma encode_prefix v k : u64_ok v -> (k < length (encode_u64 v))%nat -> Forall (fun b => 128 <= b) (firstn k (encode_u64 v)).
Proof.
  intros _ K. destruct (encode_well_terminated v) as (i & x & E & Fi & _). rewrite E in *. rewrite app_length in K. cbn [length] in K.
  rewrite firstn_app. replace (k - length i)%nat with 0%nat by lia. cbn [firstn]. rewrite app_nil_r. apply Forall_forall. intros b Hb.
  rewrite Forall_forall in Fi. apply Fi. rewrite <- (firstn_skipn k i). apply in_or_app. left. exact Hb.
Qed.
Lemma flat_cut m k : fits m -> (0 < k < length (write_message m))%nat -> flat_message (firstn k (write_message m)) = (Err UnexpectedEof, []).
Proof.
  intros F [K0 K]. unfold write_message, encode_usize in *. rewrite app_length in K.
  destruct (Nat.lt_ge_cases k (length (encode_u64 (blen m)))) as [Hk|Hk].
  - rewrite firstn_app. replace (k - length (encode_u64 (blen m)))%nat with 0%nat by lia. cbn [firstn]. rewrite app_nil_r.
    pose proof (encode_length_u64 (blen m) F) as L10.
    assert (B : bytes_ok (firstn k (encode_u64 (blen m)))) by (apply bytes_ok_firstn, encode_bytes_ok).
    assert (L : length (firstn k (encode_u64 (blen m))) = k) by (rewrite firstn_length; lia).
    pose proof (proj1 (proj2 (feed_exact _ B)) (encode_prefix _ _ F Hk) ltac:(lia)) as X.
    unfold flat_message, flat_varint. rewrite X. destruct (firstn k (encode_u64 (blen m))) eqn:E; [cbn in L; lia|].
    rewrite <- E. rewrite skipn_all. reflexivity.
  - rewrite firstn_app, firstn_all2 by lia. unfold flat_message, flat_varint. rewrite feed_encode by exact F. rewrite skipn_app_length.
    set (j := (k - length (encode_u64 (blen m)))%nat) in *. assert (blen (firstn j m) < blen m) by (unfold blen; rewrite firstn_length; lia).
    replace (blen m <=? blen (firstn j m)) with false by lia. reflexivity.
Qed.
Lemma flat_nil : flat_message [] = (Ok None, []).
Proof. reflexivity. Qed.

Lemma read_all_write msgs : forall fuel src rest, Forall fits msgs -> (length msgs < fuel)%nat -> clean src ->
  bytes_of src = frames msgs ++ rest ->
  exists fuel' src', (1 <= fuel')%nat /\ clean src' /\ bytes_of src' = rest /\
    read_all fuel src = let (l, r) := read_all fuel' src' in (msgs ++ l, r).
Proof.
  induction msgs as [|m msgs IH]; intros fuel src rest F L C E.
  - exists fuel, src. split; [cbn in L; lia|]. split; [exact C|]. split; [exact E|]. cbn [app]. destruct (read_all fuel src). reflexivity.
  - destruct fuel as [|fuel]; [lia|]. inversion F as [|? ? F1 F2]; subst. cbn [read_all].
    destruct (read_opt_message None src) as [[r l] s] eqn:R. apply none_spec in R; [|exact C]. destruct R as (r0 & -> & -> & C' & _ & R).
    unfold frames in E. cbn [map concat] in E. rewrite <- app_assoc in E. rewrite E, flat_write in R by exact F1.
    assert (r0 = Ok (Some m)) as -> by congruence. assert (Es : bytes_of s = frames msgs ++ rest) by (unfold frames; congruence).
    destruct (IH fuel s rest F2 ltac:(cbn in L; lia) C' Es) as (f' & s' & Hf & Cs & Er & H). exists f', s'.
    split; [exact Hf|]. split; [exact Cs|]. split; [exact Er|]. rewrite H. destruct (read_all f' s'). reflexivity.
Qed.

(** C42: any messages, in any pieces, are read back in order, and then a clean end. *)
Theorem C42_messages_round_trip msgs src fuel :
  Forall fits msgs -> carries src (frames msgs) -> (length msgs < fuel)%nat -> read_all fuel src = (msgs, Some (Ok tt)).
Proof.
  intros F [C E] L. rewrite <- (app_nil_r (frames msgs)) in E. destruct (read_all_write _ _ _ _ F L C E) as (f & s & Hf & Cs & Es & ->).
  destruct f as [|f]; [lia|]. cbn [read_all]. destruct (read_opt_message None s) as [[r l] s2] eqn:R. apply none_spec in R; [|exact Cs].
  destruct R as (r0 & -> & _ & _ & _ & R). rewrite Es, flat_nil in R. assert (r0 = Ok None) as -> by congruence. rewrite app_nil_r. reflexivity.
Qed.
Print Assumptions C42_messages_round_trip.
(** C42: a stream that ends inside a message gives the complete messages and then an
    unexpected-EOF error; no truncated message. *)
Theorem C42_cut_reported msgs m k src fuel :
  Forall fits msgs -> fits m -> (0 < k < length (write_message m))%nat ->
  carries src (frames msgs ++ firstn k (write_message m)) -> (length msgs < fuel)%nat ->
  read_all fuel src = (msgs, Some (Err UnexpectedEof)).
Proof.
  intros F Fm K [C E] L. destruct (read_all_write _ _ _ _ F L C E) as (f & s & Hf & Cs & Es & ->).
  destruct f as [|f]; [lia|]. cbn [read_all]. destruct (read_opt_message None s) as [[r l] s2] eqn:R. apply none_spec in R; [|exact Cs].
  destruct R as (r0 & -> & _ & _ & _ & R). rewrite Es, flat_cut in R by assumption. assert (r0 = Err UnexpectedEof) as -> by congruence. rewrite app_nil_r. reflexivity.
Qed.
Print Assumptions C42_cut_reported.
Lemma read_all_same fuel : forall s1 s2, clean s1 -> clean s2 -> bytes_of s1 = bytes_of s2 -> read_all fuel s1 = read_all fuel s2.
Proof.
  induction fuel as [|fuel IH]; intros s1 s2 C1 C2 E; [reflexivity|]. cbn [read_all].
  destruct (read_opt_message None s1) as [[r1 l1] t1] eqn:R1. destruct (read_opt_message None s2) as [[r2 l2] t2] eqn:R2.
  apply none_spec in R1; [|exact C1]. apply none_spec in R2; [|exact C2].
  destruct R1 as (q1 & -> & _ & D1 & _ & R1). destruct R2 as (q2 & -> & _ & D2 & _ & R2). rewrite E, R2 in R1.
  assert (q2 = q1) as -> by congruence. assert (Et : bytes_of t1 = bytes_of t2) by congruence.
  destruct q1 as [[m|]|e|]; try reflexivity. rewrite (IH t1 t2 D1 D2 Et). reflexivity.
Qed.
(** C42: for arbitrary bytes, how they are cut into reads changes nothing. *)
Theorem C42_segmentation_irrelevant data s1 s2 fuel :
  carries s1 data -> carries s2 data -> read_all fuel s1 = read_all fuel s2.
Proof. intros [C1 E1] [C2 E2]. apply read_all_same; congruence. Qed.
Print Assumptions C42_segmentation_irrelevant.

Lemma split_cont (data : bytes) : exists l rest, data = l ++ rest /\ Forall (fun b => 128 <= b) l /\ match rest with [] => True | b :: _ => b < 128 end.
Proof.
  induction data as [|b data (l & rest & E & F & H)]; [exists [], []; auto|]. destruct (b <? 128) eqn:Eb.
  - exists [], (b :: data). split; [reflexivity|]. split; [constructor|lia].
  - exists (b :: l), rest. split; [rewrite E; reflexivity|]. split; [constructor; [lia|exact F]|exact H].
Qed.
Lemma long_split (l rest : bytes) : Forall (fun b => 128 <= b) l -> (10 < length l \/ length l = 10 /\ rest <> [])%nat -> bad_prefix (l ++ rest).
Proof.
  intros F H. exists (firstn 10 l), (skipn 10 l ++ rest). rewrite app_assoc, firstn_skipn. split; [reflexivity|].
  split; [rewrite firstn_length; lia|]. split.
  - apply Forall_forall. intros b Hb. rewrite Forall_forall in F. apply F. rewrite <- (firstn_skipn 10 l). apply in_or_app. left. exact Hb.
  - intros X. apply app_eq_nil in X. destruct X as [X1 X2]. apply (f_equal (@length _)) in X1. rewrite skipn_length in X1. cbn in X1. destruct H as [H|[H1 H2]]; [lia|auto].
Qed.
Lemma starts_flat data m rest : bytes_ok data -> starts_with data m rest -> flat_message data = (Ok (Some m), rest).
Proof.
  intros B (l & -> & W & L & V). unfold flat_message, flat_varint. rewrite (proj1 (feed_exact _ B) l (m ++ rest) eq_refl W L).
  change (2 ^ 64) with two64. rewrite V, skipn_app_length, blen_app. replace (blen m <=? blen m + blen rest) with true by lia.
  replace (N.to_nat (blen m)) with (length m) by (unfold blen; lia). rewrite firstn_app_length, skipn_app_length. reflexivity.
Qed.
Lemma bad_flat data : bytes_ok data -> bad_prefix data -> fst (flat_message data) = Err InvalidData.
Proof.
  intros B (l & rest & -> & L & F & R). unfold flat_message, flat_varint.
  rewrite (proj2 (proj2 (feed_exact _ B)) l rest eq_refl F L R). reflexivity.
Qed.
(** The four things that can be at the front of some bytes. *)
Lemma flat_cases data : bytes_ok data ->
  (data = [] /\ flat_message data = (Ok None, [])) \/
  (exists m rest, starts_with data m rest /\ flat_message data = (Ok (Some m), rest)) \/
  (bad_prefix data /\ fst (flat_message data) = Err InvalidData) \/
  (data <> [] /\ ~ bad_prefix data /\ (forall m rest, ~ starts_with data m rest) /\ flat_message data = (Err UnexpectedEof, [])).
Proof.
  intros B. destruct data as [|b0 data0]; [left; split; reflexivity|]. set (data := b0 :: data0) in *. right.
  assert (Last : flat_message data = (Err UnexpectedEof, []) ->
    (data <> [] /\ ~ bad_prefix data /\ (forall m rest, ~ starts_with data m rest) /\ flat_message data = (Err UnexpectedEof, []))).
  { intros E. split; [discriminate|]. split; [intros X; apply bad_flat in X; [|exact B]; rewrite E in X; discriminate|].
    split; [intros m rest X; apply starts_flat in X; [|exact B]; congruence|exact E]. }
  destruct (split_cont data) as (l & rest & E & F & H).
  destruct (10 <? length l)%nat eqn:L10; [|destruct (10 =? length l)%nat eqn:L10']; [| |].
  - right. left. assert (X : bad_prefix data) by (rewrite E; apply long_split; [exact F|left; apply Nat.ltb_lt in L10; lia]). split; [exact X|apply bad_flat; assumption].
  - destruct rest as [|b rest].
    + right. right. apply Last. apply Nat.eqb_eq in L10'. rewrite app_nil_r in E.
      unfold flat_message, flat_varint. pose proof (proj1 (proj2 (feed_exact data B)) ltac:(rewrite E; exact F) ltac:(rewrite E; lia)) as X. rewrite X.
      unfold data at 1. rewrite skipn_all. reflexivity.
    + right. left. apply Nat.eqb_eq in L10'. assert (X : bad_prefix data) by (rewrite E; apply long_split; [exact F|right; split; [lia|discriminate]]). split; [exact X|apply bad_flat; assumption].
  - apply Nat.ltb_ge in L10. apply Nat.eqb_neq in L10'. destruct rest as [|b rest].
    + right. right. apply Last. rewrite app_nil_r in E.
      unfold flat_message, flat_varint. pose proof (proj1 (proj2 (feed_exact data B)) ltac:(rewrite E; exact F) ltac:(rewrite E; lia)) as X. rewrite X.
      unfold data at 1. rewrite skipn_all. reflexivity.
    + assert (W : well_terminated (l ++ [b])) by (exists l, b; auto).
      assert (E' : data = (l ++ [b]) ++ rest) by (rewrite E, <- app_assoc; reflexivity).
      assert (L' : (length (l ++ [b]) <= 10)%nat) by (rewrite app_length; cbn; lia).
      pose proof (proj1 (feed_exact data B) _ _ E' W L') as X. set (v := base128_value (l ++ [b]) mod 2 ^ 64) in *.
      destruct (v <=? blen rest) eqn:Ev.
      * left. exists (firstn (N.to_nat v) rest), (skipn (N.to_nat v) rest).
        assert (Y : starts_with data (firstn (N.to_nat v) rest) (skipn (N.to_nat v) rest)).
        { exists (l ++ [b]). rewrite firstn_skipn. split; [exact E'|]. split; [exact W|]. split; [exact L'|].
          change (v = blen (firstn (N.to_nat v) rest)). unfold blen in *. rewrite firstn_length. lia. }
        split; [exact Y|apply starts_flat; assumption].
      * right. right. apply Last. unfold flat_message, flat_varint. rewrite X, E', skipn_app_length, Ev. reflexivity.
Qed.
(** C42: what one read returns is exactly determined by the bytes: a message, and the rest of
    the stream, iff the bytes are a length prefix followed by that many bytes; a clean end iff
    there are no bytes; otherwise an error. *)
Theorem C42_read_exact src : clean src -> bytes_ok (bytes_of src) ->
  exists r src', read_opt_message None src = (Some r, None, src') /\ clean src' /\
    (forall m rest, (r = Ok (Some m) /\ bytes_of src' = rest) <-> starts_with (bytes_of src) m rest) /\
    (r = Ok None <-> bytes_of src = []) /\
    (r = Err InvalidData <-> bad_prefix (bytes_of src)) /\
    (r = Err UnexpectedEof <-> bytes_of src <> [] /\ ~ bad_prefix (bytes_of src) /\ forall m rest, ~ starts_with (bytes_of src) m rest) /\
    (forall e, r = Err e -> e = InvalidData \/ e = UnexpectedEof) /\ r <> Panic.
Proof.
  intros C B. destruct (read_opt_message None src) as [[r lim] src'] eqn:R. apply none_spec in R; [|exact C].
  destruct R as (r0 & -> & -> & C' & _ & R). exists r0, src'. split; [reflexivity|]. split; [exact C'|].
  assert (D : forall m rest, starts_with (bytes_of src) m rest -> r0 = Ok (Some m) /\ bytes_of src' = rest).
  { intros m rest S. apply starts_flat in S; [|exact B]. rewrite R in S. split; congruence. }
  assert (D2 : bad_prefix (bytes_of src) -> r0 = Err InvalidData).
  { intros S. apply bad_flat in S; [|exact B]. rewrite R in S. exact S. }
  assert (D3 : bytes_of src = [] -> r0 = Ok None).
  { intros S. rewrite S, flat_nil in R. congruence. }
  destruct (flat_cases _ B) as [[E X]|[(m & rest & S & X)|[[S X]|(S1 & S2 & S3 & X)]]].
  - specialize (D3 E). subst r0. split; [intros m rest; split; [intros [? ?]; discriminate|intros S; apply D in S; destruct S; discriminate]|].
    split; [tauto|]. split; [split; [discriminate|intros S; specialize (D2 S); discriminate]|]. split; [split; [discriminate|tauto]|]. split; [discriminate|discriminate].
  - destruct (D _ _ S) as [-> Er]. split; [intros m2 rest2; split; [intros [E1 E2]; assert (m2 = m) as -> by congruence; assert (rest2 = rest) as -> by congruence; exact S|apply D]|].
    split; [split; [discriminate|intros Z; specialize (D3 Z); discriminate]|]. split; [split; [discriminate|intros Z; specialize (D2 Z); discriminate]|].
    split; [split; [discriminate|intros (_ & _ & Z); destruct (Z _ _ S)]|]. split; [discriminate|discriminate].
  - specialize (D2 S). subst r0. split; [intros m rest; split; [intros [? ?]; discriminate|intros Z; apply D in Z; destruct Z; discriminate]|].
    split; [split; [discriminate|intros Z; specialize (D3 Z); discriminate]|]. split; [tauto|]. split; [split; [discriminate|tauto]|].
    split; [intros e Z; injection Z as <-; auto|discriminate].
  - assert (r0 = Err UnexpectedEof) as -> by congruence. split; [intros m rest; split; [intros [? ?]; discriminate|intros Z; apply D in Z; destruct Z; discriminate]|].
    split; [split; [discriminate|tauto]|]. split; [split; [discriminate|tauto]|]. split; [tauto|].
    split; [intros e Z; injection Z as <-; auto|discriminate].
Qed.
Print Assumptions C42_read_exact.
(** Two messages in pieces of one byte, with a pause; and cut inside the second. *)
Example C42_pieces :
  read_all 3 [Byte 2; Pause; Byte 104; Cut; Byte 105; Byte 1; Cut; Pause; Byte 33] = ([[104; 105]; [33]], Some (Ok tt)) /\
  read_all 3 [Byte 2; Pause; Byte 104; Cut; Byte 105; Byte 2; Cut; Byte 33] = ([[104; 105]], Some (Err UnexpectedEof)) /\
  bytes_of [Byte 2; Pause; Byte 104; Cut; Byte 105; Byte 1; Cut; Pause; Byte 33] = frames [[104; 105]; [33]] /\
  fst (fst (read_opt_message None (repeat (Byte 255) 11))) = Some (Err InvalidData).
Proof. vm_compute. auto. Qed.

(** *** Negotiation *)
Lemma bytes_eqb_neq a b : bytes_eqb a b = false <-> a <> b.
Proof. split; [intros H ->; rewrite bytes_eqb_refl in H; discriminate|]. intros H. destruct (bytes_eqb a b) eqn:E; [apply bytes_eqb_eq in E; contradiction|reflexivity]. Qed.
Lemma select_read protocol src : clean src -> bytes_ok (bytes_of src) ->
  exists r src', multistream_select protocol src = (Some r, write_message protocol, src') /\ clean src' /\
  ((exists m rest, starts_with (bytes_of src) m rest /\ bytes_of src' = rest /\
      r = if bytes_eqb m protocol then Ok Accepted else if bytes_eqb m na then Ok Unsupported else Err InvalidData) \/
   ((forall m rest, ~ starts_with (bytes_of src) m rest) /\
    (bad_prefix (bytes_of src) /\ r = Err InvalidData \/ ~ bad_prefix (bytes_of src) /\ r = Err UnexpectedEof))).
Proof.
  intros C B. destruct (C42_read_exact src C B) as (r & src' & R & C' & R1 & R2 & R3 & R4 & R5 & R6).
  unfold multistream_select, read_message. rewrite R. cbn [option_map]. destruct r as [[m|]|e|]; cbn [or_eof].
  - eexists _, src'. split; [|split; [exact C'|]].
    2: { left. exists m, (bytes_of src'). split; [apply R1; auto|]. split; reflexivity. }
    destruct (bytes_eqb m protocol); [reflexivity|]. destruct (bytes_eqb m na); reflexivity.
  - eexists _, src'. split; [reflexivity|]. split; [exact C'|]. right. split.
    + intros m rest S. apply R1 in S. destruct S; discriminate.
    + right. split; [intros X; apply R3 in X; discriminate|reflexivity].
  - eexists _, src'. split; [reflexivity|]. split; [exact C'|]. right. split.
    + intros m rest S. apply R1 in S. destruct S; discriminate.
    + destruct (R5 e eq_refl) as [->| ->]; [left; split; [apply R3; reflexivity|reflexivity]|right]. split; [intros X; apply R3 in X; discriminate|reflexivity].
  - contradiction.
Qed.
Lemma starts_unique data m rest m' rest' : bytes_ok data -> starts_with data m rest -> starts_with data m' rest' -> m' = m /\ rest' = rest.
Proof. intros B S1 S2. apply starts_flat in S1; [|exact B]. apply starts_flat in S2; [|exact B]. split; congruence. Qed.
(** C43: the request is written as one message, and the answer is accepted exactly when the
    first message of the peer is the protocol itself, unsupported exactly when it is [na];
    everything else is an error; what follows the reply is left unread. *)
Theorem C43_select_exact protocol src : clean src -> bytes_ok (bytes_of src) ->
  exists r src', multistream_select protocol src = (Some r, write_message protocol, src') /\ clean src' /\
    (forall rest, r = Ok Accepted /\ bytes_of src' = rest <-> starts_with (bytes_of src) protocol rest) /\
    (forall rest, r = Ok Unsupported /\ bytes_of src' = rest <-> starts_with (bytes_of src) na rest /\ protocol <> na) /\
    (r = Err UnexpectedEof <-> ~ bad_prefix (bytes_of src) /\ forall m rest, ~ starts_with (bytes_of src) m rest) /\
    (forall e, r = Err e -> e = UnexpectedEof \/ e = InvalidData) /\ r <> Panic.
Proof.
  intros C B. destruct (select_read protocol src C B) as (r & src' & E & C' & H). exists r, src'. split; [exact E|]. split; [exact C'|].
  destruct H as [(m & rest0 & S & Er & ->)|(N1 & H)].
  - assert (U : forall m' rest', starts_with (bytes_of src) m' rest' -> m' = m /\ rest' = rest0) by (intros m' rest' S'; exact (starts_unique _ _ _ _ _ B S S')).
    destruct (bytes_eqb m protocol) eqn:E1; [|destruct (bytes_eqb m na) eqn:E2].
    + apply bytes_eqb_eq in E1. subst m. split; [intros rest; split; [intros [_ X]; assert (rest = rest0) as -> by congruence; exact S|intros X; apply U in X; destruct X; split; congruence]|].
      split; [intros rest; split; [intros [X _]; discriminate|intros [X Y]; apply U in X; destruct X; congruence]|].
      split; [split; [discriminate|intros [_ X]; destruct (X _ _ S)]|]. split; discriminate.
    + apply bytes_eqb_eq in E2. apply bytes_eqb_neq in E1. subst m. split; [intros rest; split; [intros [X _]; discriminate|intros X; apply U in X; destruct X; congruence]|].
      split; [intros rest; split; [intros [_ X]; assert (rest = rest0) as -> by congruence; split; [exact S|congruence]|intros [X _]; apply U in X; destruct X; split; congruence]|].
      split; [split; [discriminate|intros [_ X]; destruct (X _ _ S)]|]. split; discriminate.
    + apply bytes_eqb_neq in E1, E2. split; [intros rest; split; [intros [X _]; discriminate|intros X; apply U in X; destruct X; congruence]|].
      split; [intros rest; split; [intros [X _]; discriminate|intros [X _]; apply U in X; destruct X; congruence]|].
      split; [split; [discriminate|intros [_ X]; destruct (X _ _ S)]|]. split; [intros e X; injection X as <-; auto|discriminate].
  - split; [intros rest; split; [intros [X _]; destruct H as [[_ H]|[_ H]]; congruence|intros X; destruct (N1 _ _ X)]|].
    split; [intros rest; split; [intros [X _]; destruct H as [[_ H]|[_ H]]; congruence|intros [X _]; destruct (N1 _ _ X)]|].
    split; [destruct H as [[H1 ->]|[H1 ->]]; split; try discriminate; tauto|].
    split; [intros e X; destruct H as [[_ ->]|[_ ->]]; injection X as <-; auto|destruct H as [[_ ->]|[_ ->]]; discriminate].
Qed.
Print Assumptions C43_select_exact.
(** C43: the handshake sends the header and succeeds exactly when the header comes back. *)
Theorem C43_handshake_exact src : clean src -> bytes_ok (bytes_of src) ->
  exists r src', multistream_handshake src = (Some r, write_message (ascii_bytes "/multistream/1.0.0" ++ [10]), src') /\ clean src' /\
    (forall rest, r = Ok tt /\ bytes_of src' = rest <-> starts_with (bytes_of src) (ascii_bytes "/multistream/1.0.0" ++ [10]) rest) /\ r <> Panic.
Proof.
  intros C B. destruct (C43_select_exact multistream_header src C B) as (r & src' & E & C' & A1 & A2 & A3 & A4 & A5).
  unfold multistream_handshake. rewrite E. change (ascii_bytes "/multistream/1.0.0" ++ [10]) with multistream_header.
  assert (P : exists r', r' <> Panic /\ (r' = Ok tt <-> r = Ok Accepted) /\ match Some r with
    | Some (Ok Accepted) => Some (Ok tt) | Some (Ok Unsupported) => Some (Err InvalidData) | Some (Err e) => Some (Err e) | Some Panic => Some Panic
    | None => None end = Some r').
  { destruct r as [[|]|e|]; [| | |contradiction]; eexists; (split; [|split; [|reflexivity]]); try discriminate; split; try discriminate; reflexivity. }
  destruct P as (r' & P1 & P2 & P3). rewrite P3. exists r', src'. split; [reflexivity|]. split; [exact C'|]. split; [|exact P1].
  intros rest. rewrite P2. apply A1.
Qed.
Print Assumptions C43_handshake_exact.

Lemma list_loop_write lossy names : forall fuel src rest, Forall fits names -> Forall (fun n => lossy n = n) names -> (length names < fuel)%nat -> clean src ->
  bytes_of src = frames names ++ rest ->
  exists src', list_loop lossy fuel (Some (blen (frames names))) src = (Some (Ok names), src') /\ clean src' /\ bytes_of src' = rest.
Proof.
  induction names as [|m names IH]; intros fuel src rest F U L C E; (destruct fuel as [|fuel]; [lia|]); cbn [list_loop]; unfold read_message.
  - change (frames []) with (@nil N) in *. change (blen []) with 0.
    destruct (read_opt_message (Some 0) src) as [[r l] s] eqn:R. apply read_opt_message_spec in R; [|exact C].
    destruct R as (u & r0 & (M1 & M2 & M3 & M4 & M5) & -> & R). cbn [effective firstn N.to_nat] in R. rewrite flat_nil in R.
    assert (r0 = Ok None) as -> by congruence. cbn [option_map or_eof]. exists s. split; [reflexivity|]. split; [exact M4|].
    specialize (M3 0 eq_refl). destruct u; [|cbn in M3; lia]. rewrite E in M1. cbn in M1. congruence.
  - inversion F as [|? ? F1 F2]; subst. inversion U as [|? ? U1 U2]; subst.
    change (frames (m :: names)) with (write_message m ++ frames names) in *. rewrite <- app_assoc in E.
    destruct (read_opt_message (Some (blen (write_message m ++ frames names))) src) as [[r l] s] eqn:R. apply read_opt_message_spec in R; [|exact C].
    destruct R as (u & r0 & M & -> & R). pose proof (moved_effective _ _ _ _ _ M) as ME. destruct M as (M1 & M2 & M3 & M4 & M5).
    cbn [effective] in R, ME. rewrite E in R, ME. rewrite app_assoc in R, ME. unfold blen in R, ME. rewrite Nat2N.id in R, ME.
    rewrite firstn_app_length in R, ME. rewrite flat_write in R by exact F1. assert (r0 = Ok (Some m)) as -> by congruence. cbn [option_map or_eof].
    assert (Er : effective l (bytes_of s) = frames names) by congruence. rewrite Er in ME. apply app_inv_tail in ME. subst u.
    assert (El : l = Some (blen (frames names))) by (rewrite M2; cbn [after]; f_equal; rewrite blen_app; lia). rewrite El.
    rewrite E in M1. apply app_inv_head in M1.
    destruct (IH fuel s rest F2 U2 ltac:(cbn in L; lia) M4 (eq_sym M1)) as (s' & -> & Cs & Es). exists s'. rewrite U1. auto.
Qed.
Lemma frames_length names : (length names <= length (frames names))%nat.
Proof.
  induction names as [|m names IH]; [cbn; lia|]. change (frames (m :: names)) with (write_message m ++ frames names). rewrite app_length. cbn [length].
  unfold write_message, encode_usize. rewrite app_length. destruct (encode_well_terminated (blen m)) as (i & x & -> & _). rewrite app_length. cbn [length]. lia.
Qed.
Lemma bytes_of_length src : (length (bytes_of src) <= length src)%nat.
Proof. unfold bytes_of. induction src as [|[b| | |e] src IH]; cbn [flat_map app length] in *; lia. Qed.
Lemma varint_none v rest src : clean src -> v < two64 -> bytes_of src = encode_u64 v ++ rest ->
  exists src', read_varint None src = (Some (Ok v), None, src') /\ clean src' /\ bytes_of src' = rest.
Proof.
  intros C V E. unfold read_varint. destruct (read_opt_varint None src) as [[r l] s] eqn:R. apply read_opt_varint_spec in R; [|exact C].
  destruct R as (u & r0 & (M1 & M2 & M3 & M4 & M5) & -> & R). cbn [effective after] in *. subst l. rewrite E in R. unfold flat_varint in R.
  rewrite feed_encode in R by exact V. assert (r0 = Ok (Some v)) as -> by congruence. assert (Lu : length (encode_u64 v) = length u) by congruence.
  exists s. split; [reflexivity|]. split; [exact M4|]. rewrite E in M1.
  pose proof (f_equal (skipn (length (encode_u64 v))) M1) as X. rewrite skipn_app_length, Lu, skipn_app_length in X. congruence.
Qed.
(** C43: the list that comes back is exactly the list that was sent ([lossy], the decoding of
    UTF-8 with replacement, leaves valid text as it is); the rest of the stream is untouched. *)
Theorem C43_list_round_trip lossy names src rest :
  (forall n, utf8_valid n = true -> lossy n = n) -> Forall (fun n => utf8_valid n = true) names ->
  blen (frames names) <= 65536 -> carries src (write_message (frames names) ++ rest) ->
  exists src', multistream_list lossy src = (Some (Ok names), write_message (ascii_bytes "ls" ++ [10]), src') /\ clean src' /\ bytes_of src' = rest.
Proof.
  intros Lo U Sz [C E]. unfold write_message, encode_usize in E. rewrite <- app_assoc in E.
  destruct (varint_none _ _ _ C (N.le_lt_trans _ 65536 two64 Sz eq_refl) E) as (s & R & Cs & Es). unfold multistream_list. rewrite R.
  replace (max_ls_response_size <? blen (frames names)) with false by (unfold max_ls_response_size; lia).
  assert (F : Forall fits names).
  { apply Forall_forall. intros n Hn. unfold fits. apply N.le_lt_trans with 65536; [|reflexivity]. apply N.le_trans with (blen (frames names)); [|exact Sz].
    apply in_split in Hn. destruct Hn as (l1 & l2 & ->). unfold frames. rewrite map_app, concat_app. cbn [map concat]. unfold write_message. rewrite !blen_app. lia. }
  assert (U' : Forall (fun n => lossy n = n) names) by (eapply Forall_impl; [|exact U]; intros n; apply Lo).
  pose proof (frames_length names). pose proof (bytes_of_length s). rewrite Es, app_length in H0.
  destruct (list_loop_write lossy names (S (length s)) s rest F U' ltac:(lia) Cs Es) as (s' & Q & Cs' & Es'). change (limited None (blen (frames names))) with (Some (blen (frames names))). rewrite Q.
  exists s'. auto.
Qed.
Print Assumptions C43_list_round_trip.
(** A response announced to be longer than 65536 bytes is refused before any of it is read. *)
Theorem C43_long_list_refused lossy n src rest : 65536 < n -> n < two64 -> carries src (encode_u64 n ++ rest) ->
  exists src', multistream_list lossy src = (Some (Err InvalidData), write_message (ascii_bytes "ls" ++ [10]), src') /\ bytes_of src' = rest.
Proof.
  intros L1 L2 [C E]. destruct (varint_none _ _ _ C L2 E) as (s & R & Cs & Es). unfold multistream_list. rewrite R.
  replace (max_ls_response_size <? n) with true by (unfold max_ls_response_size; lia). exists s. auto.
Qed.
Print Assumptions C43_long_list_refused.
Example C43_long_list_example : fst (fst (multistream_list (fun x => x) (map Byte (encode_u64 65537 ++ [1; 97])))) = Some (Err InvalidData).
Proof. vm_compute. reflexivity. Qed.
(** C43, refuted in part: a list cut off by the end of the connection is not reported: the
    entries that arrived are returned as if they were the whole list. *)
Theorem C43_cut_list_refuted lossy : (forall n, utf8_valid n = true -> lossy n = n) ->
  exists names src k, Forall (fun n => utf8_valid n = true) names /\ (k < length (write_message (frames names)))%nat /\
    carries src (firstn k (write_message (frames names))) /\
    exists l src', multistream_list lossy src = (Some (Ok l), write_message (ascii_bytes "ls" ++ [10]), src') /\ l <> names.
Proof.
  intros Lo. exists [[97]; [98]], [Byte 4; Byte 1; Byte 97; Byte 1], 4%nat. split; [repeat constructor|]. split; [vm_compute; lia|].
  split; [split; [repeat constructor|reflexivity]|]. exists [[97]], []. split; [|discriminate].
  assert (E : lossy [97] = [97]) by (apply Lo; reflexivity).
  rewrite <- E at 1. vm_compute. reflexivity.
Qed.
Print Assumptions C43_cut_list_refuted.
Example C43_exchange :
  let p := ascii_bytes "/ipfs/id/1.0.0" ++ [10] in
  fst (fst (multistream_select p (map Byte (write_message p)))) = Some (Ok Accepted) /\
  fst (fst (multistream_select p (map Byte (3 :: na)))) = Some (Ok Unsupported) /\
  fst (fst (multistream_select p (map Byte (write_message (firstn 10 p))))) = Some (Err InvalidData) /\
  fst (fst (multistream_handshake (map Byte (3 :: na)))) = Some (Err InvalidData) /\
  fst (fst (multistream_list (fun x => x) (map Byte (write_message (frames [[97]; [98; 99]]))))) = Some (Ok [[97]; [98; 99]]).
Proof. vm_compute. repeat split; reflexivity. Qed.

(** *** Dispatch *)
(** The registry after adding services in this order. *)
Definition registry {H} (services : list (bytes * H)) : list (service H) :=
  fold_left (fun e s => registry_add e (fst s) (snd s)) services [].
Lemma registry_map {H} (services : list (bytes * H)) :
  registry services = map (fun s => {| svc_name := fst s; svc_bname := fst s ++ [10]; svc_handler := snd s |}) services.
Proof.
  unfold registry. change (map ?f services) with ([] ++ map f services). generalize (@nil (service H)).
  induction services as [|s services IH]; intros e; cbn [fold_left map]; [symmetry; apply app_nil_r|]. rewrite IH. unfold registry_add. rewrite <- app_assoc. reflexivity.
Qed.
(** C44: a request finds the first service added under exactly that name. *)
Theorem C44_lookup_exact {H} (services : list (bytes * H)) request h :
  registry_lookup (registry services) request = Some h <->
  exists before name after, services = before ++ (name, h) :: after /\ request = name ++ [10] /\ Forall (fun s => fst s <> name) before.
Proof.
  rewrite registry_map. induction services as [|[n g] services IH]; cbn [map registry_lookup fst snd svc_bname svc_handler].
  - split; [discriminate|]. intros (b & n & a & E & _). destruct b; discriminate.
  - destruct (bytes_eqb (n ++ [10]) request) eqn:E.
    + apply bytes_eqb_eq in E. split.
      * intros X. injection X as <-. exists [], n, services. auto.
      * intros (b & m & a & Es & Er & F). destruct b as [|s b].
        -- cbn [app] in Es. injection Es as <- <- <-. reflexivity.
        -- cbn [app] in Es. injection Es as <- _. inversion F as [|? ? F1 _]. cbn [fst] in F1. exfalso. apply F1. subst request. apply app_inv_tail in Er. exact Er.
    + rewrite IH. split.
      * intros (b & m & a & Es & Er & F). exists ((n, g) :: b), m, a. split; [rewrite Es; reflexivity|]. split; [exact Er|]. constructor; [|exact F].
        cbn [fst]. intros ->. rewrite Er, bytes_eqb_refl in E. discriminate.
      * intros (b & m & a & Es & Er & F). destruct b as [|s b].
        -- cbn [app] in Es. injection Es as <- <- <-. rewrite Er, bytes_eqb_refl in E. discriminate.
        -- cbn [app] in Es. injection Es as <- Es. exists b, m, a. inversion F. auto.
Qed.
Print Assumptions C44_lookup_exact.
Lemma request_loop_unknown {H} (entries : list (service H)) unknown : forall fuel src rest,
  Forall fits unknown -> Forall (fun q => registry_lookup entries q = None) unknown -> clean src -> (length unknown < fuel)%nat ->
  bytes_of src = frames unknown ++ rest ->
  exists fuel' src', (1 <= fuel')%nat /\ clean src' /\ bytes_of src' = rest /\
    request_loop fuel entries src = let '(r, out, t) := request_loop fuel' entries src' in (r, frames (map (fun _ => na) unknown) ++ out, t).
Proof.
  induction unknown as [|q unknown IH]; intros fuel src rest F U C L E.
  - exists fuel, src. split; [cbn in L; lia|]. split; [exact C|]. split; [exact E|]. destruct (request_loop fuel entries src) as [[r o] t]. reflexivity.
  - destruct fuel as [|fuel]; [lia|]. inversion F as [|? ? F1 F2]; subst. inversion U as [|? ? U1 U2]; subst. cbn [request_loop].
    destruct (read_opt_message None src) as [[r l] s] eqn:R. apply none_spec in R; [|exact C]. destruct R as (r0 & -> & -> & C' & _ & R).
    change (frames (q :: unknown)) with (write_message q ++ frames unknown) in E. rewrite <- app_assoc in E. rewrite E, flat_write in R by exact F1.
    assert (r0 = Ok (Some q)) as -> by congruence. assert (Es : bytes_of s = frames unknown ++ rest) by congruence. rewrite U1.
    destruct (IH fuel s rest F2 U2 C' ltac:(cbn in L; lia) Es) as (f' & s' & Hf & Cs & Er & Q). exists f', s'.
    split; [exact Hf|]. split; [exact Cs|]. split; [exact Er|]. rewrite Q. destruct (request_loop f' entries s') as [[r o] t].
    cbn [map]. change (frames (na :: ?x)) with (write_message na ++ frames x). rewrite <- app_assoc. reflexivity.
Qed.
Lemma handler_header {H} (entries : list (service H)) src rest : clean src -> bytes_of src = write_message multistream_header ++ rest ->
  exists src', clean src' /\ bytes_of src' = rest /\
    connection_handler2 entries src = let '(r, out, t) := request_loop (S (length src')) entries src' in (r, write_message multistream_header ++ out, t).
Proof.
  intros C E. unfold connection_handler2, multistream_handshake, multistream_select, read_message.
  destruct (read_opt_message None src) as [[r l] s] eqn:R. apply none_spec in R; [|exact C]. destruct R as (r0 & -> & -> & C' & _ & R).
  rewrite E, flat_write in R by reflexivity. assert (r0 = Ok (Some multistream_header)) as -> by congruence. assert (Es : bytes_of s = rest) by congruence.
  cbn [option_map or_eof]. rewrite bytes_eqb_refl. exists s. auto.
Qed.
(** C44: unknown requests are each answered [na] and the connection goes on; the first known
    one is handed, with the unread rest of the stream, to the service registered for it, after
    a reply (always the identify protocol name; see below). *)
Theorem C44_dispatch {H} (services : list (bytes * H)) unknown request h src rest :
  Forall fits unknown -> fits request ->
  Forall (fun q => registry_lookup (registry services) q = None) unknown -> registry_lookup (registry services) request = Some h ->
  carries src (frames ((ascii_bytes "/multistream/1.0.0" ++ [10]) :: unknown ++ [request]) ++ rest) ->
  exists src', connection_handler2 (registry services) src =
      (Some (Ok (Some h)), frames ((ascii_bytes "/multistream/1.0.0" ++ [10]) :: map (fun _ => ascii_bytes "na" ++ [10]) unknown ++ [ascii_bytes "/ipfs/id/1.0.0" ++ [10]]), src') /\
    clean src' /\ bytes_of src' = rest.
Proof.
  intros F Fr U K [C E]. change (ascii_bytes "/multistream/1.0.0" ++ [10]) with multistream_header in *.
  change (frames (multistream_header :: ?x)) with (write_message multistream_header ++ frames x) in *.
  assert (FA : forall a b, frames (a ++ b) = frames a ++ frames b) by (intros; unfold frames; rewrite map_app, concat_app; reflexivity).
  rewrite FA in E. rewrite <- !app_assoc in E.
  destruct (handler_header (registry services) src _ C E) as (s & Cs & Es & Q).
  pose proof (bytes_of_length s) as L1. rewrite Es, !app_length in L1. pose proof (frames_length unknown) as L2.
  destruct (request_loop_unknown (registry services) unknown (S (length s)) s _ F U Cs ltac:(lia) Es) as (f & s2 & Hf & Cs2 & Es2 & Q2).
  rewrite Q, Q2. clear Q Q2. destruct f as [|f]; [lia|]. cbn [request_loop].
  destruct (read_opt_message None s2) as [[r l] s3] eqn:R. apply none_spec in R; [|exact Cs2]. destruct R as (r0 & -> & -> & C3 & _ & R).
  change (frames [request]) with (write_message request ++ []) in Es2. rewrite app_nil_r in Es2. rewrite Es2, flat_write in R by exact Fr.
  assert (r0 = Ok (Some request)) as -> by congruence. assert (Es3 : bytes_of s3 = rest) by congruence. rewrite K.
  exists s3. change (ascii_bytes "/ipfs/id/1.0.0" ++ [10]) with id_protocol. change (ascii_bytes "na" ++ [10]) with na. rewrite FA. change (frames [id_protocol]) with (write_message id_protocol ++ []). rewrite app_nil_r.
  split; [rewrite ?app_assoc; reflexivity|]. auto.
Qed.
Print Assumptions C44_dispatch.
(** C44: a peer that only asks for unknown services and ends the stream is answered [na] each
    time, and the connection ends without an error. *)
Theorem C44_unknown_only {H} (services : list (bytes * H)) unknown src :
  Forall fits unknown -> Forall (fun q => registry_lookup (registry services) q = None) unknown ->
  carries src (frames ((ascii_bytes "/multistream/1.0.0" ++ [10]) :: unknown)) ->
  exists src', connection_handler2 (registry services) src =
      (Some (Ok None), frames ((ascii_bytes "/multistream/1.0.0" ++ [10]) :: map (fun _ => ascii_bytes "na" ++ [10]) unknown), src').
Proof.
  intros F U [C E]. change (ascii_bytes "/multistream/1.0.0" ++ [10]) with multistream_header in *.
  change (frames (multistream_header :: ?x)) with (write_message multistream_header ++ frames x) in *.
  destruct (handler_header (registry services) src _ C E) as (s & Cs & Es & Q).
  pose proof (bytes_of_length s) as L1. rewrite Es in L1. pose proof (frames_length unknown) as L2. rewrite <- (app_nil_r (frames unknown)) in Es.
  destruct (request_loop_unknown (registry services) unknown (S (length s)) s _ F U Cs ltac:(lia) Es) as (f & s2 & Hf & Cs2 & Es2 & Q2).
  rewrite Q, Q2. clear Q Q2. destruct f as [|f]; [lia|]. cbn [request_loop].
  destruct (read_opt_message None s2) as [[r l] s3] eqn:R. apply none_spec in R; [|exact Cs2]. destruct R as (r0 & -> & -> & C3 & _ & R).
  rewrite Es2, flat_nil in R. assert (r0 = Ok None) as -> by congruence. exists s3. change (ascii_bytes "na" ++ [10]) with na. rewrite app_nil_r. reflexivity.
Qed.
Print Assumptions C44_unknown_only.
(** C44, refuted in part: the reply of [C44_dispatch] is the identify protocol name whatever
    was asked for, so the peer is told that the protocol it asked for was accepted only when
    that was identify. *)
Theorem C44_reply_is_identify_refuted :
  exists (services : list (bytes * nat)) request h src, registry_lookup (registry services) request = Some h /\
    carries src (frames [ascii_bytes "/multistream/1.0.0" ++ [10]; request]) /\
    fst (connection_handler2 (registry services) src) = (Some (Ok (Some h)), frames [ascii_bytes "/multistream/1.0.0" ++ [10]; ascii_bytes "/ipfs/id/1.0.0" ++ [10]]) /\
    request <> ascii_bytes "/ipfs/id/1.0.0" ++ [10].
Proof.
  exists [(ascii_bytes "/ipfs/id/1.0.0", 0%nat); (ascii_bytes "/ipfs/bitswap/1.2.0", 1%nat)], (ascii_bytes "/ipfs/bitswap/1.2.0" ++ [10]), 1%nat,
    (map Byte (frames [ascii_bytes "/multistream/1.0.0" ++ [10]; ascii_bytes "/ipfs/bitswap/1.2.0" ++ [10]])).
  split; [vm_compute; reflexivity|]. split; [split; [|vm_compute; reflexivity]|split; [vm_compute; reflexivity|vm_compute; discriminate]].
  apply Forall_forall. intros i Hi. apply in_map_iff in Hi. destruct Hi as (b & <- & _). exact I.
Qed.
Print Assumptions C44_reply_is_identify_refuted.
Example C44_first_wins : registry_lookup (registry [([97], 1%nat); ([98], 2%nat); ([97], 3%nat)]) [97; 10] = Some 1%nat /\
  registry_lookup (registry [([97], 1%nat)]) [97] = None.
Proof. vm_compute. auto. Qed.
