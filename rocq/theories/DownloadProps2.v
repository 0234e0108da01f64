(** C96: the reader and the writer of a peer connection, side by side. *)
From Verif Require Import Base BaseProofs MplexModel LpioModel LpioSpec DownloadModel DownloadProps.

(** *** Specification *)
(** Everything the program may ever send after the handshake: an empty bit field (one bit a
    piece, rounded up to bytes), "interested", and a request for the first 16384 bytes. *)
Definition bit_bytes (pieces : N) : N := pieces / 8 + (if pieces mod 8 =? 0 then 0 else 1).
Definition first_part (pieces : N) : bytes := be_bytes 4 (1 + bit_bytes pieces) ++ [5] ++ repeat 0 (N.to_nat (bit_bytes pieces)) ++ [0; 0; 0; 1; 2].
Definition request_part : bytes := [0; 0; 0; 13; 6; 0; 0; 0; 0; 0; 0; 0; 0; 0; 0; 64; 0].
(** Neither loop can move. *)
Definition stuck (s : dstate) : Prop := forall s', ~ dstep s s'.
(** A run in which no write fails. *)
Inductive dreach_ok (pieces : N) (src : list item) : dstate -> Prop :=
| dk_start : dreach_ok pieces src (d_init pieces src)
| dk_next s s' : dreach_ok pieces src s -> dstep s s' -> (d_writer s' = WDone -> d_writer s = WDone \/ d_writer s = WHead) -> dreach_ok pieces src s'.

(** *** The invariant *)
Definition sent (s : dstate) (a : waction) : bool :=
  match a with ABitField => d_sent_bitfield s | AInterested => d_interested s | ARequest => d_active_request s end ||
  match d_writer s, a with WFlag ABitField, ABitField | WFlag AInterested, AInterested | WFlag ARequest, ARequest => true | _, _ => false end.
Definition part (s : dstate) (a : waction) : bytes := if sent s a then raw_message (action_body (d_pieces s) a) else [].
Definition ready (s : dstate) : Prop :=
  match d_writer s with
  | WWriting ABitField | WFlag ABitField => d_sent_bitfield s = false
  | WWriting AInterested | WFlag AInterested => d_sent_bitfield s = true /\ d_interested s = false
  | WWriting ARequest | WFlag ARequest => d_interested s = true /\ d_active_request s = false /\ In Unchoke (d_seen s)
  | _ => True
  end.
Definition three (pieces : N) : bytes :=
  raw_message (action_body pieces ABitField) ++ raw_message (action_body pieces AInterested) ++ raw_message (action_body pieces ARequest).
Definition two (pieces : N) : bytes := raw_message (action_body pieces ABitField) ++ raw_message (action_body pieces AInterested).
Definition inv (pieces : N) (s : dstate) : Prop :=
  d_pieces s = pieces /\
  (d_choked s = false -> In Unchoke (d_seen s)) /\
  match d_writer s with
  | WDone => exists rest, three pieces = d_out s ++ rest /\ (In Unchoke (d_seen s) \/ (length (d_out s) <= length (two pieces))%nat)
  | _ => d_out s = part s ABitField ++ part s AInterested ++ part s ARequest /\ (d_interested s = true -> d_sent_bitfield s = true) /\
         (d_active_request s = true -> d_interested s = true /\ In Unchoke (d_seen s)) /\ ready s
  end.
Lemma notify_same s : notify s = with_reader s RPanicked \/ exists q, notify s = with_queue s q.
Proof. unfold notify. destruct (d_writer s); eauto. Qed.
Lemma inv_reader pieces s p : inv pieces s -> inv pieces (with_reader s p).
Proof. intros H. exact H. Qed.
Lemma inv_queue pieces s q : inv pieces s -> inv pieces (with_queue s q).
Proof. intros H. exact H. Qed.
Lemma inv_in pieces s q : inv pieces s -> inv pieces (with_in s q).
Proof. intros H. exact H. Qed.
Lemma inv_disc pieces s : inv pieces s -> inv pieces (with_disconnect s).
Proof. intros H. exact H. Qed.
Lemma inv_notify pieces s : inv pieces s -> inv pieces (notify s).
Proof. intros H. destruct (notify_same s) as [->|[q ->]]; [apply inv_reader|apply inv_queue]; exact H. Qed.
Lemma in_last {A} (x y : A) l : In x l -> In x (l ++ [y]).
Proof. intros H. apply in_or_app. left. exact H. Qed.
Lemma inv_seen pieces s m : inv pieces s -> inv pieces (with_seen s m).
Proof.
  intros (H1 & H2 & H3). split; [exact H1|]. cbn [d_choked d_seen with_seen d_writer d_out]. split; [intros C; apply in_last, H2, C|].
  unfold ready, part, sent in *. cbn [d_seen with_seen d_writer d_out d_sent_bitfield d_interested d_active_request d_pieces].
  destruct (d_writer s) as [| |a|a| |]; [| |destruct a|destruct a| |];
  [destruct H3 as (A & B & C & D); split; [exact A|]; split; [exact B|]; split; [intros X; destruct (C X); split; [assumption|apply in_last; assumption]|];
   first [exact D | destruct D as (D1 & D2 & D3); split; [exact D1|]; split; [exact D2|apply in_last; exact D3]] .. |].
  destruct H3 as (rest & E & [C|C]); exists rest; (split; [exact E|]); [left; apply in_last; exact C|right; exact C].
Qed.
Lemma inv_message pieces s m : inv pieces s -> inv pieces (on_received_message (with_seen s m) m).
Proof.
  intros H. pose proof (inv_seen _ _ m H) as X. unfold on_received_message. destruct m as [| | | | |i|b|i b blk|id bd]; try (apply inv_notify; exact X).
  - apply inv_notify. destruct X as (X1 & X2 & X3). split; [exact X1|]. split; [discriminate|exact X3].
  - apply inv_notify. destruct X as (X1 & X2 & X3). split; [exact X1|]. split; [|exact X3]. intros _. cbn. apply in_or_app. right. left. reflexivity.
  - destruct (negb _); [exact X|apply inv_notify; exact X].
Qed.
Lemma prefix_two pieces : three pieces = two pieces ++ raw_message (action_body pieces ARequest).
Proof. unfold three, two. rewrite <- app_assoc. reflexivity. Qed.
Lemma inv_step pieces s s' : inv pieces s -> dstep s s' -> inv pieces s'.
Proof.
  intros H St. destruct St as [s R D|s R D|s fuel m src R Q|s fuel e src R Q|s W D|s W D|s a W C|s W C|s a W|s a k W K|s a W|s n W Q].
  - apply inv_reader, H.
  - apply inv_reader, H.
  - apply inv_message. apply inv_reader, inv_in, H.
  - apply inv_disc, inv_reader, inv_in, H.
  - destruct H as (H1 & H2 & H3). rewrite W in H3. split; [exact H1|]. split; [exact H2|]. cbn [d_writer with_writer d_out d_seen].
    destruct H3 as (E & F & G & _). unfold part, sent in E. rewrite W in E. rewrite H1 in E. rewrite !Bool.orb_false_r in E.
    destruct (d_sent_bitfield s) eqn:B1; destruct (d_interested s) eqn:B2; destruct (d_active_request s) eqn:B3;
      try (specialize (F eq_refl); discriminate); try (destruct (G eq_refl); discriminate).
    + exists []. rewrite E, app_nil_r. split; [reflexivity|]. left. apply G. reflexivity.
    + exists (raw_message (action_body pieces ARequest)). rewrite E, app_nil_r, prefix_two. split; [reflexivity|]. right. apply le_n.
    + exists (raw_message (action_body pieces AInterested) ++ raw_message (action_body pieces ARequest)). rewrite E. cbn [app]. rewrite app_nil_r. split; [reflexivity|].
      right. unfold two. rewrite app_length. lia.
    + exists (three pieces). rewrite E. split; [reflexivity|]. right. cbn. lia.
  - destruct H as (H1 & H2 & H3). rewrite W in H3. split; [exact H1|]. split; [exact H2|]. cbn. destruct H3 as (E & F & G & _).
    unfold part, sent in *. rewrite W in E. cbn. auto.
  - destruct H as (H1 & H2 & H3). rewrite W in H3. split; [exact H1|]. split; [exact H2|]. cbn [d_writer with_writer]. destruct H3 as (E & F & G & _).
    unfold part, sent in *. rewrite W in E. cbn [d_writer with_writer d_out d_sent_bitfield d_interested d_active_request d_pieces d_seen]. split; [exact E|]. split; [exact F|]. split; [exact G|].
    unfold ready. cbn [d_writer with_writer d_out d_sent_bitfield d_interested d_active_request d_pieces d_seen]. unfold choose in C.
    destruct (d_sent_bitfield s) eqn:B1; cbn [negb] in C; [|injection C as <-; exact eq_refl]. destruct (d_interested s) eqn:B2; cbn [negb] in C; [|injection C as <-; split; reflexivity].
    destruct (d_choked s) eqn:B4; cbn [negb andb] in C; [discriminate|]. destruct (d_active_request s) eqn:B3; cbn [negb] in C; [discriminate|]. injection C as <-.
    split; [reflexivity|]. split; [reflexivity|]. apply H2. reflexivity.
  - destruct H as (H1 & H2 & H3). rewrite W in H3. split; [exact H1|]. split; [exact H2|]. cbn. destruct H3 as (E & F & G & _).
    unfold part, sent in *. rewrite W in E. cbn. auto.
  - destruct H as (H1 & H2 & H3). rewrite W in H3. split; [exact H1|]. split; [exact H2|]. cbn [d_writer with_writer with_out]. destruct H3 as (E & F & G & I1).
    unfold ready in *. rewrite W in I1. unfold part, sent in *. rewrite W in E. cbn [d_writer with_writer with_out d_out d_sent_bitfield d_interested d_active_request d_pieces d_seen].
    rewrite E. rewrite !Bool.orb_false_r.
    split; [|split; [exact F|split; [exact G|exact I1]]].
    destruct a; cbn [orb].
    + destruct I1 as [B1 B2]. rewrite B1, B2. cbn [orb]. destruct (d_active_request s); [destruct (G eq_refl); congruence|]. cbn [orb]. rewrite !app_nil_r. reflexivity.
    + rewrite I1. cbn [orb]. destruct (d_interested s); [specialize (F eq_refl); congruence|]. destruct (d_active_request s); [destruct (G eq_refl); congruence|].
      cbn [orb app]. rewrite !app_nil_r. reflexivity.
    + destruct I1 as (B1 & B2 & B3). rewrite B1, B2. cbn [orb]. rewrite (F B1). cbn [orb]. rewrite app_nil_r, <- app_assoc. reflexivity.
  - destruct H as (H1 & H2 & H3). rewrite W in H3. split; [exact H1|]. split; [exact H2|]. cbn [d_writer with_writer with_out with_disconnect d_out d_seen].
    destruct H3 as (E & F & G & I1). unfold ready in I1. rewrite W in I1. unfold part, sent in E. rewrite W in E. rewrite H1 in *. rewrite !Bool.orb_false_r in E.
    assert (Sp : forall m : bytes, m = firstn k m ++ skipn k m) by (intros m; symmetry; apply firstn_skipn).
    destruct a.
    + destruct I1 as [B1 B2]. rewrite B1, B2 in E. destruct (d_active_request s); [destruct (G eq_refl); congruence|]. rewrite !app_nil_r in E. rewrite E.
      exists (skipn k (raw_message (action_body pieces AInterested)) ++ raw_message (action_body pieces ARequest)). split.
      * unfold three. rewrite (Sp (raw_message (action_body pieces AInterested))) at 1. rewrite <- !app_assoc. reflexivity.
      * right. unfold two. rewrite !app_length, firstn_length. lia.
    + rewrite I1 in E. destruct (d_interested s); [specialize (F eq_refl); congruence|]. destruct (d_active_request s); [destruct (G eq_refl); congruence|].
      cbn [app] in E. rewrite E. exists (skipn k (raw_message (action_body pieces ABitField)) ++ raw_message (action_body pieces AInterested) ++ raw_message (action_body pieces ARequest)). split.
      * unfold three. rewrite (Sp (raw_message (action_body pieces ABitField))) at 1. cbn [app]. rewrite <- !app_assoc. reflexivity.
      * right. unfold two. cbn [app]. rewrite !app_length, firstn_length. lia.
    + destruct I1 as (B1 & B2 & B3). rewrite B1, B2, (F B1) in E. rewrite app_nil_r in E. rewrite E. exists (skipn k (raw_message (action_body pieces ARequest))). split.
      * unfold three. rewrite (Sp (raw_message (action_body pieces ARequest))) at 1. rewrite <- !app_assoc. reflexivity.
      * left. exact B3.
  - destruct H as (H1 & H2 & H3). rewrite W in H3. split; [exact H1|]. split; [exact H2|]. cbn [d_writer with_writer set_flag]. destruct H3 as (E & F & G & I1).
    unfold ready in *. rewrite W in I1. unfold part, sent in *. rewrite W in E. cbn [d_writer with_writer set_flag d_out d_sent_bitfield d_interested d_active_request d_pieces d_seen].
    rewrite E. destruct a; cbn [orb] in *.
    + destruct I1 as [B1 B2]. rewrite B1, B2 in *. cbn [orb]. split; [reflexivity|]. split; [reflexivity|]. split; [intros X; destruct (G X); split; [reflexivity|assumption]|exact Logic.I].
    + rewrite I1 in *. destruct (d_interested s); [specialize (F eq_refl); congruence|]. cbn [orb]. split; [reflexivity|]. split; [discriminate|]. split; [intros X; destruct (G X); discriminate|exact Logic.I].
    + destruct I1 as (B1 & B2 & B3). rewrite B1, B2 in *. cbn [orb]. split; [rewrite !Bool.orb_false_r; reflexivity|]. split; [exact F|]. split; [split; [reflexivity|exact B3]|exact Logic.I].
  - destruct H as (H1 & H2 & H3). rewrite W in H3. split; [exact H1|]. split; [exact H2|]. cbn [d_writer with_writer]. destruct H3 as (E & F & G & _).
    unfold part, sent in *. rewrite W in E. cbn. auto.
Qed.
Lemma inv_reach pieces src s : dreach pieces src s -> inv pieces s.
Proof.
  induction 1 as [|s s' _ IH St]; [|exact (inv_step _ _ _ IH St)]. split; [reflexivity|]. split; [discriminate|]. cbn. split; [reflexivity|]. split; [discriminate|]. split; [discriminate|exact Logic.I].
Qed.
Lemma bit_bytes_required pieces : bitfield_bytes_required pieces = bit_bytes pieces.
Proof. unfold bitfield_bytes_required, bit_bytes. destruct (pieces mod 8 =? 0) eqn:E; lia. Qed.
Lemma three_parts pieces : pieces < 4294967296 -> two pieces = first_part pieces /\ three pieces = first_part pieces ++ request_part.
Proof.
  intros P. assert (T : two pieces = first_part pieces).
  { unfold two, first_part, raw_message. cbn [action_body]. rewrite bit_bytes_required. set (b := bit_bytes pieces). assert (Hb : b < 4294967295) by (unfold b, bit_bytes; destruct (pieces mod 8 =? 0); lia).
    clearbody b. replace (blen ([5] ++ repeat 0 (N.to_nat b)) mod two32) with (1 + b).
    2: { unfold blen. cbn [app length]. rewrite repeat_length. change two32 with 4294967296. rewrite N.mod_small; lia. }
    rewrite <- !app_assoc. reflexivity. }
  split; [exact T|]. rewrite prefix_two, T. reflexivity.
Qed.

(** *** C96 *)
(** C96: in every run, what has been sent is a prefix of the bit field, "interested" and one
    request, in this order; and the request is begun only after an unchoke was received. *)
Theorem C96_output pieces src s : pieces < 4294967296 -> dreach pieces src s ->
  (exists rest, first_part pieces ++ request_part = d_out s ++ rest) /\
  ((length (first_part pieces) < length (d_out s))%nat -> In Unchoke (d_seen s)).
Proof.
  intros P R. apply inv_reach in R. destruct R as (H1 & H2 & H3). destruct (three_parts pieces P) as [T2 T3].
  assert (Live : d_out s = part s ABitField ++ part s AInterested ++ part s ARequest /\ (d_interested s = true -> d_sent_bitfield s = true) /\
    (d_active_request s = true -> d_interested s = true /\ In Unchoke (d_seen s)) /\ ready s ->
    (exists rest, first_part pieces ++ request_part = d_out s ++ rest) /\ ((length (first_part pieces) < length (d_out s))%nat -> In Unchoke (d_seen s))).
  { intros (E & F & G & I1). rewrite <- T3, <- T2, E. unfold part. rewrite H1.
    destruct (sent s ARequest) eqn:S3.
    - assert (U : In Unchoke (d_seen s) /\ sent s AInterested = true /\ sent s ABitField = true).
      { unfold sent in S3 |- *. unfold ready in I1. destruct (d_active_request s).
        - destruct (G eq_refl) as [X Y]. rewrite X, (F X). auto.
        - destruct (d_writer s) as [| |[]|[]| |]; try discriminate. destruct I1 as (X & _ & Y). rewrite X, (F X). auto. }
      destruct U as (U & -> & ->). split; [|intros _; exact U]. exists []. unfold three. rewrite app_nil_r. reflexivity.
    - rewrite app_nil_r. destruct (sent s AInterested) eqn:S2.
      + assert (U : sent s ABitField = true).
        { unfold sent in S2 |- *. unfold ready in I1. destruct (d_interested s); [rewrite (F eq_refl); reflexivity|].
          destruct (d_writer s) as [| |[]|[]| |]; try discriminate. destruct I1 as [-> _]. reflexivity. }
        rewrite U. split; [exists (raw_message (action_body pieces ARequest)); apply prefix_two|]. unfold two. lia.
      + rewrite app_nil_r. split; [|unfold two; rewrite app_length; destruct (sent s ABitField); cbn [length]; lia].
        destruct (sent s ABitField); [|exists (three pieces); reflexivity]. exists (raw_message (action_body pieces AInterested) ++ raw_message (action_body pieces ARequest)). reflexivity. }
  destruct (d_writer s) eqn:W; try exact (Live H3). destruct H3 as (rest & E & C). split; [exists rest; rewrite <- T3; exact E|].
  intros L. destruct C as [C|C]; [exact C|]. rewrite T2 in C. lia.
Qed.
Print Assumptions C96_output.

(** A run in which no write fails does not panic. *)
Definition inv2 (s : dstate) : Prop :=
  (d_reader s = RHead \/ d_reader s = RDone \/ (d_reader s = RReading /\ d_disconnect s = false)) /\ (d_writer s = WDone -> d_disconnect s = true) /\
  (d_reader s = RDone -> d_disconnect s = true).
Lemma inv2_step s s' : inv2 s -> dstep s s' -> (d_writer s' = WDone -> d_writer s = WDone \/ d_writer s = WHead) -> inv2 s'.
Proof.
  intros (A & B & E) St C. destruct St as [s R D|s R D|s fuel m src R Q|s fuel e src R Q|s W D|s W D|s a W Ch|s W Ch|s a W|s a k W K|s a W|s n W Q].
  - split; [right; left; reflexivity|]. split; [exact B|]. intros _. exact D.
  - split; [right; right; split; [reflexivity|exact D]|]. split; [exact B|]. discriminate.
  - assert (D : d_disconnect s = false) by (destruct A as [A|[A|[_ A]]]; congruence).
    assert (W : d_writer s <> WDone) by (intros W; specialize (B W); congruence).
    assert (Nt : forall s1, d_writer s1 = d_writer s -> d_reader s1 = RHead -> d_disconnect s1 = false -> inv2 (notify s1)).
    { intros s1 W1 R1 D1. unfold notify. rewrite W1. destruct (d_writer s); try congruence; (split; [left; exact R1|]; split; [intros X; cbn [with_queue d_writer] in X; congruence|]; intros X; cbn [with_queue d_reader] in X; congruence). }
    unfold on_received_message. destruct m as [| | | | |i|b|i b blk|id bd]; try (apply Nt; [reflexivity|reflexivity|exact D]).
    destruct (negb _); [|apply Nt; [reflexivity|reflexivity|exact D]]. split; [left; reflexivity|]. split; reflexivity.
  - split; [left; reflexivity|]. split; reflexivity.
  - split; [exact A|]. split; [intros _; exact D|exact E].
  - split; [exact A|]. split; [discriminate|exact E].
  - split; [exact A|]. split; [discriminate|exact E].
  - split; [exact A|]. split; [discriminate|exact E].
  - split; [exact A|]. split; [discriminate|exact E].
  - exfalso. destruct (C eq_refl) as [X|X]; rewrite W in X; discriminate.
  - split; [exact A|]. split; [discriminate|exact E].
  - split; [exact A|]. split; [discriminate|exact E].
Qed.
Lemma inv2_reach pieces src s : dreach_ok pieces src s -> inv2 s.
Proof. induction 1 as [|s s' _ IH St C]; [|exact (inv2_step _ _ IH St C)]. split; [left; reflexivity|]. split; discriminate. Qed.
(** C96: as long as no write fails, no run panics, and a loop only ends after the other was told. *)
Theorem C96_no_panic pieces src s : dreach_ok pieces src s ->
  d_reader s <> RPanicked /\ (d_reader s = RDone \/ d_writer s = WDone -> d_disconnect s = true).
Proof.
  intros R. apply inv2_reach in R. destruct R as (A & B & E). split; [destruct A as [A|[A|[A _]]]; rewrite A; discriminate|]. intros [X|X]; auto.
Qed.
Print Assumptions C96_no_panic.

Tactic Notation "go" hyp(R) uconstr(step) := eapply d_next in R; [|refine step; first [reflexivity|vm_compute; lia]].
Tactic Notation "gok" hyp(R) uconstr(step) := eapply dk_next in R; [|refine step; reflexivity|discriminate].
(** C96 fails after a failed write: the next message from the peer panics the program, since
    the channel to the writer is gone. *)
Theorem C96_write_failure_refuted : exists pieces src s, dreach pieces src s /\ d_reader s = RPanicked.
Proof.
  exists 9, (map Byte [0; 0; 0; 1; 1]). pose proof (d_start 9 (map Byte [0; 0; 0; 1; 1])) as R.
  go R (r_go _ _ _). go R (w_go _ _ _). go R (w_choose _ ABitField _ _).
  go R (w_fail _ ABitField 3 _ _). go R (r_message _ 5 Unchoke [] _ _).
  eexists. split; [exact R|reflexivity].
Qed.
Print Assumptions C96_write_failure_refuted.
(** C96: what a run can still do. *)
Theorem C96_stuck s : (d_reader s = RDone \/ d_reader s = RPanicked \/ d_reader s = RReading /\ forall fuel, fst (read_peer_message fuel (d_in s)) = None) ->
  (d_writer s = WDone \/ d_writer s = WWait /\ d_queue s = 0%nat) -> stuck s.
Proof.
  intros R W s' St. destruct St as [s A D|s A D|s fuel m src A Q|s fuel e src A Q|s A D|s A D|s a A Ch|s A Ch|s a A|s a k A K|s a A|s n A Q].
  1, 2: destruct R as [R|[R|[R _]]]; congruence.
  1, 2: destruct R as [R|[R|[R Z]]]; [congruence|congruence|specialize (Z fuel); rewrite Q in Z; discriminate].
  all: destruct W as [W|[W Z]]; congruence.
Qed.
Print Assumptions C96_stuck.
(** C96 fails when the peer closes the connection: the reader ends, but nothing wakes the writer,
    which waits for ever, so that the program never ends; whatever the torrent is. *)
Theorem C96_close_refuted pieces : exists s, dreach_ok pieces [] s /\ d_reader s = RDone /\ d_writer s = WWait /\ stuck s.
Proof.
  assert (X : exists s, dreach_ok pieces [] s /\ d_reader s = RDone /\ d_writer s = WWait /\ d_queue s = 0%nat).
  { pose proof (dk_start pieces []) as R. gok R (r_go _ _ _). gok R (w_go _ _ _).
    gok R (w_choose _ ABitField _ _). gok R (w_write _ ABitField _). gok R (w_flag _ ABitField _).
    gok R (w_choose _ AInterested _ _). gok R (w_write _ AInterested _). gok R (w_flag _ AInterested _).
    gok R (w_nothing _ _ _). gok R (w_recv _ 0 _ _). gok R (w_go _ _ _). gok R (w_nothing _ _ _).
    gok R (r_error _ 1 (DIo UnexpectedEof) [] _ _). gok R (r_stop _ _ _).
    eexists. split; [exact R|]. split; [reflexivity|]. split; reflexivity. }
  destruct X as (s & R & A & B & C). exists s. split; [exact R|]. split; [exact A|]. split; [exact B|]. apply C96_stuck; [left; exact A|right; auto].
Qed.
Print Assumptions C96_close_refuted.
(** C96: "no request while choked" fails: a choke that arrives between the decision and the write
    does not stop the request. *)
Theorem C96_choked_request_refuted : exists pieces src s s',
  dreach pieces src s /\ d_choked s = true /\ last (d_seen s) KeepAlive = Choke /\ dstep s s' /\ d_out s' = d_out s ++ request_part.
Proof.
  exists 9, (map Byte [0; 0; 0; 1; 1; 0; 0; 0; 1; 0]). pose proof (d_start 9 (map Byte [0; 0; 0; 1; 1; 0; 0; 0; 1; 0])) as R.
  go R (r_go _ _ _). go R (r_message _ 5 Unchoke (map Byte [0; 0; 0; 1; 0]) _ _). go R (w_go _ _ _).
  go R (w_choose _ ABitField _ _). go R (w_write _ ABitField _). go R (w_flag _ ABitField _).
  go R (w_choose _ AInterested _ _). go R (w_write _ AInterested _). go R (w_flag _ AInterested _).
  go R (w_choose _ ARequest _ _). go R (r_go _ _ _). go R (r_message _ 5 Choke [] _ _).
  eexists. eexists. split; [exact R|]. split; [reflexivity|]. split; [reflexivity|]. split; [refine (w_write _ ARequest _); reflexivity|reflexivity].
Qed.
Print Assumptions C96_choked_request_refuted.
(** C96: a bit field of the wrong length stops the reader; of the right length it is accepted. *)
Theorem C96_bit_field s b : d_writer s <> WDone -> d_disconnect s = false ->
  (d_disconnect (on_received_message s (BitField b)) = true <-> blen b <> bit_bytes (d_pieces s)).
Proof.
  intros W D. unfold on_received_message. rewrite bit_bytes_required. destruct (blen b =? bit_bytes (d_pieces s)) eqn:E; cbn [negb].
  - apply N.eqb_eq in E. unfold notify. destruct (d_writer s); cbn; (split; [intros X; congruence|congruence]) || congruence.
  - apply N.eqb_neq in E. split; [intros _; exact E|reflexivity].
Qed.
Print Assumptions C96_bit_field.
Example C96_example : first_part 9 ++ request_part =
  [0; 0; 0; 3; 5; 0; 0;  0; 0; 0; 1; 2;  0; 0; 0; 13; 6; 0; 0; 0; 0; 0; 0; 0; 0; 0; 0; 64; 0] /\ bit_bytes 16 = 2 /\ bit_bytes 17 = 3.
Proof. repeat split. Qed.
