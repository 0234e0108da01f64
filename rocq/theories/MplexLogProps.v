(** The log of mplex frames, C130. *)
From Coq Require Import String Ascii.
From Verif Require Import Base BaseProofs ChatModel Asn1PrintProps HexDumpModel HexDumpProps VarintModel VarintSpec VarintProofs VarintProofs2 MplexModel MplexProofs MplexProofs2 MplexProps MplexLogModel.
Local Open Scope string_scope. Local Open Scope list_scope. Local Open Scope N_scope.

(** *** Vocabulary *)
(** What can be logged. *)
Inductive happened := Came (f : frame) | Went (s : stream_id) (o : frame_op) (data : bytes) | Drained | DrainFailed (text : bytes).
Definition happened_ok (h : happened) : Prop :=
  match h with Came f => bytes_ok (f_data f) | Went _ _ d => bytes_ok d | Drained => True | DrainFailed t => ~ In 10 t end.
(** The text of each. *)
Definition happened_text (h : happened) : bytes :=
  match h with
  | Came f => log_frame "<<<<" (f_id f) (f_op f) (f_data f)
  | Went s o d => log_frame ">>>>" s o d
  | Drained => ascii_bytes "[mplex] >>>> drained" ++ [10]
  | DrainFailed t => ascii_bytes "[mplex] >>>> drain error: " ++ t ++ [10]
  end.
(** What a call makes happen, given its result: every frame queued, every frame read; a
    drain, once all is sent and the transport was flushed or failed to. *)
Inductive makes (io : ioerr -> bytes) : log_call -> call_result -> list happened -> Prop :=
| mk_new num name : makes io (CNew num name) RNone [Went (Receiver num) New match name with Some n => n | None => [] end]
| mk_message s d : makes io (CMessage s d) RNone [Went s Message d]
| mk_close s : makes io (CClose s) RNone [Went s Close []]
| mk_read a f : makes io (CRead a) (RRead (Done (Ok (Some f)))) [Came f]
| mk_no_read a r : (forall f, r <> Done (Ok (Some f))) -> makes io (CRead a) (RRead r) []
| mk_drained a : makes io (CDrain a) (RDrain (Done (Ok tt))) [Drained]
| mk_failed a e : makes io (CDrain a) (RDrain (Done (Err e))) [DrainFailed (io e)]
| mk_failed_early a e : makes io (CDrain a) (RDrain (Done (Err e))) []
| mk_waits a : makes io (CDrain a) (RDrain Wait) [].
Inductive all_make (io : ioerr -> bytes) : list log_call -> list call_result -> list happened -> Prop :=
| am_nil : all_make io [] [] []
| am_cons c r h cs rs hs : makes io c r h -> all_make io cs rs hs -> all_make io (c :: cs) (r :: rs) (h ++ hs).

(** *** The log is what happened *)
Lemma drain_same io b out : forall answers, snd (poll_drain_said io b out answers) = poll_drain out answers.
Proof.
  intros answers. revert out. induction answers as [|a t IH]; intros [|x out]; cbn [poll_drain_said poll_drain snd]; try reflexivity; destruct a; try reflexivity.
  specialize (IH (skipn n (x :: out))). destruct (poll_drain_said io b (skipn n (x :: out)) t) as [l [[[r o] t'] s]]. cbn [snd] in IH. rewrite <- IH. reflexivity.
Qed.
Lemma drain_text io out : forall answers l r o t s, poll_drain_said io true out answers = (l, (r, o, t, s)) ->
  exists h, makes io (CDrain answers) (RDrain r) h /\ l = flat_map happened_text h.
Proof.
  intros answers l r o t s H.
  assert (G : (r = Wait /\ l = []) \/ (exists e, r = Done (Err e) /\ (l = [] \/ l = log_drain_error true (io e))) \/ (r = Done (Ok tt) /\ l = log_drain_ok true)).
  { revert out l r o t s H. induction answers as [|a u IH]; intros [|x out] l r o t s H; cbn [poll_drain_said] in H; try (injection H as <- <- <- <- <-; auto; fail).
    - destruct a; injection H as <- <- <- <- <-; eauto 8.
    - destruct a; try (injection H as <- <- <- <- <-; eauto 8; fail).
      destruct (poll_drain_said io true (skipn n (x :: out)) u) as [l1 [[[r1 o1] t1] s1]] eqn:E. injection H as <- <- <- <- <-. eapply IH, E. }
  destruct G as [[-> ->]|[(e & -> & [->| ->])|[-> ->]]].
  - exists []. split; [constructor|reflexivity].
  - exists []. split; [constructor|reflexivity].
  - exists [DrainFailed (io e)]. split; [constructor|]. cbn [flat_map happened_text]. rewrite app_nil_r. reflexivity.
  - exists [Drained]. split; [constructor|reflexivity].
Qed.
(** C130: with logging enabled, what is printed is exactly what happened, in order: the
    frames queued, the frames read, and the drains. *)
Theorem C130_log_is_what_happened io fs cs : forall text fs' rs sent, calls_said io true fs cs = (text, fs', rs, sent) ->
  exists hs, all_make io cs rs hs /\ text = flat_map happened_text hs.
Proof.
  revert fs. induction cs as [|c cs IH]; intros fs text fs' rs sent H; cbn [calls_said] in H.
  - injection H as <- <- <- <-. exists []. split; [constructor|reflexivity].
  - destruct (call_said io true fs c) as [[[l fs1] r] s1] eqn:E. destruct (calls_said io true fs1 cs) as [[[l2 fs2] rs2] s2] eqn:E2. injection H as <- <- <- <-.
    destruct (IH _ _ _ _ _ E2) as (hs & A & ->).
    assert (X : exists h, makes io c r h /\ l = flat_map happened_text h).
    { destruct c as [num name|s d|s|a|a]; cbn [call_said] in E.
      - injection E as <- <- <- <-. eexists. split; [constructor|]. cbn [flat_map happened_text]. rewrite app_nil_r. reflexivity.
      - injection E as <- <- <- <-. eexists. split; [constructor|]. cbn [flat_map happened_text]. rewrite app_nil_r. reflexivity.
      - injection E as <- <- <- <-. eexists. split; [constructor|]. cbn [flat_map happened_text]. rewrite app_nil_r. reflexivity.
      - unfold poll_read_said in E. destruct (poll_read_frame fs a) as [[r0 f0] a0]. cbn [fst] in E. injection E as <- <- <- <-.
        destruct r0 as [|[[f|]|e|]]; try (exists []; split; [constructor; intros; discriminate|reflexivity]).
        eexists. split; [constructor|]. cbn [flat_map happened_text]. rewrite app_nil_r. reflexivity.
      - destruct (poll_drain_said io true (fs_out fs) a) as [l0 [[[r0 o0] t0] s0]] eqn:D. injection E as <- <- <- <-. eapply drain_text, D. }
    destruct X as (h & M & ->). exists (h ++ hs). split; [constructor; assumption|]. rewrite flat_map_app. reflexivity.
Qed.
Print Assumptions C130_log_is_what_happened.
(** C130: logging changes nothing else, and with logging off nothing is printed. *)
Theorem C130_only_text io fs cs : let '(text, fs1, rs1, sent1) := calls_said io true fs cs in calls_said io false fs cs = ([], fs1, rs1, sent1).
Proof.
  revert fs. induction cs as [|c cs IH]; intros fs; cbn [calls_said]; [reflexivity|].
  assert (X : let '(l, fs1, r, s) := call_said io true fs c in call_said io false fs c = ([], fs1, r, s)).
  { destruct c as [num name|s d|s|a|a]; cbn [call_said]; try reflexivity.
    - unfold poll_read_said. destruct (poll_read_frame fs a) as [[r0 f0] a0]. cbn [fst]. destruct r0 as [|[[f|]|e|]]; reflexivity.
    - assert (Y : forall a out, fst (poll_drain_said io false out a) = []).
      { clear. induction a as [|x t IH]; intros [|y out]; cbn [poll_drain_said fst]; try reflexivity; destruct x; try reflexivity.
        specialize (IH (skipn n (y :: out))). destruct (poll_drain_said io false (skipn n (y :: out)) t) as [l [[[r o] t'] s]]. exact IH. }
      pose proof (drain_same io true (fs_out fs) a) as D1. pose proof (drain_same io false (fs_out fs) a) as D2. specialize (Y a (fs_out fs)).
      destruct (poll_drain_said io true (fs_out fs) a) as [l0 [[[r0 o0] t0] s0]], (poll_drain_said io false (fs_out fs) a) as [l1 [[[r1 o1] t1] s1]].
      cbn [snd fst] in *. subst l1. rewrite <- D1 in D2. injection D2 as -> -> -> ->. reflexivity. }
  destruct (call_said io true fs c) as [[[l fs1] r] s1]. rewrite X. specialize (IH fs1).
  destruct (calls_said io true fs1 cs) as [[[l2 fs2] rs2] s2]. rewrite IH. reflexivity.
Qed.
Print Assumptions C130_only_text.

(** *** The log can be read back *)
Definition lines (ls : list bytes) : bytes := flat_map (fun l => l ++ [10]) ls.
Lemma lines_app a b : lines (a ++ b) = lines a ++ lines b.
Proof. apply flat_map_app. Qed.
Lemma lines_inj a : forall b, Forall (fun l => ~ In 10 l) a -> Forall (fun l => ~ In 10 l) b -> lines a = lines b -> a = b.
Proof.
  induction a as [|x a IH]; intros [|y b] A B H; cbn [lines flat_map] in H; [reflexivity|..].
  - exfalso. symmetry in H. apply app_eq_nil in H. destruct H as [H _]. apply app_eq_nil in H. destruct H; discriminate.
  - exfalso. apply app_eq_nil in H. destruct H as [H _]. apply app_eq_nil in H. destruct H; discriminate.
  - inversion A as [|? ? A1 A2]; subst. inversion B as [|? ? B1 B2]; subst. rewrite <- !app_assoc in H. cbn [app] in H. apply split_at in H; [|assumption..].
    destruct H as [-> H]. f_equal. apply IH; assumption.
Qed.
Lemma joined_lines l : l <> [] -> joined l ++ [10] = lines l.
Proof.
  induction l as [|x l IH]; intros NE; [congruence|]. destruct l as [|y l]; [cbn; rewrite ?app_nil_r; reflexivity|].
  rewrite joined_cons by discriminate. change (lines (x :: y :: l)) with ((x ++ [10]) ++ lines (y :: l)). rewrite <- IH by discriminate. rewrite <- !app_assoc. reflexivity.
Qed.
Lemma dump_lines d : bytes_ok d -> exists t, Forall (fun x => ~ In 10 x) (map (app four) t) /\ indent (dump_alternate d) ++ [10] = lines (map (app four) t).
Proof.
  intros B. exists (map (numbered_line d) (seq 0 (line_count (length d)))). rewrite alternate_ok by exact B.
  assert (NE : map (numbered_line d) (seq 0 (line_count (length d))) <> []).
  { pose proof (count_pos (length d)). destruct (line_count (length d)); [congruence|discriminate]. }
  assert (F : Forall (fun x => ~ In 10 x /\ exists y, x = y ++ [124]) (map (numbered_line d) (seq 0 (line_count (length d))))).
  { apply Forall_forall. intros x X. apply in_map_iff in X. destruct X as (k & <- & _). split; [apply row_free; unfold chunk; apply bytes_ok_firstn, bytes_ok_skipn, B|].
    unfold numbered_line, row_text. eexists. rewrite !app_assoc. reflexivity. }
  split.
  - clear - F. induction F as [|x l [H _] F IH]; [constructor|]. cbn [map]. constructor; [|exact IH]. intros Y. apply in_app_or in Y. destruct Y as [Y|Y]; [|exact (H Y)]. repeat (destruct Y as [Y|Y]; [discriminate Y|]). exact Y.
  - rewrite C104_indent; [|exact NE| |].
    + apply joined_lines. destruct (map (numbered_line d) (seq 0 (line_count (length d)))); [congruence|discriminate].
    + eapply Forall_impl; [|exact F]. intros x (H & y & ->). split; [exact H|]. rewrite last_last. discriminate.
    + revert NE F. generalize (map (numbered_line d) (seq 0 (line_count (length d)))). intros l NE F. destruct (exists_last NE) as (l' & x & ->). rewrite last_last. apply Forall_app in F. destruct F as (_ & F). inversion F as [|? ? (_ & y & ->) _]; subst. intros E. apply app_eq_nil in E. destruct E; discriminate.
Qed.
Definition frame_line (arrow : string) s o (data : bytes) : bytes :=
  ascii_bytes "[mplex] " ++ ascii_bytes arrow ++ ascii_bytes " " ++ sid_debug s ++ ascii_bytes " " ++ op_debug o ++ ascii_bytes " <" ++ decimal (blen data) ++ ascii_bytes " bytes>".
Lemma log_frame_lines arrow s o d : bytes_ok d -> exists t, Forall (fun x => ~ In 10 x) (map (app four) t) /\
  indent (dump_alternate d) ++ [10] = lines (map (app four) t) /\ log_frame arrow s o d = lines (frame_line arrow s o d :: map (app four) t).
Proof.
  intros B. destruct (dump_lines d B) as (t & F & E). exists t. split; [exact F|]. split; [exact E|]. cbn [lines flat_map]. fold (lines (map (app four) t)). rewrite <- E.
  unfold log_frame, frame_line. rewrite <- !app_assoc. reflexivity.
Qed.
Lemma ascii_free s : forallb (fun c => negb (c =? 10)) (ascii_bytes s) = true -> ~ In 10 (ascii_bytes s).
Proof. intros H X. rewrite forallb_forall in H. apply H in X. discriminate X. Qed.
Lemma app_free (a b : bytes) : ~ In 10 a -> ~ In 10 b -> ~ In 10 (a ++ b).
Proof. intros A B X. apply in_app_or in X. tauto. Qed.
Lemma frame_line_free arrow s o d : ~ In 10 (ascii_bytes arrow) -> ~ In 10 (frame_line arrow s o d).
Proof.
  intros A. unfold frame_line, sid_debug, op_debug. repeat apply app_free; try exact A; try (apply ascii_free; reflexivity); try (apply decimal_free; lia);
    try destruct s; try destruct o; repeat apply app_free; try (apply ascii_free; reflexivity); apply decimal_free; lia.
Qed.
Lemma frame_line_inj arrow s o d s' o' d' : frame_line arrow s o d = frame_line arrow s' o' d' -> s = s' /\ o = o'.
Proof.
  intros H. unfold frame_line in H. do 3 apply app_inv_head in H.
  assert (K : s = s' /\ exists x y, op_debug o ++ ascii_bytes " <" ++ x = op_debug o' ++ ascii_bytes " <" ++ y).
  { destruct s as [n|n], s' as [n'|n']; cbn [sid_debug] in H; rewrite <- ?app_assoc in H; try (exfalso; discriminate H).
    - apply app_inv_head in H. change (ascii_bytes ")") with [41] in H. cbn [app] in H. apply split_at in H; [|apply decimal_free; lia..].
      destruct H as [H1 H2]. apply decimal_inj in H1. apply app_inv_head in H2. split; [congruence|eauto].
    - apply app_inv_head in H. change (ascii_bytes ")") with [41] in H. cbn [app] in H. apply split_at in H; [|apply decimal_free; lia..].
      destruct H as [H1 H2]. apply decimal_inj in H1. apply app_inv_head in H2. split; [congruence|eauto]. }
  destruct K as [-> (x & y & K)]. split; [reflexivity|]. destruct o, o'; try reflexivity; exfalso; discriminate K.
Qed.
(** The lines of an event: one that does not start with a space, and some that do. *)
Definition head_lines (h : happened) : bytes :=
  match h with
  | Came f => frame_line "<<<<" (f_id f) (f_op f) (f_data f)
  | Went s o d => frame_line ">>>>" s o d
  | Drained => ascii_bytes "[mplex] >>>> drained"
  | DrainFailed t => ascii_bytes "[mplex] >>>> drain error: " ++ t
  end.
Definition dump_of (h : happened) : bytes :=
  match h with Came f => indent (dump_alternate (f_data f)) ++ [10] | Went _ _ d => indent (dump_alternate d) ++ [10] | _ => [] end.
Lemma happened_lines h : happened_ok h -> exists t, Forall (fun x => ~ In 10 x) (head_lines h :: map (app four) t) /\
  dump_of h = lines (map (app four) t) /\ happened_text h = lines (head_lines h :: map (app four) t).
Proof.
  destruct h as [f|s o d| |text]; cbn [happened_ok head_lines dump_of happened_text]; intros K.
  - destruct (log_frame_lines "<<<<" (f_id f) (f_op f) (f_data f) K) as (t & F & E & T). exists t. split; [constructor; [apply frame_line_free, ascii_free; reflexivity|exact F]|]. auto.
  - destruct (log_frame_lines ">>>>" s o d K) as (t & F & E & T). exists t. split; [constructor; [apply frame_line_free, ascii_free; reflexivity|exact F]|]. auto.
  - exists []. split; [constructor; [apply ascii_free; reflexivity|constructor]|]. auto.
  - exists []. split; [constructor; [apply app_free; [apply ascii_free; reflexivity|exact K]|constructor]|]. split; [reflexivity|]. cbn [lines flat_map map]. rewrite app_nil_r, <- app_assoc. reflexivity.
Qed.
Definition not_spaced (l : list bytes) : Prop := match l with [] => True | x :: _ => hd 0 x <> 32 end.
Lemma spaced_cut t : forall t' r r', not_spaced r -> not_spaced r' -> map (app four) t ++ r = map (app four) t' ++ r' -> map (app four) t = map (app four) t' /\ r = r'.
Proof.
  induction t as [|x t IH]; intros [|x' t'] r r' N N' H; cbn [map app] in *; auto.
  - subst r. exfalso. apply N. reflexivity.
  - subst r'. exfalso. apply N'. reflexivity.
  - assert (H1 := f_equal (hd []) H). assert (H2 := f_equal (@tl bytes) H). cbn [hd tl] in H1, H2. destruct (IH _ _ _ N N' H2) as [E ->]. split; [|reflexivity]. f_equal; [exact H1|exact E].
Qed.
Lemma head_not_spaced h : hd 0 (head_lines h) <> 32.
Proof. destruct h; discriminate. Qed.
Lemma head_inj h h' : happened_ok h -> happened_ok h' -> head_lines h = head_lines h' -> dump_of h = dump_of h' -> h = h'.
Proof.
  assert (Dd : forall d d', bytes_ok d -> bytes_ok d' -> indent (dump_alternate d) ++ [10] = indent (dump_alternate d') ++ [10] -> d = d').
  { intros d d' B B' E. apply app_inv_tail in E. apply (proj2 (C104_indented_dump d B) d' B' E). }
  intros K K' H D. destruct h as [[s o d]|s o d| |t], h' as [[s' o' d']|s' o' d'| |t']; cbn [head_lines dump_of f_id f_op f_data happened_ok] in *;
    try (exfalso; discriminate H).
  - apply frame_line_inj in H. destruct H as [-> ->]. rewrite (Dd d d' K K' D). reflexivity.
  - apply frame_line_inj in H. destruct H as [-> ->]. rewrite (Dd d d' K K' D). reflexivity.
  - exfalso. destruct s; discriminate H.
  - exfalso. destruct s; discriminate H.
  - exfalso. destruct s'; discriminate H.
  - reflexivity.
  - exfalso. destruct s'; discriminate H.
  - apply app_inv_head in H. congruence.
Qed.
(** C130: two logs that read the same are logs of the same events: from what is printed one
    can tell every frame, with its stream, kind and data, and its place in the order. *)
Theorem C130_log_determines : forall hs hs', Forall happened_ok hs -> Forall happened_ok hs' ->
  flat_map happened_text hs = flat_map happened_text hs' -> hs = hs'.
Proof.
  assert (L : forall hs, Forall happened_ok hs -> exists ls, Forall (fun x => ~ In 10 x) ls /\ flat_map happened_text hs = lines ls /\ not_spaced ls /\ (ls = [] <-> hs = [])).
  { induction 1 as [|h hs K _ (ls & F & E & _ & _)]; [exists []; split; [constructor|]; split; [reflexivity|]; split; [exact Logic.I|tauto]|].
    destruct (happened_lines h K) as (t & F1 & _ & E1). exists ((head_lines h :: map (app four) t) ++ ls). split; [apply Forall_app; auto|].
    split; [cbn [flat_map]; rewrite E1, E, lines_app; reflexivity|]. split; [apply head_not_spaced|]. split; discriminate. }
  induction hs as [|h hs IH]; intros hs' K K' H.
  - destruct (L _ K') as (ls & F & E & _ & Z). cbn [flat_map] in H. rewrite E in H. symmetry. apply Z. destruct ls as [|x ls]; [reflexivity|].
    exfalso. symmetry in H. cbn [lines flat_map] in H. apply app_eq_nil in H. destruct H as [H _]. apply app_eq_nil in H. destruct H; discriminate.
  - destruct hs' as [|h' hs'].
    { destruct (L _ K) as (ls & F & E & _ & Z). rewrite E in H. cbn [flat_map] in H. destruct ls as [|x ls]; [apply Z; reflexivity|].
      exfalso. cbn [lines flat_map] in H. apply app_eq_nil in H. destruct H as [H _]. apply app_eq_nil in H. destruct H; discriminate. }
    inversion K as [|? ? K1 K2]; subst. inversion K' as [|? ? K1' K2']; subst. cbn [flat_map] in H.
    destruct (happened_lines h K1) as (t & F1 & D1 & E1). destruct (happened_lines h' K1') as (t' & F1' & D1' & E1').
    destruct (L _ K2) as (ls & F & E & NS & _). destruct (L _ K2') as (ls' & F' & E' & NS' & _).
    assert (Q : (head_lines h :: map (app four) t) ++ ls = (head_lines h' :: map (app four) t') ++ ls').
    { apply lines_inj; [apply Forall_app; auto..|]. rewrite !lines_app, <- E1, <- E1', <- E, <- E'. exact H. }
    cbn [app] in Q. assert (Q1 := f_equal (hd []) Q). assert (Q2 := f_equal (@tl bytes) Q). cbn [hd tl] in Q1, Q2.
    destruct (spaced_cut _ _ _ _ NS NS' Q2) as [Q3 Q4]. assert (h = h') as -> by (apply head_inj; [assumption..|rewrite D1, D1', Q3; reflexivity]).
    f_equal. apply IH; [assumption..|]. rewrite E, E', Q4. reflexivity.
Qed.
Print Assumptions C130_log_determines.

(** *** The log and the wire *)
(** The bytes of a frame that went: header and length as varints, then the data. *)
Definition on_wire (h : happened) : bytes :=
  match h with
  | Went (Receiver n) New d => wire_frame (header_of n NewStream) d
  | Went (Receiver n) Message d => wire_frame (header_of n MessageReceiver) d
  | Went (Initiator n) Message d => wire_frame (header_of n MessageInitiator) d
  | Went (Receiver n) Close d => wire_frame (header_of n CloseReceiver) d
  | Went (Initiator n) Close d => wire_frame (header_of n CloseInitiator) d
  | _ => []
  end.
Lemma drain_keeps out : forall answers, let '(r, o, t, s) := poll_drain out answers in out = s ++ o.
Proof.
  intros answers. revert out. induction answers as [|a u IH]; intros [|x out]; cbn [poll_drain]; try reflexivity; destruct a; try reflexivity.
  specialize (IH (skipn n (x :: out))). destruct (poll_drain (skipn n (x :: out)) u) as [[[r o] t'] s]. rewrite <- app_assoc, <- IH, firstn_skipn. reflexivity.
Qed.
Lemma read_keeps_out answers : forall fs, fs_out (snd (fst (poll_read_frame fs answers))) = fs_out fs.
Proof.
  induction answers as [|a t IH]; intros fs; cbn [poll_read_frame].
  - destruct (buffered_frame (fs_in fs)) as [[[f rest]|]|e|]; try reflexivity. destruct (fs_eof fs); [destruct (fs_in fs)|]; reflexivity.
  - destruct (buffered_frame (fs_in fs)) as [[[f rest]|]|e|]; try reflexivity. destruct (fs_eof fs); [destruct (fs_in fs); reflexivity|].
    destruct a as [|[|x data]|e]; try reflexivity; rewrite IH; reflexivity.
Qed.
(** C130: what is logged as gone is what the transport gets: the bytes sent, and those still
    queued, are those queued before and the frames of the log. *)
Theorem C130_log_and_wire io fs cs : forall text fs' rs sent, calls_said io true fs cs = (text, fs', rs, sent) ->
  exists hs, all_make io cs rs hs /\ text = flat_map happened_text hs /\ sent ++ fs_out fs' = fs_out fs ++ flat_map on_wire hs.
Proof.
  intros text fs' rs sent H. destruct (C130_log_is_what_happened io fs cs _ _ _ _ H) as (hs & A & T). exists hs. split; [exact A|]. split; [exact T|]. clear T.
  revert fs text fs' sent H. induction A as [|c r h cs rs hs M A IH]; intros fs text fs' sent H; cbn [calls_said] in H.
  - injection H as <- <- <-. rewrite app_nil_r. reflexivity.
  - destruct (call_said io true fs c) as [[[l fs1] r1] s1] eqn:E. destruct (calls_said io true fs1 cs) as [[[l2 fs2] rs2] s2] eqn:E2. injection H as <- <- <- <- <-.
    specialize (IH _ _ _ _ E2). rewrite flat_map_app, <- app_assoc, IH, !app_assoc. f_equal.
    destruct M as [num name|s d|s|a f|a r Hr|a|a e|a e|a]; cbn [call_said] in E.
    + injection E as <- <- <-. destruct name; cbn [flat_map on_wire app]; rewrite app_nil_r; reflexivity.
    + injection E as <- <- <-. destruct s; cbn [flat_map on_wire app]; rewrite app_nil_r; reflexivity.
    + injection E as <- <- <-. destruct s; cbn [flat_map on_wire app]; rewrite app_nil_r; reflexivity.
    + unfold poll_read_said in E. pose proof (read_keeps_out a fs) as X. destruct (poll_read_frame fs a) as [[r0 f0] a0]. injection E as <- <- _ <-. cbn [fst snd] in X. rewrite X. cbn. rewrite app_nil_r. reflexivity.
    + unfold poll_read_said in E. pose proof (read_keeps_out a fs) as X. destruct (poll_read_frame fs a) as [[r0 f0] a0]. injection E as <- <- _ <-. cbn [fst snd] in X. rewrite X. cbn. rewrite app_nil_r. reflexivity.
    + pose proof (drain_same io true (fs_out fs) a) as D. pose proof (drain_keeps (fs_out fs) a) as X. rewrite <- D in X.
      destruct (poll_drain_said io true (fs_out fs) a) as [l0 [[[r0 o0] t0] s0]]. injection E as <- <- _ <-. cbn [snd] in X. cbn [flat_map on_wire with_out fs_out app]. rewrite app_nil_r. congruence.
    + pose proof (drain_same io true (fs_out fs) a) as D. pose proof (drain_keeps (fs_out fs) a) as X. rewrite <- D in X.
      destruct (poll_drain_said io true (fs_out fs) a) as [l0 [[[r0 o0] t0] s0]]. injection E as <- <- _ <-. cbn [snd] in X. cbn [flat_map on_wire with_out fs_out app]. rewrite app_nil_r. congruence.
    + pose proof (drain_same io true (fs_out fs) a) as D. pose proof (drain_keeps (fs_out fs) a) as X. rewrite <- D in X.
      destruct (poll_drain_said io true (fs_out fs) a) as [l0 [[[r0 o0] t0] s0]]. injection E as <- <- _ <-. cbn [snd] in X. cbn [flat_map on_wire with_out fs_out app]. rewrite app_nil_r. congruence.
    + pose proof (drain_same io true (fs_out fs) a) as D. pose proof (drain_keeps (fs_out fs) a) as X. rewrite <- D in X.
      destruct (poll_drain_said io true (fs_out fs) a) as [l0 [[[r0 o0] t0] s0]]. injection E as <- <- _ <-. cbn [snd] in X. cbn [flat_map on_wire with_out fs_out app]. rewrite app_nil_r. congruence.
Qed.
Print Assumptions C130_log_and_wire.

(** *** The two sides *)
(** What the log of the receiving side should show for a frame of the log of the sending
    side. *)
Definition same_frame (h h' : happened) : Prop :=
  match h, h' with Went s o d, Came f => f = {| f_id := s; f_op := o; f_data := d |} | _, _ => False end.
(** C130: a message or the closing of a stream is shown alike by both sides. *)
Theorem C130_both_sides_agree_partial s d : (match s with Receiver n | Initiator n => n end) < 2 ^ 61 -> blen d < 2 ^ 63 -> forall rest,
  (exists f, buffered_frame (append_message [] s d ++ rest) = Ok (Some (f, rest)) /\ same_frame (Went s Message d) (Came f)) /\
  (exists f, buffered_frame (append_close [] s ++ rest) = Ok (Some (f, rest)) /\ same_frame (Went s Close []) (Came f)).
Proof.
  intros Hn Hd rest. split.
  - exists {| f_id := s; f_op := Message; f_data := d |}. split; [|reflexivity]. rewrite (send_wire [] (SendMessage s d) : append_message [] s d = _). cbn [app].
    rewrite buffered_sent; [reflexivity|destruct s; exact Hn|exact Hd].
  - exists {| f_id := s; f_op := Close; f_data := [] |}. split; [|reflexivity]. rewrite (send_wire [] (SendClose s) : append_close [] s = _). cbn [app].
    rewrite buffered_sent; [reflexivity|destruct s; exact Hn|reflexivity].
Qed.
Print Assumptions C130_both_sides_agree_partial.
(** C130, refuted in part: the opening of a stream is not.  The one side logs that it is the
    receiver's stream, and the name; the other that it is the initiator's, and no data. *)
Theorem C130_opening_refuted n name rest : n < 2 ^ 61 -> blen name < 2 ^ 63 ->
  exists f, buffered_frame (append_new [] n (Some name) ++ rest) = Ok (Some (f, rest)) /\
    happened_text (Came f) = log_frame "<<<<" (Initiator n) New [] /\
    fst (append_new_said true [] n (Some name)) = log_frame ">>>>" (Receiver n) New name /\ ~ same_frame (Went (Receiver n) New name) (Came f).
Proof.
  intros Hn Hd. exists {| f_id := Initiator n; f_op := New; f_data := [] |}. rewrite (send_wire [] (SendNew n (Some name)) : append_new [] n (Some name) = _). cbn [app].
  rewrite buffered_sent; [|exact Hn|exact Hd]. split; [reflexivity|]. split; [reflexivity|]. split; [reflexivity|]. discriminate.
Qed.
Print Assumptions C130_opening_refuted.

(** A session: a stream is opened, a message sent, and an answer read. *)
Example C130_example : forall io,
  calls_said io true frame_stream_new
    [CNew 3 (Some (ascii_bytes "x")); CMessage (Initiator 3) (ascii_bytes "hello"); CDrain [WOk 4; WOk 7; WOk 0]; CRead [ARead [26; 2; 104]; ARead [105]]; CRead [APending]] =
  (lines (map ascii_bytes
    ["[mplex] >>>> Receiver(3) New <1 bytes>";
     "    00000000  78                                                |x|";
     "[mplex] >>>> Initiator(3) Message <5 bytes>";
     "    00000000  68 65 6c 6c 6f                                    |hello|";
     "[mplex] >>>> drained";
     "[mplex] <<<< Initiator(3) Message <2 bytes>";
     "    00000000  68 69                                             |hi|"]),
   frame_stream_new, [RNone; RNone; RDrain (Done (Ok tt)); RRead (Done (Ok (Some {| f_id := Initiator 3; f_op := Message; f_data := ascii_bytes "hi" |}))); RRead Wait],
   [24; 1; 120; 26; 5; 104; 101; 108; 108; 111]).
Proof. intros. vm_compute. reflexivity. Qed.
