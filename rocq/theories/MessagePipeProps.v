(** Length-prefixed messages over a stream of mplex, in the clear and over TLS: C134. *)
From Verif Require Import Base BaseProofs VarintModel VarintProofs MplexModel MplexProps MplexSendProps MplexStreamSpec MplexPairProps LpioModel LpioSpec LpioProps
  TlsRecordModel TlsRecordSpec TlsClientModel TlsClientSpec SecureMplexModel SecureMplexSpec SecureMplexProps SecureMplexProps2.
From Coq Require Import Lia ZArith ZifyBool ZifyNat ZifyN.
Ltac Zify.zify_post_hook ::= Z.div_mod_to_equations.

(** *** Specification *)
(** What a reader of stream [j] finds when its reads go as in [t]: the pieces and the pauses, up
    to the first zero-length read, which is the end for it, or error. *)
Fixpoint as_read (j : stream_id) (t : trace) : list item :=
  match t with
  | [] => []
  | (NRead k _ _, NGot e) :: t =>
    if sid_eqb k j then
      match e with
      | EvBytes _ _ [] => []
      | EvBytes _ _ b => map Byte b ++ Cut :: as_read j t
      | EvWait => Pause :: as_read j t
      | _ => []
      end
    else as_read j t
  | _ :: t => as_read j t
  end.
(** The application reads messages of [src] for as long as it gets any. *)
Definition messages_in (src : list item) : list bytes := fst (read_all (Datatypes.S (length src)) src).
Definition outcome_in (src : list item) : option (outcome ioerr unit) := snd (read_all (Datatypes.S (length src)) src).
(** Messages were written whole and in order, but for the last one, which may be under way. *)
Definition writes_messages (msgs : list bytes) (d : bytes) : Prop :=
  Forall fits msgs /\ exists m k, fits m /\ (k < length (write_message m))%nat /\ d = frames msgs ++ firstn k (write_message m).

(** *** Lemmas *)
Lemma as_read_clean j t : clean (as_read j t).
Proof.
  unfold clean. induction t as [|[c e] t IH]; [constructor|]. destruct c as [tk|k tk room|k|k|c]; cbn [as_read]; try exact IH. destruct e as [e|r]; [|exact IH]. destruct (sid_eqb k j); [|exact IH].
  destruct e as [a| |i r [|b l]|a| |a| | |]; try constructor; try exact Logic.I; [|exact IH]. fold (map Byte l). cbn [app]. apply Forall_app. split; [apply Forall_forall; intros x X; apply in_map_iff in X; destruct X as (y & <- & _); exact Logic.I|]. constructor; [exact Logic.I|exact IH].
Qed.
Lemma bytes_of_app a b : bytes_of (a ++ b) = bytes_of a ++ bytes_of b. Proof. apply flat_map_app. Qed.
Lemma bytes_of_bytes l : bytes_of (map Byte l) = l. Proof. induction l as [|b l IH]; [reflexivity|]. cbn [map bytes_of flat_map app]. f_equal. exact IH. Qed.
(** A read of [k] answers for [k]. *)
Definition honest_event (ce : node_call * node_event) : Prop :=
  match ce with (NRead k _ _, NGot (EvBytes i _ _)) => i = k | (_, NGot (EvBytes _ _ _)) => False | _ => True end.
Lemma step_honest n c : honest_event (c, fst (node_step n c)).
Proof.
  destruct c as [tk|k tk room|k|k|c]; cbn [node_step]; unfold MplexPairProps.got; cbn [perform].
  - destruct (MplexModel.poll_accept_id (nd_shared n) tk (nd_in n)) as [[[r|] s] a]; [destruct r as [|[[i|]|e|]]|]; exact Logic.I.
  - destruct (MplexModel.poll_read (nd_shared n) k tk room (nd_in n)) as [[[r|] s] a]; [destruct r as [|[b|e|]]|]; (reflexivity || exact Logic.I).
  - exact Logic.I.
  - exact Logic.I.
  - destruct (send_step (nd_shared n) (nd_errs n) (nd_out n) c) as [[[[r s] er] w] se]. exact Logic.I.
Qed.
Lemma run_honest cs : forall n, Forall honest_event (fst (node_run n cs)).
Proof.
  induction cs as [|c cs IH]; intros n; cbn [node_run]; [constructor|]. pose proof (step_honest n c) as H. destruct (node_step n c) as [e n1]. specialize (IH n1). destruct (node_run n1 cs) as [t n2]. cbn [fst] in *. constructor; assumption.
Qed.
Lemma as_read_front j t : Forall honest_event t -> exists rest, received j t = bytes_of (as_read j t) ++ rest.
Proof.
  induction 1 as [|[c e] t H F (rest & IH)]; [exists []; reflexivity|].
  assert (R : received j ((c, e) :: t) = match e with NGot (EvBytes k _ b) => if sid_eqb k j then b else [] | _ => [] end ++ received j t) by reflexivity. rewrite R.
  destruct c as [tk|k tk room|k|k|c]; destruct e as [e|r]; try destruct e as [a| |i r l|a| |a| | |]; cbn [honest_event] in H; try contradiction; cbn [as_read app]; try (exists rest; exact IH); try subst i; destruct (sid_eqb k j); try (exists rest; exact IH); try (eexists; reflexivity).
  destruct l as [|b l]; [eexists; reflexivity|]. exists rest. rewrite bytes_of_app, bytes_of_bytes. rewrite IH, <- app_assoc. reflexivity.
Qed.
(** What a front of the written bytes is. *)
Lemma front_of_messages msgs : forall m k d rest, Forall fits msgs -> fits m -> (k < length (write_message m))%nat -> frames msgs ++ firstn k (write_message m) = d ++ rest ->
  exists l more m' k', msgs = l ++ more /\ fits m' /\ (k' < length (write_message m'))%nat /\ d = frames l ++ firstn k' (write_message m').
Proof.
  induction msgs as [|a msgs IH]; intros m k d rest F Fm K E.
  - exists [], [], m, (length d). split; [reflexivity|]. split; [exact Fm|]. cbn [frames map concat app] in *. assert (L : (length d <= k)%nat) by (apply (f_equal (@length N)) in E; rewrite app_length, firstn_length in E; lia). split; [lia|].
    apply (f_equal (firstn (length d))) in E. rewrite firstn_firstn, Nat.min_l in E by exact L. rewrite firstn_app_length in E. symmetry. exact E.
  - inversion F as [|? ? Fa Fms]; subst. change (frames (a :: msgs)) with (write_message a ++ frames msgs) in E. rewrite <- app_assoc in E. destruct (Nat.lt_ge_cases (length d) (length (write_message a))) as [L|L].
    + exists [], (a :: msgs), a, (length d). split; [reflexivity|]. split; [exact Fa|]. split; [exact L|]. cbn [frames map concat app]. apply (f_equal (firstn (length d))) in E. rewrite firstn_app_length, firstn_app in E. replace (length d - length (write_message a))%nat with O in E by lia. rewrite firstn_O, app_nil_r in E. symmetry. exact E.
    + assert (D : d = write_message a ++ skipn (length (write_message a)) d).
      { rewrite <- (firstn_skipn (length (write_message a)) d) at 1. f_equal. apply (f_equal (firstn (length (write_message a)))) in E. rewrite firstn_app_length, firstn_app in E. replace (length (write_message a) - length d)%nat with O in E by lia. rewrite firstn_O, app_nil_r in E. symmetry. exact E. }
      rewrite D, <- app_assoc in E. apply app_inv_head in E. destruct (IH m k _ _ Fms Fm K E) as (l & more & m' & k' & -> & F' & K' & E'). exists (a :: l), more, m', k'. split; [reflexivity|]. split; [exact F'|]. split; [exact K'|].
      rewrite D, E'. change (frames (a :: l)) with (write_message a ++ frames l). apply app_assoc.
Qed.
Lemma frames_length l : (length l <= length (frames l))%nat.
Proof. induction l as [|m l IH]; [reflexivity|]. change (frames (m :: l)) with (write_message m ++ frames l). rewrite app_length. cbn [length]. assert (0 < length (write_message m))%nat; [|lia]. unfold write_message. rewrite app_length. pose proof (encode_nonempty (blen m)). unfold encode_usize. destruct (encode_u64 (blen m)); [contradiction|cbn [length]; lia]. Qed.
Lemma bytes_of_length src : (length (bytes_of src) <= length src)%nat.
Proof. induction src as [|i src IH]; [reflexivity|]. cbn [bytes_of flat_map length]. rewrite app_length. fold (bytes_of src). destruct i; cbn [length]; lia. Qed.
Lemma read_front l m k src : Forall fits l -> fits m -> (k < length (write_message m))%nat -> clean src -> bytes_of src = frames l ++ firstn k (write_message m) ->
  read_all (Datatypes.S (length src)) src = (l, Some (if (k =? 0)%nat then Ok tt else Err UnexpectedEof)).
Proof.
  intros F Fm K C E. assert (L : (length l < Datatypes.S (length src))%nat) by (pose proof (frames_length l); pose proof (bytes_of_length src); apply (f_equal (@length N)) in E; rewrite app_length in E; lia).
  destruct k as [|k]; [apply C42_messages_round_trip; [exact F| |exact L]; split; [exact C|]; rewrite E, firstn_O, app_nil_r; reflexivity|].
  apply C42_cut_reported with (m := m) (k := Datatypes.S k); [exact F|exact Fm|lia|split; assumption|exact L].
Qed.
Lemma pipe_messages j t d rest msgs : Forall honest_event t -> d = received j t ++ rest -> writes_messages msgs d ->
  (exists more, msgs = messages_in (as_read j t) ++ more) /\ (outcome_in (as_read j t) = Some (Ok tt) \/ outcome_in (as_read j t) = Some (Err UnexpectedEof)).
Proof.
  intros H -> (F & m & k & Fm & K & E). destruct (as_read_front j t H) as (r & R). rewrite R, <- app_assoc in E. symmetry in E.
  destruct (front_of_messages msgs m k _ _ F Fm K E) as (l & more & m' & k' & -> & F' & K' & E'). apply Forall_app in F. destruct F as [F1 _].
  pose proof (read_front l m' k' _ F1 F' K' (as_read_clean j t) E') as X. unfold messages_in, outcome_in. rewrite X. cbn [fst snd]. split; [exists more; reflexivity|]. destruct (k' =? 0)%nat; [left|right]; reflexivity.
Qed.
Lemma pipe_all j t msgs : bytes_of (as_read j t) = received j t -> Forall fits msgs -> frames msgs = received j t ->
  messages_in (as_read j t) = msgs /\ outcome_in (as_read j t) = Some (Ok tt).
Proof.
  intros A F E. unfold messages_in, outcome_in. rewrite (read_front msgs [] 0 _ F eq_refl); [split; reflexivity| |apply as_read_clean|].
  - unfold write_message. rewrite app_length. vm_compute. lia.
  - rewrite A, <- E, firstn_O, app_nil_r. reflexivity.
Qed.

(** *** Over any transport that carries bytes in order *)
(** Whatever the calls at the two ends, and the pieces in which messages are written, carried and
    read: the messages read are the first ones written, none of them changed, joined or split. *)
Theorem C134_messages_in_order start sched x i msgs : session start sched -> ~ In (NDropReader (other_end i)) (calls_of (opposite x) sched) ->
  writes_messages msgs (written i (fst (history start x sched))) ->
  let src := as_read (other_end i) (fst (history start (opposite x) sched)) in
  (exists more, msgs = messages_in src ++ more) /\ (outcome_in src = Some (Ok tt) \/ outcome_in src = Some (Err UnexpectedEof)).
Proof.
  intros S Nd W. destruct (C115_streams_are_pipes start sched x i S Nd) as (rest & E). exact (pipe_messages _ _ _ _ _ (run_honest _ _) E W).
Qed.
Print Assumptions C134_messages_in_order.
(** When nothing is left on the way and all was read, the messages read are those written. *)
Theorem C134_all_messages start sched x i msgs : session start sched -> let y := opposite x in let j := other_end i in
  let nx := snd (history start x sched) in let ny := snd (history start y sched) in let src := as_read j (fst (history start y sched)) in
  ~ In (NDropReader j) (calls_of y sched) -> In j (connects (fst (history start y sched)) ++ accepts (fst (history start y sched))) ->
  fs_out (sh_frames (nd_shared nx)) = [] -> MplexModel.data_of (nd_in (start y)) = nd_sent nx ++ MplexModel.data_of (nd_in ny) ->
  fs_in (sh_frames (nd_shared ny)) = [] -> sh_incoming (nd_shared ny) = None ->
  bytes_of src = received j (fst (history start y sched)) -> Forall fits msgs -> written i (fst (history start x sched)) = frames msgs ->
  messages_in src = msgs /\ outcome_in src = Some (Ok tt).
Proof.
  intros S y j nx ny src Nd Ho Fo Da Fi Inc A F W. apply pipe_all; [exact A|exact F|]. rewrite <- W. exact (C115_everything_arrives start sched x i S Nd Ho Fo Da Fi Inc).
Qed.
Print Assumptions C134_all_messages.
(** *** Over TLS, with a network that does what it likes short of forging *)
Theorem C134_over_tls P key_of pre start es st x i msgs : secure_session P key_of (any_network P key_of pre) pre start es st ->
  ~ In (NDropReader (other_end i)) (map fst (trace_of (opposite x) es)) -> writes_messages msgs (written i (trace_of x es)) ->
  let src := as_read (other_end i) (trace_of (opposite x) es) in
  (exists more, msgs = messages_in src ++ more) /\ (outcome_in src = Some (Ok tt) \/ outcome_in src = Some (Err UnexpectedEof)).
Proof.
  intros S Nd W. destruct (C132_streams_are_pipes P key_of pre start es st x i S Nd) as (rest & E).
  assert (H : Forall honest_event (trace_of (opposite x) es)).
  { destruct S as (_ & B & S & _). pose proof (plain_history P key_of pre start es [] st (opposite x) B S) as H2. rewrite app_nil_r in H2. pose proof (run_honest (calls_of (opposite x) (plain_sched es)) (plain_start es (opposite x))) as R.
    change (node_run (plain_start es (opposite x)) (calls_of (opposite x) (plain_sched es))) with (history (plain_start es) (opposite x) (plain_sched es)) in R. rewrite H2 in R. exact R. }
  exact (pipe_messages _ _ _ _ _ H E W).
Qed.
Print Assumptions C134_over_tls.
(** *** Zero-length reads *)
(** That all has arrived and been read does not make the reader see it: an empty write, which is
    a frame without contents, ends the stream for the reader. *)
Definition gap_wire : bytes := wires [SendNew 33 None; SendMessage (Initiator 33) [1; 5]; SendMessage (Initiator 33) []; SendMessage (Initiator 33) [2; 6; 7]].
Definition gap_ends (x : side) : node :=
  match x with SideA => node_new [] (repeat (WOk 100) 10) | SideB => node_new [ARead (firstn 6 gap_wire); APending; ARead (skipn 6 gap_wire)] [] end.
Definition gap_calls : list (side * node_call) :=
  [(SideA, NSend (CallConnect None)); (SideA, NSend (CallWrite (Receiver 33) [1; 5])); (SideA, NSend (CallWrite (Receiver 33) [])); (SideA, NSend (CallWrite (Receiver 33) [2; 6; 7])); (SideA, NSend (CallFlush (Receiver 33)));
   (SideB, NAccept 1); (SideB, NRead (Initiator 33) 2 9); (SideB, NRead (Initiator 33) 2 9); (SideB, NRead (Initiator 33) 2 9); (SideB, NRead (Initiator 33) 2 9); (SideB, NRead (Initiator 33) 2 9)].
Lemma gap_session : session gap_ends gap_calls.
Proof.
  split; [|split; [|split; [|split; [|split]]]].
  - exists (fun x => nd_in (gap_ends x)), (fun x => nd_out (gap_ends x)). intros []; reflexivity.
  - intros x. split; [apply bytes_okb_spec; destruct x; vm_compute; reflexivity|destruct x; vm_compute; reflexivity].
  - vm_compute; reflexivity.
  - repeat constructor; cbn; try exact I; try (split; reflexivity); reflexivity.
  - apply carried_connected. vm_compute. reflexivity.
  - intros []; vm_compute; repeat split; intros i H; intuition.
Qed.
Theorem C134_empty_write_refuted : exists start sched x i msgs, session start sched /\ let y := opposite x in let j := other_end i in
  let nx := snd (history start x sched) in let ny := snd (history start y sched) in let src := as_read j (fst (history start y sched)) in
  ~ In (NDropReader j) (calls_of y sched) /\ In j (connects (fst (history start y sched)) ++ accepts (fst (history start y sched))) /\
  fs_out (sh_frames (nd_shared nx)) = [] /\ MplexModel.data_of (nd_in (start y)) = nd_sent nx ++ MplexModel.data_of (nd_in ny) /\
  fs_in (sh_frames (nd_shared ny)) = [] /\ sh_incoming (nd_shared ny) = None /\ Forall fits msgs /\ written i (fst (history start x sched)) = frames msgs /\
  received j (fst (history start y sched)) = frames msgs /\ outcome_in src = Some (Ok tt) /\ messages_in src <> msgs.
Proof.
  exists gap_ends, gap_calls, SideA, (Receiver 33), [[5]; [6; 7]]. split; [exact gap_session|]. cbv zeta. split; [vm_compute; intuition discriminate|]. split; [vm_compute; auto|].
  do 4 (split; [vm_compute; reflexivity|]). split; [repeat constructor|]. do 3 (split; [vm_compute; reflexivity|]). vm_compute. discriminate.
Qed.
Print Assumptions C134_empty_write_refuted.
(** The session of C115: a message of one byte, of which the length and the contents come in
    two pieces, and the length of the next; and the same over TLS with a network that replays. *)
Example C134_case : writes_messages [[2]] (written (Receiver 33) (fst (history ends SideA the_calls))) /\
  messages_in (as_read (Initiator 33) (fst (history ends SideB the_calls))) = [[2]] /\ outcome_in (as_read (Initiator 33) (fst (history ends SideB the_calls))) = Some (Err UnexpectedEof).
Proof. split; [|vm_compute; split; reflexivity]. split; [repeat constructor|]. exists [0; 0; 0], 1%nat. split; [reflexivity|]. split; [vm_compute; lia|vm_compute; reflexivity]. Qed.
Example C134_case_tls : secure_session toy toy_side (any_network toy toy_side toy_pre) toy_pre toy_start (entries with_replay) (final with_replay) /\
  writes_messages [[2]] (written (Receiver 33) (trace_of SideA (entries with_replay))) /\ messages_in (as_read (Initiator 33) (trace_of SideB (entries with_replay))) = [[2]].
Proof.
  destruct C132_example_replay as (S & _ & W & _). split; [exact S|]. split; [|computed]. rewrite W. split; [repeat constructor|]. exists [0; 0; 0], 1%nat. split; [reflexivity|]. split; [vm_compute; lia|vm_compute; reflexivity].
Qed.
