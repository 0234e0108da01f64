(** How much a peer can make the program hold: C144. *)
From Verif Require Import Base BaseProofs VarintModel VarintSpec VarintProofs VarintProofs2 MplexModel MplexProofs MplexProofs2 BinaryModel BinaryProofs MessageProofs MessageProofs2
  ProtobufProofs Asn1Model X509Model TlsCodesModel TlsTypesModel TlsTypesSpec TlsTypesProofs TlsRecordModel TlsRecordSpec TlsRecordProofs TlsRecordProps TlsClientModel TlsClientSpec
  TlsClientProofs TlsClientProofs2 TlsClientProofs5 TlsClientProps.
Local Open Scope string_scope. Local Open Scope list_scope. Local Open Scope N_scope.
Ltac Zify.zify_post_hook ::= Z.div_mod_to_equations.

(** *** Specification *)
(** Every chunk the transport delivers at once has [n] bytes at most (the programs read into
    buffers of 1024 bytes). *)
Definition chunks_of (n : nat) (answers : list answer) : Prop :=
  Forall (fun a => match a with ARead d => (length d <= n)%nat | _ => True end) answers.
(** What is buffered of a TLS handshake that is not over. *)
Definition held (s : ec_state) : nat :=
  match s with
  | EBegin _ _ _ p | EHelloSent _ _ _ p | EHelloReceived _ p _ _ _ _ | EMessagesReceived p _ _ => length (rr_in (ps_receiver p))
  | EDone c => length (rr_in (ps_receiver (cn_plain c)))
  | EError _ | EPanic => 0
  end.
Definition is_reading (s : ec_state) : Prop := match s with EHelloSent _ _ _ _ | EHelloReceived _ _ _ _ _ _ => True | _ => False end.
(** The largest record with its header. *)
Definition largest_record : nat := N.to_nat 16645.
(** The handshake driven by polls, each with its own answers of the transport; it ends when
    one of them is ready. *)
Inductive waits (P : primitives) : list (list answer * list wanswer) -> ec_state -> ec_state -> Prop :=
| waits_none s : waits P [] s s
| waits_one polls s s1 s2 answers w answers' w' sent : waits P polls s s1 ->
    establish_poll P s1 answers w = (Wait, Some s2, answers', w', sent) -> waits P (polls ++ [(answers, w)]) s s2.

(** *** Frames *)
Lemma waiting_prefix d e : buffered_frame (d ++ e) = Ok None -> buffered_frame d = Ok None.
Proof.
  intros H. pose proof (buffered_app d e) as B. rewrite H in B. destruct (buffered_frame d) as [[[f r]|]|x|]; [destruct B as [B _]; discriminate|reflexivity|discriminate|discriminate].
Qed.
Lemma frames_wait : forall chunks fs, Forall (fun d => d <> []) chunks -> fs_eof fs = false -> buffered_frame (fs_in fs ++ concat chunks) = Ok None ->
  poll_read_frame fs (map ARead chunks) = (Wait, MplexModel.with_in fs (fs_in fs ++ concat chunks), []).
Proof.
  induction chunks as [|c chunks IH]; intros fs N E H.
  - cbn [concat map] in *. rewrite app_nil_r in *. cbn [poll_read_frame]. rewrite H, E. destruct fs; reflexivity.
  - inversion N as [|? ? N1 N2]; subst. cbn [concat map poll_read_frame] in *. rewrite (waiting_prefix _ _ H), E. destruct c as [|b c]; [contradiction N1; reflexivity|].
    rewrite IH; [|exact N2|exact E|unfold MplexModel.with_in; cbn [fs_in]; rewrite <- app_assoc; exact H].
    unfold MplexModel.with_in. cbn [fs_in fs_out fs_eof]. rewrite <- app_assoc. reflexivity.
Qed.
(** A frame reader that waits holds no complete frame: less than what the header at the front
    announces. *)
Theorem C144_less_than_announced : forall answers fs fs' rest u hv lv r, bytes_ok (fs_in fs) -> Forall (fun a => match a with ARead d => bytes_ok d | _ => True end) answers ->
  poll_read_frame fs answers = (Wait, fs', rest) -> fs_in fs' = u ++ r -> frame_head u hv lv -> blen r < lv.
Proof.
  assert (W : forall answers fs fs' rest, bytes_ok (fs_in fs) -> Forall (fun a => match a with ARead d => bytes_ok d | _ => True end) answers ->
    poll_read_frame fs answers = (Wait, fs', rest) -> bytes_ok (fs_in fs') /\ buffered_frame (fs_in fs') = Ok None).
  { induction answers as [|a answers IH]; intros fs fs' rest B A; cbn [poll_read_frame]; destruct (buffered_frame (fs_in fs)) as [[[f r]|]|x|] eqn:E; try discriminate;
      destruct (fs_eof fs); try (destruct (fs_in fs); discriminate).
    - intros H. injection H as <- _. auto.
    - inversion A as [|? ? A1 A2]; subst. destruct a as [|[|b d]|e]; try discriminate; intros H.
      + injection H as <- _. auto.
      + apply IH in H; [exact H|exact B|exact A2].
      + apply IH in H; [exact H|unfold MplexModel.with_in; cbn [fs_in]; apply Forall_app; split; assumption|exact A2]. }
  intros answers fs fs' rest u hv lv r B A H Eu F. destruct (W _ _ _ _ B A H) as [B' N]. destruct (buffered_steps _ B') as [(u' & hv' & lv' & r' & E & F' & fl & _ & X)|[X _]].
  - rewrite Eu in E, B'. destruct (head_unique u r hv lv u' r' hv' lv' B' F F' E) as (<- & <- & <- & <-). rewrite X in N.
    destruct (two64 <=? blen u + lv); [discriminate|]. destruct (lv <=? blen r) eqn:C; [discriminate|]. lia.
  - exfalso. exact (X u hv lv r Eu F).
Qed.
Print Assumptions C144_less_than_announced.
(** But a header may announce anything: whatever the peer sends of the payload is held, in
    however small chunks it comes. *)
Theorem C144_announced_is_held_refuted : forall h len payload chunks fs, h < two64 -> h mod 8 < 7 -> blen payload < len -> len + 20 < two64 -> bytes_ok payload ->
  fs_in fs = [] -> fs_eof fs = false -> Forall (fun d => d <> []) chunks -> concat chunks = encode_u64 h ++ encode_u64 len ++ payload ->
  poll_read_frame fs (map ARead chunks) = (Wait, MplexModel.with_in fs (encode_u64 h ++ encode_u64 len ++ payload), []).
Proof.
  intros h len payload chunks fs Hh Hm Hp Hl B E1 E2 N C. rewrite (frames_wait chunks fs N E2); rewrite E1, C; [reflexivity|]. cbn [app].
  unfold buffered_frame. pose proof (extract_encode [] h (encode_u64 len ++ payload) Hh) as X. cbn [app length Nat.add] in X. rewrite X. cbn [bind].
  destruct (flag_ok h) as [[_ C7]|(fl & F & _)]; [lia|]. rewrite F. cbn [bind].
  rewrite extract_encode by lia. cbn [bind].
  assert (L : forall v, v < two64 -> (length (encode_u64 v) <= 10)%nat).
  { intros v Hv. pose proof (is_varint_encode v Hv) as V. apply V. }
  pose proof (L h Hh). pose proof (L len ltac:(lia)).
  destruct (two64 <=? N.of_nat (length (encode_u64 h) + length (encode_u64 len)) + len) eqn:T; [lia|].
  destruct (N.of_nat (length (encode_u64 h) + length (encode_u64 len)) + len <=? blen (encode_u64 h ++ encode_u64 len ++ payload)) eqn:T2; [|reflexivity].
  rewrite !blen_app in T2. unfold blen in *. lia.
Qed.
Print Assumptions C144_announced_is_held_refuted.
(** Nor does a header have to end: it is scanned again and again until its last byte comes. *)
Theorem C144_endless_header_refuted : forall n fs, fs_in fs = [] -> fs_eof fs = false ->
  poll_read_frame fs (repeat (ARead [128]) n) = (Wait, MplexModel.with_in fs (repeat 128 n), []).
Proof.
  intros n fs E1 E2. assert (M : repeat (ARead [128]) n = map ARead (repeat [128] n)) by (clear; induction n; cbn [repeat map]; [reflexivity|rewrite IHn; reflexivity]).
  assert (C : concat (repeat [128] n) = repeat 128 n) by (clear; induction n; cbn [repeat concat app]; [reflexivity|rewrite IHn; reflexivity]).
  rewrite M, frames_wait; [rewrite E1, C; reflexivity| |exact E2|].
  - apply Forall_forall. intros x I. apply repeat_spec in I. subst x. discriminate.
  - rewrite E1, C. cbn [app]. unfold buffered_frame, extract_varint_u64. cbn [skipn].
    assert (S0 : scan_varint (repeat 128 n) = None) by (clear; induction n; [reflexivity|]; cbn [repeat scan_varint]; rewrite IHn; reflexivity). rewrite S0. reflexivity.
Qed.
Print Assumptions C144_endless_header_refuted.

(** *** The TLS handshake *)
Lemma pop_wait r r' : pop_record r = (Wait, r') -> (length (rr_in r') < largest_record)%nat /\ rr_in r' = rr_in r.
Proof.
  unfold pop_record, largest_record. destruct (rr_in r) as [|b0 [|v1 [|v0 [|l1 [|l0 rest]]]]] eqn:E; intros H;
    try (assert (r' = r) as -> by congruence; rewrite E; cbn [length]; split; [lia|reflexivity]).
  rewrite of_be2 in H. unfold max_ciphertext in H. destruct (16640 <? 256 * l1 + l0) eqn:B1; [discriminate|].
  destruct (blen rest <? 256 * l1 + l0) eqn:B2; [|discriminate].
  destruct (rr_state r) eqn:S; cbn [starved] in H; try discriminate. assert (r' = r) as -> by congruence. rewrite E. cbn [length]. unfold blen in B2. split; [lia|reflexivity].
Qed.
Lemma pop_less r x r' : pop_record r = (x, r') -> (length (rr_in r') <= length (rr_in r))%nat.
Proof.
  intros H. destruct x as [|[[y|]|e|]]; try (rewrite (pop_none r r' _ H); [lia|intros y0 C; discriminate C]).
  apply pop_shorter in H. lia.
Qed.
Lemma cc_wait fuel : forall r r', pop_ignore_cc fuel r = (Wait, r') -> (length (rr_in r') < largest_record)%nat.
Proof.
  induction fuel as [|fuel IH]; intros r r' H; cbn [pop_ignore_cc] in H; [discriminate|].
  destruct (pop_record r) as [[|[[y|]|e|]] r1] eqn:E; try discriminate.
  - injection H as <-. exact (proj1 (pop_wait _ _ E)).
  - destruct (tr_type y); try discriminate. exact (IH _ _ H).
Qed.
Lemma cc_less fuel : forall r x r', pop_ignore_cc fuel r = (x, r') -> (length (rr_in r') <= length (rr_in r))%nat.
Proof.
  induction fuel as [|fuel IH]; intros r x r' H; cbn [pop_ignore_cc] in H; [injection H as _ <-; lia|].
  destruct (pop_record r) as [y r1] eqn:E. pose proof (pop_less _ _ _ E) as L.
  destruct y as [|[[y|]|e|]]; try (injection H as _ <-; exact L).
  destruct (tr_type y); try (injection H as _ <-; exact L). apply IH in H. lia.
Qed.
Lemma message_wait P r seq e ts r' n ts' : receive_encrypted_message P r seq e ts = (Wait, r', n, ts') -> (length (rr_in r') < largest_record)%nat.
Proof.
  unfold receive_encrypted_message, receive_record_ignore_cc. destruct (pop_ignore_cc _ r) as [[|[[y|]|x|]] r1] eqn:E; try discriminate.
  - intros H. injection H as <- _ _. exact (cc_wait _ _ _ E).
  - destruct (bind _ _) as [[[m raw] s]|x|]; discriminate.
Qed.
Lemma message_less P r seq e ts x r' n ts' : receive_encrypted_message P r seq e ts = (x, r', n, ts') -> (length (rr_in r') <= length (rr_in r))%nat.
Proof.
  unfold receive_encrypted_message, receive_record_ignore_cc. destruct (pop_ignore_cc _ r) as [y r1] eqn:E. apply cc_less in E.
  destruct y as [|[[y|]|z|]]; [|destruct (bind _ _) as [[[m raw] s]|z|]| | |]; intros H; injection H as _ <- _ _; exact E.
Qed.
Lemma messages_held fuel : forall P r se t s x r' se' t' s', receive_messages fuel P r se t s = (x, r', se', t', s') ->
  (length (rr_in r') <= length (rr_in r))%nat /\ (x = Wait -> (length (rr_in r') < largest_record)%nat).
Proof.
  induction fuel as [|fuel IH]; intros P r se t s x r' se' t' s' H.
  - destruct s; cbn [receive_messages] in H; injection H as <- <- _ _ _; split; try lia; discriminate.
  - cbn [receive_messages] in H. destruct (receive_encrypted_message P r (se_server se) (se_enc se) (Some t)) as [[[y r1] n] ts] eqn:E. pose proof (message_less _ _ _ _ _ _ _ _ _ E) as L.
    destruct s; try (injection H as <- <- _ _ _; split; [lia|discriminate]);
    (destruct y as [|[[m|]|e|]];
     [injection H as <- <- _ _ _; split; [exact L|intros _; exact (message_wait _ _ _ _ _ _ _ _ E)]| |injection H as <- <- _ _ _; split; [exact L|discriminate] ..];
     destruct m as [| | |h| |]; try (injection H as <- <- _ _ _; split; [exact L|discriminate]);
     destruct (on_handshake _ _ h) as [s1|e|]; [apply IH in H; destruct H as [H1 H2]; split; [lia|exact H2]|injection H as <- <- _ _ _; split; [exact L|discriminate] ..]).
Qed.

(** The reads of the transport one poll does from a state, and from the state after the step. *)
Definition reads (s : ec_state) : nat := match s with EBegin _ _ _ _ | EHelloSent _ _ _ _ => 2 | EHelloReceived _ _ _ _ _ _ => 1 | _ => 0 end.
Definition reads_after (s : ec_state) : nat := match s with EBegin _ _ _ _ => 2 | EHelloSent _ _ _ _ => 1 | _ => 0 end.
Definition begun_below (L : nat) (s : ec_state) : Prop := match s with EBegin _ _ _ _ => (held s < L)%nat | _ => True end.
Notation begun_small := (begun_below largest_record).
Definition is_sending (s : ec_state) : Prop := match s with EMessagesReceived _ _ _ => True | _ => False end.
Lemma flush_receiver p w x p' w' sent : stream_flush p w = (x, p', w', sent) -> ps_receiver p' = ps_receiver p.
Proof. unfold stream_flush. destruct (flush_out (ps_out p) (ps_write p) w) as [[[[r out] ws] w1] s1]. intros H. injection H as _ <- _ _. reflexivity. Qed.
Lemma hello_held P cfg private ts p m : let s := on_server_hello P cfg private ts p m in (held s <= length (rr_in (ps_receiver p)))%nat /\ (reads s <= 1)%nat /\ begun_small s.
Proof.
  unfold on_server_hello. destruct m as [[| | |[] | |]|]; cbn [held reads begun_below]; try (repeat split; lia).
  unfold ec_try. destruct (ciphers_from _) as [c|e|]; cbn [held reads begun_below]; try (repeat split; lia). destruct (handshake_encryption _ _ _ _ _) as [[prk secrets]|e|]; cbn [held reads begun_below]; repeat split; lia.
Qed.
Lemma flight_held P cfg p se t prk sm : let s := on_server_messages P cfg p se t prk sm in (held s <= length (rr_in (ps_receiver p)))%nat /\ (reads s <= 0)%nat /\ begun_small s.
Proof.
  unfold on_server_messages, ec_try. destruct (application_secrets _ _ _ _ _ _) as [a|e|]; cbn [held reads begun_below]; try (repeat split; lia).
  match goal with |- context [match ?m with Ok _ => _ | Err _ => _ | Panic => _ end] => destruct m as [[out t1]|e|] end; cbn [held reads begun_below]; try (repeat split; lia).
  destruct (client_finished _ _ _) as [fin|e|]; cbn [held reads begun_below]; try (repeat split; lia).
  destruct (encrypt_record _ _ _ _ _) as [rec|e|]; cbn [held reads begun_below]; try (repeat split; lia).
  destruct (incr _) as [n|e|]; cbn [held reads begun_below ps_receiver]; repeat split; lia.
Qed.
Lemma step_held P s w ready s' w' sent : poll_step P s w = (ready, s', w', sent) ->
  (held s' <= held s)%nat /\ (ready = true -> (reads s' <= reads_after s)%nat /\ begun_small s') /\
  (ready = false -> begun_small s -> is_sending s' \/ (held s' < largest_record)%nat).
Proof.
  destruct s as [cfg private ts p|cfg private ts p|cfg p se t prk st|p se secrets|c|e|]; cbn [poll_step]; intros H;
    try (injection H as <- <- _ _; cbn [held reads reads_after begun_below]; repeat split; try lia; discriminate).
  - destruct (stream_flush p w) as [[[x p'] w1] sent1] eqn:E. pose proof (flush_receiver _ _ _ _ _ _ E) as R.
    destruct x as [|[u|e|]]; injection H as <- <- _ _; cbn [held reads reads_after is_sending begun_below]; rewrite ?R; (split; [lia|]); (split; [intros C; first [discriminate C | split; [lia|exact Logic.I]]|]); intros C; (discriminate C || intros B; right; exact B).
  - destruct (receive_plaintext_message (ps_receiver p) ts) as [[x r] ts1] eqn:E. unfold receive_plaintext_message, receive_record_ignore_cc in E.
    destruct (pop_ignore_cc _ (ps_receiver p)) as [y r1] eqn:Q. pose proof (cc_less _ _ _ _ Q) as L.
    assert (r1 = r) as -> by (destruct y as [|[[y|]|e|]]; congruence).
    destruct x as [|[m|e|]]; injection H as <- <- _ _; cbn [held ps_receiver reads reads_after].
    + split; [exact L|]. split; [discriminate|]. assert (y = Wait) as -> by (destruct y as [|[[y|]|e|]]; [reflexivity|discriminate E ..]). apply cc_wait in Q. intros _ _. right. exact Q.
    + pose proof (hello_held P cfg private ts1 {| ps_receiver := r; ps_out := ps_out p; ps_write := ps_write p |} m) as (H1 & H2 & H3). cbn [ps_receiver] in H1. split; [lia|]. split; [intros _; split; assumption|]. discriminate.
    + split; [lia|]. split; [intros _; split; [lia|exact Logic.I]|]. discriminate.
    + split; [lia|]. split; [intros _; split; [lia|exact Logic.I]|]. discriminate.
  - destruct (receive_messages _ P (ps_receiver p) se t st) as [[[[x r] se1] t1] st1] eqn:E. apply messages_held in E. destruct E as [L W].
    destruct x as [|[m|e|]]; injection H as <- <- _ _; cbn [held ps_receiver reads reads_after].
    + split; [exact L|]. split; [discriminate|]. intros _ _. right. exact (W eq_refl).
    + pose proof (flight_held P cfg {| ps_receiver := r; ps_out := ps_out p; ps_write := ps_write p |} se1 t1 prk m) as (H1 & H2 & H3). cbn [ps_receiver] in H1. split; [lia|]. split; [intros _; split; assumption|]. discriminate.
    + split; [lia|]. split; [intros _; split; [lia|exact Logic.I]|]. discriminate.
    + split; [lia|]. split; [intros _; split; [lia|exact Logic.I]|]. discriminate.
  - destruct (stream_flush p w) as [[[x p'] w1] sent1] eqn:E. pose proof (flush_receiver _ _ _ _ _ _ E) as R.
    destruct x as [|[u|e|]]; injection H as <- <- _ _; unfold on_finished_sent; cbn [held reads reads_after is_sending begun_below connection_new cn_plain]; rewrite ?R; (split; [lia|]); (split; [intros C; first [discriminate C | split; [lia|exact Logic.I]]|]); intros C; (discriminate C || intros B; left; exact Logic.I).
Qed.
Lemma recv_held K r answers x r' answers' : chunks_of K answers -> poll_recv r answers = (x, r', answers') -> (length (rr_in r') <= length (rr_in r) + K)%nat /\ chunks_of K answers'.
Proof.
  intros C H. destruct answers as [|a answers]; cbn [poll_recv] in H; [injection H as _ <- <-; split; [lia|exact C]|]. inversion C as [|? ? C1 C2]; subst.
  destruct a as [|[|b d]|e]; injection H as _ <- <-; (split; [|exact C2]); unfold append_data, close; cbn [rr_in]; try lia.
  rewrite app_length. cbn [length] in *. lia.
Qed.
Lemma ec_recv_held K s answers x s' answers' : chunks_of K answers -> ec_recv s answers = Some (x, s', answers') ->
  (held s' <= held s + K)%nat /\ chunks_of K answers' /\ reads s = Datatypes.S (reads_after s') /\ begun_small s'.
Proof.
  intros C. destruct s as [cfg private ts p|cfg private ts p|cfg p se t prk st|p se secrets|c|e|]; cbn [ec_recv]; try discriminate;
    destruct (poll_recv (ps_receiver p) answers) as [[y r] a1] eqn:E; intros H; injection H as _ <- <-; destruct (recv_held K _ _ _ _ _ C E) as [L C2];
    cbn [held ps_receiver reads reads_after begun_below]; repeat split; try assumption; tauto.
Qed.
Lemma ec_none s answers : ec_recv s answers = None -> reads s = reads_after s.
Proof. destruct s; cbn [ec_recv]; try reflexivity; destruct (poll_recv _ _) as [[? ?] ?]; discriminate. Qed.
Lemma ec_poll_held K fuel : forall P s answers w x s' answers' w' sent, chunks_of K answers -> ec_poll fuel P s answers w = (x, s', answers', w', sent) ->
  (forall s1, s' = Some s1 -> (held s1 <= held s + reads s * K)%nat /\ (begun_small s -> is_sending s1 \/ (held s1 < largest_record)%nat)) /\
  (forall c, x = Done (Ok c) -> (held (EDone c) <= held s + reads s * K)%nat).
Proof.
  induction fuel as [|fuel IH]; intros P s answers w x s' answers' w' sent C H; [cbn [ec_poll] in H; injection H as <- <- _ _ _; split; intros; discriminate|].
  assert (T : forall s1 a1, chunks_of K a1 -> (held s1 + reads_after s1 * K <= held s + reads s * K)%nat -> (begun_small s -> begun_small s1) ->
    (let '(ready, s2, w2, sent2) := poll_step P s1 w in if ready then let '(y, s3, a3, w3, more) := ec_poll fuel P s2 a1 w2 in (y, s3, a3, w3, sent2 ++ more) else (Wait, Some s2, a1, w2, sent2)) = (x, s', answers', w', sent) ->
    (forall s1, s' = Some s1 -> (held s1 <= held s + reads s * K)%nat /\ (begun_small s -> is_sending s1 \/ (held s1 < largest_record)%nat)) /\
    (forall c, x = Done (Ok c) -> (held (EDone c) <= held s + reads s * K)%nat)).
  { intros s1 a1 C1 B1 B2 H1. destruct (poll_step P s1 w) as [[[ready s2] w2] sent2] eqn:E. destruct (step_held _ _ _ _ _ _ _ E) as (L1 & L2 & L3). destruct ready.
    - destruct (ec_poll fuel P s2 a1 w2) as [[[[y s3] a3] w3] more] eqn:E2. injection H1 as <- <- _ _ _. destruct (L2 eq_refl) as [L4 L5]. destruct (IH _ _ _ _ _ _ _ _ _ C1 E2) as [Q1 Q2].
      assert (M : (reads s2 * K <= reads_after s1 * K)%nat) by (apply Nat.mul_le_mono_r; exact L4).
      split; [intros s4 E4; destruct (Q1 s4 E4) as [Q3 Q4]; split; [lia|intros _; exact (Q4 L5)]|intros c Ec; specialize (Q2 c Ec); lia].
    - injection H1 as <- <- _ _ _. split; [|discriminate]. intros s3 E3. injection E3 as <-. split; [lia|]. intros B3. exact (L3 eq_refl (B2 B3)). }
  assert (D : ec_recv s answers = None \/ exists y s1 a1, ec_recv s answers = Some (y, s1, a1)) by (destruct (ec_recv s answers) as [[[y s1] a1]|]; [right; eauto|left; reflexivity]).
  destruct s as [cfg private ts p|cfg private ts p|cfg p se t prk st|p se secrets|c|e|]; cbn [ec_poll] in H;
    try (injection H as <- <- _ _ _; split; [discriminate|]; intros c0 Ec; first [discriminate Ec | injection Ec as <-; lia]);
    destruct D as [D|(y & s1 & a1 & D)]; rewrite D in H;
    try (apply (T _ _ C) in H; [exact H|apply ec_none in D; rewrite D; lia|tauto]);
    destruct (ec_recv_held K _ _ _ _ _ C D) as (R1 & R2 & R3 & R4);
    (destruct y as [|[u|e|]]; [| |injection H as <- <- _ _ _; split; intros; discriminate|];
     (apply (T _ _ R2) in H; [exact H|rewrite R3; cbn [Nat.mul]; lia|intros _; exact R4])).
Qed.

Lemma bound_of K L P s0 polls s : (0 < L)%nat -> held s0 = 0%nat ->
  (forall s answers w x s' answers' w' sent, chunks_of K answers -> establish_poll P s answers w = (x, s', answers', w', sent) ->
    (forall s1, s' = Some s1 -> (held s1 <= held s + reads s * K)%nat /\ (begun_below L s -> is_sending s1 \/ (held s1 < L)%nat)) /\
    (forall c, x = Done (Ok c) -> (held (EDone c) <= held s + reads s * K)%nat)) ->
  Forall (fun p => chunks_of K (fst p)) polls -> waits P polls s0 s ->
  (is_reading s -> (held s < L)%nat) /\ (held s < L + 2 * K)%nat /\
  forall answers w c s' answers' w' sent, chunks_of K answers -> establish_poll P s answers w = (Done (Ok c), s', answers', w', sent) ->
    (length (rr_in (ps_receiver (cn_plain c))) < L + 2 * K)%nat.
Proof.
  intros Pos Z0 A F W.
  assert (Two : forall s3, (reads s3 * K <= 2 * K)%nat) by (intros s3; apply Nat.mul_le_mono_r; destruct s3; cbn; lia).
  assert (J : (is_sending s \/ (held s < L)%nat) /\ (held s < L + 2 * K)%nat).
  { induction W as [s|polls s s1 s2 answers w answers' w' sent W IH E].
    - rewrite Z0. split; [right; exact Pos|lia].
    - apply Forall_app in F as [F1 F2]. inversion F2 as [|? ? F3 _]; subst. specialize (IH Z0 F1). destruct IH as [I1 I2].
      destruct (A _ _ _ _ _ _ _ _ F3 E) as [Q _]. destruct (Q s2 eq_refl) as [Q1 Q2].
      assert (B : begun_below L s1) by (destruct I1 as [I1|I1]; [destruct s1; contradiction || exact Logic.I|destruct s1; try exact Logic.I; exact I1]).
      specialize (Q2 B). split; [exact Q2|]. destruct I1 as [I1|I1]; [|specialize (Two s1); lia].
      destruct s1; try contradiction. cbn [reads Nat.mul] in Q1. lia. }
  destruct J as [J1 J2]. split; [intros R; destruct J1 as [J1|J1]; [destruct s; contradiction|exact J1]|]. split; [exact J2|].
  intros answers w c s' answers' w' sent C E. destruct (A _ _ _ _ _ _ _ _ C E) as [_ Q]. specialize (Q c eq_refl). cbn [held] in Q.
  destruct J1 as [J1|J1]; [destruct s; try contradiction; cbn [reads Nat.mul] in Q; lia|]. specialize (Two s). lia.
Qed.
(** The handshake holds less than one record when it waits for the server, and never more than
    that and two chunks; so does the connection it makes. *)
Theorem C144_handshake_bound : forall P K random session private cfg protocols polls s,
  Forall (fun p => chunks_of K (fst p)) polls -> waits P polls (establish P random session private cfg protocols) s ->
  (is_reading s -> (held s < largest_record)%nat) /\ (held s < largest_record + 2 * K)%nat /\
  forall answers w c s' answers' w' sent, chunks_of K answers -> establish_poll P s answers w = (Done (Ok c), s', answers', w', sent) ->
    (length (rr_in (ps_receiver (cn_plain c))) < largest_record + 2 * K)%nat.
Proof.
  intros P K random session private cfg protocols polls s F W. apply (bound_of K largest_record P (establish P random session private cfg protocols) polls s); [unfold largest_record; lia| | |exact F|exact W].
  - unfold establish, ec_try. destruct (encode_handshake _) as [f|e|]; reflexivity.
  - intros s0 answers w x s' answers' w' sent. apply (ec_poll_held K 7).
Qed.
Print Assumptions C144_handshake_bound.

(** *** The TLS connection *)
(** One read after the other, each with one chunk from the transport. *)
Fixpoint read_chunks (P : primitives) (c : connection) (room : nat) (chunks : list bytes) : list (poll (tls bytes)) * connection :=
  match chunks with
  | [] => ([], c)
  | d :: t => let '(x, c, _) := conn_read P c room [ARead d] in let '(xs, c) := read_chunks P c room t in (x :: xs, c)
  end.
Lemma delivered P kc ks c room b d answers raw t f more content : key_ok ks -> e_secrets (se_enc (cn_seq c)) = {| t_client := kc; t_server := ks |} ->
  cn_read c = RActive -> cn_in c = [] -> se_server (cn_seq c) + 1 < two64 -> (length content <= room)%nat ->
  rr_in (ps_receiver (cn_plain c)) ++ b :: d = raw ++ more -> is_record raw t f -> t <> 20 -> opens P ks (se_server (cn_seq c)) raw content 23 ->
  exists c', conn_read P c room (ARead (b :: d) :: answers) = (Done (Ok content), c', answers) /\
    cn_in c' = [] /\ rr_in (ps_receiver (cn_plain c')) = more /\ se_server (cn_seq c') = se_server (cn_seq c) + 1 /\ cn_read c' = RActive /\ e_secrets (se_enc (cn_seq c')) = {| t_client := kc; t_server := ks |}.
Proof.
  intros K E R I B Lr Er Ir T O. unfold conn_read. rewrite R. unfold fill_incoming. rewrite I. cbn [length fill_loop poll_recv with_receiver set_plain cn_seq cn_plain ps_receiver].
  rewrite (receive_complete P (append_data (ps_receiver (cn_plain c)) (b :: d)) _ _ None raw t f more Er Ir T). rewrite E. cbn [t_server].
  rewrite (decrypt_opens P ks (se_server (cn_seq c)) raw t f content K ltac:(lia) Ir O). cbn [bind]. unfold incr. destruct (two64 <=? se_server (cn_seq c) + 1) eqn:B3; [lia|]. cbn [bind option_map].
  eexists. unfold with_server_seq, with_receiver, with_in, set_plain. cbn [cn_in cn_plain cn_seq cn_read ps_receiver rr_in se_server se_enc e_secrets]. rewrite I. cbn [app].
  rewrite Nat.min_l by exact Lr. rewrite firstn_all, skipn_all. split; [reflexivity|]. cbn [cn_in cn_plain cn_seq cn_read ps_receiver rr_in se_server se_enc]. auto.
Qed.
Lemma grows P kc ks (raws : nat -> bytes) (data : nat -> N) room q : (1 <= room)%nat -> key_ok ks -> forall n k c,
  e_secrets (se_enc (cn_seq c)) = {| t_client := kc; t_server := ks |} -> cn_read c = RActive -> cn_in c = [] -> se_server (cn_seq c) = q + N.of_nat k -> q + N.of_nat (k + n) < two64 ->
  (forall i, (i < 2 * (k + n))%nat -> exists t f, is_record (raws i) t f /\ t <> 20 /\ opens P ks (q + N.of_nat i) (raws i) [data i] 23) ->
  rr_in (ps_receiver (cn_plain c)) = concat (map raws (seq k k)) ->
  exists c', read_chunks P c room (map (fun i => raws (2 * i)%nat ++ raws (2 * i + 1)%nat) (seq k n)) = (map (fun i => Done (Ok [data i])) (seq k n), c') /\
    rr_in (ps_receiver (cn_plain c')) = concat (map raws (seq (k + n) (k + n))).
Proof.
  intros Rm K. induction n as [|n IH]; intros k c E R I Q B O H.
  - exists c. split; [reflexivity|]. rewrite Nat.add_0_r. exact H.
  - cbn [seq map read_chunks]. destruct (O k ltac:(lia)) as (t & f & Ir & T & Op). destruct (O (2 * k)%nat ltac:(lia)) as (t2 & f2 & Ir2 & _ & _).
    destruct (raws (2 * k)%nat ++ raws (2 * k + 1)%nat) as [|b d] eqn:Ed.
    { exfalso. destruct Ir2 as (v1 & v0 & l1 & l0 & Er & _). rewrite Er in Ed. discriminate Ed. }
    destruct (delivered P kc ks c room b d [] (raws k) t f (concat (map raws (seq (Datatypes.S k) (Datatypes.S k)))) [data k] K E R I ltac:(lia) ltac:(cbn [length]; lia)) as (c1 & C1 & C2 & C3 & C4 & C5 & C6).
    + rewrite H, <- Ed. assert (Es : seq k k ++ [2 * k; 2 * k + 1]%nat = k :: seq (Datatypes.S k) (Datatypes.S k)).
      { change (k :: seq (Datatypes.S k) (Datatypes.S k)) with (seq k (Datatypes.S (Datatypes.S k))). replace (Datatypes.S (Datatypes.S k)) with (k + 2)%nat by lia. rewrite seq_app. cbn [seq]. replace (k + k)%nat with (2 * k)%nat by lia. replace (Datatypes.S (2 * k)) with (2 * k + 1)%nat by lia. reflexivity. }
      change (raws k ++ concat (map raws (seq (Datatypes.S k) (Datatypes.S k)))) with (concat (map raws (k :: seq (Datatypes.S k) (Datatypes.S k)))). rewrite <- Es, map_app, concat_app. cbn [map concat]. rewrite app_nil_r. reflexivity.
    + exact Ir.
    + exact T.
    + rewrite Q. exact Op.
    + rewrite C1. destruct (IH (Datatypes.S k) c1 C6 C5 C2) as (c2 & D1 & D2).
      * rewrite C4, Q. lia.
      * replace (Datatypes.S k + n)%nat with (k + Datatypes.S n)%nat by lia. exact B.
      * replace (Datatypes.S k + n)%nat with (k + Datatypes.S n)%nat by lia. exact O.
      * exact C3.
      * rewrite D1. exists c2. split; [reflexivity|]. replace (k + Datatypes.S n)%nat with (Datatypes.S k + n)%nat by lia. exact D2.
Qed.
(** Once the connection stands nothing is bounded: let the server send records of one byte each,
    two at a time.  However often the program reads, and every read succeeds, one record more
    stays in the buffer each time. *)
Theorem C144_connection_refuted : forall P kc ks c room n (raws : nat -> bytes) (data : nat -> N), (1 <= room)%nat -> key_ok ks ->
  e_secrets (se_enc (cn_seq c)) = {| t_client := kc; t_server := ks |} -> cn_read c = RActive -> cn_in c = [] -> rr_in (ps_receiver (cn_plain c)) = [] -> se_server (cn_seq c) = 0 -> N.of_nat n < two64 ->
  (forall i, (i < 2 * n)%nat -> exists t f, is_record (raws i) t f /\ t <> 20 /\ opens P ks (N.of_nat i) (raws i) [data i] 23) ->
  exists c', read_chunks P c room (map (fun i => raws (2 * i)%nat ++ raws (2 * i + 1)%nat) (seq 0 n)) = (map (fun i => Done (Ok [data i])) (seq 0 n), c') /\
    rr_in (ps_receiver (cn_plain c')) = concat (map raws (seq n n)) /\ (5 * n <= length (rr_in (ps_receiver (cn_plain c'))))%nat.
Proof.
  intros P kc ks c room n raws data Rm K E R I Er Q B O. destruct (grows P kc ks raws data room 0 Rm K n 0 c E R I) as (c' & C1 & C2).
  - rewrite Q. reflexivity.
  - cbn [Nat.add]. lia.
  - cbn [Nat.add]. intros i L. exact (O i L).
  - exact Er.
  - exists c'. split; [exact C1|]. cbn [Nat.add] in C2. split; [exact C2|]. rewrite C2.
    assert (G : forall m k, (k + m <= 2 * n)%nat -> (5 * m <= length (concat (map raws (seq k m))))%nat).
    { induction m as [|m IHm]; intros k L; [cbn; lia|]. cbn [seq map concat]. rewrite app_length. specialize (IHm (Datatypes.S k) ltac:(lia)).
      destruct (O k ltac:(lia)) as (t & f & (v1 & v0 & l1 & l0 & -> & _) & _). rewrite app_length. cbn [length]. lia. }
    apply G. lia.
Qed.
Print Assumptions C144_connection_refuted.

(** For example: five announced bytes of which three have come, in two chunks; the same chunks
    with the rest; six records in three chunks, three reads, three records still there. *)
Definition toy_record (i : nat) (d : N) : bytes := match protect toy toy_key (N.of_nat i) (inner_plaintext [d] 23 0) with Some r => r | None => [] end.
Example C144_sample :
  poll_read_frame frame_stream_new [ARead [10; 5; 1]; ARead [2; 3]] = (Wait, MplexModel.with_in frame_stream_new [10; 5; 1; 2; 3], []) /\
  fst (fst (poll_read_frame frame_stream_new [ARead [10; 5; 1]; ARead [2; 3]; ARead [4; 5; 6]])) <> Wait /\
  (exists c', read_chunks toy (toy_conn toy_key2 toy_key) 10 [toy_record 0 5 ++ toy_record 1 6; toy_record 2 7 ++ toy_record 3 8; toy_record 4 9 ++ toy_record 5 10] =
    ([Done (Ok [5]); Done (Ok [6]); Done (Ok [7])], c') /\ rr_in (ps_receiver (cn_plain c')) = toy_record 3 8 ++ toy_record 4 9 ++ toy_record 5 10) /\
  match establish_poll toy (toy_start SaNone) [ARead [22; 3; 3; 0; 90; 2; 0]] [WOk 999; WOk 0] with (Wait, Some s, _, _, _) => is_reading s /\ held s = 7%nat | _ => False end.
Proof.
  split; [vm_compute; reflexivity|]. split; [vm_compute; discriminate|]. split; [|vm_compute; auto]. eexists. split; vm_compute; reflexivity.
Qed.
