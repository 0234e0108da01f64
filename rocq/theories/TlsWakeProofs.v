(** Proofs for C125. *)
From Verif Require Import Base BaseProofs MplexModel BinaryModel TlsCodesModel TlsTypesModel TlsRecordModel TlsClientModel TlsClientSpec TlsClientProofs TlsHonestSpec TlsHonestProofs3 TlsWakeModel TlsWakeSpec.

(** *** A poll that waits leaves the receiver as the next poll finds it *)
Lemma pop_waits r r' : pop_record r = (Wait, r') -> r' = r /\ rr_state r = RActive.
Proof.
  unfold pop_record. destruct (rr_in r) as [|b0 [|v1 [|v0 [|l1 [|l0 rest]]]]] eqn:E; try (unfold starved; destruct (rr_state r); intros H; inversion H; auto; fail).
  cbv zeta. destruct (max_ciphertext <? _); [discriminate|]. destruct (blen rest <? _); [|discriminate].
  unfold starved. destruct (rr_state r); intros H; inversion H; auto.
Qed.
Lemma pop_state r x r' : pop_record r = (Done (Ok (Some x)), r') -> rr_state r' = rr_state r.
Proof.
  unfold pop_record. destruct (rr_in r) as [|b0 [|v1 [|v0 [|l1 [|l0 rest]]]]] eqn:E; try (unfold starved; destruct (rr_state r); intros H; inversion H; auto; fail).
  cbv zeta. destruct (max_ciphertext <? _); [discriminate|]. destruct (blen rest <? _).
  - unfold starved. destruct (rr_state r); intros H; inversion H; auto.
  - intros H. inversion H. reflexivity.
Qed.
Lemma pop_cc_waits fuel : forall r r', pop_ignore_cc fuel r = (Wait, r') -> pop_record r' = (Wait, r') /\ rr_state r = RActive.
Proof.
  induction fuel as [|fuel IH]; intros r r' H; cbn [pop_ignore_cc] in H; [discriminate|].
  destruct (pop_record r) as [[|[[x|]|e|]] r1] eqn:E; try discriminate.
  - injection H as <-. destruct (pop_waits _ _ E) as [-> A]. auto.
  - pose proof (pop_state _ _ _ E) as S1. destruct (tr_type x); try discriminate. destruct (IH _ _ H) as [A B]. split; [exact A|congruence].
Qed.
Lemma record_waits r r' : receive_record_ignore_cc r = (Wait, r') -> receive_record_ignore_cc r' = (Wait, r') /\ rr_state r = RActive.
Proof. unfold receive_record_ignore_cc. intros H. destruct (pop_cc_waits _ _ _ H) as [A B]. split; [|exact B]. cbn [pop_ignore_cc]. rewrite A. reflexivity. Qed.
Lemma pop_cc_state fuel : forall r x r', pop_ignore_cc fuel r = (Done (Ok (Some x)), r') -> rr_state r' = rr_state r.
Proof.
  induction fuel as [|fuel IH]; intros r x r' H; cbn [pop_ignore_cc] in H; [discriminate|].
  destruct (pop_record r) as [[|[[y|]|e|]] r1] eqn:E; try discriminate.
  pose proof (pop_state _ _ _ E) as S1. destruct (tr_type y); try (injection H as <- <-; exact S1). rewrite (IH _ _ _ H). exact S1.
Qed.
Lemma plaintext_waits r ts r' ts' : receive_plaintext_message r ts = (Wait, r', ts') -> ts' = ts /\ receive_plaintext_message r' ts = (Wait, r', ts) /\ rr_state r = RActive.
Proof.
  unfold receive_plaintext_message. destruct (receive_record_ignore_cc r) as [[|[[x|]|e|]] r1] eqn:E; intros H; inversion H; subst.
  destruct (record_waits _ _ E) as [A B]. rewrite A. auto.
Qed.
Lemma encrypted_waits P r seq e ts r' n ts' : receive_encrypted_message P r seq e ts = (Wait, r', n, ts') ->
  n = seq /\ ts' = ts /\ rr_state r = RActive /\ forall ts2, receive_encrypted_message P r' seq e ts2 = (Wait, r', seq, ts2).
Proof.
  unfold receive_encrypted_message. destruct (receive_record_ignore_cc r) as [[|[[x|]|z|]] r1] eqn:E; intros H; try (inversion H; fail).
  - inversion H; subst. destruct (record_waits _ _ E) as [A B]. rewrite A. auto.
  - destruct (let? m := _ in _) as [[[m raw] s]|z|]; inversion H.
Qed.
Lemma encrypted_state P r seq e ts x r' n ts' : receive_encrypted_message P r seq e ts = (Done (Ok (Some x)), r', n, ts') -> rr_state r' = rr_state r.
Proof.
  unfold receive_encrypted_message. destruct (receive_record_ignore_cc r) as [[|[[y|]|z|]] r1] eqn:E; intros H; try (inversion H; fail).
  pose proof (pop_cc_state _ _ _ _ E) as S1. destruct (let? m := _ in _) as [[[m raw] s]|z|]; inversion H; subst; exact S1.
Qed.
Definition is_finished (s : client_state) : bool := match s with StFinished _ _ _ _ _ => true | _ => false end.
Lemma receive_messages_eq fuel P r se t s : is_finished s = false -> receive_messages (S fuel) P r se t s =
      let hash := get_hash P t in
      let '(x, r', n, ts) := receive_encrypted_message P r (se_server se) (se_enc se) (Some t) in
      let se' := {| se_client := se_client se; se_server := n; se_enc := se_enc se |} in
      let t' := match ts with Some t' => t' | None => t end in
      match x with
      | Wait => (Wait, r', se', t', s)
      | Done (Err e) => (Done (Err e), r', se', t', s)
      | Done Panic => (Done Panic, r', se', t', s)
      | Done (Ok None) => (Done (Err TUnexpectedEOF), r', se', t', s)
      | Done (Ok (Some (MHandshake h))) =>
        match on_handshake s hash h with
        | Ok s' => receive_messages fuel P r' se' t' s'
        | Err e => (Done (Err e), r', se', t', s)
        | Panic => (Done Panic, r', se', t', s)
        end
      | Done (Ok (Some _)) => (Done (Err TUnexpectedMessage), r', se', t', s)
      end.
Proof. destruct s; intros H; try discriminate H; reflexivity. Qed.
Lemma messages_wait fuel : forall P r se t s r' se' t' s', receive_messages fuel P r se t s = (Wait, r', se', t', s') ->
  rr_state r = RActive /\ forall fuel', receive_messages (S fuel') P r' se' t' s' = (Wait, r', se', t', s').
Proof.
  induction fuel as [|fuel IH]; intros P r se t s r' se' t' s' H.
  - destruct s; cbn [receive_messages] in H; discriminate H.
  - destruct (is_finished s) eqn:F; [destruct s; try discriminate F; cbn [receive_messages] in H; discriminate H|].
    rewrite (receive_messages_eq fuel P r se t s F) in H. cbv zeta in H.
    destruct (receive_encrypted_message P r (se_server se) (se_enc se) (Some t)) as [[[x r1] n] ts] eqn:E.
    destruct x as [|[[m|]|e|]]; try discriminate H.
    + injection H as <- <- <- <-. destruct (encrypted_waits _ _ _ _ _ _ _ _ E) as (-> & -> & A & B). split; [exact A|]. intros fuel'.
      rewrite (receive_messages_eq fuel' P r1 _ _ s F). cbn [se_server se_enc se_client]. rewrite B. reflexivity.
    + pose proof (encrypted_state _ _ _ _ _ _ _ _ _ E) as S1. destruct m; try discriminate H.
      destruct (on_handshake s (get_hash P t) _) as [s1|e|]; try discriminate H. destruct (IH _ _ _ _ _ _ _ _ _ H) as [A B]. split; [congruence|exact B].
Qed.

(** *** Steps that wait *)
Definition flushes (s : ec_state) : Prop := match s with EBegin _ _ _ _ | EMessagesReceived _ _ _ => True | _ => False end.
Definition ps_of (s : ec_state) : option plaintext_stream := match s with EHelloSent _ _ _ p | EHelloReceived _ p _ _ _ _ => Some p | _ => None end.
Definition stuck (P : primitives) (s : ec_state) : Prop := ps_of s <> None /\ forall w, poll_step P s w = (false, s, w, []).
Definition no_wpending (w : list wanswer) : Prop := Forall (fun a => a <> WPending) w.
Definition no_pending (a : list answer) : Prop := Forall (fun a => a <> APending) a.
Lemma flush_waits out : forall ws w out' ws' w' sent, no_wpending w -> flush_out out ws w = (Wait, out', ws', w', sent) -> w' = [] /\ flush_wakes out w = [WriterKeeps] /\ ws' = ws.
Proof.
  intros ws w. revert out. induction w as [|a t IH]; intros out out' ws' w' sent Np H; destruct out as [|b o]; cbn [flush_out flush_wakes] in *.
  - injection H as <- <- <- <-. auto.
  - injection H as <- <- <- <-. auto.
  - inversion Np; subst. destruct a; try discriminate H. contradiction.
  - inversion Np as [|? ? N1 N2]; subst. destruct a as [|n|e]; try discriminate H; [contradiction|].
    destruct (flush_out (skipn n (b :: o)) ws t) as [[[[x o2] w2] t2] s2] eqn:E. injection H as -> <- <- <- <-. exact (IH _ _ _ _ _ N2 E).
Qed.
Lemma step_waits P s w s' w' sent : no_wpending w -> poll_step P s w = (false, s', w', sent) ->
  (flushes s' /\ w' = [] /\ step_wakes s w = [WriterKeeps]) \/
  (stuck P s' /\ w' = w /\ sent = [] /\ exists p, ps_of s = Some p /\ rr_state (ps_receiver p) = RActive).
Proof.
  intros Np H. destruct s as [cfg private ts p|cfg private ts p|cfg p se t prk st|p se secrets|c|e|]; cbn [poll_step step_wakes] in *; try discriminate H.
  - left. unfold stream_flush in H. destruct (flush_out (ps_out p) (ps_write p) w) as [[[[x out] ws] w1] sn] eqn:E. destruct x as [|[?|?|]]; try discriminate H. injection H as <- <- <-.
    destruct (flush_waits _ _ _ _ _ _ _ Np E) as (A & B & C). split; [exact Logic.I|auto].
  - right. destruct (receive_plaintext_message (ps_receiver p) ts) as [[x r] ts1] eqn:E. destruct x as [|[?|?|]]; try discriminate H. injection H as <- <- <-.
    destruct (plaintext_waits _ _ _ _ E) as (-> & A & B). split; [|split; [reflexivity|split; [reflexivity|exists p; auto]]].
    split; [discriminate|]. intros w2. cbn [poll_step ps_receiver ps_out ps_write]. rewrite A. reflexivity.
  - right. destruct (receive_messages (S (length (rr_in (ps_receiver p)))) P (ps_receiver p) se t st) as [[[[x r] se1] t1] st1] eqn:E. destruct x as [|[?|?|]]; try discriminate H. injection H as <- <- <-.
    destruct (messages_wait _ _ _ _ _ _ _ _ _ _ E) as (A & B). split; [|split; [reflexivity|split; [reflexivity|exists p; auto]]].
    split; [discriminate|]. intros w2. cbn [poll_step ps_receiver ps_out ps_write]. rewrite B. reflexivity.
  - left. unfold stream_flush in H. destruct (flush_out (ps_out p) (ps_write p) w) as [[[[x out] ws] w1] sn] eqn:E. destruct x as [|[?|?|]]; try discriminate H. injection H as <- <- <-.
    destruct (flush_waits _ _ _ _ _ _ _ Np E) as (A & B & C). split; [exact Logic.I|auto].
Qed.
Lemma flush_pre out : forall ws w x out' ws' w' sent, flush_out out ws w = (x, out', ws', w', sent) -> exists pre, w = pre ++ w'.
Proof.
  intros ws w. revert out. induction w as [|a t IH]; intros out x out' ws' w' sent H; destruct out as [|b o]; cbn [flush_out] in H.
  - injection H as _ _ _ <- _. exists []. reflexivity.
  - injection H as _ _ _ <- _. exists []. reflexivity.
  - exists [a]. destruct a; injection H as _ _ _ <- _; reflexivity.
  - destruct a as [|n|e]; try (exists [WPending]; injection H as _ _ _ <- _; reflexivity); try (exists [WError e]; injection H as _ _ _ <- _; reflexivity).
    destruct (flush_out (skipn n (b :: o)) ws t) as [[[[x2 o2] w2] t2] s2] eqn:E. injection H as _ _ _ <- _. destruct (IH _ _ _ _ _ _ E) as (pre & ->). exists (WOk n :: pre). reflexivity.
Qed.
Lemma step_pre P s w ready s' w' sent : poll_step P s w = (ready, s', w', sent) -> exists pre, w = pre ++ w'.
Proof.
  intros H. destruct s as [cfg private ts p|cfg private ts p|cfg p se t prk st|p se secrets|c|e|]; cbn [poll_step] in H; try (injection H as _ _ <- _; exists []; reflexivity).
  - unfold stream_flush in H. destruct (flush_out (ps_out p) (ps_write p) w) as [[[[x out] ws] w1] sn] eqn:E. destruct (flush_pre _ _ _ _ _ _ _ _ E) as (pre & ->). exists pre.
    destruct x as [|[?|?|]]; injection H as _ _ <- _; reflexivity.
  - destruct (receive_plaintext_message (ps_receiver p) ts) as [[x r] ts1]. exists []. destruct x as [|[?|?|]]; injection H as _ _ <- _; reflexivity.
  - destruct (receive_messages (S (length (rr_in (ps_receiver p)))) P (ps_receiver p) se t st) as [[[[x r] se1] t1] st1]. exists []. destruct x as [|[?|?|]]; injection H as _ _ <- _; reflexivity.
  - unfold stream_flush in H. destruct (flush_out (ps_out p) (ps_write p) w) as [[[[x out] ws] w1] sn] eqn:E. destruct (flush_pre _ _ _ _ _ _ _ _ E) as (pre & ->). exists pre.
    destruct x as [|[?|?|]]; injection H as _ _ <- _; reflexivity.
Qed.

Lemma mem_app k a b : mem k (a ++ b) = mem k a || mem k b.
Proof. apply existsb_app. Qed.
(** What a waiting handshake waits for. *)
Definition parked (P : primitives) (s : ec_state) (reads : list answer) (writes : list wanswer) (reader writer : bool) : Prop :=
  (stuck P s /\ reads = [] /\ reader = true) \/ (flushes s /\ writes = [] /\ writer = true).
Lemma recv_cases s answers x s1 a1 : no_pending answers -> ec_recv s answers = Some (x, s1, a1) ->
  match x with
  | Wait => answers = [] /\ a1 = [] /\ s1 = s
  | Done (Ok _) => mem Woken (recv_wakes answers) = true \/ exists p, ps_of s1 = Some p /\ rr_state (ps_receiver p) <> RActive
  | _ => True
  end.
Proof.
  intros Np H. destruct s as [cfg private ts p|cfg private ts p|cfg p se t prk st|p se secrets|c|e|]; cbn [ec_recv] in H; try discriminate H;
    destruct p as [r out ws]; cbn [ps_receiver ps_out ps_write] in H;
    destruct answers as [|a t']; cbn [poll_recv] in H;
    try (injection H as <- <- <-; auto; fail); inversion Np as [|? ? N1 N2]; subst;
    destruct a as [|d|e]; try contradiction; try (injection H as <- <- <-; exact Logic.I);
    destruct d as [|b d]; injection H as <- <- <-; [right|left; reflexivity|right|left; reflexivity];
    eexists; (split; [reflexivity|]); cbn [ps_receiver close rr_state]; destruct (rr_state r); discriminate.
Qed.
Lemma recv_some s answers : ps_of s <> None -> exists x s1 a1, ec_recv s answers = Some (x, s1, a1).
Proof.
  destruct s as [cfg private ts p|cfg private ts p|cfg p se t prk st|p se secrets|c|e|]; cbn [ps_of ec_recv]; intros H; try contradiction;
    destruct (poll_recv (ps_receiver p) answers) as [[x r] a]; eauto.
Qed.
Lemma recv_none_flush s answers : ec_recv s answers = None -> ps_of s = None.
Proof. destruct s as [cfg private ts p|cfg private ts p|cfg p se t prk st|p se secrets|c|e|]; cbn [ps_of ec_recv]; intros H; try reflexivity; destruct (poll_recv (ps_receiver p) answers) as [[x r] a]; discriminate H. Qed.

Lemma no_pending_app a b : no_pending (a ++ b) -> no_pending b.
Proof. intros H. apply Forall_app in H. exact (proj2 H). Qed.
Lemma no_wpending_app a b : no_wpending (a ++ b) -> no_wpending b.
Proof. intros H. apply Forall_app in H. exact (proj2 H). Qed.
Lemma recv_pre s answers x s1 a1 : ec_recv s answers = Some (x, s1, a1) -> exists pre, answers = pre ++ a1.
Proof.
  destruct s as [cfg private ts p|cfg private ts p|cfg p se t prk st|p se secrets|c|e|]; cbn [ec_recv]; intros H; try discriminate H;
    destruct answers as [|a t']; cbn [poll_recv] in H; try (injection H as _ _ <-; exists []; reflexivity);
    exists [a]; destruct a as [|d|e]; try (injection H as _ _ <-; reflexivity); destruct d; injection H as _ _ <-; reflexivity.
Qed.
(** One round, then the rest. *)
Definition round (fuel : nat) (P : primitives) (s : ec_state) (answers : list answer) (w : list wanswer) :=
  let '(ready, s, w, sent) := poll_step P s w in
  if ready then let '(x, s, answers, w, more) := ec_poll fuel P s answers w in (x, s, answers, w, sent ++ more)
  else (Wait, Some s, answers, w, sent).
Definition round_wakes (fuel : nat) (P : primitives) (s : ec_state) (answers : list answer) (w : list wanswer) :=
  let '(ready, s', w', _) := poll_step P s w in step_wakes s w ++ (if ready then ec_wakes fuel P s' answers w' else []).
Definition over (s : ec_state) : bool := match s with EDone _ | EError _ | EPanic => true | _ => false end.
Lemma ec_poll_eq fuel P s answers w : over s = false -> ec_poll (S fuel) P s answers w =
  match ec_recv s answers with
  | Some (Done (Err e), s, answers) => (Done (Err e), None, answers, w, [])
  | Some (_, s, answers) => round fuel P s answers w
  | None => round fuel P s answers w
  end.
Proof. destruct s; intros H; try discriminate H; reflexivity. Qed.
Lemma ec_wakes_eq fuel P s answers w : over s = false -> ec_wakes (S fuel) P s answers w =
  match ec_recv s answers with
  | Some (Done (Err _), _, _) => recv_wakes answers
  | Some (_, s', answers') => recv_wakes answers ++ round_wakes fuel P s' answers' w
  | None => round_wakes fuel P s answers w
  end.
Proof. destruct s; intros H; try discriminate H; reflexivity. Qed.
Lemma over_poll fuel P s answers w so rest w' sent : over s = true -> ec_poll fuel P s answers w <> (Wait, so, rest, w', sent).
Proof. destruct fuel; destruct s; cbn [over ec_poll]; intros H; discriminate. Qed.

Lemma poll_waits fuel : forall P s answers w so rest w' sent, no_pending answers -> no_wpending w -> ec_poll fuel P s answers w = (Wait, so, rest, w', sent) ->
  exists s', so = Some s' /\ (mem Woken (ec_wakes fuel P s answers w) = true \/
    parked P s' rest w' (mem ReaderKeeps (ec_wakes fuel P s answers w)) (mem WriterKeeps (ec_wakes fuel P s answers w))).
Proof.
  induction fuel as [|fuel IH]; intros P s answers w so rest w' sent Na Nw H; [discriminate H|].
  destruct (over s) eqn:Ov; [exfalso; exact (over_poll _ _ _ _ _ _ _ _ _ Ov H)|].
  rewrite (ec_poll_eq _ _ _ _ _ Ov) in H. rewrite (ec_wakes_eq _ _ _ _ _ Ov).
  assert (Later : forall s1 a1 pre, answers = pre ++ a1 -> round fuel P s1 a1 w = (Wait, so, rest, w', sent) ->
    forall wk0, (ps_of s1 <> None -> mem Woken wk0 = true \/ (a1 = [] /\ mem ReaderKeeps wk0 = true) \/ exists p, ps_of s1 = Some p /\ rr_state (ps_receiver p) <> RActive) ->
    exists s', so = Some s' /\ (mem Woken (wk0 ++ round_wakes fuel P s1 a1 w) = true \/
      parked P s' rest w' (mem ReaderKeeps (wk0 ++ round_wakes fuel P s1 a1 w)) (mem WriterKeeps (wk0 ++ round_wakes fuel P s1 a1 w)))).
  { intros s1 a1 pre Ea R wk0 Wk. unfold round in R. unfold round_wakes. rewrite !mem_app. destruct (poll_step P s1 w) as [[[ready s2] w2] sn] eqn:E. rewrite !mem_app.
    assert (Na1 : no_pending a1) by (subst answers; exact (no_pending_app _ _ Na)).
    destruct ready.
    - destruct (ec_poll fuel P s2 a1 w2) as [[[[x3 s3] a3] w3] more] eqn:E3. injection R as -> -> -> -> <-. destruct (step_pre _ _ _ _ _ _ _ E) as (prew & Ew).
      assert (Nw2 : no_wpending w2) by (subst w; exact (no_wpending_app _ _ Nw)).
      destruct (IH _ _ _ _ _ _ _ _ Na1 Nw2 E3) as (s' & -> & [A|A]); exists s'; (split; [reflexivity|]).
      + left. rewrite A, !orb_true_r. reflexivity.
      + right. destruct A as [(A1 & A2 & A3)|(A1 & A2 & A3)]; [left|right]; (split; [exact A1|split; [exact A2|]]); rewrite A3, !orb_true_r; reflexivity.
    - injection R as <- <- <- <-. exists s2. split; [reflexivity|]. destruct (step_waits _ _ _ _ _ _ Nw E) as [(A1 & A2 & A3)|(A1 & A2 & A3 & p & A4 & A5)].
      + right. right. split; [exact A1|]. split; [exact A2|]. rewrite A3. cbn [mem existsb]. rewrite !orb_true_r. reflexivity.
      + destruct (Wk ltac:(congruence)) as [B|[[B1 B2]|(p' & B1 & B2)]].
        * left. rewrite B. reflexivity.
        * right. left. split; [exact A1|]. split; [exact B1|]. rewrite B2. reflexivity.
        * exfalso. rewrite A4 in B1. injection B1 as <-. exact (B2 A5). }
  destruct (ec_recv s answers) as [[[x s1] a1]|] eqn:Er.
  - destruct (recv_pre _ _ _ _ _ Er) as (pre & Ea). pose proof (recv_cases _ _ _ _ _ Na Er) as C.
    destruct x as [|[u|e|]]; [|..].
    + destruct C as (C1 & C2 & C3). refine (Later _ _ pre Ea H _ _). intros _. right. left. split; [exact C2|]. rewrite C1. reflexivity.
    + refine (Later _ _ pre Ea H _ _). intros _. destruct C as [C|C]; [left|right; right]; exact C.
    + discriminate H.
    + exfalso. destruct s as [cfg private ts p|cfg private ts p|cfg p se t prk st|p se secrets|c|e|]; cbn [ec_recv] in Er; try discriminate Er; destruct answers as [|[|[|]|] ?]; cbn [poll_recv] in Er; discriminate Er.
  - pose proof (recv_none_flush _ _ Er) as Nn. refine (Later s answers [] eq_refl H [] _). congruence.
Qed.
Lemma establish_waits P s answers w so rest w' sent : no_pending answers -> no_wpending w -> establish_poll P s answers w = (Wait, so, rest, w', sent) ->
  exists s', so = Some s' /\ (mem Woken (establish_wakes P s answers w) = true \/
    parked P s' rest w' (mem ReaderKeeps (establish_wakes P s answers w)) (mem WriterKeeps (establish_wakes P s answers w))).
Proof. unfold establish_poll, establish_wakes. generalize 7%nat. intros fuel. exact (poll_waits fuel P s answers w so rest w' sent). Qed.
(** Polling a parked handshake again changes nothing. *)
Lemma parked_again P s reads writes kr kw : parked P s reads writes kr kw -> establish_poll P s reads writes = (Wait, Some s, reads, writes, []).
Proof.
  unfold establish_poll. generalize 6%nat. intros fuel. intros [([A1 A2] & -> & _)|(A & -> & _)].
  - destruct s as [cfg private ts p|cfg private ts p|cfg p se t prk st|p se secrets|c|e|]; cbn [ps_of] in A1; try contradiction; rewrite ec_poll_eq by reflexivity; destruct p as [r out ws]; cbn [ec_recv poll_recv ps_receiver ps_out ps_write]; unfold round; rewrite A2; reflexivity.
  - destruct s as [cfg private ts p|cfg private ts p|cfg p se t prk st|p se secrets|c|e|]; cbn [flushes] in A; try contradiction; rewrite ec_poll_eq by reflexivity; cbn [ec_recv]; unfold round; cbn [poll_step]; unfold stream_flush;
      destruct p as [r out ws]; cbn [ps_out ps_write ps_receiver]; destruct out as [|b o]; reflexivity.
Qed.
