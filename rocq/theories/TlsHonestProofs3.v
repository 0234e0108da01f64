(** Proofs for C113: whole runs of the handshake with an authentic server. *)
From Verif Require Import Base BaseProofs MplexModel BinaryModel BinaryProofs MessageProofs MessageProofs2 ProtobufProofs Asn1Model X509Model TlsCodesModel TlsTypesModel
  TlsTypesSpec TlsTypesProofs TlsTypesProofs2 TlsTypesProofs3 TlsRecordModel TlsRecordSpec TlsRecordProofs TlsRecordProps TlsClientModel TlsClientSpec TlsClientProofs TlsClientProofs2 TlsClientProofs3
  TlsHonestSpec TlsHonestProofs TlsHonestProofs2.
Local Open Scope string_scope. Local Open Scope list_scope. Local Open Scope N_scope.
Ltac Zify.zify_post_hook ::= Z.div_mod_to_equations.

Lemma eager_healthy w : Forall eager_out w -> Forall healthy_out w.
Proof. intros F. apply Forall_impl with eager_out; [|exact F]. intros [| |]; cbn; auto. Qed.

Lemma flush_honest : forall w out ws x out' ws' w' sent, Forall healthy_out w -> flush_out out ws w = (x, out', ws', w', sent) ->
  ws' = ws /\ (x = Wait \/ x = Done (Ok tt)) /\ Forall healthy_out w' /\ (length out' <= length out)%nat /\ (x = Done (Ok tt) -> out' = []) /\
  (Forall eager_out w -> Forall eager_out w' /\ ((length out + 1 <= length w)%nat -> x = Done (Ok tt)) /\ (length w <= length w' + length out + 1)%nat).
Proof.
  induction w as [|[|n|e] t IH]; intros out ws x out' ws' w' sent F H.
  - destruct out; cbn [flush_out] in H; injection H as <- <- <- <- <-; (split; [reflexivity|]); (split; [left; reflexivity|]); (split; [constructor|]); (split; [lia|]); (split; [discriminate|]);
      intros _; (split; [constructor|]); cbn [length]; (split; [lia|lia]).
  - inversion F as [|? ? _ F']; subst. destruct out; cbn [flush_out] in H; injection H as <- <- <- <- <-; (split; [reflexivity|]); (split; [left; reflexivity|]); (split; [exact F'|]); (split; [lia|]); (split; [discriminate|]);
      intros Eg; inversion Eg as [|? ? Bad _]; destruct Bad.
  - inversion F as [|? ? _ F']; subst. destruct out as [|b o]; cbn [flush_out] in H.
    + injection H as <- <- <- <- <-. split; [reflexivity|]. split; [right; reflexivity|]. split; [exact F'|]. split; [lia|]. split; [reflexivity|].
      intros Eg. inversion Eg as [|? ? _ Eg']; subst. split; [exact Eg'|]. cbn [length]. split; [reflexivity|lia].
    + destruct (flush_out (skipn n (b :: o)) ws t) as [[[[x1 o1] ws1] t1] s1] eqn:E. injection H as <- <- <- <- <-.
      destruct (IH _ _ _ _ _ _ _ F' E) as (A1 & A2 & A3 & A4 & A5 & A6). rewrite skipn_length in A4. split; [exact A1|]. split; [exact A2|]. split; [exact A3|]. split; [lia|]. split; [exact A5|].
      intros Eg. inversion Eg as [|? ? En Eg']; subst. destruct n as [|n]; [destruct En|]. destruct (A6 Eg') as (B1 & B2 & B3). rewrite skipn_length in B2, B3. cbn [length] in *. split; [exact B1|]. split; [intros L; apply B2; lia|lia].
  - inversion F as [|? ? Bad _]. destruct Bad.
Qed.
Lemma stream_honest p w x p' w' sent : Forall healthy_out w -> stream_flush p w = (x, p', w', sent) ->
  ps_receiver p' = ps_receiver p /\ ps_write p' = ps_write p /\ (x = Wait \/ x = Done (Ok tt)) /\ Forall healthy_out w' /\ (length (ps_out p') <= length (ps_out p))%nat /\ (x = Done (Ok tt) -> ps_out p' = []) /\
  (Forall eager_out w -> Forall eager_out w' /\ ((length (ps_out p) + 1 <= length w)%nat -> x = Done (Ok tt)) /\ (length w <= length w' + length (ps_out p) + 1)%nat).
Proof.
  intros F H. unfold stream_flush in H. destruct (flush_out (ps_out p) (ps_write p) w) as [[[[x1 o1] ws1] t1] s1] eqn:E. injection H as <- <- <- <-.
  destruct (flush_honest _ _ _ _ _ _ _ _ F E) as (A1 & A2 & A3 & A4 & A5 & A6). cbn [ps_receiver ps_write ps_out]. auto 12.
Qed.
Lemma recv_honest r answers x r' rest : Forall healthy_in answers -> poll_recv r answers = (x, r', rest) ->
  exists pre, answers = pre ++ rest /\ rr_in r' = rr_in r ++ concat (map data_of pre) /\ rr_state r' = rr_state r /\ (x = Wait \/ x = Done (Ok tt)) /\ Forall healthy_in rest /\
    concat (map data_of pre) = concat (map data_of (firstn 1 answers)).
Proof.
  intros F H. unfold poll_recv in H. destruct answers as [|[|[|b d]|e] t]; try (inversion F as [|? ? Bad F']; subst; try (destruct Bad; fail)); injection H as <- <- <-.
  - exists []. cbn. rewrite app_nil_r. auto 10.
  - exists [APending]. cbn. rewrite app_nil_r. auto 10.
  - exists [ARead (b :: d)]. cbn. rewrite !app_nil_r. auto 10.
Qed.
Lemma is_record_det raw t f t' f' : is_record raw t f -> is_record raw t' f' -> t = t' /\ f = f'.
Proof. intros (v1 & v0 & l1 & l0 & -> & _) (w1 & w0 & m1 & m0 & E & _). cbn [app] in E. injection E as <- _ _ _ _ <-. auto. Qed.
Lemma poll_suffix fuel : forall P s answers w x so rest w' sent, ec_poll fuel P s answers w = (x, so, rest, w', sent) -> exists pre, answers = pre ++ rest.
Proof.
  induction fuel as [|fuel IH]; intros P s answers w x so rest w' sent H; cbn [ec_poll] in H; [injection H as _ _ <- _ _; exists []; reflexivity|].
  assert (Step : forall s answers,
      (let '(ready, s, w, sent) := poll_step P s w in
        if ready then let '(x, s, answers, w, more) := ec_poll fuel P s answers w in (x, s, answers, w, sent ++ more)
        else (Wait, Some s, answers, w, sent)) = (x, so, rest, w', sent) -> exists pre, answers = pre ++ rest).
  { clear H s answers. intros s answers H. destruct (poll_step P s w) as [[[ready s1] w1] sent1]. destruct ready.
    - destruct (ec_poll fuel P s1 answers w1) as [[[[x2 s2] a2] w2] more] eqn:E2. injection H as <- <- <- <- <-. exact (IH _ _ _ _ _ _ _ _ _ E2).
    - injection H as _ _ <- _ _. exists []. reflexivity. }
  destruct s as [cfg' pr ts p|cfg' pr ts p|cfg' p se t prk st|p se secrets|c|e|]; cbn [ec_recv] in H; try (exact (Step _ _ H)); try (injection H as _ _ <- _ _; exists []; reflexivity);
    destruct (poll_recv (ps_receiver p) answers) as [[y r1] a1] eqn:E; apply recv_spec in E; destruct E as (pre & -> & _); destruct y as [|[|e|]];
    try (destruct (Step _ _ H) as (pre2 & ->); exists (pre ++ pre2); apply app_assoc); injection H as _ _ <- _ _; exists pre; reflexivity.
Qed.

Lemma establish_suffix P s answers w x so rest w' sent : establish_poll P s answers w = (x, so, rest, w', sent) -> exists pre, answers = pre ++ rest.
Proof. unfold establish_poll. generalize 7%nat. intros fuel. exact (poll_suffix fuel P s answers w x so rest w' sent). Qed.
Lemma run_cons P s answers w polls : handshake_run P s ((answers, w) :: polls) =
  let '(x, s', remain, _, sent) := establish_poll P s answers w in
  match x, s' with
  | Done r, _ => (Some r, used answers remain, sent)
  | Wait, Some s' => let '(r, rx, tx) := handshake_run P s' polls in (r, used answers remain ++ rx, sent ++ tx)
  | Wait, None => (Some Panic, used answers remain, sent)
  end.
Proof. reflexivity. Qed.

Section Honest.
Context (P : primitives) (cfg : config) (private hello remain raw0 b0 : bytes) (raws : list bytes) (sh : server_hello) (h : hash_alg) (a : aead_alg) (share secret : bytes)
  (bodies : list bytes) (messages : list handshake) (final : client_state) (sm : server_messages) (whole : bytes) (keys : traffic_secrets) (content raw : bytes).
Let prk := handshake_secret P h secret.
Let server := traffic_key P h a prk "s hs traffic" (hello ++ b0).
Let client := traffic_key P h a prk "c hs traffic" (hello ++ b0).
Let enc := {| e_secrets := {| t_client := client; t_server := server |}; e_ciphers := {| c_hash := h; c_aead := a |} |}.
Context (Sz : sizes_ok P) (Ae : aead_ok P) (Hr : is_record raw0 22 b0) (Hi : handshake_in b0 (HServerHello sh)) (Su : suite_of (sh_suite sh) h a) (Sh : share_of sh share)
  (Ag : agree P private share = Some secret) (Fl : flight P server 0 raws bodies messages) (Ex : expects P h (hello ++ b0) StServerHello bodies messages final)
  (Fs : sm_of final = Some sm) (Wh : (hello ++ b0) ++ concat bodies = whole) (Lr : N.of_nat (length raws) < two64)
  (App : forall t, ts_alg t = h -> ts_data t = whole -> application_secrets P t cfg prk sm enc = Ok keys)
  (Cf : client_flight P cfg h client whole content) (Cl : blen content <= 16384) (Cr : protect P client 0 (inner_plaintext content 22 0) = Some raw).
Let T : nat := length (hello_record hello ++ raw).

Definition waiting (r : record_receiver) (fut : bytes) : Prop := exists rs, arriving r fut rs remain /\ real rs = raw0 :: raws.
Definition left_over (r : record_receiver) (fut : bytes) : Prop := exists rs, arriving r fut rs remain /\ real rs = [].
Definition hon (fut : bytes) (s : ec_state) : Prop :=
  match s with
  | EBegin cfg' pr ts p => cfg' = cfg /\ pr = private /\ ts = hello /\ ps_write p = WsActive /\ (length (ps_out p) <= T)%nat /\ waiting (ps_receiver p) fut
  | EHelloSent cfg' pr ts p => cfg' = cfg /\ pr = private /\ ts = hello /\ ps_write p = WsActive /\ ps_out p = [] /\ waiting (ps_receiver p) fut
  | EHelloReceived cfg' p se t prk' st => cfg' = cfg /\ ps_write p = WsActive /\ ps_out p = [] /\ se_client se = 0 /\ prk' = prk /\ se_enc se = enc /\
      coming P h server whole remain final (ps_receiver p) fut se t st
  | EMessagesReceived p se secrets => ps_write p = WsActive /\ secrets = keys /\ (length (ps_out p) <= T)%nat /\ left_over (ps_receiver p) fut /\ e_ciphers (se_enc se) = e_ciphers enc
  | EDone c => fresh (t_client keys) (t_server keys) c /\ left_over (ps_receiver (cn_plain c)) fut /\ e_ciphers (se_enc (cn_seq c)) = e_ciphers enc
  | _ => False
  end.
Lemma raw_length : (length raw <= T)%nat.
Proof. unfold T. rewrite app_length. lia. Qed.
Lemma messages_honest p se t : ps_write p = WsActive -> ps_out p = [] -> se_client se = 0 -> se_enc se = enc -> ts_alg t = h -> ts_data t = whole ->
  on_server_messages P cfg p se t prk sm =
  EMessagesReceived {| ps_receiver := ps_receiver p; ps_out := raw; ps_write := WsActive |} {| se_client := 1; se_server := se_server se; se_enc := enc |} keys.
Proof.
  intros W O C E Th Td. unfold on_server_messages. rewrite E, (App t Th Td). cbn [ec_try].
  assert (Lk : (length (k_raw client) >= byte_len h)%nat) by (unfold client, traffic_key; cbn [k_raw]; rewrite expand_length by exact Sz; lia).
  assert (Cf' : client_flight P cfg h client (ts_data t) content) by (rewrite Td; exact Cf).
  destruct (flight_honest P cfg h client server a t content Sz Th Lk Cf' Cl) as (out & fin & t' & E1 & E2 & E3).
  match goal with |- ec_try ?e _ = _ => replace e with (Ok (out, t') : tls (bytes * transcript)) by (symmetry; exact E2) end. cbn [ec_try].
  fold enc in E3. rewrite E3. cbn [ec_try]. rewrite <- E1, C. change (t_client (e_secrets enc)) with client.
  rewrite (C56_sent_records P client 0 content CtHandshake Ae ltac:(apply key_ok_of; exact Sz) ltac:(reflexivity)). destruct (16384 <? blen content) eqn:B; [lia|].
  change (content_type_to CtHandshake) with 22. rewrite Cr. cbn [ec_try]. change (incr 0) with (Ok 1 : tls N). cbn [ec_try]. rewrite O, W. reflexivity.
Qed.
(** How far the handshake is; what is needed of the transport. *)
Definition stage (s : ec_state) : nat := match s with EBegin _ _ _ _ => 5 | EHelloSent _ _ _ _ => 4 | EHelloReceived _ _ _ _ _ _ => 3 | EMessagesReceived _ _ _ => 2 | _ => 1 end.
Definition needed (s : ec_state) : nat := match s with EBegin _ _ _ _ => 2 * (T + 1) | EHelloSent _ _ _ _ | EHelloReceived _ _ _ _ _ _ | EMessagesReceived _ _ _ => T + 1 | _ => 0 end.
Lemma step_honest fut s w ready s' w' sent : Forall healthy_out w -> hon fut s -> (forall c, s <> EDone c) -> poll_step P s w = (ready, s', w', sent) ->
  hon fut s' /\ Forall healthy_out w' /\ (ready = true -> (stage s' < stage s)%nat) /\
  (Forall eager_out w -> (needed s <= length w)%nat ->
     Forall eager_out w' /\ ((match s with EHelloSent _ _ _ _ | EHelloReceived _ _ _ _ _ _ => (length fut <= length remain)%nat | _ => True end) -> ready = true) /\
     (ready = true -> (needed s' <= length w')%nat)).
Proof.
  intros Fw H Nd E. destruct s as [cfg' pr ts p|cfg' pr ts p|cfg' p se t prk' st|p se secrets|c|e|]; cbn [poll_step] in E; try contradiction; cbn [needed].
  - destruct H as (-> & -> & -> & H1 & H2 & H3). destruct (stream_flush p w) as [[[x p1] w1] s1] eqn:Es. destruct (stream_honest _ _ _ _ _ _ Fw Es) as (A1 & A2 & A3 & A4 & A5 & A6 & A7).
    destruct A3 as [->| ->]; injection E as <- <- <- <-; cbn [hon stage]; rewrite A1, A2.
    + split; [repeat (split; [first [assumption|reflexivity]|]); split; [lia|exact H3]|]. split; [exact A4|]. split; [discriminate|].
      intros Eg Le. destruct (A7 Eg) as (B1 & B2 & B3). discriminate (B2 ltac:(lia)).
    + rewrite (A6 eq_refl). split; [auto 10|]. split; [exact A4|]. split; [lia|]. intros Eg Le. destruct (A7 Eg) as (B1 & B2 & B3). split; [exact B1|]. split; [reflexivity|]. intros _. cbn [needed]. lia.
  - destruct H as (-> & -> & -> & H1 & H2 & (rs & Ar & Rr)). unfold receive_plaintext_message, receive_record_ignore_cc in E.
    destruct (ignore_honest (S (length (rr_in (ps_receiver p)))) (ps_receiver p) fut rs remain Ar ltac:(rewrite Rr; discriminate) ltac:(lia)) as [(r1 & rs1 & I1 & I2 & I3 & I4)|(y & x1 & r1 & rs1 & I1 & I2 & I3 & I4 & I5 & I6 & I7 & I8 & I9)]; rewrite I1 in E.
    + injection E as <- <- <- <-. cbn [hon stage ps_write ps_out ps_receiver]. split; [repeat (split; [first [assumption|reflexivity]|]); exists rs1; split; [exact I2|congruence]|].
      split; [exact Fw|]. split; [discriminate|]. intros Eg Le. split; [exact Eg|]. split; [intros Lf; lia|discriminate].
    + rewrite Rr in I3. injection I3 as Er Ers. destruct (is_record_det raw0 _ _ _ _ Hr ltac:(rewrite Er; exact I4)) as [Et Ef]. rewrite I7, I8, <- Et, <- Ef in E.
      change (content_type_from 22) with CtHandshake in E. unfold handshake_in in Hi. rewrite Hi in E. cbn [map_err bind] in E. rewrite (hello_honest P cfg private hello _ b0 sh h a share secret Sz Su Sh Ag) in E.
      injection E as <- <- <- <-. cbn [hon stage ps_write ps_out ps_receiver se_client se_enc needed]. split; [|split; [exact Fw|split; [lia|]]].
      * repeat (split; [first [assumption|reflexivity]|]). exists rs1, bodies, messages. cbn [se_server ts_data ts_alg se_enc e_secrets t_server]. rewrite <- Ers.
        split; [exact I2|]. split; [exact Fl|]. split; [exact Ex|]. split; [exact Wh|]. split; [lia|]. split; reflexivity.
      * intros Eg Le. split; [exact Eg|]. split; [reflexivity|]. intros _. exact Le.
  - destruct H as (-> & H1 & H2 & H3 & -> & H4 & H5).
    destruct (receive_messages (S (length (rr_in (ps_receiver p)))) P (ps_receiver p) se t st) as [[[[x r1] se1] t1] st1] eqn:Em.
    destruct (receive_honest _ P h server whole remain final _ fut se t st x r1 se1 t1 st1 sm ltac:(apply key_ok_of; exact Sz) Fs H5 (Nat.lt_succ_diag_r _) Em) as (Q1 & Q2 & [(-> & Q3 & Q4)|(-> & Q3 & Q4 & Q5)]).
    + injection E as <- <- <- <-. cbn [hon stage ps_write ps_out ps_receiver]. rewrite Q1, Q2. split; [auto 12|]. split; [exact Fw|]. split; [discriminate|]. intros Eg Le. split; [exact Eg|]. split; [intros Lf; lia|discriminate].
    + rewrite (messages_honest {| ps_receiver := r1; ps_out := ps_out p; ps_write := ps_write p |} se1 t1 H1 H2 ltac:(congruence) ltac:(congruence) Q4 Q3) in E. injection E as <- <- <- <-.
      cbn [hon stage ps_write ps_out ps_receiver se_enc needed]. pose proof raw_length. split; [split; [reflexivity|]; split; [reflexivity|]; split; [assumption|]; split; [exact Q5|reflexivity]|].
      split; [exact Fw|]. split; [lia|]. intros Eg Le. split; [exact Eg|]. split; [reflexivity|]. intros _. exact Le.
  - destruct H as (H1 & -> & H2 & H3 & H4). destruct (stream_flush p w) as [[[x p1] w1] s1] eqn:Es. destruct (stream_honest _ _ _ _ _ _ Fw Es) as (A1 & A2 & A3 & A4 & A5 & A6 & A7).
    destruct A3 as [->| ->]; injection E as <- <- <- <-; unfold on_finished_sent, connection_new; cbn [hon stage cn_plain cn_seq se_enc e_ciphers]; rewrite A1.
    + rewrite A2. split; [repeat (split; [first [assumption|reflexivity|lia]|]); assumption|]. split; [exact A4|]. split; [discriminate|].
      intros Eg Le. destruct (A7 Eg) as (B1 & B2 & B3). discriminate (B2 ltac:(lia)).
    + unfold on_finished_sent, connection_new, fresh. cbn [hon cn_plain cn_seq cn_in cn_read se_enc e_secrets e_ciphers se_client se_server]. rewrite (A6 eq_refl), A2. split; [split; [repeat (split; [first [assumption|reflexivity|destruct keys; reflexivity]|]); reflexivity|]; auto|].
      split; [exact A4|]. split; [lia|]. intros Eg Le. destruct (A7 Eg) as (B1 & B2 & B3). split; [exact B1|]. split; [reflexivity|]. intros _. cbn [needed]. lia.
  - destruct (Nd c eq_refl).
Qed.
Lemma hon_recv fut r fut' r' d : arriving r fut r' remain -> fut = d ++ fut' -> forall r2, rr_in r2 = rr_in r ++ d -> rr_state r2 = rr_state r -> arriving r2 fut' r' remain.
Proof. intros (A & B & C) -> r2 E1 E2. split; [congruence|]. split; [exact B|]. rewrite E1, <- app_assoc. exact C. Qed.
Lemma recv_step fut s answers x s' rest : Forall healthy_in answers -> hon fut s -> ec_recv s answers = Some (x, s', rest) ->
  exists pre, answers = pre ++ rest /\ (x = Wait \/ x = Done (Ok tt)) /\ Forall healthy_in rest /\ stage s' = stage s /\ needed s' = needed s /\ (forall c, s' <> EDone c) /\
    concat (map data_of pre) = concat (map data_of (firstn 1 answers)) /\ forall fut', fut = concat (map data_of pre) ++ fut' -> hon fut' s'.
Proof.
  intros F H E. destruct s as [cfg' pr ts p|cfg' pr ts p|cfg' p se t prk' st|p se secrets|c|e|]; try discriminate E; cbn [ec_recv] in E;
    destruct (poll_recv (ps_receiver p) answers) as [[x1 r1] a1] eqn:Er; destruct (recv_honest _ _ _ _ _ F Er) as (pre & R1 & R2 & R3 & R4 & R5 & R6); injection E as <- <- <-;
    exists pre; (split; [exact R1|]); (split; [exact R4|]); (split; [exact R5|]); (split; [reflexivity|]); (split; [reflexivity|]); (split; [discriminate|]); (split; [exact R6|]); intros fut' Ef; cbn [hon ps_write ps_out ps_receiver].
  - destruct H as (-> & -> & -> & H1 & H2 & rs & Ar & Rr). repeat (split; [first [assumption|reflexivity]|]). exists rs. split; [|exact Rr]. exact (hon_recv _ _ _ _ _ Ar Ef _ R2 R3).
  - destruct H as (-> & H1 & H2 & H3 & H4 & H5 & rs & bs & ms & Ar & Rr). repeat (split; [first [assumption|reflexivity]|]). exists rs, bs, ms. split; [|exact Rr]. exact (hon_recv _ _ _ _ _ Ar Ef _ R2 R3).
Qed.
(** The first answer completes the server's messages. *)
Definition complete (s : ec_state) (answers : list answer) (fut : bytes) : Prop :=
  match s with
  | EMessagesReceived _ _ _ | EDone _ => True
  | _ => (length fut <= length (concat (map data_of (firstn 1 answers))) + length remain)%nat
  end.
Lemma poll_honest fuel : forall s fut answers w x so rest w' sent, Forall healthy_in answers -> Forall healthy_out w -> hon fut s -> (stage s <= fuel)%nat ->
  ec_poll fuel P s answers w = (x, so, rest, w', sent) -> forall pre fut', answers = pre ++ rest -> fut = concat (map data_of pre) ++ fut' ->
  match x with
  | Wait => exists s', so = Some s' /\ hon fut' s' /\ ~ (Forall eager_out w /\ (needed s <= length w)%nat /\ complete s answers fut)
  | Done (Ok c) => hon fut' (EDone c)
  | _ => False
  end.
Proof.
  induction fuel as [|fuel IH]; intros s fut answers w x so rest w' sent Fa Fw H Ls E pre fut' Ea Ef; [destruct s; cbn [stage] in Ls; lia|].
  assert (Step : forall s answers fut pre, Forall healthy_in answers -> hon fut s -> (forall c, s <> EDone c) -> (stage s <= S fuel)%nat -> answers = pre ++ rest -> fut = concat (map data_of pre) ++ fut' ->
      (let '(ready, s, w, sent) := poll_step P s w in
        if ready then let '(x, s, answers, w, more) := ec_poll fuel P s answers w in (x, s, answers, w, sent ++ more)
        else (Wait, Some s, answers, w, sent)) = (x, so, rest, w', sent) ->
      match x with
      | Wait => exists s', so = Some s' /\ hon fut' s' /\ ~ (Forall eager_out w /\ (needed s <= length w)%nat /\
                  match s with EHelloSent _ _ _ _ | EHelloReceived _ _ _ _ _ _ => (length fut <= length remain)%nat | _ => complete s answers fut end)
      | Done (Ok c) => hon fut' (EDone c)
      | _ => False
      end).
  { clear s fut answers pre Fa H Ls E Ea Ef. intros s answers fut pre Fa H Nd Ls Ea Ef E. destruct (poll_step P s w) as [[[ready s1] w1] sent1] eqn:Es.
    destruct (step_honest fut s w ready s1 w1 sent1 Fw H Nd Es) as (A1 & A2 & A3 & A4). destruct ready.
    - destruct (ec_poll fuel P s1 answers w1) as [[[[x2 s2] a2] w2] more] eqn:E2. injection E as <- <- <- <- <-.
      pose proof (IH s1 fut answers w1 x2 s2 a2 w2 more Fa A2 A1 ltac:(specialize (A3 eq_refl); lia) E2 pre fut' Ea Ef) as G.
      destruct x2 as [|[c|e|]]; try exact G. destruct G as (s' & G1 & G2 & G3). exists s'. split; [exact G1|]. split; [exact G2|]. intros (Eg & Le & Co). apply G3. destruct (A4 Eg Le) as (B1 & B2 & B3).
      split; [exact B1|]. split; [exact (B3 eq_refl)|]. specialize (A3 eq_refl).
      destruct s; cbn [stage] in A3; try (destruct s1; cbn [stage] in A3; try lia; cbn [complete hon] in *; lia || exact Logic.I || contradiction).
    - injection E as <- <- <- <- <-. assert (pre = []) as -> by (apply (app_inv_tail answers); symmetry; exact Ea). cbn [map concat app] in Ef. subst fut'. exists s1. split; [reflexivity|]. split; [exact A1|].
      intros (Eg & Le & Co). destruct (A4 Eg Le) as (B1 & B2 & B3). assert (false = true) by (apply B2; destruct s; try exact Logic.I; exact Co). discriminate. }
  cbn [ec_poll] in E.
  destruct (ec_recv s answers) as [[[y s1] a1]|] eqn:Er.
  - assert (Hs : match y with Done (Err e) => (Done (Err e), None, a1, w, []) | _ =>
        (let '(ready, s, w, sent) := poll_step P s1 w in
          if ready then let '(x, s, answers, w, more) := ec_poll fuel P s a1 w in (x, s, answers, w, sent ++ more)
          else (Wait, Some s, a1, w, sent)) end = (x, so, rest, w', sent)).
    { destruct s; try discriminate Er; rewrite <- E; destruct y as [|[| |]]; reflexivity. }
    clear E. destruct (recv_step fut s answers y s1 a1 Fa H Er) as (pre1 & R1 & R2 & R3 & R4 & R4' & R5 & R6 & R7).
    assert (Hs' : (let '(ready, s, w, sent) := poll_step P s1 w in
          if ready then let '(x, s, answers, w, more) := ec_poll fuel P s a1 w in (x, s, answers, w, sent ++ more)
          else (Wait, Some s, a1, w, sent)) = (x, so, rest, w', sent)) by (destruct R2 as [->| ->]; exact Hs). clear Hs.
    assert (Suf : exists pre2, a1 = pre2 ++ rest).
    { destruct (poll_step P s1 w) as [[[ready s2] w2] sent2]. destruct ready; [|injection Hs' as _ _ <- _ _; exists []; reflexivity].
      destruct (ec_poll fuel P s2 a1 w2) as [[[[x3 s3] a3] w3] more] eqn:E3. injection Hs' as <- <- <- <- <-. exact (poll_suffix _ _ _ _ _ _ _ _ _ _ E3). }
    destruct Suf as (pre2 & Ep2). assert (pre = pre1 ++ pre2) as -> by (apply (app_inv_tail rest); rewrite <- app_assoc, <- Ep2; congruence).
    rewrite map_app, concat_app, <- app_assoc in Ef.
    pose proof (Step s1 a1 (concat (map data_of pre2) ++ fut') pre2 R3 (R7 _ Ef) R5 ltac:(lia) Ep2 eq_refl Hs') as G.
    destruct x as [|[c|e|]]; try exact G. destruct G as (s' & G1 & G2 & G3). exists s'. split; [exact G1|]. split; [exact G2|]. intros (Eg & Le & Co). apply G3. split; [exact Eg|]. split; [lia|].
    assert (Lf : (length (concat (map data_of pre2) ++ fut') <= length remain)%nat).
    { destruct s; try discriminate Er; cbn [complete] in Co; rewrite <- R6, Ef in Co; rewrite app_length in Co; lia. }
    destruct s1; try exact Lf; try exact Logic.I; cbn [complete]; lia.
  - pose proof (no_recv_inv s answers Er) as Nr. destruct s as [cfg' pr ts p|cfg' pr ts p|cfg' p se t prk' st|p se secrets|c|e|]; try contradiction.
    + exact (Step _ answers fut pre Fa H ltac:(discriminate) Ls Ea Ef E).
    + exact (Step _ answers fut pre Fa H ltac:(discriminate) Ls Ea Ef E).
    + injection E as <- <- <- <- <-. assert (pre = []) as -> by (apply (app_inv_tail answers); symmetry; exact Ea). cbn [map concat app] in Ef. subst fut'. exact H.
Qed.
Lemma stage_7 s : (stage s <= 7)%nat.
Proof. destruct s; cbn [stage]; lia. Qed.
Lemma establish_honest s fut answers w x so rest w' sent pre fut' : Forall healthy_in answers -> Forall healthy_out w -> hon fut s ->
  establish_poll P s answers w = (x, so, rest, w', sent) -> answers = pre ++ rest -> fut = concat (map data_of pre) ++ fut' ->
  match x with
  | Wait => exists s', so = Some s' /\ hon fut' s' /\ ~ (Forall eager_out w /\ (needed s <= length w)%nat /\ complete s answers fut)
  | Done (Ok c) => hon fut' (EDone c)
  | _ => False
  end.
Proof. generalize (stage_7 s). unfold establish_poll. generalize 7%nat. intros fuel L A B C D E F. exact (poll_honest fuel s fut answers w x so rest w' sent A B C L D pre fut' E F). Qed.
(** Whole runs. *)
Lemma run_honest polls : forall s fut r rx tx fut', steady polls -> hon fut s -> handshake_run P s polls = (r, rx, tx) -> fut = rx ++ fut' ->
  match r with
  | None => exists s', hon fut' s' /\ forall more, handshake_run P s (polls ++ more) = (let '(r2, rx2, tx2) := handshake_run P s' more in (r2, rx ++ rx2, tx ++ tx2))
  | Some (Ok c) => hon fut' (EDone c)
  | Some _ => False
  end.
Proof.
  induction polls as [|[answers w] polls IH]; intros s fut r rx tx fut' St H E Ef.
  - injection E as <- <- <-. cbn [app] in Ef. subst fut'. exists s. split; [exact H|]. intros more. cbn [app]. destruct (handshake_run P s more) as [[r2 rx2] tx2]. reflexivity.
  - inversion St as [|? ? [Fa Fw] St']; subst. cbn [fst snd] in Fa, Fw. rewrite run_cons in E. destruct (establish_poll P s answers w) as [[[[x so] rest] w'] sent] eqn:Ep.
    destruct (establish_suffix _ _ _ _ _ _ _ _ _ Ep) as (pre & Ea).
    assert (Us : used answers rest = concat (map data_of pre)) by (rewrite Ea; apply used_app).
    destruct x as [|[c|e|]].
    + destruct so as [s1|].
      * destruct (handshake_run P s1 polls) as [[r1 rx1] tx1] eqn:E1. injection E as <- <- <-. rewrite Us, <- app_assoc in H.
        destruct (establish_honest s _ answers w _ _ _ _ _ pre (rx1 ++ fut') Fa Fw H Ep Ea eq_refl) as (s' & Es & H1 & _). assert (s' = s1) as -> by congruence.
        pose proof (IH s1 _ r1 rx1 tx1 fut' St' H1 E1 eq_refl) as G. destruct r1 as [[c| |]|]; try exact G. destruct G as (s2 & G1 & G2). exists s2. split; [exact G1|]. intros more.
        cbn [app]. rewrite run_cons, Ep, G2. destruct (handshake_run P s2 more) as [[r2 rx2] tx2]. rewrite <- !app_assoc. reflexivity.
      * injection E as <- <- <-. rewrite Us in H. destruct (establish_honest s _ answers w _ _ _ _ _ pre fut' Fa Fw H Ep Ea eq_refl) as (s' & Es & _). discriminate Es.
    + injection E as <- <- <-. rewrite Us in H. exact (establish_honest s _ answers w _ _ _ _ _ pre fut' Fa Fw H Ep Ea eq_refl).
    + injection E as <- <- <-. rewrite Us in H. exact (establish_honest s _ answers w _ _ _ _ _ pre fut' Fa Fw H Ep Ea eq_refl).
    + injection E as <- <- <-. rewrite Us in H. exact (establish_honest s _ answers w _ _ _ _ _ pre fut' Fa Fw H Ep Ea eq_refl).
Qed.
Lemma last_poll s fut answers w r rx tx fut' : Forall healthy_in answers -> Forall eager_out w -> (2 * (T + 1) <= length w)%nat -> hon fut s ->
  (length fut <= length (concat (map data_of (firstn 1 answers))) + length remain)%nat ->
  handshake_run P s [(answers, w)] = (r, rx, tx) -> fut = rx ++ fut' -> exists c, r = Some (Ok c) /\ hon fut' (EDone c).
Proof.
  intros Fa Fw Lw H Lf E Ef. pose proof (eager_healthy w Fw) as Fh. rewrite run_cons in E. destruct (establish_poll P s answers w) as [[[[x so] rest] w'] sent] eqn:Ep.
  destruct (establish_suffix _ _ _ _ _ _ _ _ _ Ep) as (pre & Ea). assert (Us : used answers rest = concat (map data_of pre)) by (rewrite Ea; apply used_app).
  assert (Ef' : exists fut2, fut = concat (map data_of pre) ++ fut2 /\ (match x with Done _ => rx = concat (map data_of pre) /\ fut2 = fut' | Wait => True end)).
  { destruct x as [|o].
    - destruct so as [s1|]; [|injection E as <- <- <-; rewrite Us in Ef; exists fut'; auto]. cbn [handshake_run] in E. injection E as <- <- <-. rewrite Us, app_nil_r in Ef. exists fut'. auto.
    - injection E as <- <- <-. rewrite Us in *. exists fut'. auto. }
  destruct Ef' as (fut2 & Ef2 & Ex2). pose proof (establish_honest s fut answers w x so rest w' sent pre fut2 Fa Fh H Ep Ea Ef2) as G.
  destruct x as [|[c|e|]]; try contradiction.
  - destruct G as (s' & -> & G1 & G2). destruct G2. split; [exact Fw|]. split; [destruct s; cbn [needed]; lia|]. destruct s; cbn [complete]; try exact Logic.I; exact Lf.
  - destruct Ex2 as [-> ->]. exists c. split; [|exact G]. injection E as <- _. reflexivity.
Qed.
End Honest.
