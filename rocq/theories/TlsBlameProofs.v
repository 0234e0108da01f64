(** Proofs about TlsBlameModel.v: the results are those of TlsClientModel.v, and no name is lost. *)
From Coq Require Import String Ascii.
From Verif Require Import Base MplexModel BinaryModel Asn1Model X509Model TlsCodesModel TlsTypesModel TlsRecordModel TlsClientModel
  TlsClientSpec NamesModel TlsBlameModel.
Local Open Scope string_scope. Local Open Scope list_scope. Local Open Scope N_scope.

Definition erase_poll {A} (x : poll (full A)) : poll (tls A) := match x with Wait => Wait | Done r => Done (map_err erase r) end.

Lemma on_handshake_erase s hash h : map_err erase (on_handshake_full s hash h) = on_handshake s hash h.
Proof. destruct s, h; reflexivity. Qed.
Lemma on_handshake_name s hash h e : on_handshake_full s hash h = Err e -> e = FUnexpected (handshake_name h).
Proof. destruct s, h; cbn [on_handshake_full]; intros [=<-]; reflexivity. Qed.
Lemma receive_erase fuel : forall P r se t s,
  (let '(x, r', se', t', s') := receive_full fuel P r se t s in (erase_poll x, r', se', t', s')) = receive_messages fuel P r se t s.
Proof.
  induction fuel as [|fuel IH]; intros P r se t s; destruct s; cbn [receive_full receive_messages]; try reflexivity;
  destruct (receive_encrypted_message P r (se_server se) (se_enc se) (Some t)) as [[[x r'] n] ts];
  destruct x as [|[[m|]|e|]]; try reflexivity; destruct m as [| |a1|h1|d1|c1]; try reflexivity;
  match goal with |- context [on_handshake_full ?s ?g ?h] =>
    rewrite <- (on_handshake_erase s g h); destruct (on_handshake_full s g h); cbn [map_err]; [apply IH|reflexivity|reflexivity] end.
Qed.
Lemma hello_erase P cfg private ts p m : erase_state (on_server_hello_full P cfg private ts p m) = on_server_hello P cfg private ts p m.
Proof. destruct m as [[| |a|[]|d|c]|]; reflexivity. Qed.
Lemma step_erase P s w :
  (let '(b, s', w', sent) := poll_step_full P s w in (b, erase_state s', w', sent)) = poll_step P s w.
Proof.
  destruct s; cbn [poll_step_full].
  - destruct (poll_step P (EBegin cfg private ts p) w) as [[[b s'] w'] sent]. reflexivity.
  - cbn [poll_step]. destruct (receive_plaintext_message (ps_receiver p) ts) as [[x r] ts']. destruct x as [|[m|e|]]; try reflexivity.
    rewrite <- hello_erase. reflexivity.
  - cbn [poll_step]. rewrite <- receive_erase.
    destruct (receive_full (S (length (rr_in (ps_receiver p)))) P (ps_receiver p) se t s) as [[[[x r'] se'] t'] s']. destruct x as [|[m|e|]]; reflexivity.
  - destruct (poll_step P (EMessagesReceived p se secrets) w) as [[[b s'] w'] sent]. reflexivity.
  - reflexivity.
  - reflexivity.
  - reflexivity.
Qed.
Lemma ec_erase fuel : forall P s answers w,
  (let '(x, s', a, w', sent) := ec_poll_full fuel P s answers w in (erase_poll x, option_map erase_state s', a, w', sent))
  = ec_poll fuel P (erase_state s) answers w.
Proof.
  induction fuel as [|fuel IH]; intros P s answers w; [reflexivity|].
  assert (X : forall s answers,
    (let '(x, s', a, w', sent) := (let '(ready, s, w, sent) := poll_step_full P s w in
        if ready then let '(x, s, answers, w, more) := ec_poll_full fuel P s answers w in (x, s, answers, w, sent ++ more)
        else (Wait, Some s, answers, w, sent)) in (erase_poll x, option_map erase_state s', a, w', sent))
    = (let '(ready, s, w, sent) := poll_step P s w in
        if ready then let '(x, s, answers, w, more) := ec_poll fuel P s answers w in (x, s, answers, w, sent ++ more)
        else (Wait, Some s, answers, w, sent))).
  { clear s answers. intros s answers. rewrite <- step_erase. destruct (poll_step_full P s w) as [[[b s'] w'] sent]. destruct b; [|reflexivity].
    rewrite <- IH. destruct (ec_poll_full fuel P s' answers w') as [[[[x s2] a2] w2] more]. reflexivity. }
  destruct s as [s|e]; [|reflexivity]. destruct s; cbn [ec_poll_full ec_poll erase_state ec_recv]; try reflexivity; try apply X.
  - destruct (poll_recv (ps_receiver p) answers) as [[[|[[]|e|]] r] a]; try apply X. reflexivity.
  - destruct (poll_recv (ps_receiver p) answers) as [[[|[[]|e|]] r] a]; try apply X. reflexivity.
Qed.
Lemma fill_erase fuel : forall P c answers,
  (let '(x, c', _, a) := fill_full fuel P c answers in (erase_poll x, c', a)) = fill_loop fuel P c answers.
Proof.
  induction fuel as [|fuel IH]; intros P c answers; [reflexivity|]. cbn [fill_full fill_loop].
  destruct (poll_recv (ps_receiver (cn_plain c)) answers) as [[[|[[]|e|]] r] a]; try reflexivity.
  destruct (receive_encrypted_message P r (se_server (cn_seq (with_receiver c r))) (se_enc (cn_seq (with_receiver c r))) None) as [[[x r2] n] ts].
  destruct x as [|[[m|]|e|]]; try reflexivity. destruct m as [| |al|h|d|k]; try reflexivity.
  - destruct (a_description al); reflexivity.
  - destruct h; try reflexivity. apply IH.
Qed.
(** The name is kept exactly with an unexpected message. *)
Definition kept_ok (c : connection) (kept : option string) : Prop :=
  match kept with Some _ => cn_read c = RError TUnexpectedMessage | None => cn_read c <> RError TUnexpectedMessage end.
Lemma read_erase P c kept room answers : kept_ok c kept ->
  (let '(x, c', _, a) := read_full P c kept room answers in (erase_poll x, c', a)) = conn_read P c room answers.
Proof.
  intros K. unfold read_full, conn_read, fill_incoming. destruct (cn_read c) as [| |e] eqn:R.
  - destruct (cn_in c) eqn:I.
    + rewrite <- fill_erase. destruct (fill_full (S (length answers)) P c answers) as [[[x c'] k] a]. destruct x as [|[[]|e|]]; reflexivity.
    + reflexivity.
  - reflexivity.
  - destruct kept as [name|]; cbn [kept_ok] in K; [|reflexivity]. rewrite K in R. injection R as <-. reflexivity.
Qed.

(** *** No name is lost *)
Definition sound {A} (x : tls A) : Prop := x <> Err TUnexpectedMessage.
Definition signs_quietly (P : primitives) : Prop := (forall h k d, sound (sign_rsa P h k d)) /\ (forall k d, sound (sign_ed25519 P k d)).
Lemma sound_bind {A B} (x : tls A) (k : A -> tls B) : sound x -> (forall a, sound (k a)) -> sound (bind x k).
Proof. unfold sound. intros H K. destruct x; cbn [bind]; [apply K|congruence|discriminate]. Qed.
Lemma sound_map {E A} (f : E -> tls_error) (x : outcome E A) : (forall e, f e <> TUnexpectedMessage) -> sound (map_err f x).
Proof. unfold sound. intros F. destruct x; cbn [map_err]; [discriminate| |discriminate]. intros [=H]. apply (F _ H). Qed.
Lemma sound_ok {A} (a : A) : sound (Ok a : tls A).
Proof. discriminate. Qed.
Lemma sound_internal {A} (x : outcome crypt_error A) : sound (internal x).
Proof. apply sound_map. discriminate. Qed.
Lemma sound_cert {E A} (x : outcome E A) : sound (bad_cert x).
Proof. apply sound_map. discriminate. Qed.
Lemma sound_option {A} e (x : option A) : e <> TUnexpectedMessage -> sound (of_option e x).
Proof. intros H. destruct x; cbn [of_option]; [discriminate|]. unfold sound. congruence. Qed.
Lemma sound_encode h : sound (encode_handshake h).
Proof. unfold encode_handshake. destruct (write_handshake h []) as [[|e|] d]; discriminate. Qed.
Ltac sounds := repeat first
  [apply sound_ok|apply sound_encode|apply sound_internal|apply sound_cert|discriminate
  |apply sound_bind; [|intros ?]|apply sound_map; discriminate|apply sound_option; discriminate].
Lemma sound_index (target : bytes) a b : sound (index_range target a b : tls bytes).
Proof. unfold index_range. destruct (get_range target a b); discriminate. Qed.
Lemma sound_certificate P ca target : sound (verify_certificate P ca target).
Proof.
  unfold verify_certificate. sounds. match goal with |- sound (match certificate_alg ?o with _ => _ end) => destruct (certificate_alg o) end; [|discriminate].
  apply sound_bind; [apply sound_index|]. intros ?. destruct (sig_verify _ _ _ _ _); discriminate.
Qed.
Lemma sound_vfinished P h k a b : sound (verify_finished P h k a b).
Proof. unfold verify_finished. sounds. match goal with |- sound (if ?b then _ else _) => destruct b end; discriminate. Qed.
Lemma sound_transcript P cv thash k ep : sound (verify_transcript P cv thash k ep).
Proof. unfold verify_transcript, rsa_verify. destruct (scheme_alg _); [|discriminate]. destruct (sig_verify _ _ _ _ _); discriminate. Qed.
Lemma sound_secrets P t cfg prk sm e : sound (application_secrets P t cfg prk sm e).
Proof.
  unfold application_secrets. apply sound_bind; [apply sound_internal|intros a1]. apply sound_bind; [apply sound_internal|intros a2].
  apply sound_bind; [apply sound_vfinished|intros a3]. apply sound_bind.
  { destruct (sm_certificate sm) as [c|]; [destruct (ct_list c)|]; discriminate. }
  intros a4. apply sound_bind; [destruct (cf_server cfg); discriminate|intros a5]. apply sound_bind; [apply sound_certificate|intros a6].
  apply sound_bind; [|intros; apply sound_ok]. destruct (sm_verify sm) as [[cv thash]|]; [apply sound_transcript|discriminate].
Qed.
Lemma sound_verify P t k : signs_quietly P -> sound (client_verify P t k).
Proof.
  intros [R D]. unfold client_verify. apply sound_bind; [|intros; apply sound_encode]. destruct k; (apply sound_bind; [|intros; apply sound_ok]).
  - apply R.
  - apply D.
Qed.
Lemma sound_finished P t e : sound (client_finished P t e).
Proof. unfold client_finished. sounds. Qed.
Lemma sound_encrypt P d ct k n : sound (encrypt_record P d ct k n).
Proof. unfold encrypt_record. destruct (max_plaintext <? blen d); [discriminate|]. unfold encrypt_traffic. sounds. Qed.
Lemma sound_incr n : sound (incr n).
Proof. unfold incr. destruct (two64 <=? n + 1); discriminate. Qed.
Definition still (s : ec_state) : Prop := s <> EError TUnexpectedMessage.
Lemma still_try {A} (r : tls A) k : sound r -> (forall a, still (k a)) -> still (ec_try r k).
Proof. unfold sound, still. intros H K. destruct r; cbn [ec_try]; [apply K|congruence|discriminate]. Qed.

(** The receivers in play never hold such an error. *)
Definition quiet (r : record_receiver) : Prop := rr_state r <> RError TUnexpectedMessage.
Lemma pop_quiet r : quiet r -> fst (pop_record r) <> Done (Err TUnexpectedMessage) /\ quiet (snd (pop_record r)).
Proof.
  unfold quiet. intros Q. unfold pop_record.
  assert (S : forall A (x : tls A), x <> Err TUnexpectedMessage -> starved (rr_state r) x <> Done (Err TUnexpectedMessage)).
  { intros A x H. destruct (rr_state r); cbn [starved]; congruence. }
  destruct (rr_in r) as [|b0 [|v1 [|v0 [|l1 [|l0 rest]]]]]; try (split; [apply S; discriminate|exact Q]).
  destruct (max_ciphertext <? of_be_bytes [l1; l0]); [split; [discriminate|exact Q]|].
  destruct (blen rest <? of_be_bytes [l1; l0]); [|split; [discriminate|exact Q]].
  split; [apply S; discriminate|]. destruct (rr_state r) eqn:E; cbn [fst snd rr_state]; try (rewrite E; congruence). discriminate.
Qed.
Lemma popcc_quiet fuel : forall r, quiet r -> fst (pop_ignore_cc fuel r) <> Done (Err TUnexpectedMessage) /\ quiet (snd (pop_ignore_cc fuel r)).
Proof.
  induction fuel as [|fuel IH]; intros r Q; cbn [pop_ignore_cc]; [split; [discriminate|exact Q]|].
  pose proof (pop_quiet r Q) as [H1 H2]. destruct (pop_record r) as [x r'] eqn:E. cbn [fst snd] in H1, H2.
  destruct x as [|[[m|]|e|]]; try (split; [exact H1|exact H2]). destruct (tr_type m); try (split; [discriminate|exact H2]). apply IH. exact H2.
Qed.
Lemma recv_quiet r answers : quiet r ->
  let '(x, r', _) := poll_recv r answers in x <> Done (Err TUnexpectedMessage) /\ quiet r'.
Proof.
  unfold quiet. intros Q. destruct answers as [|[|[|b d]|e] l]; cbn [poll_recv]; (split; [discriminate|]); cbn [rr_state close append_data]; try exact Q; try discriminate.
  destruct (rr_state r) eqn:E; congruence.
Qed.
Lemma plaintext_quiet r ts : quiet r ->
  let '(x, r', _) := receive_plaintext_message r ts in x <> Done (Err TUnexpectedMessage) /\ quiet r'.
Proof.
  intros Q. unfold receive_plaintext_message, receive_record_ignore_cc. pose proof (popcc_quiet (S (length (rr_in r))) r Q) as [H1 H2].
  destruct (pop_ignore_cc _ r) as [x r']. cbn [fst snd] in H1, H2. destruct x as [|[[m|]|e|]]; try (split; [first [discriminate|congruence|intros [=->]; apply H1; reflexivity]|exact H2]).
  split; [|exact H2]. destruct (message_from_raw (tr_fragment m) (tr_type m)); discriminate.
Qed.
Lemma encrypted_quiet P r n e ts : quiet r ->
  let '(x, r', _, _) := receive_encrypted_message P r n e ts in x <> Done (Err TUnexpectedMessage) /\ quiet r'.
Proof.
  intros Q. unfold receive_encrypted_message, receive_record_ignore_cc. pose proof (popcc_quiet (S (length (rr_in r))) r Q) as [H1 H2].
  destruct (pop_ignore_cc _ r) as [x r']. cbn [fst snd] in H1, H2. destruct x as [|[[m|]|x|]]; try (split; [first [discriminate|congruence|intros [=->]; apply H1; reflexivity]|exact H2]).
  match goal with |- context [match ?b with Ok _ => _ | Err _ => _ | Panic => _ end] => assert (S : sound b); [|destruct b as [[[m' raw] s]|x|]] end.
  - apply sound_bind; [|intros; apply sound_bind; [apply sound_incr|intros; apply sound_ok]]. unfold decrypt_message, decrypt_traffic.
    apply sound_bind.
    + destruct (ciphertext_from_raw (tr_raw m)) as [[enc used]|]; [|discriminate]. destruct (negb _); [discriminate|]. apply sound_map. discriminate.
    + intros a. destruct (drop_zeros (rev a)); [discriminate|]. apply sound_bind; [apply sound_map; discriminate|intros; apply sound_ok].
  - split; [discriminate|exact H2].
  - split; [|exact H2]. unfold sound in S. congruence.
  - split; [discriminate|exact H2].
Qed.
Lemma receive_named fuel : forall P r se t s, quiet r ->
  let '(x, r', _, _, _) := receive_full fuel P r se t s in x <> Done (Err (FOther TUnexpectedMessage)) /\ quiet r'.
Proof.
  induction fuel as [|fuel IH]; intros P r se t s Q; destruct s; cbn [receive_full]; try (split; [discriminate|exact Q]);
  pose proof (encrypted_quiet P r (se_server se) (se_enc se) (Some t) Q) as H;
  destruct (receive_encrypted_message P r (se_server se) (se_enc se) (Some t)) as [[[x r'] n] ts]; destruct H as [H1 H2];
  destruct x as [|[[m|]|x|]]; try (split; [first [discriminate|congruence|intros [=->]; apply H1; reflexivity]|exact H2]);
  destruct m as [| |a1|h1|d1|c1]; try (split; [discriminate|exact H2]);
  match goal with |- context [on_handshake_full ?s ?g ?h] =>
    pose proof (on_handshake_name s g h) as N; destruct (on_handshake_full s g h) end; try (split; [discriminate|exact H2]); try (apply IH; exact H2);
  (split; [rewrite (N _ eq_refl); discriminate|exact H2]).
Qed.
Definition quiet_state (s : ec_full) : Prop :=
  match s with
  | FFailed e => e <> FOther TUnexpectedMessage
  | FState s =>
    still s /\ match s with EBegin _ _ _ p | EHelloSent _ _ _ p | EHelloReceived _ p _ _ _ _ => quiet (ps_receiver p) | _ => True end
  end.
Lemma flush_sound s w : let '(x, p, _, _) := stream_flush s w in x <> Done (Err TUnexpectedMessage) /\ ps_receiver p = ps_receiver s.
Proof.
  unfold stream_flush. assert (X : forall w out ws, fst (fst (fst (fst (flush_out out ws w)))) <> Done (Err TUnexpectedMessage)).
  { clear. induction w as [|a w IH]; intros out ws; destruct out; cbn [flush_out]; try discriminate; destruct a; try discriminate.
    match goal with |- context [flush_out ?o ?s w] => specialize (IH o s); destruct (flush_out o s w) as [[[[x o'] ws'] t'] sent] end. exact IH. }
  specialize (X w (ps_out s) (ps_write s)). destruct (flush_out (ps_out s) (ps_write s) w) as [[[[x o'] ws'] t'] sent]. split; [exact X|reflexivity].
Qed.
Lemma hello_quiet P cfg private ts p m : quiet (ps_receiver p) -> quiet_state (on_server_hello_full P cfg private ts p m).
Proof.
  intros Q.
  assert (S : forall sh, still (on_server_hello P cfg private ts p (Some (MHandshake (HServerHello sh)))) /\
    match on_server_hello P cfg private ts p (Some (MHandshake (HServerHello sh))) with EBegin _ _ _ p | EHelloSent _ _ _ p | EHelloReceived _ p _ _ _ _ => quiet (ps_receiver p) | _ => True end).
  { intros sh. cbn [on_server_hello]. destruct (ciphers_from sh) as [c|e|] eqn:E; cbn [ec_try].
    - assert (H : sound (handshake_encryption P c {| ts_alg := c_hash c; ts_data := ts |} sh private)).
      { unfold handshake_encryption. sounds. }
      destruct (handshake_encryption P c {| ts_alg := c_hash c; ts_data := ts |} sh private) as [[prk secrets]|e|]; cbn [ec_try].
      + split; [discriminate|exact Q].
      + split; [|exact Logic.I]. unfold sound in H. unfold still. congruence.
      + split; [discriminate|exact Logic.I].
    - split; [|exact Logic.I]. unfold ciphers_from in E. unfold still. destruct (sh_suite sh); try discriminate E; injection E as <-; discriminate.
    - split; [discriminate|exact Logic.I]. }
  destruct m as [[| |a|[]|d|c]|]; cbn [on_server_hello_full quiet_state]; try discriminate; [apply S|]. split; [discriminate|exact Logic.I].
Qed.
Lemma messages_still P cfg p se t prk sm : signs_quietly P -> quiet_state (FState (on_server_messages P cfg p se t prk sm)).
Proof.
  intros G. cbn [quiet_state].
  assert (X : forall s, s = on_server_messages P cfg p se t prk sm -> still s /\ match s with EMessagesReceived _ _ _ | EError _ | EPanic => True | _ => False end).
  { intros s ->. unfold on_server_messages. pose proof (sound_secrets P t cfg prk sm (se_enc se)) as H1.
    destruct (application_secrets P t cfg prk sm (se_enc se)) as [secrets|e|]; cbn [ec_try]; [|unfold sound in H1; unfold still; split; [congruence|exact Logic.I]|split; [discriminate|exact Logic.I]].
    match goal with |- context [ec_try ?x _] => assert (H2 : sound x) end.
    { destruct (cf_client cfg) as [|cert k]; [apply sound_ok|]. apply sound_bind; [|intros c; apply sound_bind; [apply sound_verify; exact G|intros; apply sound_ok]].
      unfold client_certificate. sounds. }
    match goal with |- context [ec_try ?x _] => destruct x as [[out t']|e|] end; cbn [ec_try]; [|unfold sound in H2; unfold still; split; [congruence|exact Logic.I]|split; [discriminate|exact Logic.I]].
    pose proof (sound_finished P t' (se_enc se)) as H3. destruct (client_finished P t' (se_enc se)) as [fin|e|]; cbn [ec_try]; [|unfold sound in H3; unfold still; split; [congruence|exact Logic.I]|split; [discriminate|exact Logic.I]].
    pose proof (sound_encrypt P (out ++ fin) CtHandshake (t_client (e_secrets (se_enc se))) (se_client se)) as H4.
    destruct (encrypt_record P (out ++ fin) CtHandshake (t_client (e_secrets (se_enc se))) (se_client se)) as [rec|e|]; cbn [ec_try]; [|unfold sound in H4; unfold still; split; [congruence|exact Logic.I]|split; [discriminate|exact Logic.I]].
    pose proof (sound_incr (se_client se)) as H5. destruct (incr (se_client se)) as [n|e|]; cbn [ec_try]; [|unfold sound in H5; unfold still; split; [congruence|exact Logic.I]|split; [discriminate|exact Logic.I]].
    split; [discriminate|exact Logic.I]. }
  specialize (X _ eq_refl). destruct X as [X1 X2]. split; [exact X1|]. destruct (on_server_messages P cfg p se t prk sm); try contradiction X2; exact Logic.I.
Qed.
Lemma step_quiet P s w : signs_quietly P -> quiet_state (FState s) ->
  let '(_, s', _, _) := poll_step_full P s w in quiet_state s'.
Proof.
  intros G [K Q]. destruct s; cbn [poll_step_full poll_step].
  - pose proof (flush_sound p w) as F. destruct (stream_flush p w) as [[[x p'] w'] sent]. destruct F as [F1 F2].
    destruct x as [|[[]|e|]]; cbn [quiet_state]; unfold still; (split; [first [discriminate|intros [=->]; apply F1; reflexivity]|]); try exact Logic.I; rewrite F2; exact Q.
  - pose proof (plaintext_quiet (ps_receiver p) ts Q) as F. destruct (receive_plaintext_message (ps_receiver p) ts) as [[x r] ts']. destruct F as [F1 F2].
    destruct x as [|[m|e|]].
    + cbn [quiet_state ps_receiver]. split; [discriminate|exact F2].
    + apply hello_quiet. exact F2.
    + cbn [quiet_state]. intros [=->]. apply F1. reflexivity.
    + cbn [quiet_state]. split; [discriminate|exact Logic.I].
  - pose proof (receive_named (S (length (rr_in (ps_receiver p)))) P (ps_receiver p) se t s Q) as F.
    destruct (receive_full _ P (ps_receiver p) se t s) as [[[[x r'] se'] t'] s']. destruct F as [F1 F2]. destruct x as [|[m|e|]].
    + cbn [quiet_state ps_receiver]. split; [discriminate|exact F2].
    + apply messages_still. exact G.
    + cbn [quiet_state]. intros [=->]. apply F1. reflexivity.
    + cbn [quiet_state]. split; [discriminate|exact Logic.I].
  - pose proof (flush_sound p w) as F. destruct (stream_flush p w) as [[[x p'] w'] sent]. destruct F as [F1 F2].
    destruct x as [|[[]|e|]]; cbn [quiet_state on_finished_sent]; unfold still; (split; [first [discriminate|intros [=->]; apply F1; reflexivity]|]); exact Logic.I.
  - split; [exact K|exact Logic.I].
  - split; [exact K|exact Logic.I].
  - split; [exact K|exact Logic.I].
Qed.
Lemma poll_named fuel : forall P s answers w, signs_quietly P -> quiet_state s ->
  let '(x, s', _, _, _) := ec_poll_full fuel P s answers w in
  x <> Done (Err (FOther TUnexpectedMessage)) /\ (forall s2, s' = Some s2 -> quiet_state s2).
Proof.
  induction fuel as [|fuel IH]; intros P s answers w G Q; [split; discriminate|].
  assert (X : forall s answers, quiet_state (FState s) ->
    let '(x, s', _, _, _) := (let '(ready, s, w, sent) := poll_step_full P s w in
        if ready then let '(x, s, answers, w, more) := ec_poll_full fuel P s answers w in (x, s, answers, w, sent ++ more)
        else (Wait, Some s, answers, w, sent)) in
    x <> Done (Err (FOther TUnexpectedMessage)) /\ (forall s2, s' = Some s2 -> quiet_state s2)).
  { clear s answers Q. intros s answers Q. pose proof (step_quiet P s w G Q) as H. destruct (poll_step_full P s w) as [[[b s'] w'] sent]. destruct b.
    - specialize (IH P s' answers w' G H). destruct (ec_poll_full fuel P s' answers w') as [[[[x s2] a2] w2] more]. exact IH.
    - split; [discriminate|]. intros s2 [=<-]. exact H. }
  destruct s as [s|e]; [|cbn [ec_poll_full]; cbn [quiet_state] in Q; split; [intros [=->]; apply Q; reflexivity|discriminate]].
  destruct s; cbn [ec_poll_full ec_recv]; try (split; discriminate).
  - apply X. exact Q.
  - pose proof (recv_quiet (ps_receiver p) answers (proj2 Q)) as H. destruct (poll_recv (ps_receiver p) answers) as [[x r] a]. destruct H as [H1 H2].
    destruct x as [|[[]|e|]]; try (apply X; split; [discriminate|exact H2]). split; [intros [=->]; apply H1; reflexivity|discriminate].
  - pose proof (recv_quiet (ps_receiver p) answers (proj2 Q)) as H. destruct (poll_recv (ps_receiver p) answers) as [[x r] a]. destruct H as [H1 H2].
    destruct x as [|[[]|e|]]; try (apply X; split; [discriminate|exact H2]). split; [intros [=->]; apply H1; reflexivity|discriminate].
  - apply X. exact Q.
  - destruct Q as [Q _]. unfold still in Q. split; [intros [=->]; apply Q; reflexivity|discriminate].
Qed.
Lemma establish_named P s polls e : signs_quietly P -> quiet_state s -> establish_full P s polls = Some (Err e) -> e <> FOther TUnexpectedMessage.
Proof.
  revert s. induction polls as [|[answers w] polls IH]; intros s G Q; cbn [establish_full]; [discriminate|].
  pose proof (poll_named 7 P s answers w G Q) as H. unfold establish_poll_full. destruct (ec_poll_full 7 P s answers w) as [[[[x s'] a'] w'] sent].
  destruct H as [H1 H2]. destruct x as [|x].
  - destruct s' as [s'|]; [|intros [=]]. apply IH; [exact G|]. apply H2. reflexivity.
  - intros [=->]. intros ->; apply H1; reflexivity.
Qed.
