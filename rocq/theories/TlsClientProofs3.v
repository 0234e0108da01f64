(** Proofs about the TLS client's handshake: whole runs. *)
From Verif Require Import Base BaseProofs MplexModel BinaryModel BinaryProofs MessageProofs MessageProofs2 ProtobufProofs Asn1Model X509Model TlsCodesModel TlsTypesModel
  TlsTypesSpec TlsTypesProofs TlsTypesProofs2 TlsTypesProofs3 TlsRecordModel TlsRecordSpec TlsRecordProofs TlsRecordProps TlsClientModel TlsClientSpec TlsClientProofs TlsClientProofs2.
Local Open Scope string_scope. Local Open Scope list_scope. Local Open Scope N_scope.
Ltac Zify.zify_post_hook ::= Z.div_mod_to_equations.

Definition greeted (P : primitives) (private hello raw0 : bytes) (h : hash_alg) (a : aead_alg) (t0 prk secret : bytes) (k ck : key) : Prop :=
  exists b0 sh share, is_record raw0 22 b0 /\ handshake_in b0 (HServerHello sh) /\ suite_of (sh_suite sh) h a /\ share_of sh share /\ agree P private share = Some secret /\
    t0 = hello ++ b0 /\ prk = handshake_secret P h secret /\ k = traffic_key P h a prk "s hs traffic" t0 /\ ck = traffic_key P h a prk "c hs traffic" t0.

Lemma application_secrets_ok P cfg private hello raw0 rx h a t0 prk secret k ck r se t sm secrets : sizes_ok P ->
  greeted P private hello raw0 h a t0 prk secret k ck ->
  receiving P h k t0 raw0 rx r se t (StFinished (sm_extensions sm) (sm_request sm) (sm_certificate sm) (sm_verify sm) (sm_finished sm)) ->
  e_ciphers (se_enc se) = {| c_hash := h; c_aead := a |} ->
  application_secrets P t cfg prk sm (se_enc se) = Ok secrets ->
  authentic P cfg private hello rx (rr_in r) h ck (ts_data t) secrets.
Proof.
  intros S (b0 & sh & share & G1 & G2 & G3 & G4 & G5 & G6 & G7 & G8 & G9) (d & raws & bodies & msgs & R1 & R2 & R3 & R4 & R5 & R6 & R7 & R8 & R9) C H.
  unfold application_secrets in H. rewrite C in H. cbn [c_hash c_aead] in H.
  apply bind_ok in H. destruct H as (np & H1 & H). apply map_err_ok in H1. apply (derived_ok P _ _ _ _ S) in H1.
  apply bind_ok in H. destruct H as (keys & H2 & H). apply map_err_ok in H2.
  destruct (derive_from_ok P {| c_hash := h; c_aead := a |} t np "ap" keys S ltac:(reflexivity) R6 H2) as (_ & _ & _ & _ & K). specialize (K "c ap traffic" "s ap traffic" eq_refl eq_refl).
  cbn [c_hash c_aead] in K. apply bind_ok in H. destruct H as ([] & H3 & H). apply verify_finished_ok in H3.
  apply bind_ok in H. destruct H as (leaf & H4 & H). destruct (sm_certificate sm) as [certs|] eqn:Ec; [|discriminate H4]. destruct (ct_list certs) as [|v more] eqn:El; [discriminate H4|]. assert (v = leaf) as -> by congruence.
  apply bind_ok in H. destruct H as (ca & H5 & H). apply bind_ok in H. destruct H as ([] & H6 & H). apply verify_certificate_ok in H6.
  apply bind_ok in H. destruct H as ([] & H7 & H). destruct (sm_verify sm) as [[cv ch]|] eqn:Ev; [|discriminate H7]. unfold verify_transcript in H7. apply rsa_verify_ok in H7.
  assert (keys = secrets) as -> by congruence. destruct (sm_finished sm) as [fin fh] eqn:Ef. cbn [fst snd] in H3.
  cbn [progress opt_list fst] in R9. destruct R9 as (M & bs & bf & B1 & B2 & (bs' & bv & B3 & B4)). subst bs.
  exists d, raw0, raws, b0, sh, a, share, secret, bs', bv, bf, msgs, (sm_extensions sm), (sm_request sm), certs, leaf, more, cv, fin, ca.
  split; [exact R1|]. split; [exact R2|]. split; [exact G1|]. split; [exact G2|]. split; [exact G3|]. split; [exact G4|]. split; [exact G5|]. cbv zeta. rewrite <- G6, <- G7, <- G8.
  split; [exact G9|]. split; [rewrite B1, <- app_assoc in R3; exact R3|].
  split; [rewrite M; destruct (sm_request sm); reflexivity|]. split; [exact El|].
  split; [unfold trusted; destruct (cf_server cfg); [discriminate H5|injection H5 as ->; left; reflexivity|injection H5 as <-; right; split; reflexivity]|]. split; [exact H6|].
  assert (Eu : hello ++ b0 ++ concat bs' = t0 ++ concat bs') by (rewrite G6, app_assoc; reflexivity). rewrite Eu.
  split; [rewrite <- B4; exact H7|].
  split; [unfold finished_value; rewrite H3, R8, B2, concat_app; cbn [concat]; rewrite app_nil_r, app_assoc; reflexivity|].
  split; [rewrite R7, B1, !concat_app; cbn [concat]; rewrite !app_nil_r, !app_assoc; reflexivity|].
  rewrite K, H1, G7. reflexivity.
Qed.

(** *** What is sent *)
Lemma encode_handshake_ok m d : handshake_ok m -> handshake_writable m -> encode_handshake m = Ok d -> is_message d m.
Proof.
  intros O W H. unfold encode_handshake in H. destruct (handshake_writer_some m W) as (c & w & t & b & _ & E).
  destruct (write_handshake_ok m t b [] O W E) as [[_ X]|[_ X]]; rewrite X in H; [|discriminate H]. exists t, b. split; [exact E|]. cbn [app] in H. congruence.
Qed.
Lemma flush_stream p w x p' w' sent : stream_flush p w = (x, p', w', sent) ->
  ps_receiver p' = ps_receiver p /\ ps_out p = sent ++ ps_out p' /\ (x = Done (Ok tt) -> ps_out p' = [] /\ ps_write p' = ps_write p) /\ (x = Wait -> ps_write p' = ps_write p) /\ x <> Done Panic.
Proof.
  unfold stream_flush. destruct (flush_out (ps_out p) (ps_write p) w) as [[[[x1 o] ws] w1] s1] eqn:E. apply flush_spec in E. destruct E as (A & B & C & D & _).
  intros H. injection H as <- <- <- <-. cbn [ps_receiver ps_out ps_write]. auto.
Qed.
Lemma hello_record_ok hello : encode_record CtHandshake 0x0301 hello = hello_record hello.
Proof. reflexivity. Qed.
Lemma client_flight_ok P cfg h ck t se out fin t' : sizes_ok P -> ts_alg t = h -> c_hash (e_ciphers (se_enc se)) = h -> t_client (e_secrets (se_enc se)) = ck ->
  match cf_client cfg with
  | CaNone => Ok ([], t)
  | CaCertificate cert k =>
    let? c := client_certificate cert in let? v := client_verify P (transcript_update t c) k in
    Ok (c ++ v, transcript_update (transcript_update t c) v)
  end = Ok (out, t') ->
  client_finished P t' (se_enc se) = Ok fin -> client_flight P cfg h ck (ts_data t) (out ++ fin).
Proof.
  intros S Ta Eh Ek H F. exists out, fin. split; [reflexivity|].
  assert (T' : ts_alg t' = h /\ ts_data t' = ts_data t ++ out).
  { destruct (cf_client cfg) as [|cert k].
    - assert (out = [] /\ t' = t) as [-> ->] by (split; congruence). rewrite app_nil_r. auto.
    - apply bind_ok in H. destruct H as (c & H1 & H). apply bind_ok in H. destruct H as (v & H2 & H).
      assert (out = c ++ v /\ t' = transcript_update (transcript_update t c) v) as [-> ->] by (split; congruence). cbn [ts_alg ts_data transcript_update]. rewrite app_assoc. auto. }
  destruct T' as [T1 T2]. split.
  - unfold client_finished in F. apply bind_ok in F. destruct F as (fk & F1 & F). apply map_err_ok in F1. unfold derive_secret in F1. rewrite Eh, Ek in *.
    apply label_ok in F1; [|reflexivity|reflexivity|pose proof (len_small h); lia]. apply bind_ok in F. destruct F as (vd & F2 & F). apply map_err_ok in F2.
    apply encode_handshake_ok in F; [|exact I|exact I]. unfold hmac_sign, get_hash in F2. rewrite T1, T2 in F2. unfold finished_value. rewrite <- F1. congruence.
  - destruct (cf_client cfg) as [|cert k]; [congruence|].
    apply bind_ok in H. destruct H as (c & H1 & H). apply bind_ok in H. destruct H as (v & H2 & H). unfold client_certificate in H1. apply bind_ok in H1. destruct H1 as (parsed & H3 & H1). apply map_err_ok in H3.
    apply encode_handshake_ok in H1; [|cbn; repeat constructor; exact H3|cbn; repeat constructor].
    unfold client_verify in H2. apply bind_ok in H2. destruct H2 as (cv & H4 & H2). apply encode_handshake_ok in H2; [| |exact I].
    + exists c, v, parsed, cv. split; [congruence|]. split; [exact H3|]. split; [exact H1|]. split; [exact H2|].
      unfold get_hash in H4. cbn [ts_alg ts_data transcript_update] in H4. rewrite Ta in H4. unfold client_signed.
      destruct k as [k|k]; apply bind_ok in H4; destruct H4 as (s & H5 & H4); injection H4 as <-; split; try reflexivity; exact H5.
    + destruct k as [k|k]; apply bind_ok in H4; destruct H4 as (s & H5 & H4); injection H4 as <-; left; cbn; tauto.
Qed.

(** *** The invariant *)
Definition inv (P : primitives) (cfg : config) (private hello rx tx : bytes) (s : ec_state) : Prop :=
  match s with
  | EBegin cfg' pr ts p => cfg' = cfg /\ pr = private /\ ts = hello /\ rx = [] /\ rr_in (ps_receiver p) = [] /\ ps_write p = WsActive /\ tx ++ ps_out p = hello_record hello
  | EHelloSent cfg' pr ts p => cfg' = cfg /\ pr = private /\ ts = hello /\ (exists d, rx = d ++ rr_in (ps_receiver p) /\ carries d []) /\
      ps_write p = WsActive /\ ps_out p = [] /\ tx = hello_record hello
  | EHelloReceived cfg' p se t prk st => cfg' = cfg /\ ps_write p = WsActive /\ ps_out p = [] /\ tx = hello_record hello /\ se_client se = 0 /\
      exists raw0 h a t0 secret k ck, greeted P private hello raw0 h a t0 prk secret k ck /\ receiving P h k t0 raw0 rx (ps_receiver p) se t st /\
        e_ciphers (se_enc se) = {| c_hash := h; c_aead := a |} /\ t_client (e_secrets (se_enc se)) = ck
  | EMessagesReceived p se secrets => ps_write p = WsActive /\
      exists h ck whole, authentic P cfg private hello rx (rr_in (ps_receiver p)) h ck whole secrets /\ client_sent P cfg h ck whole hello (tx ++ ps_out p)
  | EDone c => c = connection_new (cn_plain c) (cn_seq c) /\ se_client (cn_seq c) = 0 /\ se_server (cn_seq c) = 0 /\ ps_write (cn_plain c) = WsActive /\ ps_out (cn_plain c) = [] /\
      exists h ck whole, authentic P cfg private hello rx (rr_in (ps_receiver (cn_plain c))) h ck whole (e_secrets (se_enc (cn_seq c))) /\ client_sent P cfg h ck whole hello tx
  | _ => exists out, sent_so_far P cfg private hello rx (tx ++ out)
  end.
Lemma inv_sent P cfg private hello rx tx s : inv P cfg private hello rx tx s -> exists out, sent_so_far P cfg private hello rx (tx ++ out).
Proof.
  destruct s; cbn [inv]; intros H; try exact H.
  - exists (ps_out p). left. tauto.
  - exists []. rewrite app_nil_r. left. tauto.
  - exists []. rewrite app_nil_r. left. tauto.
  - destruct H as (_ & h & ck & whole & Au & H). exists (ps_out p). right. eauto 10.
  - destruct H as (_ & _ & _ & _ & _ & h & ck & whole & Au & H). exists []. rewrite app_nil_r. right. eauto 10.
Qed.
Lemma sent_hello P cfg private hello rx : exists out, sent_so_far P cfg private hello rx (hello_record hello ++ out).
Proof. exists []. rewrite app_nil_r. left. reflexivity. Qed.
Lemma on_server_hello_inv P cfg private hello rx p d raw0 t b0 m : sizes_ok P ->
  rx = d ++ rr_in (ps_receiver p) -> carries d [raw0] -> is_record raw0 t b0 -> message_from_raw b0 (content_type_from t) = Ok m ->
  ps_write p = WsActive -> ps_out p = [] ->
  inv P cfg private hello rx (hello_record hello) (on_server_hello P cfg private (hello ++ b0) p (Some m)).
Proof.
  intros S R C I M W O. unfold on_server_hello.
  assert (Bad : forall e, inv P cfg private hello rx (hello_record hello) (EError e)) by (intros e; apply sent_hello).
  destruct m as [| | |hh| |]; try apply Bad. destruct hh; try apply Bad.
  apply handshake_type in M. destruct M as [-> M].
  destruct (ciphers_from h) as [c| |] eqn:E1; cbn [ec_try]; [|apply Bad|apply sent_hello]. apply suite_ok in E1.
  destruct (handshake_encryption P c {| ts_alg := c_hash c; ts_data := hello ++ b0 |} h private) as [[prk keys]| |] eqn:E2; [|apply Bad|apply sent_hello].
  apply handshake_encryption_ok in E2; [|exact S|reflexivity]. destruct E2 as (share & secret & X1 & X2 & X3 & X4). cbn [ts_data] in X4.
  cbn [inv se_client se_enc e_ciphers e_secrets]. split; [reflexivity|]. split; [exact W|]. split; [exact O|]. split; [reflexivity|]. split; [reflexivity|].
  exists raw0, (c_hash c), (c_aead c), (hello ++ b0), secret, (t_server keys), (t_client keys).
  split; [exists b0, h, share; rewrite X4; auto 12|]. split; [|split; [destruct c; reflexivity|reflexivity]].
  exists d, [], [], []. cbn [se_server ts_alg ts_data se_enc e_secrets progress flight length concat]. rewrite app_nil_r. split; [exact R|]. split; [exact C|]. split; [exact Logic.I|]. split; [reflexivity|]. split; [reflexivity|]. auto 12.
Qed.
Lemma on_server_messages_inv P cfg private hello rx p se t prk sm raw0 h a t0 secret k ck : sizes_ok P -> aead_ok P ->
  ps_write p = WsActive -> ps_out p = [] -> se_client se = 0 ->
  greeted P private hello raw0 h a t0 prk secret k ck ->
  receiving P h k t0 raw0 rx (ps_receiver p) se t (StFinished (sm_extensions sm) (sm_request sm) (sm_certificate sm) (sm_verify sm) (sm_finished sm)) ->
  e_ciphers (se_enc se) = {| c_hash := h; c_aead := a |} -> t_client (e_secrets (se_enc se)) = ck ->
  inv P cfg private hello rx (hello_record hello) (on_server_messages P cfg p se t prk sm).
Proof.
  intros S A W O Q G R C K. unfold on_server_messages.
  destruct (application_secrets P t cfg prk sm (se_enc se)) as [secrets| |] eqn:E1; cbn [ec_try]; [|apply sent_hello|apply sent_hello].
  pose proof (application_secrets_ok P cfg private hello raw0 rx h a t0 prk secret k ck _ se t sm secrets S G R C E1) as Au.
  match goal with |- context [ec_try ?e _] => destruct e as [[out t']| |] eqn:E2; cbn [ec_try]; [|apply sent_hello|apply sent_hello] end.
  destruct (client_finished P t' (se_enc se)) as [fin| |] eqn:E3; cbn [ec_try]; [|apply sent_hello|apply sent_hello].
  assert (Ta : ts_alg t = h) by (destruct R as (? & ? & ? & ? & ? & ? & ? & ? & ? & ? & _); assumption).
  pose proof (client_flight_ok P cfg h ck t se out fin t' S Ta ltac:(rewrite C; reflexivity) K E2 E3) as F.
  rewrite K, Q. assert (Kok : key_ok ck) by (destruct G as (? & ? & ? & ? & ? & ? & ? & ? & ? & ? & ? & ->); apply key_ok_of; exact S).
  rewrite (C56_sent_records P ck 0 (out ++ fin) CtHandshake A Kok ltac:(reflexivity)).
  destruct (16384 <? blen (out ++ fin)) eqn:B; cbn [ec_try]; [apply sent_hello|].
  change (content_type_to CtHandshake) with 22. destruct (protect P ck 0 (inner_plaintext (out ++ fin) 22 0)) as [raw|] eqn:E4; cbn [ec_try]; [|apply sent_hello].
  change (incr 0) with (Ok 1 : tls N). cbn [ec_try inv ps_write ps_receiver ps_out]. split; [exact W|]. exists h, ck, (ts_data t). split; [exact Au|].
  exists (out ++ fin), raw. split; [exact F|]. split; [lia|]. split; [exact E4|]. rewrite O. reflexivity.
Qed.
Lemma step_inv P cfg private hello rx tx s w ready s' w' sent : sizes_ok P -> aead_ok P ->
  inv P cfg private hello rx tx s -> poll_step P s w = (ready, s', w', sent) -> inv P cfg private hello rx (tx ++ sent) s'.
Proof.
  intros S A I H. destruct s as [cfg' pr ts p|cfg' pr ts p|cfg' p se t prk st|p se secrets|c|e|]; cbn [poll_step] in H.
  - destruct I as (-> & -> & -> & -> & I1 & I2 & I3). destruct (stream_flush p w) as [[[x p1] w1] s1] eqn:E. apply flush_stream in E. destruct E as (F1 & F2 & F3 & F4 & F5).
    rewrite F2 in I3. destruct x as [|[[]|e|]]; [| | |contradiction]; injection H as <- <- <- <-; cbn [inv].
    + rewrite <- app_assoc, F1. rewrite (F4 eq_refl). auto 10.
    + destruct (F3 eq_refl) as [F6 F7]. rewrite F6, app_nil_r in I3. rewrite F1, I1, F7. repeat (split; [reflexivity|]). split; [exists []; split; [reflexivity|constructor]|]. auto.
    + exists (ps_out p1). left. rewrite <- app_assoc. exact I3.
  - destruct I as (-> & -> & -> & (d & R & C) & I1 & I2 & ->). unfold receive_plaintext_message, receive_record_ignore_cc in H.
    destruct (pop_ignore_cc (Datatypes.S (length (rr_in (ps_receiver p)))) (ps_receiver p)) as [y r1] eqn:E. apply ignore_raw in E. destruct E as (d1 & D1 & D2).
    destruct y as [|[[y|]|e|]]; try (injection H as <- <- <- <-; rewrite app_nil_r; try apply sent_hello).
    + cbn [inv ps_receiver ps_write ps_out]. repeat (split; [reflexivity|]). split; [|auto]. exists (d ++ d1). split; [rewrite R, D1, app_assoc; reflexivity|exact (D2 d [] C)].
    + destruct D2 as (t & D2 & D3 & D4 & _). rewrite D4 in H.
      destruct (message_from_raw (tr_fragment y) (content_type_from t)) as [m| |] eqn:M; cbn [map_err bind] in H; injection H as <- <- <- <-; rewrite app_nil_r; try apply sent_hello.
      apply on_server_hello_inv with (d ++ d1) (tr_raw y) t; auto. * cbn [ps_receiver]. rewrite R, D1, app_assoc. reflexivity. * exact (D2 d [] C).
  - destruct I as (-> & I1 & I2 & -> & I3 & raw0 & h & a & t0 & secret & k & ck & G & R & C & K).
    assert (Kok : key_ok k) by (destruct G as (? & ? & ? & ? & ? & ? & ? & ? & ? & ? & -> & _); apply key_ok_of; exact S).
    destruct (receive_messages (Datatypes.S (length (rr_in (ps_receiver p)))) P (ps_receiver p) se t st) as [[[[x r1] se1] t1] st1] eqn:E.
    destruct (receive_messages_spec _ P h k t0 raw0 rx _ se t st x r1 se1 t1 st1 Kok R E) as (Q1 & Q2 & Q3).
    destruct x as [|[sm|e|]]; injection H as <- <- <- <-; rewrite app_nil_r; try apply sent_hello.
    + cbn [inv ps_write ps_out ps_receiver]. rewrite Q1, Q2. repeat (split; [first [assumption|reflexivity]|]). exists raw0, h, a, t0, secret, k, ck. auto.
    + apply on_server_messages_inv with raw0 h a t0 secret k ck; auto; try (rewrite Q2; exact I3); rewrite Q1; assumption.
  - destruct I as (I1 & h & ck & whole & Au & Cs). destruct (stream_flush p w) as [[[x p1] w1] s1] eqn:E. apply flush_stream in E. destruct E as (F1 & F2 & F3 & F4 & F5).
    rewrite F2 in Cs. destruct x as [|[[]|e|]]; [| | |contradiction]; injection H as <- <- <- <-; cbn [inv].
    + rewrite <- app_assoc, F1, (F4 eq_refl). eauto 10.
    + destruct (F3 eq_refl) as [F6 F7]. rewrite F6, app_nil_r in Cs. cbn [inv on_finished_sent connection_new cn_plain cn_seq se_client se_server se_enc e_secrets]. rewrite F1, F6, F7. eauto 15.
    + exists (ps_out p1). right. rewrite <- app_assoc. eauto 10.
  - injection H as <- <- <- <-. rewrite app_nil_r. exact I.
  - injection H as <- <- <- <-. rewrite app_nil_r. exact I.
  - injection H as <- <- <- <-. rewrite app_nil_r. exact I.
Qed.
Lemma recv_inv P cfg private hello rx tx s answers x s' rest : inv P cfg private hello rx tx s -> ec_recv s answers = Some (x, s', rest) ->
  exists pre, answers = pre ++ rest /\ inv P cfg private hello (rx ++ concat (map data_of pre)) tx s'.
Proof.
  intros I H. destruct s as [cfg' pr ts p|cfg' pr ts p|cfg' p se t prk st|p se secrets|c|e|]; try discriminate H; cbn [ec_recv] in H;
    destruct (poll_recv (ps_receiver p) answers) as [[x1 r1] a1] eqn:E; apply recv_spec in E; destruct E as (pre & E1 & E2); injection H as <- <- <-; exists pre; (split; [exact E1|]).
  - destruct I as (-> & -> & -> & (d & R & C) & I1 & I2 & ->). cbn [inv ps_write ps_out ps_receiver]. repeat (split; [reflexivity|]). split; [|auto].
    exists d. split; [rewrite E2, R, app_assoc; reflexivity|exact C].
  - destruct I as (-> & I1 & I2 & -> & I3 & raw0 & h & a & t0 & secret & k & ck & G & (d & raws & bodies & msgs & R1 & R2) & C & K).
    cbn [inv ps_write ps_out ps_receiver]. repeat (split; [first [assumption|reflexivity]|]). exists raw0, h, a, t0, secret, k, ck. split; [exact G|]. split; [|auto].
    exists d, raws, bodies, msgs. split; [rewrite E2, R1, app_assoc; reflexivity|exact R2].
Qed.
Lemma no_recv_inv s answers : ec_recv s answers = None -> match s with EHelloSent _ _ _ _ | EHelloReceived _ _ _ _ _ _ => False | _ => True end.
Proof. destruct s; intros H; try exact I; cbn [ec_recv] in H; destruct (poll_recv (ps_receiver p) answers) as [[? ?] ?]; discriminate H. Qed.
Lemma poll_inv fuel : forall P cfg private hello rx tx s answers w x so rest w' sent, sizes_ok P -> aead_ok P ->
  inv P cfg private hello rx tx s -> ec_poll fuel P s answers w = (x, so, rest, w', sent) ->
  exists pre, answers = pre ++ rest /\ (exists out, sent_so_far P cfg private hello (rx ++ concat (map data_of pre)) (tx ++ sent ++ out)) /\
  match x with
  | Wait => exists s', so = Some s' /\ inv P cfg private hello (rx ++ concat (map data_of pre)) (tx ++ sent) s'
  | Done (Ok c) => inv P cfg private hello (rx ++ concat (map data_of pre)) (tx ++ sent) (EDone c)
  | _ => True
  end.
Proof.
  induction fuel as [|fuel IH]; intros P cfg private hello rx tx s answers w x so rest w' sent S A I H.
  - cbn [ec_poll] in H. injection H as <- <- <- <- <-. exists []. split; [reflexivity|]. split; [|exact Logic.I]. cbn [map concat]. rewrite app_nil_r. exact (inv_sent _ _ _ _ _ _ _ I).
  - assert (Step : forall s answers rx, inv P cfg private hello rx tx s ->
      (let '(ready, s, w, sent) := poll_step P s w in
        if ready then let '(x, s, answers, w, more) := ec_poll fuel P s answers w in (x, s, answers, w, sent ++ more)
        else (Wait, Some s, answers, w, sent)) = (x, so, rest, w', sent) ->
      exists pre, answers = pre ++ rest /\ (exists out, sent_so_far P cfg private hello (rx ++ concat (map data_of pre)) (tx ++ sent ++ out)) /\
      match x with
      | Wait => exists s', so = Some s' /\ inv P cfg private hello (rx ++ concat (map data_of pre)) (tx ++ sent) s'
      | Done (Ok c) => inv P cfg private hello (rx ++ concat (map data_of pre)) (tx ++ sent) (EDone c)
      | _ => True
      end).
    { clear H I s answers rx. intros s answers rx I H. destruct (poll_step P s w) as [[[ready s1] w1] sent1] eqn:E. pose proof (step_inv P cfg private hello rx tx s w _ _ _ _ S A I E) as I1.
      destruct ready.
      - destruct (ec_poll fuel P s1 answers w1) as [[[[x2 s2] a2] w2] more] eqn:E2. injection H as <- <- <- <- <-.
        destruct (IH P cfg private hello rx (tx ++ sent1) s1 answers w1 _ _ _ _ _ S A I1 E2) as (pre & P1 & P2 & P3). exists pre. split; [exact P1|]. 
        split; [destruct P2 as (out & P2); exists out; rewrite <- !app_assoc in P2 |- *; exact P2|]. destruct x2 as [|[| |]]; try exact Logic.I; rewrite <- ?app_assoc in P3; exact P3.
      - injection H as <- <- <- <- <-. exists []. split; [reflexivity|]. cbn [map concat]. rewrite app_nil_r. split; [|eauto].
        destruct (inv_sent _ _ _ _ _ _ _ I1) as (out & O). exists out. rewrite app_assoc. exact O. }
    assert (Over : forall y : poll (tls connection), match y with Done (Ok _) | Wait => False | _ => True end -> (y, None, answers, w, []) = (x, so, rest, w', sent) ->
      exists pre, answers = pre ++ rest /\ (exists out, sent_so_far P cfg private hello (rx ++ concat (map data_of pre)) (tx ++ sent ++ out)) /\
      match x with
      | Wait => exists s', so = Some s' /\ inv P cfg private hello (rx ++ concat (map data_of pre)) (tx ++ sent) s'
      | Done (Ok c) => inv P cfg private hello (rx ++ concat (map data_of pre)) (tx ++ sent) (EDone c)
      | _ => True
      end).
    { intros y Y E. injection E as <- <- <- <- <-. exists []. split; [reflexivity|]. split; [cbn [map concat]; rewrite app_nil_r; exact (inv_sent _ _ _ _ _ _ _ I)|]. destruct y as [|[| |]]; try contradiction; exact Logic.I. }
    cbn [ec_poll] in H.
    destruct (ec_recv s answers) as [[[y s1] a1]|] eqn:E.
    + assert (Hs : match y with Done (Err e) => (Done (Err e), None, a1, w, []) | _ =>
        (let '(ready, s, w, sent) := poll_step P s1 w in
          if ready then let '(x, s, answers, w, more) := ec_poll fuel P s a1 w in (x, s, answers, w, sent ++ more)
          else (Wait, Some s, a1, w, sent)) end = (x, so, rest, w', sent)).
      { destruct s; try discriminate E; rewrite <- H; destruct y as [|[| |]]; reflexivity. }
      clear H. destruct (recv_inv P cfg private hello rx tx s answers y s1 a1 I E) as (pre & P1 & I1).
      assert (Go : (let '(ready, s, w, sent) := poll_step P s1 w in
          if ready then let '(x, s, answers, w, more) := ec_poll fuel P s a1 w in (x, s, answers, w, sent ++ more)
          else (Wait, Some s, a1, w, sent)) = (x, so, rest, w', sent) -> 
          exists pre, answers = pre ++ rest /\ (exists out, sent_so_far P cfg private hello (rx ++ concat (map data_of pre)) (tx ++ sent ++ out)) /\
      match x with
      | Wait => exists s', so = Some s' /\ inv P cfg private hello (rx ++ concat (map data_of pre)) (tx ++ sent) s'
      | Done (Ok c) => inv P cfg private hello (rx ++ concat (map data_of pre)) (tx ++ sent) (EDone c)
      | _ => True
      end).
      { intros Hg. destruct (Step _ _ _ I1 Hg) as (pre2 & P3 & P4 & P5). exists (pre ++ pre2). rewrite P1, P3, map_app, concat_app, <- app_assoc. split; [reflexivity|]. rewrite <- app_assoc in P4. split; [exact P4|].
        rewrite <- app_assoc in P5. exact P5. }
      destruct y as [|[| e |]]; try (exact (Go Hs)). injection Hs as <- <- <- <- <-. exists pre. split; [exact P1|]. split; [|exact Logic.I]. exact (inv_sent _ _ _ _ _ _ _ I1).
    + pose proof (no_recv_inv s answers E) as Nr. destruct s; try contradiction; try exact (Step _ _ _ I H).
      * injection H as <- <- <- <- <-. exists []. split; [reflexivity|]. split; [cbn [map concat]; rewrite app_nil_r; exact (inv_sent _ _ _ _ _ _ _ I)|]. cbn [map concat]. rewrite !app_nil_r. exact I.
      * refine (Over _ _ H). exact Logic.I.
      * refine (Over _ _ H). exact Logic.I.
Qed.
