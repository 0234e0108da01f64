(** The TLS client: C57 (runs), C58-C61, C62 (in the client), C79, C80. *)
From Verif Require Import Base BaseProofs MplexModel BinaryModel BinaryProofs MessageProofs MessageProofs2 ProtobufProofs Asn1Model X509Model TlsCodesModel TlsTypesModel
  TlsTypesSpec TlsTypesProofs TlsTypesProofs2 TlsTypesProofs3 TlsRecordModel TlsRecordSpec TlsRecordProofs TlsRecordProps TlsClientModel TlsClientSpec TlsClientProofs TlsClientProofs2 TlsClientProofs3
  TlsClientProofs4 TlsClientProofs5 TlsClientProofs6.
Local Open Scope string_scope. Local Open Scope list_scope. Local Open Scope N_scope.
Ltac Zify.zify_post_hook ::= Z.div_mod_to_equations.

Lemma toy_sizes_ok : sizes_ok toy.
Proof.
  split; [intros h d; apply be_bytes_length|]. split; [intros h s i; apply be_bytes_length|]. intros h s i n. split; [apply be_bytes_length|apply be_bytes_ok].
Qed.

(** *** C58: only authentic servers *)
Lemma client_hello_ok random session public name protocols : length random = 32%nat -> match name with Some n => utf8_valid n = true | None => True end ->
  let h := HClientHello (make_client_hello random session public name protocols) in handshake_ok h /\ handshake_writable h.
Proof.
  intros L U. cbn [handshake_ok handshake_writable make_client_hello ch_version ch_random ch_suites ch_extensions]. split; [split; [reflexivity|]; split; [exact L|]; split|].
  - repeat (apply Forall_cons; [|]); try apply Forall_nil; [left; cbn; tauto|left; cbn; tauto|right; exists 255; split; [reflexivity|]; split; [reflexivity|]; cbn; intros C; repeat destruct C as [C|C]; discriminate C || contradiction].
  - apply Forall_app. split.
    + repeat (apply Forall_cons; [cbn [extension_ok]; first [exact I | split; [reflexivity|apply Forall_cons; [left; cbn; tauto|apply Forall_nil]] | repeat (apply Forall_cons; [left; cbn; tauto|]); apply Forall_nil]|]). apply Forall_nil.
    + destruct name as [n|]; [|apply Forall_nil]. apply Forall_cons; [|apply Forall_nil]. cbn [extension_ok]. apply Forall_cons; [exact U|apply Forall_nil].
  - apply Forall_app. split; [repeat (apply Forall_cons; [exact I|]); apply Forall_nil|]. destruct name as [n|]; [|apply Forall_nil]. apply Forall_cons; [reflexivity|apply Forall_nil].
Qed.
Lemma establish_inv P cfg private hello rx tx s answers w x so rest w' sent : sizes_ok P -> aead_ok P ->
  inv P cfg private hello rx tx s -> establish_poll P s answers w = (x, so, rest, w', sent) ->
  exists pre, answers = pre ++ rest /\ (exists out, sent_so_far P cfg private hello (rx ++ concat (map data_of pre)) (tx ++ sent ++ out)) /\
  match x with
  | Wait => exists s', so = Some s' /\ inv P cfg private hello (rx ++ concat (map data_of pre)) (tx ++ sent) s'
  | Done (Ok c) => inv P cfg private hello (rx ++ concat (map data_of pre)) (tx ++ sent) (EDone c)
  | _ => True
  end.
Proof. unfold establish_poll. generalize 7%nat. intros fuel S A I H. exact (poll_inv fuel P cfg private hello rx tx s answers w x so rest w' sent S A I H). Qed.
Lemma run_cons P s answers w polls : handshake_run P s ((answers, w) :: polls) =
    let '(x, s', remain, _, sent) := establish_poll P s answers w in
    match x, s' with
    | Done r, _ => (Some r, used answers remain, sent)
    | Wait, Some s' => let '(r, rx, tx) := handshake_run P s' polls in (r, used answers remain ++ rx, sent ++ tx)
    | Wait, None => (Some Panic, used answers remain, sent)
    end.
Proof. reflexivity. Qed.
Lemma run_inv P cfg private hello polls : forall s rx tx r rx' tx', sizes_ok P -> aead_ok P -> inv P cfg private hello rx tx s -> handshake_run P s polls = (r, rx', tx') ->
  (exists out, sent_so_far P cfg private hello (rx ++ rx') (tx ++ tx' ++ out)) /\ (forall c, r = Some (Ok c) -> inv P cfg private hello (rx ++ rx') (tx ++ tx') (EDone c)).
Proof.
  induction polls as [|[answers w] polls IH]; intros s rx tx r rx' tx' S A I H; [cbn [handshake_run] in H|rewrite run_cons in H].
  - injection H as <- <- <-. destruct (inv_sent _ _ _ _ _ _ _ I) as (out & O). split; [exists out; rewrite (app_nil_r rx); exact O|discriminate].
  - destruct (establish_poll P s answers w) as [[[[x so] rest] w'] sent] eqn:E.
    destruct (establish_inv P cfg private hello rx tx s answers w x so rest w' sent S A I E) as (pre & P1 & P2 & P3). pose proof (used_pre _ _ _ P1) as U. rewrite U in H.
    destruct x as [|y].
    + destruct P3 as (s1 & -> & P3). destruct (handshake_run P s1 polls) as [[r1 rx1] tx1] eqn:F. injection H as <- <- <-.
      destruct (IH s1 _ _ r1 rx1 tx1 S A P3 F) as (Q1 & Q2). split; [|intros c C; specialize (Q2 c C); rewrite !app_assoc; exact Q2].
      destruct Q1 as (out & Q1). exists out. rewrite !app_assoc in *. exact Q1.
    + injection H as <- <- <-. split; [exact P2|]. intros c [=->]. exact P3.
Qed.
(** Whatever the peer sends and however the transport behaves: if the client ends up with a
    connection, then the peer sent, one after the other and each encrypted under the key the
    key exchange gives, the messages RFC 8446 prescribes, among them a certificate signed by
    the trusted one, a signature of the transcript up to the certificate by the
    certificate's key, and the right Finished value; the keys of the connection come from
    this exchange; and the client has sent its ClientHello and its own right Finished. *)
Theorem C58_only_authentic_servers P random session private cfg protocols polls c rx tx : sizes_ok P -> aead_ok P ->
  length random = 32%nat -> match cf_name cfg with Some n => utf8_valid n = true | None => True end ->
  handshake_run P (establish P random session private cfg protocols) polls = (Some (Ok c), rx, tx) ->
  exists hello h client whole,
    is_message hello (HClientHello (make_client_hello random session (public_of P private) (cf_name cfg) protocols)) /\
    authentic P cfg private hello rx (rr_in (ps_receiver (cn_plain c))) h client whole (e_secrets (se_enc (cn_seq c))) /\
    client_sent P cfg h client whole hello tx /\
    fresh (t_client (e_secrets (se_enc (cn_seq c)))) (t_server (e_secrets (se_enc (cn_seq c)))) c.
Proof.
  intros S A L U H. unfold establish in H. destruct (client_hello_ok random session (public_of P private) (cf_name cfg) protocols L U) as [O W].
  destruct (encode_handshake (HClientHello (make_client_hello random session (public_of P private) (cf_name cfg) protocols))) as [hello|e|] eqn:E; cbn [ec_try] in H.
  - assert (I : inv P cfg private hello [] [] (EBegin cfg private hello {| ps_receiver := receiver_new; ps_out := encode_record CtHandshake 769 hello; ps_write := WsActive |})).
    { cbn [inv ps_receiver ps_out ps_write receiver_new rr_in app]. repeat (split; [reflexivity|]). apply hello_record_ok. }
    destruct (run_inv P cfg private hello polls _ _ _ _ _ _ S A I H) as (_ & Q). specialize (Q c eq_refl). cbn [app inv] in Q. destruct Q as (Q1 & Q2 & Q3 & Q4 & Q5 & h & ck & whole & Q6 & Q7).
    exists hello, h, ck, whole. split; [exact (encode_handshake_ok _ _ O W E)|]. split; [exact Q6|]. split; [exact Q7|].
    unfold fresh. rewrite Q1. cbn [connection_new cn_plain cn_seq cn_in cn_read]. destruct (e_secrets (se_enc (cn_seq c))). auto 10.
  - exfalso. destruct polls as [|[answers w] polls]; cbn [handshake_run establish_poll ec_poll] in H; discriminate H.
  - exfalso. destruct polls as [|[answers w] polls]; cbn [handshake_run establish_poll ec_poll] in H; discriminate H.
Qed.
Print Assumptions C58_only_authentic_servers.
(** Before there is a connection, nothing is sent but the ClientHello and, once the server has
    proved itself, the client's last message: in particular no application data. *)
Theorem C58_nothing_else_is_sent P random session private cfg protocols polls r rx tx : sizes_ok P -> aead_ok P ->
  handshake_run P (establish P random session private cfg protocols) polls = (r, rx, tx) ->
  tx = [] \/ exists hello out, encode_handshake (HClientHello (make_client_hello random session (public_of P private) (cf_name cfg) protocols)) = Ok hello /\ sent_so_far P cfg private hello rx (tx ++ out).
Proof.
  intros S A H. unfold establish in H.
  destruct (encode_handshake (HClientHello (make_client_hello random session (public_of P private) (cf_name cfg) protocols))) as [hello|e|] eqn:E; cbn [ec_try] in H.
  - right. assert (I : inv P cfg private hello [] [] (EBegin cfg private hello {| ps_receiver := receiver_new; ps_out := encode_record CtHandshake 769 hello; ps_write := WsActive |})).
    { cbn [inv ps_receiver ps_out ps_write receiver_new rr_in app]. repeat (split; [reflexivity|]). apply hello_record_ok. }
    destruct (run_inv P cfg private hello polls _ _ _ _ _ _ S A I H) as ((out & Q) & _). exists hello, out. split; [reflexivity|exact Q].
  - left. destruct polls as [|[answers w] polls]; cbn [handshake_run establish_poll ec_poll] in H; congruence.
  - left. destruct polls as [|[answers w] polls]; cbn [handshake_run establish_poll ec_poll] in H; congruence.
Qed.
Print Assumptions C58_nothing_else_is_sent.
(** The messages are accepted in this order and no other; anything else is an error. *)
Definition st_last (s : client_state) : nat :=
  match s with StServerHello => 0 | StExtensions _ => 1 | StRequest _ _ => 2 | StCertificate _ _ _ => 3 | StVerify _ _ _ _ => 4 | StFinished _ _ _ _ _ => 5 end.
Lemma on_handshake_order s hash m : match on_handshake s hash m with
  | Ok s' => exists n, rank m = Some n /\ (st_last s < n)%nat /\ (st_last s = 0%nat -> n = 1%nat) /\ st_last s' = n
  | Err e => e = TUnexpectedMessage /\ (forall n, rank m = Some n -> ~ ((st_last s < n)%nat /\ (st_last s = 0%nat -> n = 1%nat)))
  | Panic => False
  end.
Proof.
  destruct s, m; cbn [on_handshake rank st_last]; try (split; [reflexivity|]; intros n [=<-]; lia); try (split; [reflexivity|discriminate]); eexists; (split; [reflexivity|]); cbn [st_last]; lia.
Qed.
Theorem C58_order l : (exists s, feed_all StServerHello l = Ok s) <-> in_order 0 (map snd l).
Proof.
  assert (X : forall l s, (exists s', feed_all s l = Ok s') <-> in_order (st_last s) (map snd l)); [|exact (X l StServerHello)].
  clear l. induction l as [|[hash m] l IH]; intros s; cbn [feed_all map snd in_order].
  - split; [auto|]. intros _. exists s. reflexivity.
  - pose proof (on_handshake_order s hash m) as O. destruct (on_handshake s hash m) as [s1|e|]; cbn [bind]; [| |contradiction].
    + destruct O as (n & O1 & O2 & O3 & O4). rewrite IH, O4. split; [intros H; exists n; auto|]. intros (n' & H1 & _ & _ & H2). assert (n' = n) as -> by congruence. exact H2.
    + destruct O as [_ O]. split; [intros (s' & H); discriminate H|]. intros (n & H1 & H2 & H3 & _). contradiction (O n H1). auto.
Qed.
Print Assumptions C58_order.
Theorem C58_other_messages_are_errors l : ~ in_order 0 (map snd l) -> feed_all StServerHello l = Err TUnexpectedMessage.
Proof.
  assert (X : forall l s, ~ in_order (st_last s) (map snd l) -> feed_all s l = Err TUnexpectedMessage); [|exact (X l StServerHello)].
  clear l. induction l as [|[hash m] l IH]; intros s; cbn [feed_all map snd in_order].
  - intros H. contradiction (H I).
  - intros H. pose proof (on_handshake_order s hash m) as O. destruct (on_handshake s hash m) as [s1|e|]; cbn [bind]; [| |contradiction].
    + destruct O as (n & O1 & O2 & O3 & O4). apply IH. rewrite O4. intros C. apply H. exists n. auto.
    + destruct O as [-> _]. reflexivity.
Qed.
Print Assumptions C58_other_messages_are_errors.
(** The model's bound on the steps of a poll is never met. *)
Theorem C58_fuel fuel P s answers w : (5 <= fuel)%nat -> ec_poll fuel P s answers w = establish_poll P s answers w.
Proof. intros L. apply fuel_irrelevant; destruct s; cbn [st_rank]; lia. Qed.
Print Assumptions C58_fuel.
(** With the toy primitives: a proper server, first self-signed, then under the authority;
    servers without CertificateVerify, with a wrong Finished value, with CertificateVerify
    before the certificate, and under another authority. *)
Definition outcome_of (x : option (tls connection) * bytes * bytes) : option (tls bool) :=
  match fst (fst x) with Some (Ok c) => Some (Ok true) | Some (Err e) => Some (Err e) | Some Panic => Some Panic | None => None end.
Example C58_sample :
  outcome_of (toy_run SaSelfSigned [toy_m1; toy_m2; toy_m3; toy_m4 toy_finished]) = Some (Ok true) /\
  outcome_of (toy_run (SaAuthority toy_cert_bytes) [toy_m1; toy_m2; toy_m3; toy_m4 toy_finished]) = Some (Ok true) /\
  outcome_of (toy_run SaNone [toy_m1; toy_m2; toy_m3; toy_m4 toy_finished]) = Some (Err TCACertificateUnavailable) /\
  outcome_of (toy_run SaSelfSigned [toy_m1; toy_m2; toy_m4 (finished_value toy SHA256 (toy_hs "s hs traffic") (toy_hello ++ toy_server_hello ++ toy_m1 ++ toy_m2))]) = Some (Err TMissingCertificateVerifyMessage) /\
  outcome_of (toy_run SaSelfSigned [toy_m1; toy_m2; toy_m3; toy_m4 (repeat 0 32)]) = Some (Err TFinishedVerificationFailed) /\
  outcome_of (toy_run SaSelfSigned [toy_m1; toy_m3; toy_m2; toy_m4 toy_finished]) = Some (Err TUnexpectedMessage).
Proof. do 5 (split; [vm_compute; reflexivity|]). vm_compute. reflexivity. Qed.

(** *** C62 in the client *)
(** A peer that has proved nothing makes the client panic, by a Finished value that is too
    short: the Finished value comes before the certificate. *)
Theorem C62_client_panics_refuted : exists messages, outcome_of (toy_run SaSelfSigned messages) = Some Panic.
Proof. exists [toy_m1; toy_m4 [1; 2; 3]]. vm_compute. reflexivity. Qed.
Print Assumptions C62_client_panics_refuted.

(** *** C79: whose certificate it is *)
(** The name asked for is in no way compared with the certificate, and neither are the dates:
    the outcome of checking the server does not depend on the name, nor on anything in the
    certificate but its key and its signature. *)
Theorem C79_name_is_not_checked_refuted P t cfg name prk sm e :
  application_secrets P t {| cf_client := cf_client cfg; cf_server := cf_server cfg; cf_name := name |} prk sm e = application_secrets P t cfg prk sm e.
Proof. reflexivity. Qed.
Print Assumptions C79_name_is_not_checked_refuted.
(** A certificate for no name that expired in 1999 is good for a connection to example.org. *)
Theorem C79_expired_and_nameless_refuted : exists messages,
  cf_name (toy_cfg (SaAuthority toy_cert_bytes)) = Some (ascii_bytes "example.org") /\
  tb_subject (ce_tbs toy_cert) = [] /\ tb_extensions (ce_tbs toy_cert) = [] /\ va_after (tb_validity (ce_tbs toy_cert)) = TUtc (ascii_bytes "990101000001Z") /\
  certificate_from_bytes toy_cert_bytes <> Panic /\
  outcome_of (toy_run (SaAuthority toy_cert_bytes) messages) = Some (Ok true).
Proof.
  exists [toy_m1; toy_m2; toy_m3; toy_m4 toy_finished]. do 4 (split; [reflexivity|]). split; [vm_compute; discriminate|vm_compute; reflexivity].
Qed.
Print Assumptions C79_expired_and_nameless_refuted.

(** *** C57: nonces *)
(** All records a connection ever sends under its key, whatever is asked of it: numbered
    0, 1, 2, ..., and no nonce is used twice. *)
Lemma fresh_sending P kc ks c : fresh kc ks c -> sending P kc [] c [] false.
Proof.
  intros (F1 & F2 & F3 & F4 & F5 & F6 & F7). unfold sending. rewrite F3, F5, F1, F4. cbn. auto 10.
Qed.
Definition sealed_as (P : primitives) (k : key) (n : N) (raw : bytes) : Prop :=
  exists header content type c, raw = header ++ c /\ length header = 5%nat /\ seal P (k_alg k) (k_key k) (rfc_nonce (k_iv k) n) header (inner_plaintext content type 0) = Some c.
Lemma recs_sealed P k R : forall seq L, recs P k seq R L -> forall i raw, nth_error R i = Some raw -> sealed_as P k (seq + N.of_nat i) raw.
Proof.
  induction R as [|r R IH]; intros seq [|[c t] L] H i raw E; try contradiction; [destruct i; discriminate E|]. destruct H as [H1 H2]. destruct i as [|i]; cbn [nth_error] in E.
  - assert (r = raw) as -> by congruence. unfold protect in H1. rewrite N.add_0_r.
    destruct (seal P (k_alg k) (k_key k) (rfc_nonce (k_iv k) seq) ([23; 3; 3] ++ be_bytes 2 (blen (inner_plaintext c t 0) + 16)) (inner_plaintext c t 0)) as [s|] eqn:E1; [|discriminate H1].
    injection H1 as <-. exists ([23; 3; 3] ++ be_bytes 2 (blen (inner_plaintext c t 0) + 16)), c, t, s. split; [reflexivity|]. split; [rewrite app_length, be_bytes_length; reflexivity|exact E1].
  - replace (seq + N.of_nat (Datatypes.S i)) with (seq + 1 + N.of_nat i) by lia. exact (IH _ _ H2 i raw E).
Qed.
Lemma NoDup_map_on {X Y} (f : X -> Y) l : (forall x y, In x l -> In y l -> f x = f y -> x = y) -> NoDup l -> NoDup (map f l).
Proof.
  intros I H. induction H as [|x l N0 H IH]; cbn [map]; constructor.
  - intros C. apply in_map_iff in C. destruct C as (y & C1 & C2). apply N0. rewrite <- (I y x); [exact C2|right; exact C2|left; reflexivity|exact C1].
  - apply IH. intros y z Hy Hz. apply I; right; assumption.
Qed.
Lemma crun_numbers P kc os : forall c rs c' rx tx pieces cl tx0, aead_ok P -> key_ok kc -> sending P kc tx0 c pieces cl -> se_client (cn_seq c) + N.of_nat (length os) < two64 ->
  crun P c os = (rs, c', rx, tx) -> se_client (cn_seq c') <= se_client (cn_seq c) + N.of_nat (length os).
Proof.
  induction os as [|o os IH]; intros c rs c' rx tx pieces cl tx0 A K I B H; cbn [crun] in H.
  - injection H as <- <- <- <-. cbn [length]. lia.
  - destruct (cstep P c o) as [[[r c1] rx1] s1] eqn:E. destruct (crun P c1 os) as [[[rs2 c2] rx2] s2] eqn:F. injection H as <- <- <- <-. cbn [length] in *.
    destruct (step_sending P kc tx0 c pieces cl o r c1 rx1 s1 A K I ltac:(lia) E) as (new & cl1 & X1 & _ & _ & _ & _ & X6 & _). specialize (IH c1 rs2 c2 rx2 s2 _ _ _ A K X1 ltac:(lia) F). lia.
Qed.
Theorem C57_no_nonce_twice P kc ks c os rs c' rx tx : aead_ok P -> key_ok kc -> fresh kc ks c -> N.of_nat (length os) < two64 -> crun P c os = (rs, c', rx, tx) ->
  exists records, tx ++ ps_out (cn_plain c') = concat records /\ (forall i raw, nth_error records i = Some raw -> sealed_as P kc (N.of_nat i) raw) /\
    NoDup (map (fun i => rfc_nonce (k_iv kc) (N.of_nat i)) (seq 0 (length records))).
Proof.
  intros A K F B H. assert (Z0 : se_client (cn_seq c) = 0) by (destruct F; assumption).
  destruct (run_sending os P kc [] c [] false rs c' rx tx A K (fresh_sending P kc ks c F) ltac:(lia) H) as (new & cl & (S1 & S2 & S3 & S4 & S5) & _ & _ & X4 & _).
  destruct (protected_recs _ _ _ _ _ S2) as (R & R1 & R2). exists R. split; [exact R1|]. split; [intros i raw E; exact (recs_sealed P kc R 0 _ R2 i raw E)|].
  assert (Lr : N.of_nat (length R) < two64).
  { pose proof (recs_length _ _ _ _ _ R2) as Le. pose proof (crun_numbers P kc os c rs c' rx tx [] false [] A K (fresh_sending P kc ks c F) ltac:(lia) H). unfold bytes in *. lia. }
  destruct K as (_ & K2 & K3). apply NoDup_map_on; [|apply seq_NoDup]. intros i j Hi Hj E. apply in_seq in Hi, Hj.
  assert (N.of_nat i = N.of_nat j); [|lia]. assert (Bi : N.of_nat i < two64 /\ N.of_nat j < two64) by (unfold bytes in *; lia). destruct Bi as [Bi Bj].
  apply (C57_nonce_injective (k_iv kc)); try assumption. rewrite !nonce_rfc by assumption. exact E.
Qed.
Print Assumptions C57_no_nonce_twice.
(** Under the client's handshake key there is one record only, with number 0: [client_sent] in
    C58. *)

(** *** C59: written and read bytes *)
(** Whatever is asked of the connection and however the transport behaves: what has been sent
    and what is buffered are, together, the records 0, 1, 2, ... with pieces of at most 16384
    bytes that make up the accepted bytes, and then maybe close_notify. *)
Theorem C59_records_of_the_accepted_bytes P kc ks c os rs c' rx tx : aead_ok P -> key_ok kc -> fresh kc ks c -> N.of_nat (length os) < two64 -> crun P c os = (rs, c', rx, tx) ->
  exists pieces closed, protected P kc 0 (sent_list pieces closed) = Some (tx ++ ps_out (cn_plain c')) /\
    concat pieces = accepted os rs /\ Forall (fun d => blen d <= 16384) pieces /\ length rs = length os.
Proof.
  intros A K F B H. assert (Z0 : se_client (cn_seq c) = 0) by (destruct F; assumption).
  destruct (run_sending os P kc [] c [] false rs c' rx tx A K (fresh_sending P kc ks c F) ltac:(lia) H) as (new & cl & (S1 & S2 & S3 & S4 & S5) & X1 & X2 & _).
  exists new, cl. auto.
Qed.
Print Assumptions C59_records_of_the_accepted_bytes.
(** After a flush that succeeded nothing is buffered: all of them have been sent. *)
Theorem C59_flush_sends_all c w c' w' sent : conn_flush c w = (Done (Ok tt), c', w', sent) -> ps_out (cn_plain c') = [] /\ sent = ps_out (cn_plain c).
Proof.
  unfold conn_flush. destruct (ps_write (cn_plain c)) eqn:W; try discriminate. unfold flush_encrypted. destruct (stream_flush (cn_plain c) w) as [[[x p] w1] s1] eqn:E. apply flush_stream in E.
  destruct E as (E1 & E2 & E3 & _). intros H. injection H as -> <- <- <-. destruct (E3 eq_refl) as [E4 _]. cbn [set_plain cn_plain]. split; [exact E4|]. rewrite E2, E4, app_nil_r. reflexivity.
Qed.
Print Assumptions C59_flush_sends_all.
(** Whatever arrives: the bytes the reads have returned, and the decrypted ones still
    buffered, are the contents of application records that were opened under numbers
    0, 1, 2, ..., in order and each whole; the other records have left no trace. *)
Lemma fresh_reading P kc ks c : fresh kc ks c -> reading P ks (rr_in (ps_receiver (cn_plain c))) c [] [].
Proof.
  intros (F1 & F2 & F3 & F4 & F5 & F6 & F7). exists [], []. rewrite F2, F3, F6, F7. split; [reflexivity|]. split; [constructor|]. split; [constructor|]. split; [reflexivity|]. split; [reflexivity|]. split; [reflexivity|discriminate].
Qed.
Theorem C59_only_authentic_bytes P kc ks c os rs c' rx tx : key_ok ks -> fresh kc ks c ->
  blen (rr_in (ps_receiver (cn_plain c))) + blen (offered os) < two64 -> crun P c os = (rs, c', rx, tx) ->
  exists consumed raws l, rr_in (ps_receiver (cn_plain c)) ++ rx = consumed ++ rr_in (ps_receiver (cn_plain c')) /\ carries consumed raws /\
    took P ks raws l /\ returned rs ++ cn_in c' = app_data l.
Proof.
  intros K F B H. destruct (run_reading os P ks _ c [] [] rs c' rx tx K (fresh_reading P kc ks c F) B H) as (l & d & raws & R1 & R2 & R3 & R4 & R5 & R6 & R7).
  exists d, raws, l. cbn [app] in *. auto.
Qed.
Print Assumptions C59_only_authentic_bytes.
(** With an honest peer, of whose records any part has arrived: exactly the first bytes it
    sent have been returned or are buffered; the records not taken yet are all still there. *)
Theorem C59_reads_what_was_sent P kc ks c os rs c' rx tx pieces closed all future : aead_ok P -> key_ok ks -> fresh kc ks c ->
  blen (rr_in (ps_receiver (cn_plain c))) + blen (offered os) < two64 -> Forall (fun d => blen d <= 16384) pieces ->
  protected P ks 0 (sent_list pieces closed) = Some all -> crun P c os = (rs, c', rx, tx) -> (rr_in (ps_receiver (cn_plain c)) ++ rx) ++ future = all ->
  exists n done, (n <= length (sent_list pieces closed))%nat /\ returned rs ++ cn_in c' = app_data (firstn n (sent_list pieces closed)) /\
    protected P ks 0 (firstn n (sent_list pieces closed)) = Some done /\ done ++ rr_in (ps_receiver (cn_plain c')) ++ future = all.
Proof.
  intros A K F B Fp Pr H E. destruct (run_reading os P ks _ c [] [] rs c' rx tx K (fresh_reading P kc ks c F) B H) as (l & R). cbn [app] in R.
  exact (reading_honest P ks _ c' (returned rs) l pieces closed all future A K Fp Pr E R).
Qed.
Print Assumptions C59_reads_what_was_sent.
(** A connection with the toy primitives: what is written comes out of a reader on the other
    side (a connection with the keys exchanged), whatever the pieces. *)
Definition toy_key2 : key := {| k_raw := repeat 8 32; k_alg := AES_256_GCM; k_key := repeat 6 32; k_iv := [1; 2; 3; 4; 5; 6; 7; 8; 9; 10; 11; 200] |}.
Definition toy_conn (kc ks : key) : connection := connection_new plaintext_new
  {| se_client := 0; se_server := 0; se_enc := {| e_secrets := {| t_client := kc; t_server := ks |}; e_ciphers := {| c_hash := SHA256; c_aead := AES_128_GCM |} |} |}.
Definition toy_writes : list cop := [CWrite [1; 2; 3] [WOk 0]; CWrite [4; 5] [WOk 10; WPending]; CWrite [4; 5] [WOk 1000; WOk 0]; CFlush [WOk 7; WOk 50; WOk 0]; CShutdown [WOk 100; WOk 0; WOk 0]].
Definition toy_wire : bytes := snd (crun toy (toy_conn toy_key toy_key2) toy_writes).
Example C59_sample :
  aead_ok toy /\ key_ok toy_key /\ fresh toy_key toy_key2 (toy_conn toy_key toy_key2) /\
  accepted toy_writes (fst (fst (fst (crun toy (toy_conn toy_key toy_key2) toy_writes)))) = [1; 2; 3; 4; 5] /\
  protected toy toy_key 0 (sent_list [[1; 2; 3]; [4; 5]] true) = Some toy_wire /\
  returned (fst (fst (fst (crun toy (toy_conn toy_key2 toy_key)
    [CRead 2 [ARead (firstn 9 toy_wire)]; CRead 2 [ARead (skipn 9 toy_wire)]; CRead 2 []; CRead 9 [ARead [0]]]))) ) = [1; 2; 3; 4; 5].
Proof.
  split; [exact toy_aead_ok|]. split; [repeat split; repeat constructor; cbn; lia|]. split; [repeat split|]. split; [vm_compute; reflexivity|]. split; vm_compute; reflexivity.
Qed.

(** *** C60: closing *)
(** close_notify is sent at most once, after all accepted bytes, and only if shutdown was
    asked for. *)
Theorem C60_close_notify_is_last P kc ks c os rs c' rx tx : aead_ok P -> key_ok kc -> fresh kc ks c -> N.of_nat (length os) < two64 -> crun P c os = (rs, c', rx, tx) ->
  exists (pieces : list bytes) (closed : bool), protected P kc 0 (map (fun d => (d, 23)) pieces ++ if closed then [([1; 0], 21)] else []) = Some (tx ++ ps_out (cn_plain c')) /\
    concat pieces = accepted os rs /\ (closed = true -> Exists is_shutdown os) /\
    (In (RShutdown (Done (Ok tt))) rs -> closed = true /\ ps_out (cn_plain c') = []).
Proof.
  intros A K F B H. assert (Z0 : se_client (cn_seq c) = 0) by (destruct F; assumption).
  destruct (run_sending os P kc [] c [] false rs c' rx tx A K (fresh_sending P kc ks c F) ltac:(lia) H) as (new & cl & (S1 & S2 & S3 & S4 & S5) & X1 & X2 & X3 & X4 & X5 & X6 & X7 & X8).
  exists new, cl. split; [exact S2|]. split; [auto|]. split; [|auto]. intros C. destruct (X4 C) as [D|D]; [discriminate D|exact D].
Qed.
Print Assumptions C60_close_notify_is_last.
(** Once shutdown has been asked for, with whatever result, every later write and flush is
    refused, and nothing more is accepted. *)
Lemma crun_app P os1 : forall c os2, crun P c (os1 ++ os2) =
  let '(rs1, c1, rx1, tx1) := crun P c os1 in let '(rs2, c2, rx2, tx2) := crun P c1 os2 in (rs1 ++ rs2, c2, rx1 ++ rx2, tx1 ++ tx2).
Proof.
  induction os1 as [|o os1 IH]; intros c os2; cbn [app crun].
  - destruct (crun P c os2) as [[[rs2 c2] rx2] tx2]. reflexivity.
  - destruct (cstep P c o) as [[[r c1] rx1] tx1]. rewrite IH. destruct (crun P c1 os1) as [[[rs2 c2] rx2] tx2]. destruct (crun P c2 os2) as [[[rs3 c3] rx3] tx3]. cbn [app]. rewrite !app_assoc. reflexivity.
Qed.
Theorem C60_later_writes_are_refused P kc ks c os1 w os2 rs1 c1 rx1 tx1 rs2 c2 rx2 tx2 : aead_ok P -> key_ok kc -> fresh kc ks c -> N.of_nat (length os1 + 1 + length os2) < two64 ->
  crun P c (os1 ++ [CShutdown w]) = (rs1, c1, rx1, tx1) -> crun P c1 os2 = (rs2, c2, rx2, tx2) ->
  accepted os2 rs2 = [] /\ Forall (fun r => match r with RWrite (Done (Err _)) | RFlush (Done (Err _)) | RRead _ | RShutdown _ => True | _ => False end) rs2.
Proof.
  intros A K F B H1 H2. assert (Z0 : se_client (cn_seq c) = 0) by (destruct F; assumption). rewrite crun_app in H1.
  destruct (crun P c os1) as [[[ra ca] rxa] txa] eqn:E1. cbn [crun] in H1. destruct (cstep P ca (CShutdown w)) as [[[r cb] rxb] txb] eqn:E2. injection H1 as <- <- <- <-.
  destruct (run_sending os1 P kc [] c [] false ra ca rxa txa A K (fresh_sending P kc ks c F) ltac:(lia) E1) as (new & cl & S & X1 & X2 & X3 & X4 & X5 & X6 & X7 & X8). cbn [app] in S.
  pose proof (crun_numbers P kc os1 c ra ca rxa txa [] false [] A K (fresh_sending P kc ks c F) ltac:(lia) E1) as Ba.
  destruct (step_sending P kc txa ca new cl (CShutdown w) r cb rxb txb A K S ltac:(lia) E2) as (new2 & cl2 & S2 & _ & _ & _ & _ & Bb & _ & W & _).
  destruct (run_sending os2 P kc _ cb _ cl2 rs2 c2 rx2 tx2 A K S2 ltac:(lia) H2) as (new3 & cl3 & _ & Y1 & _ & _ & _ & Y5 & _). destruct (Y5 (W I)) as (-> & _ & Y6). split; [exact Y1|exact Y6].
Qed.
Print Assumptions C60_later_writes_are_refused.
Example C60_sample :
  fst (fst (fst (crun toy (toy_conn toy_key toy_key2) [CWrite [1] [WOk 0]; CShutdown [WPending]; CWrite [2] [WOk 9]; CFlush [WOk 9]; CShutdown [WOk 999; WOk 0; WOk 0]; CShutdown [WOk 1]]))) =
    [RWrite (Done (Ok 1%nat)); RShutdown Wait; RWrite (Done (Err (TIo BrokenPipe))); RFlush (Done (Err (TIo BrokenPipe))); RShutdown (Done (Ok tt)); RShutdown (Done (Err (TIo BrokenPipe)))].
Proof. vm_compute. reflexivity. Qed.

(** *** C61: the end *)
(** After any run, a read with room in its buffer that returns nothing: the last record
    accepted was close_notify, or an empty piece of application data.  (In particular the end
    of the transport alone is not taken for the end of the data.) *)
Theorem C61_empty_reads_partial P kc ks c os rs c' rx tx room answers c2 rest : key_ok ks -> fresh kc ks c -> crun P c os = (rs, c', rx, tx) ->
  blen (rr_in (ps_receiver (cn_plain c))) + blen (offered os) + blen (concat (map data_of answers)) < two64 -> (0 < room)%nat ->
  conn_read P c' room answers = (Done (Ok []), c2, rest) ->
  exists consumed raws l, (rr_in (ps_receiver (cn_plain c)) ++ rx) ++ used answers rest = consumed ++ rr_in (ps_receiver (cn_plain c2)) /\ carries consumed raws /\ took P ks raws l /\
    returned rs = app_data l /\
    ((exists l' content, l = l' ++ [(content, 21)] /\ is_close content) \/ (exists l', l = l' ++ [([], 23)])).
Proof.
  intros K F H B Rm H2. destruct (run_reading os P ks _ c [] [] rs c' rx tx K (fresh_reading P kc ks c F) ltac:(lia) H) as (l & R). cbn [app] in R.
  assert (Bx : blen rx <= blen (offered os)).
  { clear - H. revert c rs c' rx tx H. induction os as [|o os IH]; intros c rs c' rx tx H; cbn [crun] in H; [injection H as <- <- <- <-; cbn; lia|].
    destruct (cstep P c o) as [[[r c1] rx1] s1] eqn:E. destruct (crun P c1 os) as [[[rs2 c2] rx2] s2] eqn:G. injection H as <- <- <- <-. rewrite offered_cons, !blen_app. specialize (IH _ _ _ _ _ G).
    assert (blen rx1 <= blen (offered [o])); [|lia]. destruct o as [room answers|data w|w|w]; cbn [cstep] in E.
    - destruct (conn_read P c room answers) as [[x cc] rest] eqn:E1. injection E as <- <- <- <-. unfold offered. cbn [map concat]. rewrite app_nil_r. unfold used. 
      rewrite <- (firstn_skipn (length answers - length rest) answers) at 3. rewrite map_app, concat_app, blen_app. lia.
    - destruct (conn_write P c data w) as [[[? ?] ?] ?]. injection E as <- <- <- <-. cbn. lia.
    - destruct (conn_flush c w) as [[[? ?] ?] ?]. injection E as <- <- <- <-. cbn. lia.
    - destruct (conn_shutdown P c w) as [[[? ?] ?] ?]. injection E as <- <- <- <-. cbn. lia. }
  destruct (read_reading P ks _ c' (returned rs) l room answers _ c2 rest K R ltac:(rewrite blen_app; lia) H2) as (pre & l' & P1 & P2 & P3). specialize (P3 eq_refl Rm). cbn [returned_by] in P2. rewrite app_nil_r in P2.
  assert (C2 : cn_in c2 = []).
  { unfold conn_read in H2. destruct (cn_read c') eqn:Cr; [| |discriminate H2].
    - destruct (fill_incoming P c' answers) as [[y c3] a3]. destruct y as [|[[]|e|]]; try discriminate H2. injection H2 as H2 <- <-. cbn [with_in cn_in].
      destruct (cn_in c3) as [|b i]; [reflexivity|]. exfalso. destruct room; [lia|]. discriminate H2.
    - injection H2 as <- <-. destruct R as (? & ? & _ & _ & _ & _ & _ & _ & R7). apply R7. exact Cr. }
  rewrite (used_pre _ _ _ P1). destruct P2 as (d & raws & R1 & R2 & R3 & R4 & R5 & R6 & R7). exists d, raws, (l ++ l'). rewrite C2, app_nil_r in R6.
  split; [exact R1|]. split; [exact R2|]. split; [exact R3|]. split; [auto|]. destruct P3 as [P3|P3]; [left|right; exact P3]. apply R7 in P3. destruct P3 as [_ P3]. exact P3.
Qed.
Print Assumptions C61_empty_reads_partial.
(** An empty piece of application data (which RFC 8446 permits) reads as the end, although
    more follows. *)
Theorem C61_empty_record_refuted : exists d c', protected toy toy_key 0 (sent_list [[]; [7]] false) = Some d /\
  conn_read toy (toy_conn toy_key2 toy_key) 10 [ARead d] = (Done (Ok []), c', []) /\
  exists c2, conn_read toy c' 10 [ARead [1]] = (Done (Ok [7]), c2, []).
Proof. eexists. eexists. split; [vm_compute; reflexivity|]. split; [vm_compute; reflexivity|]. eexists. vm_compute. reflexivity. Qed.
Print Assumptions C61_empty_record_refuted.
(** As long as the transport has nothing new, a read waits, whatever records have arrived. *)
Theorem C61_buffered_record_waits_refuted P c room answers : cn_read c = RActive -> cn_in c = [] -> conn_read P c room (APending :: answers) = (Wait, c, answers).
Proof.
  intros R I. unfold conn_read. rewrite R. unfold fill_incoming. rewrite I. cbn [length fill_loop poll_recv]. destruct c as [[[i s] o w] q n r]. reflexivity.
Qed.
Print Assumptions C61_buffered_record_waits_refuted.
(** For example: two records arrive together; the second is not delivered. *)
Example C61_buffered_record_sample : exists d c', protected toy toy_key 0 (sent_list [[1]; [2]] false) = Some d /\
  conn_read toy (toy_conn toy_key2 toy_key) 10 [ARead d] = (Done (Ok [1]), c', []) /\ fst (fst (conn_read toy c' 10 [APending])) = Wait.
Proof. eexists. eexists. split; [vm_compute; reflexivity|]. split; vm_compute; reflexivity. Qed.
(** When something new arrives and makes a record complete, its content is returned. *)
Lemma pop_complete r raw t f more : rr_in r = raw ++ more -> is_record raw t f ->
  exists x, pop_record r = (Done (Ok (Some x)), {| rr_in := more; rr_state := rr_state r |}) /\ tr_raw x = raw /\ tr_type x = content_type_from t.
Proof.
  intros E (v1 & v0 & l1 & l0 & -> & L1 & L2). unfold pop_record. rewrite E. cbn [app]. rewrite of_be2. unfold max_ciphertext.
  destruct (16640 <? 256 * l1 + l0) eqn:B1; [lia|]. destruct (blen (f ++ more) <? 256 * l1 + l0) eqn:B2; [rewrite blen_app in B2; lia|].
  assert (Ln : N.to_nat (256 * l1 + l0) = length f) by (unfold blen in *; lia). rewrite Ln. cbn [Nat.add firstn skipn]. rewrite firstn_app_length, skipn_app_length.
  eexists. split; [reflexivity|]. split; reflexivity.
Qed.
Lemma receive_complete P r seq e ts raw t f more : rr_in r = raw ++ more -> is_record raw t f -> t <> 20 ->
  receive_encrypted_message P r seq e ts =
    match (let? m := decrypt_message P seq (t_server (e_secrets e)) raw in let? s := incr seq in Ok (m, s)) with
    | Ok ((m, body), s) => (Done (Ok (Some m)), {| rr_in := more; rr_state := rr_state r |}, s, option_map (fun t => transcript_update t body) ts)
    | Err x => (Done (Err x), {| rr_in := more; rr_state := rr_state r |}, seq, ts)
    | Panic => (Done Panic, {| rr_in := more; rr_state := rr_state r |}, seq, ts)
    end.
Proof.
  intros E I T. destruct (pop_complete r raw t f more E I) as (x & X1 & X2 & X3). unfold receive_encrypted_message, receive_record_ignore_cc. cbn [pop_ignore_cc]. rewrite X1, X3.
  assert (Tc : content_type_from t <> CtChangeCipherSpec) by (intros C; apply content_type_ccs in C; exact (T C)).
  destruct (content_type_from t); try (contradiction Tc; reflexivity); rewrite X2; reflexivity.
Qed.
Theorem C61_delivered_with_new_bytes P kc ks c room b d answers raw t f more content : key_ok ks -> e_secrets (se_enc (cn_seq c)) = {| t_client := kc; t_server := ks |} ->
  cn_read c = RActive -> cn_in c = [] -> se_server (cn_seq c) + 1 < two64 ->
  rr_in (ps_receiver (cn_plain c)) ++ b :: d = raw ++ more -> is_record raw t f -> t <> 20 -> opens P ks (se_server (cn_seq c)) raw content 23 ->
  exists c', conn_read P c room (ARead (b :: d) :: answers) = (Done (Ok (firstn room content)), c', answers) /\
    cn_in c' = skipn room content /\ rr_in (ps_receiver (cn_plain c')) = more /\ se_server (cn_seq c') = se_server (cn_seq c) + 1.
Proof.
  intros K E R I B Er Ir T O. unfold conn_read. rewrite R. unfold fill_incoming. rewrite I. cbn [length fill_loop poll_recv with_receiver set_plain cn_seq cn_plain ps_receiver].
  rewrite (receive_complete P (append_data (ps_receiver (cn_plain c)) (b :: d)) _ _ None raw t f more Er Ir T). rewrite E. cbn [t_server].
  rewrite (decrypt_opens P ks (se_server (cn_seq c)) raw t f content K ltac:(lia) Ir O). cbn [bind]. unfold incr. destruct (two64 <=? se_server (cn_seq c) + 1) eqn:B3; [lia|]. cbn [bind option_map].
  eexists. unfold with_server_seq, with_receiver, with_in, set_plain. cbn [cn_in cn_plain cn_seq ps_receiver rr_in se_server]. rewrite I. cbn [app].
  assert (M : firstn (Nat.min (length content) room) content = firstn room content /\ skipn (Nat.min (length content) room) content = skipn room content).
  { destruct (Nat.le_ge_cases (length content) room) as [L|L]; [|rewrite Nat.min_r by lia; auto]. rewrite Nat.min_l by lia. rewrite !firstn_all2, !skipn_all2 by lia. auto. }
  destruct M as [M1 M2]. rewrite M1. split; [reflexivity|]. cbn [cn_in cn_plain cn_seq ps_receiver rr_in se_server]. auto.
Qed.
Print Assumptions C61_delivered_with_new_bytes.

(** *** C80: tampering *)
(** A record that does not authenticate is reported once and then forgotten: the connection
    stays usable, for the same record number; so whatever an attacker inserts, the honest
    records after it are still read. *)
Theorem C80_bad_record_is_forgotten_refuted P c room b d answers raw t f more e : cn_read c = RActive -> cn_in c = [] ->
  rr_in (ps_receiver (cn_plain c)) ++ b :: d = raw ++ more -> is_record raw t f -> t <> 20 ->
  decrypt_message P (se_server (cn_seq c)) (t_server (e_secrets (se_enc (cn_seq c)))) raw = Err e ->
  exists c', conn_read P c room (ARead (b :: d) :: answers) = (Done (Err e), c', answers) /\
    cn_read c' = RActive /\ cn_seq c' = cn_seq c /\ cn_in c' = [] /\ rr_in (ps_receiver (cn_plain c')) = more.
Proof.
  intros R I Er Ir T D. unfold conn_read. rewrite R. unfold fill_incoming. rewrite I. cbn [length fill_loop poll_recv with_receiver set_plain cn_seq cn_plain ps_receiver].
  rewrite (receive_complete P (append_data (ps_receiver (cn_plain c)) (b :: d)) _ _ None raw t f more Er Ir T). rewrite D. cbn [bind].
  eexists. split; [reflexivity|]. unfold with_server_seq, with_receiver, set_plain. cbn [cn_in cn_plain cn_seq cn_read ps_receiver rr_in se_server]. destruct (cn_seq c). auto.
Qed.
Print Assumptions C80_bad_record_is_forgotten_refuted.
(** A record with a changed byte in front of an honest one: an error, then the honest data. *)
Example C80_sample : exists d c' e, protected toy toy_key 0 (sent_list [[1; 2]] false) = Some d /\
  conn_read toy (toy_conn toy_key2 toy_key) 10 [ARead (map (fun b => if b =? 1 then 3 else b) (firstn 10 d) ++ [99] ++ skipn 11 d)] = (Done (Err e), c', []) /\
  exists c2, conn_read toy c' 10 [ARead d] = (Done (Ok [1; 2]), c2, []).
Proof. eexists. eexists. eexists. split; [vm_compute; reflexivity|]. split; [vm_compute; reflexivity|]. eexists. vm_compute. reflexivity. Qed.

(** *** C81: what is looked at in a server hello *)
Lemma share_found l k : (exists before x after, l = before ++ x :: after /\ is_share x k /\ Forall (fun y => forall k', ~ is_share y k') before) -> x25519_share l = Some k.
Proof.
  intros (before & x & after & -> & X & F). rewrite X. induction F as [|y before H F IH]; cbn [app x25519_share]; [reflexivity|]. rewrite IH.
  destruct y; try reflexivity. destruct k0 as [g d]. cbn [ks_group ks_key]. destruct g; try reflexivity. exfalso. exact (H d eq_refl).
Qed.
Theorem C81_only_suite_and_share_refuted P cfg private ts p sh sh' k : sh_suite sh = sh_suite sh' -> share_of sh k -> share_of sh' k ->
  on_server_hello P cfg private ts p (Some (MHandshake (HServerHello sh))) = on_server_hello P cfg private ts p (Some (MHandshake (HServerHello sh'))).
Proof.
  intros S H1 H2. apply share_found in H1, H2. unfold on_server_hello, ciphers_from. rewrite S. unfold handshake_encryption, shared_secret. rewrite H1, H2. reflexivity.
Qed.
Print Assumptions C81_only_suite_and_share_refuted.
(** The server hello of the toy server selects no version, so it is one of TLS 1.2. *)
Theorem C81_older_version_refuted : exists sh, handshake_in toy_server_hello (HServerHello sh) /\
  (forall v, In (XSupportedVersions v) (sh_extensions sh) -> False) /\ outcome_of (toy_run SaSelfSigned [toy_m1; toy_m2; toy_m3; toy_m4 toy_finished]) = Some (Ok true).
Proof.
  eexists. split; [vm_compute; reflexivity|]. split; [|vm_compute; reflexivity]. cbn [sh_extensions]. intros v [H|[]]. discriminate H.
Qed.
Print Assumptions C81_older_version_refuted.
