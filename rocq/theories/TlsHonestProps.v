(** C113: the client accepts every authentic server.  The converse of C58. *)
From Verif Require Import Base BaseProofs MplexModel BinaryModel BinaryProofs MessageProofs MessageProofs2 ProtobufProofs Asn1Model X509Model TlsCodesModel TlsTypesModel
  TlsTypesSpec TlsTypesProofs TlsTypesProofs2 TlsTypesProofs3 TlsRecordModel TlsRecordSpec TlsRecordProofs TlsRecordProps TlsClientModel TlsClientSpec TlsClientProofs TlsClientProofs2 TlsClientProofs3 TlsClientProps
  TlsHonestSpec TlsHonestProofs TlsHonestProofs2 TlsHonestProofs3.
Local Open Scope string_scope. Local Open Scope list_scope. Local Open Scope N_scope.
Ltac Zify.zify_post_hook ::= Z.div_mod_to_equations.

(** Everything the invariant of TlsHonestProofs3.v needs follows from an authentic server. *)
Lemma setting P random session private cfg protocols hello all remain h client whole keys total : sizes_ok P -> aead_ok P -> hmac_ok P ->
  encode_handshake (HClientHello (make_client_hello random session (public_of P private) (cf_name cfg) protocols)) = Ok hello ->
  authentic P cfg private hello all remain h client whole keys -> client_sent P cfg h client whole hello total ->
  exists inv : bytes -> ec_state -> Prop,
    inv all (establish P random session private cfg protocols) /\
    (forall fut c, inv fut (EDone c) -> fresh (t_client keys) (t_server keys) c /\ exists late, rr_in (ps_receiver (cn_plain c)) ++ fut = late ++ remain /\ carries late []) /\
    (forall polls s fut r rx tx fut', steady polls -> inv fut s -> handshake_run P s polls = (r, rx, tx) -> fut = rx ++ fut' ->
       match r with
       | None => exists s', inv fut' s' /\ forall more, handshake_run P s (polls ++ more) = (let '(r2, rx2, tx2) := handshake_run P s' more in (r2, rx ++ rx2, tx ++ tx2))
       | Some (Ok c) => inv fut' (EDone c)
       | Some _ => False
       end) /\
    (forall s fut answers w r rx tx fut', Forall healthy_in answers -> Forall eager_out w -> (2 * (length total + 1) <= length w)%nat -> inv fut s ->
       (length fut <= length (concat (map data_of (firstn 1 answers))) + length remain)%nat ->
       handshake_run P s [(answers, w)] = (r, rx, tx) -> fut = rx ++ fut' -> exists c, r = Some (Ok c) /\ inv fut' (EDone c)).
Proof.
  intros Sz Ae Hm En (consumed & raw0 & raws & b0 & sh & a & share & secret & bodies & bv & bf & messages & ee & cr & certs & leaf & more & cv & finished & ca & A1 & A2 & A3 & A4 & A5 & A6 & A7 & Au)
    (content & raw & Cf & Cl & Cr & Ct). cbv zeta in Au.
  destruct Au as (B1 & B2 & B3 & B4 & B5 & B6 & B7 & B8 & B9 & B10).
  set (final := StFinished ee cr (Some certs) (Some (cv, digest P h (hello ++ b0 ++ concat bodies))) (finished, digest P h ((hello ++ b0 ++ concat bodies) ++ bv))).
  set (sm := {| sm_extensions := ee; sm_request := cr; sm_certificate := Some certs; sm_verify := Some (cv, digest P h (hello ++ b0 ++ concat bodies)); sm_finished := (finished, digest P h ((hello ++ b0 ++ concat bodies) ++ bv)) |}).
  destruct (flight_lengths _ _ _ _ _ _ B2) as [L1 L2].
  assert (Cin : exists b, handshake_in b (HCertificate certs)).
  { subst messages. destruct cr as [cr|]; cbn [app length] in L2; destruct raws as [|? [|? [|? [|? [|? [|]]]]]]; try discriminate L2; rewrite app_length in L1; cbn [length] in L1;
      destruct bodies as [|? [|? [|? [|]]]]; try (cbn [length] in L1; lia); cbn [app flight] in B2; decompose [and] B2; eauto. }
  destruct Cin as (bc & Cin). apply certificates_in in Cin. rewrite B4 in Cin. inversion Cin as [|? ? Cleaf _]; subst x l.
  assert (Ex : expects P h (hello ++ b0) StServerHello (bodies ++ [bv; bf]) messages final).
  { subst messages. destruct cr as [cr|]; cbn [app length] in L2; destruct raws as [|? [|? [|? [|? [|? [|]]]]]]; try discriminate L2; rewrite app_length in L1; cbn [length] in L1;
      destruct bodies as [|? [|? [|? [|]]]]; try (cbn [length] in L1; lia); cbn [app expects on_handshake];
      repeat (split; [intros Bad; exact Bad|]; eexists; split; [reflexivity|]); unfold final; cbn [concat app]; rewrite ?app_nil_r, <- ?app_assoc; reflexivity. }
  destruct (carries_list _ _ A2) as (rs & R1 & R2 & R3).
  exists (hon P cfg private hello remain raw0 b0 raws h a secret final whole keys raw).
  set (prk := handshake_secret P h secret) in *. set (server := traffic_key P h a prk "s hs traffic" (hello ++ b0)) in *.
  assert (Wh : (hello ++ b0) ++ concat (bodies ++ [bv; bf]) = whole) by (rewrite B9, concat_app; cbn [concat]; rewrite app_nil_r, <- !app_assoc; reflexivity).
  assert (Lr : N.of_nat (length raws) < two64) by (rewrite <- L2, B3; destruct cr; reflexivity).
  assert (App : forall t, ts_alg t = h -> ts_data t = whole -> application_secrets P t cfg prk sm
      {| e_secrets := {| t_client := client; t_server := server |}; e_ciphers := {| c_hash := h; c_aead := a |} |} = Ok keys).
  { intros t Th Td. unfold sm. rewrite (application_honest P cfg h a secret t client server prk ee cr certs leaf more cv _ finished _ ca Sz Hm Th eq_refl).
    - rewrite Td, B10. reflexivity.
    - unfold server, traffic_key. cbn [k_raw]. rewrite expand_length by exact Sz. lia.
    - rewrite B8. unfold finished_value. reflexivity.
    - exact B4.
    - exact Cleaf.
    - exact B5.
    - exact B6.
    - exact B7. }
  rewrite B1 in Cf, Cr, App. rewrite Ct. split; [|split; [|split]].
  - unfold establish. rewrite En. cbn [ec_try hon ps_write ps_out ps_receiver]. repeat (split; [reflexivity|]). split; [rewrite hello_record_ok, app_length; lia|].
    exists rs. split; [|symmetry; exact R2]. split; [reflexivity|]. split; [exact R3|]. cbn [rr_in receiver_new app]. rewrite A1, R1. reflexivity.
  - intros fut c (Hf & (rs1 & (Q1 & Q2 & Q3) & Q4) & _). split; [exact Hf|]. exists (bytes_of rs1). split; [exact Q3|]. rewrite <- Q4. exact (list_carries rs1 Q2).
  - intros polls. exact (run_honest P cfg private hello remain raw0 b0 raws sh h a share secret (bodies ++ [bv; bf]) messages final sm whole keys content raw Sz Ae A3 A4 A5 A6 A7 B2 Ex eq_refl Wh Lr App Cf Cl Cr polls).
  - intros s fut answers w r rx tx fut'. exact (last_poll P cfg private hello remain raw0 b0 raws sh h a share secret (bodies ++ [bv; bf]) messages final sm whole keys content raw Sz Ae A3 A4 A5 A6 A7 B2 Ex eq_refl Wh Lr App Cf Cl Cr s fut answers w r rx tx fut').
Qed.

(** If what the transport delivers is what an authentic server sends -- in pieces of any size,
    with any delays, the client's own bytes taken in pieces of any size -- then the handshake
    never fails: it is not over yet or has given the connection with the right keys.  Only
    what the server sent after its Finished (and ChangeCipherSpec records) is left unread. *)
Theorem C113_never_rejected P random session private cfg protocols hello all remain h client whole keys total : sizes_ok P -> aead_ok P -> hmac_ok P ->
  encode_handshake (HClientHello (make_client_hello random session (public_of P private) (cf_name cfg) protocols)) = Ok hello ->
  authentic P cfg private hello all remain h client whole keys -> client_sent P cfg h client whole hello total ->
  forall polls r rx tx future, steady polls -> handshake_run P (establish P random session private cfg protocols) polls = (r, rx, tx) -> rx ++ future = all ->
  r = None \/ exists c, r = Some (Ok c) /\ fresh (t_client keys) (t_server keys) c /\
    exists late, rr_in (ps_receiver (cn_plain c)) ++ future = late ++ remain /\ carries late [].
Proof.
  intros Sz Ae Hm En Au Cs polls r rx tx future St H E.
  destruct (setting P random session private cfg protocols hello all remain h client whole keys total Sz Ae Hm En Au Cs) as (inv & I1 & I2 & I3 & _).
  pose proof (I3 polls _ _ r rx tx future St I1 H (eq_sym E)) as G. destruct r as [[c| |]|]; try contradiction; [right|left; reflexivity].
  exists c. split; [reflexivity|]. exact (I2 _ _ G).
Qed.
Print Assumptions C113_never_rejected.

(** And it ends: once all of the server's messages have arrived and the transport takes what
    the client sends, the next poll gives the connection. *)
Theorem C113_completes P random session private cfg protocols hello all remain h client whole keys total : sizes_ok P -> aead_ok P -> hmac_ok P ->
  encode_handshake (HClientHello (make_client_hello random session (public_of P private) (cf_name cfg) protocols)) = Ok hello ->
  authentic P cfg private hello all remain h client whole keys -> client_sent P cfg h client whole hello total ->
  forall polls rx tx answers w later, steady polls -> handshake_run P (establish P random session private cfg protocols) polls = (None, rx, tx) ->
  Forall healthy_in answers -> all = rx ++ concat (map data_of answers) ++ later ->
  (length all <= length (rx ++ concat (map data_of (firstn 1 answers))) + length remain)%nat ->
  Forall eager_out w -> (2 * (length total + 1) <= length w)%nat ->
  exists c rx' tx', handshake_run P (establish P random session private cfg protocols) (polls ++ [(answers, w)]) = (Some (Ok c), rx', tx') /\
    fresh (t_client keys) (t_server keys) c.
Proof.
  intros Sz Ae Hm En Au Cs polls rx tx answers w later St H Fa Ea La Fw Lw.
  destruct (setting P random session private cfg protocols hello all remain h client whole keys total Sz Ae Hm En Au Cs) as (inv & I1 & I2 & I3 & I4).
  destruct (I3 polls _ _ None rx tx (concat (map data_of answers) ++ later) St I1 H Ea) as (s & G1 & G2). rewrite G2.
  destruct (handshake_run P s [(answers, w)]) as [[r2 rx2] tx2] eqn:E2.
  assert (Pre : exists fut', concat (map data_of answers) ++ later = rx2 ++ fut').
  { rewrite run_cons in E2. destruct (establish_poll P s answers w) as [[[[x so] rest] w'] sent] eqn:Ep. destruct (establish_suffix _ _ _ _ _ _ _ _ _ Ep) as (pre & Ep').
    assert (Us : used answers rest = concat (map data_of pre)) by (rewrite Ep'; apply used_app). assert (rx2 = concat (map data_of pre)) as ->.
    { destruct x as [|o]; [destruct so as [s1|]|]; cbn [handshake_run] in E2; injection E2 as _ <- _; rewrite ?app_nil_r; exact Us. }
    exists (concat (map data_of rest) ++ later). rewrite Ep', map_app, concat_app, <- app_assoc. reflexivity. }
  destruct Pre as (fut' & Pre).
  destruct (I4 s _ answers w r2 rx2 tx2 fut' Fa Fw Lw G1 ltac:(rewrite Ea in La; rewrite !app_length in *; lia) E2 Pre) as (c & -> & G3).
  exists c, (rx ++ rx2), (tx ++ tx2). split; [reflexivity|]. exact (proj1 (I2 _ _ G3)).
Qed.
Print Assumptions C113_completes.

(** With C58: how the server's bytes and the client's are cut into pieces does not matter.  If
    one run gave a connection, no run on the same bytes (or the first part of them) fails,
    and a connection it gives has the same keys. *)
Theorem C113_delivery_does_not_matter P random session private cfg protocols polls c rx tx polls' r rx' tx' future : sizes_ok P -> aead_ok P -> hmac_ok P ->
  length random = 32%nat -> match cf_name cfg with Some n => utf8_valid n = true | None => True end ->
  handshake_run P (establish P random session private cfg protocols) polls = (Some (Ok c), rx, tx) ->
  steady polls' -> handshake_run P (establish P random session private cfg protocols) polls' = (r, rx', tx') -> rx' ++ future = rx ->
  r = None \/ exists c', r = Some (Ok c') /\ e_secrets (se_enc (cn_seq c')) = e_secrets (se_enc (cn_seq c)).
Proof.
  intros Sz Ae Hm Lr Un H St H' E.
  destruct (C58_only_authentic_servers P random session private cfg protocols polls c rx tx Sz Ae Lr Un H) as (hello & h & client & whole & M & Au & Cs & _).
  assert (En : encode_handshake (HClientHello (make_client_hello random session (public_of P private) (cf_name cfg) protocols)) = Ok hello).
  { pose proof (client_hello_ok random session (public_of P private) (cf_name cfg) protocols Lr Un) as Ok1. unfold establish in H. destruct (encode_handshake (HClientHello (make_client_hello random session (public_of P private) (cf_name cfg) protocols))) as [d|e|] eqn:En.
    - f_equal. apply encode_handshake_ok in En; [|exact (proj1 Ok1)|exact (proj2 Ok1)].
      destruct M as (t1 & b1 & M1 & ->). destruct En as (t2 & b2 & M2 & ->). rewrite M1 in M2. injection M2 as <- <-. reflexivity.
    - exfalso. cbn [ec_try] in H. destruct polls as [|[answers w] polls]; cbn [handshake_run establish_poll ec_poll] in H; discriminate H.
    - exfalso. cbn [ec_try] in H. destruct polls as [|[answers w] polls]; cbn [handshake_run establish_poll ec_poll] in H; discriminate H. }
  destruct (C113_never_rejected P random session private cfg protocols hello rx _ h client whole _ _ Sz Ae Hm En Au Cs polls' r rx' tx' future St H' E) as [->|(c' & -> & F & _)]; [left; reflexivity|].
  right. exists c'. split; [reflexivity|]. destruct F as (_ & _ & F & _). rewrite F. destruct (e_secrets (se_enc (cn_seq c))). reflexivity.
Qed.
Print Assumptions C113_delivery_does_not_matter.
(** The toy server, its flight delivered in one piece, in three pieces, and byte by byte. *)
Definition toy_all : bytes := toy_flight [toy_m1; toy_m2; toy_m3; toy_m4 toy_finished].
Definition one_piece : list (list answer * list wanswer) := [([ARead toy_all], [WOk 2000; WOk 0; WOk 2000; WOk 0])].
Definition single_bytes : list (list answer * list wanswer) := ([], [WOk 500; WOk 500; WOk 1]) :: map (fun b => ([ARead [b]], [WOk 999; WPending])) toy_all ++ [([], [WOk 1])].
Example C113_sample : sizes_ok toy /\ aead_ok toy /\ hmac_ok toy /\
  outcome_of (handshake_run toy (toy_start SaSelfSigned) one_piece) = Some (Ok true) /\
  outcome_of (handshake_run toy (toy_start SaSelfSigned) (toy_polls toy_all)) = Some (Ok true) /\
  outcome_of (handshake_run toy (toy_start SaSelfSigned) single_bytes) = Some (Ok true) /\
  outcome_of (handshake_run toy (toy_start SaSelfSigned) (firstn 200 single_bytes)) = None /\ length single_bytes = 428%nat.
Proof.
  split; [exact toy_sizes_ok|]. split; [exact toy_aead_ok|]. split; [intros h k d; apply be_bytes_length|]. repeat (split; [vm_compute; reflexivity|]). vm_compute. reflexivity.
Qed.
