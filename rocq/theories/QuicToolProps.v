(** The QUIC test program: C119. *)
From Verif Require Import Base BaseProofs BinaryModel BinarySpec BinaryProofs BinaryProofs2 TlsCodesModel TlsTypesModel TlsTypesSpec TlsTypesProps TlsRecordModel TlsRecordSpec TlsRecordProps TlsClientSpec TlsClientProps
  QuicModel QuicSpec QuicProofs5 QuicProofs6 QuicProps QuicProps2 UtilModel UtilProps ChatModel Asn1ToolModel Asn1PrintProps BencodePathModel AnnounceModel AnnounceProps QuicToolModel.
From Coq Require Import Lia ZArith ZifyBool ZifyNat ZifyN.
Ltac Zify.zify_post_hook ::= Z.div_mod_to_equations.
Local Open Scope string_scope. Local Open Scope list_scope. Local Open Scope N_scope.

Lemma three_two (l : bytes) : length l = 32%nat -> exists a b c d e f g h i j k m n o p q r s t u v w x y z a1 a2 a3 a4 a5 a6 a7,
  l = [a; b; c; d; e; f; g; h; i; j; k; m; n; o; p; q; r; s; t; u; v; w; x; y; z; a1; a2; a3; a4; a5; a6; a7].
Proof.
  intros L. do 32 (destruct l as [|? l]; [discriminate L|]). destruct l; [|discriminate L]. repeat eexists.
Qed.
Ltac small := unfold fit; vm_compute; reflexivity.
Lemma hello_facts random pub : length random = 32%nat -> length pub = 32%nat ->
  let h := HClientHello (tool_hello random pub) in
  handshake_ok h /\ handshake_writable h /\ handshake_fits h /\ params_minimal (tool_hello random pub) /\
  exists b, handshake_parts h = Some (1, b) /\ length b = 196%nat.
Proof.
  intros L1 L2. cbn zeta. split; [|split; [|split; [|split]]].
  - split; [reflexivity|]. split; [exact L1|]. split.
    + cbn [tool_hello make_client_hello ch_suites]. well_formed.
    + cbn [tool_hello make_client_hello ch_extensions]. well_formed.
  - cbn [handshake_writable tool_hello make_client_hello ch_extensions]. repeat constructor.
  - apply three_two in L2. destruct L2 as (x1 & x2 & x3 & x4 & x5 & x6 & x7 & x8 & x9 & x10 & x11 & x12 & x13 & x14 & x15 & x16 & x17 & x18 & x19 & x20 & x21 & x22 & x23 & x24 & x25 & x26 & x27 & x28 & x29 & x30 & x31 & x32 & ->).
    split; [small|]. split; [small|]. split; [small|]. split; [|small].
    cbn [tool_hello make_client_hello ch_extensions]. repeat apply Forall_cons; [..|apply Forall_nil]; cbn [parts_fit]; try exact Logic.I; try small.
    + split; [repeat constructor; small|small].
    + split; [repeat constructor; small|small].
  - intros d H. cbn [tool_hello make_client_hello ch_extensions In] in H. repeat (destruct H as [H|H]; [try discriminate H|]); [|destruct H].
    injection H as <-. exists [shortest 15 client_src]. split; [vm_compute; reflexivity|]. split; [|split; [|split]].
    + constructor; [|constructor]. split; (split; [cbn; tauto|vm_compute; reflexivity]).
    + constructor; [|constructor]. split; [reflexivity|]. split; [reflexivity|]. cbn. intuition discriminate.
    + vm_compute. repeat constructor.
    + vm_compute. reflexivity.
  - eexists. split; [reflexivity|]. apply three_two in L1, L2.
    destruct L1 as (y1 & y2 & y3 & y4 & y5 & y6 & y7 & y8 & y9 & y10 & y11 & y12 & y13 & y14 & y15 & y16 & y17 & y18 & y19 & y20 & y21 & y22 & y23 & y24 & y25 & y26 & y27 & y28 & y29 & y30 & y31 & y32 & ->).
    destruct L2 as (x1 & x2 & x3 & x4 & x5 & x6 & x7 & x8 & x9 & x10 & x11 & x12 & x13 & x14 & x15 & x16 & x17 & x18 & x19 & x20 & x21 & x22 & x23 & x24 & x25 & x26 & x27 & x28 & x29 & x30 & x31 & x32 & ->).
    vm_compute. reflexivity.
Qed.
Lemma made_initial P B dst src token ch t b s : let h := HClientHello ch in handshake_ok h -> handshake_writable h -> handshake_fits h -> handshake_parts h = Some (t, b) -> blen (handshake_bytes t b) < 16384 ->
  make_initial P B dst src token h s = encode_initial_packet P B dst src 0 token (crypto_bytes {| cf_start := 0; cf_data := handshake_bytes t b |}) s.
Proof.
  intros h OK W HF E Lb. assert (L62 : blen (handshake_bytes t b) < two62) by (change two62 with 4611686018427387904; lia).
  destruct (TlsTypesProofs3.write_handshake_ok h t b [] OK W E) as [[_ H]|[H _]]; [|contradiction].
  unfold make_initial. rewrite H. rewrite app_nil_l. f_equal. unfold wbind, write_u8, write_raw. rewrite (write_quic_ok 0) by reflexivity. rewrite write_quic_ok by exact L62.
  cbn [snd]. unfold crypto_bytes. cbn [cf_data cf_start]. rewrite <- !app_assoc. reflexivity.
Qed.
Lemma masked_length B hp off a b : masked B hp off a b -> length b = length a.
Proof.
  intros (x & mid & pn & rest & m0 & m & more & -> & _ & _ & _ & L & ->). cbn [length]. rewrite !app_length, TlsRecordProofs.xor_length by lia. reflexivity.
Qed.

(** *** Specification *)
(** Encryption succeeds with a key and a nonce of the right size. *)
Definition seals (P : primitives) : Prop := forall a k n d m, length k = key_len a -> length n = 12%nat -> exists c, seal P a k n d m = Some c.
(** The lines the server prints for this client. *)
Definition greeting : bytes := ascii_bytes "decoded_params =" ++ [10] ++ ascii_bytes "[" ++ [10] ++ ascii_bytes "    initial_source_connection_id = 5678," ++ [10] ++ ascii_bytes "]" ++ [10].

Lemma nonce_length iv pn : length iv = 12%nat -> length (rfc_nonce iv pn) = 12%nat.
Proof. intros L. unfold rfc_nonce. rewrite be_bytes_length. exact L. Qed.
Lemma tool_packet P B random pub : aead_ok P -> block_ok B -> sizes_ok P -> seals P -> length random = 32%nat -> length pub = 32%nat ->
  exists packet f, make_initial P B client_dst client_src [] (HClientHello (tool_hello random pub)) (q_client (rfc_secrets P client_dst)) = Ok packet /\ length packet = 1200%nat /\
    parse_packet P B [] packet =
      Ok ({| rc_frames := [FCrypto f]; rc_src := client_src; rc_dst := client_dst; rc_number := 0; rc_token := []; rc_messages := [HClientHello (tool_hello random pub)] |},
          [(client_src, rfc_secrets P client_dst)]).
Proof.
  intros A BK SZ SE L1 L2. destruct (hello_facts random pub L1 L2) as (OK & W & HF & PM & b & E & Lb).
  set (f := {| cf_start := 0; cf_data := handshake_bytes 1 b |}).
  assert (LH : length (handshake_bytes 1 b) = 200%nat) by (unfold handshake_bytes, vec; cbn [length]; rewrite app_length, be_bytes_length, Lb; reflexivity).
  assert (BH : blen (handshake_bytes 1 b) = 200) by (unfold blen; rewrite LH; reflexivity).
  assert (LC : length (crypto_bytes f) = 204%nat).
  { unfold crypto_bytes. cbn [f cf_start cf_data]. rewrite BH. rewrite !app_length, LH. reflexivity. }
  set (padded := crypto_bytes f ++ repeat 0 (1200 - (length (rfc_header client_dst client_src [] 0 0) + length (crypto_bytes f) + 16))).
  assert (LP : length padded = 1160%nat).
  { unfold padded. rewrite app_length, repeat_length, LC. reflexivity. }
  assert (BP : blen padded = 1160) by (unfold blen; rewrite LP; reflexivity).
  assert (SK : secrets_ok (q_client (rfc_secrets P client_dst))) by apply rfc_keys_ok, SZ. destruct (SK) as (K1 & K2 & K3).
  destruct (SE AES_128_GCM (q_key (q_client (rfc_secrets P client_dst))) (rfc_nonce (q_iv (q_client (rfc_secrets P client_dst))) 0) (rfc_header client_dst client_src [] (blen padded + 20) 0) padded K1 (nonce_length _ _ K2)) as (c & S).
  assert (O1 : bytes_ok client_dst) by (repeat constructor). assert (O2 : bytes_ok client_src) by (repeat constructor). assert (O3 : bytes_ok []) by constructor.
  assert (T : blen [] < two62 - 1000000) by reflexivity.
  destruct (C67_hello_partial P B [] client_dst client_src [] (tool_hello random pub) 1 b [] A BK SZ O1 O2 O3 ltac:(discriminate) ltac:(discriminate) T OK W HF E PM) as (packet & M & R).
  - fold f. fold padded. rewrite BP. reflexivity.
  - reflexivity.
  - exists c. exact S.
  - exists packet, f. split; [exact M|].
    rewrite (made_initial P B client_dst client_src [] (tool_hello random pub) 1 b _ OK W HF E) in M by (rewrite BH; reflexivity).
    destruct (initial_packet_ok P B (q_client (rfc_secrets P client_dst)) client_dst client_src 0 [] (crypto_bytes f) c A BK SK O1 O2 O3 ltac:(discriminate) ltac:(discriminate) T ltac:(reflexivity)) as (packet' & M' & MK & Lc & _).
    + fold padded. rewrite BP. reflexivity.
    + exact S.
    + fold f in M. rewrite M in M'. injection M' as <-. apply masked_length in MK.
      assert (LN : length packet = 1200%nat).
      { rewrite MK, app_length. fold padded in Lc. assert (length c = 1176%nat) as -> by (unfold blen in Lc; lia). reflexivity. }
      split; [exact LN|]. rewrite app_nil_r in R. apply R. unfold fits, blen. rewrite LN. reflexivity.
Qed.
Lemma received_one P B cs tr how : plays (receive_one P B cs) tr how -> exists a d, let d' := firstn (N.to_nat 4096) d in
  match parse_packet P B cs d' with
  | Ok (r, _) => tr = [Got a d; Printed (messages_text (rc_messages r))] /\ how = Succeeds
  | Err _ => tr = [Got a d] /\ how = Succeeds
  | Panic => tr = [Got a d] /\ how = Fails
  end.
Proof.
  unfold receive_one. set (room := N.to_nat 4096). clearbody room. intros H. inversion H as [| | | |from room' k a d tr1 how1 _ H1 E1 E2 E3]; subst; clear H.
  exists a, d. cbn zeta. destruct (parse_packet P B cs (firstn room d)) as [[r c]|e|]; inversion H1; subst; auto.
  match goal with H : plays (DEnd _) _ _ |- _ => inversion H; subst end. auto.
Qed.
Lemma hello_text random pub : messages_text [HClientHello (tool_hello random pub)] = greeting.
Proof. vm_compute. reflexivity. Qed.

(** *** Theorems *)
(** Whatever the random bytes and the key are, the client sends one datagram of 1200 bytes, and
    a server that gets it reads exactly this client hello and prints the parameters in it. *)
Theorem C119_hello P B server random pub : aead_ok P -> block_ok B -> sizes_ok P -> seals P -> length random = 32%nat -> length pub = 32%nat ->
  exists packet, length packet = 1200%nat /\
    (forall tr how, plays (client_program P B server random pub) tr how -> exists a d rest, tr = Sent server packet :: Got a d :: rest /\ Forall (fun e => exists t, e = Printed t) rest) /\
    (exists r, parse_packet P B [] packet = Ok (r, [(client_src, rfc_secrets P client_dst)]) /\ rc_messages r = [HClientHello (tool_hello random pub)] /\
      rc_src r = [0x56; 0x78] /\ rc_dst r = [0x12; 0x34; 1; 2; 3; 4; 5; 6] /\ rc_token r = [] /\ rc_number r = 0) /\
    (forall a tr how, plays (server_program P B) (Got a packet :: tr) how <-> tr = [Printed greeting] /\ how = Succeeds).
Proof.
  intros A BK SZ SE L1 L2. destruct (tool_packet P B random pub A BK SZ SE L1 L2) as (packet & f & M & L & R).
  assert (F : firstn (N.to_nat 4096) packet = packet) by (apply firstn_all2; lia).
  exists packet. split; [exact L|]. split; [|split; [|intros a tr how; split]].
  - intros tr how H. unfold client_program in H. rewrite from_id_rfc in H by exact SZ. rewrite M in H. inversion H as [| | |to d k tr1 how1 H1|]; subst; clear H.
    apply received_one in H1. destruct H1 as (a & d & H1). exists a, d. cbn zeta in H1. destruct (parse_packet P B (insert _ _ _) _) as [[r c]|e|].
    + destruct H1 as (-> & _). eexists. split; [reflexivity|]. constructor; [eexists; reflexivity|constructor].
    + destruct H1 as (-> & _). exists []. split; [reflexivity|constructor].
    + destruct H1 as (-> & _). exists []. split; [reflexivity|constructor].
  - eexists. split; [exact R|]. repeat split.
  - intros H. unfold server_program in H. apply received_one in H. destruct H as (a' & d & H). cbn zeta in H.
    assert (E : d = packet) by (destruct (parse_packet P B [] (firstn (N.to_nat 4096) d)) as [[r c]|e|]; destruct H as (H & _); congruence). subst d.
    rewrite F, R in H. cbn [rc_messages] in H. rewrite hello_text in H. destruct H as (H & ->). injection H as _ ->. auto.
  - intros (-> & ->). unfold server_program, receive_one. constructor; [discriminate|]. rewrite F, R. cbn [rc_messages]. rewrite hello_text. repeat constructor.
Qed.
Print Assumptions C119_hello.
(** The hello itself: what it offers. *)
Theorem C119_offer random pub : let h := tool_hello random pub in
  ch_random h = random /\ (exists l, In (XKeyShareClient l) (ch_extensions h) /\ map ks_key l = [pub] /\ map ks_group l = [NgX25519]) /\
  In (XAlpn [ascii_bytes "hq-29"]) (ch_extensions h) /\ In (XTransportParameters [15; 2; 0x56; 0x78]) (ch_extensions h) /\
  (length random = 32%nat -> length pub = 32%nat -> handshake_ok (HClientHello h) /\ handshake_fits (HClientHello h)).
Proof.
  cbn zeta. split; [reflexivity|]. split; [|split; [|split]].
  - exists [{| ks_group := NgX25519; ks_key := pub |}]. split; [cbn; tauto|]. split; reflexivity.
  - cbn. tauto.
  - cbn [tool_hello make_client_hello ch_extensions]. do 11 right. left. vm_compute. reflexivity.
  - intros L1 L2. destruct (hello_facts random pub L1 L2) as (A & _ & B & _). auto.
Qed.
Print Assumptions C119_offer.
(** Exactly what either program does with the one datagram it reads. *)
Theorem C119_one_datagram P B tr how : plays (server_program P B) tr how <-> exists a d, let d' := firstn (N.to_nat 4096) d in
  match parse_packet P B [] d' with
  | Ok (r, _) => tr = [Got a d; Printed (messages_text (rc_messages r))] /\ how = Succeeds
  | Err _ => tr = [Got a d] /\ how = Succeeds
  | Panic => tr = [Got a d] /\ how = Fails
  end.
Proof.
  split; [apply received_one|]. intros (a & d & H). cbn zeta in H. unfold server_program, receive_one. set (room := N.to_nat 4096) in *. clearbody room.
  destruct (parse_packet P B [] (firstn room d)) as [[r c]|e|] eqn:E; destruct H as (-> & ->); (constructor; [discriminate|]); rewrite E; repeat constructor.
Qed.
Print Assumptions C119_one_datagram.
(** A handshake cannot go on: the server answers nothing, so a client that only hears from it
    never ends. *)
Theorem C119_no_answer_refuted P B server random pub : aead_ok P -> block_ok B -> sizes_ok P -> seals P -> length random = 32%nat -> length pub = 32%nat ->
  (forall tr how to d, plays (server_program P B) tr how -> ~ In (Sent to d) tr) /\
  forall tr how ts hs, plays (server_program P B) ts hs -> plays (client_program P B server random pub) tr how ->
    ~ (forall a d, In (Got a d) tr -> exists to, In (Sent to d) ts).
Proof.
  intros A BK SZ SE L1 L2.
  assert (Q : forall tr how to d, plays (server_program P B) tr how -> ~ In (Sent to d) tr).
  { intros tr how to d H X. apply received_one in H. destruct H as (a & d' & H). cbn zeta in H.
    destruct (parse_packet P B [] (firstn (N.to_nat 4096) d')) as [[r c]|e|]; destruct H as (-> & _); cbn [In] in X; intuition discriminate. }
  split; [exact Q|]. intros tr how ts hs S C H. destruct (C119_hello P B server random pub A BK SZ SE L1 L2) as (packet & _ & X & _).
  destruct (X _ _ C) as (a & d & rest & -> & _). destruct (H a d) as (to & I1); [cbn; tauto|]. exact (Q _ _ _ _ S I1).
Qed.
Print Assumptions C119_no_answer_refuted.
(** Anyone can end the server with one byte. *)
Theorem C119_crash_refuted P B b d : 64 <= b < 128 -> forall a tr how, plays (server_program P B) (Got a (b :: d) :: tr) how <-> tr = [] /\ how = Fails.
Proof.
  intros Hb a tr how. rewrite C119_one_datagram. assert (X : exists room, N.to_nat 4096 = S room) by (exists (N.to_nat 4095); lia). destruct X as (room & E).
  assert (K : parse_packet P B [] (firstn (N.to_nat 4096) (b :: d)) = Panic).
  { rewrite E. cbn [firstn parse_packet].
    assert (Y : forall i, b = i + 64 -> i < 64 -> N.land b 0x40 =? 0 = false /\ N.land b 0x80 =? 0x80 = false).
    { intros i -> Hi. assert (Hin : In (N.to_nat i) (seq 0 64)) by (apply in_seq; lia).
      assert (Z : forallb (fun n => let i := N.of_nat n in negb (N.land (i + 64) 0x40 =? 0) && negb (N.land (i + 64) 0x80 =? 0x80))%bool (seq 0 64) = true) by (vm_compute; reflexivity).
      rewrite forallb_forall in Z. specialize (Z _ Hin). cbn zeta in Z. rewrite N2Nat.id in Z. apply andb_prop in Z. destruct Z as (Z1 & Z2). split; apply Bool.negb_true_iff; assumption. }
    destruct (Y (b - 64) ltac:(lia) ltac:(lia)) as (-> & ->). reflexivity. }
  split.
  - intros (a' & d' & H). cbn zeta in H. destruct (parse_packet P B [] (firstn (N.to_nat 4096) d')) as [[r c]|e|] eqn:Ep; destruct H as (H & Hh); injection H as E1 E2; try (subst; auto; fail); subst; rewrite K in Ep; discriminate.
  - intros (-> & ->). exists a, (b :: d). cbn zeta. rewrite K. auto.
Qed.
Print Assumptions C119_crash_refuted.
(** The dispatcher of the library: every packet goes to the first connection with its id, or
    nowhere; ids are told apart exactly. *)
Definition first_with (id : bytes) (l : list qconn) (i : nat) : Prop :=
  exists before c after, l = before ++ c :: after /\ length before = i /\ qc_ours c = id /\ Forall (fun x => qc_ours x <> id) before.
Definition nowhere (id : bytes) (l : list qconn) : Prop := Forall (fun x => qc_ours x <> id) l.
Lemma find_ok id l : forall n, match find_connection n id l with
  | Some i => exists j, i = (n + j)%nat /\ first_with id l j
  | None => nowhere id l
  end.
Proof.
  induction l as [|c l IH]; intros n; cbn [find_connection]; [constructor|]. destruct (bytes_eqb id (qc_ours c)) eqn:E.
  - apply bytes_eqb_eq in E. exists 0%nat. split; [lia|]. exists [], c, l. repeat split; [congruence|constructor].
  - assert (NE : qc_ours c <> id) by (intros X; rewrite X, bytes_eqb_refl in E; discriminate).
    specialize (IH (S n)). destruct (find_connection (S n) id l) as [i|].
    + destruct IH as (j & -> & before & x & after & -> & L & X & F). exists (S j). split; [lia|]. exists (c :: before), x, after. repeat split; [cbn [length]; congruence|exact X|constructor; assumption].
    + constructor; assumption.
Qed.
Theorem C119_dispatch server l ps :
  (forall ds, dispatch_all server l ps = Ok ds -> Forall2 (fun p d => match d with Delivered i => first_with (qp_dst p) l i | Logged _ => nowhere (qp_dst p) l end) ps ds) /\
  (forall e, dispatch_all server l ps <> Err e) /\
  (dispatch_all server l ps = Panic <-> server = true /\ exists p, In p ps /\ qp_type p = PtInitial /\ nowhere (qp_dst p) l).
Proof.
  induction ps as [|p ps (IH1 & IH2 & IH3)]; cbn [dispatch_all].
  - split; [intros ds H; injection H as <-; constructor|]. split; [discriminate|]. split; [discriminate|]. intros (_ & p & H & _). destruct H.
  - pose proof (find_ok (qp_dst p) l 0) as F. unfold dispatch.
    destruct (find_connection 0 (qp_dst p) l) as [i|] eqn:E.
    + destruct F as (j & -> & F). cbn [bind Nat.add] in *. assert (NN : ~ nowhere (qp_dst p) l).
      { intros N. destruct F as (b & c & a & -> & _ & X & _). apply Forall_app in N. destruct N as (_ & N). inversion N; subst. contradiction. }
      destruct (dispatch_all server l ps) as [ds'|e|]; cbn [bind].
      * split; [|split; [discriminate|]]. { intros ds H. assert (ds = Delivered j :: ds') as -> by congruence. constructor; [exact F|apply IH1; reflexivity]. }
        split; [discriminate|]. intros (S1 & q & [->|I1] & T & N); [contradiction|]. exfalso. assert (Ok ds' = @Panic unit (list delivery)) as X by (apply IH3; eauto). discriminate X.
      * destruct (IH2 e eq_refl).
      * split; [discriminate|]. split; [discriminate|]. split; [|reflexivity]. intros _. destruct (proj1 IH3 eq_refl) as (S1 & q & I1 & T). split; [exact S1|]. exists q. split; [right; exact I1|exact T].
    + assert (R : forall w, dispatch_all server l (p :: ps) = (let? d := Ok (Logged w) in let? ds := dispatch_all server l ps in Ok (d :: ds)) -> ~ (server = true /\ qp_type p = PtInitial) ->
         let o := (let? d := Ok (Logged w) in let? ds := dispatch_all server l ps in Ok (d :: ds)) : outcome unit (list delivery) in
         (forall ds, o = Ok ds -> Forall2 (fun p d => match d with Delivered i => first_with (qp_dst p) l i | Logged _ => nowhere (qp_dst p) l end) (p :: ps) ds) /\ (forall e, o <> Err e) /\
         (o = Panic <-> server = true /\ exists p0, In p0 (p :: ps) /\ qp_type p0 = PtInitial /\ nowhere (qp_dst p0) l)).
      { intros w _ NI. cbn zeta. cbn [bind]. destruct (dispatch_all server l ps) as [ds'|e|]; cbn [bind].
        - split; [|split; [discriminate|]]. { intros ds H. assert (ds = Logged w :: ds') as -> by congruence. constructor; [exact F|apply IH1; reflexivity]. }
          split; [discriminate|]. intros (S1 & q & [->|I1] & T & N); [destruct NI; auto|]. exfalso. assert (Ok ds' = @Panic unit (list delivery)) as X by (apply IH3; eauto). discriminate X.
        - destruct (IH2 e eq_refl).
        - split; [discriminate|]. split; [discriminate|]. split; [|reflexivity]. intros _. destruct (proj1 IH3 eq_refl) as (S1 & q & I1 & T). split; [exact S1|]. exists q. split; [right; exact I1|exact T]. }
      cbn [dispatch_all] in R. unfold dispatch in R. rewrite E in R.
      destruct server; [|apply R; [reflexivity|intros (X & _); discriminate]].
      destruct (qp_type p) eqn:T; try (apply R; [reflexivity|intros (_ & X); discriminate]).
      cbn [bind]. split; [discriminate|]. split; [discriminate|]. split; [|reflexivity]. intros _. split; [reflexivity|]. exists p. split; [left; reflexivity|]. split; [exact T|exact F].
Qed.
Print Assumptions C119_dispatch.
(** So no server of the library ever accepts a connection: it panics. *)
Theorem C119_no_accept_refuted l p ps : qp_type p = PtInitial -> nowhere (qp_dst p) l -> In p ps -> dispatch_all true l ps = Panic.
Proof. intros T N I1. apply C119_dispatch. split; [reflexivity|]. exists p. auto. Qed.
Print Assumptions C119_no_accept_refuted.

(** *** The texts *)
Definition param_bytes_ok (p : param) : Prop :=
  match p with POriginalId d | PSourceId d | PInvalid _ d | PUnknown _ d => bytes_ok d | PNumber _ _ => True end.
Lemma id_text_inj a b : bytes_ok a -> bytes_ok b -> id_text a = id_text b -> a = b.
Proof.
  intros A B H. assert (D : forall x (d : bytes), bytes_ok (x :: d) -> to_hex (x :: d) <> ascii_bytes ".").
  { intros x d O X. pose proof (to_hex_chars _ O) as C. rewrite X in C. inversion C as [|y l Y _]; subst. vm_compute in Y. destruct Y as [(Y & _)|(Y & _)]; apply Y; reflexivity. }
  destruct a as [|x a], b as [|y b]; [reflexivity|..]; unfold id_text in H.
  - symmetry in H. destruct (D _ _ B H).
  - destruct (D _ _ A H).
  - apply to_hex_inj; assumption.
Qed.
Theorem C119_param_text p q : param_bytes_ok p -> param_bytes_ok q -> param_text p = param_text q -> p = q.
Proof.
  assert (TAG : forall i d i' d', (hex_number i ++ ascii_bytes ") = " ++ to_hex d)%list = hex_number i' ++ ascii_bytes ") = " ++ to_hex d' -> bytes_ok d -> bytes_ok d' -> i = i' /\ d = d').
  { intros i d i' d' H O O'. change (ascii_bytes ") = ") with (41 :: ascii_bytes " = ") in H. cbn [app] in H.
    apply split_at in H; [|apply hex_number_free; unfold hex_char; lia..]. destruct H as (H1 & H2). split; [apply hex_number_inj, H1|]. apply app_inv_head in H2. apply to_hex_inj; assumption. }
  intros O O' H.
  destruct p as [a|n v|a|i d|i d], q as [a'|n' v'|a'|i' d'|i' d']; cbn [param_text param_bytes_ok] in H, O, O'.
  all: try (apply app_inv_head in H).
  all: try (f_equal; apply id_text_inj; assumption).
  all: try (apply TAG in H; [|assumption..]; destruct H as (-> & ->); reflexivity).
  all: try (destruct n); try (destruct n'); cbn [number_name ascii_bytes String.list_ascii_of_string map app] in H; vm_compute ascii_bytes in H; cbn [app] in H.
  all: try (exfalso; discriminate H).
  all: assert (decimal v = decimal v') as D by (injection H as H; exact H); apply decimal_inj in D; rewrite D; reflexivity.
Qed.
Print Assumptions C119_param_text.
Lemma ascii_free c s : forallb (fun x => negb (x =? c)) (ascii_bytes s) = true -> ~ In c (ascii_bytes s).
Proof. intros H X. rewrite forallb_forall in H. specialize (H _ X). rewrite N.eqb_refl in H. discriminate. Qed.
Lemma id_text_free d c : bytes_ok d -> ~ hex_char c -> c <> 46 -> ~ In c (id_text d).
Proof. intros O H H'. destruct d as [|b d]; [cbn; intuition congruence|]. apply to_hex_free; assumption. Qed.
Lemma param_text_free p : param_bytes_ok p -> ~ In 10 (param_text p).
Proof.
  assert (H10 : ~ hex_char 10) by (unfold hex_char; lia).
  intros O X. destruct p as [a|n v|a|i d|i d]; cbn [param_text param_bytes_ok] in X, O; repeat (apply in_app_or in X; destruct X as [X|X]); revert X;
    try (apply ascii_free; vm_compute; reflexivity); try (apply id_text_free; [assumption|exact H10|lia]); try (apply hex_number_free, H10); try (apply to_hex_free; assumption); try (apply decimal_free; lia).
  destruct n; apply ascii_free; vm_compute; reflexivity.
Qed.
(** So what is printed tells what was received, a parameter per line. *)
Theorem C119_params_text l l' : Forall param_bytes_ok l -> Forall param_bytes_ok l' -> params_text l = params_text l' -> l = l'.
Proof.
  intros O O' H. unfold params_text in H. apply app_inv_head in H. assert (LI : forall a b, line a = line b -> a = b) by (intros a b X; exact (app_inv_tail _ _ _ X)). apply LI in H.
  destruct l as [|p l], l' as [|p' l']; [reflexivity|cbn in H; discriminate H|cbn in H; discriminate H|].
  apply app_inv_head in H. revert H O O'. generalize (p :: l). generalize (p' :: l'). clear l l' p p'. intros l' l. revert l'.
  assert (U : forall p l, param_bytes_ok p -> flat_map (fun p => line (ascii_bytes "    " ++ param_text p ++ ascii_bytes ",")) (p :: l) ++ ascii_bytes "]" =
     32 :: 32 :: 32 :: 32 :: (param_text p ++ ascii_bytes ",") ++ 10 :: flat_map (fun p => line (ascii_bytes "    " ++ param_text p ++ ascii_bytes ",")) l ++ ascii_bytes "]").
  { intros p l0 _. cbn [flat_map]. unfold line. rewrite <- !app_assoc. reflexivity. }
  assert (V : forall p, param_bytes_ok p -> ~ In 10 (param_text p ++ ascii_bytes ",")).
  { intros p O X. apply in_app_or in X. destruct X as [X|X]; [exact (param_text_free p O X)|cbn in X; intuition discriminate]. }
  induction l as [|p l IH]; intros [|p' l'] H O O'; [reflexivity|..].
  - inversion O' as [|? ? O1 O2]; subst. rewrite (U p' l' O1) in H. cbn in H. discriminate H.
  - inversion O as [|? ? O1 O2]; subst. rewrite (U p l O1) in H. cbn in H. discriminate H.
  - inversion O as [|? ? O1 O2]; subst. inversion O' as [|? ? O1' O2']; subst. rewrite (U p l O1), (U p' l' O1') in H. apply (f_equal (skipn 4)) in H. cbn [skipn] in H.
    apply split_at in H; [|apply V; assumption..]. destruct H as (H & H2). apply app_inv_tail in H. f_equal; [apply C119_param_text; assumption|apply IH; assumption].
Qed.
Print Assumptions C119_params_text.
(** The text of a buffer tells its bytes. *)
Theorem C119_buffer_text d d' : bytes_ok d -> bytes_ok d' -> buffer_text d = buffer_text d' -> d = d'.
Proof.
  intros O O' H. unfold buffer_text in H. apply app_inv_head in H. apply app_inv_tail in H. revert H. generalize true. revert d' O O'. induction d as [|b d IH]; intros [|b' d'] O O' f H; [reflexivity|..].
  - cbn [spaced] in H. destruct f; discriminate H.
  - cbn [spaced] in H. destruct f; discriminate H.
  - cbn [spaced] in H. apply app_inv_head in H. apply bytes_ok_cons in O, O'. destruct O as (O1 & O2), O' as (O1' & O2').
    assert (E : to_hex [b] = to_hex [b'] /\ spaced false d = spaced false d').
    { change (to_hex [b]) with [lower_hex_digit (b / 16); lower_hex_digit (b mod 16)] in *. change (to_hex [b']) with [lower_hex_digit (b' / 16); lower_hex_digit (b' mod 16)] in *. cbn [app] in H. injection H as H1 H2 H3. split; [congruence|exact H3]. }
    destruct E as (E1 & E2). apply to_hex_inj in E1; [|repeat constructor; assumption..]. injection E1 as ->. f_equal. exact (IH d' O2 O2' false E2).
Qed.
Print Assumptions C119_buffer_text.
(** A case: the toy primitives, and three connections of which two have the same id. *)
Lemma toy_seals : seals toy.
Proof. intros a k n d m _ _. eexists. reflexivity. Qed.
Example C119_case : (aead_ok toy /\ block_ok toy_block /\ sizes_ok toy /\ seals toy) /\
  (exists packet, plays (client_program toy toy_block (ascii_bytes "1.2.3.4:8080") (repeat 7 32) (repeat 9 32)) [Sent (ascii_bytes "1.2.3.4:8080") packet; Got (ascii_bytes "x") [64]] Fails /\
    plays (server_program toy toy_block) [Got (ascii_bytes "y") packet; Printed greeting] Succeeds) /\
  (let c i := {| qc_ours := [i]; qc_theirs := [] |} in let p t i := {| qp_type := t; qp_dst := [i]; qp_src := [] |} in
   dispatch_all true [c 1; c 2; c 1] [p PtInitial 1; p PtShortHeader 2; p PtHandshake 3] = Ok [Delivered 0; Delivered 1; Logged "Non-initial packet received with unknown connection id"] /\
   dispatch_all true [c 1; c 2; c 1] [p PtInitial 3] = Panic) /\
  params_text [PNumber PMaxIdle 30000; PUnknown 0x2ab2 []; POriginalId []] = ascii_bytes "decoded_params =
[
    max_idle_timeout = 30000,
    unknown(0x2ab2) = ,
    original_destination_connection_id = .,
]
" /\ buffer_text [0x20; 0x21; 0xff] = ascii_bytes "<20 21 ff>".
Proof.
  split; [split; [exact toy_aead_ok|split; [exact toy_block_ok|split; [exact toy_sizes_ok|exact toy_seals]]]|]. split; [|split; [|split]].
  - destruct (C119_hello toy toy_block (ascii_bytes "1.2.3.4:8080") (repeat 7 32) (repeat 9 32) toy_aead_ok toy_block_ok toy_sizes_ok toy_seals eq_refl eq_refl) as (packet & _ & _ & _ & H).
    destruct (tool_packet toy toy_block (repeat 7 32) (repeat 9 32) toy_aead_ok toy_block_ok toy_sizes_ok toy_seals eq_refl eq_refl) as (packet' & f & M & L & R).
    exists packet'. split.
    + unfold client_program. rewrite from_id_rfc by exact toy_sizes_ok. rewrite M. constructor. unfold receive_one. constructor; [discriminate|]. assert (E : exists r, N.to_nat 4096 = S r) by (exists (N.to_nat 4095); lia). destruct E as (r & ->).
      cbn [firstn parse_packet]. change (N.land 64 64 =? 0) with false. change (N.land 64 128 =? 128) with false. cbn iota. constructor.
    + apply C119_one_datagram. exists (ascii_bytes "y"), packet'. cbn zeta. rewrite firstn_all2 by lia. rewrite R. cbn [rc_messages]. rewrite hello_text. auto.
  - split; reflexivity.
  - vm_compute. reflexivity.
  - vm_compute. reflexivity.
Qed.
