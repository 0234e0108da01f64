(** The commands of a node over the streams of mplex, in the clear and over TLS: C136. *)
From Verif Require Import Base BaseProofs VarintModel VarintProofs ProtobufModel CidModel CidTextModel IdentifyModel BitswapModel BlockModel MplexModel MplexProps MplexSendProps MplexStreamSpec MplexPairProps LpioModel LpioSpec LpioProofs LpioProps
  MessageSpec MessageProps HandlerModel HandlerProps IpfsMainModel ConversationSpec
  TlsRecordModel TlsRecordSpec TlsClientModel TlsClientSpec SecureMplexModel SecureMplexSpec SecureMplexProps MessagePipeProps IpfsMainProps.
From Coq Require Import Lia ZArith ZifyBool ZifyNat ZifyN.

(** *** Specification *)
(** What a party may have written so far, whatever it has heard and however its writes were cut. *)
Inductive said {R} : prog R -> bytes -> Prop :=
| said_nothing p : said p []
| said_part b k n : said (Say b k) (firstn n b)
| said_all b k out : said k out -> said (Say b k) (b ++ out)
| said_after k m out : said (k m) out -> said (Hear k) out.

(** *** What is heard of a party *)
Lemma said_say {R} x (k : prog R) out more m rest : fits x -> said (Say (write_message x) k) (out ++ more) -> heard out = Some (m, rest) -> m = Ok (Some x) /\ said k (rest ++ more).
Proof.
  intros F S H. apply (heard_app _ _ _ more) in H. set (o := out ++ more) in *. set (r := rest ++ more) in *. clearbody o r.
  inversion S as [p E|b k0 n E1 E|b k0 o0 S0 E1 E|]; subst.
  - rewrite heard_nil in H. discriminate.
  - pose proof (heard_app _ _ _ (skipn n (write_message x)) H) as H2. rewrite firstn_skipn in H2.
    rewrite <- (app_nil_r (write_message x)) in H2 at 1. rewrite heard_write in H2 by exact F. injection H2 as <- E. split; [reflexivity|].
    symmetry in E. apply app_eq_nil in E. destruct E as [-> _]. constructor.
  - rewrite heard_write in H by exact F. injection H as <- <-. split; [reflexivity|exact S0].
Qed.
Lemma said_hear {R} (k : outcome ioerr (option bytes) -> prog R) o : said (Hear k) o -> o = [] \/ exists m, said (k m) o.
Proof. intros S. inversion S; subst; eauto. Qed.
Lemma said_stop {R} (r : R) o : said (Stop r) o -> o = [].
Proof. intros S. inversion S; reflexivity. Qed.
Lemma heard_more out m rest more : heard out = Some (m, rest) -> out ++ more <> [].
Proof. intros H E. apply app_eq_nil in E. destruct E as [-> _]. rewrite heard_nil in H. discriminate. Qed.
Lemma read_heard src d lim src1 : clean src -> read_opt_message None src = (Some (Ok (Some d)), lim, src1) -> heard (bytes_of src) = Some (Ok (Some d), bytes_of src1) /\ clean src1.
Proof.
  intros C H. apply none_spec in H; [|exact C]. destruct H as (r0 & E & _ & C1 & _ & F). injection E as <-. split; [|exact C1]. unfold heard. rewrite F. reflexivity.
Qed.
Lemma select_heard protocol src x out src1 : clean src -> multistream_select protocol src = (Some (Ok x), out, src1) -> clean src1 /\
  (x = Accepted -> heard (bytes_of src) = Some (Ok (Some protocol), bytes_of src1)).
Proof.
  intros C. unfold multistream_select, read_message. destruct (read_opt_message None src) as [[m lim] s] eqn:E. destruct m as [[[d|]|e|]|]; cbn [option_map or_eof]; try discriminate.
  destruct (read_heard _ _ _ _ C E) as [H C1]. destruct (bytes_eqb d protocol) eqn:B.
  - intros X. injection X as <- _ <-. split; [exact C1|]. intros _. apply bytes_eqb_eq in B. subst d. exact H.
  - destruct (bytes_eqb d na); [|discriminate]. intros X. injection X as <- _ <-. split; [exact C1|]. discriminate.
Qed.
Lemma handshake_heard src out src1 : clean src -> multistream_handshake src = (Some (Ok tt), out, src1) -> clean src1 /\ heard (bytes_of src) = Some (Ok (Some multistream_header), bytes_of src1).
Proof.
  intros C. unfold multistream_handshake. destruct (multistream_select multistream_header src) as [[m o] s] eqn:E. intros H.
  assert (s = src1) as -> by (destruct m as [[[]|?|]|]; congruence). destruct m as [[x|e|]|]; try (exfalso; congruence).
  destruct (select_heard _ _ _ _ _ C E) as [C1 K]. destruct x; [|exfalso; congruence]. auto.
Qed.
Lemma open_heard protocol name src u out src' : clean src -> open_protocol protocol name src = (Some (Ok u), out, src') ->
  exists mid, heard (bytes_of src) = Some (Ok (Some multistream_header), mid) /\ heard mid = Some (Ok (Some protocol), bytes_of src') /\ clean src'.
Proof.
  intros C. unfold open_protocol, negotiate. destruct (multistream_handshake src) as [[m o] s] eqn:E. destruct m as [[[]|e|]|]; try discriminate.
  destruct (handshake_heard _ _ _ C E) as [C1 H1]. destruct (multistream_select protocol s) as [[m2 o2] s2] eqn:E2. intros H.
  destruct m2 as [[x|e|]|]; try (exfalso; congruence). destruct (select_heard _ _ _ _ _ C1 E2) as [C2 K]. destruct x; [|exfalso; congruence].
  assert (s2 = src') as -> by congruence. eauto.
Qed.
Lemma header_fits : fits multistream_header. Proof. reflexivity. Qed.
Lemma id_fits : fits id_protocol. Proof. reflexivity. Qed.
Lemma bitswap_fits : fits bitswap_protocol. Proof. reflexivity. Qed.
Lemma na_fits : fits na. Proof. reflexivity. Qed.

Section Parties.
Context (sha256 blake2b256 : bytes -> bytes).
Lemma bitswap_silent {R} (p : prog R) o : said p o -> forall f acc, p = bitswap_prog sha256 blake2b256 f acc -> o = [].
Proof.
  induction 1 as [p|b k n|b k out S IH|k m out S IH]; intros f acc E; [reflexivity| | |]; rewrite (prog_eq (bitswap_prog sha256 blake2b256 f acc)) in E; cbn [bitswap_prog] in E; try discriminate.
  injection E as ->. cbn beta iota in S, IH. destruct m as [[d|]|e|]; try exact (said_stop _ _ S).
  destruct (bs_message_from_pb d) as [m|e|]; try exact (said_stop _ _ S). destruct (handle_blocks sha256 blake2b256 (bm_blocks m)) as [l [u|e|]]; try exact (said_stop _ _ S).
  exact (IH _ _ eq_refl).
Qed.
(** What a node that answers requests can have said: first the handshake, then. *)
Lemma serve_says key out more m rest : said (serve_prog sha256 blake2b256 key) (out ++ more) -> heard out = Some (m, rest) ->
  m = Ok (Some multistream_header) /\ (rest ++ more = [] \/ said (requests_prog sha256 blake2b256 key) (rest ++ more)).
Proof.
  unfold serve_prog, handshake_prog, select_prog. intros S H. destruct (said_say _ _ _ _ _ _ header_fits S H) as [-> S1]. split; [reflexivity|].
  destruct (said_hear _ _ S1) as [E|(m & S2)]; [auto|]. right.
  destruct (or_eof m) as [d|e|]; try (apply said_stop in S2; rewrite S2; constructor). destruct (bytes_eqb d multistream_header); [exact S2|]. destruct (bytes_eqb d na); apply said_stop in S2; rewrite S2; constructor.
Qed.
(** Then an answer, which is [na] or the name of the identify protocol. *)
Lemma requests_say key out more m rest : said (requests_prog sha256 blake2b256 key) (out ++ more) -> heard out = Some (m, rest) ->
  (m = Ok (Some na) /\ said (requests_prog sha256 blake2b256 key) (rest ++ more)) \/
  (m = Ok (Some id_protocol) /\ (rest ++ more = [] \/ said (@Say (outcome unit served) (identify_handler key) (Stop (Ok SIdentify))) (rest ++ more))).
Proof.
  rewrite (prog_eq (requests_prog sha256 blake2b256 key)) at 1. cbn [requests_prog]. intros S H. destruct (said_hear _ _ S) as [E|(q & S1)]; [exfalso; exact (heard_more _ _ _ _ H E)|].
  cbn beta in S1. destruct q as [[d|]|e|]; try (exfalso; exact (heard_more _ _ _ _ H (said_stop _ _ S1))).
  destruct (registry_lookup node_services d) as [[|]|].
  - right. exact (match said_say _ _ _ _ _ _ id_fits S1 H with conj a b => conj a (or_intror b) end).
  - right. destruct (said_say _ _ _ _ _ _ id_fits S1 H) as [-> S2]. split; [reflexivity|]. left. exact (bitswap_silent _ _ S2 _ _ eq_refl).
  - left. exact (said_say _ _ _ _ _ _ na_fits S1 H).
Qed.

(** *** The two commands, whatever carries the bytes *)
Lemma identify_own key src more r out src' i : bytes_ok key -> length key = 32%nat -> clean src -> said (serve_prog sha256 blake2b256 key) (bytes_of src ++ more) ->
  identify_command src = (Some r, out, src') -> r = Ok (Some i) -> i = handler_identify key.
Proof.
  intros K L C S. unfold identify_command. destruct (open_protocol id_protocol "identify protocol unsupported" src) as [[x o] s] eqn:E. destruct x as [[u|e|]|]; [|intros H ->; exfalso; congruence..].
  destruct (open_heard _ _ _ _ _ _ C E) as (mid & H1 & H2 & C1). unfold identify_client_inner. destruct (read_opt_message None s) as [[m lim] s2] eqn:E2.
  destruct m as [[[d|]|e|]|]; intros H ->; try (exfalso; congruence). destruct (read_heard _ _ _ _ C1 E2) as [H3 _].
  destruct (serve_says _ _ _ _ _ S H1) as [_ [N|S1]]; [exfalso; exact (heard_more _ _ _ _ H2 N)|].
  destruct (requests_say _ _ _ _ _ S1 H2) as [[Hm _]|[_ [N|S2]]]; [vm_compute in Hm; discriminate|exfalso; exact (heard_more _ _ _ _ H3 N)|].
  destruct (said_say _ _ _ _ _ _ (handler_identify_fits key L) S2 H3) as [Hd _]. injection Hd as ->.
  rewrite C10_identify_round_trip in H; [congruence|apply handler_identify_ok, K|apply handler_identify_fits, L].
Qed.
Lemma show_fails key text src more r out src' : clean src -> said (serve_prog sha256 blake2b256 key) (bytes_of src ++ more) ->
  show_command sha256 blake2b256 text src = (Some r, out, src') -> forall l, r <> Ok l.
Proof.
  intros C S. unfold show_command. destruct (open_protocol bitswap_protocol "bitswap protocol unsupported" src) as [[x o] s] eqn:E. destruct x as [[u|e|]|]; [|intros H l ->; congruence..].
  exfalso. destruct (open_heard _ _ _ _ _ _ C E) as (mid & H1 & H2 & C1).
  destruct (serve_says _ _ _ _ _ S H1) as [_ [N|S1]]; [exact (heard_more _ _ _ _ H2 N)|].
  destruct (requests_say _ _ _ _ _ S1 H2) as [[Hm _]|[Hm _]]; vm_compute in Hm; discriminate.
Qed.
Lemma bitswap_result {R} (p : prog R) src r out src' : runs p src r out src' -> forall f acc, p = bitswap_prog sha256 blake2b256 f acc -> exists l x, r = f l x.
Proof.
  induction 1 as [r src|b k src r out src' H IH|k src m lim src1 r out src' E H IH]; intros f acc Ep; rewrite (prog_eq (bitswap_prog sha256 blake2b256 f acc)) in Ep; cbn [bitswap_prog] in Ep; try discriminate.
  injection Ep as ->. cbn beta iota in H, IH. destruct m as [[d|]|e|]; try (inversion H; subst; eauto; fail).
  destruct (bs_message_from_pb d) as [m|e|]; try (inversion H; subst; eauto; fail). destruct (handle_blocks sha256 blake2b256 (bm_blocks m)) as [l [u|e|]]; try (inversion H; subst; eauto; fail).
Qed.
Lemma open_says {X} protocol name (k : prog (outcome node_error X)) out more m rest : said (open_prog protocol name k) (out ++ more) -> heard out = Some (m, rest) ->
  m = Ok (Some multistream_header) /\ (rest ++ more = [] \/ exists k', said (@Say (outcome node_error X) (write_message protocol) k') (rest ++ more)).
Proof.
  unfold open_prog, handshake_prog. unfold select_prog at 1. intros S H. destruct (said_say _ _ _ _ _ _ header_fits S H) as [-> S1]. split; [reflexivity|].
  destruct (said_hear _ _ S1) as [E|(m & S2)]; [auto|]. clear S S1.
  destruct (or_eof m) as [d|e|]; try (left; exact (said_stop _ _ S2)). destruct (bytes_eqb d multistream_header).
  - right. unfold select_prog in S2. eauto.
  - destruct (bytes_eqb d na); left; exact (said_stop _ _ S2).
Qed.
Lemma runs_hear_inv {R} (k : outcome ioerr (option bytes) -> prog R) src r out src' : runs (Hear k) src r out src' -> exists m lim src1, read_opt_message None src = (Some m, lim, src1) /\ runs (k m) src1 r out src'.
Proof. intros H. inversion H; subst; eauto. Qed.
Lemma runs_say_inv {R} b (k : prog R) src r out src' : runs (Say b k) src r out src' -> exists o, out = b ++ o /\ runs k src r o src'.
Proof. intros H. inversion H; subst; eauto. Qed.
Lemma runs_stop_inv {R} (x : R) src r out src' : runs (Stop x) src r out src' -> r = x /\ out = [] /\ src' = src.
Proof. intros H. inversion H; subst; auto. Qed.
Lemma served_as_asked {X} protocol name (k : prog (outcome node_error X)) h key src more r out src' : fits protocol -> registry_lookup node_services protocol = Some h -> clean src ->
  said (open_prog protocol name k) (bytes_of src ++ more) -> serve sha256 blake2b256 key src = (Some r, out, src') ->
  match r with Ok SIdentify => h = HIdentify | Ok (SBitswap _ _) => h = HBitswap | _ => True end.
Proof.
  intros F Lk C S H. apply C116_serve_program in H. unfold serve_prog, handshake_prog, select_prog in H.
  destruct (runs_say_inv _ _ _ _ _ _ H) as (o & -> & H1). destruct (runs_hear_inv _ _ _ _ _ H1) as (m & lim & src1 & E & H2). clear H H1. cbn beta in H2.
  destruct m as [[d|]|e|]; cbn [or_eof] in H2; try (destruct (runs_stop_inv _ _ _ _ _ H2) as [-> _]; exact I).
  destruct (bytes_eqb d multistream_header) eqn:B; [|destruct (bytes_eqb d na); destruct (runs_stop_inv _ _ _ _ _ H2) as [-> _]; exact I].
  destruct (read_heard _ _ _ _ C E) as [Hd C1]. destruct (open_says _ _ _ _ _ _ _ S Hd) as [_ S1].
  rewrite (prog_eq (requests_prog sha256 blake2b256 key)) in H2. cbn [requests_prog] in H2. destruct (runs_hear_inv _ _ _ _ _ H2) as (m & lim2 & src2 & E2 & H3). clear H2. cbn beta in H3.
  destruct m as [[d2|]|e|]; try (destruct (runs_stop_inv _ _ _ _ _ H3) as [-> _]; exact I). destruct (read_heard _ _ _ _ C1 E2) as [Hd2 _].
  destruct S1 as [N|(k' & S1)]; [exfalso; exact (heard_more _ _ _ _ Hd2 N)|]. destruct (said_say _ _ _ _ _ _ F S1 Hd2) as [Ed _]. injection Ed as ->. rewrite Lk in H3.
  destruct h; destruct (runs_say_inv _ _ _ _ _ _ H3) as (o2 & -> & H4).
  - destruct (runs_say_inv _ _ _ _ _ _ H4) as (o3 & -> & H5). destruct (runs_stop_inv _ _ _ _ _ H5) as [-> _]. reflexivity.
  - destruct (bitswap_result _ _ _ _ _ H4 _ _ eq_refl) as (l & x & ->). reflexivity.
Qed.
(** When each has read all the other wrote. *)
Lemma read_written x src d rest m lim src1 : fits x -> clean src -> bytes_of src = d -> d = write_message x ++ rest -> read_opt_message None src = (Some m, lim, src1) -> m = Ok (Some x) /\ bytes_of src1 = rest /\ clean src1.
Proof.
  intros F C <- E H. apply none_spec in H; [|exact C]. destruct H as (r0 & E0 & _ & C1 & _ & Fl). injection E0 as <-. rewrite E, flat_write in Fl by exact F. injection Fl as <- <-. auto.
Qed.
Lemma serve_header key src r out src' : runs (serve_prog sha256 blake2b256 key) src r out src' -> exists o, out = write_message multistream_header ++ o.
Proof. unfold serve_prog, handshake_prog, select_prog. intros H. destruct (runs_say_inv _ _ _ _ _ _ H) as (o & -> & _). eauto. Qed.
Lemma serve_identify key src rest r out src' : clean src -> bytes_of src = write_message multistream_header ++ write_message id_protocol ++ rest -> runs (serve_prog sha256 blake2b256 key) src r out src' ->
  r = Ok SIdentify /\ out = write_message multistream_header ++ write_message id_protocol ++ identify_handler key.
Proof.
  intros C E. unfold serve_prog, handshake_prog, select_prog. intros H. destruct (runs_say_inv _ _ _ _ _ _ H) as (o & -> & H1). destruct (runs_hear_inv _ _ _ _ _ H1) as (m & lim & src1 & R & H2). clear H H1. cbn beta in H2.
  destruct (read_written _ _ _ _ _ _ _ header_fits C E eq_refl R) as (-> & E1 & C1). cbn [or_eof] in H2. rewrite bytes_eqb_refl in H2.
  rewrite (prog_eq (requests_prog sha256 blake2b256 key)) in H2. cbn [requests_prog] in H2. destruct (runs_hear_inv _ _ _ _ _ H2) as (m & lim2 & src2 & R2 & H3). clear H2. cbn beta in H3.
  destruct (read_written _ _ _ _ _ _ _ id_fits C1 E1 eq_refl R2) as (-> & E2 & C2). change (registry_lookup node_services id_protocol) with (Some HIdentify) in H3. cbn beta iota in H3.
  destruct (runs_say_inv _ _ _ _ _ _ H3) as (o2 & -> & H4). destruct (runs_say_inv _ _ _ _ _ _ H4) as (o3 & -> & H5). destruct (runs_stop_inv _ _ _ _ _ H5) as (-> & -> & _). rewrite app_nil_r. auto.
Qed.
Lemma identify_answer key src rest r out src' : bytes_ok key -> length key = 32%nat -> clean src -> bytes_of src = write_message multistream_header ++ write_message id_protocol ++ identify_handler key ++ rest ->
  runs identify_prog src r out src' -> r = Ok (Some (handler_identify key)) /\ out = write_message multistream_header ++ write_message id_protocol.
Proof.
  intros K L C E. unfold identify_prog, open_prog, handshake_prog, select_prog. intros H. destruct (runs_say_inv _ _ _ _ _ _ H) as (o & -> & H1). destruct (runs_hear_inv _ _ _ _ _ H1) as (m & lim & src1 & R & H2). clear H H1. cbn beta in H2.
  destruct (read_written _ _ _ _ _ _ _ header_fits C E eq_refl R) as (-> & E1 & C1). cbn [or_eof] in H2. rewrite bytes_eqb_refl in H2.
  destruct (runs_say_inv _ _ _ _ _ _ H2) as (o2 & -> & H3). destruct (runs_hear_inv _ _ _ _ _ H3) as (m & lim2 & src2 & R2 & H4). clear H2 H3. cbn beta in H4.
  destruct (read_written _ _ _ _ _ _ _ id_fits C1 E1 eq_refl R2) as (-> & E2 & C2). cbn [or_eof] in H4. rewrite bytes_eqb_refl in H4.
  destruct (runs_hear_inv _ _ _ _ _ H4) as (m & lim3 & src3 & R3 & H5). clear H4. cbn beta in H5. unfold identify_handler in E2.
  destruct (read_written _ _ _ _ _ _ _ (handler_identify_fits key L) C2 E2 eq_refl R3) as (-> & _ & _).
  rewrite C10_identify_round_trip in H5; [|apply handler_identify_ok, K|apply handler_identify_fits, L].
  destruct (runs_stop_inv _ _ _ _ _ H5) as (-> & -> & _). rewrite app_nil_r. auto.
Qed.
Lemma identify_asks src rest r out src' : clean src -> bytes_of src = write_message multistream_header ++ rest -> runs identify_prog src r out src' -> out = write_message multistream_header ++ write_message id_protocol.
Proof.
  intros C E. unfold identify_prog, open_prog, handshake_prog, select_prog. intros H. destruct (runs_say_inv _ _ _ _ _ _ H) as (o & -> & H1). destruct (runs_hear_inv _ _ _ _ _ H1) as (m & lim & src1 & R & H2). clear H H1. cbn beta in H2.
  destruct (read_written _ _ _ _ _ _ _ header_fits C E eq_refl R) as (-> & E1 & C1). cbn [or_eof] in H2. rewrite bytes_eqb_refl in H2.
  destruct (runs_say_inv _ _ _ _ _ _ H2) as (o2 & -> & H3). destruct (runs_hear_inv _ _ _ _ _ H3) as (m & lim2 & src2 & R2 & H4). clear H2 H3. cbn beta in H4.
  assert (o2 = []) as ->; [|rewrite app_nil_r; reflexivity].
  destruct (or_eof m) as [d|e|]; try (destruct (runs_stop_inv _ _ _ _ _ H4) as (_ & -> & _); reflexivity). destruct (bytes_eqb d id_protocol).
  - destruct (runs_hear_inv _ _ _ _ _ H4) as (m2 & lim3 & src3 & R3 & H5). cbn beta in H5. destruct (runs_stop_inv _ _ _ _ _ H5) as (_ & -> & _). reflexivity.
  - destruct (bytes_eqb d na); destruct (runs_stop_inv _ _ _ _ _ H4) as (_ & -> & _); reflexivity.
Qed.
End Parties.

(** *** The commands over the whole stack *)
(** The streams of a session in the clear, and of one over TLS, end to end: [read] is what one
    end's program finds on its stream, [wrote] what the other's has written on it. *)
Definition joined_by (read : list item) (wrote : bytes) : Prop :=
  (exists start sched x i, MplexPairProps.session start sched /\ ~ In (NDropReader (other_end i)) (calls_of (opposite x) sched) /\
     wrote = written i (fst (history start x sched)) /\ read = as_read (other_end i) (fst (history start (opposite x) sched))) \/
  (exists P key_of pre start es st x i, secure_session P key_of (any_network P key_of pre) pre start es st /\ ~ In (NDropReader (other_end i)) (map fst (trace_of (opposite x) es)) /\
     wrote = written i (trace_of x es) /\ read = as_read (other_end i) (trace_of (opposite x) es)).
Lemma joined_front read wrote : joined_by read wrote -> clean read /\ exists more, wrote = bytes_of read ++ more.
Proof.
  intros [(start & sched & x & i & S & Nd & -> & ->)|(P & key_of & pre & start & es & st & x & i & S & Nd & -> & ->)]; (split; [apply as_read_clean|]).
  - destruct (C115_streams_are_pipes start sched x i S Nd) as (rest & E). destruct (as_read_front (other_end i) (fst (history start (opposite x) sched)) (run_honest _ _)) as (r & R).
    exists (r ++ rest). rewrite E, R, <- app_assoc. reflexivity.
  - destruct (C132_streams_are_pipes P key_of pre start es st x i S Nd) as (rest & E).
    assert (H : Forall honest_event (trace_of (opposite x) es)).
    { destruct S as (_ & B & S & _). pose proof (plain_history P key_of pre start es [] st (opposite x) B S) as H2. rewrite app_nil_r in H2. pose proof (run_honest (calls_of (opposite x) (plain_sched es)) (plain_start es (opposite x))) as R.
      change (node_run (plain_start es (opposite x)) (calls_of (opposite x) (plain_sched es))) with (history (plain_start es) (opposite x) (plain_sched es)) in R. rewrite H2 in R. exact R. }
    destruct (as_read_front (other_end i) _ H) as (r & R). exists (r ++ rest). rewrite E, R, <- app_assoc. reflexivity.
Qed.
(** A description printed is the one of the node at the other end: whatever the calls at the
    two ends, the pieces in which things are written, carried and read, what other streams do,
    and (over TLS) what the network does short of forging. *)
Theorem C136_identify_is_the_peers sha256 blake2b256 key src wrote r out src' i : bytes_ok key -> length key = 32%nat ->
  joined_by src wrote -> said (serve_prog sha256 blake2b256 key) wrote -> identify_command src = (Some r, out, src') -> r = Ok (Some i) ->
  id_public_key i = {| pk_type := KEd25519; pk_data := key |} /\ id_protocols i = [ascii_bytes "/ipfs/id/1.0.0"; ascii_bytes "/ipfs/bitswap/1.2.0"] /\
  id_protocol_version i = ascii_bytes "ipfs/0.1.0" /\ id_agent_version i = ascii_bytes "test/0.0.0" /\ id_signed_peer_record i = None.
Proof.
  intros K L J S H R. destruct (joined_front _ _ J) as (C & more & ->). rewrite (identify_own sha256 blake2b256 key src more r out src' i K L C S H R). repeat split.
Qed.
Print Assumptions C136_identify_is_the_peers.
(** The command [show] never gets further than its request: what it was asked for, what is
    stored, and in which order things happen do not matter. *)
Theorem C136_show_never_works sha256 blake2b256 key text src wrote r out src' : joined_by src wrote -> said (serve_prog sha256 blake2b256 key) wrote ->
  show_command sha256 blake2b256 text src = (Some r, out, src') -> forall l, r <> Ok l.
Proof. intros J S H. destruct (joined_front _ _ J) as (C & more & ->). exact (show_fails sha256 blake2b256 key text src more r out src' C S H). Qed.
Print Assumptions C136_show_never_works.
(** The node that answers hands a stream to the handler that was asked for. *)
Theorem C136_served_as_asked sha256 blake2b256 key src wrote r out src' : joined_by src wrote -> serve sha256 blake2b256 key src = (Some r, out, src') ->
  (said identify_prog wrote -> forall l x, r <> Ok (SBitswap l x)) /\ (forall text, said (show_prog sha256 blake2b256 text) wrote -> r <> Ok SIdentify).
Proof.
  intros J H. destruct (joined_front _ _ J) as (C & more & ->). split.
  - intros S l x ->. pose proof (served_as_asked sha256 blake2b256 id_protocol _ _ HIdentify key src more _ out src' id_fits eq_refl C S H) as E. discriminate.
  - intros text S ->. pose proof (served_as_asked sha256 blake2b256 bitswap_protocol _ _ HBitswap key src more _ out src' bitswap_fits eq_refl C S H) as E. discriminate.
Qed.
Print Assumptions C136_served_as_asked.

(** When both programs have ended and each has read all that the other wrote, the command has
    printed the description and the other node has served it: there is no other way for the two
    to end. *)
Theorem C136_identify_answered sha256 blake2b256 key srcA srcB r outA srcA' q outB srcB' : bytes_ok key -> length key = 32%nat ->
  joined_by srcA outB -> joined_by srcB outA -> bytes_of srcA = outB -> bytes_of srcB = outA ->
  identify_command srcA = (Some r, outA, srcA') -> serve sha256 blake2b256 key srcB = (Some q, outB, srcB') ->
  q = Ok SIdentify /\ exists i, r = Ok (Some i) /\ id_public_key i = {| pk_type := KEd25519; pk_data := key |} /\ id_protocols i = [ascii_bytes "/ipfs/id/1.0.0"; ascii_bytes "/ipfs/bitswap/1.2.0"].
Proof.
  intros K L JA JB EA EB HA HB. destruct (joined_front _ _ JA) as (CA & _). destruct (joined_front _ _ JB) as (CB & _).
  apply C116_identify_program in HA. apply C116_serve_program in HB. destruct (serve_header _ _ _ _ _ _ _ HB) as (o & Eo). rewrite Eo in EA.
  pose proof (identify_asks _ _ _ _ _ CA EA HA) as Eq. rewrite Eq in EB. rewrite <- (app_nil_r (write_message id_protocol)) in EB.
  destruct (serve_identify _ _ _ _ _ _ _ _ CB EB HB) as [-> Eb]. split; [reflexivity|]. rewrite <- Eo, Eb in EA. rewrite <- (app_nil_r (identify_handler key)) in EA.
  destruct (identify_answer _ _ _ _ _ _ K L CA EA HA) as [-> _]. exists (handler_identify key). repeat split.
Qed.
Print Assumptions C136_identify_answered.
