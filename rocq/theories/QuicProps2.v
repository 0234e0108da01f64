(** Properties C67 and C82-C87: QUIC packets and the test endpoint. *)
From Verif Require Import Base BaseProofs BinaryModel BinarySpec BinaryProofs BinaryProofs2 MessageProofs MessageProofs2 TlsCodesModel TlsTypesModel TlsTypesSpec TlsTypesProofs TlsTypesProofs2 TlsTypesProofs3 TlsTypesProps
  TlsRecordModel TlsRecordSpec TlsRecordProofs TlsRecordProps TlsClientSpec TlsClientProps QuicModel QuicSpec QuicProofs QuicProofs2 QuicProofs3 QuicProofs4 QuicProofs5 QuicProofs6 QuicProps.
From Coq Require Import Lia ZArith ZifyBool ZifyNat ZifyN Permutation.
Ltac Zify.zify_post_hook ::= Z.div_mod_to_equations.
Local Open Scope string_scope. Local Open Scope list_scope. Local Open Scope N_scope.

(** *** C67: initial packets *)
(** An initial packet whose length and number fit their fields is the header of RFC 9000 and
    the padded payload, protected as RFC 9001 says. *)
Theorem C67_packet_partial P B s dst src pn token payload c : aead_ok P -> block_ok B -> secrets_ok s -> bytes_ok dst -> bytes_ok src -> bytes_ok token ->
  blen dst <= 20 -> blen src <= 20 -> blen token < two62 - 1000000 -> pn < two32 ->
  let padded := payload ++ repeat 0 (1200 - (length (rfc_header dst src token 0 pn) + length payload + 16)) in
  let h := rfc_header dst src token (blen padded + 20) pn in
  blen padded + 20 < 16384 -> seal P AES_128_GCM (q_key s) (rfc_nonce (q_iv s) pn) h padded = Some c ->
  exists packet, encode_initial_packet P B dst src pn token payload s = Ok packet /\ packet_of P B AES_128_GCM s h (length h - 4) pn padded packet.
Proof.
  intros A BK SK O1 O2 O3 L1 L2 L3 Hp padded h Ll E.
  destruct (initial_packet_ok P B s dst src pn token payload c A BK SK O1 O2 O3 L1 L2 L3 Hp Ll E) as (packet & EN & M & _ & _).
  exists packet. split; [exact EN|]. exists c. split; [exact E|exact M].
Qed.
Print Assumptions C67_packet_partial.
(** The parser gets back what was put into it, whatever follows the packet, with the secrets
    for the direction it is in. *)
Theorem C67_parsed_partial P B cs s new dst src pn token items c extra ms : aead_ok P -> block_ok B -> sizes_ok P -> bytes_ok dst -> bytes_ok src -> bytes_ok token ->
  blen dst <= 20 -> blen src <= 20 -> blen token < two62 - 1000000 -> pn < two32 ->
  let payload := concat (map item_bytes items) in
  let padded := payload ++ repeat 0 (1200 - (length (rfc_header dst src token 0 pn) + length payload + 16)) in
  blen padded + 20 < 16384 -> seal P AES_128_GCM (q_key s) (rfc_nonce (q_iv s) pn) (rfc_header dst src token (blen padded + 20) pn) padded = Some c ->
  match lookup dst cs with
  | Some k => s = q_server k /\ new = cs /\ secrets_ok s
  | None => s = q_client (rfc_secrets P dst) /\ new = insert src (rfc_secrets P dst) cs
  end ->
  Forall item_ok items -> handle_packet P dst (frames_of items) = Ok ms ->
  exists packet, encode_initial_packet P B dst src pn token payload s = Ok packet /\
    (fits (packet ++ extra) -> parse_packet P B cs (packet ++ extra) =
      Ok ({| rc_frames := frames_of items; rc_src := src; rc_dst := dst; rc_number := pn; rc_token := token; rc_messages := ms |}, new)).
Proof.
  intros A BK SZ O1 O2 O3 L1 L2 L3 Hp payload padded Ll E LK IO HM.
  assert (SK : secrets_ok s) by (destruct (lookup dst cs); [tauto|]; destruct LK as [-> _]; apply rfc_keys_ok, SZ).
  apply (parse_initial_packet P B cs s new dst src pn token payload c extra items ms); auto.
  destruct (lookup dst cs); tauto.
Qed.
Print Assumptions C67_parsed_partial.
(** The client hello of [make_initial2] arrives. *)
Theorem C67_hello_partial P B cs dst src token ch t b extra : aead_ok P -> block_ok B -> sizes_ok P -> bytes_ok dst -> bytes_ok src -> bytes_ok token ->
  blen dst <= 20 -> blen src <= 20 -> blen token < two62 - 1000000 ->
  let h := HClientHello ch in
  handshake_ok h -> handshake_writable h -> handshake_fits h -> handshake_parts h = Some (t, b) -> params_minimal ch ->
  let f := {| cf_start := 0; cf_data := handshake_bytes t b |} in
  let padded := crypto_bytes f ++ repeat 0 (1200 - (length (rfc_header dst src token 0 0) + length (crypto_bytes f) + 16)) in
  blen padded + 20 < 16384 -> lookup dst cs = None ->
  (exists c, seal P AES_128_GCM (q_key (q_client (rfc_secrets P dst))) (rfc_nonce (q_iv (q_client (rfc_secrets P dst))) 0) (rfc_header dst src token (blen padded + 20) 0) padded = Some c) ->
  exists packet, make_initial P B dst src token h (q_client (rfc_secrets P dst)) = Ok packet /\
    (fits (packet ++ extra) -> parse_packet P B cs (packet ++ extra) =
      Ok ({| rc_frames := [FCrypto f]; rc_src := src; rc_dst := dst; rc_number := 0; rc_token := token; rc_messages := [h] |}, insert src (rfc_secrets P dst) cs)).
Proof.
  intros A BK SZ O1 O2 O3 L1 L2 L3 h OK W HF E PM f padded Ll LK [c S].
  assert (Lc : blen (crypto_bytes f) < 16384) by (unfold padded in Ll; rewrite blen_app in Ll; lia).
  assert (Lb : blen (handshake_bytes t b) < 16384) by (unfold crypto_bytes in Lc; rewrite !blen_app in Lc; cbn [f cf_data] in Lc; lia).
  assert (F : fits (handshake_bytes t b)) by (unfold fits; change two64 with 18446744073709551616; lia).
  assert (L62 : blen (handshake_bytes t b) < two62) by (change two62 with 4611686018427387904; lia).
  destruct (write_handshake_ok h t b [] OK W E) as [[_ H]|[H _]]; [|contradiction].
  assert (PB : concat (map item_bytes [Some (FCrypto f)]) = crypto_bytes f) by (cbn [map concat item_bytes frame_bytes]; apply app_nil_r).
  assert (EM : make_initial P B dst src token h (q_client (rfc_secrets P dst)) = encode_initial_packet P B dst src 0 token (crypto_bytes f) (q_client (rfc_secrets P dst))).
  { unfold make_initial. rewrite H. rewrite app_nil_l. f_equal. unfold wbind, write_u8, write_raw. rewrite (write_quic_ok 0) by reflexivity. rewrite write_quic_ok by exact L62.
    cbn [snd]. unfold crypto_bytes. cbn [f cf_data cf_start]. rewrite <- !app_assoc. reflexivity. }
  rewrite EM, <- PB.
  apply (C67_parsed_partial P B cs (q_client (rfc_secrets P dst)) _ dst src 0 token [Some (FCrypto f)] c extra [h]); auto.
  - reflexivity.
  - rewrite PB. exact Ll.
  - rewrite PB. exact S.
  - rewrite LK. auto.
  - constructor; [|constructor]. cbn [item_ok frame_ok f cf_start cf_data]. split; [reflexivity|exact L62].
  - unfold handle_packet. cbn [frames_of flat_map app crypto_data map concat f cf_data]. rewrite app_nil_r.
    destruct (length (handshake_bytes t b)) as [|n] eqn:Ln; [discriminate Ln|]. apply process_written; auto. exact Logic.I.
Qed.
Print Assumptions C67_hello_partial.
(** Any sequence of frames and padding is read; no payload makes the parser of frames panic
    or loop. *)
Theorem C67_frames items d : (Forall item_ok items -> fits (concat (map item_bytes items)) -> parse_frames (concat (map item_bytes items)) = Ok (frames_of items)) /\
  parse_frames d <> Panic.
Proof.
  split; [|apply parse_frames_total]. intros O F. unfold parse_frames. rewrite new_at_pos. apply frames_loop_ok; [exact O|exact F|lia].
Qed.
Print Assumptions C67_frames.
(** The full statement is false: a payload of 16364 bytes has its length written as nothing,
    which stops the receiver; of a packet number, 32 bits are sent. *)
Definition plain_ids : bytes * bytes := ([1; 2; 3; 4; 5; 6; 7; 8], [9; 9]).
Definition toy_client : endpoint_secrets := q_client (rfc_secrets toy (fst plain_ids)).
Theorem C67_too_large_refuted :
  (exists packet, encode_initial_packet toy toy_block (fst plain_ids) (snd plain_ids) 0 [] (repeat 0 16364) toy_client = Ok packet /\ parse_packet toy toy_block [] packet = Panic) /\
  (exists packet e, encode_initial_packet toy toy_block (fst plain_ids) (snd plain_ids) (two32 + 7) [] [2] toy_client = Ok packet /\ parse_packet toy toy_block [] packet = Err e).
Proof.
  split.
  - eexists. split; [vm_compute; reflexivity|]. vm_compute. reflexivity.
  - eexists. eexists. split; [vm_compute; reflexivity|]. vm_compute. reflexivity.
Qed.
Print Assumptions C67_too_large_refuted.
Example C67_sample : exists packet, encode_initial_packet toy toy_block (fst plain_ids) (snd plain_ids) 7 [42] ([0; 2; 0] ++ close_bytes 5 6 [104; 105]) toy_client = Ok packet /\
  length packet = 1200%nat /\
  parse_packet toy toy_block [] (packet ++ [1; 2; 3]) =
    Ok ({| rc_frames := [FPing; FClose 5 6 [104; 105]]; rc_src := snd plain_ids; rc_dst := fst plain_ids; rc_number := 7; rc_token := [42]; rc_messages := [] |},
        [(snd plain_ids, rfc_secrets toy (fst plain_ids))]).
Proof. eexists. split; [vm_compute; reflexivity|]. split; [vm_compute; reflexivity|]. vm_compute. reflexivity. Qed.
Definition quic_hello : client_hello :=
  {| ch_version := 0x0303; ch_random := repeat 7 32; ch_session := []; ch_suites := [CsTLSAES128GCMSHA256]; ch_compression := [0];
     ch_extensions := [XTransportParameters (encode_list [PNumber PMaxData 70000; PSourceId [9; 9]])] |}.
Example C67_hello_sample : exists packet, make_initial toy toy_block (fst plain_ids) (snd plain_ids) [] (HClientHello quic_hello) toy_client = Ok packet /\
  match parse_packet toy toy_block [] packet with Ok (r, _) => rc_messages r = [HClientHello quic_hello] | _ => False end.
Proof. eexists. split; [vm_compute; reflexivity|]. vm_compute. reflexivity. Qed.

(** *** C82: what a peer can do to the endpoint *)
Lemma wb_offset {A} (f : reader -> A) : well_behaved (fun r => (Ok (f r), r)).
Proof. intros r I. cbn [fst snd]. repeat split; auto. discriminate. Qed.
Definition tells {A} (m : rd A) (g : A -> nat) : Prop := forall r a r', m r = (Ok a, r') -> g a = r_off r'.
Lemma tells_bind {A C} (m : rd A) (k : A -> rd C) g : (forall a, tells (k a) g) -> tells (rbind m k) g.
Proof. intros H r a r' E. unfold rbind in E. destruct (m r) as [[x|e|] r1]; [|discriminate|discriminate]. eapply H, E. Qed.
Lemma tells_fail {A} e g : @tells A (rfail e) g.
Proof. intros r a r' E. discriminate. Qed.
Lemma wb_u32 : well_behaved read_u32. Proof. apply wb_take. Qed.
Lemma wb_long : well_behaved long_reader.
Proof.
  unfold long_reader. apply wb_bind; [apply wb_u8|intros b]. apply wb_bind; [apply wb_u32|intros v]. destruct (negb _); [apply wb_fail|].
  apply wb_bind; [apply wb_u8|intros n]. destruct (20 <? n); [apply wb_fail|]. apply wb_bind; [apply wb_fixed|intros d].
  apply wb_bind; [apply wb_u8|intros n']. destruct (20 <? n'); [apply wb_fail|]. apply wb_bind; [apply wb_fixed|intros d']. apply wb_offset.
Qed.
Lemma tells_long : tells long_reader snd.
Proof.
  unfold long_reader. apply tells_bind; intros b. apply tells_bind; intros v. destruct (negb _); [apply tells_fail|].
  apply tells_bind; intros n. destruct (20 <? n); [apply tells_fail|]. apply tells_bind; intros d.
  apply tells_bind; intros n'. destruct (20 <? n'); [apply tells_fail|]. apply tells_bind; intros d'.
  intros r a r' E. cbv beta in E. assert (a = (b, d, d', r_off r) /\ r' = r) as [-> ->] by (split; congruence). reflexivity.
Qed.
Lemma wb_initial : well_behaved initial_reader.
Proof. unfold initial_reader. apply wb_bind; [apply wb_quic|intros n]. apply wb_bind; [apply wb_fixed|intros d]. apply wb_bind; [apply wb_quic|intros l]. apply wb_offset. Qed.
(** The only packets that can stop it: those with a short header, and initial packets whose
    length is bad or whose messages stop it. *)
Theorem C82_only_these_partial P B cs packet : sizes_ok P -> parse_packet P B cs packet = Panic ->
  (exists b t, packet = b :: t /\ N.land b 0x40 <> 0 /\ N.land b 0x80 <> 0x80) \/
  (exists k pn_offset len, decrypt_payload P B packet (N.of_nat pn_offset) len k AES_128_GCM = Panic) \/
  (exists k pn_offset len n payload frames dst, decrypt_payload P B packet (N.of_nat pn_offset) len k AES_128_GCM = Ok (n, payload) /\
     parse_frames payload = Ok frames /\ handle_packet P dst frames = Panic).
Proof.
  intros SZ E. unfold parse_packet in E. destruct packet as [|b t]; [discriminate|]. destruct (N.eqb_spec (N.land b 64) 0) as [|H1]; [discriminate|].
  destruct (N.eqb_spec (N.land b 128) 128) as [H2|H2]; [|left; exists b, t; auto]. right. set (packet := b :: t) in *. clearbody packet.
  unfold parse_long in E. fold long_reader in E. pose proof (wb_long (new_reader packet)) as W1. destruct W1 as (N1 & B1 & _ & I1); [unfold in_bounds, new_reader; cbn [r_off r_buf]; lia|].
  destruct (long_reader (new_reader packet)) as [x r] eqn:E1. cbn [fst snd] in *.
  destruct x as [[[[b' dst] src] offset]|e|]; [|discriminate|contradiction]. cbn [from_binary map_err bind] in E. cbv zeta in E.
  assert (Off : offset = r_off r) by exact (tells_long _ _ _ E1).
  destruct (_ =? 0); [|repeat (destruct (_ =? _); [discriminate|]); discriminate].
  unfold parse_initial in E. fold initial_reader in E. pose proof (wb_initial (new_reader_at packet offset)) as W2. destruct W2 as (N2 & _).
  { unfold in_bounds, new_reader_at in *. cbn [r_off r_buf]. rewrite B1 in I1. cbn [r_buf new_reader] in I1. lia. }
  destruct (initial_reader (new_reader_at packet offset)) as [x r2] eqn:E2. cbn [fst snd] in *.
  destruct x as [[[token len] pn_offset]|e|]; [|discriminate|contradiction]. cbn [from_binary map_err bind] in E.
  destruct (lookup dst cs) as [s|]; [|rewrite from_id_rfc in E by exact SZ]; cbn [from_crypt map_err bind] in E;
    (match type of E with context [decrypt_payload ?p0 ?b0 ?q0 ?o0 ?l0 ?k0 ?a0] => destruct (decrypt_payload p0 b0 q0 o0 l0 k0 a0) as [[n payload]|e|] eqn:D end;
     [cbn [bind fst snd] in E; right|discriminate|left; eauto];
     destruct (parse_frames payload) as [frames|e|] eqn:PF; [|discriminate|destruct (parse_frames_total payload PF)]; cbn [from_binary map_err bind] in E;
     destruct (handle_packet P dst frames) as [ms|e|] eqn:HP; [discriminate|discriminate|]; eauto 12).
Qed.
Print Assumptions C82_only_these_partial.
(** Any packet with a short header stops it. *)
Theorem C82_short_header_refuted P B cs b t : N.land b 0x40 <> 0 -> N.land b 0x80 = 0 -> parse_packet P B cs (b :: t) = Panic.
Proof. intros H1 H2. unfold parse_packet. destruct (N.eqb_spec (N.land b 64) 0); [contradiction|]. rewrite H2. reflexivity. Qed.
Print Assumptions C82_short_header_refuted.
(** So does any initial packet with a length of zero: no key is needed. *)
Theorem C82_length_zero_refuted P B cs dst src token rest : sizes_ok P -> block_ok B -> bytes_ok dst -> bytes_ok src -> bytes_ok token -> bytes_ok rest -> blen dst <= 20 -> blen src <= 20 -> blen token < two62 ->
  let packet := rfc_header dst src token 0 0 ++ rest in fits packet -> (16 <= length rest)%nat -> (forall k, lookup dst cs = Some k -> secrets_ok (q_server k)) ->
  parse_packet P B cs packet = Panic.
Proof.
  intros SZ BK O1 O2 O3 O4 L1 L2 L3 packet F Lr SK. set (tail := be_bytes 4 0 ++ rest).
  assert (E2 : packet = 0xc3 :: [0; 0; 0; 1] ++ [blen dst] ++ dst ++ [blen src] ++ src ++ quic_enc (blen token) ++ token ++ quic_form 2 0 ++ tail).
  { unfold packet, rfc_header, tail. repeat progress (cbn [app]; rewrite <- ?app_assoc). reflexivity. }
  assert (E3 : packet = (0xc3 :: [0; 0; 0; 1] ++ [blen dst] ++ dst ++ [blen src] ++ src) ++ quic_enc (blen token) ++ token ++ quic_form 2 0 ++ tail).
  { rewrite E2. repeat progress (cbn [app]; rewrite <- ?app_assoc). reflexivity. }
  assert (OP : bytes_ok packet) by (apply bytes_ok_app; split; [apply rfc_header_ok; assumption|exact O4]).
  assert (HP : parse_packet P B cs packet = parse_long P B cs packet) by (rewrite E2; reflexivity). clearbody packet. rewrite HP. clear HP. unfold parse_long. fold long_reader.
  pose proof (long_reader_ok 0xc3 dst src (quic_enc (blen token) ++ token ++ quic_form 2 0 ++ tail) eq_refl L1 L2) as R. rewrite <- E2 in R. rewrite (R F).
  cbn [fst from_binary map_err bind]. cbv zeta. change (N.shiftr (N.land 195 48) 4 =? 0) with true. cbv iota. unfold parse_initial. fold initial_reader.
  pose proof (initial_reader_ok (0xc3 :: [0; 0; 0; 1] ++ [blen dst] ++ dst ++ [blen src] ++ src) token 0 tail L3 eq_refl) as R2. rewrite <- E3 in R2. rewrite (R2 F).
  cbn [fst from_binary map_err bind].
  set (pre := (0xc3 :: [0; 0; 0; 1] ++ [blen dst] ++ dst ++ [blen src] ++ src) ++ quic_enc (blen token) ++ token ++ quic_form 2 0).
  assert (E4 : packet = pre ++ tail) by (rewrite E3; unfold pre; rewrite <- !app_assoc; reflexivity).
  assert (Lt : blen packet = blen pre + 4 + blen rest) by (rewrite E4; unfold tail; rewrite !blen_app, blen_be; lia).
  assert (Lp : (1 <= length pre)%nat) by (unfold pre; cbn [app length]; lia).
  assert (DP : forall s, secrets_ok s -> decrypt_payload P B packet (N.of_nat (length pre)) 0 s AES_128_GCM = Panic).
  { intros s Hs. unfold fits in F. destruct (C64_bad_length_refuted P B AES_128_GCM s packet (length pre) 0 BK Hs eq_refl OP F Lp) as (n & Hn & H).
    - rewrite Lt. unfold blen. lia.
    - unfold blen in *. lia.
    - apply H. left. lia. }
  destruct (lookup dst cs) as [k|].
  - cbn [bind]. rewrite DP by (apply SK; reflexivity). reflexivity.
  - rewrite from_id_rfc by exact SZ. cbn [from_crypt map_err bind]. rewrite DP by (apply rfc_keys_ok, SZ). reflexivity.
Qed.
Print Assumptions C82_length_zero_refuted.
(** So does a packet whose crypto frame has anything after its first message. *)
Theorem C82_two_messages_refuted P dst h t b more off : handshake_ok h -> handshake_writable h -> handshake_fits h -> handshake_parts h = Some (t, b) -> delimits_itself h -> blen b < 16777216 ->
  more <> [] -> fits (handshake_bytes t b ++ more) -> handle_packet P dst [FCrypto {| cf_start := off; cf_data := handshake_bytes t b ++ more |}] = Panic.
Proof.
  intros O W HF E D Lb NE F. unfold handle_packet. cbn [crypto_data map concat cf_data]. rewrite app_nil_r. set (d := handshake_bytes t b ++ more) in *.
  assert (X : try_pop_handshake d = Panic).
  { unfold try_pop_handshake. pose proof (handshake_type_lt h t b O E) as Lt.
    assert (Len : length d = (4 + length b + length more)%nat) by (unfold d, handshake_bytes, vec; cbn [length app]; rewrite !app_length, be_bytes_length; reflexivity).
    replace (length d <? 4)%nat with false by (symmetry; apply Nat.ltb_ge; lia).
    assert (Ed : d = be_bytes 1 t ++ be_bytes 3 (blen b) ++ b ++ more) by (unfold d, handshake_bytes, vec; rewrite <- single_be1 by lia; cbn [app]; rewrite <- app_assoc; reflexivity).
    assert (R : fst ((do _ <- read_u8; read_u24) (new_reader d)) = Ok (blen b)).
    { rewrite new_at_pos. rewrite Ed in *. unfold rbind. rewrite (reads_u8 t Lt [] _ F). rewrite (reads_u24 (blen b)) by (exact Lb || exact F). reflexivity. }
    rewrite R. cbn [from_binary map_err bind]. replace (_ <? _) with false by (symmetry; apply N.ltb_ge; unfold blen; rewrite Len; lia).
    pose proof (reads_handshake h t b (blen b) O HF E D [] more) as RH. rewrite app_nil_l in RH. rewrite new_at_pos.
    change (([t] ++ be_bytes 3 (blen b) ++ b) ++ more) with d in RH. rewrite (RH F).
    destruct (write_handshake_ok h t b [] O W E) as [[_ H]|[H _]]; [|contradiction]. rewrite H. rewrite app_nil_l.
    destruct (bytes_eqb d (handshake_bytes t b)) eqn:BE; [|reflexivity]. apply bytes_eqb_eq in BE. exfalso.
    apply (f_equal (@length N)) in BE. unfold d in BE. rewrite app_length in BE. destruct more; [contradiction|cbn [length] in BE; lia]. }
  cbn [process_handshakes]. rewrite X. reflexivity.
Qed.
Print Assumptions C82_two_messages_refuted.
(** So do transport parameters that are not in the shortest form. *)
Theorem C82_parameters_refuted P dst ch t b d xs off : let h := HClientHello ch in handshake_ok h -> handshake_writable h -> handshake_fits h -> handshake_parts h = Some (t, b) ->
  ch_extensions ch = [XTransportParameters d] -> d = concat (map wire_param_bytes xs) -> Forall wire_param_ok xs -> bytes_ok d -> fits d -> ~ Forall minimal xs ->
  fits (handshake_bytes t b) -> handle_packet P dst [FCrypto {| cf_start := off; cf_data := handshake_bytes t b |}] = Panic.
Proof.
  intros h O W HF E EX ED WP OD FD NM F. unfold handle_packet. cbn [crypto_data map concat cf_data]. rewrite app_nil_r.
  cbn [process_handshakes]. rewrite (pop_written h t b O W HF E Logic.I F). cbn [bind h]. rewrite EX. cbn [check_params].
  destruct (minimal_again d xs ED WP OD FD) as (l & -> & H). cbn [from_binary map_err bind].
  destruct (bytes_eqb (encode_list l) d) eqn:BE; [|reflexivity]. apply bytes_eqb_eq in BE. destruct NM. apply H, BE.
Qed.
Print Assumptions C82_parameters_refuted.
Example C82_sample : parse_packet toy toy_block [] [0x41] = Panic /\
  parse_packet toy toy_block [] (rfc_header (fst plain_ids) (snd plain_ids) [] 0 0 ++ repeat 0 16) = Panic /\
  (exists e, parse_packet toy toy_block [] (rfc_header (fst plain_ids) (snd plain_ids) [] 20 0 ++ repeat 0 16) = Err e).
Proof. split; [reflexivity|]. split; [vm_compute; reflexivity|]. eexists. vm_compute. reflexivity. Qed.

(** *** C83: connections *)
(** A packet that opens a connection leaves it under the sender's identifier; further packets
    for the identifier it was sent to do not find it. *)
Lemma lookup_insert id s k cs : id <> k -> lookup id cs = None -> lookup id (insert k s cs) = None.
Proof.
  intros NE L. unfold insert. cbn [lookup]. destruct (bytes_eqb k id) eqn:E; [apply bytes_eqb_eq in E; congruence|].
  induction cs as [|[k' s'] cs IH]; [reflexivity|]. cbn [lookup] in L. destruct (bytes_eqb k' id) eqn:E'; [discriminate|]. cbn [filter].
  destruct (negb _); [cbn [lookup]; rewrite E'|]; auto.
Qed.
Theorem C83_not_found_refuted P B cs packet r new : parse_packet P B cs packet = Ok (r, new) -> lookup (rc_dst r) cs = None -> rc_src r <> rc_dst r ->
  lookup (rc_dst r) new = None /\ exists k, lookup (rc_src r) new = Some k /\ (sizes_ok P -> k = rfc_secrets P (rc_dst r)).
Proof.
  intros E L NE. unfold parse_packet in E. destruct packet as [|b t]; [discriminate|]. destruct (_ =? 0); [discriminate|]. destruct (_ =? 128); [|discriminate].
  unfold parse_long in E. apply bind_ok in E. destruct E as ([[[b' dst] src] offset] & _ & E). cbv zeta in E.
  destruct (_ =? 0); [|repeat (destruct (_ =? _); [discriminate|]); discriminate].
  unfold parse_initial in E. apply bind_ok in E. destruct E as ([[token len] pn_offset] & _ & E). apply bind_ok in E. destruct E as ([k n] & EK & E).
  apply bind_ok in E. destruct E as (z & _ & E). apply bind_ok in E. destruct E as (fs & _ & E). apply bind_ok in E. destruct E as (ms & _ & E).
  assert (Er : r = {| rc_frames := fs; rc_src := src; rc_dst := dst; rc_number := fst z; rc_token := token; rc_messages := ms |}) by congruence.
  assert (En : new = match n with Some s => insert src s cs | None => cs end) by congruence. subst r new. cbn [rc_dst rc_src] in *.
  rewrite L in EK. apply bind_ok in EK. destruct EK as (s & EK & X). assert (n = Some s) as -> by congruence. split.
  - apply lookup_insert; auto.
  - exists s. split.
    + unfold insert. cbn [lookup]. rewrite bytes_eqb_refl. reflexivity.
    + intros SZ. rewrite from_id_rfc in EK by exact SZ. cbn [from_crypt map_err] in EK. congruence.
Qed.
Print Assumptions C83_not_found_refuted.
Example C83_sample : exists packet r new, encode_initial_packet toy toy_block (fst plain_ids) (snd plain_ids) 7 [] [2] toy_client = Ok packet /\
  parse_packet toy toy_block [] packet = Ok (r, new) /\ lookup (rc_dst r) new = None /\ rc_dst r = fst plain_ids.
Proof. eexists. eexists. eexists. split; [vm_compute; reflexivity|]. split; [vm_compute; reflexivity|]. split; reflexivity. Qed.

(** *** C84: initial secrets *)
Theorem C84_rfc P id : sizes_ok P -> from_connection_id P SHA256 id = Ok (rfc_secrets P id) /\
  secrets_ok (q_client (rfc_secrets P id)) /\ secrets_ok (q_server (rfc_secrets P id)).
Proof. intros SZ. split; [apply from_id_rfc, SZ|]. split; apply rfc_keys_ok, SZ. Qed.
Print Assumptions C84_rfc.
Example C84_sample : sizes_ok toy /\ exists k, from_connection_id toy SHA256 (fst plain_ids) = Ok k /\ q_key (q_client k) <> q_key (q_server k) /\ length (q_hp (q_client k)) = 16%nat.
Proof. split; [exact toy_sizes_ok|]. eexists. split; [vm_compute; reflexivity|]. split; [vm_compute; discriminate|reflexivity]. Qed.

(** *** C85: stream identifiers (RFC 9000, 2.1) *)
Definition rfc_stream_type (i : initiator) (d : directionality) : stream_type :=
  match i, d with
  | Client, Bidirectional => ClientBidirectional | Server, Bidirectional => ServerBidirectional
  | Client, Unidirectional => ClientUnidirectional | Server, Unidirectional => ServerUnidirectional
  end.
Theorem C85_stream_ids n i d : let id := 4 * n + (match i with Client => 0 | Server => 1 end) + (match d with Bidirectional => 0 | Unidirectional => 2 end) in
  stream_initiator id = i /\ stream_directionality id = d /\ stream_type_of id = rfc_stream_type i d.
Proof.
  intros id. assert (E1 : N.land id 1 = id mod 2) by (change 1 with (N.ones 1); rewrite N.land_ones; reflexivity).
  assert (E3 : N.land id 3 = id mod 4) by (change 3 with (N.ones 2); rewrite N.land_ones; reflexivity).
  assert (E2 : N.land id 2 = N.land (id mod 4) 2) by (rewrite <- E3, <- N.land_assoc; reflexivity).
  unfold stream_initiator, stream_directionality, stream_type_of. cbv zeta. rewrite E1, E2, E3. clear E1 E2 E3.
  assert (M4 : id mod 4 = match i with Client => 0 | Server => 1 end + match d with Bidirectional => 0 | Unidirectional => 2 end) by (subst id; destruct i, d; lia).
  assert (M2 : id mod 2 = match i with Client => 0 | Server => 1 end) by (subst id; destruct i, d; lia).
  rewrite M4, M2. destruct i, d; repeat split; reflexivity.
Qed.
Print Assumptions C85_stream_ids.
Example C85_sample : stream_type_of 7 = ServerUnidirectional /\ stream_initiator 6 = Client /\ stream_directionality 6 = Unidirectional.
Proof. repeat split. Qed.

(** *** C86: frame types *)
(** An acknowledgement is not told from a ping, its contents being taken for further frames,
    and a ping is refused. *)
Theorem C86_ping_refused_refuted d : fits (1 :: d) -> parse_frames (1 :: d) = Err (BPlain "Unknown frame type").
Proof.
  intros F. unfold parse_frames. rewrite new_at_pos. cbn [frames_loop]. rewrite remaining_at. cbn [length].
  replace (0 <? S (length d))%nat with true by reflexivity. unfold read_frame, rbind. change (1 :: d) with (be_bytes 1 1 ++ d) in *.
  rewrite (reads_u8 1 eq_refl [] d); [reflexivity|exact F].
Qed.
Print Assumptions C86_ping_refused_refuted.
(** The frame ACK with largest acknowledged 0, no delay and one range, of no gap. *)
Theorem C86_ack_as_ping_refuted : parse_frames [2; 0; 0; 0; 0] = Ok [FPing] /\ parse_frames [2; 2; 0; 0; 2] = Ok [FPing; FPing; FPing].
Proof. split; reflexivity. Qed.
Print Assumptions C86_ack_as_ping_refuted.
Example C86_sample : parse_frames [0; 6; 0; 2; 5; 6; 0] = Ok [FCrypto {| cf_start := 0; cf_data := [5; 6] |}].
Proof. reflexivity. Qed.

(** *** C87: crypto frames of the endpoint *)
(** Offsets make no difference. *)
Theorem C87_offsets_ignored_refuted P dst d1 d2 a b a' b' :
  handle_packet P dst [FCrypto {| cf_start := a; cf_data := d1 |}; FCrypto {| cf_start := b; cf_data := d2 |}] =
  handle_packet P dst [FCrypto {| cf_start := a'; cf_data := d1 |}; FCrypto {| cf_start := b'; cf_data := d2 |}].
Proof. reflexivity. Qed.
Print Assumptions C87_offsets_ignored_refuted.
(** The beginning of a message, the rest of which comes in the next packet, is dropped. *)
Theorem C87_split_refuted P dst t b part rest : t < 256 -> blen b < 16777216 -> handshake_bytes t b = part ++ rest -> rest <> [] -> fits part ->
  handle_packet P dst [FCrypto {| cf_start := 0; cf_data := part |}] = Ok [].
Proof.
  intros Lt Lb E NE F. unfold handle_packet. cbn [crypto_data map concat cf_data]. rewrite app_nil_r. cbn [process_handshakes].
  assert (X : try_pop_handshake part = Ok None); [|rewrite X; reflexivity]. unfold try_pop_handshake.
  destruct (Nat.ltb_spec (length part) 4) as [|L]; [reflexivity|].
  assert (exists p, part = be_bytes 1 t ++ be_bytes 3 (blen b) ++ p /\ b = p ++ rest) as (p & -> & Eb).
  { unfold handshake_bytes, vec in E. change (t :: be_bytes 3 (blen b) ++ b) with ([t] ++ be_bytes 3 (blen b) ++ b) in E. rewrite (single_be1 t) in E by lia. rewrite app_assoc in E.
    set (hd4 := be_bytes 1 t ++ be_bytes 3 (blen b)) in *. assert (L4 : length hd4 = 4%nat) by (unfold hd4; rewrite app_length, !be_bytes_length; reflexivity).
    exists (skipn 4 part). assert (E4 : firstn 4 part = hd4).
    { apply (f_equal (firstn 4)) in E. rewrite <- L4 in E at 1. rewrite firstn_app_length in E. rewrite firstn_app in E. replace (4 - length part)%nat with 0%nat in E by lia. cbn [firstn] in E. rewrite app_nil_r in E. auto. }
    split; [rewrite app_assoc; fold hd4; rewrite <- E4 at 1; symmetry; apply firstn_skipn|].
    apply (f_equal (skipn 4)) in E. rewrite <- L4 in E at 1. rewrite skipn_app_length in E. rewrite skipn_app in E. replace (4 - length part)%nat with 0%nat in E by lia. exact E. }
  assert (R : fst ((do _ <- read_u8; read_u24) (new_reader (be_bytes 1 t ++ be_bytes 3 (blen b) ++ p))) = Ok (blen b)).
  { rewrite new_at_pos. unfold rbind. rewrite (reads_u8 t Lt [] _ F). rewrite (reads_u24 (blen b)) by (exact Lb || exact F). reflexivity. }
  rewrite R. cbn [from_binary map_err bind]. replace (_ <? _) with true; [reflexivity|]. symmetry. apply N.ltb_lt. rewrite Eb, !blen_app, !blen_be.
  destruct rest; [contradiction|]. rewrite blen_cons. lia.
Qed.
Print Assumptions C87_split_refuted.
Example C87_sample : handle_packet toy [] [FCrypto {| cf_start := 0; cf_data := [2; 0; 0; 9; 1] |}] = Ok [].
Proof. reflexivity. Qed.
