(** Everything the IPFS node prints, C140: a whole connection, and the program over QUIC. *)
From Coq Require Import String Ascii.
From Verif Require Import Base BaseProofs UtilModel ChatModel Asn1PrintProps VarintModel ProtobufModel CidModel CidTextModel IdentifyModel BitswapModel BlockModel DagPbModel UnixfsModel
  MplexModel LpioModel LpioSpec LpioProps HandlerModel IpfsMainModel IpfsMainProps HexDumpModel NamesModel DebugModel IpfsTextModel BitswapLogModel MplexLogProps TemplateSpec NodeLogModel NodeLogProps.
Local Open Scope string_scope. Local Open Scope list_scope. Local Open Scope N_scope.

Lemma printed_lines ls : printed (map (fun x => Out (text_of [x])) ls) = text_of ls /\ complained (map (fun x => Out (text_of [x])) ls) = [].
Proof.
  split; induction ls as [|x ls IH]; try reflexivity; [|exact IH]. unfold printed in *. cbn [map flat_map]. rewrite IH. unfold text_of. cbn [flat_map]. rewrite app_nil_r. reflexivity.
Qed.
(** ** C140: a peer that supports all of it, in any pieces: exactly these lines *)
Theorem C140_dial_exact lossy tls names1 names2 src socket rest plain : (forall n, utf8_valid n = true -> lossy n = n) ->
  Forall (fun n => utf8_valid n = true) names1 -> Forall (fun n => utf8_valid n = true) names2 -> blen (frames names1) <= 65536 -> blen (frames names2) <= 65536 ->
  carries src (frames [ascii_bytes "/multistream/1.0.0" ++ [10]; frames names1; ascii_bytes "/tls/1.0.0" ++ [10]] ++ socket) ->
  (forall s, carries s socket -> tls s = Some plain) ->
  carries plain (frames [ascii_bytes "/multistream/1.0.0" ++ [10]; frames names2; ascii_bytes "/mplex/6.7.0" ++ [10]] ++ rest) ->
  printed (fst (dial_said lossy tls src)) = text_of (milestones names1 names2) /\ complained (fst (dial_said lossy tls src)) = [].
Proof.
  intros Lo U1 U2 S1 S2 C1 T C2.
  destruct (upgrade_works lossy (ascii_bytes "/tls/1.0.0" ++ [10]) "/tls/1.0.0 is unsupported" names1 src socket Lo U1 S1 eq_refl C1) as (s & E1 & Cs).
  destruct (upgrade_works lossy (ascii_bytes "/mplex/6.7.0" ++ [10]) "/mplex/6.7.0 is unsupported" names2 plain rest Lo U2 S2 eq_refl C2) as (p & E2 & Cp).
  rewrite <- (upgrade_same lossy "TCP" "TLS") in E1. rewrite <- (upgrade_same lossy "TLS" "/mplex/6.7.0") in E2.
  destruct (upgrade_said lossy "TCP" "TLS" (ascii_bytes "/tls/1.0.0" ++ [10]) "/tls/1.0.0 is unsupported" src) as [l1 x1] eqn:Q1. cbn [snd] in E1. subst x1.
  destruct (upgrade_said lossy "TLS" "/mplex/6.7.0" (ascii_bytes "/mplex/6.7.0" ++ [10]) "/mplex/6.7.0 is unsupported" plain) as [l2 x2] eqn:Q2. cbn [snd] in E2. subst x2.
  unfold dial_said. rewrite Q1. cbn beta iota. rewrite (T s Cs), Q2.
  apply upgrade_shape in Q1. destruct Q1 as (n1 & k1 & -> & [(-> & X)|(_ & X)]); [|destruct (X _ eq_refl)]. injection X as <-.
  apply upgrade_shape in Q2. destruct Q2 as (n2 & k2 & -> & [(-> & X)|(_ & X)]); [|destruct (X _ eq_refl)]. injection X as <-.
  rewrite !firstn_all. cbn [fst].
  lazymatch goal with |- printed ?l = _ /\ _ => assert (M : l = map (fun x => Out (text_of [x])) (milestones names1 names2)) end.
  { assert (MM : milestones names1 names2 = [fill "Generated certificate" []] ++ upgrade_lines "TCP" "TLS" names1 ++ [fill "Established TLS connection" []; []] ++ upgrade_lines "TLS" "/mplex/6.7.0" names2).
    { unfold milestones, upgrade_lines. rewrite <- !app_assoc. reflexivity. }
    rewrite MM, !map_app, <- ?app_assoc. reflexivity. }
  rewrite M. apply printed_lines.
Qed.
Print Assumptions C140_dial_exact.

Section Quinn.
Context (sha256 blake2b256 quote : bytes -> bytes) (utf8 : bytes) (io : ioerr -> bytes).
(** ** C140: over QUIC the program does exactly what the command [show] does, for its CID *)
Definition outcome_map {E A B} (f : A -> B) (o : outcome E A) : outcome E B := match o with Ok a => Ok (f a) | Err e => Err e | Panic => Panic end.
Theorem C140_quinn_is_show c src : 
  let '(r, out, rest) := show_command sha256 blake2b256 quinn_cid src in
  snd (quinn_said sha256 blake2b256 quote utf8 io (c, Some src)) = (option_map (outcome_map snd) r, out, rest).
Proof.
  unfold quinn_said, show_command, open_protocol. generalize quinn_cid. intros q. destruct (multistream_handshake src) as [[[[[]|e|]|] o] s]; try reflexivity.
  destruct (negotiate bitswap_protocol "bitswap protocol unsupported" s) as [[[[[]|e|]|] o'] s']; try reflexivity.
  destruct (bitswap_handler sha256 blake2b256 (Some q) s') as [[[o'' ls] r] s'']. cbn [snd]. destruct r; cbn; rewrite <- app_assoc; reflexivity.
Qed.
(** Nothing is sent when there is no connection. *)
Theorem C140_quinn_no_connection c : quinn_said sha256 blake2b256 quote utf8 io (c, None) = (Out (text_of [fill "Before connect" []]) :: c, (None, [], [])).
Proof. reflexivity. Qed.
(** The lines: a beginning of these, or all of them and then the text of bitswap. *)
Definition quinn_lines (c : list told) : list (list told) :=
  [Out (text_of [fill "Before connect" []]) :: c ++ [Out (text_of [fill "After connect" []]); Out (text_of [fill "Before multistream_handshake" []])];
   [Out (text_of [fill "Completed multistream handshake on bidi connection" []])]; [Out (text_of [fill "bitswap protocol accepted" []])]].
Theorem C140_quinn_lines c src l r out rest : quinn_said sha256 blake2b256 quote utf8 io (c, Some src) = (l, (r, out, rest)) ->
  (exists k, (1 <= k < 3)%nat /\ l = concat (firstn k (quinn_lines c)) /\ (forall x, r <> Some (Ok x)) /\ 
     (exists m, out = frames (firstn m [ascii_bytes "/multistream/1.0.0" ++ [10]; ascii_bytes "/ipfs/bitswap/1.2.0" ++ [10]]))) \/
  exists s, l = concat (quinn_lines c) ++ [Out (fst (handler_said sha256 blake2b256 quote utf8 io (Some quinn_cid) s))] /\ r = option_map Ok (snd (handler_said sha256 blake2b256 quote utf8 io (Some quinn_cid) s)).
Proof.
  unfold quinn_said. generalize quinn_cid. intros q E.
  destruct (multistream_handshake src) as [[r0 o] s] eqn:H.
  assert (O : o = write_message (ascii_bytes "/multistream/1.0.0" ++ [10])).
  { unfold multistream_handshake, multistream_select in H. destruct (read_message None src) as [[[[d|e|]|] lim] s0]; try (injection H as _ <- _; reflexivity). }
  assert (L1 : (tell (ascii_bytes "Before connect") ++ c) ++ tell (ascii_bytes "After connect") ++ tell (ascii_bytes "Before multistream_handshake") = concat (firstn 1 (quinn_lines c))).
  { cbn [quinn_lines firstn concat]. rewrite app_nil_r, <- app_assoc. reflexivity. }
  assert (F1 : o = frames (firstn 1 [ascii_bytes "/multistream/1.0.0" ++ [10]; ascii_bytes "/ipfs/bitswap/1.2.0" ++ [10]])) by (rewrite O; unfold frames; cbn [firstn map concat]; rewrite app_nil_r; reflexivity).
  cbv zeta in E. rewrite L1 in E.
  destruct r0 as [[[]|e|]|]; try (quads E; left; exists 1%nat; split; [lia|]; split; [reflexivity|]; split; [discriminate|exists 1%nat; exact F1]).
  destruct (negotiate bitswap_protocol "bitswap protocol unsupported" s) as [[r1 o1] s1] eqn:Q.
  assert (O1 : o1 = write_message (ascii_bytes "/ipfs/bitswap/1.2.0" ++ [10])).
  { unfold negotiate in Q. destruct (multistream_select bitswap_protocol s) as [[x y] z] eqn:Ms.
    assert (y = write_message bitswap_protocol).
    { unfold multistream_select in Ms. set (b := bitswap_protocol) in *. clearbody b. destruct (read_message None s) as [[[[d|e|]|] lim] s0]; [|congruence..]. destruct (bytes_eqb d b); [congruence|]. destruct (bytes_eqb d na); congruence. }
    subst y. change (ascii_bytes "/ipfs/bitswap/1.2.0" ++ [10]) with bitswap_protocol. set (b := write_message bitswap_protocol) in *. clearbody b. destruct x as [[[]|e|]|]; congruence. }
  assert (F2 : o ++ o1 = frames (firstn 2 [ascii_bytes "/multistream/1.0.0" ++ [10]; ascii_bytes "/ipfs/bitswap/1.2.0" ++ [10]])) by (rewrite O, O1; unfold frames; cbn [firstn map concat]; rewrite app_nil_r; reflexivity).
  assert (L2 : concat (firstn 1 (quinn_lines c)) ++ tell (ascii_bytes "Completed multistream handshake on bidi connection") = concat (firstn 2 (quinn_lines c))).
  { cbn [quinn_lines firstn concat]. rewrite !app_nil_r. reflexivity. }
  rewrite L2 in E.
  destruct r1 as [[[]|e|]|]; try (quads E; left; exists 2%nat; split; [lia|]; split; [reflexivity|]; split; [discriminate|exists 2%nat; exact F2]).
  destruct (bitswap_handler sha256 blake2b256 (Some q) s1) as [[[o'' ls] r'] s''] eqn:B. quads E. right. exists s1.
  split.
  - assert (L3 : concat (quinn_lines c) = concat (firstn 2 (quinn_lines c)) ++ tell (ascii_bytes "bitswap protocol accepted")).
    { cbn [quinn_lines firstn concat]. rewrite !app_nil_r, <- !app_assoc. reflexivity. }
    rewrite L3, <- !app_assoc. reflexivity.
  - apply (BitswapLogProps.C129_same_results sha256 blake2b256 quote utf8 io) in B. destruct B as (-> & _). reflexivity.
Qed.
(** A peer that supports bitswap gets exactly the request for the block of the CID. *)
Theorem C140_quinn_asks c src rest : carries src (frames [ascii_bytes "/multistream/1.0.0" ++ [10]; ascii_bytes "/ipfs/bitswap/1.2.0" ++ [10]] ++ rest) ->
  exists cid, cid_from_string (ascii_bytes "QmQPeNsJPyVWPFDVHb77w8G42Fvo15z4bG2X8D2GhfbSXc") = Ok cid /\ cid_to_string cid = ascii_bytes "QmQPeNsJPyVWPFDVHb77w8G42Fvo15z4bG2X8D2GhfbSXc" /\
    snd (fst (snd (quinn_said sha256 blake2b256 quote utf8 io (c, Some src)))) =
      frames [ascii_bytes "/multistream/1.0.0" ++ [10]; ascii_bytes "/ipfs/bitswap/1.2.0" ++ [10]; bs_message_to_pb (request_message cid)].
Proof.
  intros [C E]. destruct (cid_from_string quinn_cid) as [cid|e|] eqn:Q; [|vm_compute in Q; discriminate Q..].
  exists cid. split; [exact Q|]. split; [vm_compute in Q; injection Q as <-; vm_compute; reflexivity|].
  unfold frames at 1 in E. cbn [map concat] in E. rewrite app_nil_r, <- app_assoc in E.
  unfold quinn_said, multistream_handshake, negotiate, bitswap_handler. rewrite Q. unfold multistream_select at 1. unfold read_message.
  destruct (read_opt_message None src) as [[r l] s] eqn:R. apply none_spec in R; [|exact C]. destruct R as (r0 & -> & -> & C' & _ & R).
  change (ascii_bytes "/multistream/1.0.0" ++ [10]) with multistream_header in *. change (ascii_bytes "/ipfs/bitswap/1.2.0" ++ [10]) with bitswap_protocol in *.
  rewrite E, flat_write in R by reflexivity. assert (r0 = Ok (Some multistream_header)) as -> by congruence. assert (Es : bytes_of s = write_message bitswap_protocol ++ rest) by congruence.
  cbn [option_map or_eof]. rewrite bytes_eqb_refl. unfold multistream_select. unfold read_message.
  destruct (read_opt_message None s) as [[r l2] s3] eqn:R2. apply none_spec in R2; [|exact C']. destruct R2 as (r0 & -> & -> & C3 & _ & R2).
  rewrite Es, flat_write in R2 by reflexivity. assert (r0 = Ok (Some bitswap_protocol)) as -> by congruence.
  cbn [option_map or_eof]. rewrite bytes_eqb_refl.
  destruct (bitswap_loop sha256 blake2b256 (S (length s3)) s3) as [[ls r] s4]. cbn [fst snd]. unfold frames. cbn [map concat]. rewrite app_nil_r. reflexivity.
Qed.
(** It does not work with this library's own node, which answers every service with the
    name of the identify protocol (C116_show_refuted). *)
Theorem C140_quinn_own_node_refuted c src rest : carries src (frames [ascii_bytes "/multistream/1.0.0" ++ [10]; ascii_bytes "/ipfs/id/1.0.0" ++ [10]] ++ rest) ->
  fst (fst (snd (quinn_said sha256 blake2b256 quote utf8 io (c, Some src)))) = Some (Err (NIo InvalidData)) /\
  fst (quinn_said sha256 blake2b256 quote utf8 io (c, Some src)) = concat (firstn 2 (quinn_lines c)).
Proof.
  intros [C E]. unfold frames at 1 in E. cbn [map concat] in E. rewrite app_nil_r, <- app_assoc in E.
  assert (R0 : quinn_said sha256 blake2b256 quote utf8 io (c, Some src) = quinn_said sha256 blake2b256 quote utf8 io (c, Some src)) by reflexivity.
  unfold quinn_said at 2, multistream_handshake, negotiate in R0. unfold multistream_select at 1 in R0. unfold read_message in R0.
  destruct (read_opt_message None src) as [[r l] s] eqn:R. apply none_spec in R; [|exact C]. destruct R as (r0 & -> & -> & C' & _ & R).
  change (ascii_bytes "/multistream/1.0.0" ++ [10]) with multistream_header in *. change (ascii_bytes "/ipfs/id/1.0.0" ++ [10]) with id_protocol in *.
  rewrite E, flat_write in R by reflexivity. assert (r0 = Ok (Some multistream_header)) as -> by congruence. assert (Es : bytes_of s = write_message id_protocol ++ rest) by congruence.
  cbn [option_map or_eof] in R0. rewrite bytes_eqb_refl in R0. unfold multistream_select in R0. unfold read_message in R0.
  destruct (read_opt_message None s) as [[r l2] s3] eqn:R2. apply none_spec in R2; [|exact C']. destruct R2 as (r0 & -> & -> & C3 & _ & R2).
  rewrite Es, flat_write in R2 by reflexivity. assert (r0 = Ok (Some id_protocol)) as -> by congruence.
  cbn [option_map or_eof] in R0. change (bytes_eqb id_protocol bitswap_protocol) with false in R0. change (bytes_eqb id_protocol na) with false in R0. cbv zeta in R0.
  rewrite R0. cbn [fst snd]. split; [reflexivity|]. cbn [quinn_lines firstn concat app]. rewrite ?app_nil_r, <- ?app_assoc. reflexivity.
Qed.
End Quinn.
Print Assumptions C140_quinn_is_show.
Print Assumptions C140_quinn_no_connection.
Print Assumptions C140_quinn_lines.
Print Assumptions C140_quinn_asks.
Print Assumptions C140_quinn_own_node_refuted.
(** The certificate of the peer is written to a file and accepted, whatever it is. *)
Theorem C140_any_server_refuted written name certificate : verify_said written name certificate =
  ([Out (text_of [match written with None => fill "Wrote temp-server-certificate.der" [] | Some e => fill "Error writing temp-server-certificate.der: {}" [e] end]);
    Out (text_of [fill "Skipping verification for {}" [name]])], true).
Proof. unfold verify_said, tell, say, text_of. destruct written; cbn; rewrite ?app_nil_r; reflexivity. Qed.
Print Assumptions C140_any_server_refuted.

(** A peer opens a stream, asks for an unknown service with a line end in its name, then for
    the description; a second one only closes; the text of both. *)
Definition case_requests : list item := map Byte (frames [ascii_bytes "/multistream/1.0.0" ++ [10]; ascii_bytes "a" ++ [10] ++ ascii_bytes "1: peer terminated stream normally" ++ [10]; ascii_bytes "/ipfs/id/1.0.0" ++ [10]]).
Example C140_case :
  printed (fst (serve_said (fun _ => []) (fun _ => []) (fun x => x) (fun x => x) [] (fun _ => []) (repeat 7 32) 0 case_requests)) =
    text_of [ascii_bytes "0: peer requested service: " ++ [34] ++ ascii_bytes "a\n1: peer terminated stream normally\n" ++ [34];
             ascii_bytes "0: peer requested service: " ++ [34] ++ ascii_bytes "/ipfs/id/1.0.0\n" ++ [34];
             ascii_bytes "[identify] starting"; ascii_bytes "[identify] finished"] /\
  printed (fst (serve_said (fun _ => []) (fun _ => []) (fun x => x) (fun x => x) [] (fun _ => []) (repeat 7 32) 1 (map Byte (frames [ascii_bytes "/multistream/1.0.0" ++ [10]])))) =
    text_of [ascii_bytes "1: peer terminated stream normally"] /\
  complained (fst (serve_said (fun _ => []) (fun _ => []) (fun x => x) (fun x => x) [] (fun _ => ascii_bytes "eof") (repeat 7 32) 2 (map Byte [5; 1]))) = text_of [ascii_bytes "2: Handler error: eof"] /\
  printed (fst (accept_said (fun _ => []) 0 [AStream case_requests; AStream []; ANoMore])) =
    text_of [ascii_bytes "0: accept_loop(): new connection"; ascii_bytes "1: accept_loop(): new connection"; ascii_bytes "2: accept_loop(): no more connections (underlying transport closed)"].
Proof. repeat split; vm_compute; reflexivity. Qed.
