(** The session of the torrent client with a peer, decided exactly by the peer's bytes: C146. *)
From Coq Require Import String Ascii.
From Verif Require Import Base BaseProofs TorrentModel PeerModel PeerProps.
Local Open Scope string_scope. Local Open Scope list_scope. Local Open Scope N_scope.
Ltac Zify.zify_post_hook ::= Z.div_mod_to_equations.

(** *** Specification: every stream of bytes, read as a session *)
(** A message of a fixed size that has another size. *)
Definition wrong_size (id : N) (body : bytes) : Prop := id < 4 /\ body <> [] \/ id = 4 /\ length body <> 4%nat.
(** What follows the handshake: messages, and then the part of a message at which the peer closed,
    or a message that ends the session. *)
Inductive talk (pieces : nat) : bytes -> list message -> ending -> Prop :=
| talk_message m w rest ms e : wire m = Some w -> sendable pieces m -> talk pieces rest ms e -> talk pieces (w ++ rest) (m :: ms) e
| talk_closed tail : incomplete tail -> talk pieces tail [] (EndLoop None)
| talk_crash id body rest : crashes id body = true -> blen body + 1 < two32 -> talk pieces (frame id body ++ rest) [] EndPanic
| talk_unknown id body rest : 9 < id -> blen body + 1 < two32 -> talk pieces (frame id body ++ rest) [] (EndLoop (Some (UnknownMessage id)))
| talk_size id body rest : wrong_size id body -> blen body + 1 < two32 -> talk pieces (frame id body ++ rest) [] (EndLoop (Some (IncorrectMessageLength id (blen body))))
| talk_bitfield d rest : length d <> ((pieces + 7) / 8)%nat -> blen d + 1 < two32 ->
    talk pieces (frame 5 d ++ rest) [MBitField d] (EndHandler (HProtocol (IncorrectMessageLength 5 (blen d)))).
Inductive session (pieces : nat) : bytes -> list message -> ending -> Prop :=
| session_short d : (length d < 68)%nat -> session pieces d [] (EndLoop None)
| session_other d : (68 <= length d)%nat -> (forall rest, d <> handshake_magic ++ rest) -> session pieces d [] (EndLoop (Some InvalidHandshake))
| session_talk h rest ms e : length (hs_reserved h) = 8%nat -> length (hs_info_hash h) = 20%nat -> length (hs_peer_id h) = 20%nat ->
    talk pieces rest ms e -> session pieces (wire_handshake h ++ rest) (MHandshake h :: ms) e.

(** *** Proofs *)
Lemma four d : bytes_ok d -> (4 <= length d)%nat -> d = be_bytes 4 (of_be_bytes (firstn 4 d)) ++ skipn 4 d /\ of_be_bytes (firstn 4 d) < two32.
Proof.
  intros B L. destruct d as [|b0 [|b1 [|b2 [|b3 d]]]]; cbn [length] in L; try lia. cbn [firstn skipn].
  assert (B4 : bytes_ok [b0; b1; b2; b3]) by (do 4 (apply Forall_cons_iff in B; destruct B as [? B]); repeat constructor; assumption).
  split; [|exact (of_be_bytes_lt _ B4)]. pose proof (be_of_be_bytes _ B4) as E. cbn [length] in E. rewrite E. reflexivity.
Qed.
Lemma next_cases c : cn_handshake c = true -> bytes_ok (cn_incoming c) ->
  (get_next_message c = (Pending, c) /\ incomplete (cn_incoming c)) \/
  (exists rest, cn_incoming c = be_bytes 4 0 ++ rest /\ get_next_message c = (Ready (Ok MKeepAlive), with_incoming c rest true)) \/
  (exists id body rest, cn_incoming c = frame id body ++ rest /\ blen body + 1 < two32 /\ get_next_message c = (Ready (parse_message id body), with_incoming c rest true)).
Proof.
  intros H B. unfold get_next_message. rewrite H. cbn [negb]. set (d := cn_incoming c) in *.
  destruct (length d <? 4)%nat eqn:E1; [left; split; [reflexivity|left; lia]|].
  destruct (four d B ltac:(lia)) as [F4 L4]. set (n := of_be_bytes (firstn 4 d)) in *.
  destruct (n =? 0) eqn:E0; [right; left; exists (skipn 4 d); split; [replace 0 with n by lia; exact F4|reflexivity]|].
  destruct (length d <? 5)%nat eqn:E2; [left; split; [reflexivity|right; fold n; unfold blen; lia]|].
  destruct (blen d <? 4 + n) eqn:E3; [left; split; [reflexivity|right; fold n; lia]|].
  right. right. set (k := N.to_nat (n - 1)). exists (nth 4 d 0), (firstn k (skipn 5 d)), (skipn k (skipn 5 d)).
  assert (Lk : length (firstn k (skipn 5 d)) = k) by (rewrite firstn_length, skipn_length; unfold blen in E3; lia).
  split; [|split; [unfold blen; rewrite Lk; lia|reflexivity]].
  unfold frame, framed. rewrite blen_cons. unfold blen. rewrite Lk. replace (1 + N.of_nat k) with n by lia.
  rewrite <- app_assoc. cbn [app]. rewrite firstn_skipn. rewrite F4 at 1. f_equal.
  destruct d as [|b0 [|b1 [|b2 [|b3 [|b4 d]]]]]; cbn [length] in E2; try lia. reflexivity.
Qed.
Lemma frame_ok id body rest : bytes_ok (frame id body ++ rest) -> bytes_ok body /\ bytes_ok rest.
Proof. unfold frame, framed. intros B. apply bytes_ok_app in B. destruct B as [B R]. apply bytes_ok_app in B. destruct B as [_ B]. apply Forall_cons_iff in B. split; [apply B|exact R]. Qed.
Lemma parse_exact id body : bytes_ok body -> blen body + 1 < two32 ->
  match parse_message id body with
  | Ok m => wire m = Some (frame id body) /\ (m = MBitField body /\ id = 5 \/ forall n, sendable n m)
  | Err (UnknownMessage i) => i = id /\ 9 < id
  | Err (IncorrectMessageLength i n) => i = id /\ n = blen body /\ wrong_size id body
  | Err InvalidHandshake => False
  | Panic => crashes id body = true
  end.
Proof.
  intros B L. destruct (parse_message id body) as [m|e|] eqn:P; [| |apply parse_panic; exact P].
  - unfold parse_message, check_message_len in P.
    repeat match type of P with context [if id =? ?k then _ else _] => destruct (N.eqb_spec id k); [subst id|] end; try discriminate P.
    all: try (destruct (Nat.eqb_spec (length body) 0) as [Z|]; cbn [bind] in P; [|discriminate P]; injection P as <-; apply length_zero_iff_nil in Z; subst body; split; [reflexivity|right; intros ?; exact I]).
    + destruct (Nat.eqb_spec (length body) 4) as [Z|]; cbn [bind] in P; [|discriminate P]. injection P as <-.
      destruct (four body B ltac:(lia)) as [F4 L4]. rewrite (firstn_all2 body) in * by lia. rewrite (skipn_all2 body) in F4 by lia. rewrite app_nil_r in F4.
      cbn [wire sendable]. rewrite <- F4. split; [reflexivity|right; intros ?; exact L4].
    + injection P as <-. split; [reflexivity|left; auto].
    + destruct (length body <? 4)%nat eqn:E1; [discriminate P|]. destruct (length (skipn 4 body) <? 4)%nat eqn:E2; [discriminate P|]. assert (m = MPiece (of_be_bytes (firstn 4 body)) (of_be_bytes (firstn 4 (skipn 4 body))) (skipn 4 (skipn 4 body))) as -> by congruence.
      destruct (four body B ltac:(lia)) as [F4 L4]. destruct (four (skipn 4 body) (bytes_ok_skipn _ _ B) ltac:(lia)) as [G4 M4].
      cbn [wire sendable]. rewrite <- G4, <- F4. split; [reflexivity|]. right. intros ?. split; [exact L4|]. split; [exact M4|]. unfold blen in *. rewrite !skipn_length in *. lia.
  - unfold parse_message, check_message_len in P.
    repeat match type of P with context [if id =? ?k then _ else _] => destruct (N.eqb_spec id k); [subst id|] end; try discriminate P.
    all: try (destruct (Nat.eqb_spec (length body) 0) as [Z|Z]; cbn [bind] in P; [discriminate P|]; injection P as <-; split; [reflexivity|]; split; [reflexivity|]; left; split; [reflexivity|intros ->; apply Z; reflexivity]).
    + destruct (Nat.eqb_spec (length body) 4) as [Z|Z]; cbn [bind] in P; [discriminate P|]. injection P as <-. split; [reflexivity|]. split; [reflexivity|]. right. split; [reflexivity|exact Z].
    + destruct (length body <? 4)%nat; [discriminate P|]. destruct (length (skipn 4 body) <? 4)%nat; discriminate P.
    + injection P as <-. split; [reflexivity|lia].
Qed.
Lemma run_talk fuel : forall x c d, holding c d -> bytes_ok d -> (length d + 3 <= fuel)%nat ->
  let r := receive_loop fuel x c [] in talk (length (t_pieces (tr_torrent x))) d (o_messages r) (o_ending r).
Proof.
  induction fuel as [|fuel IH]; intros x c d H B L; [lia|]. pose proof H as (E & Hh & Hd & Hf & He & H1). cbn [receive_loop]. rewrite Hd, Hf. cbn [orb]. subst d.
  destruct (next_cases c Hh B) as [[G Inc]|[(rest & E & G)|(id & body & rest & E & Lb & G)]]; rewrite G.
  - destruct fuel as [|fuel]; [lia|]. cbn [receive_loop recv_more_data cn_done cn_finished cn_error]. rewrite Hd, He. cbn [orb finish o_messages o_ending]. apply talk_closed, Inc.
  - cbn [handle_message prepend o_messages o_ending app]. rewrite E. apply talk_message; [reflexivity|exact I|]. apply IH.
    + unfold holding, with_incoming. cbn. auto 10.
    + rewrite E in B. apply bytes_ok_app in B. apply B.
    + rewrite E, app_length, be4_len in L. lia.
  - rewrite E in B. destruct (frame_ok _ _ _ B) as [B1 B2]. pose proof (parse_exact id body B1 Lb) as P. rewrite E.
    destruct (parse_message id body) as [m|[i n|i|]|].
    + destruct P as [W P].
      assert (C : sendable (length (t_pieces (tr_torrent x))) m \/ m = MBitField body /\ id = 5 /\ length body <> ((length (t_pieces (tr_torrent x)) + 7) / 8)%nat).
      { destruct P as [[-> ->]|P]; [|left; apply P]. destruct (Nat.eq_dec (length body) ((length (t_pieces (tr_torrent x)) + 7) / 8)) as [Q|Q]; [left; split; assumption|right; auto]. }
      destruct C as [C|(-> & -> & C)].
      * destruct (handle_sendable x (with_incoming c rest true) m rest) as (x' & c' & out & Hm & Hc & Ht); [unfold holding, with_incoming; cbn; auto 10|exact C|].
        rewrite Hm. cbn [prepend o_messages o_ending]. apply talk_message; [exact W|exact C|]. rewrite <- Ht. apply IH; [exact Hc|exact B2|].
        rewrite E in L. unfold frame, framed in L. rewrite !app_length, be4_len in L. lia.
      * cbn [handle_message with_incoming cn_first]. rewrite H1. unfold check_message_len. replace (length body =? _)%nat with false by (symmetry; apply Nat.eqb_neq; exact C).
        cbn [map_err bind prepend finish o_messages o_ending]. apply talk_bitfield; assumption.
    + destruct P as (-> & -> & P). destruct fuel as [|fuel]; [lia|]. cbn [receive_loop report_violation cn_done orb finish o_messages o_ending cn_error]. apply talk_size; assumption.
    + destruct P as (-> & P). destruct fuel as [|fuel]; [lia|]. cbn [receive_loop report_violation cn_done orb finish o_messages o_ending cn_error]. apply talk_unknown; assumption.
    + contradiction.
    + cbn [finish o_messages o_ending]. apply talk_crash; assumption.
Qed.
Lemma talk_run pieces d ms e : talk pieces d ms e -> forall fuel x c, pieces = length (t_pieces (tr_torrent x)) -> holding c d -> (length d + 3 <= fuel)%nat ->
  let r := receive_loop fuel x c [] in o_messages r = ms /\ o_ending r = e.
Proof.
  intros T. induction T as [m w rest ms e W S T IH|tail Inc|id body rest Cr Lb|id body rest U Lb|id body rest Z Lb|d rest Z Lb]; intros fuel x c Hp H L; subst pieces;
    destruct fuel as [|fuel]; try lia; cbn [receive_loop]; pose proof H as (E & Hh & Hd & Hf & He & H1); rewrite Hd, Hf; cbn [orb].
  - destruct (next_wire _ c m w rest W S H) as (c1 & G & Hc). destruct (handle_sendable x c1 m rest Hc S) as (x' & c2 & out & Hm & H2 & Ht). rewrite G, Hm.
    pose proof (next_consumes c m c1 G) as (C1 & _). destruct Hc as (I1 & _). rewrite E, I1 in C1. cbn [prepend o_messages o_ending].
    destruct (IH fuel x' c2) as [I2 I3]; [rewrite Ht; reflexivity|exact H2|lia|]. split; [f_equal; exact I2|exact I3].
  - rewrite (incomplete_pending c tail H Inc). destruct fuel as [|fuel]; [lia|]. cbn [receive_loop recv_more_data cn_done cn_finished cn_error]. rewrite Hd, He. auto.
  - destruct (next_frame c id body rest H Lb) as (c1 & G & _). apply parse_panic in Cr. rewrite G, Cr. auto.
  - destruct (next_frame c id body rest H Lb) as (c1 & G & _). rewrite G. destruct fuel as [|fuel]; [lia|].
    assert (P : parse_message id body = Err (UnknownMessage id)). { unfold parse_message. repeat match goal with |- context [if id =? ?k then _ else _] => replace (id =? k) with false by lia end. reflexivity. }
    rewrite P. cbn [receive_loop report_violation cn_done orb finish o_messages o_ending cn_error]. auto.
  - destruct (next_frame c id body rest H Lb) as (c1 & G & _). rewrite G. destruct fuel as [|fuel]; [lia|].
    assert (P : parse_message id body = Err (IncorrectMessageLength id (blen body))).
    { destruct Z as [[Z NE]|[-> Z]].
      - assert (K : check_message_len id body 0 = Err (IncorrectMessageLength id (blen body))) by (unfold check_message_len; destruct body; [congruence|reflexivity]).
        unfold parse_message. destruct (id =? 0) eqn:Z0; [rewrite K; reflexivity|]. destruct (id =? 1) eqn:Z1; [rewrite K; reflexivity|]. destruct (id =? 2) eqn:Z2; [rewrite K; reflexivity|].
        replace (id =? 3) with true by lia. rewrite K. reflexivity.
      - unfold parse_message, check_message_len. cbn [N.eqb Pos.eqb]. replace (length body =? 4)%nat with false by (symmetry; apply Nat.eqb_neq; exact Z). reflexivity. }
    rewrite P. cbn [receive_loop report_violation cn_done orb finish o_messages o_ending cn_error]. auto.
  - destruct (next_frame c 5 d rest H Lb) as (c1 & G & Hc). rewrite G. change (parse_message 5 d) with (@Ok protocol_error message (MBitField d)). cbv iota.
    destruct Hc as (_ & _ & _ & _ & _ & F1). cbn [handle_message]. rewrite F1. unfold check_message_len. replace (length d =? _)%nat with false by (symmetry; apply Nat.eqb_neq; exact Z).
    cbn [map_err bind prepend finish o_messages o_ending]. auto.
Qed.

Lemma magic_starts d : (20 <= length d)%nat -> bytes_eqb (firstn 20 d) handshake_magic = true <-> exists rest, d = handshake_magic ++ rest.
Proof.
  intros L. rewrite bytes_eqb_eq. split.
  - intros E. exists (skipn 20 d). rewrite <- E. symmetry. apply firstn_skipn.
  - intros (rest & ->). change 20%nat with (length handshake_magic). apply firstn_app_length.
Qed.
Lemma handshake_parts d : (68 <= length d)%nat -> firstn 20 d = handshake_magic ->
  d = wire_handshake {| hs_reserved := firstn 8 (skipn 20 d); hs_info_hash := firstn 20 (skipn 28 d); hs_peer_id := firstn 20 (skipn 48 d) |} ++ skipn 68 d.
Proof.
  intros L E. unfold wire_handshake. cbn [hs_reserved hs_info_hash hs_peer_id]. rewrite <- E, <- !app_assoc.
  rewrite <- (firstn_skipn 20 d) at 1. f_equal. rewrite <- (firstn_skipn 8 (skipn 20 d)) at 1. f_equal. rewrite skipn_skipn'. change (20 + 8)%nat with 28%nat.
  rewrite <- (firstn_skipn 20 (skipn 28 d)) at 1. f_equal. rewrite skipn_skipn'. change (28 + 20)%nat with 48%nat.
  rewrite <- (firstn_skipn 20 (skipn 48 d)) at 1. f_equal. rewrite skipn_skipn'. reflexivity.
Qed.
Lemma peer_joined x reads : Forall (fun r => r <> []) reads -> do_peer x reads = receive_loop (length (concat reads) + 4) x (with_incoming (conn_new (length (t_pieces (tr_torrent x)))) (concat reads) false) [].
Proof. intros NE. unfold do_peer. rewrite (loop_join _ (length (concat reads) + 4)%nat) by (auto; cbn; unfold rounds; lia). reflexivity. Qed.
Lemma loop_pending fuel x c : (2 <= fuel)%nat -> cn_done c = false -> cn_finished c = false -> get_next_message c = (Pending, c) -> receive_loop fuel x c [] = finish x (EndLoop (cn_error c)).
Proof. intros L D F G. destruct fuel as [|[|fuel]]; [lia|lia|]. cbn [receive_loop]. rewrite D, F, G. cbn [orb recv_more_data cn_done cn_finished cn_error]. rewrite D. reflexivity. Qed.
Lemma loop_error fuel x c c' e : (2 <= fuel)%nat -> cn_done c = false -> cn_finished c = false -> get_next_message c = (Ready (Err e), c') -> receive_loop fuel x c [] = finish x (EndLoop (Some e)).
Proof. intros L D F G. destruct fuel as [|[|fuel]]; [lia|lia|]. cbn [receive_loop]. rewrite D, F, G. reflexivity. Qed.
Lemma loop_message fuel x c c' m x2 c2 out : cn_done c = false -> cn_finished c = false -> get_next_message c = (Ready (Ok m), c') -> handle_message x c' m = Ok (x2, c2, out) ->
  receive_loop (Datatypes.S fuel) x c [] = prepend m out (receive_loop fuel x2 c2 []).
Proof. intros D F G H. cbn [receive_loop]. rewrite D, F, G, H. reflexivity. Qed.
Definition start (n : nat) (d : bytes) : conn := with_incoming (conn_new n) d false.
Lemma next_start n d : get_next_message (start n d) =
  if (length d <? 68)%nat then (Pending, start n d)
  else if negb (bytes_eqb (firstn 20 d) handshake_magic) then (Ready (Err InvalidHandshake), start n d)
  else (Ready (Ok (MHandshake {| hs_reserved := firstn 8 (skipn 20 d); hs_info_hash := firstn 20 (skipn 28 d); hs_peer_id := firstn 20 (skipn 48 d) |})), with_incoming (conn_new n) (skipn 68 d) true).
Proof. reflexivity. Qed.
Lemma start_held n d : holding (with_incoming (conn_new n) d true) d.
Proof. unfold holding, with_incoming. cbn. auto 10. Qed.
(** Messages and end of a session are exactly what the peer's bytes say, whatever the reads: every
    stream of bytes is a session in one way, and the client takes it in that way. *)
Theorem C146_exact : forall x reads ms e, bytes_ok (concat reads) -> Forall (fun r => r <> []) reads ->
  o_messages (do_peer x reads) = ms /\ o_ending (do_peer x reads) = e <-> session (length (t_pieces (tr_torrent x))) (concat reads) ms e.
Proof.
  intros x reads ms e B NE. rewrite (peer_joined x reads NE). generalize dependent (concat reads). clear reads NE. intros d B. set (n := length (t_pieces (tr_torrent x))). fold (start n d).
  replace (length d + 4)%nat with (Datatypes.S (length d + 3)) by lia. split.
  - intros [<- <-]. destruct (length d <? 68)%nat eqn:E1.
    { rewrite loop_pending; [apply session_short; lia|lia|reflexivity|reflexivity|rewrite next_start, E1; reflexivity]. }
    destruct (bytes_eqb (firstn 20 d) handshake_magic) eqn:M.
    + erewrite loop_message; [|reflexivity|reflexivity|rewrite next_start, E1, M; reflexivity|reflexivity]. cbn [prepend o_messages o_ending].
      apply bytes_eqb_eq in M. rewrite (handshake_parts d) at 1 by (assumption || lia).
      apply session_talk; cbn [hs_reserved hs_info_hash hs_peer_id]; [rewrite firstn_length, skipn_length; lia..|].
      apply run_talk; [apply start_held|apply bytes_ok_skipn, B|rewrite skipn_length; lia].
    + erewrite loop_error; [|lia|reflexivity|reflexivity|rewrite next_start, E1, M; reflexivity]. apply session_other; [lia|].
      intros rest E. assert (bytes_eqb (firstn 20 d) handshake_magic = true) by (apply magic_starts; [lia|eauto]). congruence.
  - intros S. destruct S as [d L|d L N|h rest ms e L1 L2 L3 T].
    + rewrite loop_pending; [split; reflexivity|lia|reflexivity|reflexivity|rewrite next_start; replace (length d <? 68)%nat with true by lia; reflexivity].
    + destruct (bytes_eqb (firstn 20 d) handshake_magic) eqn:M; [apply magic_starts in M; [destruct M as (rest & M); destruct (N rest M)|lia]|].
      erewrite loop_error; [split; reflexivity|lia|reflexivity|reflexivity|rewrite next_start, M; replace (length d <? 68)%nat with false by lia; reflexivity].
    + erewrite loop_message; [|reflexivity|reflexivity|exact (next_handshake (conn_new n) h rest eq_refl eq_refl L1 L2 L3)|reflexivity]. cbn [prepend o_messages o_ending].
      destruct (talk_run _ _ _ _ T (length (wire_handshake h ++ rest) + 3) x _ eq_refl (start_held n rest)) as [T1 T2]; [rewrite app_length; lia|]. split; [f_equal; exact T1|exact T2].
Qed.
Print Assumptions C146_exact.
(** So every stream is a session, in exactly one way. *)
Theorem C146_one_reading : forall pieces d, bytes_ok d -> exists ms e, session pieces d ms e /\ forall ms' e', session pieces d ms' e' -> ms' = ms /\ e' = e.
Proof.
  intros pieces d B.
  set (x := {| tr_torrent := {| t_info_hash := []; t_name := []; t_piece_length := 0; t_total_length := 0; t_files := []; t_tracker_groups := []; t_pieces := repeat [] pieces |}; tr_pending := []; tr_active := []; tr_completed := [] |}).
  assert (L : length (t_pieces (tr_torrent x)) = pieces) by apply repeat_length.
  set (reads := match d with [] => [] | _ => [d] end).
  assert (C : concat reads = d) by (unfold reads; destruct d; [reflexivity|cbn [concat]; apply app_nil_r]).
  assert (NE : Forall (fun r => r <> []) reads) by (unfold reads; destruct d; repeat constructor; discriminate).
  pose proof (fun ms e => C146_exact x reads ms e ltac:(rewrite C; exact B) NE) as K. rewrite C, L in K.
  exists (o_messages (do_peer x reads)), (o_ending (do_peer x reads)). split; [apply K; auto|]. intros ms' e' S. apply K in S. destruct S as [-> ->]. auto.
Qed.
Print Assumptions C146_one_reading.
(** The client panics exactly on these streams. *)
Theorem C146_crash_exact : forall x reads, bytes_ok (concat reads) -> Forall (fun r => r <> []) reads ->
  o_ending (do_peer x reads) = EndPanic <->
  exists h ms ws id body rest, length (hs_reserved h) = 8%nat /\ length (hs_info_hash h) = 20%nat /\ length (hs_peer_id h) = 20%nat /\
    Forall2 (fun m w => wire m = Some w /\ sendable (length (t_pieces (tr_torrent x))) m) ms ws /\ crashes id body = true /\ blen body + 1 < two32 /\
    concat reads = wire_handshake h ++ concat ws ++ frame id body ++ rest.
Proof.
  intros x reads B NE. split.
  - intros E. pose proof (proj1 (C146_exact x reads _ _ B NE) (conj eq_refl eq_refl)) as S. rewrite E in S.
    inversion S as [| |h rest ms e L1 L2 L3 T E1 E2 E3]. subst e. clear S E2. exists h.
    assert (K : forall d ms e, talk (length (t_pieces (tr_torrent x))) d ms e -> e = EndPanic -> exists ms ws id body rest,
      Forall2 (fun m w => wire m = Some w /\ sendable (length (t_pieces (tr_torrent x))) m) ms ws /\ crashes id body = true /\ blen body + 1 < two32 /\ d = concat ws ++ frame id body ++ rest).
    { clear. intros d ms e T. induction T as [m w rest ms e W S T IH| |id body rest Cr Lb| | |]; intros E; try discriminate E.
      - destruct (IH E) as (ms' & ws & id & body & r & F & Cr & Lb & ->). exists (m :: ms'), (w :: ws), id, body, r. split; [constructor; auto|]. do 2 (split; [assumption|]). cbn [concat]. apply app_assoc.
      - exists [], [], id, body, rest. split; [constructor|]. do 2 (split; [assumption|]). reflexivity. }
    destruct (K _ _ _ T eq_refl) as (ms' & ws & id & body & r & F & Cr & Lb & ->). exists ms', ws, id, body, r. do 6 (split; [assumption|]). reflexivity.
  - intros (h & ms & ws & id & body & rest & L1 & L2 & L3 & F & Cr & Lb & E). exact (proj1 (C74_every_such_message_crashes_refuted x h ms ws id body rest reads L1 L2 L3 F Cr Lb NE E)).
Qed.
Print Assumptions C146_crash_exact.
(** A session ends without an error exactly when the peer closed within its handshake, or after a
    handshake and whole messages, within a message or between two. *)
Theorem C146_no_error_exact : forall x reads, bytes_ok (concat reads) -> Forall (fun r => r <> []) reads ->
  o_ending (do_peer x reads) = EndLoop None <->
  (length (concat reads) < 68)%nat \/
  exists h ms ws tail, length (hs_reserved h) = 8%nat /\ length (hs_info_hash h) = 20%nat /\ length (hs_peer_id h) = 20%nat /\
    Forall2 (fun m w => wire m = Some w /\ sendable (length (t_pieces (tr_torrent x))) m) ms ws /\ incomplete tail /\ concat reads = wire_handshake h ++ concat ws ++ tail.
Proof.
  intros x reads B NE. split.
  - intros E. pose proof (proj1 (C146_exact x reads _ _ B NE) (conj eq_refl eq_refl)) as S. rewrite E in S.
    inversion S as [d L E1 E2 E3| |h rest ms e L1 L2 L3 T E1 E2 E3]; [left; exact L|]. right. subst e. clear S E2. exists h.
    assert (K : forall d ms e, talk (length (t_pieces (tr_torrent x))) d ms e -> e = EndLoop None -> exists ms ws tail,
      Forall2 (fun m w => wire m = Some w /\ sendable (length (t_pieces (tr_torrent x))) m) ms ws /\ incomplete tail /\ d = concat ws ++ tail).
    { clear. intros d ms e T. induction T as [m w rest ms e W S T IH|tail Inc| | | |]; intros E; try discriminate E.
      - destruct (IH E) as (ms' & ws & tail & F & Inc & ->). exists (m :: ms'), (w :: ws), tail. split; [constructor; auto|]. split; [assumption|]. cbn [concat]. apply app_assoc.
      - exists [], [], tail. split; [constructor|]. split; [assumption|]. reflexivity. }
    destruct (K _ _ _ T eq_refl) as (ms' & ws & tail & F & Inc & ->). exists ms', ws, tail. do 5 (split; [assumption|]). reflexivity.
  - intros [L|(h & ms & ws & tail & L1 & L2 & L3 & F & Inc & E)].
    + apply (C146_exact x reads [] (EndLoop None) B NE). apply session_short, L.
    + exact (proj2 (C37_messages_are_delivered x h ms ws tail reads L1 L2 L3 F Inc NE E)).
Qed.
Print Assumptions C146_no_error_exact.
(** A whole conversation that ends with a bit field of the wrong size, cut anywhere. *)
Example C146_example : forall x reads, length (t_pieces (tr_torrent x)) = 9%nat -> Forall (fun r => r <> []) reads ->
  concat reads = wire_handshake a_handshake ++ frame 4 [0; 0; 1; 2] ++ be_bytes 4 0 ++ frame 5 [255] ++ [1; 2; 3] ->
  o_messages (do_peer x reads) = [MHandshake a_handshake; MHave 258; MKeepAlive; MBitField [255]] /\ o_ending (do_peer x reads) = EndHandler (HProtocol (IncorrectMessageLength 5 1)).
Proof.
  intros x reads P NE E. apply C146_exact; [rewrite E; apply Forall_forall; intros b I; assert (A : forallb (fun b => b <? 256) (wire_handshake a_handshake ++ frame 4 [0; 0; 1; 2] ++ be_bytes 4 0 ++ frame 5 [255] ++ [1; 2; 3]) = true) by (vm_compute; reflexivity); apply (proj1 (forallb_forall _ _) A) in I; unfold byte_ok; lia|exact NE|].
  rewrite E, P. apply session_talk; [reflexivity..|]. apply talk_message; [reflexivity|reflexivity|]. apply talk_message; [reflexivity|exact I|]. apply (talk_bitfield 9 [255]); [discriminate|reflexivity].
Qed.

(** *** What the client does with the messages *)
(** Asking for more: as many of the waiting requests as make 101 unanswered ones; "not interested"
    when that took them all. *)
Definition ask (p a : list request) : list request * list request * bytes :=
  let k := Nat.min (length p) (101 - length a) in
  (skipn k p, a ++ firstn k p, concat (map (fun q => framed (request_body q)) (firstn k p)) ++ if (length a + length p <=? 100)%nat then framed [3] else []).
(** One message: the requests waiting and unanswered and the blocks kept before and after it, and
    what is sent. *)
Inductive effect (pieces : nat) : list request -> list request -> list block -> message -> list request -> list request -> list block -> bytes -> Prop :=
| effect_unchoke p a bs p' a' out : ask p a = (p', a', out) -> effect pieces p a bs MUnchoke p' a' bs out
| effect_wanted p u q v bs d p' a' out : rq_length q = blen d -> ~ In q u -> ask p (u ++ v) = (p', a', out) ->
    effect pieces p (u ++ q :: v) bs (MPiece (rq_index q) (rq_begin q) d) p' a' (bs ++ [{| bk_index := rq_index q; bk_begin := rq_begin q; bk_data := d |}]) out
| effect_unwanted p a bs i b d p' a' out : ~ In {| rq_index := i; rq_begin := b; rq_length := blen d |} a -> ask p a = (p', a', out) -> effect pieces p a bs (MPiece i b d) p' a' bs out
| effect_bitfield p a bs d : length d = ((pieces + 7) / 8)%nat -> effect pieces p a bs (MBitField d) p a bs (framed [1] ++ framed [2])
| effect_bad_bitfield p a bs d : length d <> ((pieces + 7) / 8)%nat -> effect pieces p a bs (MBitField d) p a bs []
| effect_none p a bs m : match m with MUnchoke | MPiece _ _ _ | MBitField _ => False | _ => True end -> effect pieces p a bs m p a bs [].
Inductive effects (pieces : nat) : list request -> list request -> list block -> list message -> list request -> list request -> list block -> bytes -> Prop :=
| effects_nil p a bs : effects pieces p a bs [] p a bs []
| effects_cons p a bs m p1 a1 bs1 out ms p2 a2 bs2 out2 : effect pieces p a bs m p1 a1 bs1 out -> effects pieces p1 a1 bs1 ms p2 a2 bs2 out2 -> effects pieces p a bs (m :: ms) p2 a2 bs2 (out ++ out2).

Lemma ask_more fuel : forall x, (102 - length (tr_active x) <= fuel)%nat -> (1 <= fuel)%nat ->
  let (x', out) := more_requests fuel x in (tr_pending x', tr_active x', out) = ask (tr_pending x) (tr_active x) /\ tr_completed x' = tr_completed x /\ tr_torrent x' = tr_torrent x.
Proof.
  induction fuel as [|fuel IH]; intros x L F; [lia|]. cbn [more_requests]. unfold max_active_requests, ask. destruct (length (tr_active x) <=? 100)%nat eqn:A.
  - unfold start_request. destruct (tr_pending x) as [|q p] eqn:P.
    + rewrite P. cbn [length Nat.min skipn firstn map concat app]. rewrite app_nil_r, Nat.add_0_r, A. auto.
    + specialize (IH {| tr_torrent := tr_torrent x; tr_pending := p; tr_active := tr_active x ++ [q]; tr_completed := tr_completed x |}). cbn [tr_active tr_pending tr_completed tr_torrent] in IH.
      destruct (more_requests fuel _) as [x' out]. rewrite app_length in IH. cbn [length] in IH. destruct IH as (I1 & I2 & I3); [lia|lia|]. split; [|auto]. unfold ask in I1. rewrite app_length in I1. cbn [length] in *.
      replace (Nat.min (Datatypes.S (length p)) (101 - length (tr_active x))) with (Datatypes.S (Nat.min (length p) (101 - (length (tr_active x) + 1)))) by lia.
      replace (length (tr_active x) + Datatypes.S (length p))%nat with (length (tr_active x) + 1 + length p)%nat by lia. set (k := Nat.min _ _) in *.
      cbn [skipn firstn map concat]. injection I1 as -> -> ->. rewrite <- !app_assoc. reflexivity.
  - replace (101 - length (tr_active x))%nat with 0%nat by lia. rewrite Nat.min_0_r. cbn [skipn firstn map concat app]. rewrite app_nil_r. replace (length (tr_active x) + length (tr_pending x) <=? 100)%nat with false by lia. auto.
Qed.
Lemma answers_exact i b d q : answers i b d q = true <-> q = {| rq_index := i; rq_begin := b; rq_length := blen d |}.
Proof.
  unfold answers. destruct q as [qi qb ql]. cbn [rq_index rq_begin rq_length]. rewrite !andb_true_iff, !N.eqb_eq. split; [intros [[-> ->] ->]; reflexivity|]. intros E. injection E as -> -> ->. auto.
Qed.
Lemma remove_exact f q l : (forall r, f r = true <-> r = q) ->
  match remove_first f l with None => ~ In q l | Some t => exists u v, l = u ++ q :: v /\ t = u ++ v /\ ~ In q u end.
Proof.
  intros F. induction l as [|r l IH]; cbn [remove_first]; [intros []|]. destruct (f r) eqn:E.
  - apply F in E. subst r. exists [], l. auto.
  - assert (N : r <> q) by (intros ->; rewrite (proj2 (F q) eq_refl) in E; discriminate). destruct (remove_first f l) as [t|]; cbn [option_map].
    + destruct IH as (u & v & -> & -> & I). exists (r :: u), v. split; [reflexivity|]. split; [reflexivity|]. intros [C|C]; [exact (N C)|exact (I C)].
    + intros [C|C]; [exact (N C)|exact (IH C)].
Qed.
Lemma handle_effect x c m x' c' out : cn_first c = false -> handle_message x c m = Ok (x', c', out) ->
  effect (length (t_pieces (tr_torrent x))) (tr_pending x) (tr_active x) (tr_completed x) m (tr_pending x') (tr_active x') (tr_completed x') out /\ tr_torrent x' = tr_torrent x /\ cn_first c' = false.
Proof.
  intros F H. destruct m; cbn [handle_message] in H; try (injection H as <- <- <-; split; [apply effect_none; exact I|auto]).
  - pose proof (ask_more more_fuel x ltac:(unfold more_fuel, max_active_requests; lia) ltac:(unfold more_fuel; lia)) as A. destruct (more_requests more_fuel x) as [y o]. destruct A as (A1 & A2 & A3). injection H as <- <- <-.
    split; [|auto]. rewrite A2. apply effect_unchoke. symmetry. exact A1.
  - rewrite F in H. unfold check_message_len in H. destruct (Nat.eqb_spec (length data) ((length (t_pieces (tr_torrent x)) + 7) / 8)) as [E|]; [|discriminate]. cbn [map_err bind] in H. injection H as <- <- <-.
    split; [apply effect_bitfield; exact E|]. auto.
  - pose proof (ask_more more_fuel (complete_request x index begin block) ltac:(unfold more_fuel, max_active_requests; lia) ltac:(unfold more_fuel; lia)) as A. destruct (more_requests more_fuel _) as [y o]. destruct A as (A1 & A2 & A3). injection H as <- <- <-.
    rewrite A2, A3. unfold complete_request in *. pose proof (remove_exact _ _ (tr_active x) (answers_exact index begin block)) as R. destruct (remove_first _ _) as [t|]; cbn [tr_pending tr_active tr_completed tr_torrent] in *.
    + destruct R as (u & v & -> & -> & I). split; [|auto]. apply (effect_wanted _ _ u {| rq_index := index; rq_begin := begin; rq_length := blen block |} v); [reflexivity|exact I|symmetry; exact A1].
    + split; [|auto]. apply effect_unwanted; [exact R|symmetry; exact A1].
Qed.
Lemma next_first c r c' : get_next_message c = (r, c') -> cn_first c' = cn_first c.
Proof.
  unfold get_next_message. destruct (negb _); [destruct (_ <? _)%nat; [|destruct (negb _)]|destruct (_ <? _)%nat; [|destruct (_ =? 0); [|destruct (_ <? _)%nat; [|destruct (_ <? _)]]]];
    intros H; injection H as _ <-; auto.
Qed.
Lemma loop_effects fuel : forall x c reads, cn_first c = false -> let r := receive_loop fuel x c reads in
  effects (length (t_pieces (tr_torrent x))) (tr_pending x) (tr_active x) (tr_completed x) (o_messages r) (tr_pending (o_transfer r)) (tr_active (o_transfer r)) (tr_completed (o_transfer r)) (o_sent r).
Proof.
  induction fuel as [|fuel IH]; intros x c reads F; cbn [receive_loop]; [constructor|]. destruct (cn_done c || cn_finished c); [constructor|].
  destruct (get_next_message c) as [[|[m|e|]] c1] eqn:G; pose proof (next_first _ _ _ G) as N.
  - destruct reads as [|got reads]; apply IH; [exact (eq_trans N F)|]. destruct got; exact (eq_trans N F).
  - destruct (handle_message x c1 m) as [[[x' c'] out]|e|] eqn:H; [|destruct m; cbn [handle_message] in H; try discriminate H; try (destruct (more_requests _ _); discriminate H)|constructor].
    + destruct (handle_effect _ _ _ _ _ _ (eq_trans N F) H) as (E & T & F'). cbn [prepend o_messages o_transfer o_sent]. eapply effects_cons; [exact E|]. rewrite <- T. apply IH, F'.
    + rewrite N, F in H. unfold check_message_len in H. destruct (Nat.eqb_spec (length data) ((length (t_pieces (tr_torrent x)) + 7) / 8)) as [|E]; [discriminate|].
      cbn [prepend finish o_messages o_transfer o_sent]. eapply effects_cons; [apply effect_bad_bitfield; exact E|constructor].
  - apply IH. cbn [report_violation cn_first]. congruence.
  - constructor.
Qed.
(** What the client asked for, kept and sent in a session is exactly what its messages call for. *)
Theorem C146_effects : forall x reads, let r := do_peer x reads in
  effects (length (t_pieces (tr_torrent x))) (tr_pending x) (tr_active x) (tr_completed x) (o_messages r) (tr_pending (o_transfer r)) (tr_active (o_transfer r)) (tr_completed (o_transfer r)) (o_sent r).
Proof. intros x reads. apply loop_effects. reflexivity. Qed.
Print Assumptions C146_effects.
Lemma effect_fun n p a bs m p1 a1 bs1 o1 p2 a2 bs2 o2 : effect n p a bs m p1 a1 bs1 o1 -> effect n p a bs m p2 a2 bs2 o2 -> p1 = p2 /\ a1 = a2 /\ bs1 = bs2 /\ o1 = o2.
Proof.
  intros A B.
  assert (S : forall (q : request) u v u' v', u ++ q :: v = u' ++ q :: v' -> ~ In q u -> ~ In q u' -> u = u' /\ v = v').
  { clear. induction u as [|r u IH]; intros v u' v' E N N'; destruct u' as [|r' u']; cbn [app] in E; first [injection E as E1 E2 | injection E as E2]; subst; auto.
    - destruct N'. left. reflexivity.
    - destruct N. left. reflexivity.
    - destruct (IH v u' v' E2) as [-> ->]; [intros C; apply N; right; exact C|intros C; apply N'; right; exact C|]. auto. }
  destruct A as [p a bs p1 a1 o1 A|p u q v bs d p1 a1 o1 L N A|p a bs i b d p1 a1 o1 N A|p a bs d L|p a bs d L|p a bs m M].
  - inversion B; subst; [match goal with H : ask p a = (p2, _, _) |- _ => rewrite A in H; injection H as -> -> -> end; auto|contradiction].
  - remember (u ++ q :: v) as w eqn:W. remember (MPiece (rq_index q) (rq_begin q) d) as m eqn:M. destruct B as [p a bs p2 a2 o2 B|p u' q' v' bs d' p2 a2 o2 L' N' B|p a bs i' b' d' p2 a2 o2 N' B|p a bs d' L'|p a bs d' L'|p a bs m M']; try discriminate M.
    + injection M as M1 M2 M3. subst d'. assert (q' = q) as -> by (destruct q as [f1 f2 f3], q' as [g1 g2 g3]; cbn [rq_index rq_begin rq_length] in *; congruence).
      destruct (S q u' v' u v W N' N) as [-> ->]. rewrite A in B. injection B as -> -> ->. auto.
    + injection M as -> -> ->. exfalso. apply N'. rewrite W, <- L. apply in_or_app. right. left. destruct q; reflexivity.
    + subst m. contradiction.
  - remember (MPiece i b d) as m eqn:M. destruct B as [p a bs p2 a2 o2 B|p u' q' v' bs d' p2 a2 o2 L' N' B|p a bs i' b' d' p2 a2 o2 N' B|p a bs d' L'|p a bs d' L'|p a bs m M']; try discriminate M.
    + injection M as M1 M2 M3. subst. exfalso. apply N. rewrite <- L'. apply in_or_app. right. left. destruct q'; reflexivity.
    + injection M as -> -> ->. rewrite A in B. injection B as -> -> ->. auto.
    + subst m. contradiction.
  - inversion B; subst; try contradiction; auto.
  - inversion B; subst; try contradiction; auto.
  - destruct m; try contradiction; inversion B; subst; auto.
Qed.
Lemma effects_fun n p a bs ms p1 a1 bs1 o1 : effects n p a bs ms p1 a1 bs1 o1 -> forall p2 a2 bs2 o2, effects n p a bs ms p2 a2 bs2 o2 -> p1 = p2 /\ a1 = a2 /\ bs1 = bs2 /\ o1 = o2.
Proof.
  intros A. induction A as [p a bs|p a bs m p1 a1 bs1 out ms p2 a2 bs2 out2 E A IH]; intros q1 b1 cs1 u1 B; inversion B; subst; [auto|]. match goal with E1 : effect n p a bs m _ _ _ _, B1 : effects n _ _ _ ms q1 _ _ _ |- _ => rename E1 into E'; rename B1 into B' end.
  destruct (effect_fun _ _ _ _ _ _ _ _ _ _ _ _ _ E E') as (-> & -> & -> & ->). destruct (IH _ _ _ _ B') as (-> & -> & -> & ->). auto.
Qed.
(** ... and nothing else: the messages leave no choice, so two peers whose bytes read as the same
    messages get the same answers and leave the same blocks. *)
Theorem C146_effects_determined : forall x reads ms p a bs out, o_messages (do_peer x reads) = ms ->
  effects (length (t_pieces (tr_torrent x))) (tr_pending x) (tr_active x) (tr_completed x) ms p a bs out ->
  let r := do_peer x reads in tr_pending (o_transfer r) = p /\ tr_active (o_transfer r) = a /\ tr_completed (o_transfer r) = bs /\ o_sent r = out.
Proof. intros x reads ms p a bs out <- E. exact (effects_fun _ _ _ _ _ _ _ _ _ (C146_effects x reads) _ _ _ _ E). Qed.
Print Assumptions C146_effects_determined.
(** 120 requests waiting, an unchoke, a block nobody asked for: 101 requests are sent. *)
Example C146_ask_example : let q i := {| rq_index := i; rq_begin := 0; rq_length := 16384 |} in let p := map (fun i => q (N.of_nat i)) (seq 0 120) in
  ask p [] = (skipn 101 p, firstn 101 p, concat (map (fun q => framed (request_body q)) (firstn 101 p))) /\ ask (firstn 3 p) (firstn 98 p) = ([], firstn 98 p ++ firstn 3 p, concat (map (fun q => framed (request_body q)) (firstn 3 p))) /\
  ask (firstn 1 p) (firstn 98 p) = ([], firstn 98 p ++ firstn 1 p, framed (request_body (q 0)) ++ framed [3]).
Proof. vm_compute. auto. Qed.
