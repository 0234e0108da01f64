(** C114: downloading from a seed with bin/torrent_client.rs. *)
From Verif Require Import Base BaseProofs TorrentModel TorrentProps PeerModel PeerProps.
From Coq Require Import Permutation.
Local Open Scope string_scope. Local Open Scope list_scope. Local Open Scope N_scope.

(** ** Specification *)
(** [reads] is what the client reads from a peer that sends the handshake [h] and the
    messages [ms], cut in any way, and closes (perhaps in the middle of a message). *)
Definition talks (x : transfer) (h : handshake) (ms : list message) (reads : list bytes) : Prop :=
  length (hs_reserved h) = 8%nat /\ length (hs_info_hash h) = 20%nat /\ length (hs_peer_id h) = 20%nat /\
  Forall (fun r => r <> []) reads /\
  exists ws tail, Forall2 (fun m w => wire m = Some w /\ sendable (length (t_pieces (tr_torrent x))) m) ms ws /\
    incomplete tail /\ concat reads = wire_handshake h ++ concat ws ++ tail.
(** The request is among the messages sent; its numbers are 32-bit numbers. *)
Definition field_fits (r : request) : Prop := rq_index r < 2 ^ 32 /\ rq_begin r < 2 ^ 32 /\ rq_length r < 2 ^ 32.
Definition requested (r : request) (sent : bytes) : Prop :=
  field_fits r /\ exists bodies, Forall (fun b => blen b < 2 ^ 32) bodies /\ sent = concat (map framed bodies) /\ In (request_body r) bodies.
(** The client has sent the request by the time it has handled [ms]. *)
Definition asked (x : transfer) (h : handshake) (ms : list message) (r : request) : Prop :=
  exists reads, talks x h ms reads /\ requested r (o_sent (do_peer x reads)).
(** Every request the client sends is answered, after it was sent. *)
Definition answers_all (x : transfer) (h : handshake) (ms : list message) : Prop :=
  forall r, asked x h ms r ->
    exists ms1 ms2 d, ms = ms1 ++ ms2 /\ asked x h ms1 r /\
      In (MPiece (rq_index r) (rq_begin r) d) ms2 /\ blen d = rq_length r.
(** Every block sent is the part of the content that its numbers say. *)
Definition truthful (t : torrent) (content : bytes) (ms : list message) : Prop :=
  forall i b d, In (MPiece i b d) ms -> d = firstn (length d) (skipn (N.to_nat (t_piece_length t * i + b)) content).
(** Where a block lies in the content. *)
Definition start_of (t : torrent) (b : block) : N := t_piece_length t * bk_index b + bk_begin b.
Definition lies_over (t : torrent) (p : N) (b : block) : bool :=
  (start_of t b <=? p) && (p <? start_of t b + blen (bk_data b)).
(** The torrents that C35 is about. *)
Definition regular (t : torrent) : Prop :=
  t_piece_length t * (N.of_nat (length (t_pieces t)) - 1) <= t_total_length t /\
  t_piece_length t <= 2 ^ 32 /\ N.of_nat (length (t_pieces t)) <= 2 ^ 32.

(** ** The client as a function of the messages *)
Definition act (x : transfer) (m : message) : transfer * bytes :=
  match m with
  | MUnchoke => more_requests more_fuel x
  | MPiece i b d => more_requests more_fuel (complete_request x i b d)
  | MBitField _ => (x, queue_unchoke ++ queue_interested)
  | _ => (x, [])
  end.
Fixpoint play (x : transfer) (ms : list message) : transfer * bytes :=
  match ms with
  | [] => (x, [])
  | m :: ms => let '(x1, o1) := act x m in let '(x2, o2) := play x1 ms in (x2, o1 ++ o2)
  end.
Lemma act_handles x c m rest x' c' out : holding c rest -> handle_message x c m = Ok (x', c', out) -> act x m = (x', out).
Proof.
  intros (_ & _ & _ & _ & _ & H1). destruct m; cbn [handle_message act]; intros H;
    try (injection H as <- <- <-; reflexivity).
  - destruct (more_requests more_fuel x). injection H as <- <- <-. reflexivity.
  - rewrite H1 in H. apply bind_ok in H. destruct H as (u & _ & H). apply ok3 in H. destruct H as (<- & _ & <-). reflexivity.
  - destruct (more_requests more_fuel _). injection H as <- <- <-. reflexivity.
Qed.
Lemma loop_play ms : forall fuel x c ws tail,
  Forall2 (fun m w => wire m = Some w /\ sendable (length (t_pieces (tr_torrent x))) m) ms ws ->
  incomplete tail -> holding c (concat ws ++ tail) -> (length (concat ws ++ tail) + 3 <= fuel)%nat ->
  let r := receive_loop fuel x c [] in (o_transfer r, o_sent r) = play x ms.
Proof.
  induction ms as [|m ms IH]; intros fuel x c ws tail F2 Inc H L; inversion F2 as [|? w ? ws' [W S] F2']; subst.
  - cbn [concat app] in *. pose proof (incomplete_pending c tail H Inc) as G.
    destruct H as (I & Hh & Hd & Hf & He & H1).
    destruct fuel as [|[|fuel]]; [lia|lia|]. cbn [receive_loop]. rewrite Hd, Hf, G. cbn [orb].
    cbn [recv_more_data cn_done cn_finished cn_error]. rewrite Hd. reflexivity.
  - cbn [concat] in *. rewrite <- app_assoc in H.
    destruct (next_wire _ c m w (concat ws' ++ tail) W S H) as (c1 & G & H1).
    destruct (handle_sendable x c1 m _ H1 S) as (x' & c2 & out & E & H2 & T).
    destruct H as (I & Hh & Hd & Hf & He & Hfst).
    destruct fuel as [|fuel]; [lia|]. cbn [receive_loop]. rewrite Hd, Hf, G. cbn [orb]. rewrite E.
    pose proof (next_consumes c m c1 G) as (C1 & _).
    cbn [o_transfer o_sent prepend play]. rewrite (act_handles x c1 m _ x' c2 out H1 E).
    specialize (IH fuel x' c2 ws' tail). rewrite T in IH. rewrite <- (IH F2' Inc H2); [reflexivity|].
    rewrite I in C1. destruct H1 as (I1 & _). rewrite I1 in C1. rewrite !app_length in *. lia.
Qed.
Lemma peer_play x h ms reads : talks x h ms reads -> (o_transfer (do_peer x reads), o_sent (do_peer x reads)) = play x ms.
Proof.
  intros (L1 & L2 & L3 & NE & ws & tail & F2 & Inc & E). unfold do_peer. set (c := conn_new _).
  rewrite (loop_join (rounds reads) (length (concat reads) + 4) x c reads) by (auto; cbn; unfold rounds; lia).
  rewrite E. set (rest := concat ws ++ tail). rewrite Nat.add_succ_r. cbn [receive_loop].
  rewrite (next_handshake c h rest) by (auto; reflexivity). cbn [extend with_incoming cn_done cn_finished c conn_new orb handle_message].
  cbn [prepend o_transfer o_sent app].
  assert (H : holding (with_incoming c rest true) (concat ws ++ tail)) by (unfold holding; cbn; auto 10).
  apply (loop_play ms (length (wire_handshake h ++ rest) + 3) x (with_incoming c rest true) ws tail F2 Inc H).
  fold rest. rewrite (app_length (wire_handshake h) rest). lia.
Qed.
Lemma play_app ms1 : forall x ms2, play x (ms1 ++ ms2) =
  (fst (play (fst (play x ms1)) ms2), snd (play x ms1) ++ snd (play (fst (play x ms1)) ms2)).
Proof.
  induction ms1 as [|m ms1 IH]; intros x ms2; cbn [app play fst snd].
  - destruct (play x ms2); reflexivity.
  - destruct (act x m) as [x1 o1]. rewrite IH. destruct (play x1 ms1) as [x2 o2]. cbn [fst snd]. rewrite app_assoc. reflexivity.
Qed.
Lemma act_progress x m : progress x (fst (act x m)) [m] (snd (act x m)).
Proof.
  assert (Z : progress x x [m] []) by (apply (progress_nothing x [m] []); reflexivity).
  destruct m; cbn [act]; try exact Z.
  - exact (progress_trans x x _ [MUnchoke] [] [] _ Z (more_progress more_fuel x)).
  - cbn [fst snd]. unfold queue_unchoke, queue_interested. rewrite !queue_small by reflexivity.
    replace (framed [1] ++ framed [2]) with (concat (map framed [[1]; [2]])) by (cbn [map concat]; rewrite app_nil_r; reflexivity).
    apply progress_nothing. reflexivity.
  - exact (progress_trans x _ _ [MPiece index begin block] [] [] _ (complete_progress x index begin block) (more_progress more_fuel _)).
Qed.
Lemma play_progress ms : forall x, progress x (fst (play x ms)) ms (snd (play x ms)).
Proof.
  induction ms as [|m ms IH]; intros x; cbn [play].
  - apply (progress_nothing x [] []). reflexivity.
  - pose proof (act_progress x m) as P. destruct (act x m) as [x1 o1]. cbn [fst snd] in P. specialize (IH x1).
    destruct (play x1 ms) as [x2 o2]. cbn [fst snd] in *. exact (progress_trans _ _ _ [m] ms _ _ P IH).
Qed.

(** What is sent, with the number of requests taken. *)
Definition sends (x x' : transfer) (sent : bytes) (k : nat) (bodies : list bytes) : Prop :=
  tr_pending x' = skipn k (tr_pending x) /\ Forall (fun b => blen b < two32) bodies /\ sent = concat (map framed bodies) /\
  filter is_request_body bodies = map request_body (firstn k (tr_pending x)).
Lemma sends_trans x y z s1 s2 k1 k2 b1 b2 : sends x y s1 k1 b1 -> sends y z s2 k2 b2 -> sends x z (s1 ++ s2) (k1 + k2) (b1 ++ b2).
Proof.
  intros (K1 & B1 & S1 & F1) (K2 & B2 & S2 & F2). split; [rewrite K2, K1, skipn_skipn'; f_equal; lia|].
  split; [apply Forall_app; auto|]. split.
  - rewrite S1, S2, map_app, concat_app. reflexivity.
  - rewrite filter_app, F1, F2, K1, firstn_add, map_app. reflexivity.
Qed.
Lemma body_short r : blen (request_body r) < two32.
Proof. unfold request_body, blen. cbn [app length]. rewrite !app_length, !be_bytes_length. reflexivity. Qed.
Lemma more_sends fuel : forall x, exists k b, sends x (fst (more_requests fuel x)) (snd (more_requests fuel x)) k b.
Proof.
  induction fuel as [|fuel IH]; intros x; cbn [more_requests].
  - exists 0%nat, []. repeat split; auto.
  - destruct (length (tr_active x) <=? max_active_requests)%nat.
    + unfold start_request. destruct (tr_pending x) as [|r rest] eqn:E.
      * exists 0%nat, [[3]]. split; [reflexivity|]. split; [constructor; [reflexivity|constructor]|]. split; [reflexivity|reflexivity].
      * set (x1 := {| tr_torrent := _ |}). destruct (IH x1) as (k & b & H). destruct (more_requests fuel x1) as [x2 out]. cbn [fst snd] in *.
        exists (1 + k)%nat, ([request_body r] ++ b). apply (sends_trans x x1 x2 (queue_request r) out 1 k [request_body r] b); [|exact H].
        split; [rewrite E; reflexivity|]. split; [constructor; [apply body_short|constructor]|]. split.
        -- cbn [map concat]. rewrite app_nil_r. unfold queue_request. apply queue_small. apply body_short.
        -- rewrite E. reflexivity.
    + exists 0%nat, []. repeat split; auto.
Qed.
Lemma complete_pending x i b d : tr_pending (complete_request x i b d) = tr_pending x.
Proof. unfold complete_request. destruct (remove_first _ _); reflexivity. Qed.
Lemma act_sends x m : exists k b, sends x (fst (act x m)) (snd (act x m)) k b.
Proof.
  destruct m; cbn [act]; try (exists 0%nat, []; repeat split; auto; fail).
  - apply more_sends.
  - exists 0%nat, [[1]; [2]]. split; [reflexivity|]. split; [constructor; [reflexivity|constructor; [reflexivity|constructor]]|]. split; reflexivity.
  - destruct (more_sends more_fuel (complete_request x index begin block)) as (k & b & H). exists k, b.
    unfold sends in *. rewrite complete_pending in H. exact H.
Qed.
Lemma play_sends ms : forall x, exists k b, sends x (fst (play x ms)) (snd (play x ms)) k b.
Proof.
  induction ms as [|m ms IH]; intros x; cbn [play].
  - exists 0%nat, []. repeat split; auto.
  - destruct (act_sends x m) as (k1 & b1 & H1). destruct (act x m) as [x1 o1]. cbn [fst snd] in H1.
    destruct (IH x1) as (k2 & b2 & H2). destruct (play x1 ms) as [x2 o2]. cbn [fst snd] in *.
    exists (k1 + k2)%nat, (b1 ++ b2). eapply sends_trans; eauto.
Qed.
Lemma four_split a b (u v : bytes) : be_bytes 4 a ++ u = be_bytes 4 b ++ v -> a < two32 -> b < two32 -> a = b /\ u = v.
Proof.
  intros E A B. assert (X := f_equal (firstn 4) E). assert (Y := f_equal (skipn 4) E).
  change (be_bytes 4 a = be_bytes 4 b) in X. change (u = v) in Y.
  apply (f_equal of_be_bytes) in X. rewrite !of_be_be_bytes in X by assumption. auto.
Qed.
Lemma framed_inj b1 : forall b2, Forall (fun b => blen b < two32) b1 -> Forall (fun b => blen b < two32) b2 ->
  concat (map framed b1) = concat (map framed b2) -> b1 = b2.
Proof.
  induction b1 as [|a b1 IH]; intros b2 F1 F2 E; destruct b2 as [|c b2]; auto.
  - cbn [map concat] in E. apply (f_equal (@length N)) in E. rewrite app_length in E. unfold framed in E. rewrite app_length, be_bytes_length in E. discriminate E.
  - cbn [map concat] in E. apply (f_equal (@length N)) in E. rewrite app_length in E. unfold framed in E. rewrite app_length, be_bytes_length in E. discriminate E.
  - inversion F1 as [|? ? A1 F1']. inversion F2 as [|? ? C1 F2']. subst. cbn [map concat] in E. unfold framed in E. rewrite <- !app_assoc in E.
    apply four_split in E; auto. destruct E as [L E].
    assert (Ha : a = c /\ concat (map framed b1) = concat (map framed b2)).
    { assert (Ln : length a = length c) by (unfold blen in L; lia).
      split; [apply (f_equal (firstn (length a))) in E|apply (f_equal (skipn (length a))) in E];
        [rewrite Ln in E at 2; rewrite !firstn_app_length in E|rewrite Ln in E at 2; rewrite !skipn_app_length in E]; exact E. }
    destruct Ha as [-> Ht]. f_equal. apply IH; assumption.
Qed.
Lemma request_body_inj r q : field_fits r -> field_fits q -> request_body r = request_body q -> r = q.
Proof.
  intros (R1 & R2 & R3) (Q1 & Q2 & Q3) H. unfold request_body in H. apply app_inv_head in H.
  apply four_split in H; auto. destruct H as [E1 H]. apply four_split in H; auto. destruct H as [E2 H].
  rewrite <- (app_nil_r (be_bytes 4 (rq_length r))), <- (app_nil_r (be_bytes 4 (rq_length q))) in H. apply four_split in H; auto. destruct H as [E3 _].
  destruct r, q. cbn in *. congruence.
Qed.

(** ** The state of a transfer *)
Definition fresh (x : transfer) : Prop :=
  tr_active x = [] /\ tr_completed x = [] /\ NoDup (tr_pending x) /\ Forall field_fits (tr_pending x).
Lemma everything_fresh x : fresh x -> everything x = tr_pending x.
Proof. intros (A & B & _). unfold everything. rewrite A, B. cbn [map app]. apply app_nil_r. Qed.
Lemma fst_play_everything x ms : fresh x -> Permutation (everything (fst (play x ms))) (tr_pending x).
Proof. intros F. rewrite <- (everything_fresh x F). apply (play_progress ms x). Qed.
Lemma everything_distinct x ms : fresh x -> NoDup (everything (fst (play x ms))).
Proof. intros F. eapply Permutation_NoDup; [symmetry; apply (fst_play_everything x ms F)|]. apply F. Qed.
(** A request that was sent is active or completed. *)
Lemma sent_in_flight x ms k r : fresh x -> tr_pending (fst (play x ms)) = skipn k (tr_pending x) -> In r (firstn k (tr_pending x)) ->
  In r (tr_active (fst (play x ms))) \/ In r (map block_request (tr_completed (fst (play x ms)))).
Proof.
  intros F K I. pose proof (fst_play_everything x ms F) as P.
  assert (Ir : In r (everything (fst (play x ms)))).
  { eapply Permutation_in; [symmetry; exact P|]. rewrite <- (firstn_skipn k). apply in_or_app. auto. }
  unfold everything in Ir. apply in_app_or in Ir. destruct Ir as [Ir|Ir].
  - rewrite K in Ir. destruct F as (_ & _ & ND & _). rewrite <- (firstn_skipn k) in ND. exfalso.
    clear - ND I Ir. induction (firstn k (tr_pending x)) as [|a l IH]; [contradiction|]. cbn [app] in ND. inversion ND as [|? ? N1 N2]; subst.
    destruct I as [->|I]; [apply N1; apply in_or_app; auto|auto].
  - apply in_app_or in Ir. exact Ir.
Qed.
Lemma requested_taken x ms r k b : fresh x -> sends x (fst (play x ms)) (snd (play x ms)) k b ->
  requested r (snd (play x ms)) -> In r (firstn k (tr_pending x)).
Proof.
  intros F (K & B & S & Fl) (Fr & b' & B' & S' & I'). rewrite S in S'. apply framed_inj in S'; [|exact B|exact B']. subst b'.
  assert (X : In (request_body r) (filter is_request_body b)) by (apply filter_In; split; [exact I'|reflexivity]).
  rewrite Fl in X. apply in_map_iff in X. destruct X as (q & Eq & Iq). destruct F as (_ & _ & _ & Ff). rewrite Forall_forall in Ff.
  assert (Iq' : In q (tr_pending x)) by (rewrite <- (firstn_skipn k); apply in_or_app; auto).
  apply request_body_inj in Eq; [subst q; exact Iq|apply Ff; exact Iq'|exact Fr].
Qed.
Lemma taken_requested x ms r k b : fresh x -> sends x (fst (play x ms)) (snd (play x ms)) k b -> In r (firstn k (tr_pending x)) ->
  requested r (snd (play x ms)).
Proof.
  intros F (K & B & S & Fl) I. split.
  { destruct F as (_ & _ & _ & Ff). rewrite Forall_forall in Ff. apply Ff. rewrite <- (firstn_skipn k). apply in_or_app. auto. }
  exists b. split; [exact B|]. split; [exact S|].
  assert (X : In (request_body r) (filter is_request_body b)) by (rewrite Fl; apply in_map; exact I). apply filter_In in X. apply X.
Qed.

(** After an unchoke or a piece the client has sent as many requests as it wants to have in
    the air, or all of them. *)
Definition busy (x : transfer) : Prop := tr_pending x = [] \/ (100 < length (tr_active x))%nat.
Lemma more_busy fuel : forall x, (101 < fuel + length (tr_active x))%nat -> busy (fst (more_requests fuel x)).
Proof.
  induction fuel as [|fuel IH]; intros x L; cbn [more_requests]; [right; cbn [fst]; lia|].
  destruct (length (tr_active x) <=? max_active_requests)%nat eqn:E; [|right; cbn [fst]; unfold max_active_requests in E; lia].
  unfold start_request. destruct (tr_pending x) as [|r rest] eqn:Ep; [left; exact Ep|].
  set (x1 := {| tr_torrent := _ |}). specialize (IH x1). destruct (more_requests fuel x1) as [x2 out]. cbn [fst] in *.
  apply IH. subst x1. cbn [tr_active]. rewrite app_length. cbn [length]. lia.
Qed.
Lemma act_busy x m : busy x \/ m = MUnchoke -> busy (fst (act x m)).
Proof.
  assert (M : forall y, busy (fst (more_requests more_fuel y))) by (intros y; apply more_busy; unfold more_fuel, max_active_requests; lia).
  intros H. destruct m; cbn [act]; try (destruct H as [H|H]; [exact H|discriminate]); apply M.
Qed.
Lemma play_busy ms : forall x, busy x \/ In MUnchoke ms -> busy (fst (play x ms)).
Proof.
  induction ms as [|m ms IH]; intros x H; cbn [play]; [destruct H as [H|[]]; exact H|].
  pose proof (act_busy x m) as A. specialize (IH (fst (act x m))). destruct (act x m) as [x1 o1]. cbn [fst] in *.
  destruct (play x1 ms) as [x2 o2]. cbn [fst] in *. apply IH. destruct H as [H|[H|H]]; auto.
Qed.
(** An answer completes its request. *)
Lemma answer_completes x r d : In r (tr_active x) -> blen d = rq_length r ->
  In r (map block_request (tr_completed (fst (act x (MPiece (rq_index r) (rq_begin r) d))))).
Proof.
  intros I L. cbn [act]. set (y := complete_request x _ _ d).
  assert (Y : In r (map block_request (tr_completed y))).
  { subst y. unfold complete_request.
    assert (E : exists act, remove_first (answers (rq_index r) (rq_begin r) d) (tr_active x) = Some act).
    { clear - I L. induction (tr_active x) as [|q l IH]; [contradiction|]. cbn [remove_first].
      destruct (answers (rq_index r) (rq_begin r) d q) eqn:A; [eauto|]. destruct I as [->|I].
      - unfold answers in A. rewrite L, !N.eqb_refl in A. discriminate.
      - destruct (IH I) as (a & ->). cbn [option_map]. eauto. }
    destruct E as (a & ->). cbn [tr_completed]. rewrite map_app. apply in_or_app. right. left.
    unfold block_request. cbn [bk_index bk_begin bk_data]. rewrite L. destruct r; reflexivity. }
  pose proof (more_progress more_fuel y) as (_ & _ & _ & _ & new & N & _). rewrite N, map_app. apply in_or_app. auto.
Qed.
Lemma completed_stays x ms r : In r (map block_request (tr_completed x)) -> In r (map block_request (tr_completed (fst (play x ms)))).
Proof. intros I. destruct (play_progress ms x) as (_ & _ & _ & _ & new & N & _). rewrite N, map_app. apply in_or_app. auto. Qed.

(** ** New transfers *)
Lemma piece_fields fuel i len : forall b, Forall field_fits (piece_requests fuel i len b).
Proof.
  assert (M : forall v, v mod two32 < two32) by (intros v; apply N.mod_lt; discriminate).
  induction fuel as [|fuel IH]; intros b; cbn [piece_requests]; [constructor|]. destruct (b <? len); [|constructor].
  constructor; [|apply IH]. split; [|split]; cbn [rq_index rq_begin rq_length]; apply M.
Qed.
Lemma all_fields t n : forall i reqs, all_requests t i n = Ok reqs -> Forall field_fits reqs.
Proof.
  induction n as [|n IH]; intros i reqs H; cbn [all_requests] in H.
  - injection H as <-. constructor.
  - apply bind_ok in H. destruct H as (len & _ & H). apply bind_ok in H. destruct H as (rest & H1 & H).
    assert (reqs = piece_requests (S (piece_fuel len)) (N.of_nat i) len 0 ++ rest) as -> by congruence. apply Forall_app. split; [apply piece_fields|eauto].
Qed.
Lemma new_fresh sha1 d t x : from_bytes sha1 d = Ok t -> regular t -> transfer_new t = Ok x ->
  fresh x /\ (forall i o, length (filter (covers i o) (tr_pending x)) = if in_torrent t i o then 1%nat else 0%nat) /\
  tr_torrent x = t.
Proof.
  intros A (R1 & R2 & R3) E. destruct (C35_requests_tile_the_torrent_partial sha1 d t A R1 R2 R3) as (x' & E' & Ea & Ec & C & F).
  assert (x' = x) by congruence. subst x'. split; [|split; [exact C|]].
  - split; [exact Ea|]. split; [exact Ec|]. split.
    + apply tiles_distinct; [|exact F]. intros i o. rewrite C. destruct (in_torrent t i o); lia.
    + unfold transfer_new in E. apply bind_ok in E. destruct E as (p & E & E2). injection E2 as <-. eapply all_fields. exact E.
  - unfold transfer_new in E. apply bind_ok in E. destruct E as (p & _ & E). injection E as <-. reflexivity.
Qed.

(** ** C114 *)
Lemma peer_transfer x h ms reads : talks x h ms reads -> o_transfer (do_peer x reads) = fst (play x ms).
Proof. intros T. rewrite <- (peer_play x h ms reads T). reflexivity. Qed.
Lemma peer_sent x h ms reads : talks x h ms reads -> o_sent (do_peer x reads) = snd (play x ms).
Proof. intros T. rewrite <- (peer_play x h ms reads T). reflexivity. Qed.
Lemma nodup_parts {A} (a b c : list A) v : NoDup (a ++ b ++ c) -> (In v a -> ~ In v b /\ ~ In v c) /\ (In v b -> ~ In v c).
Proof.
  intros ND. assert (D : forall (u w : list A), NoDup (u ++ w) -> In v u -> ~ In v w).
  { intros u w N Hu Hw. induction u as [|e u IH]; [contradiction|]. cbn [app] in N. inversion N as [|? ? N1 N2]; subst.
    destruct Hu as [->|Hu]; [apply N1; apply in_or_app; auto|auto]. }
  assert (NDr : NoDup (b ++ c)) by (clear - ND; induction a; auto; inversion ND; auto).
  split.
  - intros Ha. split; intros X; apply (D _ _ ND Ha); apply in_or_app; auto.
  - apply D. exact NDr.
Qed.
Lemma active_was_sent x ms k r : fresh x -> tr_pending (fst (play x ms)) = skipn k (tr_pending x) ->
  In r (tr_active (fst (play x ms))) -> In r (firstn k (tr_pending x)) /\ In r (tr_pending x).
Proof.
  intros F K I. pose proof (fst_play_everything x ms F) as P. pose proof (everything_distinct x ms F) as ND.
  assert (Ir : In r (tr_pending x)) by (eapply Permutation_in; [exact P|]; unfold everything; apply in_or_app; right; apply in_or_app; auto).
  split; [|exact Ir]. rewrite <- (firstn_skipn k) in Ir. apply in_app_or in Ir. destruct Ir as [Ir|Ir]; [exact Ir|].
  rewrite <- K in Ir. unfold everything in ND. apply (nodup_parts _ _ _ r) in ND. destruct ND as [N1 _]. destruct (N1 Ir) as [N2 _]. contradiction.
Qed.
Lemma sent_are_completed x h ms reads k : fresh x -> talks x h ms reads -> answers_all x h ms ->
  tr_pending (fst (play x ms)) = skipn k (tr_pending x) ->
  forall r, In r (firstn k (tr_pending x)) -> requested r (snd (play x ms)) -> In r (map block_request (tr_completed (fst (play x ms)))).
Proof.
  intros F T A K r Ir Rq.
  assert (Ip : In r (tr_pending x)) by (rewrite <- (firstn_skipn k); apply in_or_app; auto).
  destruct (A r) as (ms1 & ms2 & d & E & (reads1 & T1 & R1) & I2 & L).
  { exists reads. split; [exact T|]. rewrite (peer_sent x h ms reads T). exact Rq. }
  rewrite (peer_sent x h ms1 reads1 T1) in R1.
  destruct (play_sends ms1 x) as (k1 & b1 & S1). pose proof (requested_taken x ms1 r k1 b1 F S1 R1) as I1.
  apply in_split in I2. destruct I2 as (m21 & m22 & ->).
  set (pm := MPiece (rq_index r) (rq_begin r) d) in *.
  destruct (play_sends m21 (fst (play x ms1))) as (k2 & b2 & S2).
  assert (Pm : tr_pending (fst (play x (ms1 ++ m21))) = skipn (k1 + k2) (tr_pending x)).
  { rewrite play_app. cbn [fst]. destruct S1 as (S1 & _). destruct S2 as (S2 & _). rewrite S2, S1, skipn_skipn'. f_equal; try lia. }
  assert (I12 : In r (firstn (k1 + k2) (tr_pending x))) by (rewrite firstn_add; apply in_or_app; auto).
  assert (Z : In r (map block_request (tr_completed (fst (play x ((ms1 ++ m21) ++ [pm])))))).
  { rewrite play_app. cbn [fst play]. destruct (sent_in_flight x (ms1 ++ m21) (k1 + k2) r F Pm I12) as [H|H].
    - pose proof (answer_completes (fst (play x (ms1 ++ m21))) r d H L) as X. fold pm in X.
      destruct (act (fst (play x (ms1 ++ m21))) pm) as [x1 o1]. exact X.
    - apply (completed_stays (fst (play x (ms1 ++ m21))) [pm] r) in H. cbn [play] in H.
      destruct (act (fst (play x (ms1 ++ m21))) pm) as [x1 o1]. exact H. }
  apply (completed_stays _ m22) in Z.
  replace (fst (play (fst (play x ((ms1 ++ m21) ++ [pm]))) m22)) with (fst (play x ms)) in Z; [exact Z|].
  rewrite E. replace (ms1 ++ m21 ++ pm :: m22) with (((ms1 ++ m21) ++ [pm]) ++ m22) by (rewrite <- !app_assoc; reflexivity).
  rewrite (play_app ((ms1 ++ m21) ++ [pm]) x m22). reflexivity.
Qed.
Lemma all_completed x h ms reads : fresh x -> talks x h ms reads -> In MUnchoke ms -> answers_all x h ms ->
  tr_pending (fst (play x ms)) = [] /\ tr_active (fst (play x ms)) = [].
Proof.
  intros F T U A. destruct (play_sends ms x) as (k & b & S). pose proof S as (K & _).
  assert (Na : tr_active (fst (play x ms)) = []).
  { destruct (tr_active (fst (play x ms))) as [|r l] eqn:E; [reflexivity|]. exfalso.
    assert (Ia : In r (tr_active (fst (play x ms)))) by (rewrite E; left; reflexivity).
    destruct (active_was_sent x ms k r F K Ia) as [Ik Ip].
    pose proof (sent_are_completed x h ms reads k F T A K r Ik (taken_requested x ms r k b F S Ik)) as C.
    pose proof (everything_distinct x ms F) as ND. unfold everything in ND. apply (nodup_parts _ _ _ r) in ND. destruct ND as [_ N]. exact (N Ia C). }
  split; [|exact Na]. destruct (play_busy ms x (or_intror U)) as [B|B]; [exact B|]. rewrite Na in B. cbn [length] in B. lia.
Qed.
Lemma blocks_members ms b : In b (blocks_in ms) -> In (MPiece (bk_index b) (bk_begin b) (bk_data b)) ms.
Proof.
  induction ms as [|m ms IH]; [intros []|]. destruct m; cbn [blocks_in]; intros I; try (right; apply IH; exact I).
  destruct I as [<-|I]; [left; reflexivity|right; apply IH; exact I].
Qed.
Lemma sub_in {A} (l m : list A) v : subsequence l m -> In v l -> In v m.
Proof. induction 1; intros I; [exact I| |right; auto]. destruct I as [->|I]; [left; reflexivity|right; auto]. Qed.
Lemma completed_arrived x ms b : fresh x -> In b (tr_completed (fst (play x ms))) -> In (MPiece (bk_index b) (bk_begin b) (bk_data b)) ms.
Proof.
  intros (_ & C & _) I. destruct (play_progress ms x) as (_ & _ & _ & _ & new & N & U). rewrite C in N. cbn [app] in N. rewrite N in I.
  apply blocks_members. eapply sub_in; eassumption.
Qed.
Lemma filter_map_len {A B} (f : A -> B) (p : B -> bool) (q : A -> bool) l : (forall a, In a l -> q a = p (f a)) ->
  length (filter q l) = length (filter p (map f l)).
Proof.
  induction l as [|a l IH]; intros H; [reflexivity|]. cbn [filter map]. rewrite (H a) by (left; reflexivity).
  destruct (p (f a)); cbn [length]; rewrite IH by (intros; apply H; right; assumption); reflexivity.
Qed.
Lemma filter_perm_len {A} (p : A -> bool) l m : Permutation l m -> length (filter p l) = length (filter p m).
Proof.
  induction 1; cbn [filter]; auto.
  - destruct (p x); cbn [length]; congruence.
  - destruct (p x), (p y); reflexivity.
  - congruence.
Qed.

Lemma part_nth {A} (l : list A) s n k : (k < n)%nat -> nth_error (firstn n (skipn s l)) k = nth_error l (s + k).
Proof.
  revert l. induction s as [|s IH]; intros l L; cbn [skipn Nat.add].
  - revert l n L. induction k as [|k IHk]; intros l n L; (destruct n as [|n]; [lia|]); destruct l as [|a l]; cbn [firstn nth_error]; auto. apply IHk. lia.
  - destruct l as [|a l]; [destruct k, n; reflexivity|]. cbn [nth_error]. apply IH. exact L.
Qed.

(** Whatever else it says, and however its bytes are cut: from a seed that unchokes the client
    once, answers every request after it was sent, and sends nothing but the content, the
    whole content is received.  Every byte is held by exactly one of the blocks kept, nothing
    is left to ask for, and the connection ends without an error. *)
Theorem C114_download_completes : forall (sha1 : bytes -> bytes) (d : bytes) (t : torrent) (x : transfer) (h : handshake)
    (ms : list message) (reads : list bytes) (content : bytes),
  from_bytes sha1 d = Ok t -> regular t -> transfer_new t = Ok x -> talks x h ms reads ->
  In MUnchoke ms -> answers_all x h ms -> truthful t content ms -> blen content = t_total_length t ->
  let y := o_transfer (do_peer x reads) in
  tr_pending y = [] /\ tr_active y = [] /\ o_ending (do_peer x reads) = EndLoop None /\
  (forall p v, nth_error content p = Some v ->
    exists b, filter (lies_over t (N.of_nat p)) (tr_completed y) = [b] /\
      nth_error (bk_data b) (p - N.to_nat (start_of t b)) = Some v) /\
  (forall b p, In b (tr_completed y) -> lies_over t p b = true -> p < t_total_length t).
Proof.
  intros sha1 d t x h ms reads content A R E T U An Tr Lc y. destruct (new_fresh sha1 d t x A R E) as (F & C & Ht).
  destruct (all_completed x h ms reads F T U An) as [Ep Ea]. subst y. rewrite (peer_transfer x h ms reads T).
  set (y := fst (play x ms)) in *.
  assert (P : Permutation (map block_request (tr_completed y)) (tr_pending x)).
  { pose proof (fst_play_everything x ms F) as P. unfold everything in P. fold y in P. rewrite Ep, Ea in P. exact P. }
  assert (Tile : forall i o, length (filter (covers i o) (map block_request (tr_completed y))) = if in_torrent t i o then 1%nat else 0%nat).
  { intros i o. rewrite <- C. apply filter_perm_len. exact P. }
  assert (In1 : forall b i o, In b (tr_completed y) -> covers i o (block_request b) = true -> in_torrent t i o = true).
  { intros b i o I Cv. specialize (Tile i o). assert (X : In (block_request b) (filter (covers i o) (map block_request (tr_completed y)))) by (apply filter_In; split; [apply in_map; exact I|exact Cv]).
    destruct (in_torrent t i o); [reflexivity|]. destruct (filter _ _); [contradiction|discriminate Tile]. }
  (* a block over a position is a request that covers it *)
  assert (Pos : forall b p, In b (tr_completed y) -> lies_over t p b = true ->
    covers (bk_index b) (p - t_piece_length t * bk_index b) (block_request b) = true /\
    in_torrent t (bk_index b) (p - t_piece_length t * bk_index b) = true /\ t_piece_length t * bk_index b <= p).
  { intros b p I L. unfold lies_over, start_of in L.
    assert (Cv : covers (bk_index b) (p - t_piece_length t * bk_index b) (block_request b) = true).
    { unfold covers, block_request. cbn [rq_index rq_begin rq_length]. rewrite N.eqb_refl. clear - L. generalize dependent (t_piece_length t * bk_index b). intros s L. lia. }
    split; [exact Cv|]. split; [exact (In1 b _ _ I Cv)|]. clear - L. generalize dependent (t_piece_length t * bk_index b). intros s L. lia. }
  split; [exact Ep|]. split; [exact Ea|]. split.
  { destruct T as (L1 & L2 & L3 & NE & ws & tail & F2 & Inc & Ec). apply (C37_messages_are_delivered x h ms ws tail reads L1 L2 L3 F2 Inc NE Ec). }
  split.
  - intros p v Hv. assert (Lp : N.of_nat p < t_total_length t).
    { rewrite <- Lc. assert (p < length content)%nat by (apply nth_error_Some; congruence). unfold blen. lia. }
    set (q := N.of_nat p) in *. set (i := q / t_piece_length t). set (o := q mod t_piece_length t).
    assert (Bound : t_total_length t <= t_piece_length t * N.of_nat (length (t_pieces t))).
    { destruct (C31_accepted_torrents_are_consistent sha1 d t A) as (s0 & post & root & info & ib & bf & af & fv & g & D). apply D. }
    assert (Pl : t_piece_length t <> 0) by (intros Z0; rewrite Z0 in Bound; lia).
    assert (Eq : q = t_piece_length t * i + o) by (apply N.div_mod; exact Pl).
    assert (Lo : o < t_piece_length t) by (apply N.mod_lt; exact Pl).
    assert (Li : i < N.of_nat (length (t_pieces t))) by (apply N.div_lt_upper_bound; [exact Pl|lia]).
    assert (Hit : in_torrent t i o = true) by (unfold in_torrent; rewrite (N.mul_comm i); lia).
    assert (Same : forall b, In b (tr_completed y) -> lies_over t q b = covers i o (block_request b)).
    { intros b I. apply Bool.eq_true_iff_eq. split.
      - intros L. destruct (Pos b q I L) as (Cv & It' & Le).
        assert (Eb : bk_index b = i).
        { apply (N.div_unique q (t_piece_length t) (bk_index b) (q - t_piece_length t * bk_index b)); [|lia].
          unfold in_torrent in It'. apply andb_true_iff in It'. destruct It' as [It' _]. apply andb_true_iff in It'. destruct It' as [_ It']. lia. }
        rewrite Eb in Cv. replace (q - t_piece_length t * i) with o in Cv by lia. exact Cv.
      - intros Cv. unfold covers, block_request in Cv. cbn [rq_index rq_begin rq_length] in Cv. unfold lies_over, start_of.
        assert (Eb : bk_index b = i) by lia. rewrite Eb, Eq. clear - Cv. generalize (t_piece_length t * i). intros s0. lia. }
    pose proof (filter_map_len block_request (covers i o) (lies_over t q) (tr_completed y) Same) as Ln. rewrite Tile, Hit in Ln.
    destruct (filter (lies_over t q) (tr_completed y)) as [|b [|]] eqn:Ef; try discriminate Ln.
    exists b. split; [reflexivity|].
    assert (Ib : In b (filter (lies_over t q) (tr_completed y))) by (rewrite Ef; left; reflexivity).
    apply filter_In in Ib. destruct Ib as [Ib Lb]. pose proof (completed_arrived x ms b F Ib) as Ia. apply Tr in Ia.
    rewrite Ia. fold (start_of t b). unfold lies_over in Lb. rewrite part_nth; [|unfold blen in Lb; lia].
    replace (N.to_nat (start_of t b) + (p - N.to_nat (start_of t b)))%nat with p by lia. exact Hv.
  - intros b p I L. destruct (Pos b p I L) as (_ & It & Le). unfold in_torrent in It.
    rewrite (N.mul_comm (bk_index b)) in It. clear - It Le. set (s := t_piece_length t * bk_index b) in *. clearbody s. lia.
Qed.
Print Assumptions C114_download_completes.
(** As long as something is missing, the seed has a request it could answer. *)
Theorem C114_never_idle : forall (sha1 : bytes -> bytes) (d : bytes) (t : torrent) (x : transfer) (h : handshake)
    (ms : list message) (reads : list bytes),
  from_bytes sha1 d = Ok t -> regular t -> transfer_new t = Ok x -> talks x h ms reads -> In MUnchoke ms ->
  let y := o_transfer (do_peer x reads) in
  (tr_pending y = [] /\ tr_active y = []) \/
  exists r, asked x h ms r /\ In r (tr_pending x) /\ ~ In r (map block_request (tr_completed y)).
Proof.
  intros sha1 d t x h ms reads A R E T U y. destruct (new_fresh sha1 d t x A R E) as (F & _ & _). subst y. rewrite (peer_transfer x h ms reads T).
  destruct (play_sends ms x) as (k & b & S). pose proof S as (K & _).
  destruct (tr_active (fst (play x ms))) as [|r l] eqn:Ea.
  - destruct (play_busy ms x (or_intror U)) as [B|B]; [left; auto|rewrite Ea in B; cbn [length] in B; lia].
  - right. exists r. assert (Ia : In r (tr_active (fst (play x ms)))) by (rewrite Ea; left; reflexivity).
    destruct (active_was_sent x ms k r F K Ia) as [Ik Ip]. split.
    + exists reads. split; [exact T|]. rewrite (peer_sent x h ms reads T). exact (taken_requested x ms r k b F S Ik).
    + split; [exact Ip|]. pose proof (everything_distinct x ms F) as ND. unfold everything in ND. apply (nodup_parts _ _ _ r) in ND. apply ND. exact Ia.
Qed.
Print Assumptions C114_never_idle.

(** There is such a seed for every torrent and content: it unchokes and answers the requests
    in order. *)
Definition slice (t : torrent) (content : bytes) (r : request) : bytes :=
  firstn (N.to_nat (rq_length r)) (skipn (N.to_nat (t_piece_length t * rq_index r + rq_begin r)) content).
Definition answer (t : torrent) (content : bytes) (r : request) : message := MPiece (rq_index r) (rq_begin r) (slice t content r).
Lemma talk_exists x h ms : length (hs_reserved h) = 8%nat -> length (hs_info_hash h) = 20%nat -> length (hs_peer_id h) = 20%nat ->
  Forall (sendable (length (t_pieces (tr_torrent x)))) ms -> exists reads, talks x h ms reads.
Proof.
  intros L1 L2 L3 Sd. assert (W : exists ws, Forall2 (fun m w => wire m = Some w /\ sendable (length (t_pieces (tr_torrent x))) m) ms ws).
  { induction Sd as [|m ms Hm _ (ws & IH)]; [exists []; constructor|]. assert (X : exists w, wire m = Some w) by (destruct m; cbn in *; try contradiction; eauto).
    destruct X as (w & X). exists (w :: ws). constructor; auto. }
  destruct W as (ws & W). exists [wire_handshake h ++ concat ws]. split; [exact L1|]. split; [exact L2|]. split; [exact L3|]. split.
  - constructor; [discriminate|constructor].
  - exists ws, []. split; [exact W|]. split; [left; cbn; lia|]. cbn [concat]. rewrite !app_nil_r. reflexivity.
Qed.
Lemma in_order_sent x t content l1 r l2 k : fresh x -> tr_pending x = l1 ++ r :: l2 ->
  let y := fst (play x (MUnchoke :: map (answer t content) l1)) in
  (forall q, In q l1 -> In q (map block_request (tr_completed y))) ->
  tr_pending y = skipn k (tr_pending x) -> In r (firstn k (tr_pending x)).
Proof.
  intros F El y C K. set (ms := MUnchoke :: map (answer t content) l1) in *.
  assert (Lk : (length l1 < k)%nat \/ tr_pending y = []).
  { destruct (play_busy ms x (or_intror (or_introl eq_refl))) as [B|B]; [right; exact B|left].
    destruct (tr_active (fst (play x ms))) as [|a l] eqn:Ea; [cbn in B; lia|].
    assert (Ia : In a (tr_active (fst (play x ms)))) by (rewrite Ea; left; reflexivity).
    destruct (active_was_sent x ms k a F K Ia) as [Ik _]. rewrite El, firstn_app in Ik. apply in_app_or in Ik.
    destruct Ik as [Ik|Ik].
    - exfalso. pose proof (everything_distinct x ms F) as ND. unfold everything in ND. apply (nodup_parts _ _ _ a) in ND.
      apply ND; [exact Ia|]. apply C. rewrite <- (firstn_skipn k). apply in_or_app. auto.
    - destruct (k - length l1)%nat eqn:Ek; [destruct Ik|lia]. }
  rewrite El. destruct Lk as [Lk|Lk].
  - rewrite firstn_app. apply in_or_app. right. replace (k - length l1)%nat with (S (k - length l1 - 1)) by lia. left. reflexivity.
  - rewrite K in Lk. apply (f_equal (@length request)) in Lk. rewrite skipn_length, El in Lk. cbn [length] in Lk.
    rewrite firstn_all2 by lia. apply in_or_app. right. left. reflexivity.
Qed.
Lemma in_order_completed x t content : fresh x -> (forall r, In r (tr_pending x) -> blen (slice t content r) = rq_length r) ->
  forall l1 l2, tr_pending x = l1 ++ l2 -> forall q, In q l1 ->
  In q (map block_request (tr_completed (fst (play x (MUnchoke :: map (answer t content) l1))))).
Proof.
  intros F Sl l1. induction l1 as [|r l1 IH] using rev_ind; intros l2 El q Iq; [destruct Iq|].
  rewrite <- app_assoc in El. cbn [app] in El. specialize (IH _ El). set (ms := MUnchoke :: map (answer t content) l1) in *.
  replace (MUnchoke :: map (answer t content) (l1 ++ [r])) with (ms ++ [answer t content r]) by (subst ms; rewrite map_app; reflexivity).
  rewrite play_app. cbn [fst]. apply in_app_or in Iq. destruct Iq as [Iq|[<-|[]]].
  { apply (completed_stays (fst (play x ms)) [answer t content r] q). apply IH. exact Iq. }
  destruct (play_sends ms x) as (k & b & S). pose proof S as (K & _).
  pose proof (in_order_sent x t content l1 r l2 k F El IH K) as Ik.
  destruct (sent_in_flight x ms k r F K Ik) as [H|H].
  - assert (L : blen (slice t content r) = rq_length r) by (apply Sl; rewrite El; apply in_or_app; right; left; reflexivity).
    pose proof (answer_completes (fst (play x ms)) r _ H L) as X. fold (answer t content r) in X. cbn [play fst].
    destruct (act (fst (play x ms)) (answer t content r)). exact X.
  - apply (completed_stays (fst (play x ms)) [answer t content r] r). exact H.
Qed.
Theorem C114_such_seeds_exist : forall (sha1 : bytes -> bytes) (d : bytes) (t : torrent) (x : transfer) (h : handshake) (content : bytes),
  from_bytes sha1 d = Ok t -> regular t -> transfer_new t = Ok x -> blen content = t_total_length t ->
  length (hs_reserved h) = 8%nat -> length (hs_info_hash h) = 20%nat -> length (hs_peer_id h) = 20%nat ->
  let ms := MUnchoke :: map (answer t content) (tr_pending x) in
  exists reads, talks x h ms reads /\ In MUnchoke ms /\ answers_all x h ms /\ truthful t content ms.
Proof.
  intros sha1 d t x h content A R E Lc L1 L2 L3 ms. destruct (new_fresh sha1 d t x A R E) as (F & C & Ht).
  destruct (C35_requests_tile_the_torrent_partial sha1 d t A) as (x' & E' & _ & _ & _ & Fl); [apply R|apply R|apply R|].
  assert (x' = x) by congruence. subst x'. clear E'. rewrite Forall_forall in Fl.
  assert (Sl : forall r, In r (tr_pending x) -> blen (slice t content r) = rq_length r).
  { intros r Ir. specialize (Fl r Ir). set (o := rq_begin r + rq_length r - 1).
    assert (It : in_torrent t (rq_index r) o = true).
    { specialize (C (rq_index r) o). assert (X : In r (filter (covers (rq_index r) o) (tr_pending x))) by (apply filter_In; split; [exact Ir|unfold covers, o; lia]).
      destruct (in_torrent t (rq_index r) o); [reflexivity|]. destruct (filter _ _); [contradiction|discriminate C]. }
    unfold in_torrent in It. rewrite (N.mul_comm (rq_index r)) in It.
    unfold slice, blen. rewrite firstn_length, skipn_length. unfold blen in Lc. subst o. set (s := t_piece_length t * rq_index r) in *. clearbody s. lia. }
  assert (Sd : forall l, incl l (tr_pending x) -> Forall (sendable (length (t_pieces (tr_torrent x)))) (MUnchoke :: map (answer t content) l)).
  { intros l Hl. constructor; [exact Logic.I|]. apply Forall_forall. intros m Im. apply in_map_iff in Im. destruct Im as (r & <- & Ir).
    apply Hl in Ir. destruct F as (_ & _ & _ & Ff). rewrite Forall_forall in Ff. destruct (Ff r Ir) as (F1 & F2 & F3). cbn [sendable answer].
    split; [exact F1|]. split; [exact F2|]. rewrite (Sl r Ir). specialize (Fl r Ir). unfold two32. lia. }
  destruct (talk_exists x h ms L1 L2 L3 (Sd _ (incl_refl _))) as (reads & T). exists reads. split; [exact T|]. split; [left; reflexivity|]. split.
  - intros r (reads' & T' & Rq). rewrite (peer_sent x h ms reads' T') in Rq. destruct (play_sends ms x) as (k & b & S).
    pose proof (requested_taken x ms r k b F S Rq) as Ik.
    assert (Ip : In r (tr_pending x)) by (rewrite <- (firstn_skipn k); apply in_or_app; auto).
    apply in_split in Ip. destruct Ip as (l1 & l2 & El).
    exists (MUnchoke :: map (answer t content) l1), (answer t content r :: map (answer t content) l2), (slice t content r).
    split; [subst ms; rewrite El, map_app; reflexivity|]. split; [|split; [left; reflexivity|apply Sl; rewrite El; apply in_or_app; right; left; reflexivity]].
    set (ms1 := MUnchoke :: map (answer t content) l1).
    destruct (talk_exists x h ms1 L1 L2 L3) as (reads1 & T1).
    { apply Sd. rewrite El. apply incl_appl. apply incl_refl. }
    exists reads1. split; [exact T1|]. rewrite (peer_sent x h ms1 reads1 T1).
    destruct (play_sends ms1 x) as (k1 & b1 & S1). apply (taken_requested x ms1 r k1 b1 F S1). pose proof S1 as (K1 & _).
    exact (in_order_sent x t content l1 r l2 k1 F El (in_order_completed x t content F Sl l1 (r :: l2) El) K1).
  - intros i b0 d0 I. destruct I as [I|I]; [discriminate|]. apply in_map_iff in I. destruct I as (r & Er & Ir). unfold answer in Er. injection Er as <- <- <-.
    unfold slice at 1. f_equal. apply Sl in Ir. unfold blen in Ir. lia.
Qed.
Print Assumptions C114_such_seeds_exist.

(** Requests are never repeated: after an unchoke, whatever a peer says without sending a
    piece, the client sends no request.  So a peer that forgets the requests when it chokes,
    as the protocol has it, is never asked again for those blocks. *)
Theorem C114_forgotten_requests_refuted : forall (sha1 : bytes -> bytes) (d : bytes) (t : torrent) (x : transfer) (h : handshake)
    (ms1 ms2 : list message) (reads1 reads2 : list bytes),
  from_bytes sha1 d = Ok t -> regular t -> transfer_new t = Ok x ->
  talks x h ms1 reads1 -> talks x h (ms1 ++ ms2) reads2 -> In MUnchoke ms1 -> (forall i b c, ~ In (MPiece i b c) ms2) ->
  o_transfer (do_peer x reads2) = o_transfer (do_peer x reads1) /\
  exists bodies, o_sent (do_peer x reads2) = o_sent (do_peer x reads1) ++ concat (map framed bodies) /\
    filter is_request_body bodies = [].
Proof.
  intros sha1 d t x h ms1 ms2 reads1 reads2 A R E T1 T2 U No.
  rewrite (peer_transfer x h ms1 reads1 T1), (peer_transfer x h _ reads2 T2), (peer_sent x h ms1 reads1 T1), (peer_sent x h _ reads2 T2).
  rewrite play_app. cbn [fst snd]. pose proof (play_busy ms1 x (or_intror U)) as B. set (y := fst (play x ms1)) in *.
  assert (K : forall ms, (forall i b c, ~ In (MPiece i b c) ms) -> fst (play y ms) = y /\ exists bodies, snd (play y ms) = concat (map framed bodies) /\ filter is_request_body bodies = []).
  { induction ms as [|m ms IH]; intros Nm; cbn [play]; [split; [reflexivity|]; exists []; split; reflexivity|].
    assert (Q : fst (act y m) = y /\ exists bodies, snd (act y m) = concat (map framed bodies) /\ filter is_request_body bodies = []).
    { destruct m; cbn [act fst snd]; try (split; [reflexivity|]; exists []; split; reflexivity).
      - unfold more_fuel. cbn [more_requests]. destruct (length (tr_active y) <=? max_active_requests)%nat eqn:El.
        + destruct B as [B|B]; [|unfold max_active_requests in El; lia]. unfold start_request. rewrite B. cbn [fst snd]. split; [reflexivity|].
          exists [[3]]. split; reflexivity.
        + split; [reflexivity|]. exists []. split; reflexivity.
      - split; [reflexivity|]. exists [[1]; [2]]. split; reflexivity.
      - exfalso. eapply Nm. left. reflexivity. }
    destruct (act y m) as [y1 o1]. cbn [fst snd] in Q. destruct Q as (-> & b1 & -> & F1).
    destruct IH as (I1 & b2 & I2 & F2); [intros i b c I; apply (Nm i b c); right; exact I|].
    destruct (play y ms) as [y2 o2]. cbn [fst snd] in *. split; [exact I1|]. exists (b1 ++ b2). rewrite map_app, concat_app, filter_app, F1, F2, I2. split; reflexivity. }
  destruct (K ms2 No) as (K1 & b & K2 & K3). split; [exact K1|]. exists b. rewrite K2. split; [reflexivity|exact K3].
Qed.
Print Assumptions C114_forgotten_requests_refuted.

(** Nothing compares what arrives with the hashes of the torrent: whatever SHA-1 is, some
    torrent is downloaded completely with a piece whose hash is not the one it lists. *)
Definition one_byte_torrent (hash : bytes) : bytes :=
  ascii_bytes "d13:announce-listll1:aee4:infod5:filesld6:lengthi1e4:pathl1:xeee4:name1:n12:piece lengthi1e6:pieces20:" ++ hash ++ ascii_bytes "ee".
Definition a_seed : handshake := {| hs_reserved := repeat 0 8; hs_info_hash := repeat 1 20; hs_peer_id := repeat 2 20 |}.
Theorem C114_hashes_not_checked_refuted : forall (sha1 : bytes -> bytes), exists d t x reads b,
  from_bytes sha1 d = Ok t /\ transfer_new t = Ok x /\
  let y := o_transfer (do_peer x reads) in
  tr_pending y = [] /\ tr_active y = [] /\ tr_completed y = [b] /\ t_pieces t <> [sha1 (bk_data b)].
Proof.
  intros sha1.
  assert (H : exists hash, (hash = repeat 48 20 \/ hash = repeat 49 20) /\ sha1 [7] <> hash).
  { destruct (bytes_eqb (sha1 [7]) (repeat 48 20)) eqn:E.
    - exists (repeat 49 20). split; [auto|]. apply bytes_eqb_eq in E. rewrite E. discriminate.
    - exists (repeat 48 20). split; [auto|]. intros X. rewrite X, bytes_eqb_refl in E. discriminate. }
  destruct H as (hash & Eh & Nh).
  destruct Eh as [->| ->]; (match goal with H : sha1 _ <> ?u |- _ => exists (one_byte_torrent u) end; eexists; eexists;
    exists [wire_handshake a_seed ++ frame 1 [] ++ frame 7 (be_bytes 4 0 ++ be_bytes 4 0 ++ [7])], {| bk_index := 0; bk_begin := 0; bk_data := [7] |};
    split; [|split; [|split; [|split; [|split; [|cbn [bk_data]]]]]]; [vm_compute; reflexivity..|];
    cbn [t_pieces]; intros X; apply Nh; injection X as X; symmetry; exact X).
Qed.
Print Assumptions C114_hashes_not_checked_refuted.

(** Six bytes in two pieces, one block of which arrives in three parts after a keep-alive and
    a choke. *)
Definition six_bytes : bytes :=
  ascii_bytes "d13:announce-listll1:aee4:infod5:filesld6:lengthi6e4:pathl1:xeee4:name1:n12:piece lengthi4e6:pieces40:0123456789012345678901234567890123456789ee".
Example C114_example :
  match from_bytes (fun b => b) six_bytes with
  | Ok t =>
    match transfer_new t with
    | Ok x =>
      let s := wire_handshake a_seed ++ frame 5 [192] ++ frame 1 [] ++ frame 7 (be_bytes 4 1 ++ be_bytes 4 0 ++ [5; 6]) ++
               be_bytes 4 0 ++ frame 0 [] ++ frame 7 (be_bytes 4 0 ++ be_bytes 4 0 ++ [1; 2; 3; 4]) in
      let r := do_peer x [firstn 70 s; firstn 40 (skipn 70 s); skipn 110 s] in
      tr_pending (o_transfer r) = [] /\ tr_active (o_transfer r) = [] /\ o_ending r = EndLoop None /\
      map (fun b => (start_of t b, bk_data b)) (tr_completed (o_transfer r)) = [(4, [5; 6]); (0, [1; 2; 3; 4])] /\
      o_sent r = framed [1] ++ framed [2] ++ framed (request_body {| rq_index := 0; rq_begin := 0; rq_length := 4 |}) ++
                 framed (request_body {| rq_index := 1; rq_begin := 0; rq_length := 2 |}) ++ framed [3] ++ framed [3] ++ framed [3]
    | _ => False
    end
  | _ => False
  end.
Proof. vm_compute. repeat split; reflexivity. Qed.
