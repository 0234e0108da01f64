(** The programs that ask a tracker for peers: C118. *)
From Verif Require Import Base BaseProofs BinaryProofs2 TorrentModel TorrentProps TrackerModel TrackerProps PeerModel UtilModel ChatModel HexDumpModel BencodePathModel AnnounceModel.
Local Open Scope string_scope. Local Open Scope list_scope. Local Open Scope N_scope.

(** *** Specification *)
(** What can be seen of a program with a UDP socket. *)
Inductive devent := Sent (to : addr) (d : bytes) | Got (from : addr) (d : bytes) | Printed (t : bytes) | Saved (name d : bytes).
Inductive plays : dprog -> list devent -> ended -> Prop :=
| pl_end how : plays (DEnd how) [] how
| pl_print t k tr how : plays k tr how -> plays (DPrint t k) (Printed t :: tr) how
| pl_save n d k tr how : plays k tr how -> plays (DSave n d k) (Saved n d :: tr) how
| pl_send to d k tr how : plays k tr how -> plays (DSend to d k) (Sent to d :: tr) how
| pl_recv from room k a d tr how : (forall p, from = Some p -> a = p) -> plays (k (firstn room d)) tr how -> plays (DRecv from room k) (Got a d :: tr) how.
(** A tracker of BEP 15: what it knows of a torrent, and what it replies; [cid] is the
    connection id it hands out. *)
Record swarm := { sw_interval : N; sw_leechers : N; sw_seeders : N; sw_peers : list endpoint }.
Definition swarm_ok (s : swarm) : Prop := sw_interval s < two32 /\ sw_leechers s < two32 /\ sw_seeders s < two32 /\ Forall endpoint_ok (sw_peers s).
Inductive replies (cid : N) (sw : bytes -> swarm) : bytes -> bytes -> Prop :=
| r_connect q : length q = 16%nat -> firstn 8 q = [0; 0; 4; 23; 39; 16; 25; 128] -> field q 8 4 = 0 ->
    replies cid sw q ([0; 0; 0; 0] ++ firstn 4 (skipn 12 q) ++ be_bytes 8 cid)
| r_announce q : length q = 98%nat -> field q 0 8 = cid -> field q 8 4 = 1 ->
    let s := sw (firstn 20 (skipn 16 q)) in
    replies cid sw q ([0; 0; 0; 1] ++ firstn 4 (skipn 12 q) ++ be_bytes 4 (sw_interval s) ++ be_bytes 4 (sw_leechers s) ++ be_bytes 4 (sw_seeders s) ++
                      concat (map (fun e => be_bytes 4 (ep_ip e) ++ be_bytes 2 (ep_port e)) (sw_peers s))).
(** All that is received are the replies of this tracker to what was last sent to it ([q]). *)
Inductive honest (T : addr) (cid : N) (sw : bytes -> swarm) : option bytes -> list devent -> Prop :=
| h_end q : honest T cid sw q []
| h_sent q to d tr : honest T cid sw (if bytes_eqb to T then Some d else q) tr -> honest T cid sw q (Sent to d :: tr)
| h_got q a tr : replies cid sw q a -> honest T cid sw None tr -> honest T cid sw (Some q) (Got T a :: tr)
| h_printed q t tr : honest T cid sw q tr -> honest T cid sw q (Printed t :: tr)
| h_saved q n d tr : honest T cid sw q tr -> honest T cid sw q (Saved n d :: tr).
(** What a response tells about a swarm. *)
Definition told (t : N) (s : swarm) (ps : list endpoint) : announce_response :=
  {| ar_transaction := t; ar_interval := sw_interval s; ar_leechers := sw_leechers s; ar_seeders := sw_seeders s; ar_peers := ps |}.

(** *** Lemmas *)
Lemma random_id random : length random = 4%nat -> bytes_ok random -> generate_transaction_id random < two32 /\ be_bytes 4 (generate_transaction_id random) = random.
Proof.
  intros L B. unfold generate_transaction_id. pose proof (of_be_bytes_lt _ B) as X. rewrite L in X. split; [exact X|]. pose proof (be_of_be_bytes _ B) as Y. rewrite L in Y. exact Y.
Qed.
Lemma reply_connect cid sw tid a : tid < two32 -> replies cid sw (connect_request tid) a <-> a = be_bytes 4 0 ++ be_bytes 4 tid ++ be_bytes 8 cid.
Proof.
  intros T. destruct (C94_connect_request tid T) as (_ & L & M & A & F).
  assert (K : firstn 4 (skipn 12 (connect_request tid)) = be_bytes 4 tid).
  { unfold connect_request. rewrite app_assoc. pose proof (skipn_app_length (be_bytes 8 connect_magic ++ be_bytes 4 0) (be_bytes 4 tid)) as X. rewrite app_length, !be_bytes_length in X. cbn [Nat.add] in X. rewrite X.
    rewrite <- (be_bytes_length 4 tid) at 1. apply firstn_all. }
  split.
  - intros H. inversion H as [q L' M' A' E1 E2|q L' F' A' s E1 E2]; subst; [rewrite K; reflexivity|rewrite L in L'; discriminate].
  - intros ->. rewrite <- K. apply r_connect; assumption.
Qed.
Lemma reply_announce cid sw q r a : request_ok r -> q = announce_bytes r -> an_connection r = cid -> an_action r = 1 ->
  replies cid sw q a <-> a = response_bytes (told (an_transaction r) (sw (an_info_hash r)) (sw_peers (sw (an_info_hash r)))).
Proof.
  intros O -> C A. pose proof (C94_announce_request r O) as X. cbn zeta in X. destruct X as (L & F0 & F8 & F12 & H & _).
  assert (K : firstn 4 (skipn 12 (announce_bytes r)) = be_bytes 4 (an_transaction r)).
  { rewrite (announce_flat r O), !app_assoc. rewrite <- !(app_assoc (be_bytes 8 (an_connection r) ++ be_bytes 4 (an_action r))).
    pose proof (skipn_app_length (be_bytes 8 (an_connection r) ++ be_bytes 4 (an_action r))) as X. rewrite app_length, !be_bytes_length in X. cbn [Nat.add] in X. rewrite X. rewrite <- !app_assoc.
    rewrite <- (be_bytes_length 4 (an_transaction r)) at 1. apply firstn_app_length. }
  split.
  - intros R. inversion R as [q L' M' A' E1 E2|q L' F' A' s E1 E2]; subst q; [rewrite L in L'; discriminate|]. subst s. rewrite H, K. reflexivity.
  - intros ->. pose proof (r_announce cid sw (announce_bytes r) L ltac:(congruence) ltac:(congruence)) as R. cbn zeta in R. rewrite H, K in R. exact R.
Qed.
Lemma first_endpoints : forall n es, firstn (6 * n) (concat (map endpoint_bytes es)) = concat (map endpoint_bytes (firstn n es)).
Proof.
  induction n as [|n IH]; intros [|e es]; try reflexivity. cbn [map concat firstn].
  replace (6 * S n)%nat with (6 + 6 * n)%nat by lia. rewrite firstn_app, endpoint_bytes_length.
  replace (6 + 6 * n - 6)%nat with (6 * n)%nat by lia. rewrite IH. f_equal. apply firstn_all2. rewrite endpoint_bytes_length. lia.
Qed.
Lemma firstn_plus {A} a b (l : list A) : firstn (a + b) l = firstn a l ++ firstn b (skipn a l).
Proof. revert l. induction a as [|a IH]; intros [|x l]; cbn [Nat.add firstn skipn app]; rewrite ?firstn_nil; [reflexivity..|]. f_equal. apply IH. Qed.
(** The first bytes of a response: a prefix of its peers, and a part of the next one. *)
Lemma cut_response room t s : (20 <= room)%nat ->
  exists junk, (length junk < 6)%nat /\ firstn room (response_bytes (told t s (sw_peers s))) = response_bytes (told t s (firstn ((room - 20) / 6) (sw_peers s))) ++ junk.
Proof.
  intros R. unfold response_bytes, told. cbn [ar_transaction ar_interval ar_leechers ar_seeders ar_peers].
  set (h := be_bytes 4 1 ++ be_bytes 4 t ++ be_bytes 4 (sw_interval s) ++ be_bytes 4 (sw_leechers s) ++ be_bytes 4 (sw_seeders s)).
  assert (L : length h = 20%nat) by (unfold h; rewrite !app_length, !be_bytes_length; reflexivity).
  assert (E : forall x, be_bytes 4 1 ++ be_bytes 4 t ++ be_bytes 4 (sw_interval s) ++ be_bytes 4 (sw_leechers s) ++ be_bytes 4 (sw_seeders s) ++ x = h ++ x) by (intros x; unfold h; rewrite <- !app_assoc; reflexivity).
  rewrite !E. set (k := ((room - 20) / 6)%nat). set (m := ((room - 20) mod 6)%nat).
  assert (D : (room - 20 = 6 * k + m)%nat) by (unfold k, m; apply Nat.div_mod; lia). assert (M : (m < 6)%nat) by (unfold m; apply Nat.mod_upper_bound; lia). clearbody k m.
  rewrite firstn_app, L. rewrite firstn_all2 by lia. rewrite D.
  exists (firstn m (skipn (6 * k) (concat (map endpoint_bytes (sw_peers s))))). split; [rewrite firstn_length; lia|].
  rewrite firstn_plus, first_endpoints, <- app_assoc. reflexivity.
Qed.
Lemma told_ok t s ps : t < two32 -> swarm_ok s -> Forall endpoint_ok ps -> response_ok (told t s ps).
Proof. intros T (I & L & S' & _) F. repeat split; assumption. Qed.
Lemma Forall_firstn {A} (P : A -> Prop) n l : Forall P l -> Forall P (firstn n l).
Proof. intros H. revert n. induction H; intros [|n]; cbn [firstn]; constructor; auto. Qed.
Lemma parse_cut room t s : (20 <= room)%nat -> t < two32 -> swarm_ok s ->
  announce_parse (firstn room (response_bytes (told t s (sw_peers s)))) = Ok (told t s (firstn ((room - 20) / 6) (sw_peers s))).
Proof.
  intros R T O. destruct (cut_response room t s R) as (junk & J & ->). pose proof (Forall_firstn _ ((room - 20) / 6) _ (proj2 (proj2 (proj2 O)))) as F.
  destruct O as (I & L & S' & _).
  pose proof (parse_datagram 1 t (sw_interval s) (sw_leechers s) (sw_seeders s) _ junk ltac:(reflexivity) T I L S' F J) as X. unfold datagram in X. unfold response_bytes, told.
  cbn [ar_transaction ar_interval ar_leechers ar_seeders ar_peers]. rewrite <- !app_assoc. exact X.
Qed.
Lemma request_of connection random info_hash : connection < two64 -> length random = 4%nat -> bytes_ok random -> length info_hash = 20%nat ->
  exists r, request_ok r /\ send_tracker_request connection (generate_transaction_id random) info_hash listen_port = announce_bytes r /\ an_connection r = connection /\ an_action r = 1 /\
    an_transaction r = generate_transaction_id random /\ an_info_hash r = info_hash.
Proof.
  intros C L B H. destruct (random_id random L B) as (T & _). destruct (C94_client_request connection (generate_transaction_id random) info_hash listen_port C T H ltac:(reflexivity)) as (r & O & E & A1 & A2 & A3 & A4 & _).
  exists r. auto 10.
Qed.

(** *** The client: torrent_client announce *)
Ltac play H := inversion H; subst; clear H.
(** With an honest tracker the client ends well and prints what the tracker told, but only
    the first 679 peers. *)
Lemma exchange_honest T cid sw random1 random2 info_hash tr how :
  length random1 = 4%nat -> bytes_ok random1 -> length random2 = 4%nat -> bytes_ok random2 -> length info_hash = 20%nat -> cid < two64 -> swarm_ok (sw info_hash) ->
  (plays (client_exchange T random1 random2 info_hash) tr how /\ honest T cid sw None tr <->
   let d := response_bytes (told (of_be_bytes random2) (sw info_hash) (sw_peers (sw info_hash))) in
   how = Succeeds /\
   tr = [Sent T (connect_request (of_be_bytes random1)); Got T (be_bytes 4 0 ++ random1 ++ be_bytes 8 cid);
         Sent T (send_tracker_request cid (of_be_bytes random2) info_hash listen_port); Got T d;
         Saved (ascii_bytes "response.bin") (firstn (N.to_nat 4096) d);
         Printed (client_text (told (of_be_bytes random2) (sw info_hash) (firstn 679 (sw_peers (sw info_hash)))))]).
Proof.
  intros L1 B1 L2 B2 H C O. destruct (random_id random1 L1 B1) as (T1 & R1). destruct (random_id random2 L2 B2) as (T2 & R2).
  destruct (request_of cid random2 info_hash C L2 B2 H) as (r & OK & E & A1 & A2 & A3 & A4).
  assert (OC : open_connection (generate_transaction_id random1) (be_bytes 4 0 ++ be_bytes 4 (generate_transaction_id random1) ++ be_bytes 8 cid) = Ok cid).
  { apply C93_connect_exactly; [exact T1| |split; [exact C|reflexivity]]. rewrite !bytes_ok_app. repeat split; apply be_bytes_ok. }
  assert (F1 : firstn (N.to_nat 4096) (be_bytes 4 0 ++ be_bytes 4 (generate_transaction_id random1) ++ be_bytes 8 cid) = be_bytes 4 0 ++ be_bytes 4 (generate_transaction_id random1) ++ be_bytes 8 cid).
  { apply firstn_all2. rewrite !app_length, !be_bytes_length. lia. }
  assert (P : announce_parse (firstn (N.to_nat 4096) (response_bytes (told (generate_transaction_id random2) (sw info_hash) (sw_peers (sw info_hash))))) =
              Ok (told (generate_transaction_id random2) (sw info_hash) (firstn 679 (sw_peers (sw info_hash))))).
  { rewrite (parse_cut (N.to_nat 4096)) by (auto; lia). reflexivity. }
  assert (RA : forall a, replies cid sw (send_tracker_request cid (generate_transaction_id random2) info_hash listen_port) a <->
                         a = response_bytes (told (generate_transaction_id random2) (sw info_hash) (sw_peers (sw info_hash)))).
  { intros a. rewrite <- A3, <- A4. rewrite <- A3, <- A4 in E. apply reply_announce; assumption. }
  clear r OK E A1 A2 A3 A4.
  cbn zeta. unfold client_exchange. fold (generate_transaction_id random1). fold (generate_transaction_id random2). set (t1 := generate_transaction_id random1) in *. set (t2 := generate_transaction_id random2) in *. set (room := N.to_nat 4096) in *. clearbody t1 t2 room.
  split.
  - intros [Q V].
    inversion Q as [| | |to d k tr1 h Q1|]; subst. inversion V as [|? ? ? ? V1| | |]; subst. rewrite bytes_eqb_refl in V1.
    inversion Q1 as [| | | |fr rm k a d tr2 h _ Q2]; subst. inversion V1 as [| |q a' tr' RP V2 | |]; subst.
    apply (reply_connect cid sw t1 d T1) in RP. subst d. rewrite F1, OC in Q2. cbn [dbind] in Q2.
    inversion Q2 as [| | |to d k tr3 h Q3|]; subst. inversion V2 as [|? ? ? ? V3| | |]; subst. rewrite bytes_eqb_refl in V3.
    inversion Q3 as [| | | |fr rm k a2 d tr4 h _ Q4]; subst. inversion V3 as [| |q a3 tr' RP V4 | |]; subst.
    apply RA in RP. subst d.
    inversion Q4 as [| |n d k tr5 h Q5| |]; subst. rewrite P in Q5. cbn [dbind] in Q5. inversion Q5 as [|t k tr6 h Q6| | |]; subst. inversion Q6; subst.
    split; reflexivity.
  - intros [-> ->]. split.
    + constructor. constructor; [discriminate|]. rewrite <- R1, F1, OC. cbn [dbind]. constructor. constructor; [discriminate|]. constructor. rewrite P. cbn [dbind]. constructor. constructor.
    + constructor. rewrite bytes_eqb_refl. constructor; [apply reply_connect; [exact T1|rewrite R1; reflexivity]|]. constructor. rewrite bytes_eqb_refl. constructor; [|repeat constructor]. apply RA. reflexivity.
Qed.
(** [torrent_client announce]: for every torrent file and number of a tracker URL with host
    and port, with an honest tracker at the first address of the host, the run is this one;
    it ends well. *)
Definition announced (sha1 : bytes -> bytes) (read : bytes -> option bytes) (lookup : bytes -> option (list addr)) (parse_url : bytes -> option url) (c : subcommand) (t : torrent) (T : addr) : Prop :=
  exists filename n data u host port more, c = CAnnounce filename n /\ read filename = Some data /\ from_bytes sha1 data = Ok t /\
    nth_error (tracker_urls parse_url t) n = Some u /\ u_host u = Some host /\ u_port u = Some port /\ lookup (host ++ ascii_bytes ":" ++ decimal port) = Some (T :: more).
Lemma info_hash_20 sha1 data t : (forall x, length (sha1 x) = 20%nat) -> from_bytes sha1 data = Ok t -> length (t_info_hash t) = 20%nat.
Proof.
  intros S1 A. unfold from_bytes in A. repeat (apply bind_ok in A; destruct A as (? & _ & A)). destruct (negb _); [discriminate|].
  repeat (apply bind_ok in A; destruct A as (? & _ & A)). destruct (_ <? _); [discriminate|]. injection A as <-. apply S1.
Qed.
Lemma announce_prog sha1 read lookup parse_url debug random1 random2 download c t T : announced sha1 read lookup parse_url c t T ->
  client_main sha1 read lookup parse_url debug random1 random2 download c = DPrint (tracker_warnings parse_url debug t) (client_exchange T random1 random2 (t_info_hash t)).
Proof.
  intros (filename & n & data & u & host & port & more & -> & R & F & U & H & P & K). cbn [client_main]. unfold with_file. rewrite R, F. cbn [tbind]. rewrite U. unfold run_with_tracker. rewrite H, P.
  unfold socket_text. change (host ++ [58] ++ decimal port) with (host ++ ascii_bytes ":" ++ decimal port). rewrite K. reflexivity.
Qed.
Theorem C118_client_honest sha1 read lookup parse_url debug random1 random2 download c t T cid sw tr how :
  (forall x, length (sha1 x) = 20%nat) -> announced sha1 read lookup parse_url c t T ->
  length random1 = 4%nat -> bytes_ok random1 -> length random2 = 4%nat -> bytes_ok random2 -> cid < two64 -> swarm_ok (sw (t_info_hash t)) ->
  (plays (client_main sha1 read lookup parse_url debug random1 random2 download c) tr how /\ honest T cid sw None tr <->
   let s := sw (t_info_hash t) in
   let d := response_bytes (told (of_be_bytes random2) s (sw_peers s)) in
   how = Succeeds /\
   tr = [Printed (tracker_warnings parse_url debug t);
         Sent T (connect_request (of_be_bytes random1)); Got T (be_bytes 4 0 ++ random1 ++ be_bytes 8 cid);
         Sent T (send_tracker_request cid (of_be_bytes random2) (t_info_hash t) 6681); Got T d;
         Saved (ascii_bytes "response.bin") (firstn (N.to_nat 4096) d);
         Printed (client_text (told (of_be_bytes random2) s (firstn 679 (sw_peers s))))]).
Proof.
  intros S1 A L1 B1 L2 B2 C O. rewrite (announce_prog _ _ _ _ _ _ _ _ _ _ _ A).
  assert (H : length (t_info_hash t) = 20%nat) by (destruct A as (filename & n & data & u & host & port & more & _ & _ & F & _); eapply info_hash_20; eauto).
  pose proof (exchange_honest T cid sw random1 random2 (t_info_hash t)) as X. split.
  - intros [P V]. inversion P as [|tx k tr' h P'| | |]; subst. inversion V as [| | |? ? ? V'|]; subst. destruct (proj1 (X tr' how L1 B1 L2 B2 H C O) (conj P' V')) as (-> & ->). cbn zeta. split; reflexivity.
  - cbn zeta. intros [-> ->]. destruct (proj2 (X _ Succeeds L1 B1 L2 B2 H C O) (conj eq_refl eq_refl)) as [P V]. split; constructor; assumption.
Qed.
Print Assumptions C118_client_honest.
(** So with more than 679 peers, peers are lost: the reply is cut at 4096 bytes and no error
    is given. *)
Theorem C118_peers_lost_refuted sha1 read lookup parse_url debug random1 random2 download c t T cid sw :
  (forall x, length (sha1 x) = 20%nat) -> announced sha1 read lookup parse_url c t T ->
  length random1 = 4%nat -> bytes_ok random1 -> length random2 = 4%nat -> bytes_ok random2 -> cid < two64 -> swarm_ok (sw (t_info_hash t)) ->
  (679 < length (sw_peers (sw (t_info_hash t))))%nat ->
  exists tr ps, plays (client_main sha1 read lookup parse_url debug random1 random2 download c) tr Succeeds /\ honest T cid sw None tr /\
    In (Printed (client_text (told (of_be_bytes random2) (sw (t_info_hash t)) ps))) tr /\ length ps = 679%nat /\ ps <> sw_peers (sw (t_info_hash t)).
Proof.
  intros S1 A L1 B1 L2 B2 C O M. destruct (proj2 (C118_client_honest sha1 read lookup parse_url debug random1 random2 download c t T cid sw _ Succeeds S1 A L1 B1 L2 B2 C O) (conj eq_refl eq_refl)) as [P V].
  do 2 eexists. split; [exact P|]. split; [exact V|]. split; [do 6 right; left; reflexivity|].
  assert (L : length (firstn 679 (sw_peers (sw (t_info_hash t)))) = 679%nat) by (rewrite firstn_length; lia). split; [exact L|]. intros E. rewrite E in L. lia.
Qed.
Print Assumptions C118_peers_lost_refuted.
(** Exactly the runs that end well, whoever answers. *)
Theorem C118_client_exact T random1 random2 info_hash tr :
  length random1 = 4%nat -> bytes_ok random1 -> (forall a d, In (Got a d) tr -> bytes_ok d) ->
  (plays (client_exchange T random1 random2 info_hash) tr Succeeds <->
   exists a1 c a2 d r junk, c < two64 /\ response_ok r /\ (length junk < 6)%nat /\ firstn (N.to_nat 4096) d = response_bytes r ++ junk /\
   tr = [Sent T (connect_request (of_be_bytes random1)); Got a1 (be_bytes 4 0 ++ random1 ++ be_bytes 8 c);
         Sent T (send_tracker_request c (of_be_bytes random2) info_hash 6681); Got a2 d;
         Saved (ascii_bytes "response.bin") (firstn (N.to_nat 4096) d); Printed (client_text r)]).
Proof.
  intros L1 B1 B. destruct (random_id random1 L1 B1) as (T1 & R1).
  assert (LT : (16 < N.to_nat 4096)%nat) by lia. unfold client_exchange. set (room := N.to_nat 4096) in *. clearbody room. split.
  - intros Q. inversion Q as [| | |to d k tr1 h Q1|]; subst. inversion Q1 as [| | | |fr rm k a1 d1 tr2 h _ Q2]; subst.
    destruct (open_connection (generate_transaction_id random1) (firstn room d1)) as [c|e|] eqn:E; cbn [dbind] in Q2; [|inversion Q2..].
    assert (BD : bytes_ok d1) by (eapply B; right; left; reflexivity). apply C93_connect_exactly in E; [|exact T1|apply bytes_ok_firstn, BD]. destruct E as [C E].
    assert (E' : d1 = be_bytes 4 0 ++ random1 ++ be_bytes 8 c).
    { rewrite R1 in E. rewrite <- E. symmetry. apply firstn_all2. pose proof (f_equal (@length N) E) as K. rewrite firstn_length, !app_length, !be_bytes_length, L1 in K. lia. }
    inversion Q2 as [| | |to d k tr3 h Q3|]; subst. inversion Q3 as [| | | |fr rm k a2 d2 tr4 h _ Q4]; subst. inversion Q4 as [| |n d k tr5 h Q5| |]; subst.
    destruct (announce_parse (firstn room d2)) as [r|e|] eqn:P; cbn [dbind] in Q5; [|inversion Q5..]. inversion Q5 as [|t k tr6 h Q6| | |]; subst. inversion Q6; subst.
    assert (BD2 : bytes_ok d2) by (eapply B; right; right; right; left; reflexivity). apply C93_parse_exactly in P; [|apply bytes_ok_firstn, BD2]. destruct P as (O & junk & J & P).
    exists a1, c, a2, d2, r, junk. split; [exact C|]. split; [exact O|]. split; [exact J|]. split; [exact P|]. reflexivity.
  - intros (a1 & c & a2 & d & r & junk & C & O & J & E & ->).
    assert (OC : open_connection (generate_transaction_id random1) (firstn room (be_bytes 4 0 ++ random1 ++ be_bytes 8 c)) = Ok c).
    { rewrite firstn_all2 by (rewrite !app_length, !be_bytes_length, L1; lia). apply C93_connect_exactly; [exact T1| |rewrite R1; auto]. rewrite !bytes_ok_app. repeat split; try assumption; apply be_bytes_ok. }
    assert (P : announce_parse (firstn room d) = Ok r). { apply C93_parse_exactly; [apply bytes_ok_firstn; apply (B a2); do 3 right; left; reflexivity|]. split; [exact O|]. exists junk. auto. }
    constructor. constructor; [discriminate|]. rewrite OC. cbn [dbind]. constructor. constructor; [discriminate|]. constructor. rewrite P. cbn [dbind]. constructor. constructor.
Qed.
Print Assumptions C118_client_exact.
(** It never panics, and a run that does not end well prints nothing. *)
Theorem C118_client_no_panic T random1 random2 info_hash tr how :
  length random1 = 4%nat -> bytes_ok random1 -> (forall a d, In (Got a d) tr -> bytes_ok d) -> plays (client_exchange T random1 random2 info_hash) tr how ->
  how = Succeeds \/ how = Fails /\ forall x, ~ In (Printed x) tr.
Proof.
  intros L1 B1 B Q. unfold client_exchange in Q. set (room := N.to_nat 4096) in *. clearbody room.
  inversion Q as [| | |to d k tr1 h Q1|]; subst. inversion Q1 as [| | | |fr rm k a1 d1 tr2 h _ Q2]; subst.
  pose proof (proj1 (proj2 C93_client_never_panics) (generate_transaction_id random1) (firstn room d1)) as NP.
  destruct (open_connection (generate_transaction_id random1) (firstn room d1)) as [c|e|] eqn:E; cbn [dbind] in Q2; [|inversion Q2; subst; right; split; [reflexivity|intros x [K|[K|[]]]; discriminate]|congruence].
  inversion Q2 as [| | |to d k tr3 h Q3|]; subst. inversion Q3 as [| | | |fr rm k a2 d2 tr4 h _ Q4]; subst. inversion Q4 as [| |n d k tr5 h Q5| |]; subst.
  assert (BD2 : bytes_ok d2) by (eapply B; right; right; right; left; reflexivity). pose proof (proj1 C93_client_never_panics (firstn room d2) (bytes_ok_firstn _ _ BD2)) as NP2.
  destruct (announce_parse (firstn room d2)) as [r|e|] eqn:P; cbn [dbind] in Q5; [|inversion Q5; subst; right; split; [reflexivity|intros x [K|[K|[K|[K|[K|[]]]]]]; discriminate]|congruence].
  inversion Q5 as [|t k tr6 h Q6| | |]; subst. inversion Q6; subst. left. reflexivity.
Qed.
Print Assumptions C118_client_no_panic.
(** Whoever can send a datagram decides what is printed: the addresses of the senders are not
    looked at, and for the announce not even the transaction id is. *)
Theorem C118_anyone_may_answer_refuted T random1 random2 info_hash a1 c a2 r :
  length random1 = 4%nat -> bytes_ok random1 -> c < two64 -> response_ok r -> (length (ar_peers r) <= 679)%nat ->
  exists tr, plays (client_exchange T random1 random2 info_hash) tr Succeeds /\
    (forall a d, In (Got a d) tr -> a = a1 \/ a = a2) /\ In (Printed (client_text r)) tr.
Proof.
  intros L1 B1 C O M. set (d := response_bytes r).
  assert (BR : bytes_ok d).
  { unfold d, response_bytes. rewrite !bytes_ok_app. repeat split; try apply be_bytes_ok. induction (ar_peers r) as [|e es IH]; [constructor|]. cbn [map concat]. apply bytes_ok_app. split; [|apply IH; cbn [length] in M; lia].
    unfold endpoint_bytes. apply bytes_ok_app. split; apply be_bytes_ok. }
  assert (LD : (length d <= N.to_nat 4096)%nat) by (unfold d, response_bytes; rewrite !app_length, !be_bytes_length, endpoints_length; lia).
  assert (BQ : bytes_ok (be_bytes 4 0 ++ random1 ++ be_bytes 8 c)) by (rewrite !bytes_ok_app; repeat split; try assumption; apply be_bytes_ok).
  eexists. split; [apply C118_client_exact|].
  - exact L1.
  - exact B1.
  - shelve.
  - exists a1, c, a2, d, r, []. split; [exact C|]. split; [exact O|]. split; [cbn [length]; lia|]. split; [rewrite app_nil_r; apply firstn_all2; exact LD|]. reflexivity.
  - split; [|do 5 right; left; reflexivity]. intros a x [K|[K|[K|[K|[K|[K|[]]]]]]]; try discriminate; injection K as <- <-; auto.
  Unshelve.
  intros a x [K|[K|[K|[K|[K|[K|[]]]]]]]; try discriminate; injection K as <- <-; [exact BQ|exact BR].
Qed.
Print Assumptions C118_anyone_may_answer_refuted.
(** The saved file can be shown again: [parse-announce-response] prints the same response. *)
Theorem C118_saved_response T random1 random2 info_hash tr sha1 read lookup parse_url debug random1' random2' download d :
  plays (client_exchange T random1 random2 info_hash) tr Succeeds -> In (Saved (ascii_bytes "response.bin") d) tr -> read (ascii_bytes "response.bin") = Some d ->
  exists text, In (Printed text) tr /\
  plays (client_main sha1 read lookup parse_url debug random1' random2' download (CParseAnnounceResponse (ascii_bytes "response.bin")))
    [Printed (line (ascii_bytes "Response: " ++ decimal (blen d) ++ ascii_bytes " bytes") ++ line (dump_alternate d)); Printed text] Succeeds.
Proof.
  intros Q I R. unfold client_exchange in Q. set (room := N.to_nat 4096) in *. clearbody room.
  inversion Q as [| | |to x k tr1 h Q1|]; subst. inversion Q1 as [| | | |fr rm k a1 d1 tr2 h _ Q2]; subst.
  destruct (open_connection (generate_transaction_id random1) (firstn room d1)) as [c|e|] eqn:E; cbn [dbind] in Q2; [|inversion Q2..].
  inversion Q2 as [| | |to x k tr3 h Q3|]; subst. inversion Q3 as [| | | |fr rm k a2 d2 tr4 h _ Q4]; subst. inversion Q4 as [| |n x k tr5 h Q5| |]; subst.
  destruct (announce_parse (firstn room d2)) as [r|e|] eqn:P; cbn [dbind] in Q5; [|inversion Q5..]. inversion Q5 as [|t k tr6 h Q6| | |]; subst. inversion Q6; subst.
  destruct I as [K|[K|[K|[K|[K|[K|[]]]]]]]; try discriminate. injection K as <-.
  exists (client_text r). split; [do 5 right; left; reflexivity|]. cbn [client_main]. rewrite R. constructor. rewrite P. cbn [dbind]. constructor. constructor.
Qed.
Print Assumptions C118_saved_response.

(** *** The tool: tracker *)
Lemma tool_request_ok c tid info_hash : c < two64 -> tid < two32 -> length info_hash = 20%nat -> request_ok (tool_request c tid info_hash).
Proof.
  intros C T H. unfold request_ok, tool_request. cbn [an_connection an_action an_transaction an_info_hash an_peer_id an_downloaded an_left an_uploaded an_event an_ip an_key an_num_want an_port].
  repeat split; try assumption; try reflexivity; unfold tool_address, two64, two32; try lia.
Qed.
Lemma connect_response_exact d cr : bytes_ok d -> (connect_response_from d = Ok cr <->
  cr_action cr < two32 /\ cr_transaction cr < two32 /\ cr_connection cr < two64 /\ d = be_bytes 4 (cr_action cr) ++ be_bytes 4 (cr_transaction cr) ++ be_bytes 8 (cr_connection cr)).
Proof.
  intros B.
  assert (G : forall a t c, a < two32 -> t < two32 -> c < two64 -> connect_response_from (be_bytes 4 a ++ be_bytes 4 t ++ be_bytes 8 c) = Ok {| cr_action := a; cr_transaction := t; cr_connection := c |}).
  { intros a t c A T C. unfold connect_response_from. assert (L : blen (be_bytes 4 a ++ be_bytes 4 t ++ be_bytes 8 c) = 16) by (unfold blen; rewrite !app_length, !be_bytes_length; reflexivity). rewrite L.
    change (negb (16 =? 16)) with false. cbv iota.
    pose proof (be_mid [] (be_bytes 4 a) (be_bytes 4 t ++ be_bytes 8 c) 0 4 eq_refl ltac:(rewrite be_bytes_length; reflexivity)) as X0. cbn [app] in X0. rewrite X0. cbn [bind]. rewrite (four _ A).
    rewrite (be_mid (be_bytes 4 a) (be_bytes 4 t)) by (rewrite !be_bytes_length; reflexivity). cbn [bind]. rewrite (four _ T).
    pose proof (be_mid (be_bytes 4 a ++ be_bytes 4 t) (be_bytes 8 c) [] 8 16 ltac:(rewrite app_length, !be_bytes_length; reflexivity) ltac:(rewrite app_length, !be_bytes_length; reflexivity)) as X.
    rewrite app_nil_r, <- app_assoc in X. rewrite X. cbn [bind]. rewrite (eight _ C). reflexivity. }
  split.
  - intros H. assert (L : length d = 16%nat) by (unfold connect_response_from in H; destruct (blen d =? 16) eqn:E; cbn [negb] in H; [unfold blen in E; lia|discriminate]).
    destruct (cut 4 d B ltac:(lia)) as (a & q & -> & A & B1). rewrite app_length, be_bytes_length in L. destruct (cut 4 q B1 ltac:(lia)) as (t & q2 & -> & T & B2). rewrite app_length, be_bytes_length in L.
    destruct (cut 8 q2 B2 ltac:(lia)) as (c & q3 & -> & C & _). rewrite app_length, be_bytes_length in L. destruct q3; [|cbn [length] in L; lia]. rewrite app_nil_r in H |- *.
    rewrite (G a t c A T C) in H. injection H as <-. cbn [cr_action cr_transaction cr_connection]. repeat split; assumption.
  - intros (A & T & C & ->). rewrite G by assumption. destruct cr; reflexivity.
Qed.
(** What the tool announces, whatever machine it runs on: always the same peer at the address
    103.153.150.203 and port 1234, with nothing done or left to do, asking for any number of
    peers. *)
Theorem C118_tool_announce c tid info_hash : c < two64 -> tid < two32 -> length info_hash = 20%nat ->
  announce_bytes (tool_request c tid info_hash) =
    be_bytes 8 c ++ [0; 0; 0; 1] ++ be_bytes 4 tid ++ info_hash ++
    [242; 37; 39; 106; 238; 20; 22; 165; 226; 69; 96; 109; 212; 138; 243; 79; 136; 192; 29; 21] ++ repeat 0 24 ++
    [0; 0; 0; 0] ++ [103; 153; 150; 203] ++ [0; 0; 0; 0] ++ [255; 255; 255; 255] ++ [4; 210].
Proof. intros C T H. rewrite (announce_flat _ (tool_request_ok c tid info_hash C T H)). reflexivity. Qed.
Print Assumptions C118_tool_announce.
(** Exactly the runs of the tool that end well: the peers, and only they, are printed; but the
    action and the transaction of the connect response may be anything, and so may the
    transaction of the announce response. *)
Theorem C118_tool_exact T tid info_hash tr : tid < two32 -> (forall a d, In (Got a d) tr -> bytes_ok d) ->
  (plays (tool_exchange T tid info_hash) tr Succeeds <->
   exists a t c d r, a < two32 /\ t < two32 /\ c < two64 /\ response_ok r /\ firstn (N.to_nat 65536) d = response_bytes r /\ N.of_nat (length (ar_peers r)) = ar_leechers r + ar_seeders r /\
   tr = [Sent T (connect_request tid); Got T (be_bytes 4 a ++ be_bytes 4 t ++ be_bytes 8 c); Sent T (announce_bytes (tool_request c tid info_hash)); Got T d; Printed (tool_text r)]).
Proof.
  intros TI B. assert (LT : (1024 < N.to_nat 65536)%nat) by lia. assert (BIG : N.of_nat (N.to_nat 65536) < two32) by (rewrite N2Nat.id; reflexivity).
  unfold tool_exchange. rewrite (proj1 (C94_connect_request tid TI)). assert (L24 : (16 < 1024)%nat) by lia. set (small := 1024%nat) in *. clearbody small. set (room := N.to_nat 65536) in *. clearbody room. split.
  - intros Q. inversion Q as [| | |to d k tr1 h Q1|]; subst. inversion Q1 as [| | | |fr rm k a1 d1 tr2 h W1 Q2]; subst. specialize (W1 T eq_refl). subst a1.
    destruct (negb (blen (firstn small d1) =? 16)) eqn:E16; [inversion Q2|].
    assert (BD : bytes_ok d1) by (eapply B; right; left; reflexivity).
    destruct (connect_response_from (firstn small d1)) as [cr|e|] eqn:E; cbn [dbind] in Q2; [|inversion Q2..].
    apply connect_response_exact in E; [|apply bytes_ok_firstn, BD]. destruct E as (A & TT & C & E).
    assert (E' : d1 = be_bytes 4 (cr_action cr) ++ be_bytes 4 (cr_transaction cr) ++ be_bytes 8 (cr_connection cr) \/ small = 16%nat).
    { destruct (Nat.le_gt_cases (length d1) small) as [G|G]; [left; rewrite <- E; symmetry; apply firstn_all2, G|]. right. pose proof (f_equal (@length N) E) as K. rewrite firstn_length, !app_length, !be_bytes_length in K. lia. }
    destruct E' as [E'|E']; [|lia].
    inversion Q2 as [| | |to d k tr3 h Q3|]; subst. inversion Q3 as [| | | |fr rm k a2 d2 tr4 h W2 Q4]; subst. specialize (W2 T eq_refl). subst a2.
    destruct (announce_from (firstn room d2)) as [r|e|] eqn:P; cbn [dbind] in Q4; [|inversion Q4..]. inversion Q4 as [|t k tr6 h Q6| | |]; subst. inversion Q6; subst.
    assert (BD2 : bytes_ok d2) by (eapply B; right; right; right; left; reflexivity). apply C93_counted_exactly in P; [|apply bytes_ok_firstn, BD2]. destruct P as (O & P & K & _).
    exists (cr_action cr), (cr_transaction cr), (cr_connection cr), d2, r. repeat (split; [assumption|]). reflexivity.
  - intros (a & t & c & d & r & A & TT & C & O & E & K & ->).
    assert (BC : bytes_ok (be_bytes 4 a ++ be_bytes 4 t ++ be_bytes 8 c)) by (rewrite !bytes_ok_app; repeat split; apply be_bytes_ok).
    assert (LC : length (be_bytes 4 a ++ be_bytes 4 t ++ be_bytes 8 c) = 16%nat) by (rewrite !app_length, !be_bytes_length; reflexivity).
    assert (OC : connect_response_from (firstn small (be_bytes 4 a ++ be_bytes 4 t ++ be_bytes 8 c)) = Ok {| cr_action := a; cr_transaction := t; cr_connection := c |}).
    { rewrite firstn_all2 by lia. apply connect_response_exact; [exact BC|]. cbn [cr_action cr_transaction cr_connection]. auto. }
    assert (E16 : negb (blen (firstn small (be_bytes 4 a ++ be_bytes 4 t ++ be_bytes 8 c)) =? 16) = false) by (rewrite firstn_all2 by lia; unfold blen; rewrite LC; reflexivity).
    assert (P : announce_from (firstn room d) = Ok r).
    { apply C93_counted_exactly; [apply bytes_ok_firstn; apply (B T); do 3 right; left; reflexivity|]. repeat (split; [assumption|]). unfold blen. rewrite firstn_length. lia. }
    constructor. constructor; [congruence|]. rewrite E16, OC. cbn [dbind cr_connection]. constructor. constructor; [congruence|]. rewrite P. cbn [dbind]. constructor. constructor.
Qed.
Print Assumptions C118_tool_exact.
(** With an honest tracker at the address: all peers are printed exactly if the tracker sent
    all its peers (as many as leechers and seeders) and they fit; otherwise nothing is. *)
Theorem C118_tool_honest T tid info_hash cid sw tr how : tid < two32 -> length info_hash = 20%nat -> cid < two64 -> swarm_ok (sw info_hash) ->
  plays (tool_exchange T tid info_hash) tr how -> honest T cid sw None tr -> N.of_nat (length (sw_peers (sw info_hash))) <= 10919 -> sw_leechers (sw info_hash) + sw_seeders (sw info_hash) < 700000000 ->
  (how = Succeeds /\ In (Printed (tool_text (told tid (sw info_hash) (sw_peers (sw info_hash))))) tr /\ N.of_nat (length (sw_peers (sw info_hash))) = sw_leechers (sw info_hash) + sw_seeders (sw info_hash)) \/
  (how = Fails /\ (forall x, ~ In (Printed x) tr) /\ N.of_nat (length (sw_peers (sw info_hash))) <> sw_leechers (sw info_hash) + sw_seeders (sw info_hash)).
Proof.
  intros TI H C O Q V M SM. unfold tool_exchange in Q. rewrite (proj1 (C94_connect_request tid TI)) in Q. assert (LT : (N.of_nat (N.to_nat 65536) = 65536)) by apply N2Nat.id.
  assert (L24 : (16 <= 1024)%nat) by lia. set (small := 1024%nat) in *. clearbody small. set (room := N.to_nat 65536) in *. clearbody room.
  inversion Q as [| | |to d k tr1 h Q1|]; subst. inversion V as [|? ? ? ? V1| | |]; subst. rewrite bytes_eqb_refl in V1.
  inversion Q1 as [| | | |fr rm k a1 d1 tr2 h _ Q2]; subst. inversion V1 as [| |q a' tr' RP V2 | |]; subst. apply (reply_connect cid sw tid d1 TI) in RP. subst d1.
  assert (BC : bytes_ok (be_bytes 4 0 ++ be_bytes 4 tid ++ be_bytes 8 cid)) by (rewrite !bytes_ok_app; repeat split; apply be_bytes_ok).
  assert (LC : length (be_bytes 4 0 ++ be_bytes 4 tid ++ be_bytes 8 cid) = 16%nat) by (rewrite !app_length, !be_bytes_length; reflexivity).
  assert (OC : connect_response_from (be_bytes 4 0 ++ be_bytes 4 tid ++ be_bytes 8 cid) = Ok {| cr_action := 0; cr_transaction := tid; cr_connection := cid |}).
  { apply connect_response_exact; [exact BC|]. cbn [cr_action cr_transaction cr_connection]. repeat split; auto. }
  rewrite firstn_all2 in Q2 by lia. assert (E16 : negb (blen (be_bytes 4 0 ++ be_bytes 4 tid ++ be_bytes 8 cid) =? 16) = false) by (unfold blen; rewrite LC; reflexivity).
  rewrite E16, OC in Q2. cbn [dbind cr_connection] in Q2.
  inversion Q2 as [| | |to d k tr3 h Q3|]; subst. inversion V2 as [|? ? ? ? V3| | |]; subst. rewrite bytes_eqb_refl in V3.
  inversion Q3 as [| | | |fr rm k a2 d2 tr4 h _ Q4]; subst. inversion V3 as [| |q a3 tr' RP V4 | |]; subst.
  apply (reply_announce cid sw _ (tool_request cid tid info_hash) d2 (tool_request_ok cid tid info_hash C TI H) eq_refl eq_refl eq_refl) in RP. cbn [tool_request an_transaction an_info_hash] in RP. subst d2.
  set (s := sw info_hash) in *. destruct O as (I & L & S' & F).
  pose proof (from_datagram 1 tid (sw_interval s) (sw_leechers s) (sw_seeders s) (sw_peers s) [] ltac:(reflexivity) TI I L S' F ltac:(cbn [length]; lia)) as X.
  assert (EQ : datagram 1 tid (sw_interval s) (sw_leechers s) (sw_seeders s) (sw_peers s) [] = response_bytes (told tid s (sw_peers s))) by (unfold datagram; rewrite app_nil_r; reflexivity).
  rewrite EQ in X. rewrite firstn_all2 in Q4 by (unfold response_bytes; rewrite !app_length, !be_bytes_length, endpoints_length; cbn [told ar_peers]; lia).
  rewrite X in Q4. change (negb (1 =? 1)) with false in Q4. cbv iota in Q4. assert (SM' : (two32 <=? 20 + (sw_leechers s + sw_seeders s) * 6) = false) by (unfold two32; lia). rewrite SM' in Q4.
  cbn [length] in Q4. destruct (N.of_nat (6 * length (sw_peers s) + 0) =? (sw_leechers s + sw_seeders s) * 6) eqn:Z; cbn [negb dbind] in Q4.
  - inversion Q4 as [|t k tr6 h Q6| | |]; subst. inversion Q6; subst. left. split; [reflexivity|]. split; [do 4 right; left; reflexivity|lia].
  - inversion Q4; subst. right. split; [reflexivity|]. split; [intros x [K|[K|[K|[K|[]]]]]; discriminate|lia].
Qed.
Print Assumptions C118_tool_honest.
(** A dishonest tracker can crash the tool: exactly the counts whose sum does not fit. *)
Theorem C118_tool_panics_refuted T tid info_hash tr : tid < two32 -> (forall a d, In (Got a d) tr -> bytes_ok d) -> plays (tool_exchange T tid info_hash) tr Panics ->
  exists c d, tr = [Sent T (connect_request tid); Got T c; Sent T (announce_bytes (tool_request (field c 8 8) tid info_hash)); Got T d] /\ length c = 16%nat /\ (20 <= length d)%nat /\
    field d 0 4 = 1 /\ two32 <= 20 + 6 * (field d 12 4 + field d 16 4).
Proof.
  intros TI B Q. unfold tool_exchange in Q. rewrite (proj1 (C94_connect_request tid TI)) in Q. assert (L24 : (16 < 1024)%nat) by lia. set (small := 1024%nat) in *. clearbody small.
  assert (LT : (20 <= N.to_nat 65536)%nat) by lia. set (room := N.to_nat 65536) in *. clearbody room.
  inversion Q as [| | |to d k tr1 h Q1|]; subst. inversion Q1 as [| | | |fr rm k a1 d1 tr2 h W1 Q2]; subst. specialize (W1 T eq_refl). subst a1.
  destruct (negb (blen (firstn small d1) =? 16)) eqn:E16; [inversion Q2|].
  assert (L1 : length d1 = 16%nat) by (unfold blen in E16; rewrite firstn_length in E16; lia). rewrite firstn_all2 in Q2 by lia.
  pose proof (proj2 (proj2 C93_client_never_panics) d1) as NP.
  destruct (connect_response_from d1) as [cr|e|] eqn:E; cbn [dbind] in Q2; [|inversion Q2|congruence].
  inversion Q2 as [| | |to d k tr3 h Q3|]; subst. inversion Q3 as [| | | |fr rm k a2 d2 tr4 h W2 Q4]; subst. specialize (W2 T eq_refl). subst a2.
  assert (BD1 : bytes_ok d1) by (eapply B; right; left; reflexivity). assert (BD2 : bytes_ok d2) by (eapply B; right; right; right; left; reflexivity).
  destruct (announce_from (firstn room d2)) as [r|e|] eqn:P; cbn [dbind] in Q4; [inversion Q4 as [|t k tr6 h Q6| | |]; subst; inversion Q6|inversion Q4|]. inversion Q4; subst.
  apply C93_counts_panic_refuted in P; [|apply bytes_ok_firstn, BD2]. destruct P as (P1 & P2 & P3). rewrite firstn_length in P1.
  assert (FF : forall off n, (off + n <= 20)%nat -> field (firstn room d2) off n = field d2 off n).
  { intros off n K. unfold field. f_equal. rewrite skipn_firstn_comm, firstn_firstn. f_equal. lia. }
  rewrite !FF in P2, P3 by lia. rewrite FF in P3 by lia.
  apply connect_response_exact in E; [|exact BD1]. destruct E as (A & TT & C & ->). exists (be_bytes 4 (cr_action cr) ++ be_bytes 4 (cr_transaction cr) ++ be_bytes 8 (cr_connection cr)), d2.
  assert (FC : field (be_bytes 4 (cr_action cr) ++ be_bytes 4 (cr_transaction cr) ++ be_bytes 8 (cr_connection cr)) 8 8 = cr_connection cr).
  { rewrite app_assoc. rewrite <- (app_nil_r (be_bytes 8 (cr_connection cr))). rewrite field_mid by (rewrite ?app_length, !be_bytes_length; reflexivity). apply eight, C. }
  rewrite FC. split; [reflexivity|]. repeat split; try assumption. lia.
Qed.
Print Assumptions C118_tool_panics_refuted.

(** *** Texts and numbers *)
(** A peer is printed as the four bytes of its address and its port. *)
Theorem C118_peer_line e : endpoint_ok e -> peer_line e = line (v4_text e) /\
  exists a b c d, ep_ip e = a * 16777216 + b * 65536 + c * 256 + d /\ a < 256 /\ b < 256 /\ c < 256 /\ d < 256 /\
  v4_text e = decimal a ++ ascii_bytes "." ++ decimal b ++ ascii_bytes "." ++ decimal c ++ ascii_bytes "." ++ decimal d ++ ascii_bytes ":" ++ decimal (ep_port e).
Proof.
  intros [I P].
  assert (W : forall k, N.land (N.shiftr (ep_ip e) k) 255 = ep_ip e / 2 ^ k mod 256) by (intros k; change 255 with (N.ones 8); rewrite N.land_ones, N.shiftr_div_pow2; reflexivity).
  assert (V : be_bytes 4 (ep_ip e) = [ep_ip e / 16777216 mod 256; ep_ip e / 65536 mod 256; ep_ip e / 256 mod 256; ep_ip e mod 256]).
  { unfold be_bytes. cbn [le_bytes rev app]. rewrite !N.div_div by lia. reflexivity. }
  unfold peer_line, v4_text. rewrite V, !W. change (2 ^ 24) with 16777216. change (2 ^ 16) with 65536. change (2 ^ 8) with 256. change (2 ^ 0) with 1. rewrite N.div_1_r.
  split; [reflexivity|]. exists (ep_ip e / 16777216 mod 256), (ep_ip e / 65536 mod 256), (ep_ip e / 256 mod 256), (ep_ip e mod 256).
  split; [|split; [apply N.mod_lt; lia|split; [apply N.mod_lt; lia|split; [apply N.mod_lt; lia|split; [apply N.mod_lt; lia|reflexivity]]]]].
  unfold two32 in I. set (x := ep_ip e) in *. clearbody x. clear - I.
  assert (E1 : x / 65536 = x / 256 / 256) by (rewrite N.div_div by lia; reflexivity). assert (E2 : x / 16777216 = x / 256 / 256 / 256) by (rewrite !N.div_div by lia; reflexivity). rewrite E1, E2.
  pose proof (N.div_mod x 256 ltac:(lia)). pose proof (N.div_mod (x / 256) 256 ltac:(lia)). pose proof (N.div_mod (x / 256 / 256) 256 ltac:(lia)).
  assert (x / 256 / 256 / 256 < 256) by (rewrite !N.div_div by lia; apply N.div_lt_upper_bound; lia). rewrite (N.mod_small (x / 256 / 256 / 256) 256) by assumption.
  generalize dependent (x / 256 / 256 / 256). generalize dependent (x / 256 / 256 mod 256). generalize dependent (x / 256 / 256). generalize dependent (x / 256 mod 256). generalize dependent (x / 256). generalize dependent (x mod 256). intros. lia.
Qed.
Print Assumptions C118_peer_line.
(** The trackers of the client are those whose URLs are valid, in order: when all are, the
    numbers are those of the lines that [trackers] prints; every invalid one before shifts
    them. *)
Theorem C118_numbers parse_url t pre s post u : concat (t_tracker_groups t) = pre ++ s :: post -> parse_url s = Some u ->
  nth_error (tracker_urls parse_url t) (length (filter (fun x => match parse_url x with Some _ => true | None => false end) pre)) = Some u /\
  (Forall (fun x => parse_url x <> None) pre -> nth_error (tracker_urls parse_url t) (length pre) = Some u).
Proof.
  intros E U. assert (G : tracker_urls parse_url t = flat_map (fun s => match parse_url s with Some u => [u] | None => [] end) (concat (t_tracker_groups t))).
  { unfold tracker_urls. clear E. induction (t_tracker_groups t) as [|g l IH]; [reflexivity|]. cbn [flat_map concat]. rewrite flat_map_app, IH. reflexivity. }
  assert (A : nth_error (tracker_urls parse_url t) (length (filter (fun x => match parse_url x with Some _ => true | None => false end) pre)) = Some u).
  { rewrite G, E. clear E G. induction pre as [|x pre IH]; [cbn [app flat_map filter length]; rewrite U; reflexivity|].
    cbn [app flat_map filter]. destruct (parse_url x); cbn [app length nth_error]; exact IH. }
  split; [exact A|]. intros F. rewrite <- A. f_equal. clear - F. induction F as [|x l K F IH]; [reflexivity|]. cbn [filter]. destruct (parse_url x); [cbn [length]; congruence|congruence].
Qed.
Print Assumptions C118_numbers.
(** The [trackers] command prints one line per URL. *)
Theorem C118_trackers sha1 read lookup parse_url debug random1 random2 download filename data t tr how : read filename = Some data -> from_bytes sha1 data = Ok t ->
  (plays (client_main sha1 read lookup parse_url debug random1 random2 download (CTrackers filename)) tr how <->
   how = Succeeds /\ tr = [Printed (concat (map (fun u => u ++ [10]) (concat (t_tracker_groups t))))]).
Proof.
  intros R F. cbn [client_main]. unfold with_file. rewrite R, F. cbn [tbind].
  assert (G : flat_map (flat_map line) (t_tracker_groups t) = concat (map (fun u => u ++ [10]) (concat (t_tracker_groups t)))).
  { clear F. induction (t_tracker_groups t) as [|g l IH]; [reflexivity|]. cbn [flat_map concat]. rewrite map_app, concat_app. f_equal; [apply flat_map_concat_map|exact IH]. }
  rewrite G. split; [intros Q; inversion Q as [|tx k tr' h Q'| | |]; subst; inversion Q'; subst; auto|intros [-> ->]; repeat constructor].
Qed.
Print Assumptions C118_trackers.
(** The peer id: eight dashes, then the last twelve random bytes. *)
Theorem C118_peer_id random : length random = 20%nat -> generate_peer_id random = ascii_bytes "--------" ++ skipn 8 random /\ length (generate_peer_id random) = 20%nat.
Proof.
  intros L. do 20 (destruct random as [|? random]; [discriminate|]). destruct random; [|discriminate]. split; reflexivity.
Qed.
Print Assumptions C118_peer_id.
(** [download] reaches the transfer exactly when the files need the last piece; otherwise the
    program panics before it opens a connection. *)
Theorem C118_download_refuted sha1 read lookup parse_url debug random1 random2 download filename peer data t : read filename = Some data -> from_bytes sha1 data = Ok t -> t_pieces t <> [] ->
  let p := client_main sha1 read lookup parse_url debug random1 random2 download (CDownload filename peer) in
  (t_total_length t < t_piece_length t * (N.of_nat (length (t_pieces t)) - 1) -> exists text, p = DPrint text (DEnd Panics)) /\
  (t_piece_length t * (N.of_nat (length (t_pieces t)) - 1) <= t_total_length t ->
   exists text n, p = DPrint text (DPrint (last_text n peer) (download t peer)) /\ n <= t_piece_length t /\ t_piece_length t * (N.of_nat (length (t_pieces t)) - 1) + n = t_total_length t).
Proof.
  intros R F NE. cbn zeta. cbn [client_main]. unfold with_file. rewrite R, F. cbn [tbind].
  assert (K : checked_mul (E := terr) (t_piece_length t) (N.of_nat (length (t_pieces t))) = Ok (t_piece_length t * N.of_nat (length (t_pieces t)))).
  { unfold from_bytes in F. repeat (apply bind_ok in F; destruct F as (? & _ & F)). destruct (negb _); [discriminate|].
    apply bind_ok in F. destruct F as (? & _ & F). apply bind_ok in F. destruct F as (? & _ & F). apply bind_ok in F. destruct F as (? & Hm & F). pose proof Hm as Hm'. unfold checked_mul in Hm'.
    destruct (two64 <=? _); [discriminate|]. injection Hm' as <-. destruct (_ <? _); [discriminate|]. injection F as <-. cbn [t_piece_length t_pieces]. exact Hm. }
  rewrite K. cbn [tbind]. split.
  - intros H. rewrite (proj2 (C32_when_it_fails sha1 data t F NE) H). eexists. reflexivity.
  - intros H. destruct (C32_last_piece_partial sha1 data t F NE H) as (n & E & N1 & N2). rewrite E. do 2 eexists. split; [reflexivity|]. auto.
Qed.
Print Assumptions C118_download_refuted.
(** Cases. *)
Example C118_case :
  let e1 := {| ep_ip := 2130706433; ep_port := 6881 |} in
  let e2 := {| ep_ip := 167772161; ep_port := 80 |} in
  let s := {| sw_interval := 1800; sw_leechers := 1; sw_seeders := 1; sw_peers := [e1; e2] |} in
  let r := told 66051 s [e1; e2] in
  peer_line e1 = ascii_bytes "127.0.0.1:6881" ++ [10] /\
  generate_peer_id (map N.of_nat (seq 0 20)) = ascii_bytes "--------" ++ [8; 9; 10; 11; 12; 13; 14; 15; 16; 17; 18; 19] /\
  tool_text r = ascii_bytes "action = 1" ++ [10] ++ ascii_bytes "transaction_id = 66051" ++ [10] ++ ascii_bytes "interval = 1800" ++ [10] ++ ascii_bytes "leechers = 1" ++ [10] ++
    ascii_bytes "seeders = 1" ++ [10] ++ ascii_bytes "127.0.0.1:6881" ++ [10] ++ ascii_bytes "10.0.0.1:80" ++ [10] /\
  plays (client_exchange (ascii_bytes "T") [0; 0; 0; 7] [0; 1; 2; 3] (repeat 5 20))
    [Sent (ascii_bytes "T") (connect_request 7); Got (ascii_bytes "T") [0; 0; 0; 0; 0; 0; 0; 7; 0; 0; 0; 0; 0; 0; 0; 9];
     Sent (ascii_bytes "T") (send_tracker_request 9 66051 (repeat 5 20) 6681); Got (ascii_bytes "mallory") (response_bytes r);
     Saved (ascii_bytes "response.bin") (response_bytes r); Printed (client_text r)] Succeeds /\
  client_text (told 1 s []) = ascii_bytes "AnnounceResponse {" ++ [10] ++ ascii_bytes "    transaction_id: 1," ++ [10] ++ ascii_bytes "    interval: 1800," ++ [10] ++ ascii_bytes "    leechers: 1," ++ [10] ++
    ascii_bytes "    seeders: 1," ++ [10] ++ ascii_bytes "    peers: []," ++ [10] ++ ascii_bytes "}" ++ [10].
Proof.
  cbn zeta. split; [reflexivity|]. split; [reflexivity|]. split; [vm_compute; reflexivity|]. split; [|vm_compute; reflexivity].
  constructor. constructor; [discriminate|]. change (plays (DSend (ascii_bytes "T") (send_tracker_request 9 66051 (repeat 5 20) 6681) (DRecv None (N.to_nat 4096) (fun d =>
    DSave response_file d (dbind (announce_parse d) (fun r => DPrint (client_text r) (DEnd Succeeds))))))
    [Sent (ascii_bytes "T") (send_tracker_request 9 66051 (repeat 5 20) 6681);
     Got (ascii_bytes "mallory") (response_bytes (told 66051 {| sw_interval := 1800; sw_leechers := 1; sw_seeders := 1; sw_peers := [{| ep_ip := 2130706433; ep_port := 6881 |}; {| ep_ip := 167772161; ep_port := 80 |}] |} [{| ep_ip := 2130706433; ep_port := 6881 |}; {| ep_ip := 167772161; ep_port := 80 |}]));
     Saved (ascii_bytes "response.bin") (response_bytes (told 66051 {| sw_interval := 1800; sw_leechers := 1; sw_seeders := 1; sw_peers := [{| ep_ip := 2130706433; ep_port := 6881 |}; {| ep_ip := 167772161; ep_port := 80 |}] |} [{| ep_ip := 2130706433; ep_port := 6881 |}; {| ep_ip := 167772161; ep_port := 80 |}]));
     Printed (client_text (told 66051 {| sw_interval := 1800; sw_leechers := 1; sw_seeders := 1; sw_peers := [{| ep_ip := 2130706433; ep_port := 6881 |}; {| ep_ip := 167772161; ep_port := 80 |}] |} [{| ep_ip := 2130706433; ep_port := 6881 |}; {| ep_ip := 167772161; ep_port := 80 |}]))] Succeeds).
  constructor. constructor; [discriminate|].
  match goal with |- context [firstn ?n ?x] => replace (firstn n x) with x by (symmetry; apply firstn_all2; apply Nat.leb_le; vm_compute; reflexivity) end.
  constructor.
  match goal with |- context [announce_parse ?x] => let v := eval vm_compute in (announce_parse x) in replace (announce_parse x) with v by (vm_compute; reflexivity) end.
  cbn [dbind]. constructor. constructor.
Qed.
