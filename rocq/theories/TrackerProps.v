(** Tracker messages: C93, C94. *)
From Verif Require Import Base BaseProofs BinaryProofs2 TrackerModel PeerModel.
Local Open Scope string_scope. Local Open Scope list_scope. Local Open Scope N_scope.

(** *** Specification: BEP 15 *)
(** An announce response on the wire. *)
Definition endpoint_bytes (e : endpoint) : bytes := be_bytes 4 (ep_ip e) ++ be_bytes 2 (ep_port e).
Definition response_bytes (r : announce_response) : bytes :=
  be_bytes 4 1 ++ be_bytes 4 (ar_transaction r) ++ be_bytes 4 (ar_interval r) ++ be_bytes 4 (ar_leechers r) ++ be_bytes 4 (ar_seeders r) ++
  concat (map endpoint_bytes (ar_peers r)).
Definition endpoint_ok (e : endpoint) : Prop := ep_ip e < two32 /\ ep_port e < two16.
Definition response_ok (r : announce_response) : Prop :=
  ar_transaction r < two32 /\ ar_interval r < two32 /\ ar_leechers r < two32 /\ ar_seeders r < two32 /\ Forall endpoint_ok (ar_peers r).
(** The number in [n] bytes at an offset. *)
Definition field (d : bytes) (off n : nat) : N := of_be_bytes (firstn n (skipn off d)).

(** *** Lemmas *)
Lemma four v : v < two32 -> of_be_bytes (be_bytes 4 v) = v.
Proof. intros H. apply of_be_be_bytes. exact H. Qed.
Lemma two v : v < two16 -> of_be_bytes (be_bytes 2 v) = v.
Proof. intros H. apply of_be_be_bytes. exact H. Qed.
Lemma eight v : v < two64 -> of_be_bytes (be_bytes 8 v) = v.
Proof. intros H. apply of_be_be_bytes. exact H. Qed.
Lemma be_mid p s q a b : a = length p -> b = (length p + length s)%nat -> be_at (p ++ s ++ q) a b = Ok (of_be_bytes s).
Proof.
  intros -> ->. unfold be_at, slice. rewrite !app_length.
  assert (E : ((length p <=? length p + length s)%nat && (length p + length s <=? length p + (length s + length q))%nat) = true)
    by (apply andb_true_iff; split; apply Nat.leb_le; lia).
  rewrite E. rewrite skipn_app_length. replace (length p + length s - length p)%nat with (length s) by lia. rewrite firstn_app_length. reflexivity.
Qed.
Lemma cut n (d : bytes) : bytes_ok d -> (n <= length d)%nat -> exists v q, d = be_bytes n v ++ q /\ v < 256 ^ N.of_nat n /\ bytes_ok q.
Proof.
  intros B L. exists (of_be_bytes (firstn n d)), (skipn n d). pose proof (firstn_skipn n d) as E. rewrite <- E in B. apply bytes_ok_app in B.
  assert (K : length (firstn n d) = n) by (rewrite firstn_length; lia).
  pose proof (be_of_be_bytes _ (proj1 B)) as W. rewrite K in W. rewrite W. split; [congruence|]. split; [|apply B]. pose proof (of_be_bytes_lt _ (proj1 B)) as X. rewrite K in X. exact X.
Qed.
Lemma endpoints_cut : forall n (d : bytes), bytes_ok d -> (length d < n)%nat -> exists es junk, d = concat (map endpoint_bytes es) ++ junk /\ (length junk < 6)%nat /\ Forall endpoint_ok es.
Proof.
  induction n as [|n IH]; intros d B L; [lia|]. destruct (Nat.lt_ge_cases (length d) 6) as [S|S]; [exists [], d; auto|].
  destruct (cut 4 d B ltac:(lia)) as (ip & q & -> & I & B1). rewrite app_length, be_bytes_length in L, S. destruct (cut 2 q B1 ltac:(lia)) as (port & q2 & -> & P & B2).
  rewrite app_length, be_bytes_length in L. destruct (IH q2 B2 ltac:(lia)) as (es & junk & -> & J & F). exists ({| ep_ip := ip; ep_port := port |} :: es), junk.
  cbn [map concat]. unfold endpoint_bytes at 2. cbn [ep_ip ep_port]. rewrite <- !app_assoc. split; [reflexivity|]. split; [exact J|]. constructor; [|exact F]. split; [exact I|exact P].
Qed.
Lemma endpoint_bytes_length e : length (endpoint_bytes e) = 6%nat.
Proof. unfold endpoint_bytes. rewrite app_length, !be_bytes_length. reflexivity. Qed.
Lemma endpoints_length es : length (concat (map endpoint_bytes es)) = (6 * length es)%nat.
Proof. induction es as [|e es IH]; [reflexivity|]. cbn [map concat length]. rewrite app_length, endpoint_bytes_length, IH. lia. Qed.
Lemma endpoint_mid p e q a : a = length p -> endpoint_ok e -> endpoint_at (p ++ endpoint_bytes e ++ q) a = Ok e.
Proof.
  intros -> [I P]. unfold endpoint_at, endpoint_bytes. rewrite <- (app_assoc (be_bytes 4 _)).
  rewrite (be_mid p (be_bytes 4 (ep_ip e))) by (rewrite ?be_bytes_length; reflexivity). cbn [bind].
  rewrite (app_assoc p). rewrite (be_mid (p ++ be_bytes 4 (ep_ip e)) (be_bytes 2 (ep_port e))) by (rewrite ?app_length, ?be_bytes_length; lia). cbn [bind].
  rewrite (four _ I), (two _ P). destruct e; reflexivity.
Qed.
Lemma while_reads : forall es fuel p junk, Forall endpoint_ok es -> (length junk < 6)%nat -> (length es < fuel)%nat ->
  endpoints_while fuel (p ++ concat (map endpoint_bytes es) ++ junk) (length p) = Ok es.
Proof.
  induction es as [|e es IH]; intros fuel p junk F J L; (destruct fuel as [|fuel]; [cbn [length] in L; lia|]); cbn [endpoints_while map concat].
  - destruct (Nat.leb_spec (length p + 6) (length (p ++ [] ++ junk))) as [X|X]; [cbn [app] in X; rewrite app_length in X; lia|reflexivity].
  - inversion F as [|? ? E F']; subst. destruct (Nat.leb_spec (length p + 6) (length (p ++ (endpoint_bytes e ++ concat (map endpoint_bytes es)) ++ junk))) as [X|X];
      [|rewrite !app_length, endpoint_bytes_length in X; lia].
    rewrite <- app_assoc. rewrite (endpoint_mid p e _ _ eq_refl E). cbn [bind]. rewrite (app_assoc p).
    replace (length p + 6)%nat with (length (p ++ endpoint_bytes e)) by (rewrite app_length, endpoint_bytes_length; lia). cbn [length] in L. rewrite IH; [reflexivity|exact F'|exact J|lia].
Qed.
Lemma counted_reads : forall es i p junk, Forall endpoint_ok es -> N.of_nat (length p) = 20 + i * 6 -> 20 + (i + N.of_nat (length es)) * 6 < two32 ->
  endpoints_counted (p ++ concat (map endpoint_bytes es) ++ junk) i (length es) = Ok es.
Proof.
  induction es as [|e es IH]; intros i p junk F P L; cbn [endpoints_counted map concat length]; [reflexivity|]. inversion F as [|? ? E F']; subst. cbn [length] in L. unfold two32 in L.
  unfold mul32, add32. assert (X1 : (i * 6 <? two32) = true) by (unfold two32; lia). rewrite X1. cbn [bind]. assert (X2 : (20 + i * 6 <? two32) = true) by (unfold two32; lia). rewrite X2. cbn [bind].
  rewrite <- app_assoc. rewrite (endpoint_mid p e) by (try exact E; lia). cbn [bind]. rewrite (app_assoc p). rewrite IH; [reflexivity|exact F'| |unfold two32; lia].
  rewrite app_length, endpoint_bytes_length. lia.
Qed.
(** Every datagram of at least 20 bytes, cut. *)
Definition datagram (a t i l s : N) (es : list endpoint) (junk : bytes) : bytes :=
  be_bytes 4 a ++ be_bytes 4 t ++ be_bytes 4 i ++ be_bytes 4 l ++ be_bytes 4 s ++ concat (map endpoint_bytes es) ++ junk.
Lemma datagram_of d : bytes_ok d -> (20 <= length d)%nat -> exists a t i l s es junk, d = datagram a t i l s es junk /\
  a < two32 /\ t < two32 /\ i < two32 /\ l < two32 /\ s < two32 /\ Forall endpoint_ok es /\ (length junk < 6)%nat.
Proof.
  intros B L. destruct (cut 4 d B ltac:(lia)) as (a & q1 & -> & A & B1). rewrite app_length, be_bytes_length in L.
  destruct (cut 4 q1 B1 ltac:(lia)) as (t & q2 & -> & T & B2). rewrite app_length, be_bytes_length in L.
  destruct (cut 4 q2 B2 ltac:(lia)) as (i & q3 & -> & I & B3). rewrite app_length, be_bytes_length in L.
  destruct (cut 4 q3 B3 ltac:(lia)) as (l & q4 & -> & LL & B4). rewrite app_length, be_bytes_length in L.
  destruct (cut 4 q4 B4 ltac:(lia)) as (s & q5 & -> & SS & B5).
  destruct (endpoints_cut (S (length q5)) q5 B5 ltac:(lia)) as (es & junk & -> & J & F). exists a, t, i, l, s, es, junk. repeat split; assumption.
Qed.
Lemma datagram_length a t i l s es junk : length (datagram a t i l s es junk) = (20 + 6 * length es + length junk)%nat.
Proof. unfold datagram. rewrite !app_length, !be_bytes_length, endpoints_length. lia. Qed.
Lemma at_pieces (w0 w1 w2 w3 w4 q : bytes) : length w0 = 4%nat -> length w1 = 4%nat -> length w2 = 4%nat -> length w3 = 4%nat -> length w4 = 4%nat ->
  let d := w0 ++ w1 ++ w2 ++ w3 ++ w4 ++ q in
  be_at d 0 4 = Ok (of_be_bytes w0) /\ be_at d 4 8 = Ok (of_be_bytes w1) /\ be_at d 8 12 = Ok (of_be_bytes w2) /\ be_at d 12 16 = Ok (of_be_bytes w3) /\ be_at d 16 20 = Ok (of_be_bytes w4).
Proof.
  intros H0 H1 H2 H3 H4 d. subst d. split; [apply (be_mid [] w0); cbn [length]; lia|].
  split; [apply (be_mid w0 w1); lia|]. split; [rewrite (app_assoc w0); apply (be_mid (w0 ++ w1) w2); rewrite app_length; lia|].
  split; [rewrite (app_assoc w0), (app_assoc (w0 ++ w1)); apply (be_mid ((w0 ++ w1) ++ w2) w3); rewrite !app_length; lia|].
  rewrite (app_assoc w0), (app_assoc (w0 ++ w1)), (app_assoc ((w0 ++ w1) ++ w2)); apply (be_mid (((w0 ++ w1) ++ w2) ++ w3) w4); rewrite !app_length; lia.
Qed.
Lemma datagram_at a t i l s es junk : a < two32 -> t < two32 -> i < two32 -> l < two32 -> s < two32 ->
  let d := datagram a t i l s es junk in
  be_at d 0 4 = Ok a /\ be_at d 4 8 = Ok t /\ be_at d 8 12 = Ok i /\ be_at d 12 16 = Ok l /\ be_at d 16 20 = Ok s.
Proof.
  intros A T I L S d. subst d. unfold datagram.
  pose proof (at_pieces (be_bytes 4 a) (be_bytes 4 t) (be_bytes 4 i) (be_bytes 4 l) (be_bytes 4 s) (concat (map endpoint_bytes es) ++ junk)
    (be_bytes_length _ _) (be_bytes_length _ _) (be_bytes_length _ _) (be_bytes_length _ _) (be_bytes_length _ _)) as X. cbv zeta in X.
  rewrite !four in X by assumption. exact X.
Qed.
Lemma parse_datagram a t i l s es junk : a < two32 -> t < two32 -> i < two32 -> l < two32 -> s < two32 -> Forall endpoint_ok es -> (length junk < 6)%nat ->
  announce_parse (datagram a t i l s es junk) =
  if a =? 1 then Ok {| ar_transaction := t; ar_interval := i; ar_leechers := l; ar_seeders := s; ar_peers := es |} else Err (TAction a).
Proof.
  intros A T I L S F J. destruct (datagram_at a t i l s es junk A T I L S) as (D0 & D1 & D2 & D3 & D4). pose proof (datagram_length a t i l s es junk) as LEN.
  unfold announce_parse. assert (X4 : (blen (datagram a t i l s es junk) <? 4) = false) by (unfold blen; rewrite LEN; lia). assert (X20 : (blen (datagram a t i l s es junk) <? 20) = false) by (unfold blen; rewrite LEN; lia).
  rewrite X4, D0. cbn [bind]. destruct (a =? 1); cbn [negb]; [|reflexivity]. rewrite X20, D1, D2, D3, D4. cbn [bind].
  assert (W : endpoints_while (Datatypes.S (length (datagram a t i l s es junk))) (datagram a t i l s es junk) 20 = Ok es).
  { rewrite LEN. unfold datagram. rewrite (app_assoc (be_bytes 4 a)), (app_assoc (_ ++ _) (be_bytes 4 i)), (app_assoc (_ ++ _) (be_bytes 4 l)), (app_assoc (_ ++ _) (be_bytes 4 s)).
    match goal with |- endpoints_while ?f (?p ++ _) 20 = _ => replace 20%nat with (length p) by (rewrite !app_length, !be_bytes_length; reflexivity) end. apply while_reads; [exact F|exact J|]. rewrite !app_length, !be_bytes_length. lia. }
  rewrite W. reflexivity.
Qed.
Lemma from_datagram a t i l s es junk : a < two32 -> t < two32 -> i < two32 -> l < two32 -> s < two32 -> Forall endpoint_ok es -> (length junk < 6)%nat ->
  announce_from (datagram a t i l s es junk) =
  if negb (a =? 1) then Err (TAction a) else if two32 <=? 20 + (l + s) * 6 then Panic
  else if negb (N.of_nat (6 * length es + length junk) =? (l + s) * 6) then Err (TLength (20 + (l + s) * 6) (blen (datagram a t i l s es junk)))
  else Ok {| ar_transaction := t; ar_interval := i; ar_leechers := l; ar_seeders := s; ar_peers := es |}.
Proof.
  intros A T I L S F J. destruct (datagram_at a t i l s es junk A T I L S) as (D0 & D1 & D2 & D3 & D4). pose proof (datagram_length a t i l s es junk) as LEN.
  unfold announce_from. assert (X20 : (blen (datagram a t i l s es junk) <? 20) = false) by (unfold blen; rewrite LEN; lia).
  rewrite X20, D0, D1, D2, D3, D4. cbn [bind]. destruct (a =? 1); cbn [negb]; [|reflexivity]. unfold add32, mul32. unfold two32 in *.
  destruct (4294967296 <=? 20 + (l + s) * 6) eqn:C.
  - destruct (l + s <? 4294967296); [|reflexivity]. cbn [bind]. destruct ((l + s) * 6 <? 4294967296); [|reflexivity]. cbn [bind]. destruct (20 + (l + s) * 6 <? 4294967296) eqn:E; [lia|reflexivity].
  - assert (E1 : (l + s <? 4294967296) = true) by lia. assert (E2 : ((l + s) * 6 <? 4294967296) = true) by lia. assert (E3 : (20 + (l + s) * 6 <? 4294967296) = true) by lia.
    rewrite E1. cbn [bind]. rewrite E2. cbn [bind]. rewrite E3. cbn [bind].
    assert (BL : blen (datagram a t i l s es junk) = 20 + N.of_nat (6 * length es + length junk)) by (unfold blen; rewrite LEN; lia). rewrite BL.
    assert (EQ : (20 + N.of_nat (6 * length es + length junk) =? 20 + (l + s) * 6) = (N.of_nat (6 * length es + length junk) =? (l + s) * 6)) by lia. rewrite EQ.
    destruct (N.of_nat (6 * length es + length junk) =? (l + s) * 6) eqn:M; cbn [negb]; [|reflexivity].
    assert (N1 : junk = []) by (destruct junk; [reflexivity|exfalso; cbn [length] in *; lia]). subst junk. cbn [length] in M.
    assert (N2 : N.to_nat (l + s) = length es) by lia. rewrite N2.
    assert (W : endpoints_counted (datagram a t i l s es []) 0 (length es) = Ok es).
    { unfold datagram. rewrite (app_assoc (be_bytes 4 a)), (app_assoc (_ ++ _) (be_bytes 4 i)), (app_assoc (_ ++ _) (be_bytes 4 l)), (app_assoc (_ ++ _) (be_bytes 4 s)).
      apply counted_reads; [exact F|rewrite !app_length, !be_bytes_length; reflexivity|unfold two32; lia]. }
    rewrite W. reflexivity.
Qed.

(** *** C93 *)
(** A connection is opened exactly on the 16 bytes that say action 0, our transaction and the
    connection. *)
Theorem C93_connect_exactly tid d c : tid < two32 -> bytes_ok d -> (open_connection tid d = Ok c <-> c < two64 /\ d = be_bytes 4 0 ++ be_bytes 4 tid ++ be_bytes 8 c).
Proof.
  intros T B.
  assert (Q : forall a t k, a < two32 -> t < two32 -> k < two64 -> open_connection tid (be_bytes 4 a ++ be_bytes 4 t ++ be_bytes 8 k) =
     if negb (a =? 0) then Err (TAction a) else if negb (t =? tid) then Err (TTransaction tid t) else Ok k).
  { intros a t k A T' K. unfold open_connection. assert (L : blen (be_bytes 4 a ++ be_bytes 4 t ++ be_bytes 8 k) = 16) by (unfold blen; rewrite !app_length, !be_bytes_length; reflexivity). rewrite L.
    change (negb (16 =? 16)) with false. cbv iota.
    pose proof (be_mid [] (be_bytes 4 a) (be_bytes 4 t ++ be_bytes 8 k) 0 4 eq_refl ltac:(rewrite be_bytes_length; reflexivity)) as X0. cbn [app] in X0. rewrite X0. cbn [bind]. rewrite (four _ A).
    rewrite (be_mid (be_bytes 4 a) (be_bytes 4 t)) by (rewrite !be_bytes_length; reflexivity). cbn [bind]. rewrite (four _ T').
    pose proof (be_mid (be_bytes 4 a ++ be_bytes 4 t) (be_bytes 8 k) [] 8 16 ltac:(rewrite app_length, !be_bytes_length; reflexivity) ltac:(rewrite app_length, !be_bytes_length; reflexivity)) as X.
    rewrite app_nil_r, <- app_assoc in X. rewrite X. cbn [bind]. rewrite (eight _ K). reflexivity. }
  split.
  - intros H. assert (L : length d = 16%nat).
    { unfold open_connection in H. destruct (blen d =? 16) eqn:E; cbn [negb] in H; [|discriminate]. unfold blen in E. lia. }
    destruct (cut 4 d B ltac:(lia)) as (a & q1 & -> & A & B1). rewrite app_length, be_bytes_length in L.
    destruct (cut 4 q1 B1 ltac:(lia)) as (t & q2 & -> & T' & B2). rewrite app_length, be_bytes_length in L.
    destruct (cut 8 q2 B2 ltac:(lia)) as (k & q3 & -> & K & B3). rewrite app_length, be_bytes_length in L. assert (q3 = []) by (destruct q3; [reflexivity|cbn [length] in L; lia]). subst q3. rewrite app_nil_r in *.
    rewrite (Q a t k A T' K) in H. destruct (a =? 0) eqn:EA; cbn [negb] in H; [|discriminate]. destruct (t =? tid) eqn:ET; cbn [negb] in H; [|discriminate].
    apply N.eqb_eq in EA, ET. assert (k = c) by congruence. subst. split; [exact K|reflexivity].
  - intros [K ->]. rewrite (Q 0 tid c ltac:(reflexivity) T K). rewrite (N.eqb_refl tid). reflexivity.
Qed.
Print Assumptions C93_connect_exactly.
(** The client parses exactly the responses of the protocol, plus at most five more bytes. *)
Theorem C93_parse_exactly d r : bytes_ok d ->
  (announce_parse d = Ok r <-> response_ok r /\ exists junk, (length junk < 6)%nat /\ d = response_bytes r ++ junk).
Proof.
  intros B. split.
  - intros H. assert (L : (20 <= length d)%nat).
    { unfold announce_parse in H. destruct (blen d <? 4) eqn:E4; [discriminate|]. apply bind_ok in H. destruct H as (a & _ & H). destruct (negb (a =? 1)); [discriminate|].
      destruct (blen d <? 20) eqn:E; [discriminate|]. unfold blen in E. lia. }
    destruct (datagram_of d B L) as (a & t & i & l & s & es & junk & -> & A & T & I & LL & SS & F & J). rewrite parse_datagram in H by assumption. destruct (a =? 1) eqn:E; [|discriminate].
    apply N.eqb_eq in E. subst a. injection H as <-. split; [repeat split; assumption|]. exists junk. split; [exact J|]. unfold response_bytes, datagram. cbn [ar_transaction ar_interval ar_leechers ar_seeders ar_peers].
    rewrite <- !app_assoc. reflexivity.
  - intros [(T & I & L & S & F) (junk & J & ->)]. destruct r as [t i l s es]. cbn [ar_transaction ar_interval ar_leechers ar_seeders ar_peers] in *.
    pose proof (parse_datagram 1 t i l s es junk ltac:(reflexivity) T I L S F J) as X. unfold datagram in X. unfold response_bytes. cbn [ar_transaction ar_interval ar_leechers ar_seeders ar_peers]. rewrite <- !app_assoc. exact X.
Qed.
Print Assumptions C93_parse_exactly.
(** The other program accepts exactly the responses with as many endpoints as leechers and
    seeders together. *)
Theorem C93_counted_exactly d r : bytes_ok d ->
  (announce_from d = Ok r <-> response_ok r /\ d = response_bytes r /\ N.of_nat (length (ar_peers r)) = ar_leechers r + ar_seeders r /\ blen d < two32).
Proof.
  intros B. split.
  - intros H. assert (L : (20 <= length d)%nat) by (unfold announce_from in H; destruct (blen d <? 20) eqn:E; [discriminate|unfold blen in E; lia]).
    destruct (datagram_of d B L) as (a & t & i & l & s & es & junk & -> & A & T & I & LL & SS & F & J). rewrite from_datagram in H by assumption. destruct (a =? 1) eqn:E; cbn [negb] in H; [|discriminate].
    destruct (two32 <=? 20 + (l + s) * 6) eqn:C; [discriminate|]. destruct (N.of_nat (6 * length es + length junk) =? (l + s) * 6) eqn:M; cbn [negb] in H; [|discriminate].
    assert (N1 : junk = []) by (destruct junk; [reflexivity|exfalso; cbn [length] in *; lia]). subst junk. cbn [length] in M.
    apply N.eqb_eq in E. subst a. injection H as <-. split; [repeat split; assumption|]. unfold response_bytes. cbn [ar_transaction ar_interval ar_leechers ar_seeders ar_peers].
    split; [unfold datagram; rewrite app_nil_r; reflexivity|]. split; [lia|]. unfold blen. rewrite datagram_length. cbn [length]. lia.
  - intros [(T & I & L & S & F) (-> & C & BL)]. destruct r as [t i l s es]. cbn [ar_transaction ar_interval ar_leechers ar_seeders ar_peers] in *.
    pose proof (from_datagram 1 t i l s es [] ltac:(reflexivity) T I L S F ltac:(cbn [length]; lia)) as X. unfold datagram in X. rewrite app_nil_r in X.
    unfold response_bytes in *. cbn [ar_transaction ar_interval ar_leechers ar_seeders ar_peers] in *. rewrite X. cbn [N.eqb Pos.eqb negb].
    unfold blen in BL. rewrite !app_length, !be_bytes_length, endpoints_length in BL. destruct (two32 <=? 20 + (l + s) * 6) eqn:Y; [lia|]. cbn [length].
    assert (M : (N.of_nat (6 * length es + 0) =? (l + s) * 6) = true) by lia. rewrite M. reflexivity.
Qed.
Print Assumptions C93_counted_exactly.
(** No datagram makes the client's parsers panic. *)
Theorem C93_client_never_panics : (forall d, bytes_ok d -> announce_parse d <> Panic) /\ (forall tid d, open_connection tid d <> Panic) /\ (forall d, connect_response_from d <> Panic).
Proof.
  split; [|split].
  - intros d B H. destruct (Nat.lt_ge_cases (length d) 20) as [L|L].
    + unfold announce_parse in H. destruct (blen d <? 4) eqn:E4; [discriminate|]. unfold be_at at 1, slice in H.
      assert (E : ((0 <=? 4)%nat && (4 <=? length d)%nat) = true) by (unfold blen in E4; apply andb_true_iff; split; [reflexivity|apply Nat.leb_le; lia]). rewrite E in H. cbn [bind] in H.
      destruct (negb _); [discriminate|]. assert (X : (blen d <? 20) = true) by (unfold blen; lia). rewrite X in H. discriminate.
    + destruct (datagram_of d B L) as (a & t & i & l & s & es & junk & -> & A & T & I & LL & SS & F & J). rewrite parse_datagram in H by assumption. destruct (a =? 1); discriminate.
  - intros tid d. unfold open_connection. destruct (blen d =? 16) eqn:E; cbn [negb]; [|discriminate]. unfold blen in E. assert (L : length d = 16%nat) by lia. unfold be_at, slice. rewrite L. cbn [Nat.leb andb bind].
    destruct (negb _); [discriminate|]. destruct (negb _); discriminate.
  - intros d. unfold connect_response_from. destruct (blen d =? 16) eqn:E; cbn [negb]; [|discriminate]. unfold blen in E. assert (L : length d = 16%nat) by lia. unfold be_at, slice. rewrite L. cbn [Nat.leb andb bind]. discriminate.
Qed.
Print Assumptions C93_client_never_panics.
(** The other program's does: exactly on the announce responses whose two counts are too big. *)
Theorem C93_counts_panic_refuted d : bytes_ok d ->
  (announce_from d = Panic <-> (20 <= length d)%nat /\ field d 0 4 = 1 /\ two32 <= 20 + 6 * (field d 12 4 + field d 16 4)).
Proof.
  intros B. destruct (Nat.lt_ge_cases (length d) 20) as [L|L].
  - unfold announce_from. assert (X : (blen d <? 20) = true) by (unfold blen; lia). rewrite X. split; [discriminate|lia].
  - destruct (datagram_of d B L) as (a & t & i & l & s & es & junk & -> & A & T & I & LL & SS & F & J).
    destruct (datagram_at a t i l s es junk A T I LL SS) as (D0 & _ & _ & D3 & D4).
    assert (FA : field (datagram a t i l s es junk) 0 4 = a /\ field (datagram a t i l s es junk) 12 4 = l /\ field (datagram a t i l s es junk) 16 4 = s).
    { unfold field. unfold be_at, slice in D0, D3, D4. destruct (_ && _) in D0; [|discriminate]. destruct (_ && _) in D3; [|discriminate]. destruct (_ && _) in D4; [|discriminate]. cbn [bind Nat.sub] in D0, D3, D4.
      split; [congruence|]. split; congruence. }
    destruct FA as (-> & -> & ->). rewrite from_datagram by assumption. destruct (a =? 1) eqn:E; cbn [negb].
    + apply N.eqb_eq in E. destruct (two32 <=? 20 + (l + s) * 6) eqn:C; [split; [intros _; split; [exact L|split; [exact E|lia]]|reflexivity]|].
      split; [destruct (negb _); discriminate|lia].
    + apply N.eqb_neq in E. split; [discriminate|tauto].
Qed.
Print Assumptions C93_counts_panic_refuted.
(** And it refuses every response that lists fewer endpoints than the swarm has, which the
    protocol allows. *)
Theorem C93_short_lists_refuted r : response_ok r -> N.of_nat (length (ar_peers r)) < ar_leechers r + ar_seeders r -> 20 + 6 * (ar_leechers r + ar_seeders r) < two32 ->
  (exists e, announce_from (response_bytes r) = Err e) /\ announce_parse (response_bytes r) = Ok r.
Proof.
  intros O C K. destruct O as (T & I & L & S & F). destruct r as [t i l s es]. cbn [ar_transaction ar_interval ar_leechers ar_seeders ar_peers] in *.
  pose proof (from_datagram 1 t i l s es [] ltac:(reflexivity) T I L S F ltac:(cbn [length]; lia)) as X. pose proof (parse_datagram 1 t i l s es [] ltac:(reflexivity) T I L S F ltac:(cbn [length]; lia)) as Y.
  assert (E : datagram 1 t i l s es [] = response_bytes {| ar_transaction := t; ar_interval := i; ar_leechers := l; ar_seeders := s; ar_peers := es |}) by (unfold datagram; rewrite app_nil_r; reflexivity).
  rewrite E in X, Y. split; [|exact Y]. rewrite X. cbn [N.eqb Pos.eqb negb]. unfold two32 in *. destruct (4294967296 <=? 20 + (l + s) * 6) eqn:Z; [lia|]. cbn [length].
  destruct (N.of_nat (6 * length es + 0) =? (l + s) * 6) eqn:M; [lia|]. cbn [negb]. eexists. reflexivity.
Qed.
Print Assumptions C93_short_lists_refuted.
(** The transaction of the announce is never compared: the response to any other announce
    is taken. *)
Theorem C93_any_transaction_refuted r t : response_ok r -> t < two32 ->
  announce_parse (response_bytes {| ar_transaction := t; ar_interval := ar_interval r; ar_leechers := ar_leechers r; ar_seeders := ar_seeders r; ar_peers := ar_peers r |}) =
  Ok {| ar_transaction := t; ar_interval := ar_interval r; ar_leechers := ar_leechers r; ar_seeders := ar_seeders r; ar_peers := ar_peers r |}.
Proof.
  intros (T & I & L & S & F) T'. pose proof (parse_datagram 1 t (ar_interval r) (ar_leechers r) (ar_seeders r) (ar_peers r) [] ltac:(reflexivity) T' I L S F ltac:(cbn [length]; lia)) as Y.
  unfold datagram in Y. rewrite app_nil_r in Y. exact Y.
Qed.
Print Assumptions C93_any_transaction_refuted.
Example C93_case :
  let r := {| ar_transaction := 7; ar_interval := 1800; ar_leechers := 1; ar_seeders := 1; ar_peers := [{| ep_ip := 2130706433; ep_port := 6881 |}; {| ep_ip := 167772161; ep_port := 80 |}] |} in
  announce_parse (response_bytes r ++ [1; 2; 3]) = Ok r /\ announce_from (response_bytes r) = Ok r /\ length (response_bytes r) = 32%nat /\
  announce_from (be_bytes 4 1 ++ repeat 0 8 ++ be_bytes 4 4294967295 ++ be_bytes 4 1) = Panic /\
  open_connection 7 (be_bytes 4 0 ++ be_bytes 4 7 ++ be_bytes 8 99) = Ok 99 /\ open_connection 8 (be_bytes 4 0 ++ be_bytes 4 7 ++ be_bytes 8 99) = Err (TTransaction 8 7).
Proof. cbv zeta. do 5 (split; [vm_compute; reflexivity|]). vm_compute. reflexivity. Qed.

(** *** C94 *)
Lemma put_at p d k a : a = length p -> (length d <= k)%nat -> put a d (p ++ repeat 0 k) = (p ++ d) ++ repeat 0 (k - length d).
Proof.
  intros -> L. unfold put. rewrite firstn_app_length, <- app_assoc. f_equal. f_equal.
  replace k with (length d + (k - length d))%nat at 1 by lia. rewrite repeat_app, app_assoc.
  replace (length p + length d)%nat with (length (p ++ repeat 0 (length d))) by (rewrite app_length, repeat_length; reflexivity). apply skipn_app_length.
Qed.
Lemma field_mid p s q off n : off = length p -> n = length s -> field (p ++ s ++ q) off n = of_be_bytes s.
Proof. intros -> ->. unfold field. rewrite skipn_app_length, firstn_app_length. reflexivity. Qed.
(** Both ways of building the connect request give the same 16 bytes: the magic number, action
    0 and the transaction. *)
Theorem C94_connect_request tid : tid < two32 ->
  connect_request_array tid = connect_request tid /\ length (connect_request tid) = 16%nat /\
  firstn 8 (connect_request tid) = [0; 0; 4; 23; 39; 16; 25; 128] /\ field (connect_request tid) 8 4 = 0 /\ field (connect_request tid) 12 4 = tid.
Proof.
  intros T. split.
  - unfold connect_request_array, connect_request. change (repeat 0 16) with ([] ++ repeat 0 16). rewrite (put_at [] (be_bytes 8 connect_magic) 16) by (rewrite ?be_bytes_length; lia || reflexivity).
    rewrite put_at by (rewrite ?app_length, ?be_bytes_length; cbn [length]; lia). rewrite put_at by (rewrite ?app_length, ?be_bytes_length; cbn [length]; lia).
    rewrite !be_bytes_length. cbn [Nat.sub repeat]. rewrite app_nil_r, <- !app_assoc. reflexivity.
  - unfold connect_request. split; [rewrite !app_length, !be_bytes_length; reflexivity|]. split; [replace 8%nat with (length (be_bytes 8 connect_magic)) at 1 by apply be_bytes_length; rewrite firstn_app_length; vm_compute; reflexivity|].
    split; [rewrite (field_mid (be_bytes 8 connect_magic) (be_bytes 4 0)) by (rewrite be_bytes_length; reflexivity); reflexivity|].
    rewrite (app_assoc (be_bytes 8 _)). rewrite <- (app_nil_r (be_bytes 4 tid)). rewrite (field_mid (be_bytes 8 connect_magic ++ be_bytes 4 0) (be_bytes 4 tid)) by (rewrite ?app_length, !be_bytes_length; reflexivity). apply four, T.
Qed.
Print Assumptions C94_connect_request.
Definition request_ok (r : announce_request) : Prop :=
  an_connection r < two64 /\ an_action r < two32 /\ an_transaction r < two32 /\ length (an_info_hash r) = 20%nat /\ length (an_peer_id r) = 20%nat /\ an_downloaded r < two64 /\ an_left r < two64 /\
  an_uploaded r < two64 /\ an_event r < two32 /\ an_ip r < two32 /\ an_key r < two32 /\ (-2147483648 <= an_num_want r < 2147483648)%Z /\ an_port r < two16.
Lemma announce_flat r : request_ok r -> announce_bytes r =
  be_bytes 8 (an_connection r) ++ be_bytes 4 (an_action r) ++ be_bytes 4 (an_transaction r) ++ an_info_hash r ++ an_peer_id r ++ be_bytes 8 (an_downloaded r) ++ be_bytes 8 (an_left r) ++ be_bytes 8 (an_uploaded r) ++
  be_bytes 4 (an_event r) ++ be_bytes 4 (an_ip r) ++ be_bytes 4 (an_key r) ++ i32_bytes (an_num_want r) ++ be_bytes 2 (an_port r).
Proof.
  intros (_ & _ & _ & H & P & _). unfold announce_bytes, i32_bytes. change (repeat 0 98) with ([] ++ repeat 0 98).
  do 13 (rewrite put_at by (rewrite ?app_length, ?be_bytes_length, ?H, ?P; cbn [length]; lia)). rewrite !be_bytes_length, H, P. cbn [Nat.sub repeat]. rewrite app_nil_r, <- !app_assoc. reflexivity.
Qed.
(** An announce request has 98 bytes, every field where the protocol has it. *)
Theorem C94_announce_request r : request_ok r ->
  let d := announce_bytes r in
  length d = 98%nat /\ field d 0 8 = an_connection r /\ field d 8 4 = an_action r /\ field d 12 4 = an_transaction r /\ firstn 20 (skipn 16 d) = an_info_hash r /\ firstn 20 (skipn 36 d) = an_peer_id r /\
  field d 56 8 = an_downloaded r /\ field d 64 8 = an_left r /\ field d 72 8 = an_uploaded r /\ field d 80 4 = an_event r /\ field d 84 4 = an_ip r /\ field d 88 4 = an_key r /\
  Z.of_N (field d 92 4) = (an_num_want r mod 4294967296)%Z /\ field d 96 2 = an_port r.
Proof.
  intros O d. subst d. rewrite (announce_flat r O). destruct O as (O1 & O2 & O3 & H & P & O4 & O5 & O6 & O7 & O8 & O9 & O10 & O11). unfold i32_bytes.
  split; [rewrite !app_length, !be_bytes_length, H, P; reflexivity|].
  set (b1 := be_bytes 8 (an_connection r)). set (b2 := be_bytes 4 (an_action r)). set (b3 := be_bytes 4 (an_transaction r)). set (b4 := be_bytes 8 (an_downloaded r)).
  set (b5 := be_bytes 8 (an_left r)). set (b6 := be_bytes 8 (an_uploaded r)). set (b7 := be_bytes 4 (an_event r)). set (b8 := be_bytes 4 (an_ip r)). set (b9 := be_bytes 4 (an_key r)).
  set (b10 := be_bytes 4 (Z.to_N (an_num_want r mod 4294967296))). set (b11 := be_bytes 2 (an_port r)). set (hh := an_info_hash r) in *. set (pp := an_peer_id r) in *.
  assert (L1 : length b1 = 8%nat) by apply be_bytes_length. assert (L2 : length b2 = 4%nat) by apply be_bytes_length. assert (L3 : length b3 = 4%nat) by apply be_bytes_length.
  assert (L4 : length b4 = 8%nat) by apply be_bytes_length. assert (L5 : length b5 = 8%nat) by apply be_bytes_length. assert (L6 : length b6 = 8%nat) by apply be_bytes_length.
  assert (L7 : length b7 = 4%nat) by apply be_bytes_length. assert (L8 : length b8 = 4%nat) by apply be_bytes_length. assert (L9 : length b9 = 4%nat) by apply be_bytes_length.
  assert (L10 : length b10 = 4%nat) by apply be_bytes_length. assert (L11 : length b11 = 2%nat) by apply be_bytes_length.
  assert (V : of_be_bytes b1 = an_connection r /\ of_be_bytes b2 = an_action r /\ of_be_bytes b3 = an_transaction r /\ of_be_bytes b4 = an_downloaded r /\ of_be_bytes b5 = an_left r /\ of_be_bytes b6 = an_uploaded r /\
     of_be_bytes b7 = an_event r /\ of_be_bytes b8 = an_ip r /\ of_be_bytes b9 = an_key r /\ of_be_bytes b10 = Z.to_N (an_num_want r mod 4294967296) /\ of_be_bytes b11 = an_port r).
  { subst b1 b2 b3 b4 b5 b6 b7 b8 b9 b10 b11. rewrite !eight, !four, two by (assumption || (unfold two32; lia)). repeat split. }
  clearbody b1 b2 b3 b4 b5 b6 b7 b8 b9 b10 b11 hh pp. destruct V as (V1 & V2 & V3 & V4 & V5 & V6 & V7 & V8 & V9 & V10 & V11).
  assert (G : forall p s q v (off n : nat), of_be_bytes s = v -> off = length p -> n = length s -> field (p ++ s ++ q) off n = v) by (intros; subst v; apply field_mid; assumption).
  assert (T : forall (p s q : bytes) (off n : nat), off = length p -> n = length s -> firstn n (skipn off (p ++ s ++ q)) = s) by (intros; subst; rewrite skipn_app_length; apply firstn_app_length).
  split; [apply (G [] b1); auto|]. split; [apply (G b1 b2); auto|].
  split; [rewrite (app_assoc b1); apply G; auto; rewrite ?app_length; lia|].
  split; [rewrite (app_assoc b1), (app_assoc _ b3); apply T; auto; rewrite ?app_length; lia|].
  split; [rewrite (app_assoc b1), (app_assoc _ b3), (app_assoc _ hh); apply T; auto; rewrite ?app_length; lia|].
  split; [rewrite (app_assoc b1), (app_assoc _ b3), (app_assoc _ hh), (app_assoc _ pp); apply G; auto; rewrite ?app_length; lia|].
  split; [rewrite (app_assoc b1), (app_assoc _ b3), (app_assoc _ hh), (app_assoc _ pp), (app_assoc _ b4); apply G; auto; rewrite ?app_length; lia|].
  split; [rewrite (app_assoc b1), (app_assoc _ b3), (app_assoc _ hh), (app_assoc _ pp), (app_assoc _ b4), (app_assoc _ b5); apply G; auto; rewrite ?app_length; lia|].
  split; [rewrite (app_assoc b1), (app_assoc _ b3), (app_assoc _ hh), (app_assoc _ pp), (app_assoc _ b4), (app_assoc _ b5), (app_assoc _ b6); apply G; auto; rewrite ?app_length; lia|].
  split; [rewrite (app_assoc b1), (app_assoc _ b3), (app_assoc _ hh), (app_assoc _ pp), (app_assoc _ b4), (app_assoc _ b5), (app_assoc _ b6), (app_assoc _ b7); apply G; auto; rewrite ?app_length; lia|].
  split; [rewrite (app_assoc b1), (app_assoc _ b3), (app_assoc _ hh), (app_assoc _ pp), (app_assoc _ b4), (app_assoc _ b5), (app_assoc _ b6), (app_assoc _ b7), (app_assoc _ b8); apply G; auto; rewrite ?app_length; lia|].
  split.
  - assert (X : field (b1 ++ b2 ++ b3 ++ hh ++ pp ++ b4 ++ b5 ++ b6 ++ b7 ++ b8 ++ b9 ++ b10 ++ b11) 92 4 = Z.to_N (an_num_want r mod 4294967296)).
    { rewrite (app_assoc b1), (app_assoc _ b3), (app_assoc _ hh), (app_assoc _ pp), (app_assoc _ b4), (app_assoc _ b5), (app_assoc _ b6), (app_assoc _ b7), (app_assoc _ b8), (app_assoc _ b9); apply G; auto; rewrite ?app_length; lia. }
    rewrite X. clear. lia.
  - rewrite (app_assoc b1), (app_assoc _ b3), (app_assoc _ hh), (app_assoc _ pp), (app_assoc _ b4), (app_assoc _ b5), (app_assoc _ b6), (app_assoc _ b7), (app_assoc _ b8), (app_assoc _ b9), (app_assoc _ b10).
    rewrite <- (app_nil_r b11). apply G; auto; rewrite ?app_length; lia.
Qed.
Print Assumptions C94_announce_request.
(** The client sends such a request: action 1, everything else zero but the number wanted, all. *)
Theorem C94_client_request connection tid info_hash port : connection < two64 -> tid < two32 -> length info_hash = 20%nat -> port < two16 ->
  exists r, request_ok r /\ announce_bytes r = send_tracker_request connection tid info_hash port /\ an_connection r = connection /\ an_action r = 1 /\ an_transaction r = tid /\
    an_info_hash r = info_hash /\ an_peer_id r = repeat 0 20 /\ an_event r = 0 /\ an_num_want r = (-1)%Z /\ an_port r = port.
Proof.
  intros C T H P. set (r := {| an_connection := connection; an_action := 1; an_transaction := tid; an_info_hash := info_hash; an_peer_id := repeat 0 20; an_downloaded := 0; an_left := 0; an_uploaded := 0;
    an_event := 0; an_ip := 0; an_key := 0; an_num_want := (-1)%Z; an_port := port |}).
  assert (O : request_ok r) by (unfold request_ok, r; cbn [an_connection an_action an_transaction an_info_hash an_peer_id an_downloaded an_left an_uploaded an_event an_ip an_key an_num_want an_port]; repeat split; try assumption; unfold two64, two32; lia).
  exists r. split; [exact O|]. split; [rewrite (announce_flat r O); reflexivity|]. repeat split.
Qed.
Print Assumptions C94_client_request.
(** The handshake has 68 bytes: the length and name of the protocol, eight reserved zeros, the
    torrent and the peer. *)
Theorem C94_handshake info_hash peer_id : length info_hash = 20%nat -> length peer_id = 20%nat ->
  let d := encode_handshake info_hash peer_id in
  length d = 68%nat /\ nth_error d 0 = Some 19 /\ firstn 19 (skipn 1 d) = ascii_bytes "BitTorrent protocol" /\ firstn 8 (skipn 20 d) = [0; 0; 0; 0; 0; 0; 0; 0] /\
  firstn 20 (skipn 28 d) = info_hash /\ firstn 20 (skipn 48 d) = peer_id.
Proof.
  intros H P d. subst d. unfold encode_handshake. split; [rewrite !app_length, H, P; reflexivity|]. split; [reflexivity|]. split; [reflexivity|]. split; [reflexivity|].
  split.
  - change (skipn 28 _) with (info_hash ++ peer_id). rewrite <- H. apply firstn_app_length.
  - change (skipn 48 _) with (skipn 20 (info_hash ++ peer_id)). pose proof (skipn_app_length info_hash peer_id) as X. rewrite H in X. rewrite X, <- P. apply firstn_all.
Qed.
Print Assumptions C94_handshake.
Example C94_case : firstn 32 (encode_handshake (repeat 7 20) (repeat 8 20)) = [19; 66; 105; 116; 84; 111; 114; 114; 101; 110; 116; 32; 112; 114; 111; 116; 111; 99; 111; 108; 0; 0; 0; 0; 0; 0; 0; 0; 7; 7; 7; 7] /\
  skipn 88 (send_tracker_request 5 6 (repeat 7 20) 6681) = [0; 0; 0; 0; 255; 255; 255; 255; 26; 25].
Proof. split; vm_compute; reflexivity. Qed.
