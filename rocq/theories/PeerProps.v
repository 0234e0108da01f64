(** Block requests (C35), transfers (C36) and the peer message stream (C37). *)
From Verif Require Import Base BaseProofs TorrentModel TorrentProps PeerModel.
From Coq Require Import Permutation.
Local Open Scope string_scope. Local Open Scope list_scope. Local Open Scope N_scope.
Ltac Zify.zify_post_hook ::= Z.div_mod_to_equations.

(** ** C35: specification *)
(** A request covers byte [o] of piece [i]. *)
Definition covers (i o : N) (r : request) : bool :=
  (rq_index r =? i) && (rq_begin r <=? o) && (o <? rq_begin r + rq_length r).
(** Byte [o] of piece [i] is a byte of the torrent. *)
Definition in_torrent (t : torrent) (i o : N) : bool :=
  (i <? N.of_nat (length (t_pieces t))) && (o <? t_piece_length t) &&
  (i * t_piece_length t + o <? t_total_length t).

Lemma filter_app_len {A} (f : A -> bool) l1 l2 :
  length (filter f (l1 ++ l2)) = (length (filter f l1) + length (filter f l2))%nat.
Proof. rewrite filter_app, app_length. reflexivity. Qed.

Lemma piece_requests_ok fuel i len b : i < two32 -> len <= two32 ->
  (0 < fuel)%nat -> len <= b + 16384 * N.of_nat (fuel - 1) ->
  (forall j o, length (filter (covers j o) (piece_requests fuel i len b)) =
               if (j =? i) && (b <=? o) && (o <? len) then 1%nat else 0%nat) /\
  Forall (fun r => rq_index r = i /\ b <= rq_begin r /\ 1 <= rq_length r <= 16384 /\ rq_begin r + rq_length r <= len)
    (piece_requests fuel i len b).
Proof.
  intros Hi Hl. revert b. induction fuel as [|fuel IH]; intros b F0 F; [lia|].
  cbn [piece_requests]. destruct (b <? len) eqn:E.
  - unfold default_request_length. set (rl := N.min 16384 (len - b)).
    assert (R : rl <= 16384 /\ 1 <= rl /\ b + rl <= len /\ (rl = 16384 \/ b + rl = len)) by lia.
    clearbody rl. rewrite (N.mod_small i), (N.mod_small b) by lia.
    rewrite (N.mod_small rl) by (unfold two32; lia).
    destruct fuel as [|fuel]; [lia|].
    destruct (IH (b + rl)) as [C A]; [lia | lia |].
    split.
    + intros j o. cbn [filter]. unfold covers at 1. cbn [rq_index rq_begin rq_length].
      rewrite N.eqb_sym.
      destruct ((j =? i) && (b <=? o) && (o <? b + rl)) eqn:Ec.
      * cbn [length]. rewrite C. replace ((j =? i) && (b + rl <=? o) && (o <? len)) with false by lia.
        replace ((j =? i) && (b <=? o) && (o <? len)) with true by lia. reflexivity.
      * rewrite C. destruct ((j =? i) && (b + rl <=? o) && (o <? len)) eqn:E2.
        -- replace ((j =? i) && (b <=? o) && (o <? len)) with true by lia. reflexivity.
        -- replace ((j =? i) && (b <=? o) && (o <? len)) with false by lia. reflexivity.
    + constructor.
      * cbn [rq_index rq_begin rq_length]. lia.
      * eapply Forall_impl; [|exact A]. cbn. intros r Hr. lia.
  - split.
    + intros j o. cbn [filter length]. replace ((j =? i) && (b <=? o) && (o <? len)) with false by lia. reflexivity.
    + constructor.
Qed.

Lemma all_requests_ok t n i reqs : t_piece_length t <= two32 ->
  N.of_nat (i + n) <= two32 -> all_requests t i n = Ok reqs ->
  (forall j o, length (filter (covers (N.of_nat j) o) reqs) =
    if (i <=? j)%nat && (j <? i + n)%nat
    then match this_piece_length t j with Ok len => if o <? len then 1%nat else 0%nat | _ => 0%nat end
    else 0%nat) /\
  Forall (fun r => (exists j, (i <= j < i + n)%nat /\ rq_index r = N.of_nat j) /\ 1 <= rq_length r <= 16384) reqs.
Proof.
  intros Hp. revert i reqs. induction n as [|n IH]; intros i reqs Hi A; cbn [all_requests] in A.
  - injection A as <-. split; [|constructor]. intros j o.
    replace ((i <=? j)%nat && (j <? i + 0)%nat) with false by lia. reflexivity.
  - apply bind_ok in A. destruct A as (len & A1 & A). apply bind_ok in A. destruct A as (rest & A2 & A).
    injection A as <-.
    assert (Hlen : len <= two32).
    { unfold this_piece_length in A1. destruct (_ =? _)%nat.
      - apply bind_ok in A1. destruct A1 as (last & _ & A1). destruct (last <? t_piece_length t) eqn:E; injection A1 as <-; lia.
      - injection A1 as <-. lia. }
    destruct (IH (S i) rest) as [C F]; [lia | exact A2 |].
    destruct (piece_requests_ok (S (piece_fuel len)) (N.of_nat i) len 0) as [C1 F1].
    { unfold two32 in *. lia. } { exact Hlen. } { lia. }
    { unfold piece_fuel, default_request_length. lia. }
    split.
    + intros j o. rewrite filter_app_len, C, C1.
      destruct (Nat.eq_dec i j) as [->|NE].
      * replace ((S j <=? j)%nat && (j <? S j + n)%nat) with false by lia.
        replace ((j <=? j)%nat && (j <? j + S n)%nat) with true by lia. rewrite A1.
        replace ((N.of_nat j =? N.of_nat j) && (0 <=? o) && (o <? len)) with (o <? len) by lia.
        destruct (o <? len); reflexivity.
      * replace ((N.of_nat j =? N.of_nat i) && (0 <=? o) && (o <? len)) with false by lia.
        replace ((i <=? j)%nat && (j <? i + S n)%nat) with ((S i <=? j)%nat && (j <? S i + n)%nat) by lia.
        reflexivity.
    + apply Forall_app. split.
      * eapply Forall_impl; [|exact F1]. cbn. intros r Hr. split; [exists i; split; [lia|tauto]|lia].
      * eapply Forall_impl; [|exact F]. cbn. intros r [[j [Hj1 Hj2]] Hr]. split; [exists j; split; [lia|exact Hj2]|lia].
Qed.

(** An accepted torrent without surplus pieces, with pieces that fit the protocol's 32-bit
    fields: the requests cover every byte of the torrent exactly once and nothing else, and
    each asks for 1 to 16384 bytes. *)
Theorem C35_requests_tile_the_torrent_partial : forall (sha1 : bytes -> bytes) (d : bytes) (t : torrent),
  from_bytes sha1 d = Ok t ->
  t_piece_length t * (N.of_nat (length (t_pieces t)) - 1) <= t_total_length t ->
  t_piece_length t <= 2 ^ 32 -> N.of_nat (length (t_pieces t)) <= 2 ^ 32 ->
  exists x, transfer_new t = Ok x /\ tr_active x = [] /\ tr_completed x = [] /\
    (forall i o, length (filter (covers i o) (tr_pending x)) = if in_torrent t i o then 1%nat else 0%nat) /\
    Forall (fun r => 1 <= rq_length r <= 16384) (tr_pending x).
Proof.
  intros sha1 d t A NS Hp Hc. change (2 ^ 32) with two32 in *.
  set (n := length (t_pieces t)) in *.
  assert (L : (0 < n)%nat -> exists last, last_piece_length t = Ok last /\ last <= t_piece_length t /\
     t_piece_length t * (N.of_nat n - 1) + last = t_total_length t).
  { intros H. apply (C32_last_piece_partial sha1 d t A); [|exact NS]. intros E. subst n. rewrite E in H. cbn in H. lia. }
  assert (TP : forall j, (j < n)%nat -> exists len, this_piece_length t j = Ok len /\
    (forall o, (o <? len) = in_torrent t (N.of_nat j) o)).
  { intros j Hj. destruct (L ltac:(lia)) as (last & L1 & L2 & L3). unfold this_piece_length, in_torrent. fold n.
    destruct (S j =? n)%nat eqn:E.
    - rewrite L1. cbn [bind]. assert (Ej : N.of_nat j = N.of_nat n - 1) by lia. rewrite Ej.
      destruct (last <? t_piece_length t) eqn:E2; eexists; (split; [reflexivity|]); intros o; nia.
    - eexists. split; [reflexivity|]. intros o.
      assert (N.of_nat j + 1 <= N.of_nat n - 1) by lia.
      assert (t_piece_length t * (N.of_nat j + 1) <= t_piece_length t * (N.of_nat n - 1)) by nia.
      destruct (o <? t_piece_length t) eqn:Eo; nia. }
  assert (AR : forall k i, (i + k <= n)%nat -> exists reqs, all_requests t i k = Ok reqs).
  { induction k as [|k IH]; intros i Hk; cbn [all_requests]; [eexists; reflexivity|].
    destruct (TP i ltac:(lia)) as (len & E & _). rewrite E. cbn [bind].
    destruct (IH (S i) ltac:(lia)) as (r & E2). rewrite E2. cbn [bind]. eexists. reflexivity. }
  destruct (AR n 0%nat ltac:(lia)) as (reqs & E).
  exists {| tr_torrent := t; tr_pending := reqs; tr_active := []; tr_completed := [] |}.
  destruct (all_requests_ok t n 0 reqs Hp ltac:(lia) E) as [C F].
  unfold transfer_new. fold n. rewrite E. cbn [bind tr_active tr_completed tr_pending].
  split; [reflexivity|]. split; [reflexivity|]. split; [reflexivity|]. split.
  - intros i o. rewrite <- (N2Nat.id i). rewrite C. set (j := N.to_nat i).
    destruct ((0 <=? j)%nat && (j <? 0 + n)%nat) eqn:Ej.
    + destruct (TP j ltac:(lia)) as (len & E1 & E2). rewrite E1, <- E2. reflexivity.
    + unfold in_torrent. fold n. replace (N.of_nat j <? N.of_nat n) with false by lia. reflexivity.
  - eapply Forall_impl; [|exact F]. cbn. tauto.
Qed.
Print Assumptions C35_requests_tile_the_torrent_partial.
(** With surplus pieces no transfer can be created at all. *)
Theorem C35_surplus_pieces_refuted : exists (d : bytes) (t : torrent),
  from_bytes (fun b => b) d = Ok t /\ transfer_new t = Panic.
Proof. exists surplus_torrent. eexists. split; vm_compute; reflexivity. Qed.
Print Assumptions C35_surplus_pieces_refuted.
(** A piece longer than 2^32: offsets wrap and a byte is requested twice. *)
Definition huge_torrent : bytes :=
  ascii_bytes "d13:announce-listll1:aee4:infod5:filesld6:lengthi4294983680e4:pathl1:xeee4:name1:n12:piece lengthi4294983680e6:pieces20:01234567890123456789ee".
Theorem C35_huge_pieces_refuted : exists (d : bytes) (t : torrent),
  from_bytes (fun b => b) d = Ok t /\ in_torrent t 0 0 = true /\
  match transfer_new t with
  | Ok x => length (filter (covers 0 0) (tr_pending x)) = 2%nat
  | _ => False
  end.
Proof.
  exists huge_torrent. eexists. split; [vm_compute; reflexivity|].
  split; vm_compute; reflexivity.
Qed.
Print Assumptions C35_huge_pieces_refuted.
Definition two_piece_torrent : bytes :=
  ascii_bytes "d13:announce-listll1:aee4:infod5:filesld6:lengthi50000e4:pathl1:xeee4:name1:n12:piece lengthi40000e6:pieces40:0123456789012345678901234567890123456789ee".
Example C35_example :
  match from_bytes (fun b => b) two_piece_torrent with
  | Ok t => match transfer_new t with
            | Ok x => map (fun r => (rq_index r, rq_begin r, rq_length r)) (tr_pending x) =
                      [(0, 0, 16384); (0, 16384, 16384); (0, 32768, 7232); (1, 0, 10000)]
            | _ => False
            end
  | _ => False
  end.
Proof. vm_compute. reflexivity. Qed.

(** ** C36: specification *)
Definition block_request (b : block) : request :=
  {| rq_index := bk_index b; rq_begin := bk_begin b; rq_length := blen (bk_data b) |}.
(** The blocks carried by piece messages. *)
Fixpoint blocks_in (l : list message) : list block :=
  match l with
  | [] => []
  | MPiece i b d :: t => {| bk_index := i; bk_begin := b; bk_data := d |} :: blocks_in t
  | _ :: t => blocks_in t
  end.
Inductive subsequence {A} : list A -> list A -> Prop :=
| sub_nil : subsequence [] []
| sub_take x l m : subsequence l m -> subsequence (x :: l) (x :: m)
| sub_drop x l m : subsequence l m -> subsequence l (x :: m).
(** Outgoing messages: a length and a body. *)
Definition framed (body : bytes) : bytes := be_bytes 4 (blen body) ++ body.
Definition request_body (r : request) : bytes :=
  [6] ++ be_bytes 4 (rq_index r) ++ be_bytes 4 (rq_begin r) ++ be_bytes 4 (rq_length r).
Definition is_request_body (b : bytes) : bool := match b with c :: _ => c =? 6 | [] => false end.
(** All requests a transfer knows about, in whatever state. *)
Definition everything (x : transfer) : list request :=
  tr_pending x ++ tr_active x ++ map block_request (tr_completed x).

(** What a run of the receive loop does to a transfer. *)
Definition progress (x x' : transfer) (msgs : list message) (sent : bytes) : Prop :=
  tr_torrent x' = tr_torrent x /\
  Permutation (everything x') (everything x) /\
  (length (tr_active x') <= Nat.max (length (tr_active x)) 101)%nat /\
  (exists k, tr_pending x' = skipn k (tr_pending x) /\
     exists bodies, sent = concat (map framed bodies) /\
       filter is_request_body bodies = map request_body (firstn k (tr_pending x))) /\
  (exists new, tr_completed x' = tr_completed x ++ new /\ subsequence new (blocks_in msgs)).

Lemma sub_all_drop {A} (m : list A) : subsequence [] m.
Proof. induction m; constructor; auto. Qed.
Lemma sub_app {A} (l1 m1 l2 m2 : list A) : subsequence l1 m1 -> subsequence l2 m2 -> subsequence (l1 ++ l2) (m1 ++ m2).
Proof. induction 1; cbn [app]; auto; constructor; auto. Qed.
Lemma blocks_app l1 l2 : blocks_in (l1 ++ l2) = blocks_in l1 ++ blocks_in l2.
Proof. induction l1 as [|m l1 IH]; auto. destruct m; cbn [app blocks_in]; rewrite ?IH; auto. Qed.
Lemma firstn_add {A} k j (l : list A) : firstn (k + j) l = firstn k l ++ firstn j (skipn k l).
Proof. revert l. induction k as [|k IH]; intros l; auto. destruct l; cbn [Nat.add firstn skipn app]; [destruct j; reflexivity|]. f_equal. apply IH. Qed.
Lemma progress_trans x y z m1 m2 s1 s2 : progress x y m1 s1 -> progress y z m2 s2 -> progress x z (m1 ++ m2) (s1 ++ s2).
Proof.
  intros (T1 & P1 & A1 & (k1 & K1 & b1 & S1 & F1) & (n1 & N1 & U1))
         (T2 & P2 & A2 & (k2 & K2 & b2 & S2 & F2) & (n2 & N2 & U2)).
  split; [congruence|]. split; [etransitivity; eauto|]. split; [lia|]. split.
  - exists (k1 + k2)%nat. split.
    + rewrite K2, K1, skipn_skipn'. f_equal; lia.
    + exists (b1 ++ b2). split.
      * rewrite S1, S2, map_app, concat_app. reflexivity.
      * rewrite filter_app, F1, F2, K1, firstn_add, map_app. reflexivity.
  - exists (n1 ++ n2). split; [rewrite N2, N1, app_assoc; reflexivity|]. rewrite blocks_app. apply sub_app; auto.
Qed.
Lemma progress_nothing x msgs bodies : filter is_request_body bodies = [] ->
  progress x x msgs (concat (map framed bodies)).
Proof.
  intros Hb. split; [reflexivity|]. split; [reflexivity|]. split; [lia|]. split.
  - exists 0%nat. split; [reflexivity|]. exists bodies. split; [reflexivity|exact Hb].
  - exists []. split; [rewrite app_nil_r; reflexivity|apply sub_all_drop].
Qed.
Lemma queue_small body : blen body < two32 -> queue_msg body = framed body.
Proof. intros H. unfold queue_msg, framed. rewrite N.mod_small by exact H. reflexivity. Qed.
Lemma start_progress x req x' : (length (tr_active x) <= 100)%nat -> start_request x = (Some req, x') ->
  progress x x' [] (queue_request req).
Proof.
  unfold start_request. intros L. destruct (tr_pending x) as [|r rest] eqn:E; [discriminate|].
  intros H. injection H as <- <-. split; [reflexivity|]. split.
  - unfold everything. cbn [tr_pending tr_active tr_completed]. rewrite E. cbn [app].
    rewrite <- app_assoc. cbn [app]. symmetry. rewrite app_assoc. rewrite (app_assoc rest).
    apply Permutation_middle.
  - split; [cbn [tr_active]; rewrite app_length; cbn [length]; lia|]. split.
    + exists 1%nat. rewrite E. split; [reflexivity|]. exists [request_body r]. split.
      * cbn [map concat]. rewrite app_nil_r. unfold queue_request. apply queue_small.
        unfold request_body, blen. cbn [app length]. rewrite !app_length, !be_bytes_length. reflexivity.
      * reflexivity.
    + exists []. cbn [tr_completed]. rewrite app_nil_r. split; [reflexivity|constructor].
Qed.
Lemma more_progress fuel x : let r := more_requests fuel x in progress x (fst r) [] (snd r).
Proof.
  revert x. induction fuel as [|fuel IH]; intros x; cbn [more_requests].
  - apply (progress_nothing x [] []). reflexivity.
  - destruct (length (tr_active x) <=? max_active_requests)%nat eqn:L.
    + destruct (start_request x) as [[req|] x1] eqn:S.
      * destruct (more_requests fuel x1) as [x2 out] eqn:M. cbn [fst snd].
        specialize (IH x1). rewrite M in IH. cbn [fst snd] in IH.
        apply (progress_trans x x1 x2 [] [] (queue_request req) out); [|exact IH].
        apply start_progress; auto. unfold max_active_requests in L. lia.
      * assert (x1 = x) as -> by (unfold start_request in S; destruct (tr_pending x); congruence).
        cbn [fst snd]. unfold queue_not_interested. rewrite queue_small by reflexivity.
        replace (framed [3]) with (concat (map framed [[3]])) by (cbn [map concat]; apply app_nil_r).
        apply progress_nothing. reflexivity.
    + apply (progress_nothing x [] []). reflexivity.
Qed.
Lemma remove_first_perm p l l' : remove_first p l = Some l' ->
  exists r, p r = true /\ Permutation l (r :: l') /\ length l = S (length l').
Proof.
  revert l'. induction l as [|r l IH]; intros l'; cbn [remove_first]; [discriminate|].
  destruct (p r) eqn:E.
  - intros H. injection H as <-. exists r. auto.
  - destruct (remove_first p l) as [m|]; [|discriminate]. intros H. injection H as <-.
    destruct (IH m eq_refl) as (q & Q1 & Q2 & Q3). exists q. split; [exact Q1|]. split; [|cbn; lia].
    etransitivity; [apply perm_skip; exact Q2|]. apply perm_swap.
Qed.
Lemma complete_progress x i b d : progress x (complete_request x i b d) [MPiece i b d] [].
Proof.
  unfold complete_request. destruct (remove_first (answers i b d) (tr_active x)) as [act|] eqn:E.
  - apply remove_first_perm in E. destruct E as (r & R1 & R2 & R3).
    assert (Er : r = {| rq_index := i; rq_begin := b; rq_length := blen d |}).
    { unfold answers in R1. destruct r as [ri rb rl]; cbn [rq_index rq_begin rq_length] in R1. f_equal; lia. }
    split; [reflexivity|]. split.
    + unfold everything. cbn [tr_pending tr_active tr_completed]. apply Permutation_app_head.
      rewrite map_app. cbn [map block_request bk_index bk_begin bk_data]. unfold block_request at 2. cbn [bk_index bk_begin bk_data].
      rewrite R2, <- Er. rewrite app_assoc. symmetry. apply Permutation_cons_append.
    + split; [cbn [tr_active]; lia|]. split.
      * exists 0%nat. split; [reflexivity|]. exists []. split; reflexivity.
      * eexists. cbn [tr_completed blocks_in]. split; [reflexivity|]. constructor. constructor.
  - apply (progress_nothing x _ []). reflexivity.
Qed.
Lemma ok3 {E A B C} (a a' : A) (b b' : B) (c c' : C) :
  (Ok (a, b, c) : outcome E _) = Ok (a', b', c') -> a = a' /\ b = b' /\ c = c'.
Proof. intros H. injection H. auto. Qed.
Lemma handle_progress x c m x' c' out : handle_message x c m = Ok (x', c', out) -> progress x x' [m] out.
Proof.
  assert (Z : progress x x [m] []) by (apply (progress_nothing x [m] []); reflexivity).
  destruct m; cbn [handle_message]; intros H; try (injection H as <- <- <-; exact Z).
  - destruct (more_requests more_fuel x) as [x1 o] eqn:M. injection H as <- <- <-.
    pose proof (more_progress more_fuel x) as P. rewrite M in P. cbn [fst snd] in P.
    exact (progress_trans x x x1 [MUnchoke] [] [] o Z P).
  - destruct (cn_first c); [discriminate|]. apply bind_ok in H. destruct H as (u & _ & H).
    apply ok3 in H. destruct H as (<- & <- & <-). unfold queue_unchoke, queue_interested. rewrite !queue_small by reflexivity.
    replace (framed [1] ++ framed [2]) with (concat (map framed [[1]; [2]])) by (cbn [map concat]; rewrite app_nil_r; reflexivity).
    apply progress_nothing. reflexivity.
  - destruct (more_requests more_fuel (complete_request x index begin block)) as [x1 o] eqn:M. injection H as <- <- <-.
    pose proof (more_progress more_fuel (complete_request x index begin block)) as P. rewrite M in P. cbn [fst snd] in P.
    exact (progress_trans x _ x1 [MPiece index begin block] [] [] o (complete_progress x index begin block) P).
Qed.
Lemma receive_progress fuel x c reads : let r := receive_loop fuel x c reads in
  progress x (o_transfer r) (o_messages r) (o_sent r).
Proof.
  assert (Z : forall x e, progress x (o_transfer (finish x e)) (o_messages (finish x e)) (o_sent (finish x e))).
  { intros y e. apply (progress_nothing y [] []). reflexivity. }
  revert x c reads. induction fuel as [|fuel IH]; intros x c reads; cbn [receive_loop]; [apply Z|].
  destruct (cn_done c || cn_finished c); [apply Z|].
  destruct (get_next_message c) as [[|[m|e|]] c1].
  - destruct reads; apply IH.
  - destruct (handle_message x c1 m) as [[[x' c'] out]|e|] eqn:H.
    + apply handle_progress in H. cbn [o_transfer o_messages o_sent prepend].
      apply (progress_trans x x' _ [m] _ out _ H). apply IH.
    + cbn [o_transfer o_messages o_sent prepend finish]. apply (progress_nothing x [m] []). reflexivity.
    + apply Z.
  - apply IH.
  - apply Z.
Qed.

(** Whatever a peer sends: every request of the new transfer is, afterwards, exactly once
    among the pending, the active and the completed ones; requests are sent in order, each
    once; at most 101 are active; completed blocks are blocks that arrived, in order. *)
Theorem C36_requests_are_conserved : forall (t : torrent) (x : transfer) (reads : list bytes),
  transfer_new t = Ok x ->
  let r := do_peer x reads in
  let y := o_transfer r in
  Permutation (tr_pending y ++ tr_active y ++ map block_request (tr_completed y)) (tr_pending x) /\
  (length (tr_active y) <= 101)%nat /\
  subsequence (tr_completed y) (blocks_in (o_messages r)) /\
  exists k bodies, tr_pending y = skipn k (tr_pending x) /\
    o_sent r = concat (map framed bodies) /\
    filter is_request_body bodies = map request_body (firstn k (tr_pending x)).
Proof.
  intros t x reads H r y.
  assert (Ac : tr_active x = [] /\ tr_completed x = []).
  { unfold transfer_new in H. apply bind_ok in H. destruct H as (p & _ & H). injection H as <-. auto. }
  destruct Ac as [Ac Cc].
  destruct (receive_progress (rounds reads) x (conn_new (length (t_pieces (tr_torrent x)))) reads)
    as (_ & P & A & (k & K & b & Sb & Fb) & (new & N1 & N2)).
  fold (do_peer x reads) in *. fold r in P, A, K, Sb, N1, N2. fold y in P, A, K, N1.
  split; [|split; [|split]].
  - unfold everything in P. rewrite Ac, Cc, !app_nil_r in P. exact P.
  - rewrite Ac in A. cbn [length] in A. lia.
  - rewrite Cc in N1. cbn [app] in N1. rewrite N1. exact N2.
  - exists k, b. auto.
Qed.
Print Assumptions C36_requests_are_conserved.
(** When the requests are distinct (they are, by C35), "exactly once" is literal: a
    completed request is neither pending nor active. *)
Theorem C36_states_are_disjoint : forall (t : torrent) (x : transfer) (reads : list bytes) (q : request),
  transfer_new t = Ok x -> NoDup (tr_pending x) -> In q (tr_pending x) ->
  let y := o_transfer (do_peer x reads) in
  (In q (tr_pending y) /\ ~ In q (tr_active y) /\ ~ In q (map block_request (tr_completed y))) \/
  (~ In q (tr_pending y) /\ In q (tr_active y) /\ ~ In q (map block_request (tr_completed y))) \/
  (~ In q (tr_pending y) /\ ~ In q (tr_active y) /\ In q (map block_request (tr_completed y))).
Proof.
  intros t x reads q H ND I y.
  destruct (C36_requests_are_conserved t x reads H) as [P _]. fold y in P.
  assert (ND' := Permutation_NoDup (Permutation_sym P) ND).
  assert (I' := Permutation_in q (Permutation_sym P) I).
  assert (D : forall (a b : list request), NoDup (a ++ b) -> In q a -> ~ In q b).
  { intros a b Hn Ha Hb. apply in_split in Ha. destruct Ha as (a1 & a2 & ->).
    rewrite <- app_assoc in Hn. cbn [app] in Hn. apply NoDup_remove_2 in Hn. apply Hn.
    apply in_or_app. right. apply in_or_app. right. exact Hb. }
  assert (Dr : NoDup (tr_active y ++ map block_request (tr_completed y))).
  { clear - ND'. induction (tr_pending y) as [|z l IH]; auto. inversion ND'; auto. }
  apply in_app_or in I'. destruct I' as [I'|I'].
  - left. pose proof (D _ _ ND' I') as Dn.
    split; [exact I'|]. split; intros X; apply Dn; apply in_or_app; auto.
  - right. apply in_app_or in I'. destruct I' as [I'|I'].
    + left. split; [|split; [exact I'|exact (D _ _ Dr I')]]. intros X.
      apply (D _ _ ND' X). apply in_or_app. auto.
    + right. split; [|split; [|exact I']].
      * intros X. apply (D _ _ ND' X). apply in_or_app. auto.
      * intros X. exact (D _ _ Dr X I').
Qed.
Print Assumptions C36_states_are_disjoint.

(** ** C37: specification *)
(** How messages look on the wire. *)
Definition frame (id : N) (body : bytes) : bytes := framed (id :: body).
Definition wire (m : message) : option bytes :=
  match m with
  | MKeepAlive => Some (be_bytes 4 0)
  | MChoke => Some (frame 0 []) | MUnchoke => Some (frame 1 [])
  | MInterested => Some (frame 2 []) | MNotInterested => Some (frame 3 [])
  | MHave i => Some (frame 4 (be_bytes 4 i))
  | MBitField d => Some (frame 5 d)
  | MPiece i b d => Some (frame 7 (be_bytes 4 i ++ be_bytes 4 b ++ d))
  | _ => None
  end.
Definition wire_handshake (h : handshake) : bytes :=
  handshake_magic ++ hs_reserved h ++ hs_info_hash h ++ hs_peer_id h.
(** Messages the client implements, with fields that fit. *)
Definition sendable (pieces : nat) (m : message) : Prop :=
  match m with
  | MHave i => i < two32
  | MBitField d => length d = ((pieces + 7) / 8)%nat /\ blen d + 1 < two32
  | MPiece i b d => i < two32 /\ b < two32 /\ blen d + 9 < two32
  | MHandshake _ | MRequest _ | MCancel _ | MPort _ => False
  | _ => True
  end.
(** A part of a message: what is left when the peer closes in the middle of one. *)
Definition incomplete (tail : bytes) : Prop :=
  (length tail < 4)%nat \/ (4 <= length tail)%nat /\ of_be_bytes (firstn 4 tail) <> 0 /\
  blen tail < 4 + of_be_bytes (firstn 4 tail).

Definition extend (c : conn) (more : bytes) : conn := with_incoming c (cn_incoming c ++ more) (cn_handshake c).
Lemma extend_nil c : extend c [] = c.
Proof. unfold extend, with_incoming. rewrite app_nil_r. destruct c; reflexivity. Qed.
Lemma extend_extend c a b : extend (extend c a) b = extend c (a ++ b).
Proof. unfold extend, with_incoming. cbn. rewrite app_assoc. reflexivity. Qed.
Lemma firstn_more {A} n (l m : list A) : (n <= length l)%nat -> firstn n (l ++ m) = firstn n l.
Proof. intros H. rewrite firstn_app. replace (n - length l)%nat with 0%nat by lia. rewrite firstn_O, app_nil_r. reflexivity. Qed.
Lemma skipn_more {A} n (l m : list A) : (n <= length l)%nat -> skipn n (l ++ m) = skipn n l ++ m.
Proof. intros H. rewrite skipn_app. replace (n - length l)%nat with 0%nat by lia. reflexivity. Qed.
Lemma next_extend c more r c' : get_next_message c = (Ready r, c') ->
  get_next_message (extend c more) = (Ready r, extend c' more).
Proof.
  unfold get_next_message. cbn [extend with_incoming cn_incoming cn_handshake].
  set (d := cn_incoming c). destruct (cn_handshake c) eqn:Eh; cbn [negb].
  - destruct (length d <? 4)%nat eqn:E1; [discriminate|].
    replace (length (d ++ more) <? 4)%nat with false by (rewrite app_length; lia).
    rewrite (firstn_more 4) by lia. destruct (of_be_bytes (firstn 4 d) =? 0).
    + intros H. injection H as <- <-. f_equal. unfold extend, with_incoming. cbn [cn_they_have cn_incoming cn_finished cn_done cn_handshake cn_first cn_error]. rewrite skipn_more by lia. reflexivity.
    + destruct (length d <? 5)%nat eqn:E2; [discriminate|].
      replace (length (d ++ more) <? 5)%nat with false by (rewrite app_length; lia).
      destruct (blen d <? 4 + of_be_bytes (firstn 4 d)) eqn:E3; [discriminate|].
      replace (blen (d ++ more) <? 4 + of_be_bytes (firstn 4 d)) with false by (rewrite blen_app; unfold blen in *; lia).
      intros H. injection H as <- <-.
      rewrite app_nth1 by lia. rewrite (skipn_more 5) by lia.
      set (n := N.to_nat (of_be_bytes (firstn 4 d) - 1)).
      assert (Hn : (n <= length (skipn 5 d))%nat) by (rewrite skipn_length; unfold blen in E3; lia).
      rewrite (firstn_more n) by exact Hn. f_equal. unfold extend, with_incoming. cbn [cn_they_have cn_incoming cn_finished cn_done cn_handshake cn_first cn_error]. rewrite skipn_more by exact Hn. reflexivity.
  - destruct (length d <? 68)%nat eqn:E1; [discriminate|].
    replace (length (d ++ more) <? 68)%nat with false by (rewrite app_length; lia).
    rewrite (firstn_more 20) by lia. destruct (bytes_eqb (firstn 20 d) handshake_magic); cbn [negb].
    + intros H. injection H as <- <-. f_equal.
      * rewrite !skipn_more by lia. rewrite !firstn_more by (rewrite skipn_length; lia). reflexivity.
      * unfold extend, with_incoming. cbn [cn_they_have cn_incoming cn_finished cn_done cn_handshake cn_first cn_error]. rewrite skipn_more by lia. reflexivity.
    + intros H. injection H as <- <-. unfold extend, with_incoming, d. cbn [cn_they_have cn_incoming cn_finished cn_done cn_handshake cn_first cn_error]. rewrite ?Eh. reflexivity.
Qed.
Lemma next_consumes c m c' : get_next_message c = (Ready (Ok m), c') ->
  (length (cn_incoming c') + 4 <= length (cn_incoming c))%nat /\
  cn_done c' = cn_done c /\ cn_finished c' = cn_finished c /\ cn_error c' = cn_error c.
Proof.
  unfold get_next_message. set (d := cn_incoming c). destruct (cn_handshake c); cbn [negb].
  - destruct (length d <? 4)%nat eqn:E1; [discriminate|]. destruct (of_be_bytes (firstn 4 d) =? 0).
    + intros H. assert (c' = with_incoming c (skipn 4 d) true) as -> by congruence. cbn [with_incoming cn_incoming cn_done cn_finished cn_error]. rewrite skipn_length. repeat split; lia.
    + destruct (length d <? 5)%nat eqn:E2; [discriminate|].
      destruct (blen d <? _) eqn:E3; [discriminate|].
      intros H. assert (c' = with_incoming c (skipn (N.to_nat (of_be_bytes (firstn 4 d) - 1)) (skipn 5 d)) true) as -> by congruence. cbn [with_incoming cn_incoming cn_done cn_finished cn_error].
      rewrite !skipn_length. repeat split; lia.
  - destruct (length d <? 68)%nat eqn:E1; [discriminate|].
    destruct (bytes_eqb _ _); cbn [negb]; [|discriminate].
    intros H. assert (c' = with_incoming c (skipn 68 d) true) as -> by congruence. cbn [with_incoming cn_incoming cn_done cn_finished cn_error].
    rewrite skipn_length. repeat split; lia.
Qed.
Lemma pending_same c c' : get_next_message c = (Pending, c') -> c' = c.
Proof.
  unfold get_next_message. destruct (negb _).
  - destruct (_ <? _)%nat; [congruence|]. destruct (negb _); congruence.
  - destruct (_ <? _)%nat; [congruence|]. destruct (_ =? 0); [congruence|].
    destruct (_ <? _)%nat; [congruence|]. destruct (_ <? _); congruence.
Qed.
Lemma handle_extend x c more m : handle_message x (extend c more) m =
  match handle_message x c m with
  | Ok (x', c', out) => Ok (x', extend c' more, out)
  | Err e => Err e
  | Panic => Panic
  end.
Proof.
  destruct m; cbn [handle_message]; try reflexivity.
  - destruct (more_requests more_fuel x); reflexivity.
  - cbn [extend with_incoming cn_first cn_they_have cn_incoming cn_finished cn_done cn_handshake cn_error].
    destruct (cn_first c); [reflexivity|]. destruct (check_message_len 5 data _); reflexivity.
  - destruct (more_requests _ _); reflexivity.
Qed.
Lemma handle_keeps x c m x' c' out : handle_message x c m = Ok (x', c', out) ->
  cn_incoming c' = cn_incoming c /\ cn_done c' = cn_done c /\ cn_finished c' = cn_finished c /\
  cn_handshake c' = cn_handshake c /\ cn_error c' = cn_error c.
Proof.
  destruct m; cbn [handle_message]; intros H; try (injection H as <- <- <-; auto).
  - destruct (more_requests more_fuel x). injection H as <- <- <-. auto.
  - destruct (cn_first c); [discriminate|]. apply bind_ok in H. destruct H as (u & _ & H). injection H as <- <- <-. cbn. auto.
  - destruct (more_requests _ _). injection H as <- <- <-. auto.
Qed.

(** Reading everything at once is the same as reading it in pieces. *)
Lemma loop_join : forall f1 f2 x c reads,
  Forall (fun r => r <> []) reads ->
  cn_done c = false -> cn_finished c = false ->
  (length (cn_incoming c) + length (concat reads) + length reads + 3 <= f1)%nat ->
  (length (cn_incoming c) + length (concat reads) + 3 <= f2)%nat ->
  receive_loop f1 x c reads = receive_loop f2 x (extend c (concat reads)) [].
Proof.
  induction f1 as [|f1 IH]; intros f2 x c reads NE D F L1 L2; [lia|].
  destruct (get_next_message c) as [[|r] c'] eqn:G.
  - assert (c' = c) as -> by (eapply pending_same; eauto).
    cbn [receive_loop]. rewrite D, F, G. cbn [orb].
    destruct reads as [|got reads].
    + cbn [concat]. rewrite extend_nil. destruct f2 as [|f2]; [lia|]. cbn [receive_loop]. rewrite D, F, G. cbn [orb].
      destruct f1 as [|f1]; [lia|]. destruct f2 as [|f2]; [lia|].
      cbn [receive_loop recv_more_data cn_done cn_finished cn_error]. rewrite D. reflexivity.
    + inversion NE as [|? ? N1 N2]; subst. cbn [concat] in *.
      assert (E : recv_more_data c got = extend c got) by (destruct got; [congruence|reflexivity]).
      rewrite E, <- extend_extend. apply IH; auto.
      * cbn [extend with_incoming cn_incoming]. rewrite app_length in *. cbn [length] in *. lia.
      * cbn [extend with_incoming cn_incoming]. rewrite app_length in *. lia.
  - pose proof (next_extend c (concat reads) r c' G) as G2.
    destruct f2 as [|f2]; [lia|]. cbn [receive_loop].
    cbn [extend with_incoming cn_done cn_finished]. rewrite D, F. cbn [orb].
    fold (extend c (concat reads)). rewrite G, G2. destruct r as [m|e|].
    + pose proof (next_consumes c m c' G) as (C1 & C2 & C3 & _).
      rewrite handle_extend. destruct (handle_message x c' m) as [[[x' c''] out]|e|] eqn:H; [|reflexivity|reflexivity].
      pose proof (handle_keeps _ _ _ _ _ _ H) as (K1 & K2 & K3 & _).
      f_equal. apply IH; auto; try congruence; rewrite K1; lia.
    + destruct f1 as [|f1]; [lia|]. destruct f2 as [|f2]; [lia|].
      cbn [receive_loop report_violation cn_done cn_error extend with_incoming]. reflexivity.
    + reflexivity.
Qed.

(** Two connections on which the peer sent the same bytes behave the same, however the
    bytes were cut into reads: same messages, same transfer, same bytes sent, same end. *)
Theorem C37_segmentation_is_irrelevant : forall (x : transfer) (reads1 reads2 : list bytes),
  Forall (fun r => r <> []) reads1 -> Forall (fun r => r <> []) reads2 ->
  concat reads1 = concat reads2 -> do_peer x reads1 = do_peer x reads2.
Proof.
  intros x r1 r2 N1 N2 E. unfold do_peer. set (c := conn_new _).
  rewrite (loop_join (rounds r1) (length (concat r1) + 3) x c r1) by (auto; cbn; unfold rounds; lia).
  rewrite (loop_join (rounds r2) (length (concat r1) + 3) x c r2) by (auto; cbn; unfold rounds; rewrite ?E; lia).
  rewrite E. reflexivity.
Qed.
Print Assumptions C37_segmentation_is_irrelevant.

Lemma be4_len v : length (be_bytes 4 v) = 4%nat.
Proof. apply be_bytes_length. Qed.
Definition holding (c : conn) (d : bytes) : Prop :=
  cn_incoming c = d /\ cn_handshake c = true /\ cn_done c = false /\ cn_finished c = false /\
  cn_error c = None /\ cn_first c = false.
Lemma next_frame c id body rest : holding c (frame id body ++ rest) -> blen body + 1 < two32 ->
  exists c', get_next_message c = (Ready (parse_message id body), c') /\ holding c' rest.
Proof.
  intros (I & Hh & Hd & Hf & He & H1) L. unfold get_next_message. rewrite I, Hh. cbn [negb].
  assert (Ed : frame id body ++ rest = be_bytes 4 (blen body + 1) ++ id :: body ++ rest).
  { unfold frame, framed. rewrite blen_cons, <- app_assoc. replace (1 + blen body) with (blen body + 1) by lia. reflexivity. }
  rewrite Ed. set (P := be_bytes 4 (blen body + 1)). assert (LP : length P = 4%nat) by apply be4_len.
  assert (VP : of_be_bytes P = blen body + 1) by (apply of_be_be_bytes; exact L).
  rewrite app_length, LP. cbn [length]. replace (4 + S (length (body ++ rest)) <? 4)%nat with false by lia.
  replace (firstn 4 (P ++ id :: body ++ rest)) with P.
  2:{ rewrite <- LP at 1. rewrite firstn_app_length. reflexivity. }
  rewrite VP. replace (blen body + 1 =? 0) with false by lia.
  replace (4 + S (length (body ++ rest)) <? 5)%nat with false by lia.
  replace (blen (P ++ id :: body ++ rest) <? 4 + (blen body + 1)) with false.
  2:{ rewrite blen_app, blen_cons, blen_app. unfold blen. rewrite LP. lia. }
  assert (N4 : nth 4 (P ++ id :: body ++ rest) 0 = id).
  { rewrite app_nth2 by lia. rewrite LP. reflexivity. }
  assert (S5 : skipn 5 (P ++ id :: body ++ rest) = body ++ rest).
  { change 5%nat with (4 + 1)%nat. rewrite <- LP at 1. rewrite skipn_app. rewrite skipn_all2 by lia.
    replace (length P + 1 - length P)%nat with 1%nat by lia. reflexivity. }
  rewrite N4, S5. replace (N.to_nat (blen body + 1 - 1)) with (length body) by (unfold blen; lia).
  rewrite firstn_app_length, skipn_app_length.
  eexists. split; [reflexivity|]. unfold holding, with_incoming. cbn. auto 10.
Qed.
Lemma next_wire pieces c m w rest : wire m = Some w -> sendable pieces m -> holding c (w ++ rest) ->
  exists c', get_next_message c = (Ready (Ok m), c') /\ holding c' rest.
Proof.
  intros W S H.
  assert (K : forall id body, frame id body = w -> blen body + 1 < two32 -> parse_message id body = Ok m ->
    exists c', get_next_message c = (Ready (Ok m), c') /\ holding c' rest).
  { intros id body E L P. rewrite <- P. apply next_frame; [rewrite E; exact H|exact L]. }
  assert (F4 : forall v t, firstn 4 (be_bytes 4 v ++ t) = be_bytes 4 v) by reflexivity.
  assert (S4 : forall v t, skipn 4 (be_bytes 4 v ++ t) = t) by reflexivity.
  destruct m; cbn [wire sendable] in *; try contradiction; injection W as W.
  - destruct H as (I & Hh & Hd & Hf & He & H1). unfold get_next_message. rewrite I, Hh. cbn [negb].
    rewrite app_length, <- W, be4_len. replace (4 + length rest <? 4)%nat with false by lia.
    replace (firstn 4 (be_bytes 4 0 ++ rest)) with (be_bytes 4 0) by reflexivity.
    change (of_be_bytes (be_bytes 4 0) =? 0) with true. cbv iota.
    eexists. split; [reflexivity|]. unfold holding, with_incoming. cbn. auto 10.
  - apply (K 0 []); auto. reflexivity.
  - apply (K 1 []); auto. reflexivity.
  - apply (K 2 []); auto. reflexivity.
  - apply (K 3 []); auto. reflexivity.
  - apply (K 4 (be_bytes 4 piece_index)); auto.
    + unfold blen. rewrite be4_len. reflexivity.
    + unfold parse_message. change (4 =? 0) with false. cbn [N.eqb Pos.eqb]. unfold check_message_len.
      rewrite be4_len. cbn [Nat.eqb bind]. rewrite of_be_be_bytes by exact S. reflexivity.
  - apply (K 5 data); auto. lia.
  - apply (K 7 (be_bytes 4 index ++ be_bytes 4 begin ++ block)); auto.
    + rewrite !blen_app. unfold blen. rewrite !be4_len. unfold blen in S. lia.
    + unfold parse_message. cbn [N.eqb Pos.eqb]. rewrite !app_length, !be4_len.
      replace (4 + (4 + length block) <? 4)%nat with false by lia.
      rewrite F4, S4. rewrite app_length, be4_len. replace (4 + length block <? 4)%nat with false by lia.
      rewrite F4, S4.
      rewrite !of_be_be_bytes by (change (256 ^ N.of_nat 4) with two32; tauto). reflexivity.
Qed.
Lemma incomplete_pending c tail : holding c tail -> incomplete tail -> get_next_message c = (Pending, c).
Proof.
  intros (I & Hh & _) Inc. unfold get_next_message. rewrite I, Hh. cbn [negb].
  destruct Inc as [L|(L & NZ & B)].
  - replace (length tail <? 4)%nat with true by lia. reflexivity.
  - replace (length tail <? 4)%nat with false by lia.
    replace (of_be_bytes (firstn 4 tail) =? 0) with false by lia.
    destruct (length tail <? 5)%nat; [reflexivity|].
    replace (blen tail <? 4 + of_be_bytes (firstn 4 tail)) with true by lia. reflexivity.
Qed.
Lemma handle_sendable x c m rest : holding c rest -> sendable (length (t_pieces (tr_torrent x))) m ->
  exists x' c' out, handle_message x c m = Ok (x', c', out) /\ holding c' rest /\ tr_torrent x' = tr_torrent x.
Proof.
  intros H S.
  assert (E : exists x' c' out, handle_message x c m = Ok (x', c', out) /\ cn_first c' = cn_first c).
  { destruct m; cbn [handle_message sendable] in *; try contradiction; eauto 6.
    - destruct (more_requests more_fuel x); eauto 6.
    - destruct H as (_ & _ & _ & _ & _ & H1). rewrite H1. destruct S as [S _]. unfold check_message_len.
      rewrite S, Nat.eqb_refl. cbn [map_err bind]. do 3 eexists. split; [reflexivity|]. cbn. auto.
    - destruct (more_requests _ _); eauto 6. }
  destruct E as (x' & c' & out & E & F1). exists x', c', out. split; [exact E|].
  pose proof (handle_keeps _ _ _ _ _ _ E) as (K1 & K2 & K3 & K4 & K5).
  pose proof (handle_progress _ _ _ _ _ _ E) as (T & _).
  split; [|exact T]. unfold holding in *. rewrite K1, K2, K3, K4, K5, F1. exact H.
Qed.
Lemma loop_messages ms : forall fuel x c ws tail,
  Forall2 (fun m w => wire m = Some w /\ sendable (length (t_pieces (tr_torrent x))) m) ms ws ->
  incomplete tail -> holding c (concat ws ++ tail) -> (length (concat ws ++ tail) + 3 <= fuel)%nat ->
  let r := receive_loop fuel x c [] in o_messages r = ms /\ o_ending r = EndLoop None.
Proof.
  induction ms as [|m ms IH]; intros fuel x c ws tail F2 Inc H L; inversion F2 as [|? w ? ws' [W S] F2']; subst.
  - cbn [concat app] in *. pose proof (incomplete_pending c tail H Inc) as G.
    destruct H as (I & Hh & Hd & Hf & He & H1).
    destruct fuel as [|[|fuel]]; [lia|lia|]. cbn [receive_loop]. rewrite Hd, Hf, G. cbn [orb].
    cbn [recv_more_data cn_done cn_finished cn_error]. rewrite Hd. cbn. rewrite He. auto.
  - cbn [concat] in *. rewrite <- app_assoc in H.
    destruct (next_wire _ c m w (concat ws' ++ tail) W S H) as (c1 & G & H1).
    destruct (handle_sendable x c1 m _ H1 S) as (x' & c2 & out & E & H2 & T).
    destruct H as (I & Hh & Hd & Hf & He & Hfst).
    destruct fuel as [|fuel]; [lia|]. cbn [receive_loop]. rewrite Hd, Hf, G. cbn [orb]. rewrite E.
    pose proof (next_consumes c m c1 G) as (C1 & _).
    cbn [o_messages o_ending prepend].
    specialize (IH fuel x' c2 ws' tail). rewrite T in IH.
    destruct (IH F2' Inc H2) as [IH1 IH2].
    { rewrite I in C1. destruct H1 as (I1 & _). rewrite I1 in C1. rewrite !app_length in *. lia. }
    split; [f_equal; exact IH1|exact IH2].
Qed.

Lemma next_handshake c h rest : cn_incoming c = [] -> cn_handshake c = false ->
  length (hs_reserved h) = 8%nat -> length (hs_info_hash h) = 20%nat -> length (hs_peer_id h) = 20%nat ->
  get_next_message (extend c (wire_handshake h ++ rest)) = (Ready (Ok (MHandshake h)), with_incoming c rest true).
Proof.
  intros Ei Eh L1 L2 L3. unfold get_next_message. cbn [extend with_incoming cn_handshake cn_incoming].
  rewrite Ei, Eh. cbn [negb app].
  unfold wire_handshake. destruct h as [a b p]. cbn [hs_reserved hs_info_hash hs_peer_id] in *.
  set (mg := handshake_magic). assert (Lm : length mg = 20%nat) by reflexivity.
  rewrite <- !app_assoc.
  replace (length (mg ++ a ++ b ++ p ++ rest) <? 68)%nat with false by (rewrite !app_length; lia).
  replace (firstn 20 (mg ++ a ++ b ++ p ++ rest)) with mg by (rewrite <- Lm at 1; rewrite firstn_app_length; reflexivity).
  rewrite bytes_eqb_refl. cbn [negb].
  assert (S1 : skipn 20 (mg ++ a ++ b ++ p ++ rest) = a ++ b ++ p ++ rest) by (rewrite <- Lm at 1; apply skipn_app_length).
  assert (S2 : skipn 28 (mg ++ a ++ b ++ p ++ rest) = b ++ p ++ rest).
  { change 28%nat with (20 + 8)%nat. rewrite <- skipn_skipn', S1. rewrite <- L1. apply skipn_app_length. }
  assert (S3 : skipn 48 (mg ++ a ++ b ++ p ++ rest) = p ++ rest).
  { change 48%nat with (28 + 20)%nat. rewrite <- skipn_skipn', S2. rewrite <- L2. apply skipn_app_length. }
  assert (S4 : skipn 68 (mg ++ a ++ b ++ p ++ rest) = rest).
  { change 68%nat with (48 + 20)%nat. rewrite <- skipn_skipn', S3. rewrite <- L3. apply skipn_app_length. }
  rewrite S1, S2, S3, S4.
  assert (F1 : firstn 8 (a ++ b ++ p ++ rest) = a) by (rewrite <- L1; apply firstn_app_length).
  assert (F2 : firstn 20 (b ++ p ++ rest) = b) by (rewrite <- L2; apply firstn_app_length).
  assert (F3 : firstn 20 (p ++ rest) = p) by (rewrite <- L3; apply firstn_app_length).
  rewrite F1, F2, F3. reflexivity.
Qed.

(** A peer that sends a handshake and messages, and then closes (possibly in the middle of
    a message): the client handles exactly those messages, however they were cut into
    reads, and ends without an error. *)
Theorem C37_messages_are_delivered : forall (x : transfer) (h : handshake) (ms : list message)
    (ws : list bytes) (tail : bytes) (reads : list bytes),
  length (hs_reserved h) = 8%nat -> length (hs_info_hash h) = 20%nat -> length (hs_peer_id h) = 20%nat ->
  Forall2 (fun m w => wire m = Some w /\ sendable (length (t_pieces (tr_torrent x))) m) ms ws ->
  incomplete tail ->
  Forall (fun r => r <> []) reads -> concat reads = wire_handshake h ++ concat ws ++ tail ->
  o_messages (do_peer x reads) = MHandshake h :: ms /\ o_ending (do_peer x reads) = EndLoop None.
Proof.
  intros x h ms ws tail reads L1 L2 L3 F2 Inc NE E. unfold do_peer.
  set (c := conn_new _).
  rewrite (loop_join (rounds reads) (length (concat reads) + 4) x c reads) by (auto; cbn; unfold rounds; lia).
  rewrite E. set (rest := concat ws ++ tail). rewrite Nat.add_succ_r. cbn [receive_loop].
  rewrite (next_handshake c h rest) by (auto; reflexivity). cbn [extend with_incoming cn_done cn_finished c conn_new orb handle_message].
  cbn [prepend o_messages o_ending].
  assert (H : holding (with_incoming c rest true) (concat ws ++ tail)) by (unfold holding; cbn; auto 10).
  destruct (loop_messages ms (length (wire_handshake h ++ rest) + 3) x (with_incoming c rest true) ws tail F2 Inc H) as [A B].
  { fold rest. rewrite (app_length (wire_handshake h) rest). lia. }
  split; [f_equal; exact A|exact B].
Qed.
Print Assumptions C37_messages_are_delivered.

Lemma loop_fuel : forall fuel x c reads,
  (length (cn_incoming c) + length (concat reads) + length reads + 3 <= fuel \/
   cn_done c || cn_finished c = true /\ 1 <= fuel)%nat ->
  o_ending (receive_loop fuel x c reads) <> EndOutOfFuel.
Proof.
  induction fuel as [|fuel IH]; intros x c reads L; [lia|]. cbn [receive_loop].
  destruct (cn_done c || cn_finished c) eqn:D; [discriminate|].
  destruct L as [L|[L _]]; [|congruence].
  destruct (get_next_message c) as [[|[m|e|]] c1] eqn:G.
  - apply pending_same in G. subst c1. destruct reads as [|[|b got] reads].
    + apply IH. right. cbn. rewrite orb_true_r. lia.
    + apply IH. right. cbn. rewrite orb_true_r. split; [reflexivity|]. lia.
    + apply IH. left. cbn [recv_more_data with_incoming cn_incoming].
      cbn [concat] in L. rewrite app_length in *. cbn [length] in *. lia.
  - apply next_consumes in G. destruct G as (G & _).
    destruct (handle_message x c1 m) as [[[x' c'] out]|e|] eqn:H; [|discriminate|discriminate].
    apply handle_keeps in H. destruct H as (H & _). cbn [prepend o_ending]. apply IH. left. rewrite H. lia.
  - apply IH. right. cbn. split; [reflexivity|]. lia.
  - discriminate.
Qed.
(** The receive loop always comes to an end on a finite stream. *)
Theorem C37_receive_loop_ends : forall (x : transfer) (reads : list bytes),
  o_ending (do_peer x reads) <> EndOutOfFuel.
Proof. intros x reads. apply loop_fuel. left. change (length (cn_incoming (conn_new (length (t_pieces (tr_torrent x)))))) with 0%nat. apply Nat.le_refl. Qed.
Print Assumptions C37_receive_loop_ends.

(** ** C74: what a peer can send to bring the client down *)
(** Requests, cancellations, port announcements, and pieces without both numbers. *)
Definition crashes (id : N) (body : bytes) : bool :=
  (id =? 6) || (id =? 8) || (id =? 9) || ((id =? 7) && (length body <? 8)%nat).

Lemma parse_panic id body : parse_message id body = Panic <-> crashes id body = true.
Proof.
  unfold parse_message, crashes, check_message_len.
  repeat match goal with |- context [if id =? ?k then _ else _] => destruct (N.eqb_spec id k); [subst id; cbn [N.eqb Pos.eqb orb andb]|] end;
  try (destruct (_ =? _)%nat; cbn [bind]; split; discriminate); try (split; reflexivity); try (split; discriminate).
  - destruct (length body <? 4)%nat eqn:E1; [split; [intros _; lia|reflexivity]|].
    rewrite skipn_length. destruct (length body - 4 <? 4)%nat eqn:E2; [split; [intros _; lia|reflexivity]|].
    split; [discriminate|]. lia.
Qed.

Lemma next_panic c c' : bytes_ok (cn_incoming c) -> get_next_message c = (Ready Panic, c') ->
  exists id body rest, cn_incoming c = frame id body ++ rest /\ crashes id body = true.
Proof.
  intros B. unfold get_next_message. set (d := cn_incoming c) in *. destruct (cn_handshake c); cbn [negb].
  2:{ destruct (_ <? _)%nat; [discriminate|]. destruct (bytes_eqb _ _); discriminate. }
  destruct (length d <? 4)%nat eqn:E1; [discriminate|].
  destruct (of_be_bytes (firstn 4 d) =? 0) eqn:E0; [discriminate|].
  destruct (length d <? 5)%nat eqn:E2; [discriminate|].
  destruct (blen d <? 4 + of_be_bytes (firstn 4 d)) eqn:E3; [discriminate|].
  set (n := N.to_nat (of_be_bytes (firstn 4 d) - 1)). intros H.
  assert (P : parse_message (nth 4 d 0) (firstn n (skipn 5 d)) = Panic) by congruence.
  apply parse_panic in P. exists (nth 4 d 0), (firstn n (skipn 5 d)), (skipn n (skipn 5 d)). split; [|exact P].
  assert (Ln : length (firstn n (skipn 5 d)) = n).
  { rewrite firstn_length, skipn_length. unfold blen in E3. lia. }
  unfold frame, framed. rewrite blen_cons. unfold blen at 1. rewrite Ln.
  replace (1 + N.of_nat n) with (of_be_bytes (firstn 4 d)) by lia.
  rewrite <- app_assoc. cbn [app]. rewrite firstn_skipn.
  replace (be_bytes 4 (of_be_bytes (firstn 4 d))) with (firstn 4 d).
  - destruct d as [|b0 [|b1 [|b2 [|b3 [|b4 d]]]]]; cbn [length] in E2; try lia. reflexivity.
  - destruct d as [|b0 [|b1 [|b2 [|b3 [|b4 d]]]]]; cbn [length] in E2; try lia.
    cbn [firstn]. symmetry. apply (be_of_be_bytes [b0; b1; b2; b3]).
    do 5 (apply Forall_cons_iff in B; destruct B as [? B]). repeat constructor; assumption.
Qed.
Lemma next_suffix c m c' : get_next_message c = (Ready (Ok m), c') ->
  exists u, cn_incoming c = u ++ cn_incoming c'.
Proof.
  unfold get_next_message. set (d := cn_incoming c). destruct (cn_handshake c); cbn [negb].
  - destruct (length d <? 4)%nat; [discriminate|]. destruct (of_be_bytes (firstn 4 d) =? 0).
    + intros H. assert (c' = with_incoming c (skipn 4 d) true) as -> by congruence.
      exists (firstn 4 d). symmetry. apply firstn_skipn.
    + destruct (length d <? 5)%nat; [discriminate|]. destruct (blen d <? _); [discriminate|].
      intros H. assert (c' = with_incoming c (skipn (N.to_nat (of_be_bytes (firstn 4 d) - 1)) (skipn 5 d)) true) as -> by congruence.
      cbn [with_incoming cn_incoming]. rewrite skipn_skipn'. eexists. symmetry. apply firstn_skipn.
  - destruct (length d <? 68)%nat; [discriminate|]. destruct (bytes_eqb _ _); cbn [negb]; [|discriminate].
    intros H. assert (c' = with_incoming c (skipn 68 d) true) as -> by congruence.
    exists (firstn 68 d). symmetry. apply firstn_skipn.
Qed.
Lemma handle_no_panic x c m : handle_message x c m <> Panic.
Proof.
  destruct m; cbn [handle_message]; try discriminate.
  - destruct (more_requests more_fuel x). discriminate.
  - destruct (cn_first c); [discriminate|]. unfold check_message_len. destruct (_ =? _)%nat; discriminate.
  - destruct (more_requests _ _). discriminate.
Qed.
Lemma loop_panic : forall fuel x c reads, bytes_ok (cn_incoming c ++ concat reads) ->
  o_ending (receive_loop fuel x c reads) = EndPanic ->
  exists pre id body rest, cn_incoming c ++ concat reads = pre ++ frame id body ++ rest /\ crashes id body = true.
Proof.
  induction fuel as [|fuel IH]; intros x c reads B; cbn [receive_loop]; [discriminate|].
  destruct (cn_done c || cn_finished c) eqn:D; [discriminate|].
  destruct (get_next_message c) as [[|[m|e|]] c1] eqn:G.
  - apply pending_same in G. subst c1. destruct reads as [|[|b got] reads]; intros H.
    + apply IH in H; [exact H|exact B].
    + apply IH in H; [exact H|exact B].
    + cbn [concat] in *. rewrite app_assoc in B. apply IH in H; [|exact B].
      cbn [recv_more_data with_incoming cn_incoming] in H. rewrite <- app_assoc in H. exact H.
  - pose proof (next_suffix _ _ _ G) as (u & U).
    destruct (handle_message x c1 m) as [[[x' c'] out]|e|] eqn:H; [|discriminate|].
    + apply handle_keeps in H. destruct H as (H & _). cbn [prepend o_ending]. intros P. apply IH in P.
      * destruct P as (pre & id & body & rest & P & Q). exists (u ++ pre), id, body, rest. split; [|exact Q].
        rewrite U, <- H, <- app_assoc, P, <- app_assoc. reflexivity.
      * rewrite H. rewrite U, <- app_assoc in B. apply Forall_app in B. tauto.
    + exfalso. exact (handle_no_panic _ _ _ H).
  - intros H. assert (R : exists f, fuel = S f) by (destruct fuel; [discriminate|eauto]). destruct R as (f & ->). discriminate.
  - intros _. apply next_panic in G; [|apply Forall_app in B; tauto].
    destruct G as (id & body & rest & G & Q). exists [], id, body, (rest ++ concat reads). split; [|exact Q].
    rewrite G. cbn [app]. rewrite <- app_assoc. reflexivity.
Qed.
(** The client panics only on such a message... *)
Theorem C74_only_these_crash_partial : forall (x : transfer) (reads : list bytes),
  bytes_ok (concat reads) -> o_ending (do_peer x reads) = EndPanic ->
  exists pre id body rest, concat reads = pre ++ frame id body ++ rest /\ crashes id body = true.
Proof. intros x reads B H. exact (loop_panic (rounds reads) x (conn_new (length (t_pieces (tr_torrent x)))) reads B H). Qed.
Print Assumptions C74_only_these_crash_partial.
(** ...and on every such message, after any handshake and any messages. *)
Theorem C74_every_such_message_crashes_refuted : forall (x : transfer) (h : handshake) (ms : list message)
    (ws : list bytes) (id : N) (body rest : bytes) (reads : list bytes),
  length (hs_reserved h) = 8%nat -> length (hs_info_hash h) = 20%nat -> length (hs_peer_id h) = 20%nat ->
  Forall2 (fun m w => wire m = Some w /\ sendable (length (t_pieces (tr_torrent x))) m) ms ws ->
  crashes id body = true -> blen body + 1 < two32 ->
  Forall (fun r => r <> []) reads ->
  concat reads = wire_handshake h ++ concat ws ++ frame id body ++ rest ->
  o_ending (do_peer x reads) = EndPanic /\ o_messages (do_peer x reads) = MHandshake h :: ms.
Proof.
  intros x h ms ws id body rest reads L1 L2 L3 F2 Cr Lb NE E.
  assert (K : forall ms fuel x c ws,
    Forall2 (fun m w => wire m = Some w /\ sendable (length (t_pieces (tr_torrent x))) m) ms ws ->
    holding c (concat ws ++ frame id body ++ rest) -> (length (concat ws) + 1 <= fuel)%nat ->
    let r := receive_loop fuel x c [] in o_ending r = EndPanic /\ o_messages r = ms).
  { clear - Cr Lb. induction ms as [|m ms IH]; intros fuel x c ws F2 H L; inversion F2 as [|? w ? ws' [W S] F2']; subst.
    - cbn [concat app] in *. destruct (next_frame c id body rest H Lb) as (c1 & G & _).
      destruct H as (I & Hh & Hd & Hf & _). destruct fuel as [|fuel]; [lia|]. cbn [receive_loop].
      rewrite Hd, Hf, G. cbn [orb]. apply parse_panic in Cr. rewrite Cr. auto.
    - cbn [concat] in *. rewrite <- app_assoc in H.
      destruct (next_wire _ c m w _ W S H) as (c1 & G & H1).
      destruct (handle_sendable x c1 m _ H1 S) as (x' & c2 & out & E & H2 & T).
      pose proof H as (I & Hh & Hd & Hf & He & Hfst).
      destruct fuel as [|fuel]; [lia|]. cbn [receive_loop]. rewrite Hd, Hf, G. cbn [orb]. rewrite E.
      pose proof (next_consumes c m c1 G) as (C1 & _). cbn [o_messages o_ending prepend].
      specialize (IH fuel x' c2 ws'). rewrite T in IH. destruct (IH F2' H2) as [IH1 IH2].
      { rewrite I in C1. destruct H1 as (I1 & _). rewrite I1 in C1. rewrite !app_length in *. lia. }
      split; [exact IH1|f_equal; exact IH2]. }
  unfold do_peer. set (c := conn_new _).
  rewrite (loop_join (rounds reads) (length (concat reads) + 4) x c reads) by (auto; cbn; unfold rounds; lia).
  rewrite E. set (more := concat ws ++ frame id body ++ rest). rewrite Nat.add_succ_r. cbn [receive_loop].
  rewrite (next_handshake c h more) by (auto; reflexivity).
  cbn [extend with_incoming cn_done cn_finished c conn_new orb handle_message prepend o_messages o_ending].
  assert (H : holding (with_incoming c more true) more) by (unfold holding; cbn; auto 10).
  destruct (K ms (length (wire_handshake h ++ more) + 3)%nat x (with_incoming c more true) ws F2 H) as [A B].
  { unfold more. rewrite !app_length. lia. }
  split; [exact A|f_equal; exact B].
Qed.
Print Assumptions C74_every_such_message_crashes_refuted.

(** ** A concrete conversation *)
Definition a_handshake : handshake :=
  {| hs_reserved := repeat 0 8; hs_info_hash := repeat 1 20; hs_peer_id := repeat 2 20 |}.
Definition a_transfer : option transfer :=
  match from_bytes (fun b => b) two_piece_torrent with
  | Ok t => match transfer_new t with Ok x => Some x | _ => None end
  | _ => None
  end.
(** A bit-field and an unchoke, then the answer to the fourth request (10000 bytes), a
    block nobody asked for, and three bytes of a further message. *)
Definition a_stream : bytes :=
  wire_handshake a_handshake ++ frame 5 [192] ++ frame 1 [] ++
  frame 7 (be_bytes 4 1 ++ be_bytes 4 0 ++ repeat 9 (Nat.mul 100 100)) ++
  frame 7 (be_bytes 4 1 ++ be_bytes 4 0 ++ [7]) ++ [0; 0; 0].
Example C36_C37_example :
  match a_transfer with
  | Some x =>
    let r := do_peer x [firstn 30 a_stream; firstn 50 (skipn 30 a_stream); skipn 80 a_stream] in
    map (fun r => (rq_index r, rq_begin r)) (tr_active (o_transfer r)) = [(0, 0); (0, 16384); (0, 32768)] /\
    map (fun b => (bk_index b, bk_begin b, blen (bk_data b))) (tr_completed (o_transfer r)) = [(1, 0, 10000)] /\
    tr_pending (o_transfer r) = [] /\ length (o_messages r) = 5%nat /\ o_ending r = EndLoop None /\
    o_sent r = framed [1] ++ framed [2] ++
      concat (map (fun q => framed (request_body q)) (tr_pending x)) ++ framed [3] ++ framed [3] ++ framed [3]
  | None => False
  end.
Proof. vm_compute. repeat split; reflexivity. Qed.
Example C74_example :
  match a_transfer with
  | Some x => o_ending (do_peer x [wire_handshake a_handshake ++ frame 9 [26; 225]]) = EndPanic /\
              o_ending (do_peer x [wire_handshake a_handshake ++ frame 10 [26; 225]]) = EndLoop (Some (UnknownMessage 10))
  | None => False
  end.
Proof. vm_compute. split; reflexivity. Qed.

(** The requests of such a torrent are distinct, so C36 says that each of them is in exactly
    one of the three states after anything a peer may send. *)
Lemma tiles_distinct (l : list request) :
  (forall i o, (length (filter (covers i o) l) <= 1)%nat) -> Forall (fun r => 1 <= rq_length r <= 16384) l -> NoDup l.
Proof.
  induction l as [|r l IH]; intros C F; [constructor|]. apply Forall_cons_iff in F. destruct F as [F1 F].
  constructor.
  - intros I. specialize (C (rq_index r) (rq_begin r)). cbn [filter] in C.
    assert (Cr : covers (rq_index r) (rq_begin r) r = true) by (unfold covers; lia).
    rewrite Cr in C. cbn [length] in C.
    assert (X : In r (filter (covers (rq_index r) (rq_begin r)) l)) by (apply filter_In; auto).
    destruct (filter _ l); [contradiction|]. cbn [length] in C. lia.
  - apply IH; [|exact F]. intros i o. specialize (C i o). cbn [filter] in C.
    destruct (covers i o r); cbn [length] in C; lia.
Qed.
Theorem C36_every_request_in_one_state : forall (sha1 : bytes -> bytes) (d : bytes) (t : torrent) (reads : list bytes),
  from_bytes sha1 d = Ok t ->
  t_piece_length t * (N.of_nat (length (t_pieces t)) - 1) <= t_total_length t ->
  t_piece_length t <= 2 ^ 32 -> N.of_nat (length (t_pieces t)) <= 2 ^ 32 ->
  exists x, transfer_new t = Ok x /\
  let y := o_transfer (do_peer x reads) in
  NoDup (tr_pending y ++ tr_active y ++ map block_request (tr_completed y)) /\
  forall q, In q (tr_pending x) <->
    (In q (tr_pending y) \/ In q (tr_active y) \/ In q (map block_request (tr_completed y))).
Proof.
  intros sha1 d t reads A NS Hp Hc.
  destruct (C35_requests_tile_the_torrent_partial sha1 d t A NS Hp Hc) as (x & E & _ & _ & C & F).
  exists x. split; [exact E|]. intros y.
  destruct (C36_requests_are_conserved t x reads E) as [P _]. fold y in P.
  assert (ND : NoDup (tr_pending x)).
  { apply tiles_distinct; [|exact F]. intros i o. rewrite C. destruct (in_torrent t i o); lia. }
  split; [exact (Permutation_NoDup (Permutation_sym P) ND)|].
  intros q. rewrite <- !in_app_iff. split; apply Permutation_in; [symmetry|]; exact P.
Qed.
Print Assumptions C36_every_request_in_one_state.
