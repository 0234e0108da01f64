(** The trace of netsim: C133. *)
From Verif Require Import Base BaseProofs BencodeSpec ChatModel BencodePathModel Asn1PrintProps SimModel SimSpec SimProofs SimProofs2 SimLogModel.
From Coq Require Import Lia ZArith ZifyBool ZifyNat ZifyN.
Ltac Zify.zify_post_hook ::= Z.div_mod_to_equations.
Local Open Scope string_scope. Local Open Scope list_scope. Local Open Scope N_scope.

(** *** Specification: how to check a trace with pencil and paper *)
Definition is_side (a b : side) : bool := match a, b with FirstSide, FirstSide | SecondSide, SecondSide => true | _, _ => false end.
Definition set {A} (s : side) (v : A) (f : side -> A) : side -> A := fun x => if is_side x s then v else f x.
(** The sheet: for each channel (named by who sends on it) the number of its next message and
    the messages under way; for each peer the number up to which all is acknowledged, what it
    has taken, and what it has received and not said anything about. *)
Record sheet := { tk_next : side -> N; tk_flight : side -> list (N * message); tk_ack : side -> N; tk_ok : side -> list (N * N); tk_got : side -> option message }.
Definition sheet_new : sheet := {| tk_next := fun _ => 0; tk_flight := fun _ => []; tk_ack := fun _ => 0; tk_ok := fun _ => []; tk_got := fun _ => None |}.
Definition is_message (a b : message) : bool :=
  match a, b with MData q d, MData q' d' => (q =? q') && (d =? d') | MAck x, MAck x' => x =? x' | _, _ => false end.
(** A peer sends the message with the number it has reached, or acknowledges up to there; and
    only when it has dealt with what it received. *)
Definition due (k : sheet) (s : side) (no : N) (m : message) : bool :=
  (no =? tk_next k s) && is_message m match m with MData _ _ => MData (tk_ack k s) (tk_ack k s) | MAck _ => MAck (tk_ack k s) end &&
  match tk_got k s with None => true | Some _ => false end.
Definition verdict_is (v : verdict) (c : comparison) : bool :=
  match v, c with Future, Gt | Fine, Eq | Duplicate, Lt => true | _, _ => false end.
Definition ack_verdict_is (v : ack_verdict) (c : comparison) : bool :=
  match v, c with News, Gt | DupAck, Eq | Stale, Lt => true | _, _ => false end.
Definition check (e : event) (k : sheet) : option sheet :=
  match e with
  | LSend s no m =>
    if due k s no m then Some {| tk_next := set s (no + 1) (tk_next k); tk_flight := set s (tk_flight k s ++ [(no, m)]) (tk_flight k); tk_ack := tk_ack k; tk_ok := tk_ok k; tk_got := tk_got k |} else None
  | LDrop s no m =>
    if due k s no m then Some {| tk_next := set s (no + 1) (tk_next k); tk_flight := tk_flight k; tk_ack := tk_ack k; tk_ok := tk_ok k; tk_got := tk_got k |} else None
  | LRecv s no m =>
    match existsb (fun x => (fst x =? no) && is_message m (snd x)) (tk_flight k s), tk_got k (other s) with
    | true, None => Some {| tk_next := tk_next k; tk_flight := set s (filter (fun x => negb (fst x =? no)) (tk_flight k s)) (tk_flight k); tk_ack := tk_ack k; tk_ok := tk_ok k; tk_got := set (other s) (Some m) (tk_got k) |}
    | _, _ => None
    end
  | LData s v seq data =>
    match tk_got k s with
    | Some m => if is_message m (MData seq data) && verdict_is v (seq ?= tk_ack k s) then
        Some {| tk_next := tk_next k; tk_flight := tk_flight k; tk_ack := match v with Fine => set s (seq + 1) (tk_ack k) | _ => tk_ack k end;
                tk_ok := match v with Fine => set s (tk_ok k s ++ [(seq, data)]) (tk_ok k) | _ => tk_ok k end; tk_got := set s None (tk_got k) |} else None
    | None => None
    end
  | LAck s v ack =>
    match tk_got k s with
    | Some m => if is_message m (MAck ack) && ack_verdict_is v (ack ?= tk_ack k s) then
        Some {| tk_next := tk_next k; tk_flight := tk_flight k; tk_ack := match v with News => set s ack (tk_ack k) | _ => tk_ack k end; tk_ok := tk_ok k; tk_got := set s None (tk_got k) |} else None
    | None => None
    end
  | LRetransmit s seq => if (seq =? tk_ack k s) && match tk_got k s with None => true | Some _ => false end then Some k else None
  end.
Fixpoint check_all (l : list entry) (k : sheet) : option sheet :=
  match l with [] => Some k | (_, e) :: l => match check e k with Some k => check_all l k | None => None end end.
(** The trace of any schedule. *)
Fixpoint world_said (prm : channel_params) (l : list (side * N * list (list draw))) (w : world) : logged world :=
  match l with
  | [] => silent (Ok w)
  | (s, now, rs) :: l => let! w := step_side_said s prm now rs w in world_said prm l w
  end.

(** *** The functions that print are the ones that do not *)
Lemma then_snd {A B} (m : logged A) (k : A -> logged B) r : snd m = r -> snd (then_ m k) = match r with Ok a => snd (k a) | Err e => Err e | Panic => Panic end.
Proof. intros <-. unfold then_. destruct (snd m); reflexivity. Qed.
Lemma send_copies_same now s p st m ds : forall c, snd (send_copies_said now s p st m ds c) = send_copies p st m ds c.
Proof.
  induction ds as [|d ds IH]; intros c; cbn [send_copies_said send_copies]; [reflexivity|].
  erewrite then_snd by reflexivity. unfold silent at 1. cbn [snd]. destruct (add64 (ch_next_no c) 1) as [next|e|]; cbn [bind]; [|reflexivity..].
  erewrite then_snd by reflexivity. unfold silent at 1. cbn [snd]. destruct (if latency_min p <=? latency_max p then _ else _) as [lat|e|]; cbn [bind]; [|reflexivity..].
  erewrite then_snd by reflexivity. unfold silent at 1. cbn [snd]. destruct (add64 st lat) as [rt|e|]; cbn [bind]; [|reflexivity..].
  destruct (dr_lost d); [reflexivity|]. erewrite then_snd by reflexivity. cbn [snd say]. apply IH.
Qed.
Lemma endpoint_send_same now s prm m ds w : snd (endpoint_send_said now s prm m ds w) = endpoint_send s prm m ds w.
Proof.
  unfold endpoint_send_said, endpoint_send, channel_send. erewrite then_snd by reflexivity. cbn [snd silent]. destruct (add64 _ _) as [n|e|]; cbn [bind]; [|reflexivity..].
  erewrite then_snd by apply send_copies_same. destruct (send_copies _ _ _ _ _) as [c|e|]; reflexivity.
Qed.
Lemma on_message_same now s m p : snd (on_message_said now s m p) = on_message m p.
Proof. destruct m; reflexivity. Qed.
Lemma recv_loop_same fuel now s prm : forall rs p w, snd (recv_loop_said fuel now s prm rs p w) = recv_loop fuel s prm rs p w.
Proof.
  induction fuel as [|fuel IH]; intros rs p w; cbn [recv_loop_said recv_loop]; [reflexivity|]. destruct (endpoint_recv s w) as [[m|] w1]; [|reflexivity].
  erewrite then_snd by reflexivity. cbn [snd say]. erewrite then_snd by apply on_message_same. destruct (on_message (mt_message m) p) as [[p1 [r|]]|e|]; cbn [bind]; try reflexivity; [|apply IH].
  destruct (next_draws rs) as [d rs1]. erewrite then_snd by apply endpoint_send_same. destruct (endpoint_send s prm r d w1) as [w2|e|]; cbn [bind]; [apply IH|reflexivity..].
Qed.
Lemma retransmit_same now s p w : snd (retransmit_said now s p w) = Ok (after_retransmit s now p w).
Proof. unfold retransmit_said, after_retransmit. destruct (pe_retransmit p) as [t|]; [|reflexivity]. destruct (_ && _); reflexivity. Qed.
Lemma peer_step_same s prm now rs p w : snd (peer_step_said s prm now rs p w) = peer_step s prm now rs p w.
Proof.
  unfold peer_step_said, peer_step. erewrite then_snd by apply recv_loop_same. destruct (recv_loop _ s prm rs p w) as [[[p1 w1] rs1]|e|]; cbn [bind]; [|reflexivity..].
  erewrite then_snd by apply retransmit_same. cbv beta iota zeta. set (sq := after_retransmit s now p1 w1). destruct ((pe_ack p1 =? sq) && can_send s now w1 && (sq <? pe_count p1)); [|reflexivity]. destruct (next_draws rs1) as [d rs2].
  erewrite then_snd by apply endpoint_send_same. destruct (endpoint_send _ _ _ _ _) as [w2|e|]; cbn [bind]; [|reflexivity..].
  erewrite then_snd by reflexivity. cbn [snd silent]. destruct (add64 _ 1) as [q|e|]; cbn [bind]; [|reflexivity..]. erewrite then_snd by reflexivity. cbn [snd silent]. destruct (add64 now _) as [t|e|]; reflexivity.
Qed.
Lemma step_side_same s prm now rs w : snd (step_side_said s prm now rs w) = step_side s prm now rs w.
Proof. destruct s; cbn [step_side_said step_side]; erewrite then_snd by apply peer_step_same; destruct (peer_step _ prm now rs _ _) as [[[p q] r]|e|]; reflexivity. Qed.
Lemma world_same prm l : forall w, snd (world_said prm l w) = world_run prm l w.
Proof.
  induction l as [|[[s now] rs] l IH]; intros w; cbn [world_said world_run]; [reflexivity|]. erewrite then_snd by apply step_side_same. destruct (step_side s prm now rs w) as [w1|e|]; cbn [bind]; [apply IH|reflexivity..].
Qed.
Lemma main_said n prm rs : forall now w, main_loop_said n prm now rs w = world_said prm (schedule n now rs) w.
Proof.
  induction n as [|n IH]; intros now w; cbn [main_loop_said schedule world_said]; [reflexivity|]. unfold then_. destruct (snd (step_side_said FirstSide prm now (rs now FirstSide) w)) as [w1|e|]; try reflexivity.
  destruct (snd (step_side_said SecondSide prm now (rs now SecondSide) w1)) as [w2|e|]; cbn [fst snd]; rewrite ?IH; reflexivity.
Qed.
(** Printing changes nothing. *)
Theorem C133_only_text n prm rs now w : snd (main_loop_said n prm now rs w) = main_loop n prm now rs w.
Proof. rewrite main_said, main_schedule. apply world_same. Qed.
Print Assumptions C133_only_text.

(** *** Checking *)
Definition explains {A} (k : sheet) (m : logged A) (Q : sheet -> A -> Prop) : Prop :=
  exists k', check_all (fst m) k = Some k' /\ forall a, snd m = Ok a -> Q k' a.
Lemma check_all_app l l' : forall k, check_all (l ++ l') k = match check_all l k with Some k' => check_all l' k' | None => None end.
Proof. induction l as [|[t e] l IH]; intros k; cbn [app check_all]; [reflexivity|]. destruct (check e k); [apply IH|reflexivity]. Qed.
Lemma explains_then {A B} k (m : logged A) (f : A -> logged B) Q R : explains k m Q -> (forall a k', snd m = Ok a -> Q k' a -> explains k' (f a) R) -> explains k (then_ m f) R.
Proof.
  intros (k' & C & H) F. unfold then_. destruct (snd m) as [a|e|] eqn:S; [|exists k'; split; [exact C|intros b X; discriminate X]..].
  destruct (F a k' eq_refl (H a eq_refl)) as (k2 & C2 & H2). exists k2. cbn [fst snd]. split; [rewrite check_all_app, C; exact C2|exact H2].
Qed.
Lemma explains_silent {A} k (r : outcome unit A) (Q : sheet -> A -> Prop) : (forall a, r = Ok a -> Q k a) -> explains k (silent r) Q.
Proof. intros H. exists k. split; [reflexivity|exact H]. Qed.
Lemma explains_weak {A} k (m : logged A) (Q : sheet -> A -> Prop) : explains k m Q -> explains k m Q.
Proof. auto. Qed.
Lemma explains_say now e k k' (Q : sheet -> unit -> Prop) : check e k = Some k' -> Q k' tt -> explains k (say now e) Q.
Proof. intros C H. exists k'. cbn [say fst snd check_all]. rewrite C. split; [reflexivity|]. intros [] _. exact H. Qed.

Definition flying (x : in_transit message) : N * message := (mt_no x, mt_message x).
Definition chan_ok (k : sheet) (s : side) (c : channel message) : Prop :=
  tk_next k s = ch_next_no c /\ tk_flight k s = map flying (ch_messages c) /\ NoDup (map mt_no (ch_messages c)) /\ Forall (fun x => mt_no x < ch_next_no c) (ch_messages c).
(** The sheet shows peer [p] on side [s], peer [q] on the other, and the channels of [w]. *)
Definition shows (k : sheet) (s : side) (p q : peer) (w : pair message) : Prop :=
  tk_ack k s = pe_ack p /\ tk_ok k s = pe_accepted p /\ tk_ack k (other s) = pe_ack q /\ tk_ok k (other s) = pe_accepted q /\ (forall x, tk_got k x = None) /\
  (forall x, chan_ok k x (send_channel x w)).
Lemma is_side_refl s : is_side s s = true. Proof. destruct s; reflexivity. Qed.
Lemma is_side_other s : is_side (other s) s = false. Proof. destruct s; reflexivity. Qed.
Lemma is_side_other' s : is_side s (other s) = false. Proof. destruct s; reflexivity. Qed.
Lemma set_same {A} s (v : A) f : set s v f s = v. Proof. unfold set. rewrite is_side_refl. reflexivity. Qed.
Lemma set_other {A} s (v : A) f : set s v f (other s) = f (other s). Proof. unfold set. rewrite is_side_other. reflexivity. Qed.
Lemma side_cases x s : x = s \/ x = other s. Proof. destruct x, s; auto. Qed.
Lemma other_twice s : other (other s) = s. Proof. destruct s; reflexivity. Qed.
Lemma is_message_refl m : is_message m m = true. Proof. destruct m; cbn; rewrite ?N.eqb_refl; reflexivity. Qed.
(** What is the same of two sheets, but for the channel of [s]. *)
Definition besides (s : side) (k k' : sheet) : Prop :=
  (forall x, tk_ack k' x = tk_ack k x) /\ (forall x, tk_ok k' x = tk_ok k x) /\ (forall x, tk_got k' x = tk_got k x) /\ tk_next k' (other s) = tk_next k (other s) /\ tk_flight k' (other s) = tk_flight k (other s).
Lemma besides_refl s k : besides s k k. Proof. repeat split. Qed.
Lemma besides_trans s k1 k2 k3 : besides s k1 k2 -> besides s k2 k3 -> besides s k1 k3.
Proof. intros (A & B & C & D & E) (A' & B' & C' & D' & E'). repeat split; intros; [rewrite A'; apply A|rewrite B'; apply B|rewrite C'; apply C|congruence|congruence]. Qed.
Lemma is_due k s m c : chan_ok k s c -> tk_got k s = None -> (m = MData (tk_ack k s) (tk_ack k s) \/ m = MAck (tk_ack k s)) -> due k s (ch_next_no c) m = true.
Proof. intros (A & _) G [-> | ->]; unfold due; rewrite A, G, N.eqb_refl, is_message_refl; reflexivity. Qed.
Lemma send_copies_explained now s p st m ds : forall k c, chan_ok k s c -> tk_got k s = None -> (m = MData (tk_ack k s) (tk_ack k s) \/ m = MAck (tk_ack k s)) ->
  explains k (send_copies_said now s p st m ds c) (fun k' c' => besides s k k' /\ chan_ok k' s c').
Proof.
  induction ds as [|d ds IH]; intros k c C G D; cbn [send_copies_said].
  - apply explains_silent. intros a X. injection X as <-. split; [apply besides_refl|exact C].
  - eapply explains_then; [apply (explains_silent _ _ (fun k' n => k' = k /\ n = ch_next_no c + 1)); intros n X; apply add64_ok in X; destruct X as [-> _]; split; reflexivity|].
    intros n k1 _ (-> & ->). eapply explains_then; [apply (explains_silent _ _ (fun k' _ => k' = k)); reflexivity|]. intros lat k1 _ ->.
    eapply explains_then; [apply (explains_silent _ _ (fun k' _ => k' = k)); reflexivity|]. intros rt k1 _ ->. pose proof (is_due k s m c C G D) as Du. destruct C as (C1 & C2 & C3 & C4).
    destruct (dr_lost d).
    + eapply explains_then; [eapply (explains_say _ _ _ _ (fun k' _ => besides s k k' /\ chan_ok k' s {| ch_messages := ch_messages c; ch_next_no := ch_next_no c + 1; ch_next_send := ch_next_send c |})); [cbn [check]; rewrite Du; reflexivity|]|].
      * unfold besides, chan_ok. cbn [tk_ack tk_ok tk_got tk_next tk_flight ch_messages ch_next_no]. rewrite set_other, set_same. repeat split; try assumption. eapply Forall_impl; [|exact C4]. cbv beta. intros x. lia.
      * intros [] k1 _ (B & C). apply explains_silent. intros a X. injection X as <-. split; assumption.
    + eapply explains_then; [eapply (explains_say _ _ _ _ (fun k' _ => besides s k k' /\ chan_ok k' s {| ch_messages := ch_messages c ++ [{| mt_no := ch_next_no c; mt_time := rt; mt_priority := dr_priority d; mt_message := m |}]; ch_next_no := ch_next_no c + 1; ch_next_send := ch_next_send c |})); [cbn [check]; rewrite Du; reflexivity|]|].
      * unfold besides, chan_ok. cbn [tk_ack tk_ok tk_got tk_next tk_flight ch_messages ch_next_no]. rewrite !set_other, !set_same. repeat split; [rewrite map_app, C2; reflexivity| |].
        -- rewrite map_app. cbn [map mt_no]. rewrite <- (rev_involutive (map mt_no (ch_messages c) ++ [ch_next_no c])). apply NoDup_rev. rewrite rev_app_distr. cbn [rev app]. constructor; [|apply NoDup_rev, C3].
           intros I0. apply in_rev in I0. rewrite Forall_forall in C4. apply in_map_iff in I0. destruct I0 as (x & E & I0). specialize (C4 x I0). lia.
        -- apply Forall_app. split; [eapply Forall_impl; [|exact C4]; cbv beta; intros x; lia|repeat constructor; cbn [mt_no]; lia].
      * intros [] k1 _ (B & C). pose proof B as (B1 & B2 & B3 & _). destruct (IH k1 _ C) as (k2 & H1 & H2).
        -- rewrite B3. exact G.
        -- rewrite B1. exact D.
        -- exists k2. split; [exact H1|]. intros a X. destruct (H2 a X) as [H3 H4]. split; [exact (besides_trans _ _ _ _ B H3)|exact H4].
Qed.
Lemma send_channel_set s c (w : pair message) : send_channel s (set_send s c w) = c. Proof. destruct s; reflexivity. Qed.
Lemma send_channel_other s c (w : pair message) : send_channel (other s) (set_send s c w) = send_channel (other s) w. Proof. destruct s; reflexivity. Qed.
Lemma chan_ok_ext k k' s c : tk_next k' s = tk_next k s -> tk_flight k' s = tk_flight k s -> chan_ok k s c -> chan_ok k' s c.
Proof. intros A B (H1 & H2 & H3 & H4). repeat split; try assumption; congruence. Qed.
Lemma endpoint_send_explained now s prm m ds k p q w : shows k s p q w -> (m = MData (pe_ack p) (pe_ack p) \/ m = MAck (pe_ack p)) ->
  explains k (endpoint_send_said now s prm m ds w) (fun k' w' => shows k' s p q w').
Proof.
  intros (S1 & S2 & S3 & S4 & S5 & S6) D. unfold endpoint_send_said.
  eapply explains_then; [apply (explains_silent _ _ (fun k' _ => k' = k)); reflexivity|]. intros n k1 _ ->.
  eapply explains_then; [apply send_copies_explained; [|apply S5|rewrite S1; exact D]|].
  - destruct (S6 s) as (H1 & H2 & H3 & H4). repeat split; assumption.
  - intros c k' _ ((B1 & B2 & B3 & B4 & B5) & C). apply explains_silent. intros w' X. injection X as <-. unfold shows. rewrite !B1, !B2. repeat (split; [assumption|]). split; [intros x; rewrite B3; apply S5|].
    intros x. destruct (side_cases x s) as [-> | ->]; [rewrite send_channel_set; exact C|]. rewrite send_channel_other. exact (chan_ok_ext k k' (other s) _ B4 B5 (S6 (other s))).
Qed.
Lemma recv_channel_other s (w : pair message) : recv_channel s w = send_channel (other s) w. Proof. destruct s; reflexivity. Qed.
Lemma filter_all {A} (f : A -> bool) l : (forall x, In x l -> f x = true) -> filter f l = l.
Proof. induction l as [|x l IH]; intros H; [reflexivity|]. cbn. rewrite (H x (or_introl eq_refl)), IH; [reflexivity|]. intros y I0. apply H. right. exact I0. Qed.
(** Receiving a message takes it from the list. *)
Lemma recv_splits (c : channel message) x c' : channel_recv c = (Some x, c') -> exists a b, ch_messages c = a ++ x :: b /\ ch_messages c' = a ++ b /\ ch_next_no c' = ch_next_no c.
Proof.
  unfold channel_recv. destruct (next_recv_time c) as [t|]; [|discriminate]. destruct (best_index t 0 None (ch_messages c)) as [[i pr]|]; [|discriminate]. intros H.
  assert (Nx := f_equal fst H). assert (Ec := f_equal snd H). cbn [fst snd] in Nx, Ec. destruct (nth_error_split _ _ Nx) as (a & b & E & L). exists a, b. split; [exact E|]. rewrite <- Ec. cbn [ch_messages ch_next_no]. split; [|reflexivity].
  rewrite E, <- L, firstn_app_length. f_equal. change (a ++ x :: b) with (a ++ [x] ++ b). rewrite app_assoc. replace (Datatypes.S (length a)) with (length (a ++ [x])) by (rewrite app_length; cbn; lia). apply skipn_app_length.
Qed.
Lemma recv_explained now s k p q w m w' : shows k s p q w -> endpoint_recv s w = (Some m, w') ->
  explains k (say now (LRecv (other s) (mt_no m) (mt_message m))) (fun k' _ => tk_got k' s = Some (mt_message m) /\ shows {| tk_next := tk_next k'; tk_flight := tk_flight k'; tk_ack := tk_ack k'; tk_ok := tk_ok k'; tk_got := set s None (tk_got k') |} s p q w').
Proof.
  intros (S1 & S2 & S3 & S4 & S5 & S6) H. unfold endpoint_recv in H. rewrite recv_channel_other in H. destruct (channel_recv (send_channel (other s) w)) as [x c'] eqn:R. injection H as -> <-.
  destruct (recv_splits _ _ _ R) as (a & b & E1 & E2 & E3). destruct (S6 (other s)) as (C1 & C2 & C3 & C4). eapply explains_say.
  - cbn [check]. rewrite other_twice, S5. replace (existsb _ (tk_flight k (other s))) with true; [reflexivity|]. symmetry. apply existsb_exists. exists (flying m). split; [rewrite C2; apply in_map; rewrite E1; apply in_or_app; right; left; reflexivity|].
    cbn [flying fst snd]. rewrite N.eqb_refl, is_message_refl. reflexivity.
  - cbn [tk_got tk_next tk_flight tk_ack tk_ok]. rewrite set_same. split; [reflexivity|]. unfold shows. cbn [tk_got tk_next tk_flight tk_ack tk_ok]. repeat (split; [assumption|]). split.
    + intros x. destruct (side_cases x s) as [-> | ->]; [apply set_same|]. rewrite !set_other. apply S5.
    + intros x. rewrite E1 in C2, C3, C4. destruct (side_cases x s) as [-> | ->].
      * replace (send_channel s (set_recv s c' w)) with (send_channel s w) by (destruct s; reflexivity). apply (chan_ok_ext k _ s); [reflexivity| |apply S6]. cbn [tk_flight]. unfold set. rewrite is_side_other'. reflexivity.
      * replace (send_channel (other s) (set_recv s c' w)) with c' by (destruct s; reflexivity). unfold chan_ok. cbn [tk_next tk_flight]. rewrite E2, E3, set_same.
        rewrite map_app in C3. cbn [map] in C3. pose proof (NoDup_remove_1 _ _ _ C3) as D1. pose proof (NoDup_remove_2 _ _ _ C3) as D2. rewrite <- map_app in D1, D2.
        split; [exact C1|]. split; [|split; [exact D1|]].
        -- rewrite C2, map_app. cbn [map]. rewrite filter_app. cbn [filter flying fst]. rewrite N.eqb_refl. cbn [negb]. rewrite <- filter_app, <- map_app. apply filter_all. intros y I0. apply in_map_iff in I0. destruct I0 as (z & <- & I0).
           cbn [flying fst]. destruct (mt_no z =? mt_no m) eqn:Q; [|reflexivity]. apply N.eqb_eq in Q. exfalso. apply D2. rewrite <- Q. apply in_map, I0.
        -- apply Forall_app in C4. destruct C4 as [F1 F2]. apply Forall_app. split; [exact F1|]. exact (Forall_inv_tail F2).
Qed.
Lemma on_message_explained now s k p q w m : tk_got k s = Some m ->
  shows {| tk_next := tk_next k; tk_flight := tk_flight k; tk_ack := tk_ack k; tk_ok := tk_ok k; tk_got := set s None (tk_got k) |} s p q w ->
  explains k (on_message_said now s m p) (fun k' x => shows k' s (fst x) q w /\ match snd x with Some r => r = MAck (pe_ack (fst x)) | None => True end).
Proof.
  intros G (S1 & S2 & S3 & S4 & S5 & S6). cbn [tk_got tk_next tk_flight tk_ack tk_ok] in *. destruct m as [sq d|a]; cbn [on_message_said on_message].
  - eapply explains_then; [eapply (explains_say _ _ _ _ (fun k' _ => Some k' = check (LData s (if pe_ack p <? sq then Future else if pe_ack p =? sq then Fine else Duplicate) sq d) k)); [|]|].
    + cbn [check]. rewrite G, S1, is_message_refl. replace (verdict_is _ _) with true; [reflexivity|]. symmetry. destruct (N.compare_spec sq (pe_ack p)) as [->|L|L].
      * rewrite N.ltb_irrefl, N.eqb_refl. reflexivity.
      * rewrite (proj2 (N.ltb_ge _ _)) by lia. rewrite (proj2 (N.eqb_neq _ _)) by lia. reflexivity.
      * rewrite (proj2 (N.ltb_lt _ _)) by lia. reflexivity.
    + cbn [check]. rewrite G, S1, is_message_refl. replace (verdict_is _ _) with true; [reflexivity|]. symmetry. destruct (N.compare_spec sq (pe_ack p)) as [->|L|L].
      * rewrite N.ltb_irrefl, N.eqb_refl. reflexivity.
      * rewrite (proj2 (N.ltb_ge _ _)) by lia. rewrite (proj2 (N.eqb_neq _ _)) by lia. reflexivity.
      * rewrite (proj2 (N.ltb_lt _ _)) by lia. reflexivity.
    + intros [] k1 _ E. apply explains_silent. intros [p1 r] X. cbn [check] in E. rewrite G in E. destruct (_ && _) in E; [|discriminate E]. injection E as ->. cbn [fst snd].
      unfold shows. cbn [tk_got tk_next tk_flight tk_ack tk_ok]. destruct (pe_ack p <? sq) eqn:L1.
      * injection X as <- <-. split; [|exact Logic.I]. repeat (split; [assumption|]). exact S6.
      * destruct (pe_ack p =? sq) eqn:L2.
        -- destruct (add64 sq 1) as [a| |] eqn:A; try discriminate X. cbn [bind] in X. injection X as <- <-. apply add64_ok in A. destruct A as [-> _]. split; [|reflexivity].
           cbn [pe_ack pe_accepted]. rewrite !set_same, !set_other, S2. repeat (split; [assumption || reflexivity|]). exact S6.
        -- injection X as <- <-. split; [|reflexivity]. repeat (split; [assumption|]). exact S6.
  - assert (V : ack_verdict_is (if pe_ack p <? a then News else if pe_ack p =? a then DupAck else Stale) (a ?= pe_ack p) = true).
    { destruct (N.compare_spec a (pe_ack p)) as [->|L|L].
      * rewrite N.ltb_irrefl, N.eqb_refl. reflexivity.
      * rewrite (proj2 (N.ltb_ge _ _)) by lia. rewrite (proj2 (N.eqb_neq _ _)) by lia. reflexivity.
      * rewrite (proj2 (N.ltb_lt _ _)) by lia. reflexivity. }
    eapply explains_then; [eapply (explains_say _ _ _ _ (fun k' _ => Some k' = check (LAck s (if pe_ack p <? a then News else if pe_ack p =? a then DupAck else Stale) a) k)); cbn [check]; rewrite G, S1, is_message_refl, V; reflexivity|].
    intros [] k1 _ E. apply explains_silent. intros [p1 r] X. cbn [check] in E. rewrite G in E. destruct (_ && _) in E; [|discriminate E]. injection E as ->. cbn [fst snd].
    unfold shows. cbn [tk_got tk_next tk_flight tk_ack tk_ok]. destruct (pe_ack p <? a) eqn:L1.
    + injection X as <- <-. split; [|exact Logic.I]. cbn [pe_ack pe_accepted]. rewrite !set_same, !set_other. repeat (split; [assumption || reflexivity|]). exact S6.
    + injection X as <- <-. split; [|exact Logic.I]. destruct (pe_ack p =? a); repeat (split; [assumption|]); exact S6.
Qed.
Lemma recv_loop_explained fuel now s prm : forall rs k p q w, shows k s p q w ->
  explains k (recv_loop_said fuel now s prm rs p w) (fun k' x => shows k' s (fst (fst x)) q (snd (fst x))).
Proof.
  induction fuel as [|fuel IH]; intros rs k p q w S; cbn [recv_loop_said]; [apply explains_silent; discriminate|]. destruct (endpoint_recv s w) as [[m|] w1] eqn:R.
  - eapply explains_then; [eapply recv_explained; eassumption|]. intros [] k1 _ (G & S1). eapply explains_then; [eapply on_message_explained; eassumption|].
    intros [p1 [r|]] k2 _ (S2 & D); cbn [fst snd] in *; [|apply IH; exact S2]. destruct (next_draws rs) as [d rs1].
    eapply explains_then; [eapply endpoint_send_explained; [exact S2|right; exact D]|]. intros w2 k3 _ S3. apply IH. exact S3.
  - apply explains_silent. intros x X. injection X as <-. cbn [fst snd]. replace w1 with w; [exact S|]. unfold endpoint_recv in R. destruct (recv_cases (recv_channel s w)) as [[_ H]|(l1 & x & l2 & _ & H & _)]; rewrite H in R; [|discriminate R]. injection R as <-. destruct s, w; reflexivity.
Qed.
Lemma peer_step_explained s prm now rs k p q w : shows k s p q w -> explains k (peer_step_said s prm now rs p w) (fun k' x => shows k' s (fst (fst x)) q (snd (fst x))).
Proof.
  intros S. unfold peer_step_said. eapply explains_then; [apply recv_loop_explained; exact S|]. intros [[p1 w1] rs1] k1 _ S1. cbn [fst snd] in S1. clear S. revert k1 p1 w1 rs1 S1. clear. intros k p w rs S.
  eapply explains_then; [apply (explains_weak _ _ (fun k' _ => k' = k))|].
  - unfold retransmit_said. destruct (pe_retransmit p) as [t|]; [|apply explains_silent; reflexivity]. destruct (_ && _); [|apply explains_silent; reflexivity].
    eapply explains_then; [eapply (explains_say _ _ _ _ (fun k' _ => k' = k)); [|reflexivity]|intros [] k1 _ ->; apply explains_silent; reflexivity].
    destruct S as (S1 & _ & _ & _ & S5 & _). cbn [check]. rewrite S1, S5, N.eqb_refl. reflexivity.
  - intros sq k1 _ ->. destruct ((pe_ack p =? sq) && can_send s now w && (sq <? pe_count p)) eqn:C.
    + apply andb_true_iff in C. destruct C as [C _]. apply andb_true_iff in C. destruct C as [C _]. apply N.eqb_eq in C. destruct (next_draws rs) as [d rs1].
      eapply explains_then; [eapply endpoint_send_explained; [exact S|left; rewrite C; reflexivity]|]. intros w1 k1 _ S1.
      eapply explains_then; [apply (explains_silent _ _ (fun k' _ => k' = k1)); reflexivity|]. intros n k2 _ ->. eapply explains_then; [apply (explains_silent _ _ (fun k' _ => k' = k1)); reflexivity|]. intros t k2 _ ->.
      apply explains_silent. intros x X. injection X as <-. exact S1.
    + apply explains_silent. intros x X. injection X as <-. exact S.
Qed.
Definition shows_world (k : sheet) (w : world) : Prop := shows k FirstSide (wd_first w) (wd_second w) (wd_pair w).
Lemma shows_swap k s p q w : shows k s p q w -> shows k (other s) q p w.
Proof. intros (A & B & C & D & E & F). unfold shows. rewrite other_twice. repeat (split; [assumption|]). exact F. Qed.
Lemma step_side_explained s prm now rs k w : shows_world k w -> explains k (step_side_said s prm now rs w) shows_world.
Proof.
  intros S. destruct s; cbn [step_side_said].
  - eapply explains_then; [apply peer_step_explained; exact S|]. intros [[p q] r] k1 _ S1. apply explains_silent. intros w1 X. injection X as <-. exact S1.
  - eapply explains_then; [apply (peer_step_explained SecondSide); exact (shows_swap _ _ _ _ _ S)|]. intros [[p q] r] k1 _ S1. apply explains_silent. intros w1 X. injection X as <-. exact (shows_swap _ _ _ _ _ S1).
Qed.
Lemma world_explained prm l : forall k w, shows_world k w -> explains k (world_said prm l w) shows_world.
Proof.
  induction l as [|[[s now] rs] l IH]; intros k w S; cbn [world_said]; [apply explains_silent; intros a X; injection X as <-; exact S|].
  eapply explains_then; [apply step_side_explained; exact S|]. intros w1 k1 _ S1. apply IH, S1.
Qed.
(** The trace of any schedule, also one that ends in a panic, passes the check, and the sheet it
    leaves shows where the simulation has got to. *)
Theorem C133_explained prm l count1 count2 : exists k, check_all (fst (world_said prm l (world_new count1 count2))) sheet_new = Some k /\
  forall w, world_run prm l (world_new count1 count2) = Ok w ->
    tk_ack k FirstSide = pe_ack (wd_first w) /\ tk_ack k SecondSide = pe_ack (wd_second w) /\
    tk_ok k FirstSide = pe_accepted (wd_first w) /\ tk_ok k SecondSide = pe_accepted (wd_second w) /\
    forall s, tk_got k s = None /\ tk_next k s = ch_next_no (send_channel s (wd_pair w)) /\
      tk_flight k s = map (fun x => (mt_no x, mt_message x)) (ch_messages (send_channel s (wd_pair w))).
Proof.
  assert (S0 : shows_world sheet_new (world_new count1 count2)).
  { unfold shows_world, shows. repeat (split; [reflexivity|]). intros x. unfold chan_ok. destruct x; repeat split; constructor. }
  destruct (world_explained prm l _ _ S0) as (k & C & H). exists k. split; [exact C|]. intros w R. rewrite <- world_same in R. destruct (H w R) as (A & B & D & E & F & G).
  repeat (split; [assumption|]). intros s. destruct (G s) as (G1 & G2 & _). split; [apply F|]. split; [exact G1|exact G2].
Qed.
Print Assumptions C133_explained.
