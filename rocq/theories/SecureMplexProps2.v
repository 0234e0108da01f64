(** C132: executions, worked out. *)
From Verif Require Import Base BaseProofs VarintModel MplexModel MplexProofs MplexProofs2 MplexProps MplexSendProps MplexStreamSpec MplexPairProps
  TlsRecordModel TlsRecordSpec TlsRecordProps TlsClientModel TlsClientSpec TlsClientProofs4 TlsClientProofs5 TlsClientProofs6 TlsClientProps SecureMplexModel SecureMplexSpec SecureMplexProps.
Ltac Zify.zify_post_hook ::= Z.div_mod_to_equations.

(** ** Playing an execution *)
Definition all_some {A} (l : list (option A)) : option (list A) := fold_right (fun o r => match o, r with Some a, Some l => Some (a :: l) | _, _ => None end) (Some []) l.
Fixpoint play_writes (P : primitives) (c : connection) (out : bytes) (nets : list (list wanswer)) : list cop :=
  match nets with
  | [] => []
  | w :: nets =>
    match out with
    | [] => [CFlush w]
    | _ => CWrite out w :: let '(x, c', _, _) := conn_write P c out w in match x with Done (Ok n) => play_writes P c' (skipn n out) nets | _ => [] end
    end
  end.
Definition play_ops (P : primitives) (s : secured) (c : node_call) (reads : list (list answer)) (writes : list (list wanswer)) : list cop :=
  match c with NSend sc => play_writes P (sc_conn s) (to_drain (sc_shared s) sc) writes | _ => map (CRead frame_room) reads end.
Definition answers_of (rs : list cres) : list answer := flat_map (fun r => match r with RRead x => match read_answer x with Some a => [a] | None => [] end | _ => [] end) rs.
Definition wanswers_of (rs : list cres) : list wanswer :=
  flat_map (fun r => match (match r with RWrite x => write_answer x | RFlush x => flush_answer x | _ => None end) with Some a => [a] | None => [] end) rs.
Definition play (P : primitives) (s : secured) (x : side) (c : node_call) (reads : list (list answer)) (writes : list (list wanswer)) : entry * secured :=
  let os := play_ops P s c reads writes in
  let '(rs, k, rx, tx) := crun P (sc_conn s) os in
  let '(ev, n) := node_step (on_transport s (answers_of rs) (wanswers_of rs) []) c in
  ({| en_side := x; en_call := c; en_ops := os; en_results := rs; en_reads := answers_of rs; en_writes := wanswers_of rs; en_event := ev; en_rx := rx; en_tx := tx |},
   {| sc_shared := nd_shared n; sc_errs := nd_errs n; sc_conn := k |}).
Definition put (st : side -> secured) (x : side) (s : secured) : side -> secured := fun y => if same_side y x then s else st y.
Definition move := (side * node_call * list (list answer) * list (list wanswer))%type.
Fixpoint play_all (P : primitives) (st : side -> secured) (ms : list move) : list entry * (side -> secured) :=
  match ms with
  | [] => ([], st)
  | (x, c, reads, writes) :: ms =>
    let '(e, s) := play P (st x) x c reads writes in let '(es, st) := play_all P (put st x s) ms in (e :: es, st)
  end.
(** That it is an execution, to be checked by computation. *)
Fixpoint writes_check (out : bytes) (os : list cop) (rs : list cres) : option (list wanswer) :=
  match os, rs with
  | [], [] => Some []
  | CWrite d _ :: os, RWrite x :: rs =>
    match out with
    | [] => None
    | _ => if bytes_eqb d out then match write_answer x with
             | Some a => match writes_check match a with WOk n => skipn n out | _ => out end os rs with Some l => Some (a :: l) | None => None end
             | None => None end else None
    end
  | CFlush _ :: os, RFlush x :: rs =>
    match out with
    | [] => match flush_answer x, writes_check [] os rs with Some a, Some l => Some (a :: l) | _, _ => None end
    | _ => None
    end
  | _, _ => None
  end.
Lemma writes_check_ok os : forall out rs l, writes_check out os rs = Some l -> write_calls out os rs l.
Proof.
  induction os as [|o os IH]; intros out rs l H; cbn [writes_check] in H.
  - destruct rs; [|discriminate H]. injection H as <-. constructor.
  - destruct o as [r a|d w|w|w]; try discriminate H; destruct rs as [|[x|x|x|x] rs]; try discriminate H.
    + destruct out as [|b out]; [discriminate H|]. destruct (bytes_eqb d (b :: out)) eqn:E; [|discriminate H]. apply bytes_eqb_eq in E. subst d.
      destruct (write_answer x) as [a|] eqn:Ea; [|discriminate H]. destruct (writes_check _ os rs) as [l1|] eqn:El; [|discriminate H]. injection H as <-. apply write_calls_one; [discriminate|exact Ea|apply IH; exact El].
    + destruct out as [|b out]; [|discriminate H]. destruct (flush_answer x) as [a|] eqn:Ea; [|discriminate H]. destruct (writes_check [] os rs) as [l1|] eqn:El; [|discriminate H]. injection H as <-.
      apply write_calls_flush; [exact Ea|apply IH; exact El].
Qed.
Lemma reads_check_ok nets : forall rs l, map (fun r => match r with RRead x => read_answer x | _ => None end) rs = map Some l -> length nets = length rs -> read_calls (map (CRead frame_room) nets) rs l.
Proof.
  induction nets as [|n nets IH]; intros [|r rs] l H L; cbn [length] in L; try lia.
  - destruct l; [constructor|discriminate H].
  - destruct l as [|a l]; [discriminate H|]. cbn [map] in *. injection H as H1 H2. destruct r as [x|x|x|x]; try discriminate H1. constructor; [exact H1|apply IH; [exact H2|lia]].
Qed.
(** *** Only one course *)
Lemma stack_functional P start es st1 : stack P start es st1 -> forall st2, stack P start es st2 -> forall x, st1 x = st2 x.
Proof.
  induction 1 as [|es st1 e s1 S IH H1]; intros st2 S2 x.
  - inversion S2 as [E|es0 st0 e0 s0 S0 H0 E]; [reflexivity|]. destruct es0; discriminate.
  - inversion S2 as [E|es0 st0 e0 s0 S0 H0 E]; [destruct es; discriminate|]. apply app_inj_tail in E. destruct E as [-> ->]. specialize (IH st0 S0).
    assert (Q : s1 = s0).
    { destruct H1 as (A1 & _ & b1 & A2). destruct H0 as (B1 & _ & b0 & B2). rewrite IH in A1, A2. specialize (A2 [] [] []). specialize (B2 [] [] []). rewrite A2 in B2. rewrite A1 in B1.
      destruct s1 as [a b c], s0 as [a' b' c']. unfold on_transport in B2. cbn [sc_shared sc_errs sc_conn] in *. injection B2 as -> -> _. injection B1 as ->. reflexivity. }
    subst s0. destruct (same_side x (en_side e)); [reflexivity|apply IH].
Qed.
Definition play_check (P : primitives) (s : secured) (x : side) (c : node_call) (reads : list (list answer)) (writes : list (list wanswer)) : Prop :=
  let os := play_ops P s c reads writes in let rs := fst (fst (fst (crun P (sc_conn s) os))) in
  match c with
  | NSend sc => answers_of rs = [] /\ writes_check (to_drain (sc_shared s) sc) os rs = Some (wanswers_of rs)
  | _ => wanswers_of rs = [] /\ map (fun r => match r with RRead x => read_answer x | _ => None end) rs = map Some (answers_of rs) /\ length reads = length rs
  end /\
  forall ins outs before, node_step (on_transport s (answers_of rs ++ ins) (wanswers_of rs ++ outs) before) c =
    (en_event (fst (play P s x c reads writes)), on_transport (snd (play P s x c reads writes)) ins outs
       match c with NSend _ => before ++ nd_sent (snd (node_step (on_transport s (answers_of rs) (wanswers_of rs) []) c)) | _ => before end).
Lemma play_step P s x c reads writes : play_check P s x c reads writes -> secured_step P s (fst (play P s x c reads writes)) (snd (play P s x c reads writes)).
Proof.
  unfold play_check, play. set (os := play_ops P s c reads writes). destruct (crun P (sc_conn s) os) as [[[rs k] rx] tx] eqn:E. cbn [fst].
  destruct (node_step (on_transport s (answers_of rs) (wanswers_of rs) []) c) as [ev n] eqn:En. cbn [fst snd en_event]. intros [H1 H2].
  split; [exact E|]. split; [|cbn [en_reads en_writes en_call en_event]; destruct c; [exists []|exists []|exists []|exists []|exists (nd_sent n)]; intros ins outs before; rewrite ?app_nil_r; exact (H2 ins outs before)].
  unfold transport_calls. cbn [en_call en_reads en_writes en_ops en_results]. destruct c as [t|i t room|i|i|sc];
    try (destruct H1 as (A & B & C); split; [exact A|]; apply reads_check_ok; assumption).
  destruct H1 as [A B]. split; [exact A|apply writes_check_ok; exact B].
Qed.
Fixpoint plays (P : primitives) (st : side -> secured) (ms : list move) : Prop :=
  match ms with
  | [] => True
  | (x, c, reads, writes) :: ms => play_check P (st x) x c reads writes /\ plays P (put st x (snd (play P (st x) x c reads writes))) ms
  end.
Lemma play_stack P start ms : forall es st, stack P start es st -> plays P st ms -> stack P start (es ++ fst (play_all P st ms)) (snd (play_all P st ms)).
Proof.
  induction ms as [|[[[x c] reads] writes] ms IH]; intros es st S H; cbn [play_all plays] in *.
  - rewrite app_nil_r. exact S.
  - destruct H as [H1 H2]. apply play_step in H1. destruct (play P (st x) x c reads writes) as [e s] eqn:E. cbn [fst snd] in *.
    assert (Ex : en_side e = x). { unfold play in E. destruct (crun P (sc_conn (st x)) _) as [[[rs k] rx] tx]. destruct (node_step _ c) as [ev n]. injection E as <- <-. reflexivity. }
    specialize (IH (es ++ [e]) (put st x s)). destruct (play_all P (put st x s) ms) as [es2 st2] eqn:E2. cbn [fst snd] in *. rewrite <- app_assoc in IH. cbn [app] in IH. apply IH; [|exact H2].
    unfold put. rewrite <- Ex. apply stack_step; [exact S|rewrite Ex; exact H1].
Qed.
Lemma play_all_firstn P ms : forall st n, fst (play_all P st (firstn n ms)) = firstn n (fst (play_all P st ms)).
Proof.
  induction ms as [|[[[x c] reads] writes] ms IH]; intros st n; destruct n as [|n]; cbn [firstn play_all]; try reflexivity.
  destruct (play P (st x) x c reads writes) as [e s]. specialize (IH (put st x s) n). destruct (play_all P (put st x s) ms) as [es1 st1]. destruct (play_all P (put st x s) (firstn n ms)) as [es2 st2].
  cbn [fst firstn] in *. rewrite IH. reflexivity.
Qed.
Lemma plays_firstn P ms : forall st n, plays P st ms -> plays P st (firstn n ms).
Proof. induction ms as [|[[[x c] reads] writes] ms IH]; intros st [|n] H; cbn [firstn plays] in *; auto. destruct H. split; auto. Qed.
Lemma play_all_length P ms : forall st, length (fst (play_all P st ms)) = length ms.
Proof.
  induction ms as [|[[[x c] reads] writes] ms IH]; intros st; cbn [play_all]; [reflexivity|]. destruct (play P (st x) x c reads writes) as [e s]. specialize (IH (put st x s)).
  destruct (play_all P (put st x s) ms) as [es1 st1]. cbn [fst length] in *. lia.
Qed.
(** What holds of the network after each move holds at any time. *)
Lemma net_from_moves P start ms (net : list entry -> (side -> secured) -> Prop) : plays P start ms ->
  (forall p st st', (forall x, st x = st' x) -> net p st -> net p st') ->
  (forall n, (n <= length ms)%nat -> net (fst (play_all P start (firstn n ms))) (snd (play_all P start (firstn n ms)))) ->
  forall p q st', fst (play_all P start ms) = p ++ q -> stack P start p st' -> net p st'.
Proof.
  intros Pl Ext H p q st' E S.
  assert (Ep : p = fst (play_all P start (firstn (length p) ms))) by (rewrite play_all_firstn, E; symmetry; apply firstn_app_length).
  assert (L : (length p <= length ms)%nat) by (rewrite <- (play_all_length P ms start), E, app_length; lia).
  specialize (H (length p) L). rewrite <- Ep in H. apply (Ext p _ st') in H; [exact H|]. intros x.
  apply (stack_functional P start p); [|exact S]. rewrite Ep at 1. apply (play_stack P start (firstn (length p) ms) []); [constructor|apply plays_firstn; exact Pl].
Qed.

(** ** The network, by computation *)
Definition honest_at (pre : side -> preamble) (es : list entry) (st : side -> secured) (x : side) : bool :=
  let r := all_received pre x es in bytes_eqb (firstn (length r) (all_made pre st (opposite x) es)) r.
Lemma honest_checked pre es st : honest_at pre es st SideA && honest_at pre es st SideB = true -> honest pre es st.
Proof.
  intros H. apply andb_prop in H. destruct H as [H1 H2]. intros x. exists (skipn (length (all_received pre x es)) (all_made pre st (opposite x) es)).
  assert (E : firstn (length (all_received pre x es)) (all_made pre st (opposite x) es) = all_received pre x es) by (destruct x; [apply bytes_eqb_eq in H1; exact H1|apply bytes_eqb_eq in H2; exact H2]).
  etransitivity; [symmetry; apply (firstn_skipn (length (all_received pre x es)))|]. rewrite E. reflexivity.
Qed.
Lemma honest_same pre p st st' : (forall x, st x = st' x) -> honest pre p st -> honest pre p st'.
Proof. intros E H x. destruct (H x) as (f & F). exists f. unfold all_made in *. rewrite <- E. exact F. Qed.
Lemma unforged_same P key_of pre p st st' : (forall x, st x = st' x) -> unforged P key_of pre p st -> unforged P key_of pre p st'.
Proof. intros E H x consumed rest raws raw n content type pieces closed. unfold all_made. rewrite <- E. apply H. Qed.
Lemma carries_all R : Forall (fun raw => exists t f, is_record raw t f /\ t <> 20) R -> carries (concat R) R.
Proof.
  induction R as [|r R IH] using rev_ind; intros F; [constructor|]. apply Forall_app in F. destruct F as [F1 F2]. apply Forall_inv in F2. destruct F2 as (t & f & F2 & F3).
  rewrite concat_app. cbn [concat]. rewrite app_nil_r. apply (carries_one _ _ r t f); auto.
Qed.
Lemma recs_functional P k R : aead_ok P -> key_ok k -> forall seq L1 L2, recs P k seq R L1 -> recs P k seq R L2 -> Forall (fun p => snd p <> 0) L1 -> Forall (fun p => snd p <> 0) L2 -> L1 = L2.
Proof.
  intros A K. induction R as [|r R IH]; intros seq [|[c1 t1] L1] [|[c2 t2] L2] H1 H2 F1 F2; try contradiction; [reflexivity|]. destruct H1 as [A1 B1]. destruct H2 as [A2 B2].
  pose proof (Forall_inv F1) as T1. pose proof (Forall_inv F2) as T2. cbn [snd] in T1, T2.
  destruct (opens_unique _ _ _ _ _ _ _ _ (protect_opens P k seq c1 t1 r A K T1 A1) (protect_opens P k seq c2 t2 r A K T2 A2)) as [-> ->].
  rewrite (IH _ _ _ B1 B2 (Forall_inv_tail F1) (Forall_inv_tail F2)). reflexivity.
Qed.
Lemma sent_types pieces closed : Forall (fun p => snd p <> 0) (sent_list pieces closed).
Proof. unfold sent_list. apply Forall_app. split; [apply Forall_map, Forall_forall; discriminate|]. destruct closed; [constructor; [discriminate|constructor]|constructor]. Qed.
(** The records determine what was protected. *)
Lemma protected_unique P k p1 c1 p2 c2 d : aead_ok P -> key_ok k -> Forall (fun d => blen d <= 16384) p1 -> Forall (fun d => blen d <= 16384) p2 ->
  protected P k 0 (sent_list p1 c1) = Some d -> protected P k 0 (sent_list p2 c2) = Some d -> sent_list p1 c1 = sent_list p2 c2.
Proof.
  intros A K F1 F2 H1 H2. destruct (protected_recs _ _ _ _ _ H1) as (R1 & E1 & X1). destruct (protected_recs _ _ _ _ _ H2) as (R2 & E2 & X2).
  pose proof (recs_records P k R1 A K _ _ X1 (sent_list_sizes p1 c1 F1)) as G1. pose proof (recs_records P k R2 A K _ _ X2 (sent_list_sizes p2 c2 F2)) as G2.
  destruct (carries_prefix _ _ (carries_all R1 G1) R2 [] G2) as (C1 & _ & C3 & C4); [rewrite app_nil_r; congruence|].
  assert (E : R1 = R2).
  { pose proof (firstn_skipn (length R1) R2) as FS. match type of C4 with _ = concat ?s => assert (FS' : firstn (length R1) R2 ++ s = R2) by exact FS; destruct s as [|r tl] end; [rewrite app_nil_r in FS'; exact (eq_trans C1 FS')|].
    exfalso. rewrite <- FS' in G2. apply Forall_app in G2. destruct G2 as [_ G2]. apply Forall_inv in G2.
    destruct G2 as (t & f & (v1 & v0 & l1 & l0 & -> & _) & _). discriminate C4. }
  subst R2. exact (recs_functional P k R1 A K 0 _ _ X1 X2 (sent_types p1 c1) (sent_types p2 c2)).
Qed.
Definition no_forgery (P : primitives) (k : key) (R : list bytes) (L : list (bytes * N)) : bool :=
  forallb (fun raw => forallb (fun n =>
    match unseal P (k_alg k) (k_key k) (rfc_nonce (k_iv k) (N.of_nat n)) (firstn 5 raw) (skipn 5 raw) with
    | None => true
    | Some m => match nth_error L n with Some (c, t) => bytes_eqb m (inner_plaintext c t 0) && negb (t =? 0) | None => false end
    end) (seq 0 (length R))) R.
Lemma unforged_checked P key_of pre es st (R : side -> list bytes) (p : side -> list bytes) (cl : side -> bool) : aead_ok P -> (forall x, key_ok (key_of x)) ->
  (forall x, Forall (fun raw => exists t f, is_record raw t f /\ t <> 20) (R x) /\ all_received pre x es = concat (R x) /\ Forall (fun d => blen d <= 16384) (p (opposite x)) /\
     protected P (key_of (opposite x)) 0 (sent_list (p (opposite x)) (cl (opposite x))) = Some (all_made pre st (opposite x) es) /\
     no_forgery P (key_of (opposite x)) (R x) (sent_list (p (opposite x)) (cl (opposite x))) = true) -> unforged P key_of pre es st.
Proof.
  intros A K H x consumed rest raws raw n content type pieces closed E Ca I0 L0 O Fp Pr. destruct (H x) as (H1 & H2 & H3 & H4 & H5).
  rewrite <- (protected_unique P _ _ _ _ _ _ A (K (opposite x)) H3 Fp H4 Pr).
  rewrite H2 in E. destruct (carries_prefix _ _ Ca (R x) rest H1 (eq_sym E)) as (C1 & _ & C3 & _).
  unfold no_forgery in H5. rewrite forallb_forall in H5. rewrite C1 in I0. assert (Hin : In raw (R x)) by (rewrite <- (firstn_skipn (length raws) (R x)); apply in_or_app; left; exact I0).
  specialize (H5 raw Hin). rewrite forallb_forall in H5. specialize (H5 (N.to_nat n)). rewrite in_seq, N2Nat.id in H5. specialize (H5 ltac:(lia)).
  destruct O as (h & c & pad & -> & Lh & U & T). assert (Q : firstn 5 (h ++ c) = h /\ skipn 5 (h ++ c) = c) by (rewrite <- Lh; split; [apply firstn_app_length|apply skipn_app_length]). destruct Q as [Q1 Q2].
  rewrite Q1, Q2, U in H5. destruct (nth_error (sent_list (p (opposite x)) (cl (opposite x))) (N.to_nat n)) as [[c2 t2]|]; [|discriminate H5].
  apply andb_prop in H5. destruct H5 as [H5 H6]. apply bytes_eqb_eq in H5. assert (T2 : t2 <> 0) by lia.
  pose proof (TlsRecordProofs.strip_inner content type pad T) as S1. pose proof (TlsRecordProofs.strip_inner c2 t2 0 T2) as S2. rewrite H5, S2 in S1. injection S1 as -> S1.
  rewrite <- (rev_involutive content), <- S1, rev_involutive. reflexivity.
Qed.
Lemma upto (Q : nat -> Prop) k : (forall n, In n (seq 0 (Datatypes.S k)) -> Q n) -> forall n, (n <= k)%nat -> Q n.
Proof. intros H n L. apply H. apply in_seq. lia. Qed.
(** ** With the toy primitives *)
Definition toy_side (x : side) : key := match x with SideA => toy_key | SideB => toy_key2 end.
Definition toy_fresh (x : side) : connection := toy_conn (toy_side x) (toy_side (opposite x)).
(** A negotiation before mplex: one byte. *)
Definition toy_pre_ops (x : side) : list cop :=
  match x with
  | SideA => [CWrite [42] [WOk 0]; CFlush [WOk 1000; WOk 0]]
  | SideB => [CRead 10 [ARead (snd (crun toy (toy_fresh SideA) [CWrite [42] [WOk 0]; CFlush [WOk 1000; WOk 0]]))]]
  end.
Definition toy_pre (x : side) : preamble :=
  let '(rs, k, rx, tx) := crun toy (toy_fresh x) (toy_pre_ops x) in {| pr_conn := toy_fresh x; pr_ops := toy_pre_ops x; pr_results := rs; pr_rx := rx; pr_tx := tx |}.
Definition toy_conn_a : connection := Eval vm_compute in snd (fst (fst (crun toy (toy_fresh SideA) (toy_pre_ops SideA)))).
Definition toy_conn_b : connection := Eval vm_compute in snd (fst (fst (crun toy (toy_fresh SideB) (toy_pre_ops SideB)))).
Definition toy_start (x : side) : secured := {| sc_shared := shared_new; sc_errs := fun _ => None; sc_conn := match x with SideA => toy_conn_a | SideB => toy_conn_b end |}.
Lemma toy_begins : begins toy toy_side toy_pre toy_start.
Proof.
  intros []; (split; [repeat split; repeat constructor; cbn; lia|]); (split; [repeat split|]); (split; [vm_compute; reflexivity|]); (split; [vm_compute; reflexivity|]); split; reflexivity.
Qed.
(** One end opens a stream and writes to it; its records, two of them, are delivered. *)
Definition taken : list wanswer := [WOk 1000; WOk 0].
Definition opening : list move :=
  [(SideA, NSend (CallConnect (Some [120])), [], [[WOk 0]; taken]); (SideA, NSend (CallWrite (Receiver 33) [1; 2; 3]), [], [[WOk 0]]);
   (SideA, NSend (CallFlush (Receiver 33)), [], [[WOk 0]; taken])].
Definition toy_sent : bytes := Eval vm_compute in tx_of SideA (fst (play_all toy toy_start opening)).
(** In three pieces: accepted and read. *)
Definition in_pieces : list move := opening ++
  [(SideB, NAccept 1, [[ARead (firstn 20 toy_sent)]], []); (SideB, NAccept 1, [[ARead (firstn 14 (skipn 20 toy_sent))]], []);
   (SideB, NRead (Initiator 33) 2 2, [[ARead (skipn 34 toy_sent)]], []); (SideB, NRead (Initiator 33) 2 2, [], [])].
(** At once: accepted, but the reader waits. *)
Definition at_once : list move := opening ++ [(SideB, NAccept 1, [[ARead toy_sent]], []); (SideB, NRead (Initiator 33) 2 2, [[APending]], [])].
(** With the second record replayed. *)
Definition with_replay : list move := opening ++
  [(SideB, NAccept 1, [[ARead (firstn 26 toy_sent)]], []); (SideB, NRead (Initiator 33) 2 2, [[ARead (skipn 26 toy_sent)]], []);
   (SideB, NRead (Initiator 33) 2 2, [], []); (SideB, NRead (Initiator 33) 2 2, [[ARead (skipn 26 toy_sent)]], [])].
Ltac computed := vm_compute; reflexivity.
Definition both (a b : secured) : side -> secured := fun x => match x with SideA => a | SideB => b end.
Lemma plays_both P st ms : forall st', (forall x, st x = st' x) -> plays P st ms -> plays P st' ms.
Proof.
  revert st. induction ms as [|[[[x c] reads] writes] ms IH]; intros st st' E H; [exact Logic.I|]. destruct H as [H1 H2]. rewrite E in H1, H2. split; [exact H1|]. revert H2. apply IH. intros y. unfold put. rewrite E. reflexivity.
Qed.
Lemma plays_cons P a b x c reads writes ms os rs k rx tx ev sh errs sent : let s := both a b x in
  play_ops P s c reads writes = os -> crun P (sc_conn s) os = (rs, k, rx, tx) ->
  match c with
  | NSend sc => answers_of rs = [] /\ writes_check (to_drain (sc_shared s) sc) os rs = Some (wanswers_of rs)
  | _ => wanswers_of rs = [] /\ map (fun r => match r with RRead x => read_answer x | _ => None end) rs = map Some (answers_of rs) /\ length reads = length rs
  end ->
  (forall ins outs before, node_step (on_transport s (answers_of rs ++ ins) (wanswers_of rs ++ outs) before) c =
    (ev, {| nd_shared := sh; nd_errs := errs; nd_in := ins; nd_out := outs; nd_sent := match c with NSend _ => before ++ sent | _ => before end |})) ->
  let s' := {| sc_shared := sh; sc_errs := errs; sc_conn := k |} in
  plays P match x with SideA => both s' b | SideB => both a s' end ms -> plays P (both a b) ((x, c, reads, writes) :: ms).
Proof.
  intros s Eo Ec Ck Hn s' Pl. cbn [plays]. unfold play_check, play. fold s. rewrite Eo, Ec. cbn [fst].
  pose proof (Hn [] [] []) as H0. rewrite !app_nil_r in H0. rewrite H0. cbn [fst snd en_event nd_shared nd_errs nd_sent]. fold s'. split; [split; [exact Ck|]|].
  - intros ins outs before. rewrite Hn. unfold on_transport, s'. cbn [sc_shared sc_errs]. destruct c; reflexivity.
  - revert Pl. apply plays_both. intros y. unfold put, both. destruct x, y; reflexivity.
Qed.
Ltac one_move := match goal with |- plays ?P (both ?a ?b) ((?x, ?c, ?reads, ?writes) :: ?ms) =>
    let os := eval vm_compute in (play_ops P (both a b x) c reads writes) in
    let r := eval vm_compute in (crun P (sc_conn (both a b x)) os) in
    match r with (?rs, ?k, ?rx, ?tx) =>
      let n := eval vm_compute in (node_step (on_transport (both a b x) (answers_of rs) (wanswers_of rs) []) c) in
      match n with (?ev, {| nd_shared := ?sh; nd_errs := ?errs; nd_in := _; nd_out := _; nd_sent := ?sent |}) =>
        apply (plays_cons P a b x c reads writes ms os rs k rx tx ev sh errs sent); [computed|computed|cbv iota; match goal with |- _ /\ _ /\ _ => split; [computed|split; computed] | |- _ /\ _ => split; computed end|intros [|? ins] outs before; computed|cbv iota]
      end
    end
  end.
Ltac played := match goal with |- plays _ ?st _ => let a := eval vm_compute in (st SideA) in let b := eval vm_compute in (st SideB) in apply (plays_both _ (both a b)); [intros []; cbv beta iota delta [both]; computed|] end;
  repeat one_move; exact Logic.I.
Lemma in_pieces_plays : plays toy toy_start in_pieces.
Proof. unfold in_pieces, opening. cbn [app]. played. Qed.
Lemma at_once_plays : plays toy toy_start at_once.
Proof. unfold at_once, opening. cbn [app]. played. Qed.
Lemma with_replay_plays : plays toy toy_start with_replay.
Proof. unfold with_replay, opening. cbn [app]. played. Qed.

Definition entries (ms : list move) : list entry := fst (play_all toy toy_start ms).
Definition final (ms : list move) : side -> secured := snd (play_all toy toy_start ms).
Lemma toy_keys x : key_ok (toy_side x).
Proof. destruct x; repeat split; repeat constructor; cbn; lia. Qed.
Lemma toy_stack ms : plays toy toy_start ms -> stack toy toy_start (entries ms) (final ms).
Proof. intros H. apply (play_stack toy toy_start ms [] toy_start); [constructor|exact H]. Qed.
Lemma toy_session ms (net : list entry -> (side -> secured) -> Prop) : plays toy toy_start ms -> moderate toy_pre (entries ms) -> (forall x, proper [] (trace_of x (entries ms))) ->
  (forall p st st', (forall x, st x = st' x) -> net p st -> net p st') ->
  (forall n, (n <= length ms)%nat -> net (entries (firstn n ms)) (final (firstn n ms))) -> secure_session toy toy_side net toy_pre toy_start (entries ms) (final ms).
Proof.
  intros Pl M Pr Ext H. split; [exact toy_aead_ok|]. split; [exact toy_begins|]. split; [exact (toy_stack ms Pl)|]. split; [exact M|]. split; [|exact Pr].
  exact (net_from_moves toy toy_start ms net Pl Ext H).
Qed.
Definition modestb (c : node_call) : bool :=
  match c with
  | NSend (CallConnect (Some name)) => blen name <? 2 ^ 63
  | NSend (CallWrite i buf) => (sid_number i <? 2 ^ 61) && (blen buf <? 2 ^ 63)
  | NSend (CallShutdown i) => sid_number i <? 2 ^ 61
  | _ => true
  end && bytes_okb (call_bytes c).
Lemma modest_checked es : forallb (fun e => modestb (en_call e)) es = true -> Forall (fun e => modest_call (en_call e) /\ bytes_ok (call_bytes (en_call e))) es.
Proof.
  intros H. apply Forall_forall. intros e I0. rewrite forallb_forall in H. specialize (H e I0). unfold modestb in H. apply andb_prop in H. destruct H as [H1 H2].
  split; [|apply bytes_okb_spec; exact H2]. unfold modest_call. destruct (en_call e) as [| | | |c]; [exact Logic.I| | | |destruct c as [[]| | | |]]; try exact Logic.I; try (apply andb_prop in H1; destruct H1 as [H1 H3]; split; apply N.ltb_lt; assumption); apply N.ltb_lt; assumption.
Qed.
Ltac moderately := split; [computed|]; split; [apply modest_checked; computed|]; intros []; (split; [computed|]); (split; [computed|computed]).
Lemma in_pieces_session : secure_session toy toy_side (honest toy_pre) toy_pre toy_start (entries in_pieces) (final in_pieces).
Proof.
  apply toy_session; [exact in_pieces_plays| | |apply honest_same|].
  - moderately.
  - intros []; vm_compute; repeat split; intros i H; intuition.
  - apply upto. apply Forall_forall. cbn [length in_pieces opening app seq]. repeat (apply Forall_cons; [apply honest_checked; computed|]). apply Forall_nil.
Qed.

Lemma at_once_session : secure_session toy toy_side (honest toy_pre) toy_pre toy_start (entries at_once) (final at_once).
Proof.
  apply toy_session; [exact at_once_plays| | |apply honest_same|].
  - moderately.
  - intros []; vm_compute; repeat split; intros i H; intuition.
  - apply upto. apply Forall_forall. cbn [length at_once opening app seq]. repeat (apply Forall_cons; [apply honest_checked; computed|]). apply Forall_nil.
Qed.
Lemma session_weaken P key_of (net net' : list entry -> (side -> secured) -> Prop) pre start es st : (forall p st', net p st' -> net' p st') ->
  secure_session P key_of net pre start es st -> secure_session P key_of net' pre start es st.
Proof. intros W (A & B & S & M & H & Pr). repeat (split; [assumption|]). split; [|exact Pr]. intros p q st' E S'. apply W. exact (H p q st' E S'). Qed.
(** A stream opened at one end, with three bytes, in a network that splits the records. *)
Example C132_example :
  secure_session toy toy_side (any_network toy toy_side toy_pre) toy_pre toy_start (entries in_pieces) (final in_pieces) /\
  connects (trace_of SideA (entries in_pieces)) = [Receiver 33] /\ accepts (trace_of SideB (entries in_pieces)) = [Initiator 33] /\
  written (Receiver 33) (trace_of SideA (entries in_pieces)) = [1; 2; 3] /\ received (Initiator 33) (trace_of SideB (entries in_pieces)) = [1; 2; 3].
Proof. split; [exact (session_weaken _ _ _ _ _ _ _ _ (fun p st' H => or_introl H) in_pieces_session)|]. repeat split; computed. Qed.
(** It is not so that what has reached an end can be read there: with an honest network that
    has delivered all that was sent, and nothing queued at the writer, a reader waits (for the
    network), the record with its bytes lying in the buffer of the TLS connection. *)
Theorem C132_delivered_is_readable_refuted :
  exists P key_of pre start es st x i t room, secure_session P key_of (honest pre) pre start es st /\
    fs_out (sh_frames (sc_shared (st x))) = [] /\ all_made pre st x es = all_received pre (opposite x) es /\
    last (trace_of (opposite x) es) (NAccept 0, NGot EvWait) = (NRead (other_end i) t room, NGot EvWait) /\ (0 < room)%nat /\
    written i (trace_of x es) = [1; 2; 3] /\ received (other_end i) (trace_of (opposite x) es) = [].
Proof.
  exists toy, toy_side, toy_pre, toy_start, (entries at_once), (final at_once), SideA, (Receiver 33), 2, 2%nat. split; [exact at_once_session|]. repeat split; try computed. lia.
Qed.
Print Assumptions C132_delivered_is_readable_refuted.
(** A network that replays: it is no forgery, and the connection ends with an error. *)
Definition replay_records : list bytes := Eval vm_compute in [pr_tx (toy_pre SideA); firstn 26 toy_sent; skipn 26 toy_sent; skipn 26 toy_sent].

Definition replay_pieces : list bytes := [[42]; [136; 2; 1; 120]; [138; 2; 3; 1; 2; 3]].
Lemma replay_are_records k : Forall (fun raw => exists t f, is_record raw t f /\ t <> 20) (firstn k replay_records).
Proof.
  assert (F : Forall (fun raw => exists t f, is_record raw t f /\ t <> 20) replay_records).
  { unfold replay_records. do 4 (apply Forall_cons; [exists 23; eexists; split; [exists 3, 3, 0; eexists; split; [reflexivity|split; [vm_compute; reflexivity|vm_compute; discriminate]]|discriminate]|]). apply Forall_nil. }
  rewrite <- (firstn_skipn k replay_records) in F. apply Forall_app in F. exact (proj1 F).
Qed.
Lemma replay_unforged k m es st :
  all_received toy_pre SideA es = [] -> all_made toy_pre st SideB es = [] -> all_received toy_pre SideB es = concat (firstn k replay_records) ->
  protected toy (toy_side SideA) 0 (sent_list (firstn m replay_pieces) false) = Some (all_made toy_pre st SideA es) ->
  no_forgery toy (toy_side SideA) (firstn k replay_records) (sent_list (firstn m replay_pieces) false) = true -> unforged toy toy_side toy_pre es st.
Proof.
  intros H1 H2 H3 H4 H5.
  apply (unforged_checked toy toy_side toy_pre es st (fun x => match x with SideA => [] | SideB => firstn k replay_records end) (fun x => match x with SideA => firstn m replay_pieces | SideB => [] end) (fun _ => false) toy_aead_ok toy_keys).
  intros []; cbn [opposite]; (split; [first [apply Forall_nil|apply replay_are_records]|]); (split; [assumption|]).
  - split; [apply Forall_nil|]. split; [rewrite H2; reflexivity|reflexivity].
  - split; [|split; assumption]. apply Forall_forall. intros d I0. assert (I1 : In d replay_pieces) by (rewrite <- (firstn_skipn m replay_pieces); apply in_or_app; left; exact I0).
    destruct I1 as [<-|[<-|[<-|[]]]]; vm_compute; discriminate.
Qed.
Ltac unforged_by k m := apply (replay_unforged k m); [computed|computed|computed|computed|computed].
Lemma with_replay_session : secure_session toy toy_side (unforged toy toy_side toy_pre) toy_pre toy_start (entries with_replay) (final with_replay).
Proof.
  apply toy_session; [exact with_replay_plays| | |apply unforged_same|].
  - moderately.
  - intros []; vm_compute; repeat split; intros i H; intuition.
  - apply upto. apply Forall_forall. cbn [length with_replay opening app seq]. apply Forall_cons; [unforged_by 1%nat 1%nat|]. do 2 (apply Forall_cons; [unforged_by 1%nat 2%nat|]).
    apply Forall_cons; [unforged_by 1%nat 3%nat|]. apply Forall_cons; [unforged_by 2%nat 3%nat|]. do 2 (apply Forall_cons; [unforged_by 3%nat 3%nat|]). apply Forall_cons; [unforged_by 4%nat 3%nat|]. apply Forall_nil.
Qed.
Example C132_example_replay :
  secure_session toy toy_side (any_network toy toy_side toy_pre) toy_pre toy_start (entries with_replay) (final with_replay) /\ ~ honest toy_pre (entries with_replay) (final with_replay) /\
  written (Receiver 33) (trace_of SideA (entries with_replay)) = [1; 2; 3] /\ received (Initiator 33) (trace_of SideB (entries with_replay)) = [1; 2; 3] /\
  last (map en_event (entries with_replay)) (NGot EvWait) = NGot (EvError (OtherIo 0)).
Proof.
  split; [exact (session_weaken _ _ _ _ _ _ _ _ (fun p st' H => or_intror H) with_replay_session)|]. split; [|repeat split; computed].
  assert (L : (length (all_made toy_pre (final with_replay) SideA (entries with_replay)) <? length (all_received toy_pre SideB (entries with_replay)))%nat = true) by computed.
  intros H. destruct (H SideB) as (f & F). apply (f_equal (@length N)) in F. rewrite app_length in F. change (opposite SideB) with SideA in F.
  apply Nat.ltb_lt in L. rewrite F in L. apply (Nat.lt_irrefl (length (all_received toy_pre SideB (entries with_replay)))). eapply Nat.le_lt_trans; [apply Nat.le_add_r|exact L].
Qed.
