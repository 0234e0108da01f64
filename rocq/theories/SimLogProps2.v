(** The text of netsim's trace: C133, continued. *)
From Verif Require Import Base BaseProofs BencodeSpec ChatModel ChatProps2 Asn1PrintProps BencodePathModel SimModel SimSpec SimProofs SimProofs2 SimLogModel SimLogProps.
From Coq Require Import Lia ZArith ZifyBool ZifyNat ZifyN Sorted.
Ltac Zify.zify_post_hook ::= Z.div_mod_to_equations.
Local Open Scope string_scope. Local Open Scope list_scope. Local Open Scope N_scope.

(** *** The times *)
Definition at_time {A} (now : N) (m : logged A) : Prop := Forall (fun x => fst x = now) (fst m).
Lemma at_then {A B} now (m : logged A) (k : A -> logged B) : at_time now m -> (forall a, at_time now (k a)) -> at_time now (then_ m k).
Proof. intros H K. unfold then_, at_time. destruct (snd m) as [a|e|]; cbn [fst]; [apply Forall_app; split; [exact H|apply K]|exact H..]. Qed.
Lemma at_silent {A} now (r : outcome unit A) : at_time now (silent r). Proof. constructor. Qed.
Lemma at_say now e : at_time now (say now e). Proof. constructor; [reflexivity|constructor]. Qed.
Ltac at_tac := repeat match goal with
  | |- at_time _ (silent _) => apply at_silent | |- at_time _ (say _ _) => apply at_say | |- at_time _ (then_ _ _) => apply at_then; [|intros ?]
  | |- at_time _ (if ?b then _ else _) => destruct b end.
Lemma at_copies now s p st m ds : forall c, at_time now (send_copies_said now s p st m ds c).
Proof. induction ds as [|d ds IH]; intros c; cbn [send_copies_said]; at_tac. apply IH. Qed.
Lemma at_send now s prm m ds w : at_time now (endpoint_send_said now s prm m ds w).
Proof. unfold endpoint_send_said. at_tac. apply at_copies. Qed.
Lemma at_message now s m p : at_time now (on_message_said now s m p).
Proof. destruct m; cbn [on_message_said]; at_tac. Qed.
Lemma at_recv fuel now s prm : forall rs p w, at_time now (recv_loop_said fuel now s prm rs p w).
Proof.
  induction fuel as [|fuel IH]; intros rs p w; cbn [recv_loop_said]; [at_tac|]. destruct (endpoint_recv s w) as [[m|] w1]; at_tac. apply at_message. destruct a0 as [p1 [r|]]; [|apply IH]. destruct (next_draws rs). at_tac; [apply at_send|apply IH].
Qed.
Lemma at_step s prm now rs w : at_time now (step_side_said s prm now rs w).
Proof.
  assert (X : forall p v, at_time now (peer_step_said s prm now rs p v)).
  { intros p v. unfold peer_step_said. at_tac; [apply at_recv|]. destruct a as [[p1 w1] rs1]. at_tac.
    - unfold retransmit_said. destruct (pe_retransmit p1); at_tac.
    - destruct (next_draws rs1). at_tac. apply at_send. }
  destruct s; cbn [step_side_said]; at_tac; try apply X; destruct a as [[p q] r]; at_tac.
Qed.
Lemma sorted_app a b : StronglySorted N.le a -> StronglySorted N.le b -> (forall x y, In x a -> In y b -> x <= y) -> StronglySorted N.le (a ++ b).
Proof.
  induction a as [|x a IH]; intros A B H; [exact B|]. inversion A as [|? ? A1 A2]; subst. cbn [app]. constructor.
  - apply IH; [exact A1|exact B|]. intros y z Y Z. apply H; [right; exact Y|exact Z].
  - apply Forall_app. split; [exact A2|]. apply Forall_forall. intros y Y. apply H; [left; reflexivity|exact Y].
Qed.
Lemma sorted_const a x : Forall (fun y => y = x) a -> StronglySorted N.le a.
Proof. induction 1 as [|y a -> F IH]; constructor; [exact IH|]. eapply Forall_impl; [|exact F]. cbv beta. intros ? ->. apply N.le_refl. Qed.
Lemma main_times n prm rs : forall now w, StronglySorted N.le (map fst (fst (main_loop_said n prm now rs w))) /\ Forall (fun x => now <= fst x < now + N.of_nat n) (fst (main_loop_said n prm now rs w)).
Proof.
  induction n as [|n IH]; intros now w; cbn [main_loop_said]; [split; constructor|].
  pose proof (at_step FirstSide prm now (rs now FirstSide) w) as T1. unfold then_ at 1 3. unfold at_time in T1. destruct (step_side_said FirstSide prm now (rs now FirstSide) w) as [l1 r1]. cbn [fst snd] in *.
  assert (K : forall l, Forall (fun x : entry => fst x = now) l -> Forall (fun x => now <= fst x < now + N.of_nat (Datatypes.S n)) l) by (intros l F; eapply Forall_impl; [|exact F]; cbv beta; intros x; lia).
  assert (L : forall l, Forall (fun x : entry => fst x = now) l -> StronglySorted N.le (map fst l)) by (intros l F; apply (sorted_const _ now); rewrite Forall_map; exact F).
  destruct r1 as [w1|e|]; cbn [fst]; [|split; [apply L|apply K]; exact T1..].
  pose proof (at_step SecondSide prm now (rs now SecondSide) w1) as T2. unfold then_. unfold at_time in T2. destruct (step_side_said SecondSide prm now (rs now SecondSide) w1) as [l2 r2]. cbn [fst snd] in *.
  assert (T3 : Forall (fun x : entry => fst x = now) (l1 ++ l2)) by (apply Forall_app; auto).
  destruct r2 as [w2|e|]; cbn [fst]; [|split; [apply L|apply K]; exact T3..]. destruct (IH (now + 1) w2) as [S1 F1]. rewrite app_assoc. split.
  - rewrite map_app. apply sorted_app; [apply L, T3|exact S1|]. intros x y Ix Iy. apply in_map_iff in Ix, Iy. destruct Ix as (u & <- & Iu). destruct Iy as (v & <- & Iv). rewrite Forall_forall in T3, F1. specialize (T3 _ Iu). specialize (F1 _ Iv). lia.
  - apply Forall_app. split; [apply K, T3|]. eapply Forall_impl; [|exact F1]. cbv beta. intros x. lia.
Qed.
(** The lines are in the order of the times they show, all before the end. *)
Theorem C133_times n prm rs w : StronglySorted N.le (map fst (fst (main_loop_said n prm 0 rs w))) /\ Forall (fun x => fst x < N.of_nat n) (fst (main_loop_said n prm 0 rs w)).
Proof. destruct (main_times n prm rs 0 w) as [A B]. split; [exact A|]. eapply Forall_impl; [|exact B]. cbv beta. intros x. lia. Qed.
Print Assumptions C133_times.

(** *** The text *)
(** The data of a message is its number: netsim.rs:153. *)
Definition own_data (m : message) : Prop := match m with MData q d => d = q | MAck _ => True end.
Definition event_data (e : event) : Prop := match e with LSend _ _ m | LDrop _ _ m | LRecv _ _ m => own_data m | LData _ _ q d => d = q | _ => True end.
Definition sheet_data (k : sheet) : Prop := (forall s, Forall (fun x => own_data (snd x)) (tk_flight k s)) /\ forall s, match tk_got k s with Some m => own_data m | None => True end.
Lemma is_message_eq a b : is_message a b = true -> a = b.
Proof. destruct a, b; cbn; try discriminate; intros H; [apply andb_true_iff in H; destruct H as [H1 H2]; apply N.eqb_eq in H1, H2; congruence|apply N.eqb_eq in H; congruence]. Qed.
Lemma due_data k s no m : due k s no m = true -> own_data m.
Proof.
  unfold due. intros H. apply andb_true_iff in H. destruct H as [H _]. apply andb_true_iff in H. destruct H as [_ H]. apply is_message_eq in H. destruct m; cbn; [|exact Logic.I]. congruence.
Qed.
Lemma check_data e k k' : sheet_data k -> check e k = Some k' -> event_data e /\ sheet_data k'.
Proof.
  intros [D1 D2] H. destruct e as [s no m|s no m|s no m|s v q d|s v a|s q]; cbn [check event_data] in *.
  - destruct (due k s no m) eqn:U; [|discriminate]. injection H as <-. apply due_data in U. split; [exact U|]. split; [|exact D2]. intros x. cbn [tk_flight]. unfold set. destruct (is_side x s); [|apply D1]. apply Forall_app. split; [apply D1|]. constructor; [exact U|constructor].
  - destruct (due k s no m) eqn:U; [|discriminate]. injection H as <-. apply due_data in U. split; [exact U|]. split; [exact D1|exact D2].
  - destruct (existsb _ _) eqn:U; [|discriminate]. destruct (tk_got k (other s)); [discriminate|]. injection H as <-. apply existsb_exists in U. destruct U as (x & Ix & U). apply andb_true_iff in U. destruct U as [_ U]. apply is_message_eq in U.
    assert (O : own_data m) by (rewrite U; specialize (D1 s); rewrite Forall_forall in D1; apply D1, Ix). split; [exact O|]. split.
    + intros y. cbn [tk_flight]. unfold set. destruct (is_side y s); [|apply D1]. specialize (D1 s). rewrite Forall_forall in *. intros z Iz. apply filter_In in Iz. apply D1, Iz.
    + intros y. cbn [tk_got]. unfold set. destruct (is_side y (other s)); [exact O|apply D2].
  - pose proof (D2 s) as D. destruct (tk_got k s) as [m|] eqn:G; [|discriminate]. destruct (_ && _) eqn:U in H; [|discriminate]. injection H as <-. apply andb_true_iff in U. destruct U as [U _]. apply is_message_eq in U. subst m. split; [exact D|]. split; [exact D1|].
    intros y. cbn [tk_got]. unfold set. destruct (is_side y s); [exact Logic.I|apply D2].
  - destruct (tk_got k s) as [m|] eqn:G; [|discriminate]. destruct (_ && _) in H; [|discriminate]. injection H as <-. split; [exact Logic.I|]. split; [exact D1|]. intros y. cbn [tk_got]. unfold set. destruct (is_side y s); [exact Logic.I|apply D2].
  - destruct (_ && _) in H; [|discriminate]. injection H as <-. split; [exact Logic.I|]. split; assumption.
Qed.
Lemma log_data l : forall k k', sheet_data k -> check_all l k = Some k' -> Forall (fun x => event_data (snd x)) l.
Proof.
  induction l as [|[t e] l IH]; intros k k' D H; [constructor|]. cbn [check_all] in H. destruct (check e k) as [k1|] eqn:C; [|discriminate]. destruct (check_data e k k1 D C) as [E D1]. constructor; [exact E|]. exact (IH k1 k' D1 H).
Qed.
Lemma said_data prm l a b : Forall (fun x => event_data (snd x)) (fst (world_said prm l (world_new a b))).
Proof. destruct (C133_explained prm l a b) as (k & C & _). refine (log_data _ _ _ _ C). split; intros s; constructor. Qed.

Definition digits (l : bytes) : Prop := Forall (fun c => 48 <= c < 58) l.
Definition ends (l : bytes) : Prop := match l with [] => True | c :: _ => ~ 48 <= c < 58 end.
Lemma digits_cut a : forall a' r r', digits a -> digits a' -> ends r -> ends r' -> a ++ r = a' ++ r' -> a = a' /\ r = r'.
Proof.
  induction a as [|x a IH]; intros a' r r' A A' R R' H.
  - destruct a' as [|y a']; [split; [reflexivity|exact H]|]. exfalso. cbn [app] in H. subst r. inversion A' as [|? ? Y _]; subst. exact (R Y).
  - inversion A as [|? ? X A1]; subst. destruct a' as [|y a']; cbn [app] in H; [exfalso; subst r'; exact (R' X)|]. inversion A' as [|? ? Y A1']; subst. injection H as -> H. destruct (IH a' r r' A1 A1' R R' H) as [-> ->]. split; reflexivity.
Qed.
Lemma decimal_cut n n' r r' : ends r -> ends r' -> decimal n ++ r = decimal n' ++ r' -> n = n' /\ r = r'.
Proof. intros R R' H. destruct (digits_cut _ _ _ _ (decimal_digits n) (decimal_digits n') R R' H) as [A B]. apply decimal_inj in A. split; assumption. Qed.
Lemma padded_digits w n : digits (zero_padded w n).
Proof. unfold zero_padded, digits. apply Forall_app. split; [|apply decimal_digits]. induction (w - length (decimal n))%nat; constructor; [lia|assumption]. Qed.
Lemma zeros_value k l : dec_value (repeat 48 k ++ l) = dec_value l.
Proof. unfold dec_value. rewrite fold_left_app. f_equal. induction k as [|k IH]; [reflexivity|]. cbn [repeat fold_left]. exact IH. Qed.
Lemma padded_inj w n m : zero_padded w n = zero_padded w m -> n = m.
Proof.
  unfold zero_padded. intros H. apply (f_equal dec_value) in H. rewrite !zeros_value in H. destruct (decimal_ok n) as (_ & _ & A & _). destruct (decimal_ok m) as (_ & _ & B & _). congruence.
Qed.
(** The description of a message does not show the data. *)
Lemma description_inj m m' : own_data m -> own_data m' -> description m = description m' -> m = m'.
Proof.
  intros D D' H. destruct m as [q d|a], m' as [q' d'|a']; cbn [description own_data] in *; try discriminate H.
  - apply app_inv_head in H. apply decimal_cut in H; [|cbn; lia..]. destruct H as [-> _]. congruence.
  - apply app_inv_head in H. apply decimal_cut in H; [|cbn; lia..]. destruct H as [-> _]. reflexivity.
Qed.
Lemma channel_inj what no m no' m' : own_data m -> own_data m' -> channel_text what no m = channel_text what no' m' -> no = no' /\ m = m'.
Proof.
  intros D D' H. unfold channel_text in H. apply app_inv_head in H. apply decimal_cut in H; [|cbn; lia..]. destruct H as [-> H]. split; [reflexivity|]. apply app_inv_head in H. apply description_inj; assumption.
Qed.
Lemma component_length e : length (padded12 (component e)) = 12%nat.
Proof. destruct e as [s ? ?|s ? ?|s ? ?|s ? ? ?|s ? ?|s ?]; destruct s; reflexivity. Qed.
Definition actor (e : event) : bool * side := match e with LSend s _ _ | LDrop s _ _ | LRecv s _ _ => (true, s) | LData s _ _ _ | LAck s _ _ | LRetransmit s _ => (false, s) end.
Lemma component_inj e e' : padded12 (component e) = padded12 (component e') -> actor e = actor e'.
Proof. destruct e as [s ? ?|s ? ?|s ? ?|s ? ? ?|s ? ?|s ?]; destruct e' as [s' ? ?|s' ? ?|s' ? ?|s' ? ? ?|s' ? ?|s' ?]; destruct s, s'; cbn; intros H; (reflexivity || discriminate H). Qed.
Lemma event_inj e e' : event_data e -> event_data e' -> actor e = actor e' -> event_text e = event_text e' -> e = e'.
Proof.
  intros D D' A H. destruct e as [s no m|s no m|s no m|s v q d|s v a|s q]; destruct e' as [s' no' m'|s' no' m'|s' no' m'|s' v' q' d'|s' v' a'|s' q']; cbn [event_data actor] in *; try discriminate A; injection A as ->; cbn [event_text] in H; try discriminate H.
  - destruct (channel_inj _ _ _ _ _ D D' H) as [-> ->]. reflexivity.
  - destruct (channel_inj _ _ _ _ _ D D' H) as [-> ->]. reflexivity.
  - destruct (channel_inj _ _ _ _ _ D D' H) as [-> ->]. reflexivity.
  - apply app_inv_head in H. apply decimal_cut in H; [|cbn; lia..]. destruct H as [-> H]. apply app_inv_head in H. unfold data_text in H. rewrite <- !app_assoc in H. do 2 apply app_inv_head in H. apply decimal_cut in H; [|cbn; lia..]. destruct H as [-> H].
    apply app_inv_head in H. destruct v, v'; try discriminate H; reflexivity.
  - apply app_inv_head in H. apply decimal_cut in H; [|destruct v, v'; cbn; lia..]. destruct H as [-> H]. destruct v, v'; try discriminate H; reflexivity.
  - apply app_inv_head in H. apply decimal_inj in H. subst. reflexivity.
Qed.
Definition entry_line (x : entry) : bytes := zero_padded 5 (fst x / 1000) ++ ascii_bytes "." ++ zero_padded 3 (fst x mod 1000) ++ ascii_bytes " " ++ padded12 (component (snd x)) ++ ascii_bytes " " ++ event_text (snd x).
Lemma app_length_inv {A} (a a' b b' : list A) : length a = length a' -> a ++ b = a' ++ b' -> a = a' /\ b = b'.
Proof. revert a'. induction a as [|x a IH]; intros [|y a'] L H; try discriminate L; [split; [reflexivity|exact H]|]. injection L as L. cbn [app] in H. injection H as -> H. destruct (IH a' L H) as [-> ->]. split; reflexivity. Qed.
Lemma entry_inj x x' : event_data (snd x) -> event_data (snd x') -> entry_line x = entry_line x' -> x = x'.
Proof.
  intros D D' H. unfold entry_line in H. apply digits_cut in H; [|apply padded_digits..|cbn; lia|cbn; lia]. destruct H as [T1 H]. apply app_inv_head in H. apply digits_cut in H; [|apply padded_digits..|cbn; lia|cbn; lia]. destruct H as [T2 H].
  apply padded_inj in T1. apply padded_inj in T2. apply app_inv_head in H. apply app_length_inv in H; [|rewrite !component_length; reflexivity]. destruct H as [C H]. apply app_inv_head in H. apply component_inj in C.
  destruct x as [t e], x' as [t' e']. cbn [fst snd] in *. f_equal; [|apply event_inj; assumption]. clear -T1 T2. pose proof (N.div_mod t 1000 ltac:(lia)) as E. pose proof (N.div_mod t' 1000 ltac:(lia)) as E'. rewrite T1, T2 in E. exact (eq_trans E (eq_sym E')).
Qed.
Definition calm (l : bytes) : Prop := ~ In 10 l.
Lemma calm_app a b : calm a -> calm b -> calm (a ++ b). Proof. unfold calm. intros A B H. apply in_app_or in H. tauto. Qed.
Lemma calm_digits l : digits l -> calm l. Proof. unfold digits, calm. intros F H. rewrite Forall_forall in F. specialize (F _ H). cbv beta in F. lia. Qed.
Lemma calm_ascii s : existsb (fun c => c =? 10) (ascii_bytes s) = false -> calm (ascii_bytes s).
Proof. intros E H. assert (X : existsb (fun c => c =? 10) (ascii_bytes s) = true) by (apply existsb_exists; exists 10; split; [exact H|reflexivity]). congruence. Qed.
Lemma calm_component e : calm (padded12 (component e)).
Proof. intros H. assert (X : existsb (fun c => c =? 10) (padded12 (component e)) = true) by (apply existsb_exists; exists 10; split; [exact H|reflexivity]). destruct e as [s ? ?|s ? ?|s ? ?|s ? ? ?|s ? ?|s ?]; destruct s; discriminate X. Qed.
Ltac calm_tac := repeat match goal with |- calm (_ ++ _) => apply calm_app | |- calm (decimal _) => apply calm_digits, decimal_digits | |- calm (zero_padded _ _) => apply calm_digits, padded_digits
  | |- calm (padded12 _) => apply calm_component | |- calm (ascii_bytes _) => apply calm_ascii; reflexivity end.
Lemma calm_description m : calm (description m). Proof. destruct m; cbn [description]; calm_tac. Qed.
Lemma calm_entry x : calm (entry_line x).
Proof.
  unfold entry_line. calm_tac. destruct (snd x) as [s no m|s no m|s no m|s v q d|s v a|s q]; cbn [event_text]; unfold channel_text; calm_tac; try apply calm_description.
  - unfold data_text. calm_tac; intros H; cbn in H; lia.
  - destruct v; calm_tac.
  - destruct v; calm_tac.
Qed.
Lemma flat_lines l : forall l', (forall x, In x l -> calm x) -> (forall x, In x l' -> calm x) -> flat_map line l = flat_map line l' -> l = l'.
Proof.
  induction l as [|x l IH]; intros [|y l'] A B H; cbn [flat_map] in H; unfold line in H; rewrite <- ?app_assoc in H.
  - reflexivity.
  - symmetry in H. apply app_eq_nil in H. destruct H as [_ H]. discriminate.
  - apply app_eq_nil in H. destruct H as [_ H]. discriminate.
  - cbn [app] in H. apply split_at in H; [|apply A; left; reflexivity|apply B; left; reflexivity]. destruct H as [-> H]. f_equal. apply (IH l'); [intros z Z; apply A; right; exact Z|intros z Z; apply B; right; exact Z|exact H].
Qed.
Lemma entries_flat l : flat_map entry_text l = flat_map line (map entry_line l).
Proof. induction l as [|x l IH]; [reflexivity|]. cbn [flat_map map]. rewrite IH. reflexivity. Qed.
Lemma entries_inj l : forall l', Forall (fun x => event_data (snd x)) l -> Forall (fun x => event_data (snd x)) l' -> map entry_line l = map entry_line l' -> l = l'.
Proof.
  induction l as [|x l IH]; intros [|y l'] D D' H; try discriminate H; [reflexivity|]. inversion D as [|? ? D1 D2]; subst. inversion D' as [|? ? D1' D2']; subst.
  change (entry_line x :: map entry_line l = entry_line y :: map entry_line l') in H. assert (H1 := f_equal (hd []) H). assert (H2 := f_equal (@tl bytes) H). cbn [hd tl] in H1, H2. f_equal; [apply entry_inj; assumption|apply IH; assumption].
Qed.
(** The printed trace determines the run's events, whatever the two runs. *)
Theorem C133_text_determines prm l a b prm' l' a' b' : let x := fst (world_said prm l (world_new a b)) in let y := fst (world_said prm' l' (world_new a' b')) in
  flat_map entry_text x = flat_map entry_text y -> x = y.
Proof.
  intros x y H. apply entries_inj; [apply said_data..|]. rewrite !entries_flat in H. apply flat_lines in H; [exact H|..]; intros z Z; apply in_map_iff in Z; destruct Z as (u & <- & _); apply calm_entry.
Qed.
Print Assumptions C133_text_determines.
(** So does what the program prints; and it tells whether it has come to its end. *)
Theorem C133_output n rs n' rs' : netsim_text n rs = netsim_text n' rs' -> let x := main_loop_said n main_params 0 rs (world_new 5 0) in let y := main_loop_said n' main_params 0 rs' (world_new 5 0) in
  fst x = fst y /\ ((exists w, snd x = Ok w) <-> (exists w, snd y = Ok w)).
Proof.
  unfold netsim_text. cbv zeta. rewrite !main_said. set (x := world_said main_params (schedule n 0 rs) (world_new 5 0)). set (y := world_said main_params (schedule n' 0 rs') (world_new 5 0)). intros H.
  pose proof (said_data main_params (schedule n 0 rs) 5 0) as D. pose proof (said_data main_params (schedule n' 0 rs') 5 0) as D'. fold x in D. fold y in D'. clearbody x y. rewrite !entries_flat in H.
  set (t := fun r : outcome unit world => match r with Ok _ => [ascii_bytes "Done"] | _ => [] end).
  assert (T : forall r : outcome unit world, match r with Ok _ => line (ascii_bytes "Done") | _ => [] end = flat_map line (t r)) by (intros [?|?|]; reflexivity). rewrite !T, <- !flat_map_app in H.
  assert (CT : forall r z, In z (t r) -> calm z) by (intros [?|?|] z Z; cbn in Z; [destruct Z as [<-|[]]; apply (calm_ascii "Done"); reflexivity|destruct Z..]).
  apply flat_lines in H; [|intros z Z; apply in_app_or in Z; destruct Z as [Z|Z]; [apply in_map_iff in Z; destruct Z as (u & <- & _); apply calm_entry|exact (CT _ _ Z)]..].
  assert (ND : forall u, entry_line u <> ascii_bytes "Done").
  { intros u E. assert (F := padded_digits 5 (fst u / 1000)). unfold entry_line in E. destruct (zero_padded 5 (fst u / 1000)) as [|c r]; [discriminate E|]. inversion F as [|? ? F1 _]; subst. cbn [app] in E. apply (f_equal (hd 0)) in E. change (c = 68) in E. lia. }
  assert (K : forall p q, map entry_line p ++ [ascii_bytes "Done"] <> map entry_line q).
  { intros p q E. assert (I0 : In (ascii_bytes "Done") (map entry_line q)) by (rewrite <- E; apply in_or_app; right; left; reflexivity). apply in_map_iff in I0. destruct I0 as (u & Eu & _). exact (ND u Eu). }
  destruct (snd x) as [w|e|], (snd y) as [w'|e'|]; cbn [t] in H; rewrite ?app_nil_r in H; try (exfalso; exact (K _ _ H)); try (exfalso; exact (K _ _ (eq_sym H))).
  - apply app_inj_tail in H. destruct H as [H _]. split; [apply entries_inj; assumption|]. split; intros _; eexists; reflexivity.
  - split; [apply entries_inj; assumption|]. split; intros [? X]; discriminate X.
  - split; [apply entries_inj; assumption|]. split; intros [? X]; discriminate X.
  - split; [apply entries_inj; assumption|]. split; intros [? X]; discriminate X.
  - split; [apply entries_inj; assumption|]. split; intros [? X]; discriminate X.
Qed.
Print Assumptions C133_output.
(** A message does not take the latency, 200 to 600, by the times the trace shows: the producer's
    first message is received in the millisecond in which it is sent. *)
Theorem C133_latency_refuted : ~ (forall rs t t' s no m m', In (t, LSend s no m) (fst (main_loop_said 1 main_params 0 rs (world_new 5 0))) ->
  In (t', LRecv s no m') (fst (main_loop_said 1 main_params 0 rs (world_new 5 0))) -> t + latency_min main_params <= t').
Proof.
  intros H. assert (X : 0 + latency_min main_params <= 0); [|vm_compute in X; apply X; reflexivity].
  apply (H (fun _ _ => []) 0 0 FirstSide 0 (MData 0 0) (MData 0 0)); vm_compute; tauto.
Qed.
Print Assumptions C133_latency_refuted.
(** Two milliseconds in which nothing is lost: the producer's first message, and its acknowledgement. *)
Example C133_case : netsim_text 2 (fun _ _ => []) = flat_map line (map ascii_bytes
  ["00000.000 p->c         send 0: Data(seq = 0)"; "00000.000 p->c         recv 0: Data(seq = 0)";
   "00000.000 consumer     received message with seq = 0, data = ""Message 0"" (ok)"; "00000.000 c->p         send 0: Ack(ack = 1)";
   "00000.001 c->p         recv 0: Ack(ack = 1)"; "00000.001 producer     received ack with ack_no = 1"; "Done"]%string).
Proof. vm_compute. reflexivity. Qed.
