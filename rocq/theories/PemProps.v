(** PEM: C51. *)
From Verif Require Import Base BaseProofs MultibaseModel MultibaseSpec MultibaseProofs MultibaseProps PemModel.
Local Open Scope string_scope. Local Open Scope list_scope. Local Open Scope N_scope.

(** *** Specification *)
Definition dashes (n : nat) : bytes := repeat 45 n.
Definition newline (l : bytes) : Prop := l = [10] \/ l = [13; 10].
Definition label_ok (s : bytes) : Prop := Forall (fun b => In b (ascii_bytes "ABCDEFGHIJKLMNOPQRSTUVWXYZ ")) s.
Definition body_ok (s : bytes) : Prop := Forall (fun b => In b (ascii_bytes "ABCDEFGHIJKLMNOPQRSTUVWXYZabcdefghijklmnopqrstuvwxyz0123456789+/=") \/ b = 13 \/ b = 10) s.
(** The text of a body without line ends. *)
Definition joined (s : bytes) : bytes := filter (fun b => negb ((b =? 13) || (b =? 10))) s.
(** A header with its label and a body. *)
Definition header (label body l : bytes) : Prop :=
  exists n1 n2 nl, (0 < n1)%nat /\ (0 < n2)%nat /\ newline nl /\ label_ok label /\ body_ok body /\
    l = dashes n1 ++ ascii_bytes "BEGIN " ++ label ++ dashes n2 ++ nl ++ body.
Definition footer (label l : bytes) : Prop :=
  exists n1 n2 nl, (0 < n1)%nat /\ (0 < n2)%nat /\ newline nl /\ label_ok label /\ l = dashes n1 ++ ascii_bytes "END " ++ label ++ dashes n2 ++ nl.
Definition pem_text (l label data : bytes) : Prop :=
  exists body h f, l = h ++ f /\ header label body h /\ footer label f /\ decode_noprefix (joined body) Base64Pad = Ok data.
(** A text that stops inside the word BEGIN or END. *)
Definition stops (l : bytes) : Prop :=
  (exists n s r, (0 < n)%nat /\ ascii_bytes "BEGIN" = s ++ r /\ r <> [] /\ l = dashes n ++ s) \/
  (exists label body h n s r, header label body h /\ (0 < n)%nat /\ ascii_bytes "END" = s ++ r /\ r <> [] /\ l = h ++ dashes n ++ s).

(** *** Proofs *)
Lemma span_app p a l : Forall (fun b => p b = true) a -> (match l with b :: _ => p b = false | [] => True end) -> span p (a ++ l) = (a, l).
Proof.
  induction 1 as [|b a H _ IH]; intros N; cbn [app span].
  - destruct l as [|b l]; [reflexivity|]. cbn [span]. rewrite N. reflexivity.
  - rewrite H, IH by exact N. reflexivity.
Qed.
Lemma span_inv p l : let (a, r) := span p l in l = a ++ r /\ Forall (fun b => p b = true) a /\ match r with b :: _ => p b = false | [] => True end.
Proof.
  induction l as [|b l IH]; cbn [span]; [repeat split; constructor|]. destruct (p b) eqn:E.
  - destruct (span p l) as [a r]. destruct IH as (-> & F & N). split; [reflexivity|]. split; [constructor; assumption|exact N].
  - split; [reflexivity|]. split; [constructor|exact E].
Qed.
Lemma all_dashes a : Forall (fun b => (45 =? b) = true) a -> a = dashes (length a).
Proof. induction 1 as [|b a H _ IH]; [reflexivity|]. cbn [length dashes repeat]. apply N.eqb_eq in H. subst b. f_equal. exact IH. Qed.
Lemma dashes_all n : Forall (fun b => (45 =? b) = true) (dashes n).
Proof. induction n; constructor; auto. Qed.
Definition no_dash (l : bytes) : Prop := match l with b :: _ => (45 =? b) = false | [] => True end.
Lemma dashes_ok n l : (0 < n)%nat -> no_dash l -> expect_dashes (dashes n ++ l) = POk n l.
Proof.
  intros P N. unfold expect_dashes. rewrite span_app by (auto using dashes_all). unfold dashes. rewrite repeat_length. destruct n; [lia|reflexivity].
Qed.
Lemma dashes_inv l x : expect_dashes l = x -> (exists e, x = PErr e) \/ exists n r, (0 < n)%nat /\ l = dashes n ++ r /\ no_dash r /\ x = POk n r.
Proof.
  unfold expect_dashes. pose proof (span_inv (N.eqb 45) l) as H. destruct (span (N.eqb 45) l) as [a r]. destruct H as (-> & F & N).
  destruct (length a =? 0)%nat eqn:E; intros <-; [left; eexists; reflexivity|right]. apply Nat.eqb_neq in E. exists (length a), r. rewrite (all_dashes a F) at 2. repeat split; auto. lia.
Qed.
Lemma space_inv l x : expect_space l = x -> (exists e, x = PErr e) \/ exists r, l = 32 :: r /\ x = POk tt r.
Proof.
  unfold expect_space. intros <-. destruct l as [|b l]; [left; eexists; reflexivity|]. destruct (N.eqb_spec b 32) as [->|E]; [right; exists l; auto|left].
  eexists. destruct b as [|p]; [reflexivity|]. do 6 (destruct p as [p|p|]; try reflexivity). destruct E; reflexivity.
Qed.
Lemma newline_inv l x : expect_newline l = x -> (exists e, x = PErr e) \/ exists nl r, newline nl /\ l = nl ++ r /\ x = POk tt r.
Proof.
  assert (B : forall l, (exists r, l = 10 :: r) \/ match l with 10 :: t => POk tt t | _ => PErr (PemPlain "Expected newline") end = PErr (PemPlain "Expected newline")).
  { intros [|b m]; [right; reflexivity|]. destruct (N.eqb_spec b 10) as [->|E]; [left; exists m; reflexivity|right].
    destruct b as [|p]; [reflexivity|]. do 4 (destruct p as [p|p|]; try reflexivity). destruct E; reflexivity. }
  assert (A : (exists r, l = 13 :: r) \/ match l with 13 :: t => t | _ => l end = l).
  { destruct l as [|b m]; [right; reflexivity|]. destruct (N.eqb_spec b 13) as [->|E]; [left; exists m; reflexivity|right].
    destruct b as [|p]; [reflexivity|]. do 4 (destruct p as [p|p|]; try reflexivity). destruct E; reflexivity. }
  unfold expect_newline. cbv zeta. intros <-. destruct A as [(r & ->)|A].
  - destruct (B r) as [(r2 & ->)| ->]; [right|left; eexists; reflexivity]. exists [13; 10], r2. split; [right; reflexivity|]. split; reflexivity.
  - rewrite A. destruct (B l) as [(r2 & ->)| ->]; [right|left; eexists; reflexivity]. exists [10], r2. split; [left; reflexivity|]. split; reflexivity.
Qed.
Lemma newline_ok nl l : newline nl -> expect_newline (nl ++ l) = POk tt l.
Proof. intros [->| ->]; reflexivity. Qed.
Lemma string_inv0 w s : forall l x, expect_rest w s l = x -> (exists e, x = PErr e) \/ (exists r, l = s ++ r /\ x = POk tt r) \/ (x = PLoop /\ exists r, s = l ++ r /\ r <> []).
Proof.
  induction s as [|b s IH]; intros l x H; cbn [expect_rest] in H; [right; left; exists l; auto|].
  destruct l as [|b2 l]; [right; right; split; [auto|]; exists (b :: s); split; [reflexivity|discriminate]|].
  destruct (N.eqb_spec b b2) as [->|E]; [|left; eexists; symmetry; exact H].
  destruct (IH l x H) as [L|[(r & -> & ->)|(-> & r & -> & R)]]; [left; exact L| |]; [right; left; exists r|right; right; split; [reflexivity|exists r]]; auto.
Qed.
Lemma string_inv s l x : expect_string s l = x -> (exists e, x = PErr e) \/ (exists r, l = s ++ r /\ x = POk tt r) \/ (x = PLoop /\ exists r, s = l ++ r /\ r <> []).
Proof. exact (string_inv0 s s l x). Qed.
Lemma string_ok0 w s l : expect_rest w s (s ++ l) = POk tt l.
Proof. induction s as [|b s IH]; [reflexivity|]. cbn [app expect_rest]. rewrite N.eqb_refl. exact IH. Qed.
Lemma string_ok s l : expect_string s (s ++ l) = POk tt l.
Proof. exact (string_ok0 s s l). Qed.
Lemma string_loop0 w s r : r <> [] -> expect_rest w (s ++ r) s = PLoop.
Proof. intros R. induction s as [|b s IH]; [destruct r; [destruct (R eq_refl)|reflexivity]|]. cbn [app expect_rest]. rewrite N.eqb_refl. exact IH. Qed.
Lemma string_loop s r : r <> [] -> expect_string (s ++ r) s = PLoop.
Proof. exact (string_loop0 (s ++ r) s r). Qed.
Lemma ascii_utf8 s : Forall (fun b => b < 128) s -> utf8_valid s = true.
Proof. induction 1 as [|b s H _ IH]; [reflexivity|]. cbn [utf8_valid]. replace (b <? 128) with true by lia. exact IH. Qed.
(** The characters as the code tests them. *)
Definition label_tested (s : bytes) : Prop := Forall (fun b => label_char b = true) s.
Definition body_tested (s : bytes) : Prop := Forall (fun b => body_char b = true \/ b = 13 \/ b = 10) s.
Lemma tested_in p l : (forall b, p b = true -> b < 128) -> (forall b, b < 256 -> p b = existsb (N.eqb b) l) -> (forall b, In b l -> b < 256) -> forall b, p b = true <-> In b l.
Proof.
  intros H1 H2 H3 b. split.
  - intros H. rewrite H2 in H by (specialize (H1 b H); lia). apply existsb_exists in H. destruct H as (x & Hx & E). apply N.eqb_eq in E. subst x. exact Hx.
  - intros H. rewrite H2 by (apply H3; exact H). apply existsb_exists. exists b. split; [exact H|apply N.eqb_refl].
Qed.
Lemma label_char_in b : label_char b = true <-> In b (ascii_bytes "ABCDEFGHIJKLMNOPQRSTUVWXYZ ").
Proof.
  apply tested_in; [unfold label_char; lia| |].
  - intros c Hc. apply Bool.eqb_prop. apply (byte_sweep (fun c => Bool.eqb (label_char c) (existsb (N.eqb c) (ascii_bytes "ABCDEFGHIJKLMNOPQRSTUVWXYZ "))) eq_refl c Hc).
  - intros c. vm_compute. intros H. repeat (destruct H as [<-|H]; [reflexivity|]). destruct H.
Qed.
Lemma body_char_in b : body_char b = true <-> In b (ascii_bytes "ABCDEFGHIJKLMNOPQRSTUVWXYZabcdefghijklmnopqrstuvwxyz0123456789+/=").
Proof.
  apply tested_in; [unfold body_char; lia| |].
  - intros c Hc. apply Bool.eqb_prop. apply (byte_sweep (fun c => Bool.eqb (body_char c) (existsb (N.eqb c) (ascii_bytes "ABCDEFGHIJKLMNOPQRSTUVWXYZabcdefghijklmnopqrstuvwxyz0123456789+/="))) eq_refl c Hc).
  - intros c. vm_compute. intros H. repeat (destruct H as [<-|H]; [reflexivity|]). destruct H.
Qed.
Lemma body_tested_ok s : body_tested s <-> body_ok s.
Proof. unfold body_tested, body_ok. split; (intros H; eapply Forall_impl; [|exact H]); intros b; cbv beta; rewrite body_char_in; auto. Qed.
Lemma label_tested_ok s : label_tested s <-> label_ok s.
Proof. unfold label_tested, label_ok. split; (intros H; eapply Forall_impl; [|exact H]); intros b; apply label_char_in. Qed.
Lemma label_inv l x : read_label l = x -> exists s r, label_ok s /\ l = s ++ r /\ (match r with b :: _ => label_char b = false | [] => True end) /\ x = POk s r.
Proof.
  unfold read_label. pose proof (span_inv label_char l) as H. destruct (span label_char l) as [s r]. destruct H as (-> & F & N). rewrite ascii_utf8.
  - intros <-. exists s, r. split; [apply label_tested_ok; exact F|auto].
  - eapply Forall_impl; [|exact F]. intros b. unfold label_char. lia.
Qed.
Lemma label_read s l : label_ok s -> (match l with b :: _ => label_char b = false | [] => True end) -> read_label (s ++ l) = POk s l.
Proof.
  intros F N. apply label_tested_ok in F. unfold label_tested in F. unfold read_label. rewrite span_app by assumption. rewrite ascii_utf8; [reflexivity|]. eapply Forall_impl; [|exact F]. intros b. unfold label_char. lia.
Qed.
Lemma body_char_not b : body_char b = true -> (b =? 13) || (b =? 10) = false /\ (45 =? b) = false /\ b < 128.
Proof. unfold body_char. lia. Qed.
Lemma base64_inv0 l : forall x, read_base64 l = x -> (exists e, x = PErr e) \/ exists s r, body_tested s /\ l = s ++ r /\ (r = [] \/ exists t, r = 45 :: t) /\ x = POk (joined s) r.
Proof.
  induction l as [|b l IH]; intros x H; cbn [read_base64] in H; [right; exists [], []; repeat split; auto; constructor|].
  destruct (body_char b) eqn:E1.
  - destruct (IH _ eq_refl) as [(e & He)|(s & r & S1 & S2 & S3 & S4)]; rewrite ?He, ?S4 in H; cbn [pbind] in H; subst x; [left; eexists; reflexivity|right].
    exists (b :: s), r. split; [constructor; auto|]. split; [rewrite S2; reflexivity|]. split; [exact S3|]. cbn [joined filter]. destruct (body_char_not b E1) as (-> & _). reflexivity.
  - destruct ((b =? 13) || (b =? 10)) eqn:E2.
    + destruct (IH x H) as [L|(s & r & S1 & S2 & S3 & S4)]; [left; exact L|right]. exists (b :: s), r. split; [constructor; [lia|exact S1]|]. split; [rewrite S2; reflexivity|]. split; [exact S3|].
      cbn [joined filter]. rewrite E2. exact S4.
    + destruct (b =? 45) eqn:E3; subst x; [right|left; eexists; reflexivity]. apply N.eqb_eq in E3. subst b. exists [], (45 :: l). split; [constructor|]. split; [reflexivity|]. split; [right; exists l; reflexivity|reflexivity].
Qed.
Lemma base64_ok0 s t : body_tested s -> read_base64 (s ++ 45 :: t) = POk (joined s) (45 :: t).
Proof.
  induction 1 as [|b s H _ IH]; [reflexivity|]. cbn [app read_base64 joined filter]. destruct (body_char b) eqn:E.
  - rewrite IH. destruct (body_char_not b E) as (-> & _). reflexivity.
  - destruct H as [H|H]; [discriminate|]. replace ((b =? 13) || (b =? 10)) with true by (destruct H; subst b; reflexivity). exact IH.
Qed.
Lemma base64_ok_end0 s : body_tested s -> read_base64 s = POk (joined s) [].
Proof.
  induction 1 as [|b s H _ IH]; [reflexivity|]. cbn [app read_base64 joined filter]. destruct (body_char b) eqn:E.
  - rewrite IH. destruct (body_char_not b E) as (-> & _). reflexivity.
  - destruct H as [H|H]; [discriminate|]. replace ((b =? 13) || (b =? 10)) with true by (destruct H; subst b; reflexivity). exact IH.
Qed.
Lemma joined_utf80 s : body_tested s -> utf8_valid (joined s) = true.
Proof.
  intros H. apply ascii_utf8. apply Forall_forall. intros b Hb. apply filter_In in Hb. destruct Hb as [Hb N]. unfold body_tested in H. rewrite Forall_forall in H.
  destruct (H b Hb) as [E|E]; [apply body_char_not in E; tauto|lia].
Qed.
Lemma base64_inv l : forall x, read_base64 l = x -> (exists e, x = PErr e) \/ exists s r, body_ok s /\ l = s ++ r /\ (r = [] \/ exists t, r = 45 :: t) /\ x = POk (joined s) r.
Proof. intros x H. destruct (base64_inv0 l x H) as [L|(s & r & B & R)]; [left; exact L|right]. exists s, r. split; [apply body_tested_ok; exact B|exact R]. Qed.
Lemma base64_ok s t : body_ok s -> read_base64 (s ++ 45 :: t) = POk (joined s) (45 :: t).
Proof. intros H. apply base64_ok0, body_tested_ok, H. Qed.
Lemma base64_ok_end s : body_ok s -> read_base64 s = POk (joined s) [].
Proof. intros H. apply base64_ok_end0, body_tested_ok, H. Qed.
Lemma joined_utf8 s : body_ok s -> utf8_valid (joined s) = true.
Proof. intros H. apply joined_utf80, body_tested_ok, H. Qed.
(** Everything up to the footer's dashes. *)
Definition after_body (d : bytes) (label l : bytes) : presult (bytes * bytes) :=
  pbind (expect_dashes l) (fun _ l =>
  pbind (expect_string (ascii_bytes "END") l) (fun _ l =>
  pbind (expect_space l) (fun _ l =>
  pbind (read_label l) (fun end_label l =>
  pbind (expect_dashes l) (fun _ l =>
  pbind (expect_newline l) (fun _ l =>
  pbind (expect_end l) (fun _ l =>
  if utf8_valid d then
    match decode_noprefix d Base64Pad with
    | Ok decoded =>
      if bytes_eqb label end_label then POk (label, decoded) l else PErr (PemLabelMismatch label end_label)
    | _ => PErr (PemPlain "Invalid base64 data")
    end
  else PErr (PemPlain "Invalid UTF-8")))))))).
Lemma newline_no_dash nl r : newline nl -> no_dash (nl ++ r).
Proof. intros [->| ->]; reflexivity. Qed.
Lemma header_ok label body h n r : header label body h -> (0 < n)%nat -> decode_pem (h ++ dashes n ++ r) = after_body (joined body) label (dashes n ++ r).
Proof.
  intros (n1 & n2 & nl & P1 & P2 & NL & LO & BO & ->) P. unfold decode_pem. rewrite <- !app_assoc. rewrite dashes_ok by (try exact P1; reflexivity). cbn [pbind].
  change (ascii_bytes "BEGIN ") with (ascii_bytes "BEGIN" ++ [32]). rewrite <- !app_assoc. rewrite string_ok. cbn [pbind app expect_space].
  rewrite label_read; [|exact LO|destruct n2; [lia|reflexivity]]. cbn [pbind]. rewrite dashes_ok by (try exact P2; apply newline_no_dash, NL). cbn [pbind].
  rewrite newline_ok by exact NL. cbn [pbind]. destruct n as [|n]; [lia|]. change (dashes (S n) ++ r) with (45 :: dashes n ++ r). rewrite base64_ok by exact BO. reflexivity.
Qed.
Lemma decode_inv l x : decode_pem l = x -> (exists e, x = PErr e) \/
  (x = PLoop /\ exists n s r, (0 < n)%nat /\ ascii_bytes "BEGIN" = s ++ r /\ r <> [] /\ l = dashes n ++ s) \/
  exists label body h r, header label body h /\ l = h ++ r /\ (r = [] \/ exists t, r = 45 :: t) /\ x = after_body (joined body) label r.
Proof.
  unfold decode_pem. intros H.
  destruct (dashes_inv l _ eq_refl) as [(e & E)|(n1 & l1 & P1 & -> & N1 & E)]; rewrite E in H; cbn [pbind] in H; [left; eexists; symmetry; exact H|].
  destruct (string_inv (ascii_bytes "BEGIN") l1 _ eq_refl) as [(e & E2)|[(l2 & -> & E2)|(E2 & r & R1 & R2)]]; rewrite E2 in H; cbn [pbind] in H; [left; eexists; symmetry; exact H| |].
  2: { right; left. split; [auto|]. exists n1, l1, r. auto. }
  destruct (space_inv l2 _ eq_refl) as [(e & E3)|(l3 & -> & E3)]; rewrite E3 in H; cbn [pbind] in H; [left; eexists; symmetry; exact H|].
  destruct (label_inv l3 _ eq_refl) as (label & l4 & LO & -> & _ & E4). rewrite E4 in H. cbn [pbind] in H.
  destruct (dashes_inv l4 _ eq_refl) as [(e & E5)|(n2 & l5 & P2 & -> & N2 & E5)]; rewrite E5 in H; cbn [pbind] in H; [left; eexists; symmetry; exact H|].
  destruct (newline_inv l5 _ eq_refl) as [(e & E6)|(nl & l6 & NL & -> & E6)]; rewrite E6 in H; cbn [pbind] in H; [left; eexists; symmetry; exact H|].
  destruct (base64_inv l6 _ eq_refl) as [(e & E7)|(body & l7 & BO & -> & D & E7)]; rewrite E7 in H; cbn [pbind] in H; [left; eexists; symmetry; exact H|].
  right; right. exists label, body, (dashes n1 ++ ascii_bytes "BEGIN " ++ label ++ dashes n2 ++ nl ++ body), l7. split; [exists n1, n2, nl; auto 10|].
  split; [change (ascii_bytes "BEGIN ") with (ascii_bytes "BEGIN" ++ [32]); rewrite <- !app_assoc; reflexivity|]. split; [exact D|]. symmetry. exact H.
Qed.
Lemma footer_inv d label l x : after_body d label l = x -> (exists e, x = PErr e) \/
  (x = PLoop /\ exists n s r, (0 < n)%nat /\ ascii_bytes "END" = s ++ r /\ r <> [] /\ l = dashes n ++ s) \/
  exists data, x = POk (label, data) [] /\ footer label l /\ decode_noprefix d Base64Pad = Ok data.
Proof.
  unfold after_body. intros H.
  destruct (dashes_inv l _ eq_refl) as [(e & E)|(n1 & l1 & P1 & -> & N1 & E)]; rewrite E in H; cbn [pbind] in H; [left; eexists; symmetry; exact H|].
  destruct (string_inv (ascii_bytes "END") l1 _ eq_refl) as [(e & E2)|[(l2 & -> & E2)|(E2 & r & R1 & R2)]]; rewrite E2 in H; cbn [pbind] in H; [left; eexists; symmetry; exact H| |].
  2: { right; left. split; [auto|]. exists n1, l1, r. auto. }
  destruct (space_inv l2 _ eq_refl) as [(e & E3)|(l3 & -> & E3)]; rewrite E3 in H; cbn [pbind] in H; [left; eexists; symmetry; exact H|].
  destruct (label_inv l3 _ eq_refl) as (elabel & l4 & LO & -> & _ & E4). rewrite E4 in H. cbn [pbind] in H.
  destruct (dashes_inv l4 _ eq_refl) as [(e & E5)|(n2 & l5 & P2 & -> & N2 & E5)]; rewrite E5 in H; cbn [pbind] in H; [left; eexists; symmetry; exact H|].
  destruct (newline_inv l5 _ eq_refl) as [(e & E6)|(nl & l6 & NL & -> & E6)]; rewrite E6 in H; cbn [pbind] in H; [left; eexists; symmetry; exact H|].
  destruct l6 as [|b l6]; cbn [expect_end pbind] in H; [|left; eexists; symmetry; exact H].
  destruct (utf8_valid d); [|left; eexists; symmetry; exact H]. destruct (decode_noprefix d Base64Pad) as [data|e|]; try (left; eexists; symmetry; exact H).
  destruct (bytes_eqb label elabel) eqn:EL; [|left; eexists; symmetry; exact H]. apply bytes_eqb_eq in EL. subst elabel.
  right; right. exists data. split; [auto|]. split; [|reflexivity]. exists n1, n2, nl. rewrite app_nil_r. change (ascii_bytes "END ") with (ascii_bytes "END" ++ [32]). rewrite <- !app_assoc. auto 10.
Qed.
Lemma footer_ok d label l data : footer label l -> utf8_valid d = true -> decode_noprefix d Base64Pad = Ok data -> after_body d label l = POk (label, data) [].
Proof.
  intros (n1 & n2 & nl & P1 & P2 & NL & LO & ->) U D. unfold after_body. rewrite dashes_ok by (try exact P1; reflexivity). cbn [pbind].
  change (ascii_bytes "END ") with (ascii_bytes "END" ++ [32]). rewrite <- !app_assoc. rewrite string_ok. cbn [pbind app expect_space].
  rewrite label_read; [|exact LO|destruct n2; [lia|reflexivity]]. cbn [pbind]. replace nl with (nl ++ []) by apply app_nil_r.
  rewrite dashes_ok by (try exact P2; apply newline_no_dash, NL). cbn [pbind]. rewrite newline_ok by exact NL. cbn [pbind expect_end]. rewrite U, D, bytes_eqb_refl. reflexivity.
Qed.

(** Which texts are accepted, and with what result. *)
Theorem C51_accepts_exactly l label data rest : decode_pem l = POk (label, data) rest <-> rest = [] /\ pem_text l label data.
Proof.
  split.
  - intros H. destruct (decode_inv l _ H) as [(e & X)|[(X & _)|(lb & body & h & r & HD & -> & _ & X)]]; try discriminate X.
    symmetry in X. destruct (footer_inv _ _ _ _ X) as [(e & Y)|[(Y & _)|(dt & Y & F & D)]]; try discriminate Y. injection Y as <- <- <-. split; [reflexivity|].
    exists body, h, r. auto.
  - intros (-> & body & h & f & -> & HD & F & D). pose proof F as F'. destruct F' as (n1 & n2 & nl & P1 & _ & _ & _ & Ef).
    rewrite Ef. rewrite (header_ok _ _ _ n1 _ HD P1). rewrite <- Ef. apply footer_ok; [exact F| |exact D].
    apply joined_utf8. destruct HD as (? & ? & ? & HD). tauto.
Qed.
Print Assumptions C51_accepts_exactly.
Lemma lines_body0 fuel l : Forall (fun b => body_char b = true) l -> (length l <= fuel)%nat -> body_tested (pem_lines fuel l) /\ joined (pem_lines fuel l) = l.
Proof.
  assert (J : forall l, Forall (fun b => body_char b = true) l -> body_tested l /\ joined l = l).
  { induction 1 as [|b m H _ [I1 I2]]; [split; [constructor|reflexivity]|]. split; [constructor; auto|]. cbn [joined filter]. destruct (body_char_not b H) as (-> & _). cbn [negb]. f_equal. exact I2. }
  revert l. induction fuel as [|fuel IH]; intros l F L.
  - destruct l; [split; [constructor|reflexivity]|cbn in L; lia].
  - destruct l as [|b l]; [split; [constructor|reflexivity]|]. cbn [pem_lines]. set (m := b :: l) in *.
    assert (F1 : Forall (fun b => body_char b = true) (firstn 64 m)) by (apply Forall_forall; intros x Hx; rewrite Forall_forall in F; apply F; rewrite <- (firstn_skipn 64 m); apply in_or_app; auto).
    assert (F2 : Forall (fun b => body_char b = true) (skipn 64 m)) by (apply Forall_forall; intros x Hx; rewrite Forall_forall in F; apply F; rewrite <- (firstn_skipn 64 m); apply in_or_app; auto).
    destruct (IH (skipn 64 m) F2) as (A & B); [rewrite skipn_length; cbn [length] in *; lia|]. destruct (J _ F1) as (A1 & B1). split.
    + apply Forall_app. split; [exact A1|]. constructor; [right; right; reflexivity|exact A].
    + unfold joined in *. rewrite filter_app. rewrite B1. cbn [app filter]. change (negb ((10 =? 13) || (10 =? 10))) with false. cbn iota. rewrite B. apply firstn_skipn.
Qed.
Lemma lines_body fuel l : Forall (fun b => body_char b = true) l -> (length l <= fuel)%nat -> body_ok (pem_lines fuel l) /\ joined (pem_lines fuel l) = l.
Proof. intros H L. destruct (lines_body0 fuel l H L) as [A B]. split; [apply body_tested_ok; exact A|exact B]. Qed.
Lemma base64_chars data : bytes_ok data -> Forall (fun b => body_char b = true) (encode_noprefix data Base64Pad).
Proof.
  intros B. destruct (proj1 (C20_text_as_specified Base64Pad data B)) as (cs & ds & z & pad & -> & F & _). apply Forall_app. split.
  - assert (X : forallb body_char (ascii_bytes (letters Base64Pad)) = true) by (vm_compute; reflexivity). rewrite forallb_forall in X.
    induction F as [|c d cs ds S _ IH]; constructor; [|exact IH]. apply X. exact (nth_error_In _ _ S).
  - apply Forall_forall. intros x Hx. apply repeat_spec in Hx. subst x. reflexivity.
Qed.
(** The round trip, for labels of capital letters and spaces. *)
Theorem C51_round_trip label data : label_ok label -> bytes_ok data -> decode_pem (encode_pem data label) = POk (label, data) [] /\
  decode_pem_with_label (encode_pem data label) label = POk data [].
Proof.
  intros LO B. assert (R : decode_pem (encode_pem data label) = POk (label, data) []).
  { apply C51_accepts_exactly. split; [reflexivity|]. set (b := encode_noprefix data Base64Pad).
    destruct (lines_body (length b) b (base64_chars data B) (le_n _)) as (L1 & L2).
    exists (pem_lines (length b) b), (ascii_bytes "-----BEGIN " ++ label ++ ascii_bytes "-----" ++ [10] ++ pem_lines (length b) b), (ascii_bytes "-----END " ++ label ++ ascii_bytes "-----" ++ [10]).
    split; [unfold encode_pem; cbv zeta; fold b; rewrite <- !app_assoc; reflexivity|].
    split; [exists 5%nat, 5%nat, [10]; repeat split; auto; try lia; left; reflexivity|]. split; [exists 5%nat, 5%nat, [10]; repeat split; auto; try lia; left; reflexivity|].
    rewrite L2. apply (C20_multibase_round_trip Base64Pad data B). }
  split; [exact R|]. unfold decode_pem_with_label. rewrite R. cbn [pbind fst snd]. rewrite bytes_eqb_refl. reflexivity.
Qed.
Print Assumptions C51_round_trip.
(** Decoding ends on every text except those that stop inside the word BEGIN or END, on which
    it never does. *)
Theorem C51_loops_exactly l : decode_pem l = PLoop <-> stops l.
Proof.
  split.
  - intros H. destruct (decode_inv l _ H) as [(e & X)|[(_ & n & s & r & X)|(lb & body & h & r & HD & -> & _ & X)]]; [discriminate X|left; exists n, s, r; exact X|].
    symmetry in X. destruct (footer_inv _ _ _ _ X) as [(e & Y)|[(_ & n & s & r' & P & S & R & ->)|(dt & Y & _)]]; try discriminate Y. right. exists lb, body, h, n, s, r'. auto.
  - intros [(n & s & r & P & E & R & ->)|(lb & body & h & n & s & r & HD & P & E & R & ->)].
    + unfold decode_pem. rewrite dashes_ok; [|exact P|destruct s as [|b s]; [exact I|]; injection E as <- _; reflexivity]. cbn [pbind]. rewrite E, string_loop by exact R. reflexivity.
    + rewrite (header_ok _ _ _ n s HD P). unfold after_body. rewrite dashes_ok; [|exact P|destruct s as [|b s]; [exact I|]; injection E as <- _; reflexivity]. cbn [pbind]. rewrite E, string_loop by exact R. reflexivity.
Qed.
Print Assumptions C51_loops_exactly.
Theorem C51_terminates_refuted : exists l, decode_pem l = PLoop.
Proof. exists (ascii_bytes "-----BEG"). reflexivity. Qed.
Print Assumptions C51_terminates_refuted.
(** A label other than the one asked for is refused. *)
Theorem C51_label_checked l label label' data : pem_text l label data -> label' <> label -> decode_pem_with_label l label' = PErr (PemString (ascii_bytes "Expected " ++ label' ++ ascii_bytes ", got " ++ label)).
Proof.
  intros H N. unfold decode_pem_with_label. rewrite (proj2 (C51_accepts_exactly l label data []) (conj eq_refl H)). cbn [pbind fst].
  destruct (bytes_eqb label label') eqn:E; [apply bytes_eqb_eq in E; congruence|reflexivity].
Qed.
Print Assumptions C51_label_checked.
Example C51_case : encode_pem [104; 105; 33; 255] (ascii_bytes "RSA KEY") = ascii_bytes "-----BEGIN RSA KEY-----" ++ [10] ++ ascii_bytes "aGkh/w==" ++ [10] ++ ascii_bytes "-----END RSA KEY-----" ++ [10]
  /\ decode_pem (ascii_bytes "-BEGIN A--" ++ [13; 10] ++ ascii_bytes "aG" ++ [10; 10] ++ ascii_bytes "kh---END A-" ++ [10]) = POk (ascii_bytes "A", [104; 105; 33]) []
  /\ decode_pem (ascii_bytes "-----BEGIN A-----" ++ [10] ++ ascii_bytes "-----") = PLoop
  /\ length (encode_pem (repeat 1 100) (ascii_bytes "A")) = 173%nat.
Proof. vm_compute. auto. Qed.
