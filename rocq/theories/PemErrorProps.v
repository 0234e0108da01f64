(** PEM, the errors: C51. *)
From Verif Require Import Base BaseProofs MultibaseModel MultibaseSpec MultibaseProofs MultibaseProps ChatModel PemModel PemProps ChatProps2.
Local Open Scope string_scope. Local Open Scope list_scope. Local Open Scope N_scope.

(** *** Specification *)
Definition begins (s l : bytes) : Prop := exists r, l = s ++ r.
(** [l] departs from the word [s] before either ends. *)
Definition departs (s l : bytes) : Prop := exists p c1 c2 s' l', s = p ++ c1 :: s' /\ l = p ++ c2 :: l' /\ c1 <> c2.
Definition plain (s : string) : pem_error := PemPlain s.
Definition text (s : string) : pem_error := PemString (ascii_bytes s).
Definition quote : string := String (Ascii.ascii_of_nat 34) "".
Definition next_not (cs : bytes) (l : bytes) : Prop := forall c r, l = c :: r -> ~ In c cs.
Definition label_letters : bytes := ascii_bytes "ABCDEFGHIJKLMNOPQRSTUVWXYZ ".
Definition body_letters : bytes := ascii_bytes "ABCDEFGHIJKLMNOPQRSTUVWXYZabcdefghijklmnopqrstuvwxyz0123456789+/=".
(** What is wrong with a text, and how it is reported. *)
Inductive diagnosis : bytes -> pem_error -> Prop :=
| no_first_dash l : ~ begins [45] l -> diagnosis l (plain "Expected '")
| no_begin n l : (0 < n)%nat -> ~ begins [45] l -> departs (ascii_bytes "BEGIN") l ->
    diagnosis (dashes n ++ l) (PemString (ascii_bytes "Expected " ++ [34] ++ ascii_bytes "BEGIN" ++ [34]))
| no_space n l : (0 < n)%nat -> ~ begins [32] l -> diagnosis (dashes n ++ ascii_bytes "BEGIN" ++ l) (plain "Expected ' '")
| no_second_dash n label l : (0 < n)%nat -> label_ok label -> next_not (label_letters ++ [45]) l ->
    diagnosis (dashes n ++ ascii_bytes "BEGIN " ++ label ++ l) (plain "Expected '")
| no_newline n label m l : (0 < n)%nat -> (0 < m)%nat -> label_ok label -> ~ begins [45] l -> ~ begins [10] l -> ~ begins [13; 10] l ->
    diagnosis (dashes n ++ ascii_bytes "BEGIN " ++ label ++ dashes m ++ l) (plain "Expected newline")
| bad_body label body h c l : header label body h -> ~ In c (body_letters ++ [10; 13; 45]) ->
    diagnosis (h ++ c :: l) (PemString (ascii_bytes "Expected base64-encoded data, got " ++ decimal c))
| no_footer label body h : header label body h -> diagnosis h (plain "Expected '")
| no_end label body h n l : header label body h -> (0 < n)%nat -> ~ begins [45] l -> departs (ascii_bytes "END") l ->
    diagnosis (h ++ dashes n ++ l) (PemString (ascii_bytes "Expected " ++ [34] ++ ascii_bytes "END" ++ [34]))
| no_end_space label body h n l : header label body h -> (0 < n)%nat -> ~ begins [32] l ->
    diagnosis (h ++ dashes n ++ ascii_bytes "END" ++ l) (plain "Expected ' '")
| no_last_dash label body h n label2 l : header label body h -> (0 < n)%nat -> label_ok label2 -> next_not (label_letters ++ [45]) l ->
    diagnosis (h ++ dashes n ++ ascii_bytes "END " ++ label2 ++ l) (plain "Expected '")
| no_last_newline label body h n label2 m l : header label body h -> (0 < n)%nat -> (0 < m)%nat -> label_ok label2 ->
    ~ begins [45] l -> ~ begins [10] l -> ~ begins [13; 10] l ->
    diagnosis (h ++ dashes n ++ ascii_bytes "END " ++ label2 ++ dashes m ++ l) (plain "Expected newline")
| more label body h label2 f c l : header label body h -> footer label2 f -> diagnosis (h ++ f ++ c :: l) (plain "Expected EOF")
| bad_base64 label body h label2 f : header label body h -> footer label2 f -> (forall d, decode_noprefix (PemProps.joined body) Base64Pad <> Ok d) ->
    diagnosis (h ++ f) (plain "Invalid base64 data")
| other_label label body h label2 f d : header label body h -> footer label2 f -> decode_noprefix (PemProps.joined body) Base64Pad = Ok d -> label <> label2 ->
    diagnosis (h ++ f) (PemLabelMismatch label label2).

(** *** Proofs *)
Lemma not_begins_dash l : ~ begins [45] l <-> no_dash l.
Proof.
  destruct l as [|b l]; cbn [no_dash]; split; intros H; try exact Logic.I.
  - intros (r & X). discriminate X.
  - destruct (N.eqb_spec 45 b) as [<-|E]; [destruct H; exists l|]; reflexivity.
  - intros (r & X). injection X as -> _. discriminate H.
Qed.
Lemma dashes_exact l : (no_dash l /\ expect_dashes l = PErr (PemPlain "Expected '")) \/ exists n r, (0 < n)%nat /\ l = dashes n ++ r /\ no_dash r /\ expect_dashes l = POk n r.
Proof.
  destruct l as [|b l]; [left; split; [exact Logic.I|reflexivity]|]. destruct (45 =? b) eqn:E.
  - apply N.eqb_eq in E. subst b. right. destruct (dashes_inv (45 :: l) _ eq_refl) as [(e & X)|(n & r & P & EQ & ND & X)].
    + unfold expect_dashes in X. cbn [span] in X. change (45 =? 45) with true in X. cbv iota in X. destruct (span (N.eqb 45) l). cbn [length] in X. discriminate X.
    + exists n, r. auto.
  - left. split; [exact E|]. unfold expect_dashes. cbn [span]. rewrite E. reflexivity.
Qed.
Lemma dashes_err l : no_dash l -> expect_dashes l = PErr (PemPlain "Expected '").
Proof. intros H. destruct (dashes_exact l) as [[_ X]|(n & r & P & -> & _)]; [exact X|]. destruct n; [lia|discriminate H]. Qed.
Lemma rest_departs w s l : departs s l -> expect_rest w s l = PErr (PemString (ascii_bytes "Expected " ++ in_quotes w)).
Proof.
  intros (p & c1 & c2 & s' & l' & -> & -> & N). induction p as [|b p IH]; cbn [app expect_rest].
  - rewrite (proj2 (N.eqb_neq c1 c2) N). reflexivity.
  - rewrite N.eqb_refl. exact IH.
Qed.
Lemma rest_exact s : forall l, departs s l \/ (exists r, l = s ++ r) \/ (exists r, s = l ++ r /\ r <> []).
Proof.
  induction s as [|b s IH]; intros l; [right; left; exists l; reflexivity|]. destruct l as [|c l]; [right; right; exists (b :: s); split; [reflexivity|discriminate]|].
  destruct (N.eqb_spec b c) as [<-|E]; [|left; exists [], b, c, s, l; auto].
  destruct (IH l) as [(p & c1 & c2 & s' & l' & -> & -> & X)|[(r & ->)|(r & -> & R)]]; [left; exists (b :: p), c1, c2, s', l'; auto|right; left; exists r; reflexivity|right; right; exists r; auto].
Qed.
Lemma space_exact l : (~ begins [32] l /\ expect_space l = PErr (PemPlain "Expected ' '")) \/ exists r, l = 32 :: r.
Proof.
  destruct (space_inv l _ eq_refl) as [(e & X)|(r & -> & _)]; [left|right; exists r; reflexivity].
  split; [intros (r & ->); discriminate X|]. destruct l as [|b l]; [reflexivity|]. unfold expect_space in *. destruct b as [|p]; [reflexivity|].
  do 6 (destruct p as [p|p|]; try reflexivity). discriminate X.
Qed.
Lemma newline_exact l : (~ begins [10] l /\ ~ begins [13; 10] l /\ expect_newline l = PErr (PemPlain "Expected newline")) \/ exists nl r, newline nl /\ l = nl ++ r.
Proof.
  destruct (newline_inv l _ eq_refl) as [(e & X)|(nl & r & NL & -> & _)]; [left|right; exists nl, r; auto].
  split; [intros (r & ->); discriminate X|]. split; [intros (r & ->); discriminate X|].
  unfold expect_newline in *. cbv zeta in *. set (m := match l with 13 :: t => t | _ => l end) in *. clearbody m. destruct m as [|b m]; [reflexivity|].
  destruct b as [|p]; [reflexivity|]. do 4 (destruct p as [p|p|]; try reflexivity). discriminate X.
Qed.
Lemma space_err l : ~ begins [32] l -> expect_space l = PErr (PemPlain "Expected ' '").
Proof. intros H. destruct (space_exact l) as [[_ X]|(r & ->)]; [exact X|]. destruct H. exists r. reflexivity. Qed.
Lemma newline_err l : ~ begins [10] l -> ~ begins [13; 10] l -> expect_newline l = PErr (PemPlain "Expected newline").
Proof. intros H1 H2. destruct (newline_exact l) as [(_ & _ & X)|(nl & r & [->| ->] & ->)]; [exact X|destruct H1; exists r; reflexivity|destruct H2; exists r; reflexivity]. Qed.
Lemma body_exact l : (exists s c r, body_ok s /\ l = s ++ c :: r /\ ~ In c (body_letters ++ [10; 13; 45])) \/ exists s r, body_ok s /\ l = s ++ r /\ (r = [] \/ exists t, r = 45 :: t).
Proof.
  induction l as [|b l IH]; [right; exists [], []; repeat split; auto; constructor|].
  destruct (in_dec N.eq_dec b (body_letters ++ [10; 13; 45])) as [Y|Y]; [|left; exists [], b, l; repeat split; auto; constructor].
  destruct (N.eq_dec b 45) as [->|N45]; [right; exists [], (45 :: l); repeat split; [constructor|right; exists l; reflexivity]|].
  assert (OK : In b body_letters \/ b = 13 \/ b = 10) by (apply in_app_or in Y; destruct Y as [Y|[Y|[Y|[Y|[]]]]]; auto; congruence).
  destruct IH as [(s & c & r & S1 & -> & S2)|(s & r & S1 & -> & S2)]; [left; exists (b :: s), c, r|right; exists (b :: s), r]; (split; [constructor; [exact OK|exact S1]|split; [reflexivity|exact S2]]).
Qed.
Lemma base64_err s c r : body_ok s -> ~ In c (body_letters ++ [10; 13; 45]) -> read_base64 (s ++ c :: r) = PErr (PemString (ascii_bytes "Expected base64-encoded data, got " ++ decimal c)).
Proof.
  intros H N. apply body_tested_ok in H. induction H as [|b s X _ IH]; cbn [app read_base64].
  - destruct (body_char c) eqn:E; [destruct N; apply in_or_app; left; apply body_char_in, E|].
    destruct ((c =? 13) || (c =? 10)) eqn:E2; [destruct N; apply in_or_app; right; assert (O : c = 13 \/ c = 10) by lia; destruct O as [->| ->]; cbn; auto|].
    destruct (c =? 45) eqn:E3; [destruct N; apply in_or_app; right; apply N.eqb_eq in E3; subst c; cbn; auto|reflexivity].
  - destruct (body_char b) eqn:E; [rewrite IH; reflexivity|]. destruct X as [X|X]; [discriminate X|]. replace ((b =? 13) || (b =? 10)) with true by (destruct X; subst b; reflexivity). exact IH.
Qed.
Lemma next_not_label cs l : next_not (label_letters ++ cs) l -> match l with b :: _ => label_char b = false | [] => True end.
Proof.
  destruct l as [|b l]; intros H; [exact Logic.I|]. destruct (label_char b) eqn:E; [|reflexivity]. destruct (H b l eq_refl). apply in_or_app. left. apply label_char_in, E.
Qed.
Lemma next_not_dash l : next_not (label_letters ++ [45]) l -> no_dash l.
Proof. destruct l as [|b l]; intros H; [exact Logic.I|]. cbn [no_dash]. destruct (N.eqb_spec 45 b) as [<-|E]; [|reflexivity]. destruct (H 45 l eq_refl). apply in_or_app. right. left. reflexivity. Qed.
Lemma next_not_both l : (match l with b :: _ => label_char b = false | [] => True end) -> no_dash l -> next_not (label_letters ++ [45]) l.
Proof.
  intros H1 H2 c r -> X. apply in_app_or in X. destruct X as [X|[<-|[]]]; [|discriminate H2]. apply label_char_in in X. cbv iota in H1. rewrite X in H1. discriminate H1.
Qed.
Lemma dash_not_label n l : (0 < n)%nat -> match dashes n ++ l with b :: _ => label_char b = false | [] => True end.
Proof. destruct n; [lia|reflexivity]. Qed.
(** The header's parts, as far as a text goes. *)
Definition after_label label l : presult (bytes * bytes) :=
  pbind (expect_dashes l) (fun _ l => pbind (expect_newline l) (fun _ l => pbind (read_base64 l) (fun d l => after_body d label l))).
Lemma front1 n l : (0 < n)%nat -> no_dash l -> decode_pem (dashes n ++ l) =
  pbind (expect_string (ascii_bytes "BEGIN") l) (fun _ l => pbind (expect_space l) (fun _ l => pbind (read_label l) after_label)).
Proof. intros P ND. unfold decode_pem. rewrite dashes_ok by assumption. reflexivity. Qed.
Lemma front2 n l : (0 < n)%nat -> decode_pem (dashes n ++ ascii_bytes "BEGIN" ++ l) = pbind (expect_space l) (fun _ l => pbind (read_label l) after_label).
Proof. intros P. rewrite front1 by (try exact P; reflexivity). rewrite string_ok. reflexivity. Qed.
Lemma front3 n label l : (0 < n)%nat -> label_ok label -> (match l with b :: _ => label_char b = false | [] => True end) -> decode_pem (dashes n ++ ascii_bytes "BEGIN " ++ label ++ l) = after_label label l.
Proof.
  intros P LO NL. change (ascii_bytes "BEGIN " ++ label ++ l) with (ascii_bytes "BEGIN" ++ 32 :: label ++ l). rewrite front2 by exact P. cbn [expect_space pbind]. rewrite label_read by assumption. reflexivity.
Qed.
Lemma front4 n label m l : (0 < n)%nat -> (0 < m)%nat -> label_ok label -> no_dash l ->
  decode_pem (dashes n ++ ascii_bytes "BEGIN " ++ label ++ dashes m ++ l) = pbind (expect_newline l) (fun _ l => pbind (read_base64 l) (fun d l => after_body d label l)).
Proof. intros P1 P2 LO ND. rewrite front3 by (try exact P1; try exact LO; apply dash_not_label, P2). unfold after_label. rewrite dashes_ok by assumption. reflexivity. Qed.
Lemma header_bad label body h c l : header label body h -> ~ In c (body_letters ++ [10; 13; 45]) -> decode_pem (h ++ c :: l) = PErr (PemString (ascii_bytes "Expected base64-encoded data, got " ++ decimal c)).
Proof.
  intros (n1 & n2 & nl & P1 & P2 & NL & LO & BO & ->) C. rewrite <- !app_assoc. rewrite front4 by (try assumption; apply newline_no_dash, NL).
  rewrite newline_ok by exact NL. cbn [pbind]. rewrite base64_err by assumption. reflexivity.
Qed.
Lemma header_end label body h : header label body h -> decode_pem h = PErr (PemPlain "Expected '").
Proof.
  intros (n1 & n2 & nl & P1 & P2 & NL & LO & BO & ->). rewrite front4 by (try assumption; apply newline_no_dash, NL). rewrite newline_ok by exact NL. cbn [pbind]. rewrite base64_ok_end by exact BO. reflexivity.
Qed.
Lemma back1 d label n l : (0 < n)%nat -> no_dash l -> after_body d label (dashes n ++ l) =
  pbind (expect_string (ascii_bytes "END") l) (fun _ l => pbind (expect_space l) (fun _ l => pbind (read_label l) (fun label2 l =>
  pbind (expect_dashes l) (fun _ l => pbind (expect_newline l) (fun _ l => pbind (expect_end l) (fun _ l =>
  if utf8_valid d then
    match decode_noprefix d Base64Pad with
    | Ok decoded => if bytes_eqb label label2 then POk (label, decoded) l else PErr (PemLabelMismatch label label2)
    | _ => PErr (PemPlain "Invalid base64 data")
    end
  else PErr (PemPlain "Invalid UTF-8"))))))).
Proof. intros P ND. unfold after_body. rewrite dashes_ok by assumption. reflexivity. Qed.
Lemma back3 d label n label2 l : (0 < n)%nat -> label_ok label2 -> (match l with b :: _ => label_char b = false | [] => True end) ->
  after_body d label (dashes n ++ ascii_bytes "END " ++ label2 ++ l) =
  pbind (expect_dashes l) (fun _ l => pbind (expect_newline l) (fun _ l => pbind (expect_end l) (fun _ l =>
  if utf8_valid d then
    match decode_noprefix d Base64Pad with
    | Ok decoded => if bytes_eqb label label2 then POk (label, decoded) l else PErr (PemLabelMismatch label label2)
    | _ => PErr (PemPlain "Invalid base64 data")
    end
  else PErr (PemPlain "Invalid UTF-8")))).
Proof.
  intros P LO NL. change (ascii_bytes "END " ++ label2 ++ l) with (ascii_bytes "END" ++ 32 :: label2 ++ l). rewrite back1 by (try exact P; reflexivity). rewrite string_ok. cbn [pbind expect_space]. rewrite label_read by assumption. reflexivity.
Qed.
Lemma back_footer d label label2 f l : footer label2 f -> after_body d label (f ++ l) = pbind (expect_end l) (fun _ l =>
  if utf8_valid d then
    match decode_noprefix d Base64Pad with
    | Ok decoded => if bytes_eqb label label2 then POk (label, decoded) l else PErr (PemLabelMismatch label label2)
    | _ => PErr (PemPlain "Invalid base64 data")
    end
  else PErr (PemPlain "Invalid UTF-8")).
Proof.
  intros (n1 & n2 & nl & P1 & P2 & NL & LO & ->). rewrite <- !app_assoc. rewrite back3 by (try assumption; apply dash_not_label, P2). rewrite dashes_ok by (try exact P2; apply newline_no_dash, NL).
  cbn [pbind]. rewrite newline_ok by exact NL. reflexivity.
Qed.
Lemma diagnosed l e : diagnosis l e -> decode_pem l = PErr e.
Proof.
  intros [l1 ND|n l1 P ND D|n l1 P NS|n label l1 P LO NN|n label m l1 P1 P2 LO ND N1 N2|label body h c l1 H C|label body h H|label body h n l1 H P ND D|label body h n l1 H P NS
    |label body h n label2 l1 H P LO NN|label body h n label2 m l1 H P1 P2 LO ND N1 N2|label body h label2 f c l1 H F|label body h label2 f H F D|label body h label2 f d H F D NE].
  - apply not_begins_dash in ND. unfold decode_pem. rewrite dashes_err by exact ND. reflexivity.
  - apply not_begins_dash in ND. rewrite front1 by assumption. unfold expect_string. rewrite rest_departs by exact D. reflexivity.
  - rewrite front2 by exact P. rewrite space_err by exact NS. reflexivity.
  - rewrite front3 by (try assumption; eapply next_not_label, NN). unfold after_label. rewrite dashes_err by (apply next_not_dash, NN). reflexivity.
  - apply not_begins_dash in ND. rewrite front4 by assumption. rewrite newline_err by assumption. reflexivity.
  - apply (header_bad label body); assumption.
  - apply (header_end label body); assumption.
  - apply not_begins_dash in ND. rewrite (header_ok label body h n l1 H P), back1 by assumption. unfold expect_string. rewrite rest_departs by exact D. reflexivity.
  - rewrite (header_ok label body h n _ H P), back1 by (try assumption; reflexivity). rewrite string_ok. cbn [pbind]. rewrite space_err by exact NS. reflexivity.
  - rewrite (header_ok label body h n _ H P), back3 by (try assumption; eapply next_not_label, NN). rewrite dashes_err by (apply next_not_dash, NN). reflexivity.
  - apply not_begins_dash in ND. rewrite (header_ok label body h n _ H P1), back3 by (try assumption; apply dash_not_label, P2). rewrite dashes_ok by assumption. cbn [pbind]. rewrite newline_err by assumption. reflexivity.
  - pose proof F as F'. destruct F as (n1 & n2 & nl & P1 & _ & _ & _ & E). replace (f ++ c :: l1) with (dashes n1 ++ (ascii_bytes "END " ++ label2 ++ dashes n2 ++ nl) ++ c :: l1) by (rewrite E, <- !app_assoc; reflexivity).
    rewrite (header_ok label body h n1 _ H P1). replace (dashes n1 ++ (ascii_bytes "END " ++ label2 ++ dashes n2 ++ nl) ++ c :: l1) with (f ++ c :: l1) by (rewrite E, <- !app_assoc; reflexivity).
    rewrite (back_footer _ _ label2 f) by exact F'. reflexivity.
  - pose proof F as F'. destruct F as (n1 & n2 & nl & P1 & _ & _ & _ & E). rewrite E, (header_ok label body h n1 _ H P1), <- E. rewrite <- (app_nil_r f). rewrite (back_footer _ _ label2 f) by exact F'. cbn [expect_end pbind].
    rewrite joined_utf8 by (destruct H as (? & ? & ? & H); tauto). destruct (decode_noprefix (PemProps.joined body) Base64Pad) as [d|e1|]; [destruct (D d eq_refl)|reflexivity|reflexivity].
  - pose proof F as F'. destruct F as (n1 & n2 & nl & P1 & _ & _ & _ & E). rewrite E, (header_ok label body h n1 _ H P1), <- E. rewrite <- (app_nil_r f). rewrite (back_footer _ _ label2 f) by exact F'. cbn [expect_end pbind].
    rewrite joined_utf8 by (destruct H as (? & ? & ? & H); tauto). rewrite D. destruct (bytes_eqb label label2) eqn:X; [apply bytes_eqb_eq in X; contradiction|reflexivity].
Qed.
Lemma all_cases l : (exists e, diagnosis l e) \/ stops l \/ exists label data, pem_text l label data.
Proof.
  destruct (dashes_exact l) as [[ND _]|(n & l1 & P & -> & ND & _)]; [left; eexists; apply no_first_dash, not_begins_dash, ND|].
  destruct (rest_exact (ascii_bytes "BEGIN") l1) as [D|[(l2 & ->)|(r & R1 & R2)]];
    [left; eexists; apply no_begin; [exact P|apply not_begins_dash, ND|exact D]| |right; left; left; exists n, l1, r; auto].
  destruct (space_exact l2) as [[NS _]|(l3 & ->)]; [left; eexists; apply no_space; assumption|].
  destruct (label_inv l3 _ eq_refl) as (label & l4 & LO & -> & NL & _).
  change (ascii_bytes "BEGIN" ++ 32 :: label ++ l4) with (ascii_bytes "BEGIN " ++ label ++ l4).
  destruct (dashes_exact l4) as [[ND2 _]|(m & l5 & P2 & -> & ND2 & _)]; [left; eexists; apply no_second_dash; [exact P|exact LO|apply next_not_both; assumption]|].
  destruct (newline_exact l5) as [(N1 & N2 & _)|(nl & l6 & NLO & ->)]; [left; eexists; apply no_newline; try assumption; apply not_begins_dash, ND2|].
  destruct (body_exact l6) as [(body & c & r & BO & -> & C)|(body & r & BO & -> & R)].
  { left. eexists. replace (dashes n ++ ascii_bytes "BEGIN " ++ label ++ dashes m ++ nl ++ body ++ c :: r) with ((dashes n ++ ascii_bytes "BEGIN " ++ label ++ dashes m ++ nl ++ body) ++ c :: r) by (rewrite <- !app_assoc; reflexivity).
    eapply (bad_body label body); [exists n, m, nl; auto 10|exact C]. }
  set (h := dashes n ++ ascii_bytes "BEGIN " ++ label ++ dashes m ++ nl ++ body).
  assert (H : header label body h) by (exists n, m, nl; auto 10).
  replace (dashes n ++ ascii_bytes "BEGIN " ++ label ++ dashes m ++ nl ++ body ++ r) with (h ++ r) by (unfold h; rewrite <- !app_assoc; reflexivity).
  clearbody h. destruct (dashes_exact r) as [[ND3 _]|(k & l7 & P3 & -> & ND3 & _)].
  { destruct R as [->|(t & ->)]; [|discriminate ND3]. left. eexists. rewrite app_nil_r. eapply no_footer, H. }
  destruct (rest_exact (ascii_bytes "END") l7) as [D|[(l8 & ->)|(r & R1 & R2)]];
    [left; eexists; eapply no_end; [exact H|exact P3|apply not_begins_dash, ND3|exact D]| |right; left; right; exists label, body, h, k, l7, r; auto 10].
  destruct (space_exact l8) as [[NS _]|(l9 & ->)]; [left; eexists; eapply no_end_space; eassumption|].
  destruct (label_inv l9 _ eq_refl) as (label2 & l10 & LO2 & -> & NL2 & _).
  change (ascii_bytes "END" ++ 32 :: label2 ++ l10) with (ascii_bytes "END " ++ label2 ++ l10).
  destruct (dashes_exact l10) as [[ND4 _]|(j & l11 & P4 & -> & ND4 & _)]; [left; eexists; eapply no_last_dash; [exact H|exact P3|exact LO2|apply next_not_both; assumption]|].
  destruct (newline_exact l11) as [(N1 & N2 & _)|(nl2 & l12 & NLO2 & ->)]; [left; eexists; eapply no_last_newline; try eassumption; apply not_begins_dash, ND4|].
  set (f := dashes k ++ ascii_bytes "END " ++ label2 ++ dashes j ++ nl2).
  assert (F : footer label2 f) by (exists k, j, nl2; auto 10).
  replace (h ++ dashes k ++ ascii_bytes "END " ++ label2 ++ dashes j ++ nl2 ++ l12) with (h ++ f ++ l12) by (unfold f; rewrite <- !app_assoc; reflexivity).
  clearbody f. destruct l12 as [|c l12]; [|left; eexists; eapply more; eassumption]. rewrite app_nil_r.
  assert (DD : (exists d, decode_noprefix (PemProps.joined body) Base64Pad = Ok d) \/ forall d, decode_noprefix (PemProps.joined body) Base64Pad <> Ok d).
  { destruct (decode_noprefix (PemProps.joined body) Base64Pad) as [d|e|]; [left; exists d; reflexivity|right; discriminate|right; discriminate]. }
  destruct DD as [(d & D)|D]; [|left; eexists; eapply bad_base64; eassumption].
  destruct (bytes_eqb label label2) eqn:X.
  - apply bytes_eqb_eq in X. subst label2. right. right. exists label, d, body, h, f. auto.
  - left. eexists. eapply other_label; try eassumption. intros ->. rewrite bytes_eqb_refl in X. discriminate X.
Qed.

(** Which error a text leads to, for every text and every error. *)
Theorem C51_errors_exactly l e : decode_pem l = PErr e <-> diagnosis l e.
Proof.
  split; [|apply diagnosed]. intros H. destruct (all_cases l) as [(e2 & D)|[S|(label & data & T)]].
  - pose proof (diagnosed l e2 D) as X. rewrite H in X. injection X as <-. exact D.
  - apply C51_loops_exactly in S. rewrite S in H. discriminate H.
  - rewrite (proj2 (C51_accepts_exactly l label data []) (conj eq_refl T)) in H. discriminate H.
Qed.
Print Assumptions C51_errors_exactly.
(** The same where a label is asked for. *)
Theorem C51_label_errors_exactly l label e : decode_pem_with_label l label = PErr e <->
  diagnosis l e \/ exists other data, pem_text l other data /\ other <> label /\ e = PemString (ascii_bytes "Expected " ++ label ++ ascii_bytes ", got " ++ other).
Proof.
  unfold decode_pem_with_label. destruct (decode_pem l) as [[other data] rest|e2|] eqn:E; cbn [pbind fst snd].
  - assert (ND : ~ diagnosis l e) by (intros D; apply diagnosed in D; rewrite D in E; discriminate E).
    apply C51_accepts_exactly in E. destruct E as [-> T]. destruct (bytes_eqb other label) eqn:X.
    + apply bytes_eqb_eq in X. subst other. split; [discriminate|]. intros [D|(o & d & T2 & N & _)]; [contradiction|].
      apply (fun t => proj2 (C51_accepts_exactly l _ _ []) (conj eq_refl t)) in T. apply (fun t => proj2 (C51_accepts_exactly l _ _ []) (conj eq_refl t)) in T2. rewrite T in T2. injection T2 as -> _. destruct N; reflexivity.
    + split.
      * intros H. injection H as <-. right. exists other, data. split; [exact T|]. split; [intros ->; rewrite bytes_eqb_refl in X; discriminate X|reflexivity].
      * intros [D|(o & d & T2 & N & ->)]; [contradiction|].
        apply (fun t => proj2 (C51_accepts_exactly l _ _ []) (conj eq_refl t)) in T. apply (fun t => proj2 (C51_accepts_exactly l _ _ []) (conj eq_refl t)) in T2. rewrite T in T2. injection T2 as -> _. reflexivity.
  - split.
    + intros H. injection H as <-. left. apply C51_errors_exactly, E.
    + intros [D|(o & d & T2 & _)]; [apply diagnosed in D; rewrite D in E; injection E as <-; reflexivity|].
      apply (fun t => proj2 (C51_accepts_exactly l _ _ []) (conj eq_refl t)) in T2. rewrite T2 in E. discriminate E.
  - split; [discriminate|]. intros [D|(o & d & T2 & _)]; [apply diagnosed in D; rewrite D in E; discriminate E|].
    apply (fun t => proj2 (C51_accepts_exactly l _ _ []) (conj eq_refl t)) in T2. rewrite T2 in E. discriminate E.
Qed.
Print Assumptions C51_label_errors_exactly.
(** The message shown is one line of printable ASCII, whatever the text. *)
Definition printable (l : bytes) : Prop := Forall (fun b => 32 <= b /\ b < 127) l.
Lemma printable_b l : forallb (fun b => (32 <=? b) && (b <? 127)) l = true -> printable l.
Proof. intros H. apply Forall_forall. intros b Hb. rewrite forallb_forall in H. specialize (H b Hb). cbv beta in H. lia. Qed.
Lemma printable_app a b : printable a -> printable b -> printable (a ++ b).
Proof. intros H1 H2. apply Forall_app. split; assumption. Qed.
Lemma printable_decimal c : printable (decimal c).
Proof. destruct (decimal_ok c) as (_ & B & _). eapply Forall_impl; [|exact B]. cbv beta. intros b. lia. Qed.
Lemma printable_label s : label_ok s -> printable s.
Proof. intros H. apply label_tested_ok in H. eapply Forall_impl; [|exact H]. intros b. unfold label_char. cbv beta. lia. Qed.
Theorem C51_messages_printable l e : decode_pem l = PErr e -> printable (pem_error_text e).
Proof.
  intros H. apply C51_errors_exactly in H. destruct H; cbn [pem_error_text plain]; try (apply printable_b; vm_compute; reflexivity).
  - apply printable_app; [apply printable_b; vm_compute; reflexivity|apply printable_decimal].
  - destruct H as (? & ? & ? & _ & _ & _ & LO & _). destruct H0 as (? & ? & ? & _ & _ & _ & LO2 & _). unfold in_quotes.
    repeat apply printable_app; try (apply printable_b; vm_compute; reflexivity); apply printable_label; assumption.
Qed.
Print Assumptions C51_messages_printable.
Example C51_error_cases :
  decode_pem (ascii_bytes "-----BEGXN A-----") = PErr (PemString (ascii_bytes "Expected " ++ [34] ++ ascii_bytes "BEGIN" ++ [34])) /\
  decode_pem (ascii_bytes "-BEGIN A-" ++ [10] ++ ascii_bytes "aGkh*") = PErr (PemString (ascii_bytes "Expected base64-encoded data, got 42")) /\
  decode_pem (ascii_bytes "-BEGIN A-" ++ [10] ++ ascii_bytes "aGkh-END B-" ++ [10]) = PErr (PemLabelMismatch (ascii_bytes "A") (ascii_bytes "B")) /\
  pem_error_text (PemLabelMismatch (ascii_bytes "A") (ascii_bytes "B")) = ascii_bytes "Label mismatch: " ++ [34] ++ ascii_bytes "BEGIN A" ++ [34] ++ ascii_bytes " and " ++ [34] ++ ascii_bytes "END B" ++ [34] /\
  decode_pem (ascii_bytes "-BEGIN A-" ++ [10] ++ ascii_bytes "aGkh-END A-" ++ [10; 10]) = PErr (PemPlain "Expected EOF").
Proof. vm_compute. auto 10. Qed.
