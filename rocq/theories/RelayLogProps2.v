(** What the relay programs print, C139: the echo server, sock.rs and iotest.rs; the texts. *)
From Coq Require Import String Ascii.
From Verif Require Import Base BaseProofs UtilModel ChatModel Asn1PrintProps BencodePathModel DebugModel TemplateSpec MplexLogProps RelayModel RelayProps RelayLogModel RelayLogProps.
Local Open Scope string_scope. Local Open Scope list_scope. Local Open Scope N_scope.

(** ** C139: the echo server *)
Inductive echo_log : list bytes -> list (N * N) -> echo -> Prop :=
| elog_start : echo_log [] [] echo_new
| elog_then ins l x i new y : echo_log ins l x -> echo_says x i new y ->
    echo_log (ins ++ match i with Some p => [p] | None => [] end) (l ++ new) y.
Theorem C139_server_runs ins h : echo_run ins h <-> exists l, echo_log ins l h.
Proof.
  split.
  - intros H. induction H as [|ins x i y H (l & L) S]; [exists []; apply elog_start|]. destruct S as [input R|R|k c r s c' R N S].
    + exists (l ++ []). apply (elog_then ins l x (Some input)); [exact L|]. apply he_accept, R.
    + exists (l ++ []). apply (elog_then ins l x None); [exact L|]. apply he_fails, R.
    + eexists. apply (elog_then ins l x None); [exact L|]. eapply he_task; eassumption.
  - intros (l & H). induction H as [|ins l x i new y H IH S]; [apply echo_start|]. eapply echo_then; [exact IH|]. destruct S as [input R|R|k c r s c' R N S]; [apply echo_accept, R|apply echo_fails, R|eapply echo_task; eassumption].
Qed.
Print Assumptions C139_server_runs.
(** The lines from [a] to [b], of which [k] repeat the line before: every line adds to one of
    the counters at most a buffer, or nothing. *)
Inductive march (a : N * N) : list (N * N) -> N * N -> nat -> Prop :=
| march_nil : march a [] a 0
| march_received l r s k n : march a l (r, s) k -> 0 < n <= 1024 -> march a (l ++ [(r + n, s)]) (r + n, s) k
| march_sent l r s k n : march a l (r, s) k -> 0 < n <= 1024 -> march a (l ++ [(r, s + n)]) (r, s + n) k
| march_same l b k : march a l b k -> march a (l ++ [b]) b (k + 1).
Definition returned (c : econn) : nat := match e_place c with EReturned => 1 | _ => 0 end.
Definition returned_number (l : list econn) : nat := fold_right (fun c n => (returned c + n)%nat) 0%nat l.
Definition buffered (c : econn) : Prop :=
  match e_place c with EGot n => n <= 1024 | EWriting n | EWritten n => 0 < n <= 1024 | _ => True end.
Lemma returned_set k c c' l : nth_error l k = Some c -> (returned_number (set_nth k c' l) + returned c = returned_number l + returned c')%nat.
Proof. revert k. induction l as [|x l IH]; intros [|k] N; cbn in N; try discriminate N; cbn [set_nth returned_number fold_right]; [injection N as ->; fold (returned_number l); lia|]. fold (returned_number l) (returned_number (set_nth k c' l)). specialize (IH k N). lia. Qed.
Lemma Forall_set {A} (P : A -> Prop) k c l : Forall P l -> P c -> Forall P (set_nth k c l).
Proof. intros F C. revert k. induction F as [|x l X F IH]; intros [|k]; cbn; constructor; auto. Qed.
Theorem C139_server_lines ins l h : echo_log ins l h ->
  march (0, 0) l (h_received h, h_sent h) (returned_number (h_conns h)) /\ Forall (fun x => snd x <= fst x) l /\ last l (0, 0) = (h_received h, h_sent h) /\
  (Forall (fun c => e_place c = EReturned) (h_conns h) -> last l (0, 0) = (total (map blen ins), total (map blen ins))).
Proof.
  intros H.
  assert (G : march (0, 0) l (h_received h, h_sent h) (returned_number (h_conns h)) /\ Forall (fun x => snd x <= fst x) l /\ Forall buffered (h_conns h)).
  { induction H as [|ins l x i new y H (M & F & B) S]; [repeat constructor|].
    assert (V : forall z, In z new -> snd z <= fst z).
    { intros z Z. assert (Q : echo_run (ins ++ match i with Some p => [p] | None => [] end) y) by (apply C139_server_runs; exists (l ++ new); eapply elog_then; eassumption).
      apply C106_statistics in Q. destruct Q as (Q & _). destruct S; cbn in Z; try contradiction. destruct (locks c); [|contradiction]. destruct Z as [<-|[]]. exact Q. }
    split; [|split; [apply Forall_app; split; [exact F|apply Forall_forall; exact V]|]].
    - clear V. destruct S as [input R|R|k c r s c' R N S]; cbn [h_received h_sent h_conns]; rewrite ?app_nil_r; [|exact M|].
      + assert (Z : returned_number (h_conns x ++ [econn_new input]) = returned_number (h_conns x)).
        { clear. unfold returned_number. rewrite fold_right_app. reflexivity. }
        rewrite Z. exact M.
      + pose proof (returned_set k c c' _ N) as Z. assert (Bc : buffered c) by (rewrite Forall_forall in B; apply B; eapply nth_error_In; exact N). unfold buffered in Bc. unfold locks.
        destruct S as [d rest E T NE D|E|n E|n d rest E T NE|n E Q|n E Q|n E]; rewrite E in *; cbn [eplaced e_place] in *; unfold returned in Z; cbn [e_place eplaced] in Z; rewrite E in Z; rewrite ?N.add_0_r, ?app_nil_r.
        1, 2, 4, 5, 6: (match goal with |- march _ _ _ ?n => replace n with (returned_number (h_conns x)) by lia end; exact M).
        * destruct (n =? 0) eqn:Y.
          -- apply N.eqb_eq in Y. subst n. rewrite N.add_0_r. match goal with |- march _ _ _ ?n => replace n with (returned_number (h_conns x) + 1)%nat by lia end. apply march_same, M.
          -- apply N.eqb_neq in Y. match goal with |- march _ _ _ ?n => replace n with (returned_number (h_conns x)) by lia end. apply march_received; [exact M|lia].
        * match goal with |- march _ _ _ ?n => replace n with (returned_number (h_conns x)) by lia end. apply march_sent; [exact M|lia].
    - clear V. destruct S as [input R|R|k c r s c' R N S]; cbn [h_conns]; [apply Forall_app; split; [exact B|repeat constructor]|exact B|].
      apply Forall_set; [exact B|]. assert (Bc : buffered c) by (rewrite Forall_forall in B; apply B; eapply nth_error_In; exact N). unfold buffered in *.
      destruct S as [d rest E T NE D|E|n E|n d rest E T NE|n E Q|n E Q|n E]; rewrite E in Bc; cbn [eplaced e_place]; try exact Bc; try exact I.
      + unfold blen. unfold echo_size in D. lia.
      + destruct (n =? 0) eqn:Y; [exact I|]. apply N.eqb_neq in Y. lia. }
  destruct G as (M & F & _). split; [exact M|]. split; [exact F|].
  assert (La : last l (0, 0) = (h_received h, h_sent h)) by (destruct M; [reflexivity|apply last_last..]). split; [exact La|].
  intros A. rewrite La. assert (Q : echo_run ins h) by (apply C139_server_runs; eauto). apply C106_statistics in Q. destruct Q as (_ & _ & _ & Q). destruct (Q A) as (-> & ->). reflexivity.
Qed.
Print Assumptions C139_server_lines.

(** ** C139: sock.rs *)
Inductive sock_log (mode : server_mode) (size : nat) (input : bytes) : list ksaying -> sconn -> Prop :=
| slog_start : sock_log mode size input [] (sconn_new input)
| slog_then l c new d : sock_log mode size input l c -> sock_says mode size c new d -> sock_log mode size input (l ++ new) d.
Theorem C139_sock_lines mode size input c :
  (sock_run mode size (sconn_new input) c <-> exists l, sock_log mode size input l c) /\
  (forall l, sock_log mode size input l c -> exists ds tail, Forall (fun d => d <> [] /\ (length d <= size)%nat) ds /\ input = concat ds ++ k_todo c /\
     l = map (fun d => KRead (blen d)) ds ++ tail /\
     ((k_ended c = false /\ tail = []) \/ (k_ended c = true /\ ((tail = [KEof] /\ (k_todo c = [] \/ size = O)) \/ exists e, tail = [KReadError e])))).
Proof.
  split; [split|].
  - intros H. remember (sconn_new input) as s. induction H as [c|a b c H IH S]; [subst; exists []; apply slog_start|]. destruct (IH Heqs) as (l & L).
    destruct S; eexists; (eapply slog_then; [exact L|]); econstructor; eassumption.
  - intros (l & H). induction H as [|l c new d H IH S]; [apply sock_here|]. eapply sock_then; [exact IH|]. destruct S; econstructor; eassumption.
  - intros l H. induction H as [|l c new d H (ds & tail & F & I & L & E) S].
    + exists [], []. repeat split; [constructor|left; auto].
    + destruct S as [d rest N T NE D|N T|e N]; (destruct E as [(E & ->)|(E & _)]; [|congruence]); cbn [k_todo k_ended].
      * exists (ds ++ [d]), []. split; [apply Forall_app; split; [exact F|constructor; [split; assumption|constructor]]|]. rewrite I, T, L, concat_app, map_app. cbn. rewrite !app_nil_r, <- app_assoc. auto.
      * exists ds, [KEof]. split; [exact F|]. split; [exact I|]. split; [rewrite L, <- app_assoc; reflexivity|]. right. auto.
      * exists ds, [KReadError e]. split; [exact F|]. split; [exact I|]. split; [rewrite L, <- app_assoc; reflexivity|]. right. eauto.
  Unshelve. all: exact [].
Qed.
Print Assumptions C139_sock_lines.
(** The modes that are read, and their text. *)
Theorem C139_modes s :
  match parse_mode s with
  | Ok m => s = fill (match m with ModeRead => "read" | ModeWrite => "write" | ModeEcho => "echo" end) []
  | Err e => ~ In s (map ascii_bytes ["read"; "write"; "echo"]) /\ e = fill "expected one of 'read', 'write', or 'echo'" []
  | Panic => False
  end.
Proof.
  unfold parse_mode. destruct (bytes_eqb s (ascii_bytes "read")) eqn:A; [apply bytes_eqb_eq in A; exact A|]. destruct (bytes_eqb s (ascii_bytes "write")) eqn:B; [apply bytes_eqb_eq in B; exact B|].
  destruct (bytes_eqb s (ascii_bytes "echo")) eqn:C; [apply bytes_eqb_eq in C; exact C|]. split; [|reflexivity].
  intros [X|[X|[X|[]]]]; subst s; rewrite bytes_eqb_refl in *; discriminate.
Qed.
Print Assumptions C139_modes.
Theorem C139_mode_read_back_refuted :
  map mode_text [ModeRead; ModeWrite; ModeEcho] = map ascii_bytes ["Read"; "Write"; "Echo"] /\ forall m, parse_mode (mode_text m) = Err mode_error.
Proof. split; [reflexivity|]. intros []; reflexivity. Qed.
Print Assumptions C139_mode_read_back_refuted.

(** ** C139: iotest.rs *)
Inductive iotest_log (input : bytes) : list isaying -> liconn -> Prop :=
| ilog_start : iotest_log input [] (liconn_new input)
| ilog_then l c new d : iotest_log input l c -> iotest_says c new d -> iotest_log input (l ++ new) d.
Theorem C139_iotest_runs input c : io_run (iconn_new input) c <-> exists l, iotest_log input l {| li := c; li_held := None |}.
Proof.
  split.
  - intros H. remember (iconn_new input) as s. induction H as [c|a b c H IH S]; [subst; exists []; apply ilog_start|]. destruct (IH Heqs) as (l & L).
    destruct S as [d rest R T NE D|R T|R|d rest W E|W].
    + eexists. eapply ilog_then; [eapply ilog_then; [exact L|apply (li_read {| li := b; li_held := None |} d rest); assumption || reflexivity]|].
      apply (li_receive {| li := b; li_held := Some d |} d rest); assumption || reflexivity.
    + eexists. eapply ilog_then; [exact L|]. apply (li_eof {| li := b; li_held := None |}); assumption || reflexivity.
    + eexists. eapply ilog_then; [exact L|]. apply (li_read_error {| li := b; li_held := None |} []); assumption || reflexivity.
    + eexists. eapply ilog_then; [exact L|]. apply (li_write {| li := b; li_held := None |} d rest); assumption || reflexivity.
    + eexists. eapply ilog_then; [exact L|]. apply (li_write_error {| li := b; li_held := None |} []); assumption || reflexivity.
  - intros (l & H). assert (G : forall l c, iotest_log input l c -> io_run (iconn_new input) (li c) /\ (forall d, li_held c = Some d -> d <> [] /\ (length d <= 1024)%nat)).
    { clear. intros l c H. induction H as [|l c new d H (IH & K) S]; [split; [apply io_here|discriminate]|].
      destruct S as [d rest R Hd T NE D|d rest R Hd T|R Hd T|e R Hd|d rest W E|e W]; cbn [li li_held]; split; try discriminate; try exact K; try exact IH; try (eapply io_then; [exact IH|]).
      - intros d' X. injection X as <-. auto.
      - destruct (K _ Hd). apply io_read; assumption.
      - apply io_eof; assumption.
      - apply io_read_error; assumption.
      - eapply io_write; eassumption.
      - apply io_write_error; assumption. }
    apply (G _ _ H).
Qed.
Print Assumptions C139_iotest_runs.
(** The lines of the reader and those of the writer. *)
Definition reader_line (x : isaying) : bool := match x with IWrote _ | IWriteError _ => false | _ => true end.
Theorem C139_iotest_lines input l c : iotest_log input l c ->
  (exists ds tail, Forall (fun d => d <> [] /\ (length d <= 1024)%nat) ds /\ i_received (li c) = concat ds /\ input = concat ds ++ i_todo (li c) /\
     filter reader_line l = flat_map (fun d => [IRead (blen d); IReceived d]) ds ++ tail /\
     ((i_read_done (li c) = false /\ li_held c = None /\ tail = []) \/
      (exists d, i_read_done (li c) = false /\ li_held c = Some d /\ tail = [IRead (blen d)] /\ d <> [] /\ (length d <= 1024)%nat /\ exists rest, i_todo (li c) = d ++ rest) \/
      (i_read_done (li c) = true /\ tail = [IFinished] /\ i_todo (li c) = []) \/ (exists e, i_read_done (li c) = true /\ tail = [IReadError e]))) /\
  (let w := filter (fun x => negb (reader_line x)) l in
   (w = [] /\ i_write_done (li c) = false /\ i_out (li c) = []) \/
   (exists n, w = [IWrote n] /\ i_write_done (li c) = true /\ (n <= blen welcome) /\ i_out (li c) = firstn (N.to_nat n) welcome) \/
   (exists e, w = [IWriteError e] /\ i_write_done (li c) = true /\ i_out (li c) = [])).
Proof.
  intros H. induction H as [|l c new d H ((ds & tail & F & Rc & I & L & E) & W) S].
  - split; [exists [], []; repeat split; [constructor|left; auto]|left; auto].
  - cbn zeta in *. rewrite !filter_app. destruct S as [d rest R Hd T NE D|d rest R Hd T|R Hd T|e R Hd|d rest Wd Eq|e Wd]; cbn [filter reader_line negb li li_held i_todo i_received i_out i_read_done i_write_done]; rewrite ?app_nil_r.
    + destruct E as [(E1 & E2 & ->)|[(d' & E1 & E2 & _)|[(E1 & _)|(e' & E1 & _)]]]; try congruence. split; [|exact W].
      exists ds, [IRead (blen d)]. do 3 (split; [assumption|]). split; [rewrite L, app_nil_r; reflexivity|]. right. left. exists d. repeat split; eauto.
    + destruct E as [(E1 & E2 & ->)|[(d' & E1 & E2 & -> & N' & D' & _)|[(E1 & _)|(e' & E1 & _)]]]; try congruence. rewrite Hd in E2. injection E2 as <-. split; [|exact W].
      exists (ds ++ [d]), []. split; [apply Forall_app; split; [exact F|constructor; [auto|constructor]]|]. rewrite concat_app, flat_map_app, Rc. cbn [concat flat_map app]. rewrite !app_nil_r. split; [reflexivity|]. split; [rewrite I, T, <- app_assoc; reflexivity|]. split; [rewrite L, <- app_assoc; reflexivity|left; auto].
    + destruct E as [(E1 & E2 & ->)|[(d' & E1 & E2 & _)|[(E1 & _)|(e' & E1 & _)]]]; try congruence. split; [|exact W].
      exists ds, [IFinished]. split; [exact F|]. split; [exact Rc|]. split; [rewrite I, T; reflexivity|]. split; [rewrite L, app_nil_r; reflexivity|]. right. right. left. auto.
    + destruct E as [(E1 & E2 & ->)|[(d' & E1 & E2 & _)|[(E1 & _)|(e' & E1 & _)]]]; try congruence. split; [|exact W].
      exists ds, [IReadError e]. do 3 (split; [assumption|]). split; [rewrite L, app_nil_r; reflexivity|]. right. right. right. exists e. auto.
    + split; [exists ds, tail; auto|]. destruct W as [(W1 & W2 & W3)|[(n & W1 & W2 & _)|(e & W1 & W2 & _)]]; try congruence. right. left. exists (blen d). rewrite W1, W3. split; [reflexivity|]. split; [reflexivity|]. rewrite Eq. split; [rewrite blen_app; lia|].
      unfold blen. rewrite Nnat.Nat2N.id, firstn_app, Nat.sub_diag, firstn_all. cbn. rewrite app_nil_r. reflexivity.
    + split; [exists ds, tail; auto|]. destruct W as [(W1 & W2 & W3)|[(n & W1 & W2 & _)|(e' & W1 & W2 & _)]]; try congruence. right. right. exists e. rewrite W1. auto.
Qed.
Print Assumptions C139_iotest_lines.

(** ** C139: the exact lines *)
Definition names_of (s : side) : bytes := fill (match s with ClientToServer => "ClientToServer" | ServerToClient => "ServerToClient" end) [].
Theorem C139_lines :
  (forall s e, psaying_line s (PReadError e) = fill "{}:  read error: {}" [names_of s; e]) /\
  (forall s, psaying_line s PEof = fill "{}:  read eof" [names_of s]) /\
  (forall s n t, psaying_line s (PRead n t) = fill "{}:  read {} bytes (total {})" [names_of s; decimal n; decimal t]) /\
  (forall s e, psaying_line s (PWriteError e) = fill "{}: write error: {}" [names_of s; e]) /\
  (forall s n t, psaying_line s (PWrote n t) = fill "{}: wrote {} bytes (total {})" [names_of s; decimal n; decimal t]) /\
  (forall a, xentry_line (XGot a) = fill "Got connection from {}" [a]) /\ (forall i s x, xentry_line (XSays i s x) = psaying_line s x) /\
  (forall r s, stats_line (r, s) = fill "received {}, sent {}" [decimal r; decimal s]) /\
  (forall e, ksaying_line (KReadError e) = fill "Read error: {}" [e]) /\ ksaying_line KEof = fill "Read EOF" [] /\
  (forall n, ksaying_line (KRead n) = fill "Read {} bytes" [decimal n]) /\
  (forall lossy, isaying_line lossy IFinished = fill "Finished reading" []) /\ (forall lossy n, isaying_line lossy (IRead n) = fill "read {} bytes" [decimal n]) /\
  (forall lossy d, isaying_line lossy (IReceived d) = fill "Received: {}" [lossy d]) /\ (forall lossy e, isaying_line lossy (IReadError e) = fill "read error: {}" [e]) /\
  (forall lossy n, isaying_line lossy (IWrote n) = fill "wrote {} bytes" [decimal n]) /\ (forall lossy e, isaying_line lossy (IWriteError e) = fill "write error: {}" [e]) /\
  (forall l, proxy_text l = text_of (map xentry_line l)) /\ (forall l, stats_text l = text_of (map stats_line l)) /\ (forall l, sock_text l = text_of (map ksaying_line l)) /\
  (forall lossy l, iotest_text lossy l = text_of (map (isaying_line lossy) l)).
Proof.
  repeat match goal with |- _ /\ _ => split | |- forall _, _ => intro end;
    try (match goal with s : side |- _ => destruct s end); try reflexivity; try (cbn; rewrite ?app_nil_r; reflexivity);
    unfold proxy_text, stats_text, sock_text, iotest_text, text_of, line; rewrite !flat_map_concat_map, map_map; reflexivity.
Qed.
Print Assumptions C139_lines.
(** The options as printed: one line for an option that is not given, three for one that is. *)
Definition option_lines (name : string) (o : option N) : list bytes :=
  match o with
  | None => [fill "    {}: None," [ascii_bytes name]]
  | Some n => [fill "    {}: Some(" [ascii_bytes name]; fill "        {}," [decimal n]; fill "    )," []]
  end.
Definition field_line (name : string) (v : bytes) : bytes := fill "    {}: {}," [ascii_bytes name; v].
Lemma pad_free s t : ~ In 10 s -> s <> [] -> pad true (s ++ t) = ascii_bytes "    " ++ s ++ pad false t.
Proof.
  intros F NE. assert (G : forall s, ~ In 10 s -> pad false (s ++ t) = s ++ pad false t).
  { clear. intros s. induction s as [|x s IH]; intros F; [reflexivity|]. assert (X : x <> 10) by (intros ->; apply F; left; reflexivity). apply N.eqb_neq in X. cbn [app pad]. rewrite X. cbn [app]. rewrite IH; [reflexivity|]. intros Y. apply F. right. exact Y. }
  destruct s as [|x s]; [congruence|]. assert (X : x <> 10) by (intros ->; apply F; left; reflexivity). apply N.eqb_neq in X. cbn [app pad]. rewrite X, G; [reflexivity|]. intros Y. apply F. right. exact Y.
Qed.
Lemma pad_free' s t : ~ In 10 s -> pad false (s ++ t) = s ++ pad false t.
Proof.
  induction s as [|x s IH]; intros F; [reflexivity|]. assert (X : x <> 10) by (intros ->; apply F; left; reflexivity). apply N.eqb_neq in X. cbn [app pad]. rewrite X. cbn [app]. rewrite IH; [reflexivity|]. intros Y. apply F. right. exact Y.
Qed.
Lemma option_padded name o : ~ In 10 (ascii_bytes name) -> ascii_bytes name <> [] ->
  pad true (pretty (DNamed (ascii_bytes name) (doption o)) ++ [44; 10]) = text_of (option_lines name o).
Proof.
  intros F NE. destruct o as [n|].
  - assert (P : pretty (doption (Some n)) = ascii_bytes "Some(" ++ [10] ++ (ascii_bytes "    " ++ decimal n ++ [44; 10]) ++ ascii_bytes ")").
    { change (pretty (doption (Some n))) with (ascii_bytes "Some" ++ ascii_bytes "(" ++ [10] ++ (pad true (decimal n ++ [44; 10]) ++ []) ++ ascii_bytes ")").
      rewrite pad_free; [|apply decimal_free; lia|apply decimal_some]. rewrite app_nil_r. reflexivity. }
    cbn [pretty]. rewrite P. rewrite <- !app_assoc. rewrite pad_free by assumption.
    assert (Q : forall u, pad false (ascii_bytes ": " ++ ascii_bytes "Some(" ++ [10] ++ ascii_bytes "    " ++ u) = ascii_bytes ": Some(" ++ [10] ++ ascii_bytes "        " ++ pad false u) by reflexivity.
    rewrite Q, pad_free' by (apply decimal_free; lia). unfold text_of, option_lines. cbn. rewrite <- ?app_assoc. cbn. rewrite <- ?app_assoc. reflexivity.
  - cbn [pretty doption dtext]. rewrite <- !app_assoc. rewrite pad_free by assumption. unfold text_of, option_lines. cbn. rewrite <- ?app_assoc. reflexivity.
Qed.
Lemma field_padded name v : ~ In 10 (ascii_bytes name) -> ascii_bytes name <> [] -> ~ In 10 v ->
  pad true (pretty (DNamed (ascii_bytes name) (dtext v)) ++ [44; 10]) = text_of [field_line name v].
Proof.
  intros F NE V. cbn [pretty dtext]. rewrite <- !app_assoc. rewrite pad_free by assumption.
  assert (Q : forall u, pad false (ascii_bytes ": " ++ u) = ascii_bytes ": " ++ pad false u) by reflexivity. rewrite Q, pad_free' by exact V.
  unfold text_of, field_line. cbn. rewrite <- !app_assoc. cbn. rewrite <- ?app_assoc. reflexivity.
Qed.
Lemma text_of_app a b : text_of (a ++ b) = text_of a ++ text_of b.
Proof. apply flat_map_app. Qed.
Theorem C139_openings :
  (forall o listen server, proxy_opening o listen server = text_of ([ascii_bytes "Opt {"] ++
     option_lines "read_buf_size" (option_map N.of_nat (o_read_size o)) ++ option_lines "read_delay_ms" (o_read_delay o) ++
     option_lines "write_buf_size" (option_map N.of_nat (o_write_size o)) ++ option_lines "write_delay_ms" (o_write_delay o) ++
     [field_line "listen_port" (decimal listen); field_line "server_port" (decimal server); ascii_bytes "}"; fill "Listening on: {}" [decimal listen]])) /\
  (forall m size delay port, sock_opening m size delay port = text_of ([ascii_bytes "Opt {"; field_line "mode" (mode_text m)] ++
     option_lines "read_buf_size" size ++ option_lines "read_delay_ms" delay ++ [field_line "port" (decimal port); ascii_bytes "}"; fill "Listening on: {}" [decimal port]])) /\
  (forall a, server_opening (Some a) = text_of [fill "Listening on: {}" [a]]) /\ server_opening None = text_of [fill "Listening on: 127.0.0.1:8080" []] /\
  iotest_opening = text_of [fill "Listening on: 127.0.0.1:8080" []].
Proof.
  assert (D : forall n, ~ In 10 (decimal n)) by (intros n; apply decimal_free; lia).
  split; [|split; [|split; [|split; reflexivity]]].
  - intros o listen server. unfold proxy_opening, dproxy_opt, dstruct. cbn [map fst snd pretty]. unfold pretty_open, pretty_close. cbn [flat_map]. 
    change (pretty (DNamed (ascii_bytes "listen_port") (dnumber listen))) with (pretty (DNamed (ascii_bytes "listen_port") (dtext (decimal listen)))).
    change (pretty (DNamed (ascii_bytes "server_port") (dnumber server))) with (pretty (DNamed (ascii_bytes "server_port") (dtext (decimal server)))).
    repeat (rewrite option_padded; [|apply ascii_free; reflexivity|discriminate]). repeat (rewrite field_padded; [|apply ascii_free; reflexivity|discriminate|apply D]).
    rewrite !text_of_app. unfold listening, line. rewrite <- !app_assoc.
    unfold text_of at 9. unfold text_of at 9. cbn. rewrite ?app_nil_r, <- ?app_assoc. reflexivity.
  - intros m size delay port. unfold sock_opening, dsock_opt, dstruct. cbn [map fst snd pretty]. unfold pretty_open, pretty_close. cbn [flat_map].
    change (pretty (DNamed (ascii_bytes "port") (dnumber port))) with (pretty (DNamed (ascii_bytes "port") (dtext (decimal port)))).
    repeat (rewrite option_padded; [|apply ascii_free; reflexivity|discriminate]). rewrite (field_padded "port"); [|apply ascii_free; reflexivity|discriminate|apply D].
    rewrite (field_padded "mode"); [|apply ascii_free; reflexivity|discriminate|destruct m; apply ascii_free; reflexivity].
    rewrite !text_of_app. unfold listening, line. rewrite <- !app_assoc. cbn. rewrite ?app_nil_r, <- ?app_assoc. reflexivity.
  - intros a. unfold server_opening, listening, line, text_of. cbn. rewrite ?app_nil_r. reflexivity.
Qed.
Print Assumptions C139_openings.

(** ** C139: the text tells the log (but for the connection) *)
Definition xentry_ok (x : xentry) : Prop :=
  match x with XGot a => ~ In 10 a | XSays _ _ (PReadError e) | XSays _ _ (PWriteError e) => ~ In 10 e | _ => True end.
Definition forget (x : xentry) : option side * bytes + side * psaying := match x with XGot a => inl (None, a) | XSays _ s x => inr (s, x) end.
Definition ksaying_ok (x : ksaying) : Prop := match x with KReadError e => ~ In 10 e | _ => True end.
Ltac frees := repeat first [assumption | apply app_free | apply ascii_free; reflexivity | apply decimal_free; lia].
Lemma decimal_head n c t u : decimal n ++ t = c :: u -> 48 <= c < 58.
Proof.
  intros E. pose proof (decimal_digits n) as D. destruct (decimal n) as [|x s] eqn:Z; [destruct (decimal_some n Z)|]. inversion D; subst. injection E as <- _. assumption.
Qed.
Lemma amounts_inj n t n' t' : decimal n ++ ascii_bytes " bytes (total " ++ decimal t ++ ascii_bytes ")" = decimal n' ++ ascii_bytes " bytes (total " ++ decimal t' ++ ascii_bytes ")" -> n = n' /\ t = t'.
Proof.
  intros E. assert (E1 : decimal n ++ 32 :: (ascii_bytes "bytes (total " ++ decimal t ++ ascii_bytes ")") = decimal n' ++ 32 :: (ascii_bytes "bytes (total " ++ decimal t' ++ ascii_bytes ")")) by exact E.
  apply split_at in E1; [|apply decimal_free; lia..]. destruct E1 as (E1 & E2). apply decimal_inj in E1. apply app_inv_head in E2. apply app_inv_tail in E2. apply decimal_inj in E2. auto.
Qed.
Lemma psaying_line_inj s x s' x' : psaying_line s x = psaying_line s' x' -> s = s' /\ x = x'.
Proof.
  intros E. assert (S : s = s') by (destruct s, s'; try reflexivity; discriminate E). subst s'. split; [reflexivity|]. unfold psaying_line in E. apply app_inv_head in E.
  assert (K : forall n r u, ascii_bytes ":  read " ++ decimal n ++ r = ascii_bytes ":  read " ++ u -> forall c v, u = c :: v -> 48 <= c < 58).
  { intros n r u H c v ->. apply app_inv_head in H. eapply decimal_head. exact H. }
  destruct x as [e| |n t|e|n t], x' as [e'| |n' t'|e'|n' t']; try discriminate E; try reflexivity.
  - apply app_inv_head in E. congruence.
  - exfalso. assert (C : 48 <= 101 < 58) by (eapply (K n' _ (101 :: _)); [symmetry; exact E|reflexivity]). lia.
  - exfalso. assert (C : 48 <= 101 < 58) by (eapply (K n' _ (101 :: _)); [symmetry; exact E|reflexivity]). lia.
  - exfalso. assert (C : 48 <= 101 < 58) by (eapply (K n _ (101 :: _)); [exact E|reflexivity]). lia.
  - exfalso. assert (C : 48 <= 101 < 58) by (eapply (K n _ (101 :: _)); [exact E|reflexivity]). lia.
  - apply app_inv_head in E. apply amounts_inj in E. destruct E as (-> & ->). reflexivity.
  - apply app_inv_head in E. congruence.
  - apply app_inv_head in E. apply amounts_inj in E. destruct E as (-> & ->). reflexivity.
Qed.
Lemma texts_inj {A B} (f : A -> bytes) (g : A -> B) (ok : A -> Prop) : (forall x, ok x -> ~ In 10 (f x)) -> (forall x y, ok x -> ok y -> f x = f y -> g x = g y) ->
  forall a b, Forall ok a -> Forall ok b -> flat_map (fun x => line (f x)) a = flat_map (fun x => line (f x)) b -> map g a = map g b.
Proof.
  intros F J a b A' B' E.
  assert (T : forall l, flat_map (fun x => line (f x)) l = lines (map f l)) by (intros l; unfold lines, line; rewrite !flat_map_concat_map, map_map; reflexivity).
  rewrite !T in E. apply lines_inj in E; [|apply Forall_map; eapply Forall_impl; [|eassumption]; exact F..].
  clear T. revert b B' E. induction A' as [|x a X A' IH]; intros [|y b] B' E; try discriminate E; [reflexivity|]. inversion B' as [|? ? Y B'']; subst. injection E as E1 E.
  cbn [map]. f_equal; [apply J; assumption|apply IH; assumption].
Qed.
Theorem C139_text_determines :
  (forall a b, Forall xentry_ok a -> Forall xentry_ok b -> proxy_text a = proxy_text b -> map forget a = map forget b) /\
  (forall a b, stats_text a = stats_text b -> a = b) /\
  (forall a b, Forall ksaying_ok a -> Forall ksaying_ok b -> sock_text a = sock_text b -> a = b).
Proof.
  split; [|split].
  - apply (texts_inj xentry_line forget xentry_ok).
    + intros [a|i s x] K; cbn [xentry_line]; [frees; exact K|]. unfold psaying_line. destruct s, x; cbn [side_text]; frees; exact K.
    + intros [a|i s x] [a'|i' s' x'] K K' E; cbn [xentry_line] in E.
      * apply app_inv_head in E. congruence.
      * destruct s'; discriminate E.
      * destruct s; discriminate E.
      * apply psaying_line_inj in E. destruct E as (-> & ->). reflexivity.
  - intros a b E. rewrite <- (map_id a), <- (map_id b). revert E. apply (texts_inj stats_line (fun x => x) (fun _ => True)).
    + intros [r s] _. unfold stats_line. frees.
    + intros [r s] [r' s'] _ _ E. unfold stats_line in E. cbn [fst snd] in E. apply app_inv_head in E.
      assert (E1 : decimal r ++ 44 :: (ascii_bytes " sent " ++ decimal s) = decimal r' ++ 44 :: (ascii_bytes " sent " ++ decimal s')) by exact E.
      apply split_at in E1; [|apply decimal_free; lia..]. destruct E1 as (E1 & E2). apply decimal_inj in E1. apply app_inv_head, decimal_inj in E2. congruence.
    + apply Forall_forall. auto.
    + apply Forall_forall. auto.
  - intros a b A B E. rewrite <- (map_id a), <- (map_id b). revert E. apply (texts_inj ksaying_line (fun x => x) ksaying_ok); [| |exact A|exact B].
    + intros [e| |n] K; cbn [ksaying_line]; frees; exact K.
    + assert (G : forall n u c v, ascii_bytes "Read " ++ decimal n ++ ascii_bytes " bytes" = ascii_bytes "Read " ++ u -> u = c :: v -> 48 <= c < 58) by (intros n u c v E ->; apply app_inv_head in E; eapply decimal_head; exact E).
      intros [e| |n] [e'| |n'] K K' E; cbn [ksaying_line] in E; try discriminate E; try reflexivity.
      * apply app_inv_head in E. congruence.
      * exfalso. assert (C : 48 <= 101 < 58) by (eapply (G n' (101 :: _)); [symmetry; exact E|reflexivity]). lia.
      * exfalso. assert (C : 48 <= 69 < 58) by (eapply (G n' (69 :: _)); [symmetry; exact E|reflexivity]). lia.
      * exfalso. assert (C : 48 <= 101 < 58) by (eapply (G n (101 :: _)); [exact E|reflexivity]). lia.
      * exfalso. assert (C : 48 <= 69 < 58) by (eapply (G n (69 :: _)); [exact E|reflexivity]). lia.
      * apply app_inv_head in E. apply app_inv_tail in E. apply decimal_inj in E. congruence.
Qed.
Print Assumptions C139_text_determines.

(** *** Concrete runs *)
Example C139_case : exists l p, pipe_log 2 0 [1; 2; 3] l p /\
  flat_map (fun x => line (psaying_line ClientToServer x)) l = text_of (map ascii_bytes
    ["ClientToServer:  read 2 bytes (total 2)"; "ClientToServer: wrote 2 bytes (total 2)"; "ClientToServer:  read 1 bytes (total 3)"; "ClientToServer: wrote 1 bytes (total 3)"; "ClientToServer:  read eof"]).
Proof.
  assert (A := plog_start 2 0 [1; 2; 3]).
  Ltac more A step := let B := fresh "B" in assert (B := plog_then _ _ _ _ _ _ _ A step); vm_compute in B; clear A; rename B into A.
  more A (says_read 2 0 (pipe_new [1; 2; 3]) [1; 2] [3] eq_refl eq_refl ltac:(discriminate) (le_n 2)).
  match type of A with pipe_log _ _ _ _ ?p => more A (says_write 2 0 p [1] [2] eq_refl eq_refl ltac:(discriminate)) end.
  match type of A with pipe_log _ _ _ _ ?p => more A (says_write 2 0 p [2] [] eq_refl eq_refl ltac:(discriminate)) end.
  match type of A with pipe_log _ _ _ _ ?p => more A (says_wrote 2 0 p eq_refl eq_refl) end.
  match type of A with pipe_log _ _ _ _ ?p => more A (says_read 2 0 p [3] [] eq_refl eq_refl ltac:(discriminate) (le_S 1 1 (le_n 1))) end.
  match type of A with pipe_log _ _ _ _ ?p => more A (says_write 2 0 p [3] [] eq_refl eq_refl ltac:(discriminate)) end.
  match type of A with pipe_log _ _ _ _ ?p => more A (says_wrote 2 0 p eq_refl eq_refl) end.
  match type of A with pipe_log _ _ _ _ ?p => more A (says_eof 2 0 p eq_refl (or_introl eq_refl)) end.
  eexists _, _. split; [exact A|vm_compute; reflexivity].
Qed.
Lemma task_then ins l r s c dr ds c' : echo_log ins l {| h_received := r; h_sent := s; h_conns := [c]; h_running := true |} -> econn_step c dr ds c' ->
  echo_log ins (l ++ if locks c then [(r + dr, s + ds)] else []) {| h_received := r + dr; h_sent := s + ds; h_conns := [c']; h_running := true |}.
Proof. intros H S. rewrite <- (app_nil_r ins). exact (elog_then _ _ _ None _ _ H (he_task {| h_received := r; h_sent := s; h_conns := [c]; h_running := true |} 0 c _ _ _ eq_refl eq_refl S)). Qed.
Example C139_case_server : exists l h, echo_log [[7; 8]] l h /\ stats_text l = text_of (map ascii_bytes ["received 2, sent 0"; "received 2, sent 2"; "received 2, sent 2"]).
Proof.
  assert (L2 : (length [7; 8] <= echo_size)%nat) by (apply Nat.leb_le; reflexivity).
  assert (A : echo_log [[7; 8]] [] {| h_received := 0; h_sent := 0; h_conns := [econn_new [7; 8]]; h_running := true |}) by exact (elog_then _ _ _ _ _ _ elog_start (he_accept echo_new [7; 8] eq_refl)).
  assert (N : [7; 8] <> []) by discriminate.
  assert (S1 : econn_step (econn_new [7; 8]) 0 0 {| e_todo := []; e_buf := [7; 8]; e_out := []; e_place := EGot 2 |}) by exact (echo_read (econn_new [7; 8]) [7; 8] [] eq_refl eq_refl (or_introl N) L2).
  apply (task_then _ _ _ _ _ _ _ _ A) in S1. clear A. rename S1 into A.
  assert (S1 : econn_step {| e_todo := []; e_buf := [7; 8]; e_out := []; e_place := EGot 2 |} 2 0 {| e_todo := []; e_buf := [7; 8]; e_out := []; e_place := EWriting 2 |}) by (apply echo_count; reflexivity).
  apply (task_then _ _ _ _ _ _ _ _ A) in S1. clear A. rename S1 into A.
  assert (S1 : econn_step {| e_todo := []; e_buf := [7; 8]; e_out := []; e_place := EWriting 2 |} 0 0 {| e_todo := []; e_buf := []; e_out := [7; 8]; e_place := EWriting 2 |}) by exact (echo_write {| e_todo := []; e_buf := [7; 8]; e_out := []; e_place := EWriting 2 |} 2 [7; 8] [] eq_refl eq_refl N).
  apply (task_then _ _ _ _ _ _ _ _ A) in S1. clear A. rename S1 into A.
  assert (S1 : econn_step {| e_todo := []; e_buf := []; e_out := [7; 8]; e_place := EWriting 2 |} 0 0 {| e_todo := []; e_buf := []; e_out := [7; 8]; e_place := EWritten 2 |}) by (apply echo_written; reflexivity).
  apply (task_then _ _ _ _ _ _ _ _ A) in S1. clear A. rename S1 into A.
  assert (S1 : econn_step {| e_todo := []; e_buf := []; e_out := [7; 8]; e_place := EWritten 2 |} 0 2 {| e_todo := []; e_buf := []; e_out := [7; 8]; e_place := EReading |}) by (apply echo_count_sent; reflexivity).
  apply (task_then _ _ _ _ _ _ _ _ A) in S1. clear A. rename S1 into A.
  assert (S1 : econn_step {| e_todo := []; e_buf := []; e_out := [7; 8]; e_place := EReading |} 0 0 {| e_todo := []; e_buf := []; e_out := [7; 8]; e_place := EGot 0 |}) by exact (echo_read {| e_todo := []; e_buf := []; e_out := [7; 8]; e_place := EReading |} [] [] eq_refl eq_refl (or_intror eq_refl) (Nat.le_0_l echo_size)).
  apply (task_then _ _ _ _ _ _ _ _ A) in S1. clear A. rename S1 into A.
  assert (S1 : econn_step {| e_todo := []; e_buf := []; e_out := [7; 8]; e_place := EGot 0 |} 0 0 {| e_todo := []; e_buf := []; e_out := [7; 8]; e_place := EReturned |}) by (apply (echo_count {| e_todo := []; e_buf := []; e_out := [7; 8]; e_place := EGot 0 |} 0); reflexivity).
  apply (task_then _ _ _ _ _ _ _ _ A) in S1. clear A. rename S1 into A.
  eexists _, _. split; [exact A|vm_compute; reflexivity].
Qed.
