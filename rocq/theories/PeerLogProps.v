(** What the torrent client prints about a peer: C145. *)
From Coq Require Import String Ascii.
From Verif Require Import Base BaseProofs UtilModel ChatModel HexDumpModel Asn1PrintProps TorrentModel TorrentProps TemplateSpec MplexLogProps PeerModel PeerProps PeerLogModel.
Local Open Scope string_scope. Local Open Scope list_scope. Local Open Scope N_scope.
Ltac Zify.zify_post_hook ::= Z.div_mod_to_equations.

(** *** Specification *)
(** The lines about one message: the line that names it, then what belongs to it. *)
Inductive about : message -> list said -> Prop :=
| about_handshake h : about (MHandshake h) [PMessage (MHandshake h); PReserved (hs_reserved h); PInfoHash (hs_info_hash h); PPeerId (hs_peer_id h)]
| about_unchoke p a c : about MUnchoke [PMessage MUnchoke; PWant p a c]
| about_piece i b d p a c : about (MPiece i b d) [PMessage (MPiece i b d); PWant p a c]
| about_unwanted i b d p a c : about (MPiece i b d) [PMessage (MPiece i b d); PUnwanted i b (blen d); PWant p a c]
| about_bitfield d have need : about (MBitField d) [PMessage (MBitField d); PBitfieldSize (blen d); PPieces (have + need) have need]
| about_bad_bitfield d : about (MBitField d) [PMessage (MBitField d); PBitfieldSize (blen d)]
| about_other m : match m with MHandshake _ | MUnchoke | MPiece _ _ _ | MBitField _ => False | _ => True end -> about m [PMessage m].
(** The lines after the last message. *)
Definition closing (e : ending) (l : list said) : Prop :=
  match e with
  | EndLoop (Some (UnknownMessage id)) => l = [PUnknown id; PFinished (Some (UnknownMessage id))]
  | EndLoop e => l = [PFinished e]
  | EndHandler _ => l = []
  | EndPanic => l = [] \/ exists n, l = [PCancel n] \/ l = [PPort n]
  | EndOutOfFuel => False
  end.
(** What a line tells: of a block only its size, of a bit field and a handshake nothing (the next
    lines do). *)
Definition told (s : said) : said :=
  match s with
  | PMessage (MPiece i b d) => PMessage (MPiece i b (repeat 0 (length d)))
  | PMessage (MBitField _) => PMessage (MBitField [])
  | PMessage (MHandshake _) => PMessage (MHandshake {| hs_reserved := []; hs_info_hash := []; hs_peer_id := [] |})
  | s => s
  end.
Definition is_unwanted (s : said) : bool := match s with PUnwanted _ _ _ => true | _ => false end.
Definition is_block (m : message) : bool := match m with MPiece _ _ _ => true | _ => false end.

(** *** The lines *)
Theorem C145_lines :
  (forall h, said_line (PMessage (MHandshake h)) = fill "<=== HANDSHAKE" []) /\ said_line (PMessage MKeepAlive) = fill "<=== KEEPALIVE" [] /\
  said_line (PMessage MChoke) = fill "<=== CHOKE" [] /\ said_line (PMessage MUnchoke) = fill "<=== UNCHOKE" [] /\
  said_line (PMessage MInterested) = fill "<=== INTERESTED" [] /\ said_line (PMessage MNotInterested) = fill "<=== NOTINTERESTED" [] /\
  (forall i, said_line (PMessage (MHave i)) = fill "<=== HAVE piece_index = {}" [decimal i]) /\
  (forall d, said_line (PMessage (MBitField d)) = fill "<=== BITFIELD" []) /\
  (forall i b n, said_line (PMessage (MRequest {| rq_index := i; rq_begin := b; rq_length := n |})) = fill "<=== REQUEST index = {}, begin = {}, length = {}" [decimal i; decimal b; decimal n]) /\
  (forall i b d, said_line (PMessage (MPiece i b d)) = fill "<=== PIECE index = {}, begin = {}, block = <{} bytes>" [decimal i; decimal b; decimal (blen d)]) /\
  (forall i b n, said_line (PMessage (MCancel {| rq_index := i; rq_begin := b; rq_length := n |})) = fill "<=== CANCEL index = {}, begin = {}, length = {}" [decimal i; decimal b; decimal n]) /\
  (forall p, said_line (PMessage (MPort p)) = fill "<=== PORT {}" [decimal p]) /\
  (forall d, said_line (PReserved d) = fill "    reserved  = {}" [to_hex d]) /\ (forall d, said_line (PInfoHash d) = fill "    info_hash = {}" [to_hex d]) /\
  (forall d, said_line (PPeerId d) = fill "    peer_id   = {}" [to_hex d]) /\ (forall n, said_line (PBitfieldSize n) = fill "    Received bitfield ({} bytes)" [decimal n]) /\
  (forall p h n, said_line (PPieces p h n) = fill "    Of {} pieces, they have {} and need {}" [decimal p; decimal h; decimal n]) /\
  (forall i b n, said_line (PUnwanted i b n) = fill "Recieved PIECE but no active request: index {}, begin {}, length {}" [decimal i; decimal b; decimal n]) /\
  (forall p a c, said_line (PWant p a c) = fill "want_more_requests: #pending = {}, #active = {}, #completed = {}" [decimal p; decimal a; decimal c]) /\
  (forall n, said_line (PCancel n) = fill "Received cancel; message_len = {}" [decimal n]) /\ (forall n, said_line (PPort n) = fill "Received port; message_len = {}" [decimal n]) /\
  (forall n, said_line (PUnknown n) = fill "Received message with unknown id {}" [decimal n]) /\ said_line (PFinished None) = fill "Client finished without error" [] /\
  (forall i n, said_line (PFinished (Some (IncorrectMessageLength i n))) = fill "Client finished with error: Incorrect length for message {}: {}" [decimal i; decimal n]) /\
  (forall i, said_line (PFinished (Some (UnknownMessage i))) = fill "Client finished with error: Unknown message {}" [decimal i]) /\
  said_line (PFinished (Some InvalidHandshake)) = fill "Client finished with error: Invalid handshake" [].
Proof.
  cbn [said_line headline protocol_error_text fill request_text rq_index rq_begin rq_length].
  repeat split; intros; cbn [ascii_bytes list_ascii_of_string map app]; rewrite <- ?app_assoc, ?app_nil_r; reflexivity.
Qed.
Print Assumptions C145_lines.

(** *** What is printed *)
Lemma parse_cases id len body : match parse_message id body with
  | Ok _ => parse_says id len = [] | Err (UnknownMessage i) => i = id /\ parse_says id len = [PUnknown id] | Err (IncorrectMessageLength _ _) => parse_says id len = []
  | Err InvalidHandshake => False | Panic => parse_says id len = [] \/ parse_says id len = [PCancel len] \/ parse_says id len = [PPort len] end.
Proof.
  unfold parse_message, check_message_len, parse_says.
  destruct (id =? 0) eqn:E0; [replace (id <? 8) with true by lia; destruct (_ =? _)%nat; reflexivity|].
  destruct (id =? 1) eqn:E1; [replace (id <? 8) with true by lia; destruct (_ =? _)%nat; reflexivity|].
  destruct (id =? 2) eqn:E2; [replace (id <? 8) with true by lia; destruct (_ =? _)%nat; reflexivity|].
  destruct (id =? 3) eqn:E3; [replace (id <? 8) with true by lia; destruct (_ =? _)%nat; reflexivity|].
  destruct (id =? 4) eqn:E4; [replace (id <? 8) with true by lia; destruct (_ =? _)%nat; reflexivity|].
  destruct (id =? 5) eqn:E5; [replace (id <? 8) with true by lia; reflexivity|].
  destruct (id =? 6) eqn:E6; [replace (id <? 8) with true by lia; left; reflexivity|].
  destruct (id =? 7) eqn:E7; [replace (id <? 8) with true by lia; destruct (_ <? _)%nat; [left; reflexivity|]; destruct (_ <? _)%nat; [left|]; reflexivity|].
  replace (id <? 8) with false by lia. destruct (id =? 8); [right; left; reflexivity|]. destruct (id =? 9); [right; right; reflexivity|]. split; reflexivity.
Qed.
Lemma next_spec c : match get_next_message c with
  | (Pending, c') => c' = c /\ next_says c = []
  | (Ready (Ok m), c') => next_says c = []
  | (Ready (Err e), c') => next_says c = match e with UnknownMessage id => [PUnknown id] | _ => [] end
  | (Ready Panic, c') => next_says c = [] \/ exists n, next_says c = [PCancel n] \/ next_says c = [PPort n]
  end.
Proof.
  unfold get_next_message, next_says. set (d := cn_incoming c). destruct (cn_handshake c); cbn [negb].
  - destruct (length d <? 4)%nat eqn:L4; [replace (length d <? 5)%nat with true by lia; auto|].
    destruct (of_be_bytes (firstn 4 d) =? 0) eqn:Z; [destruct (length d <? 5)%nat; reflexivity|].
    destruct (length d <? 5)%nat; [auto|]. destruct (blen d <? 4 + of_be_bytes (firstn 4 d)); [auto|].
    pose proof (parse_cases (nth 4 d 0) (of_be_bytes (firstn 4 d)) (firstn (N.to_nat (of_be_bytes (firstn 4 d) - 1)) (skipn 5 d))) as P.
    destruct (parse_message _ _) as [m|[i n|i|]|]; [exact P|exact P|destruct P as [-> P]; exact P|contradiction|]. destruct P as [P|[P|P]]; [left; exact P|right; eauto|right; eauto].
  - destruct (length d <? 68)%nat; [auto|]. destruct (negb (bytes_eqb _ _)); reflexivity.
Qed.
Lemma next_keeps c r c' : get_next_message c = (r, c') -> cn_done c' = cn_done c /\ cn_finished c' = cn_finished c /\ cn_error c' = cn_error c /\ cn_they_have c' = cn_they_have c /\ cn_first c' = cn_first c.
Proof.
  unfold get_next_message. destruct (negb _); [destruct (_ <? _)%nat; [|destruct (negb _)]|destruct (_ <? _)%nat; [|destruct (_ =? 0); [|destruct (_ <? _)%nat; [|destruct (_ <? _)]]]];
    intros H; injection H as _ <-; auto.
Qed.
Lemma same_loop fuel : forall x c reads, fst (logged_loop fuel x c reads) = receive_loop fuel x c reads.
Proof.
  induction fuel as [|fuel IH]; intros x c reads; cbn [logged_loop receive_loop]; [reflexivity|]. destruct (cn_done c || cn_finished c); [reflexivity|].
  destruct (get_next_message c) as [[|[m|e|]] c1].
  - destruct reads; apply IH.
  - destruct (handle_message x c1 m) as [[[x' c'] out]|e|]; [|reflexivity|reflexivity]. specialize (IH x' c' reads). destruct (logged_loop fuel x' c' reads) as [r l]. cbn [fst] in *. rewrite IH. reflexivity.
  - unfold say. cbn [fst]. apply IH.
  - reflexivity.
Qed.
(** The program that prints is the program of C35-C37. *)
Theorem C145_same_run : forall x reads, fst (peer_log x reads) = do_peer x reads.
Proof. intros x reads. apply same_loop. Qed.
Print Assumptions C145_same_run.

Lemma counted b : (num_set b + num_clear b = length b)%nat.
Proof. induction b as [|[] b IH]; cbn [num_set num_clear negb length]; lia. Qed.
Lemma update_length bs b : forall i, length (update_from i b bs) = length b.
Proof. induction b as [|e b IH]; intros i; cbn [update_from length]; [reflexivity|]. destruct (nth_error bs (i / 8)); cbn [length]; [rewrite IH|]; reflexivity. Qed.
Lemma handle_about x c m : length (cn_they_have c) = length (t_pieces (tr_torrent x)) -> cn_first c = false -> about m (handle_says x c m).
Proof.
  intros L F. destruct m; unfold handle_says, want; try (apply about_other; exact I); try (constructor; fail).
  all: try match goal with |- about (MBitField _) _ => rewrite F; cbv zeta; destruct (_ =? _)%nat; [|constructor]; unfold update_from_bytes end.
  all: try match goal with |- about (MPiece _ _ _) _ => destruct (remove_first _ _); constructor end.
  match goal with |- context [update_from 0 ?h ?d] => pose proof (counted (update_from 0 h d)) as K; rewrite update_length in K;
    replace (N.of_nat (length (t_pieces (tr_torrent x)))) with (N.of_nat (num_set (update_from 0 h d)) + N.of_nat (num_clear (update_from 0 h d))) by lia end. constructor.
Qed.
Lemma more_torrent fuel : forall x, tr_torrent (fst (more_requests fuel x)) = tr_torrent x.
Proof.
  induction fuel as [|fuel IH]; intros x; cbn [more_requests]; [reflexivity|]. destruct (_ <=? _)%nat; [|reflexivity]. unfold start_request. destruct (tr_pending x) as [|q l]; [reflexivity|].
  specialize (IH {| tr_torrent := tr_torrent x; tr_pending := l; tr_active := tr_active x ++ [q]; tr_completed := tr_completed x |}). destruct (more_requests fuel _). cbn [fst] in *. exact IH.
Qed.
Lemma handle_static x c m x' c' out : handle_message x c m = Ok (x', c', out) -> tr_torrent x' = tr_torrent x /\ length (cn_they_have c') = length (cn_they_have c) /\ cn_first c' = cn_first c.
Proof.
  destruct m; cbn [handle_message]; intros H; try (injection H as <- <- <-; auto).
  - pose proof (more_torrent more_fuel x) as M. destruct (more_requests more_fuel x). injection H as <- <- <-. auto.
  - destruct (cn_first c) eqn:F; [discriminate|]. apply bind_ok in H. destruct H as (u & _ & H). injection H as <- <- <-. cbn [cn_they_have cn_first]. split; [reflexivity|]. split; [apply update_length|first [exact F|reflexivity|congruence]].
  - pose proof (more_torrent more_fuel (complete_request x index begin block)) as M. destruct (more_requests more_fuel _). injection H as <- <- <-. cbn [fst] in M.
    split; [rewrite M; unfold complete_request; destruct (remove_first _ _); reflexivity|auto].
Qed.
Lemma loop_log fuel : forall x c reads, length (cn_they_have c) = length (t_pieces (tr_torrent x)) -> cn_first c = false -> cn_done c = false -> cn_error c = None ->
  let r := receive_loop fuel x c reads in o_ending r <> EndOutOfFuel ->
  exists blocks tail, snd (logged_loop fuel x c reads) = concat blocks ++ tail /\ Forall2 about (o_messages r) blocks /\ closing (o_ending r) tail.
Proof.
  induction fuel as [|fuel IH]; intros x c reads L F D E; cbn [logged_loop receive_loop]; [intros C; contradiction C; reflexivity|].
  rewrite D. cbn [orb]. destruct (cn_finished c).
  { intros _. exists [], [PFinished (cn_error c)]. cbn [finish o_messages o_ending snd concat app]. rewrite E. repeat constructor. }
  pose proof (next_spec c) as S. destruct (get_next_message c) as [[|[m|e|]] c1] eqn:G; pose proof (next_keeps _ _ _ G) as (K1 & K2 & K3 & K4 & K5).
  - destruct S as [-> _]. destruct reads as [|got reads]; [apply IH; assumption|]. apply IH; destruct got; assumption.
  - pose proof (handle_about x c1 m ltac:(rewrite K4; exact L) ltac:(rewrite K5; exact F)) as A. rewrite S. cbn [app].
    destruct (handle_message x c1 m) as [[[x' c'] out]|e|] eqn:H.
    + destruct (handle_keeps _ _ _ _ _ _ H) as (_ & H2 & _ & _ & H5). destruct (handle_static _ _ _ _ _ _ H) as (H6 & H7 & H8).
      cbn [prepend o_ending]. intros O. destruct (IH x' c' reads) as (blocks & tail & B1 & B2 & B3); [rewrite H7, K4, H6; exact L|congruence|congruence|congruence|exact O|].
      destruct (logged_loop fuel x' c' reads) as [r l]. cbn [snd] in *. exists (handle_says x c1 m :: blocks), tail. rewrite B1. cbn [concat]. rewrite app_assoc. split; [reflexivity|]. split; [|exact B3]. constructor; assumption.
    + intros _. exists [handle_says x c1 m], []. cbn [snd concat prepend finish o_messages o_ending]. rewrite !app_nil_r. split; [reflexivity|]. split; [|reflexivity]. constructor; [exact A|constructor].
    + exfalso. exact (handle_no_panic _ _ _ H).
  - destruct fuel as [|fuel]; [intros C; contradiction C; reflexivity|]. cbn [receive_loop logged_loop report_violation cn_done orb cn_error finish o_ending o_messages]. intros _.
    unfold say. cbn [snd]. exists [], (next_says c ++ [PFinished (Some e)]). cbn [concat app]. split; [reflexivity|]. split; [constructor|]. rewrite S. destruct e; reflexivity.
  - intros _. exists [], (next_says c). cbn [snd finish o_messages o_ending concat app closing]. split; [reflexivity|]. split; [constructor|exact S].
Qed.
(** The log of a session: for every message handled, in order, its lines; then the lines that
    belong to how the session ended. *)
Theorem C145_log : forall x reads, exists blocks tail, snd (peer_log x reads) = concat blocks ++ tail /\
  Forall2 about (o_messages (do_peer x reads)) blocks /\ closing (o_ending (do_peer x reads)) tail.
Proof.
  intros x reads. apply loop_log; [apply repeat_length|reflexivity|reflexivity|reflexivity|apply C37_receive_loop_ends].
Qed.
Print Assumptions C145_log.
(** A line tells of an unknown message, of an error or of none exactly when the session ended so. *)
Theorem C145_last_line : forall x reads e, In (PFinished e) (snd (peer_log x reads)) <-> o_ending (do_peer x reads) = EndLoop e.
Proof.
  intros x reads e. destruct (C145_log x reads) as (blocks & tail & -> & B & T).
  assert (N : ~ In (PFinished e) (concat blocks)).
  { clear T. induction B as [|m b ms blocks A _ IH]; [intros []|]. cbn [concat]. intros C. apply in_app_or in C. destruct C as [C|C]; [|exact (IH C)].
    inversion A; subst; cbn [In] in C; repeat (destruct C as [C|C]; [discriminate C|]); exact C. }
  rewrite in_app_iff. split.
  - intros [C|C]; [contradiction|]. destruct (o_ending (do_peer x reads)) as [[[i n|i|]|]|h| |]; cbn [closing] in T; subst; cbn [In] in C;
      try (repeat (destruct C as [C|C]; [first [discriminate C | injection C as <-; reflexivity]|]); contradiction).
    destruct T as [-> | (n & [-> | ->])]; cbn [In] in C; repeat (destruct C as [C|C]; [discriminate C|]); contradiction.
  - intros E. rewrite E in T. right. destruct e as [[i n|i|]|]; cbn [closing] in T; subst tail; cbn [In]; auto.
Qed.
Print Assumptions C145_last_line.
Lemma early fuel : forall x c reads, cn_done c = false -> cn_finished c = false -> cn_handshake c = false -> cn_error c = None ->
  (length (cn_incoming c) + length (concat reads) < 68)%nat -> (length reads + 2 <= fuel)%nat -> snd (logged_loop fuel x c reads) = [PFinished None].
Proof.
  induction fuel as [|fuel IH]; intros x c reads D F H E L K; [lia|]. cbn [logged_loop]. rewrite D, F. cbn [orb].
  replace (get_next_message c) with (@Pending (outcome protocol_error message), c) by (unfold get_next_message; rewrite H; cbn [negb]; replace (length (cn_incoming c) <? 68)%nat with true by lia; reflexivity).
  cbv iota. assert (Z : forall reads, (1 <= fuel)%nat -> snd (logged_loop fuel x (recv_more_data c []) reads) = [PFinished None])
    by (intros r Q; destruct fuel; [lia|]; cbn [logged_loop recv_more_data cn_done cn_finished cn_error]; rewrite D, E; reflexivity).
  destruct reads as [|[|b d] reads]; [apply Z; cbn [length] in K; lia|apply Z; cbn [length] in K; lia|]. cbn [concat] in L. rewrite app_length in L.
  apply IH; cbn [recv_more_data with_incoming cn_done cn_finished cn_handshake cn_error cn_incoming]; [assumption..| |cbn [length] in K; lia]. rewrite app_length. lia.
Qed.
(** But "finished without error" is also printed when the peer closed before it sent a whole
    handshake, whatever it sent. *)
Theorem C145_closed_early_refuted : forall x reads, (length (concat reads) < 68)%nat -> snd (peer_log x reads) = [PFinished None].
Proof. intros x reads L. apply early; [reflexivity..|exact L|unfold PeerModel.rounds; rewrite <- Nat.add_assoc; etransitivity; [|apply Nat.le_add_l]; apply Nat.add_le_mono_l; repeat constructor]. Qed.
Print Assumptions C145_closed_early_refuted.

(** *** What the numbers tell *)
Definition in_transfer (x : transfer) : nat := length (tr_pending x) + length (tr_active x) + length (tr_completed x).
Lemma more_total fuel : forall x, in_transfer (fst (more_requests fuel x)) = in_transfer x /\ tr_completed (fst (more_requests fuel x)) = tr_completed x.
Proof.
  induction fuel as [|fuel IH]; intros x; cbn [more_requests]; [auto|]. destruct (_ <=? _)%nat; [|auto]. unfold start_request. destruct (tr_pending x) as [|q l] eqn:P; [auto|].
  specialize (IH {| tr_torrent := tr_torrent x; tr_pending := l; tr_active := tr_active x ++ [q]; tr_completed := tr_completed x |}). destruct (more_requests fuel _). cbn [fst] in *.
  destruct IH as [I1 I2]. rewrite I1, I2. unfold in_transfer. cbn [tr_pending tr_active tr_completed]. rewrite P, app_length. cbn [length]. split; [lia|reflexivity].
Qed.
Lemma removed_length (f : request -> bool) l : forall l', remove_first f l = Some l' -> length l = Datatypes.S (length l').
Proof.
  induction l as [|a l IH]; intros l' H; cbn [remove_first] in H; [discriminate|]. destruct (f a); [injection H as <-; reflexivity|].
  destruct (remove_first f l) as [t|]; [|discriminate]. injection H as <-. cbn [length]. rewrite (IH t eq_refl). reflexivity.
Qed.
Lemma complete_total x i b d : in_transfer (complete_request x i b d) = in_transfer x.
Proof. unfold complete_request. destruct (remove_first _ _) as [l|] eqn:R; [|reflexivity]. unfold in_transfer. cbn [tr_pending tr_active tr_completed]. rewrite (removed_length _ _ _ R), app_length. cbn [length]. lia. Qed.
Definition unwanted (l : list said) : nat := length (filter is_unwanted l).
Definition blocks (ms : list message) : nat := length (filter is_block ms).
Lemma unwanted_app a b : unwanted (a ++ b) = (unwanted a + unwanted b)%nat.
Proof. unfold unwanted. rewrite filter_app, app_length. reflexivity. Qed.
Lemma handle_total x c m x' c' out : handle_message x c m = Ok (x', c', out) -> in_transfer x' = in_transfer x /\
  (length (tr_completed x') + unwanted (handle_says x c m) = length (tr_completed x) + blocks [m])%nat.
Proof.
  destruct m; cbn [handle_message]; unfold handle_says; intros H; try (injection H as <- <- <-; split; reflexivity).
  - pose proof (more_total more_fuel x) as [M1 M2]. destruct (more_requests more_fuel x). injection H as <- <- <-. cbn [fst] in *. rewrite M2. split; [exact M1|reflexivity].
  - destruct (cn_first c) eqn:F; [discriminate|]. apply bind_ok in H. destruct H as (u & _ & H). injection H as <- <- <-. split; [reflexivity|]. cbv zeta. destruct (_ =? _)%nat; reflexivity.
  - pose proof (more_total more_fuel (complete_request x index begin block)) as [M1 M2]. destruct (more_requests more_fuel _). injection H as <- <- <-. cbn [fst] in *. rewrite M2, M1, complete_total. split; [reflexivity|].
    unfold complete_request. destruct (remove_first _ _); cbn [tr_completed app unwanted is_unwanted filter want length blocks is_block]; unfold unwanted, blocks; cbn [filter is_unwanted is_block length want]; rewrite ?app_length; cbn [length]; lia.
Qed.
Lemma handle_wants x c m p a d : In (PWant p a d) (handle_says x c m) -> p + a + d = N.of_nat (in_transfer x).
Proof.
  unfold handle_says, want. intros [H|H]; [discriminate|]. destruct m; cbn [In] in H; try contradiction.
  - destruct H as [H|[H|[H|H]]]; try discriminate; contradiction.
  - destruct H as [H|[]]. injection H as <- <- <-. unfold in_transfer. lia.
  - destruct (cn_first c); [contradiction|]. destruct H as [H|H]; [discriminate|]. cbv zeta in H. destruct (_ =? _)%nat; [|contradiction]. destruct H as [H|[]]. discriminate.
  - apply in_app_or in H. destruct H as [H|[H|[]]]; [destruct (remove_first _ _); [contradiction|]; destruct H as [H|[]]; discriminate|].
    rewrite <- (complete_total x index begin block). injection H as <- <- <-. unfold in_transfer. lia.
Qed.
Lemma next_quiet c s : In s (next_says c) -> is_unwanted s = false /\ forall p a d, s <> PWant p a d.
Proof.
  unfold next_says, parse_says. destruct (negb _); [intros []|]. destruct (_ <? _)%nat; [intros []|]. destruct (_ =? 0); [intros []|]. destruct (_ <? _); [intros []|].
  destruct (_ <? 8); [intros []|]. destruct (_ =? 8); [intros [<-|[]]; split; [reflexivity|discriminate]|]. destruct (_ =? 9); intros [<-|[]]; split; try reflexivity; discriminate.
Qed.
Lemma next_no_unwanted c : unwanted (next_says c) = 0%nat.
Proof. pose proof (next_quiet c) as Q. unfold unwanted. induction (next_says c) as [|s l IH]; [reflexivity|]. cbn [filter]. rewrite (proj1 (Q s (or_introl eq_refl))). apply IH. intros t T. apply Q. right. exact T. Qed.
Lemma loop_wants fuel : forall x c reads p a d, In (PWant p a d) (snd (logged_loop fuel x c reads)) -> p + a + d = N.of_nat (in_transfer x).
Proof.
  induction fuel as [|fuel IH]; intros x c reads p a d; cbn [logged_loop]; [intros []|]. destruct (cn_done c || cn_finished c); [intros [H|[]]; discriminate|].
  assert (Q : ~ In (PWant p a d) (next_says c)) by (intros H; exact (proj2 (next_quiet _ _ H) _ _ _ eq_refl)).
  destruct (get_next_message c) as [[|[m|e|]] c1].
  - destruct reads; apply IH.
  - destruct (handle_message x c1 m) as [[[x' c'] out]|e|] eqn:H.
    + specialize (IH x' c' reads p a d). destruct (logged_loop fuel x' c' reads) as [r l]. cbn [snd] in *. intros C. apply in_app_or in C. destruct C as [C|C]; [contradiction|].
      apply in_app_or in C. destruct C as [C|C]; [exact (handle_wants _ _ _ _ _ _ C)|]. rewrite (IH C), (proj1 (handle_total _ _ _ _ _ _ H)). reflexivity.
    + cbn [snd]. intros C. apply in_app_or in C. destruct C as [C|C]; [contradiction|exact (handle_wants _ _ _ _ _ _ C)].
    + cbn [snd]. intros C. apply in_app_or in C. destruct C as [C|C]; [contradiction|exact (handle_wants _ _ _ _ _ _ C)].
  - unfold say. cbn [snd]. intros C. apply in_app_or in C. destruct C as [C|C]; [contradiction|exact (IH _ _ _ _ _ _ C)].
  - cbn [snd]. intros C. contradiction.
Qed.
(** The three numbers of a line about requests always add up to all requests of the transfer. *)
Theorem C145_requests_add_up : forall x reads p a d, In (PWant p a d) (snd (peer_log x reads)) ->
  p + a + d = N.of_nat (length (tr_pending x) + length (tr_active x) + length (tr_completed x)).
Proof. intros x reads p a d. apply loop_wants. Qed.
Print Assumptions C145_requests_add_up.
Lemma loop_kept fuel : forall x c reads, let r := receive_loop fuel x c reads in
  (length (tr_completed (o_transfer r)) + unwanted (snd (logged_loop fuel x c reads)) = length (tr_completed x) + blocks (o_messages r))%nat.
Proof.
  induction fuel as [|fuel IH]; intros x c reads; cbn [logged_loop receive_loop]; [reflexivity|]. destruct (cn_done c || cn_finished c); [reflexivity|]. pose proof (next_no_unwanted c) as Q.
  destruct (get_next_message c) as [[|[m|e|]] c1].
  - destruct reads; apply IH.
  - destruct (handle_message x c1 m) as [[[x' c'] out]|e|] eqn:H.
    + specialize (IH x' c' reads). pose proof (proj2 (handle_total _ _ _ _ _ _ H)) as K. destruct (logged_loop fuel x' c' reads) as [r l]. cbn [snd] in *. rewrite !unwanted_app, Q.
      cbn [prepend o_transfer o_messages]. unfold blocks in *. change (m :: ?t) with ([m] ++ t) in |- *. rewrite filter_app, app_length. lia.
    + cbn [snd prepend o_transfer o_messages finish]. rewrite unwanted_app, Q. assert (B : exists d, m = MBitField d). { destruct m; cbn [handle_message] in H; try discriminate; try (destruct (more_requests _ _); discriminate). eauto. }
      destruct B as (d & ->). unfold handle_says. destruct (cn_first c1); [reflexivity|]. cbv zeta. destruct (_ =? _)%nat; reflexivity.
    + exfalso. exact (handle_no_panic _ _ _ H).
  - unfold say. cbn [snd]. rewrite unwanted_app, Q. apply IH.
  - cbn [snd finish o_transfer o_messages]. rewrite Q. reflexivity.
Qed.
(** Every block that arrived was kept or has a line that says it was not wanted. *)
Theorem C145_blocks_kept : forall x reads,
  (length (tr_completed (o_transfer (do_peer x reads))) + length (filter is_unwanted (snd (peer_log x reads))) = length (tr_completed x) + length (filter is_block (o_messages (do_peer x reads))))%nat.
Proof. intros x reads. apply loop_kept. Qed.
Print Assumptions C145_blocks_kept.

(** *** What the text tells *)
Definition line_ok (s : said) : Prop := match s with PReserved d | PInfoHash d | PPeerId d => bytes_ok d | _ => True end.
Lemma dec_cut i i' c r r' : (c < 48 \/ 58 <= c) -> decimal i ++ c :: r = decimal i' ++ c :: r' -> i = i' /\ r = r'.
Proof. intros C H. destruct (split_at c _ _ _ _ (decimal_free i c C) (decimal_free i' c C) H) as [D ->]. split; [exact (decimal_inj _ _ D)|reflexivity]. Qed.
Lemma length_of_blen (d d' : bytes) : blen d = blen d' -> length d = length d'.
Proof. unfold blen. lia. Qed.
Ltac peel H := cbn [ascii_bytes list_ascii_of_string map app] in H; rewrite <- ?app_assoc in H; cbn [app] in H.
Ltac strip H := repeat (apply (f_equal (@tl N)) in H; cbn [tl] in H).
Ltac nums := repeat match goal with
  | H : decimal _ ++ ?c :: _ = decimal _ ++ ?c :: _ |- _ => apply dec_cut in H; [let E := fresh "E" in destruct H as [E H]; subst|cbv; first [left; reflexivity|right; discriminate]]
  | H : decimal _ = decimal _ |- _ => apply decimal_inj in H; subst
  | H : ?c :: _ = ?c :: _ |- _ => apply (f_equal (@tl N)) in H; cbn [tl] in H
  end.
Lemma said_line_told s s' : line_ok s -> line_ok s' -> said_line s = said_line s' -> told s = told s'.
Proof.
  intros K K' H.
  destruct s as [[h| | | | | |i|d|[qi qb ql]|i b d|[qi qb ql]|p]|d|d|d|n|p v n|i b n|p a c|n|n|n|[[i n|i|]|]];
  destruct s' as [[h'| | | | | |i'|d'|[qi' qb' ql']|i' b' d'|[qi' qb' ql']|p']|d'|d'|d'|n'|p' v' n'|i' b' n'|p' a' c'|n'|n'|n'|[[i' n'|i'|]|]];
  unfold said_line, headline, protocol_error_text, request_text in H; cbn [rq_index rq_begin rq_length] in H; peel H; first [reflexivity | discriminate H | idtac].
  all: try (nums; reflexivity).
  all: try (nums; apply to_hex_inj in H; [subst; reflexivity|assumption|assumption]).
  (* a block *)
  nums. match goal with E : blen _ = blen _ |- _ => apply length_of_blen in E; cbn [told]; rewrite E; reflexivity end.
Qed.
Lemma said_line_free s : line_ok s -> ~ In 10 (said_line s).
Proof.
  assert (D : forall n, ~ In 10 (decimal n)) by (intros n; apply decimal_free; left; reflexivity).
  assert (X : forall d, bytes_ok d -> ~ In 10 (to_hex d)) by (intros d B; apply to_hex_free; [exact B|apply not_hex; left; reflexivity]).
  intros K. destruct s as [[h| | | | | |i|d|[qi qb ql]|i b d|[qi qb ql]|p]|d|d|d|n|p v n|i b n|p a c|n|n|n|[[i n|i|]|]]; unfold said_line, headline, protocol_error_text, request_text;
    repeat apply app_free; first [apply D | apply X; exact K | apply ascii_free; reflexivity | apply MplexLogProps.ascii_free; reflexivity].
Qed.
Lemma lines_of l : flat_map (fun t => t ++ [10]) (map said_line l) = lines (map said_line l).
Proof. reflexivity. Qed.
(** Logs with the same text tell the same. *)
Lemma text_told l l' : Forall line_ok l -> Forall line_ok l' -> flat_map (fun t => t ++ [10]) (map said_line l) = flat_map (fun t => t ++ [10]) (map said_line l') -> map told l = map told l'.
Proof.
  intros K K' H. rewrite !lines_of in H. apply lines_inj in H.
  - revert l' K' H. induction K as [|s l S _ IH]; intros l' K' H; destruct l' as [|s' l']; try discriminate H; [reflexivity|]. injection H as H1 H2. inversion K' as [|? ? S' K2]; subst. cbn [map]. f_equal; [apply said_line_told; assumption|apply IH; assumption].
  - apply Forall_map. eapply Forall_impl; [|exact K]. exact said_line_free.
  - apply Forall_map. eapply Forall_impl; [|exact K']. exact said_line_free.
Qed.
Lemma parse_not_handshake id body h : parse_message id body <> Ok (MHandshake h).
Proof.
  unfold parse_message, check_message_len. repeat (destruct (id =? _); [repeat (destruct (_ =? _)%nat || destruct (_ <? _)%nat); cbn [bind]; discriminate|]). discriminate.
Qed.
Lemma next_handshake_ok c h c' : bytes_ok (cn_incoming c) -> get_next_message c = (Ready (Ok (MHandshake h)), c') -> bytes_ok (hs_reserved h) /\ bytes_ok (hs_info_hash h) /\ bytes_ok (hs_peer_id h).
Proof.
  intros B. unfold get_next_message. destruct (negb (cn_handshake c)).
  - destruct (_ <? _)%nat; [discriminate|]. destruct (negb _); [discriminate|]. intros H. set (h0 := {| hs_reserved := _ |}) in H. assert (h = h0) as -> by congruence. unfold h0. cbn [hs_reserved hs_info_hash hs_peer_id].
    do 2 (split; [apply bytes_ok_firstn, bytes_ok_skipn, B|]). apply bytes_ok_firstn, bytes_ok_skipn, B.
  - destruct (_ <? _)%nat; [discriminate|]. cbv zeta. destruct (_ =? 0); [discriminate|]. destruct (_ <? _)%nat; [discriminate|]. destruct (_ <? _); [discriminate|].
    intros H. exfalso. match type of H with (Ready ?p, _) = _ => assert (E : p = Ok (MHandshake h)) by congruence end. exact (parse_not_handshake _ _ _ E).
Qed.
Lemma next_ok c : Forall line_ok (next_says c).
Proof.
  unfold next_says, parse_says. repeat match goal with |- context [if ?b then _ else _] => destruct b end; repeat constructor.
Qed.
Lemma loop_ok fuel : forall x c reads, bytes_ok (cn_incoming c) -> Forall bytes_ok reads -> Forall line_ok (snd (logged_loop fuel x c reads)).
Proof.
  induction fuel as [|fuel IH]; intros x c reads B R; cbn [logged_loop]; [constructor|]. destruct (cn_done c || cn_finished c); [repeat constructor|].
  pose proof (next_ok c) as Q. pose proof (next_spec c) as S. destruct (get_next_message c) as [[|[m|e|]] c1] eqn:G.
  - destruct S as [-> _]. destruct R as [|got reads R1 R2]; (apply IH; [|try constructor; assumption]); [exact B|]. destruct got; cbn [recv_more_data with_incoming cn_incoming]; [exact B|]. apply bytes_ok_app. split; assumption.
  - assert (B1 : bytes_ok (cn_incoming c1)). { destruct (next_suffix _ _ _ G) as (u & U). rewrite U in B. apply bytes_ok_app in B. apply B. }
    assert (A : Forall line_ok (handle_says x c1 m)).
    { unfold handle_says. constructor; [exact I|]. destruct m; try constructor; try exact I; try constructor.
      - apply (next_handshake_ok _ _ _ B G).
      - apply (next_handshake_ok _ _ _ B G).
      - constructor; [apply (next_handshake_ok _ _ _ B G)|constructor].
      - destruct (cn_first c1); [constructor|]. constructor; [exact I|]. cbv zeta. destruct (_ =? _)%nat; repeat constructor.
      - destruct (remove_first _ _); repeat constructor. }
    destruct (handle_message x c1 m) as [[[x' c'] out]|e|] eqn:H.
    + specialize (IH x' c' reads). destruct (logged_loop fuel x' c' reads) as [r l]. cbn [snd] in *. apply Forall_app. split; [exact Q|]. apply Forall_app. split; [exact A|]. apply IH; [|exact R].
      destruct (handle_keeps _ _ _ _ _ _ H) as (-> & _). exact B1.
    + cbn [snd]. apply Forall_app. split; assumption.
    + cbn [snd]. apply Forall_app. split; assumption.
  - unfold say. cbn [snd]. apply Forall_app. split; [exact Q|]. destruct fuel as [|fuel]; [constructor|]. cbn [logged_loop report_violation cn_done orb snd]. repeat constructor.
  - exact Q.
Qed.
(** The text of a session tells which lines were printed, with all their numbers and data: two
    sessions of the same transfer with the same text differ at most in the contents of blocks
    and bit fields. *)
Theorem C145_text_tells : forall x peer_id reads reads', Forall bytes_ok reads -> Forall bytes_ok reads' ->
  peer_text x peer_id reads = peer_text x peer_id reads' -> map told (snd (peer_log x reads)) = map told (snd (peer_log x reads')).
Proof.
  intros x peer_id reads reads' R R' H. unfold peer_text in H. rewrite !flat_map_app in H. apply app_inv_head in H.
  apply text_told; [apply loop_ok; [constructor|exact R]|apply loop_ok; [constructor|exact R']|exact H].
Qed.
Print Assumptions C145_text_tells.
(** Which bits a bit field set and what a block held cannot be read off the log. *)
Theorem C145_contents_refuted : forall i b d d', length d = length d' -> said_line (PMessage (MPiece i b d)) = said_line (PMessage (MPiece i b d')) /\
  said_line (PMessage (MBitField d)) = said_line (PMessage (MBitField d')).
Proof. intros i b d d' L. unfold said_line, headline, blen. rewrite L. split; reflexivity. Qed.
Print Assumptions C145_contents_refuted.
(** The text before: the handshake sent, with a line each for the length and the dump. *)
Theorem C145_opening : forall x peer_id reads, length (t_info_hash (tr_torrent x)) = 20%nat -> length peer_id = 20%nat -> exists rest,
  peer_text x peer_id reads = ascii_bytes "Connected to peer" ++ [10] ++ ascii_bytes "out_handshake.len() = 68" ++ [10] ++ ascii_bytes "out_handshake =" ++ [10] ++
    dump_alternate (handshake_magic ++ repeat 0 8 ++ t_info_hash (tr_torrent x) ++ peer_id) ++ [10] ++ rest.
Proof.
  intros x peer_id reads L1 L2. exists (flat_map (fun l => l ++ [10]) (map said_line (snd (peer_log x reads)))). unfold peer_text, opening_lines. cbv zeta. rewrite flat_map_app.
  replace (blen (encode_handshake (t_info_hash (tr_torrent x)) peer_id)) with 68 by (unfold encode_handshake, blen; rewrite !app_length, L1, L2; reflexivity).
  cbn [flat_map]. rewrite <- !app_assoc. reflexivity.
Qed.
Print Assumptions C145_opening.

Definition log_stream : bytes :=
  wire_handshake a_handshake ++ frame 5 [192] ++ frame 1 [] ++ frame 7 (be_bytes 4 1 ++ be_bytes 4 0 ++ repeat 9 (Nat.mul 100 100)) ++
  frame 7 (be_bytes 4 1 ++ be_bytes 4 0 ++ [7]) ++ frame 4 [0; 0; 0; 1] ++ frame 10 [26; 225].
Example C145_example :
  match a_transfer with
  | Some x => map said_line (snd (peer_log x [firstn 30 log_stream; skipn 30 log_stream])) = map ascii_bytes
    ["<=== HANDSHAKE"; "    reserved  = 0000000000000000"; "    info_hash = 0101010101010101010101010101010101010101"; "    peer_id   = 0202020202020202020202020202020202020202";
     "<=== BITFIELD"; "    Received bitfield (1 bytes)"; "    Of 2 pieces, they have 2 and need 0"; "<=== UNCHOKE"; "want_more_requests: #pending = 4, #active = 0, #completed = 0";
     "<=== PIECE index = 1, begin = 0, block = <10000 bytes>"; "want_more_requests: #pending = 0, #active = 3, #completed = 1"; "<=== PIECE index = 1, begin = 0, block = <1 bytes>";
     "Recieved PIECE but no active request: index 1, begin 0, length 1"; "want_more_requests: #pending = 0, #active = 3, #completed = 1"; "<=== HAVE piece_index = 1"; "Received message with unknown id 10";
     "Client finished with error: Unknown message 10"]%string
  | None => False
  end.
Proof. vm_compute. reflexivity. Qed.
(** ... and a peer that closes at once, or after half a handshake, ended without error. *)
Example C145_closed_example :
  match a_transfer with
  | Some x => map said_line (snd (peer_log x [])) = [ascii_bytes "Client finished without error"] /\ map said_line (snd (peer_log x [firstn 40 log_stream])) = [ascii_bytes "Client finished without error"]
  | None => False
  end.
Proof. vm_compute. split; reflexivity. Qed.
