(** What the download program prints, C138: the text. *)
From Coq Require Import String Ascii.
From Verif Require Import Base BaseProofs UtilModel ChatModel Asn1PrintProps TorrentModel MplexModel LpioModel LpioSpec DownloadModel DownloadProps DownloadProps2 BencodePathModel AnnounceModel DownloadMainModel DebugModel DebugProofs DebugProps TemplateSpec MplexLogProps DownloadLogModel DownloadLogProps.
Local Open Scope string_scope. Local Open Scope list_scope. Local Open Scope N_scope.

(** ** C138: the exact lines *)
Theorem C138_lines :
  (forall n, saying_line (SRead n) = fill "read_message: body.len() = {}" [decimal n]) /\
  saying_line (SMessage Choke) = fill "Choke" [] /\ saying_line (SMessage Unchoke) = fill "Unchoke" [] /\
  (forall b, saying_line (SMessage (BitField b)) = fill "BitField: {}" [to_hex b]) /\
  (forall i b d, saying_line (SMessage (Piece i b d)) = fill "Piece index= {}, begin= {}, block= {}" [decimal i; decimal b; to_hex d]) /\
  saying_line (SMessage KeepAlive) = fill "Don't know how to handle message: KeepAlive" [] /\
  saying_line (SMessage Interested) = fill "Don't know how to handle message: Interested" [] /\
  saying_line (SMessage NotInterested) = fill "Don't know how to handle message: NotInterested" [] /\
  (forall i, saying_line (SMessage (Have i)) = fill "Don't know how to handle message: Have({})" [decimal i]) /\
  (forall id b, saying_line (SMessage (Unknown id b)) = fill "Don't know how to handle message: Unknown({}, {})" [decimal id; listed (map decimal b)]) /\
  (forall e g, saying_line (SBadField e g) = fill "Invalid bitfield length: expected {}, got {}" [decimal e; decimal g]) /\
  (forall c i n, saying_line (SStatus c i n) = fill "Peer status: {} {} them 0/{} us 0/{}" [ascii_bytes (if c : bool then "C" else "U"); ascii_bytes (if i : bool then "I" else "N"); decimal n; decimal n]) /\
  (forall t, saying_line (SReceiveError t) = fill "Error while receiving message: {}" [t] /\ saying_line (SSendError t) = fill "Error while sending message: {}" [t]) /\
  saying_line (SSent AInterested) = fill "connection_writer: sent interested" [] /\ saying_line (SSent ABitField) = fill "connection_writer: sent bitfield" [] /\
  saying_line (SSent ARequest) = fill "connection_writer: sent request" [] /\ saying_line SFinished = fill "Finished" [] /\
  (forall l, log_text l = text_of (map saying_line l)).
Proof.
  repeat match goal with |- _ /\ _ => split | |- forall _, _ => intro end; try reflexivity; try (cbn; rewrite ?app_nil_r; reflexivity).
  - assert (V : plain (dvec dnumber b) = listed (map decimal b)).
    { unfold dvec, listed. cbn [fill]. destruct b as [|x b]; [reflexivity|].
      change (plain (DGroup GList [] (map dnumber (x :: b)))) with (ascii_bytes "[" ++ commas (map plain (map dnumber (x :: b))) ++ ascii_bytes "]"). rewrite map_map.
      assert (G : forall l, commas l = apart (ascii_bytes ", ") l) by (induction l as [|y [|z l] IH]; [reflexivity|reflexivity|]; change (y ++ ascii_bytes ", " ++ commas (z :: l) = y ++ ascii_bytes ", " ++ apart (ascii_bytes ", ") (z :: l)); rewrite IH; reflexivity).
      rewrite G. reflexivity. }
    rewrite <- V. change (saying_line (SMessage (Unknown id b))) with (ascii_bytes "Don't know how to handle message: " ++ ascii_bytes "Unknown" ++ ascii_bytes "(" ++ (decimal id ++ ascii_bytes ", " ++ plain (dvec dnumber b)) ++ ascii_bytes ")").
    generalize (plain (dvec dnumber b)). intros v. rewrite <- !app_assoc. cbn. rewrite <- ?app_assoc. reflexivity.
  - destruct c, i; cbn; rewrite ?app_nil_r; reflexivity.
  - unfold log_text, text_of, line. rewrite flat_map_concat_map, flat_map_concat_map, map_map. reflexivity.
Qed.
Print Assumptions C138_lines.
(** The texts of the errors. *)
Theorem C138_error_texts io lossy :
  (forall e, derror_text io lossy (DIo e) = io e) /\
  (forall n, derror_text io lossy (DLength n) = fill "Expected {} as string length, expected 19" [decimal n]) /\
  (forall d, derror_text io lossy (DProtocol d) = fill "Incorrect protocol; got {}" [lossy d]) /\
  (forall body e, decode_body body = Err e -> exists name wanted, In (nth 0 body 0, name, wanted)
     [(0, "Choke", "0"); (1, "Unchoke", "0"); (2, "Interested", "0"); (3, "NotInterested", "0"); (4, "Have", "4"); (7, "Have", ">= 8")] /\
     derror_text io lossy e = fill "{} body: {} bytes, expected {}" [ascii_bytes name; decimal (blen body - 1); ascii_bytes wanted]).
Proof.
  split; [reflexivity|]. split; [reflexivity|]. split; [intros d; cbn; rewrite app_nil_r; reflexivity|]. intros [|id body] e H; [cbn in H; discriminate H|].
  assert (L : blen (id :: body) - 1 = blen body) by (unfold blen; cbn [length]; lia). rewrite L. unfold decode_body in H. cbn [nth].
  assert (Emp : forall m, (if (length body =? 0)%nat then Ok m else Err (DBody id (blen body)) : outcome derror pmessage) = Err e -> e = DBody id (blen body)) by (intros m X; destruct (length body =? 0)%nat; congruence).
  destruct id as [|[[[p|p|]|[p|p|]|]|[[p|p|]|[p|p|]|]|]]; try discriminate H.
  - apply Emp in H. subst e. exists "Choke", "0". split; [cbn; tauto|reflexivity].
  - destruct (length body <? 8)%nat; [|discriminate H]. injection H as <-. exists "Have", ">= 8". split; [cbn; tauto|reflexivity].
  - apply Emp in H. subst e. exists "NotInterested", "0". split; [cbn; tauto|reflexivity].
  - destruct (negb (length body =? 4)%nat); [|discriminate H]. injection H as <-. exists "Have", "4". split; [cbn; tauto|reflexivity].
  - apply Emp in H. subst e. exists "Interested", "0". split; [cbn; tauto|reflexivity].
  - apply Emp in H. subst e. exists "Unchoke", "0". split; [cbn; tauto|reflexivity].
Qed.
Print Assumptions C138_error_texts.

(** ** C138: the text tells the whole log *)
Definition saying_ok (s : saying) : Prop :=
  match s with SMessage (BitField b) => bytes_ok b | SMessage (Piece _ _ b) => bytes_ok b | SReceiveError t | SSendError t => ~ In 10 t | _ => True end.
Lemma differ_sep m d d' R : (forall s u, render m d ++ s = render m d' ++ u -> False) -> sep m d d' R.
Proof. intros H s u _ _ E. destruct (H _ _ E). Qed.
Lemma same_sep m d (R : Prop) : R -> sep m d d R.
Proof. intros H s u _ _ E. apply app_inv_head in E. auto. Qed.
Lemma dmessage_sep m m' : sep None (dmessage m) (dmessage m') (m = m').
Proof.
  destruct m, m'; try (apply same_sep; reflexivity); try (apply differ_sep; intros s u E; discriminate E); cbn [dmessage].
  - apply single. eapply weaken; [|apply number_sep]. congruence.
  - apply single. eapply weaken; [|apply vec_numbers_sep]. congruence.
  - eapply weaken; [|apply seps_group; apply seps_cons; [apply number_sep|apply seps_cons; [apply number_sep|apply seps_cons; [apply vec_numbers_sep|apply seps_nil]]]]. intros (P & Q & R & _). congruence.
  - eapply weaken; [|apply seps_group; apply seps_cons; [apply number_sep|apply seps_cons; [apply vec_numbers_sep|apply seps_nil]]]. intros (P & Q & _). congruence.
Qed.
Lemma dmessage_inj m m' : plain (dmessage m) = plain (dmessage m') -> m = m'.
Proof. intros E. apply (dmessage_sep m m' [] [] I I). cbn [render]. rewrite !app_nil_r. exact E. Qed.
Lemma vec_free l : ~ In 10 (plain (dvec dnumber l)).
Proof.
  assert (G : ~ In 10 (commas (map plain (map dnumber l)))).
  { induction l as [|x [|y l] IH]; [intros []|apply decimal_free; lia|]. change (~ In 10 (decimal x ++ ascii_bytes ", " ++ commas (map plain (map dnumber (y :: l))))).
    apply app_free; [apply decimal_free; lia|]. apply app_free; [apply ascii_free; reflexivity|exact IH]. }
  destruct l as [|x l]; [intros [X|[X|[]]]; discriminate X|]. change (~ In 10 (ascii_bytes "[" ++ commas (map plain (map dnumber (x :: l))) ++ ascii_bytes "]")).
  apply app_free; [apply ascii_free; reflexivity|]. apply app_free; [exact G|apply ascii_free; reflexivity].
Qed.
Ltac free := repeat first [apply app_free | apply ascii_free; reflexivity | apply decimal_free; lia | apply vec_free].
Lemma hex_free d : bytes_ok d -> ~ In 10 (to_hex d).
Proof. intros B X. pose proof (to_hex_chars d B) as W. rewrite Forall_forall in W. apply W in X. unfold hex_char in X. lia. Qed.
Lemma message_line_free m : match m with BitField b | Piece _ _ b => bytes_ok b | _ => True end -> ~ In 10 (message_line m).
Proof.
  intros B. destruct m; cbn [message_line]; try (free; fail).
  - free. apply hex_free, B.
  - free. apply hex_free, B.
Qed.
Lemma saying_line_free s : saying_ok s -> ~ In 10 (saying_line s).
Proof.
  intros K. destruct s; cbn [saying_line saying_ok] in *; try (free; fail).
  - apply message_line_free. destruct m; exact K || exact I.
  - unfold status_line. destruct choked, interested; free.
  - free. exact K.
  - free. exact K.
  - destruct a; free.
Qed.
Ltac heads E := first [discriminate E | exfalso; discriminate E].
Lemma message_line_inj m m' : saying_ok (SMessage m) -> saying_ok (SMessage m') -> message_line m = message_line m' -> m = m'.
Proof.
  intros K K' E. destruct m, m'; cbn [message_line saying_ok] in *; try reflexivity; try discriminate E; try (apply app_inv_head in E; apply dmessage_inj in E; exact E).
  - apply app_inv_head in E. apply to_hex_inj in E; congruence.
  - apply app_inv_head in E.
    assert (E1 : decimal index ++ 44 :: (ascii_bytes " begin= " ++ decimal begin ++ 44 :: (ascii_bytes " block= " ++ to_hex block)) =
      decimal index0 ++ 44 :: (ascii_bytes " begin= " ++ decimal begin0 ++ 44 :: (ascii_bytes " block= " ++ to_hex block0))) by exact E. clear E.
    apply split_at in E1; [|apply decimal_free; lia|apply decimal_free; lia]. destruct E1 as (E1 & E). apply decimal_inj in E1.
    apply app_inv_head in E. apply split_at in E; [|apply decimal_free; lia|apply decimal_free; lia]. destruct E as (E3 & E2). apply decimal_inj in E3.
    apply app_inv_head in E2. apply to_hex_inj in E2; congruence.
Qed.
Lemma saying_line_inj s s' : saying_ok s -> saying_ok s' -> saying_line s = saying_line s' -> s = s'.
Proof.
  intros K K' E. destruct s, s'; cbn [saying_line] in E.
  all: try (repeat match goal with x : waction |- _ => destruct x end; repeat match goal with x : pmessage |- _ => destruct x end; cbn [message_line] in E; first [discriminate E|reflexivity]; fail).
  - apply app_inv_head, decimal_inj in E. congruence.
  - f_equal. apply message_line_inj; assumption.
  - apply app_inv_head in E. assert (E1 : decimal expected ++ 44 :: (ascii_bytes " got " ++ decimal got) = decimal expected0 ++ 44 :: (ascii_bytes " got " ++ decimal got0)) by exact E. clear E.
    apply split_at in E1; [|apply decimal_free; lia|apply decimal_free; lia]. destruct E1 as (E1 & E). apply decimal_inj in E1. apply app_inv_head, decimal_inj in E. congruence.
  - unfold status_line in E.
    assert (G : forall n n', ascii_bytes " them " ++ decimal 0 ++ ascii_bytes "/" ++ decimal n ++ ascii_bytes " us " ++ decimal 0 ++ ascii_bytes "/" ++ decimal n =
      ascii_bytes " them " ++ decimal 0 ++ ascii_bytes "/" ++ decimal n' ++ ascii_bytes " us " ++ decimal 0 ++ ascii_bytes "/" ++ decimal n' -> n = n').
    { intros n n' X. do 3 apply app_inv_head in X.
      assert (Y : decimal n ++ 32 :: (ascii_bytes "us " ++ decimal 0 ++ ascii_bytes "/" ++ decimal n) = decimal n' ++ 32 :: (ascii_bytes "us " ++ decimal 0 ++ ascii_bytes "/" ++ decimal n')) by exact X. clear X. rename Y into X.
      apply split_at in X; [|apply decimal_free; lia|apply decimal_free; lia]. destruct X as (X & _). apply decimal_inj, X. }
    apply app_inv_head in E. destruct choked, choked0; try discriminate E; destruct interested, interested0; try discriminate E; do 2 apply app_inv_head in E; apply G in E; congruence.
  - apply app_inv_head in E. congruence.
  - apply app_inv_head in E. congruence.
Qed.
Theorem C138_text_determines a b : Forall saying_ok a -> Forall saying_ok b -> log_text a = log_text b -> a = b.
Proof.
  intros A B E.
  assert (T : forall l, log_text l = lines (map saying_line l)) by (intros l; unfold log_text, lines, line; rewrite !flat_map_concat_map, map_map; reflexivity).
  rewrite !T in E. apply lines_inj in E; [|apply Forall_map; eapply Forall_impl; [|eassumption]; apply saying_line_free..].
  clear T. revert b B E. induction A as [|x a X A IH]; intros [|y b] B E; try discriminate E; [reflexivity|]. inversion B as [|? ? Y B']; subst. injection E as E1 E.
  f_equal; [apply saying_line_inj; assumption|apply IH; assumption].
Qed.
Print Assumptions C138_text_determines.

(** ** C138: what is printed before the loops *)
Definition intro_lines (show : addr -> bytes) (t : torrent) (a : addr) : list bytes :=
  [fill "Got peer: {}" [show a]; fill "info_hash = {}" [to_hex (t_info_hash t)]; fill "peer_id = f225276aee1416a5e245606dd48af34f88c01d15" []].
Definition hello_lines : list bytes := map (fun t => fill t []) ["Connected"; "request.len() = 68"; "Sent handshake"].
Theorem C138_opening io lossy show sha1 read lookup connect peer filename args data t a addrs :
  read filename = Some data -> from_bytes sha1 data = Ok t -> lookup peer = Some (a :: addrs) -> length (t_info_hash t) = 20%nat ->
  let said := download_said io lossy show sha1 read lookup connect (peer :: filename :: args) in
  match connect a with
  | None => said = (text_of (intro_lines show t a), [])
  | Some src =>
    match recv_handshake src with
    | (Some (Ok h), _) => said = (text_of (intro_lines show t a ++ hello_lines ++ [fill "Received handshake" []; fill "Remote info hash = {}" [to_hex (hs_info_hash h)]; fill "Remote peer id = {}" [to_hex (hs_peer_id h)]]), [])
    | (Some (Err e), _) => said = (text_of (intro_lines show t a ++ hello_lines), text_of [derror_text io lossy e])
    | _ => said = (text_of (intro_lines show t a ++ hello_lines), [])
    end
  end.
Proof.
  intros R P L Len said. subst said. unfold download_said. cbn [nth_error]. rewrite R, P, L.
  assert (L68 : blen (send_handshake (our_handshake t)) = 68).
  { unfold blen, send_handshake, our_handshake. cbn [hs_info_hash hs_peer_id]. rewrite !app_length, Len. reflexivity. }
  assert (Pid : to_hex tool_peer_id = ascii_bytes "f225276aee1416a5e245606dd48af34f88c01d15") by reflexivity.
  destruct (connect a) as [src|].
  - unfold peer_said. rewrite L68, Pid. destruct (recv_handshake src) as [[[h|e|]|] u]; unfold intro_lines, hello_lines, line; cbn; rewrite ?app_nil_r, <- ?app_assoc; cbn; rewrite ?app_nil_r, <- ?app_assoc; cbn; reflexivity.
  - rewrite Pid. unfold intro_lines, line. cbn. rewrite ?app_nil_r, <- ?app_assoc. cbn. rewrite <- ?app_assoc. reflexivity.
Qed.
Print Assumptions C138_opening.
Theorem C138_refusals io lossy show sha1 read lookup connect :
  download_said io lossy show sha1 read lookup connect [] = ([], text_of [fill "No peer specified" []]) /\
  (forall peer, download_said io lossy show sha1 read lookup connect [peer] = ([], text_of [fill "No filename specified" []])) /\
  (forall peer filename args data t, read filename = Some data -> from_bytes sha1 data = Ok t -> lookup peer = Some [] ->
     download_said io lossy show sha1 read lookup connect (peer :: filename :: args) = ([], text_of [fill "Lookup failed: {}" [peer]])) /\
  (forall args hello s, download_main sha1 read lookup connect args = DlRunning hello s -> exists before h,
     download_said io lossy show sha1 read lookup connect args =
     (before ++ text_of [fill "Received handshake" []; fill "Remote info hash = {}" [to_hex (hs_info_hash h)]; fill "Remote peer id = {}" [to_hex (hs_peer_id h)]], [])).
Proof.
  split; [reflexivity|]. split; [reflexivity|]. split.
  - intros peer filename args data t R P L. unfold download_said. cbn [nth_error]. rewrite R, P, L. cbn. rewrite !app_nil_r. reflexivity.
  - intros args hello s H. unfold download_main in H. unfold download_said. destruct (nth_error args 0) as [peer|]; [|discriminate]. destruct (nth_error args 1) as [filename|]; [|discriminate].
    destruct (read filename) as [data|]; [|discriminate]. destruct (from_bytes sha1 data) as [t|e|]; try discriminate. destruct (lookup peer) as [[|a addrs]|]; try discriminate.
    destruct (connect a) as [src|]; [|discriminate]. unfold peer_connection in H. unfold peer_said. destruct (recv_handshake src) as [[[h|e|]|] u]; try discriminate H.
    match goal with |- context [(?a ++ ?b ++ line (ascii_bytes "Received handshake") ++ ?r, _)] => exists (a ++ b), h end. f_equal. rewrite <- (app_assoc _ _ (text_of _)). do 2 f_equal.
    unfold text_of, line. cbn [flat_map]. rewrite app_nil_r. cbn [fill]. cbn. rewrite !app_nil_r. reflexivity.
Qed.
Print Assumptions C138_refusals.

(** *** A concrete run: the peer unchokes us, sends a piece and then a message that is too short *)
Definition case_src : list item := map Byte [0; 0; 0; 1; 1; 0; 0; 0; 10; 7; 0; 0; 0; 0; 0; 0; 0; 5; 255; 0; 0; 0; 2; 4; 9].
Example C138_case io lossy : io UnexpectedEof = ascii_bytes "broken pipe" -> exists says l, lruns io lossy (l_init 12 case_src) says l /\
  messages_in says = [Unchoke; Piece 0 5 [255]] /\ actions_in says = [ABitField; AInterested] /\
  log_text says = text_of (map ascii_bytes ["connection_writer: sent bitfield"; "read_message: body.len() = 1"; "Peer status: C N them 0/12 us 0/12"; "Unchoke"; "Peer status: U N them 0/12 us 0/12";
    "connection_writer: sent interested"; "read_message: body.len() = 10"; "Piece index= 0, begin= 5, block= ff"; "Peer status: U N them 0/12 us 0/12"; "Peer status: U I them 0/12 us 0/12";
    "Error while sending message: broken pipe"; "read_message: body.len() = 2"; "Error while receiving message: Have body: 1 bytes, expected 4"; "Finished"]).
Proof.
  intros IO. pose proof (l_here io lossy (l_init 12 case_src)) as H. vm_compute in H.
  Ltac forth H R := eapply l_then in H; [|cbn; discriminate|eapply R; reflexivity]; vm_compute in H.
  forth H l_writer_go. forth H l_choose. forth H l_write. forth H l_go. eapply l_then in H; [|cbn; discriminate|eapply (l_body _ _ _ 10); vm_compute; reflexivity]; vm_compute in H. forth H l_flag. forth H l_message.
  forth H l_choose. forth H l_write. forth H l_go. eapply l_then in H; [|cbn; discriminate|eapply (l_body _ _ _ 20); vm_compute; reflexivity]; vm_compute in H. forth H l_message. forth H l_flag. forth H l_choose. forth H l_go.
  eapply l_then in H; [|cbn; discriminate|eapply (l_write_fails _ _ _ _ 0 UnexpectedEof); [reflexivity|vm_compute; lia]]; vm_compute in H.
  eapply l_then in H; [|cbn; discriminate|eapply (l_body _ _ _ 20); vm_compute; reflexivity]; vm_compute in H. forth H l_error. forth H l_stop. forth H l_finish.
  eexists _, _. split; [exact H|]. rewrite IO. vm_compute. auto.
Qed.
