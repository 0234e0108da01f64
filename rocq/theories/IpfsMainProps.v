(** C116: what a node asks of another, and what the other answers, in every order of events. *)
From Verif Require Import Base BaseProofs VarintModel VarintSpec VarintProofs VarintProofs2 ProtobufModel MplexModel CidModel CidTextModel IdentifyModel BitswapModel BlockModel DagPbModel UnixfsModel
  MessageSpec MessageProofs2 MessageProofs3 MessageProps LpioModel LpioSpec LpioProofs LpioProps HandlerModel HandlerProps IpfsMainModel ConversationSpec.

(** *** Conversations are confluent *)
Lemma feed_app data : forall d r n x, feed d data = (r, n) -> r <> Pending -> feed d (data ++ x) = (r, n).
Proof.
  induction data as [|b data IH]; intros d r n x; cbn [feed app]; [intros H; assert (r = Pending) by congruence; congruence|].
  destruct (decoder_input d b) as [d' [v| |]]; try (intros H _; exact H).
  destruct (feed d' data) as [r0 n0] eqn:E. intros H P. assert (r0 = r) as -> by congruence. rewrite (IH d' r n0 x E P). exact H.
Qed.
Lemma feed_le data : forall d r n, feed d data = (r, n) -> (n <= length data)%nat.
Proof.
  induction data as [|b data IH]; intros d r n; cbn [feed length]; [intros H; injection H as <- <-; lia|].
  destruct (decoder_input d b) as [d' [v| |]]; try (intros H; injection H as <- <-; lia).
  destruct (feed d' data) as [r0 n0] eqn:E. intros H. injection H as <- <-. apply IH in E. lia.
Qed.
Lemma skipn_app_le {X} n (l r : list X) : (n <= length l)%nat -> skipn n (l ++ r) = skipn n l ++ r.
Proof. intros H. rewrite skipn_app. replace (n - length l)%nat with 0%nat by lia. reflexivity. Qed.
Lemma heard_app has m rest x : heard has = Some (m, rest) -> heard (has ++ x) = Some (m, rest ++ x).
Proof.
  unfold heard, flat_message, flat_varint. destruct (feed decoder_new has) as [q n] eqn:E. pose proof (feed_le _ _ _ _ E) as L. intros H.
  assert (P : q <> Pending) by (intros ->; destruct has; discriminate).
  rewrite (feed_app _ _ _ _ x E P). destruct q as [v| |]; [| |congruence]; rewrite skipn_app_le by exact L; [|injection H as <- <-; reflexivity].
  destruct (v <=? blen (skipn n has)) eqn:V; [|discriminate]. rewrite blen_app. replace (v <=? blen (skipn n has) + blen x) with true by lia.
  assert (K : (N.to_nat v <= length (skipn n has))%nat) by (unfold blen in V; lia). rewrite firstn_app, (skipn_app_le (N.to_nat v)) by exact K.
  replace (N.to_nat v - length (skipn n has))%nat with 0%nat by lia. cbn [firstn]. rewrite app_nil_r. injection H as <- <-. reflexivity.
Qed.
Lemma diamond {A B} (s a b : net A B) : step s a -> step s b -> a = b \/ exists c, step a c /\ step b c.
Proof.
  intros Ha Hb. inversion Ha; subst; inversion Hb; subst; try (left; congruence); right;
  repeat match goal with H : heard ?h = Some _ |- context [?h ++ [?x]] => apply heard_app with (x := [x]) in H end;
  try (eexists; split; [econstructor; eassumption|econstructor; eassumption]);
  try (eexists; split; [econstructor; eassumption|econstructor]);
  try (eexists; split; [econstructor|econstructor; eassumption]);
  try (eexists; split; [econstructor|econstructor]);
  fail.
Qed.
Lemma steps_end {A B} n : forall (s t a : net A B), steps n s t -> stuck t -> step s a -> exists n', n = S n' /\ steps n' a t.
Proof.
  induction n as [|n IH]; intros s t a H St Sa.
  - inversion H; subst. exfalso. exact (St _ Sa).
  - inversion H as [|? ? b ? Sb Hb]; subst. exists n. split; [reflexivity|].
    destruct (diamond _ _ _ Sa Sb) as [->|(c & Sc & Sc')]; [exact Hb|].
    destruct (IH _ _ _ Hb St Sc') as (n' & -> & Hc). econstructor; eassumption.
Qed.
Lemma steps_det {A B} (s t : net A B) n : steps n s t -> stuck t -> always_ends s t.
Proof.
  intros H St. split; [exact St|]. exists n. intros m. revert n s H. induction m as [|m IH]; intros n s H u Hu.
  - inversion Hu; subst. split; [lia|]. rewrite Nat.sub_0_r. exact H.
  - inversion Hu as [|? ? a ? Sa Ha]; subst. destruct (steps_end _ _ _ _ H St Sa) as (n' & -> & H').
    destruct (IH _ _ H' _ Ha) as [L X]. split; [lia|exact X].
Qed.
Inductive star {A B} : net A B -> net A B -> Prop :=
| star_0 s : star s s
| star_S s t u : step s t -> star t u -> star s u.
Lemma star_steps {A B} (s t : net A B) : star s t -> exists n, steps n s t.
Proof. induction 1 as [|s t u St _ (n & IH)]; [exists 0%nat; constructor|]. exists (S n). econstructor; eassumption. Qed.
Lemma star_trans {A B} (s t u : net A B) : star s t -> star t u -> star s u.
Proof. induction 1; [auto|]. intros. econstructor; eauto. Qed.
Lemma a_gets_all {A B} (p : prog A) (q : prog B) w : forall ha hb wb, star (mknet p ha w q hb wb) (mknet p (ha ++ w) [] q hb wb).
Proof.
  induction w as [|x w IH]; intros ha hb wb; [rewrite app_nil_r; constructor|]. eapply star_S; [apply a_gets|].
  specialize (IH (ha ++ [x]) hb wb). rewrite <- app_assoc in IH. exact IH.
Qed.
Lemma b_gets_all {A B} (p : prog A) (q : prog B) w : forall ha wa hb, star (mknet p ha wa q hb w) (mknet p ha wa q (hb ++ w) []).
Proof.
  induction w as [|x w IH]; intros ha wa hb; [rewrite app_nil_r; constructor|]. eapply star_S; [apply b_gets|].
  specialize (IH ha wa (hb ++ [x])). rewrite <- app_assoc in IH. exact IH.
Qed.
Lemma heard_write m rest : fits m -> heard (write_message m ++ rest) = Some (Ok (Some m), rest).
Proof. intros F. unfold heard. rewrite flat_write by exact F. reflexivity. Qed.
Lemma heard_nil : heard [] = None. Proof. reflexivity. Qed.

(** *** The code as programs *)
(** multistream.rs:21-39. *)
Definition select_prog {R} (protocol : bytes) (k : outcome ioerr select_response -> prog R) : prog R :=
  Say (write_message protocol) (Hear (fun r => k (match or_eof r with
    | Ok data => if bytes_eqb data protocol then Ok Accepted else if bytes_eqb data na then Ok Unsupported else Err InvalidData
    | Err e => Err e | Panic => Panic end))).
Definition handshake_prog {R} (k : outcome ioerr unit -> prog R) : prog R :=
  select_prog multistream_header (fun r => k (match r with Ok Accepted => Ok tt | Ok Unsupported => Err InvalidData | Err e => Err e | Panic => Panic end)).
(** ipfs.rs:272-283, 289-300. *)
Definition open_prog {X} (protocol : bytes) (name : string) (k : prog (outcome node_error X)) : prog (outcome node_error X) :=
  handshake_prog (fun r => match r with
    | Ok _ => select_prog protocol (fun r => match r with
        | Ok Accepted => k | Ok Unsupported => Stop (Err (NUnsupported name)) | Err e => Stop (Err (NIo e)) | Panic => Stop Panic end)
    | Err e => Stop (Err (NIo e)) | Panic => Stop Panic end).
Definition identify_prog : prog (outcome node_error (option identify)) :=
  open_prog id_protocol "identify protocol unsupported" (Hear (fun r => Stop (match r with
    | Ok (Some data) => match identify_from_pb data with Ok i => Ok (Some i) | Err e => Err (NPb e) | Panic => Panic end
    | Ok None => Ok None | Err e => Err (NIo e) | Panic => Panic end))).
Section Progs.
Context (sha256 blake2b256 : bytes -> bytes).
(** handler.rs:56-120; [acc] is what was logged, [f] what becomes of the result. *)
CoFixpoint bitswap_prog {R} (f : list bs_line -> outcome bs_error unit -> R) (acc : list bs_line) : prog R :=
  Hear (fun r => match r with
    | Ok None => Stop (f (acc ++ [LClosed]) (Ok tt))
    | Err e => Stop (f acc (Err (BIo e)))
    | Panic => Stop (f acc Panic)
    | Ok (Some data) => match bs_message_from_pb data with
        | Err e => Stop (f (acc ++ [LBadMessage e]) (Ok tt))
        | Panic => Stop (f acc Panic)
        | Ok m => match handle_blocks sha256 blake2b256 (bm_blocks m) with
            | (l, Ok _) => bitswap_prog f (acc ++ LSame (bytes_eqb (bs_message_to_pb m) data) :: l)
            | (l, r) => Stop (f (acc ++ LSame (bytes_eqb (bs_message_to_pb m) data) :: l) r) end end end).
Definition show_prog (text : bytes) : prog (outcome node_error (list bs_line * outcome bs_error unit)) :=
  open_prog bitswap_protocol "bitswap protocol unsupported" (match cid_from_string text with
    | Err e => Stop (Ok ([], Err (BCid e))) | Panic => Stop (Ok ([], Panic))
    | Ok c => Say (write_message (bs_message_to_pb (request_message c))) (bitswap_prog (fun l r => Ok (l, r)) []) end).
(** ipfs.rs:82-110. *)
CoFixpoint requests_prog (key : bytes) : prog (outcome unit served) :=
  Hear (fun r => match r with
    | Ok None => Stop (Ok SEnded)
    | Err e => Stop (Ok (SFailed e))
    | Panic => Stop Panic
    | Ok (Some data) => match registry_lookup node_services data with
        | Some HIdentify => Say (write_message id_protocol) (Say (identify_handler key) (Stop (Ok SIdentify)))
        | Some HBitswap => Say (write_message id_protocol) (bitswap_prog (fun l r => Ok (SBitswap l r)) [])
        | None => Say (write_message na) (requests_prog key) end end).
Definition serve_prog (key : bytes) : prog (outcome unit served) :=
  handshake_prog (fun r => match r with Ok _ => requests_prog key | Err e => Stop (Ok (SFailed e)) | Panic => Stop Panic end).

Lemma prog_eq {R} (p : prog R) : p = match p with Stop r => Stop r | Say b k => Say b k | Hear k => Hear k end.
Proof. destruct p; reflexivity. Qed.
(** The program run alone does what the model of the code does, whatever is read. *)
Lemma select_runs {R} protocol (k : outcome ioerr select_response -> prog R) src x out src1 r out' src' :
  multistream_select protocol src = (Some x, out, src1) -> runs (k x) src1 r out' src' -> runs (select_prog protocol k) src r (out ++ out') src'.
Proof.
  unfold multistream_select, read_message, select_prog. destruct (read_opt_message None src) as [[m lim] s] eqn:E.
  destruct m as [m|]; cbn [option_map]; [|discriminate]. intros H K.
  assert (out = write_message protocol) as -> by congruence. assert (s = src1) as -> by congruence.
  constructor. eapply runs_hear; [exact E|].
  assert (match or_eof m with
    | Ok data => if bytes_eqb data protocol then Ok Accepted else if bytes_eqb data na then Ok Unsupported else Err InvalidData
    | Err e => Err e | Panic => Panic end = x) as ->; [|exact K].
  destruct (or_eof m) as [d|e|]; [|congruence..]. destruct (bytes_eqb d protocol); [congruence|]. destruct (bytes_eqb d na); congruence.
Qed.
Lemma handshake_runs {R} (k : outcome ioerr unit -> prog R) src x out src1 r out' src' :
  multistream_handshake src = (Some x, out, src1) -> runs (k x) src1 r out' src' -> runs (handshake_prog k) src r (out ++ out') src'.
Proof.
  unfold multistream_handshake, handshake_prog. destruct (multistream_select multistream_header src) as [[m o] s] eqn:E. intros H K.
  assert (o = out) as -> by congruence. assert (s = src1) as -> by congruence.
  destruct m as [m|]; [|discriminate]. eapply select_runs; [exact E|].
  assert (match m with Ok Accepted => Ok tt | Ok Unsupported => Err InvalidData | Err e => Err e | Panic => Panic end = x) as ->; [|exact K].
  destruct m as [[|]|e|]; congruence.
Qed.
Lemma open_runs {X} protocol name (k : prog (outcome node_error X)) src x out src1 r out' src' :
  open_protocol protocol name src = (Some x, out, src1) ->
  match x with Ok _ => runs k src1 r out' src' | Err e => r = Err e /\ out' = [] /\ src' = src1 | Panic => r = Panic /\ out' = [] /\ src' = src1 end ->
  runs (open_prog protocol name k) src r (out ++ out') src'.
Proof.
  unfold open_protocol, open_prog, negotiate. destruct (multistream_handshake src) as [[m o] s] eqn:E. intros H K.
  destruct m as [[u|e|]|]; [| | |discriminate].
  - destruct (multistream_select protocol s) as [[m2 o2] s2] eqn:E2.
    assert (out = o ++ o2) as -> by congruence. assert (s2 = src1) as -> by congruence.
    destruct m2 as [m2|]; [|discriminate]. rewrite <- app_assoc. eapply handshake_runs; [exact E|]. cbn beta iota.
    eapply select_runs; [exact E2|]. destruct m2 as [[|]|e|].
    + assert (x = Ok tt) as -> by congruence. exact K.
    + assert (x = Err (NUnsupported name)) as -> by congruence. destruct K as (-> & -> & ->). constructor.
    + assert (x = Err (NIo e)) as -> by congruence. destruct K as (-> & -> & ->). constructor.
    + assert (x = Panic) as -> by congruence. destruct K as (-> & -> & ->). constructor.
  - assert (x = Err (NIo e)) as -> by congruence. assert (o = out) as -> by congruence. assert (s = src1) as -> by congruence.
    destruct K as (-> & -> & ->). eapply handshake_runs; [exact E|]. constructor.
  - assert (x = Panic) as -> by congruence. assert (o = out) as -> by congruence. assert (s = src1) as -> by congruence.
    destruct K as (-> & -> & ->). eapply handshake_runs; [exact E|]. constructor.
Qed.
Lemma bitswap_runs {R} (f : list bs_line -> outcome bs_error unit -> R) fuel : forall acc src l r src',
  bitswap_loop sha256 blake2b256 fuel src = (l, Some r, src') -> runs (bitswap_prog f acc) src (f (acc ++ l) r) [] src'.
Proof.
  induction fuel as [|fuel IH]; intros acc src l r src' H; [discriminate|]. cbn [bitswap_loop] in H.
  rewrite (prog_eq (bitswap_prog f acc)). cbn [bitswap_prog].
  destruct (read_opt_message None src) as [[m lim] s] eqn:E. destruct m as [m|]; [|discriminate].
  eapply runs_hear; [exact E|]. destruct m as [[data|]|e|].
  - destruct (bs_message_from_pb data) as [m|e|].
    + destruct (handle_blocks sha256 blake2b256 (bm_blocks m)) as [l1 [u|e|]].
      * destruct (bitswap_loop sha256 blake2b256 fuel s) as [[l2 r2] s2] eqn:E2.
        assert (l = LSame (bytes_eqb (bs_message_to_pb m) data) :: l1 ++ l2) as -> by congruence. assert (r2 = Some r) as -> by congruence. assert (s2 = src') as -> by congruence.
        change (acc ++ LSame (bytes_eqb (bs_message_to_pb m) data) :: l1 ++ l2) with (acc ++ (LSame (bytes_eqb (bs_message_to_pb m) data) :: l1) ++ l2). rewrite app_assoc. apply IH. exact E2.
      * assert (l = LSame (bytes_eqb (bs_message_to_pb m) data) :: l1) as -> by congruence. assert (r = Err e) as -> by congruence. assert (s = src') as -> by congruence. constructor.
      * assert (l = LSame (bytes_eqb (bs_message_to_pb m) data) :: l1) as -> by congruence. assert (r = Panic) as -> by congruence. assert (s = src') as -> by congruence. constructor.
    + assert (l = [LBadMessage e]) as -> by congruence. assert (r = Ok tt) as -> by congruence. assert (s = src') as -> by congruence. constructor.
    + assert (l = []) as -> by congruence. assert (r = Panic) as -> by congruence. assert (s = src') as -> by congruence. rewrite app_nil_r. constructor.
  - assert (l = [LClosed]) as -> by congruence. assert (r = Ok tt) as -> by congruence. assert (s = src') as -> by congruence. constructor.
  - assert (l = []) as -> by congruence. assert (r = Err (BIo e)) as -> by congruence. assert (s = src') as -> by congruence. rewrite app_nil_r. constructor.
  - assert (l = []) as -> by congruence. assert (r = Panic) as -> by congruence. assert (s = src') as -> by congruence. rewrite app_nil_r. constructor.
Qed.
(** C116: the three programs are the code: run alone they write, read and leave what the
    models of the commands do, on every stream. *)
Theorem C116_identify_program src r out src' :
  identify_command src = (Some r, out, src') -> runs identify_prog src r out src'.
Proof.
  unfold identify_command, identify_prog, identify_client_inner. destruct (open_protocol id_protocol "identify protocol unsupported" src) as [[x o] s] eqn:E. intros H.
  destruct x as [[u|e|]|]; [| | |discriminate].
  - destruct (read_opt_message None s) as [[m lim] s2] eqn:E2.
    assert (out = o ++ [] /\ exists m0, m = Some m0 /\ s2 = src') as (-> & m0 & -> & ->).
    { destruct m as [m|]; [|discriminate]. rewrite app_nil_r. destruct m as [[d|]|e|]; (split; [congruence|eexists; split; [reflexivity|congruence]]). }
    eapply open_runs; [exact E|]. cbn beta iota. eapply runs_hear; [exact E2|].
    destruct m0 as [[d|]|e|]; (assert (r = _) as -> by (symmetry; injection H as H; exact H)); constructor.
  - assert (r = Err e) as -> by congruence. assert (o = out) as -> by congruence. assert (s = src') as -> by congruence.
    rewrite <- (app_nil_r out). eapply open_runs; [exact E|]. cbn. auto.
  - assert (r = Panic) as -> by congruence. assert (o = out) as -> by congruence. assert (s = src') as -> by congruence.
    rewrite <- (app_nil_r out). eapply open_runs; [exact E|]. cbn. auto.
Qed.
Theorem C116_show_program text src r out src' :
  show_command sha256 blake2b256 text src = (Some r, out, src') -> runs (show_prog text) src r out src'.
Proof.
  unfold show_command, show_prog, bitswap_handler. destruct (open_protocol bitswap_protocol "bitswap protocol unsupported" src) as [[x o] s] eqn:E. intros H.
  destruct x as [[u|e|]|]; [| | |discriminate].
  - destruct (cid_from_string text) as [c|e|].
    + destruct (bitswap_loop sha256 blake2b256 (S (length s)) s) as [[l r0] s2] eqn:E2. cbn beta iota in H. destruct r0 as [r0|]; [|discriminate]. cbn [option_map] in H.
      assert (r = Ok (l, r0)) as -> by congruence. assert (out = o ++ write_message (bs_message_to_pb (request_message c)) ++ []) as -> by (rewrite app_nil_r; congruence).
      assert (s2 = src') as -> by congruence. eapply open_runs; [exact E|]. cbn beta iota. constructor. exact (bitswap_runs _ _ [] _ _ _ _ E2).
    + cbn [option_map] in H. assert (r = Ok ([], Err (BCid e))) as -> by congruence. assert (out = o ++ []) as -> by congruence. assert (s = src') as -> by congruence.
      eapply open_runs; [exact E|]. cbn beta iota. constructor.
    + cbn [option_map] in H. assert (r = Ok ([], Panic)) as -> by congruence. assert (out = o ++ []) as -> by congruence. assert (s = src') as -> by congruence.
      eapply open_runs; [exact E|]. cbn beta iota. constructor.
  - assert (r = Err e) as -> by congruence. assert (o = out) as -> by congruence. assert (s = src') as -> by congruence.
    rewrite <- (app_nil_r out). eapply open_runs; [exact E|]. cbn. auto.
  - assert (r = Panic) as -> by congruence. assert (o = out) as -> by congruence. assert (s = src') as -> by congruence.
    rewrite <- (app_nil_r out). eapply open_runs; [exact E|]. cbn. auto.
Qed.
Lemma requests_runs key fuel : forall src x out src1 r out' src',
  request_loop fuel node_services src = (Some x, out, src1) ->
  match x with
  | Err e => r = Ok (SFailed e) /\ out' = [] /\ src' = src1
  | Panic => r = Panic /\ out' = [] /\ src' = src1
  | Ok None => r = Ok SEnded /\ out' = [] /\ src' = src1
  | Ok (Some HIdentify) => r = Ok SIdentify /\ out' = identify_handler key /\ src' = src1
  | Ok (Some HBitswap) => out' = [] /\ exists l b, r = Ok (SBitswap l b) /\ bitswap_loop sha256 blake2b256 (S (length src1)) src1 = (l, Some b, src')
  end -> runs (requests_prog key) src r (out ++ out') src'.
Proof.
  induction fuel as [|fuel IH]; intros src x out src1 r out' src' H K; [discriminate|]. cbn [request_loop] in H.
  rewrite (prog_eq (requests_prog key)). cbn [requests_prog].
  destruct (read_opt_message None src) as [[m lim] s] eqn:E. destruct m as [m|]; [|discriminate].
  eapply runs_hear; [exact E|]. destruct m as [[data|]|e|].
  - destruct (registry_lookup node_services data) as [h|].
    + assert (x = Ok (Some h)) as -> by congruence. assert (out = write_message id_protocol) as -> by congruence. assert (s = src1) as -> by congruence.
      destruct h.
      * destruct K as (-> & -> & ->). constructor. pose proof (runs_say (identify_handler key) _ src1 _ _ _ (runs_stop (@Ok unit served SIdentify) src1)) as Q. rewrite app_nil_r in Q. exact Q.
      * destruct K as (-> & l & b & -> & K). constructor. exact (bitswap_runs _ _ [] _ _ _ _ K).
    + destruct (request_loop fuel node_services s) as [[x2 o2] s2] eqn:E2. assert (x2 = Some x) as -> by congruence.
      assert (out = write_message na ++ o2) as -> by congruence. assert (s2 = src1) as -> by congruence. rewrite <- app_assoc. constructor. eapply IH; [exact E2|exact K].
  - assert (x = Ok None) as -> by congruence. assert (out = []) as -> by congruence. assert (s = src1) as -> by congruence. destruct K as (-> & -> & ->). constructor.
  - assert (x = Err e) as -> by congruence. assert (out = []) as -> by congruence. assert (s = src1) as -> by congruence. destruct K as (-> & -> & ->). constructor.
  - assert (x = Panic) as -> by congruence. assert (out = []) as -> by congruence. assert (s = src1) as -> by congruence. destruct K as (-> & -> & ->). constructor.
Qed.
Theorem C116_serve_program key src r out src' :
  serve sha256 blake2b256 key src = (Some r, out, src') -> runs (serve_prog key) src r out src'.
Proof.
  unfold serve, serve_prog, connection_handler2. destruct (multistream_handshake src) as [[x o] s] eqn:E. intros H.
  destruct x as [[u|e|]|]; [| | |discriminate].
  - destruct (request_loop (S (length s)) node_services s) as [[x2 o2] s2] eqn:E2. destruct x2 as [x2|]; [|discriminate].
    assert (K : exists o3, out = o ++ o2 ++ o3 /\ match x2 with
      | Err e => r = Ok (SFailed e) /\ o3 = [] /\ src' = s2
      | Panic => r = Panic /\ o3 = [] /\ src' = s2
      | Ok None => r = Ok SEnded /\ o3 = [] /\ src' = s2
      | Ok (Some HIdentify) => r = Ok SIdentify /\ o3 = identify_handler key /\ src' = s2
      | Ok (Some HBitswap) => o3 = [] /\ exists l b, r = Ok (SBitswap l b) /\ bitswap_loop sha256 blake2b256 (S (length s2)) s2 = (l, Some b, src')
      end).
    { destruct x2 as [[[|]|]|e|].
      - exists (identify_handler key). rewrite app_assoc. split; [congruence|]. split; [congruence|]. split; [reflexivity|congruence].
      - unfold bitswap_handler in H. destruct (bitswap_loop sha256 blake2b256 (S (length s2)) s2) as [[l b] s3]. destruct b as [b|]; [|discriminate]. cbn [option_map] in H.
        exists []. rewrite app_assoc. split; [congruence|]. split; [reflexivity|]. exists l, b. split; congruence.
      - exists []. rewrite app_nil_r. split; [congruence|]. split; [congruence|]. split; [reflexivity|congruence].
      - exists []. rewrite app_nil_r. split; [congruence|]. split; [congruence|]. split; [reflexivity|congruence].
      - exists []. rewrite app_nil_r. split; [congruence|]. split; [congruence|]. split; [reflexivity|congruence]. }
    destruct K as (o3 & -> & K). eapply handshake_runs; [exact E|]. cbn beta iota. eapply requests_runs; [exact E2|exact K].
  - assert (r = Ok (SFailed e)) as -> by congruence. assert (o = out) as -> by congruence. assert (s = src') as -> by congruence.
    rewrite <- (app_nil_r out). eapply handshake_runs; [exact E|]. constructor.
  - assert (r = Panic) as -> by congruence. assert (o = out) as -> by congruence. assert (s = src') as -> by congruence.
    rewrite <- (app_nil_r out). eapply handshake_runs; [exact E|]. constructor.
Qed.

(** *** Two nodes *)
(** Both shake hands and the request arrives. *)
Lemma opening {X} protocol name (k : prog (outcome node_error X)) key : fits protocol ->
  star (meet (open_prog protocol name k) (serve_prog key))
    (mknet (Hear (fun r => match (match or_eof r with
        | Ok data => if bytes_eqb data protocol then Ok Accepted else if bytes_eqb data na then Ok Unsupported else Err InvalidData
        | Err e => Err e | Panic => Panic end) with
        | Ok Accepted => k | Ok Unsupported => Stop (Err (NUnsupported name)) | Err e => Stop (Err (NIo e)) | Panic => Stop Panic end)) [] []
      (requests_prog key) (write_message protocol) []).
Proof.
  intros F. unfold meet, open_prog, serve_prog, handshake_prog. unfold select_prog at 1 3.
  eapply star_S; [apply a_says|]. eapply star_S; [apply b_says|]. cbn [app].
  eapply star_trans; [apply a_gets_all|]. eapply star_trans; [apply b_gets_all|]. cbn [app].
  eapply star_S. { eapply a_hears. rewrite <- (app_nil_r (write_message multistream_header)). apply heard_write. reflexivity. }
  eapply star_S. { eapply b_hears. rewrite <- (app_nil_r (write_message multistream_header)). apply heard_write. reflexivity. }
  cbn [or_eof]. rewrite bytes_eqb_refl. unfold select_prog. eapply star_S; [apply a_says|]. cbn [app]. apply b_gets_all.
Qed.
Lemma bitswap_hears {R} (f : list bs_line -> outcome bs_error unit -> R) acc : exists k, bitswap_prog f acc = Hear k.
Proof. rewrite (prog_eq (bitswap_prog f acc)). cbn [bitswap_prog]. eauto. Qed.
(** C116: the command [identify] against another node of this code: whatever the order of
    writes, reads and deliveries, it ends, and always with the answering node's own
    description: its key, its protocols.  Nothing is left unread. *)
Theorem C116_identify_works key : bytes_ok key -> length key = 32%nat ->
  exists i, always_ends (meet identify_prog (serve_prog key)) (mknet (Stop (Ok (Some i))) [] [] (Stop (Ok SIdentify)) [] []) /\
    id_public_key i = {| pk_type := KEd25519; pk_data := key |} /\
    id_protocols i = [ascii_bytes "/ipfs/id/1.0.0"; ascii_bytes "/ipfs/bitswap/1.2.0"].
Proof.
  intros K L. exists (handler_identify key). split; [|split; reflexivity].
  assert (St : star (meet identify_prog (serve_prog key)) (mknet (Stop (Ok (Some (handler_identify key)))) [] [] (Stop (Ok SIdentify)) [] [])).
  { eapply star_trans; [apply opening; reflexivity|]. rewrite (prog_eq (requests_prog key)). cbn [requests_prog].
    eapply star_S. { eapply b_hears. rewrite <- (app_nil_r (write_message id_protocol)). apply heard_write. reflexivity. }
    change (registry_lookup node_services id_protocol) with (Some HIdentify). cbn beta iota.
    eapply star_S; [apply b_says|]. eapply star_S; [apply b_says|]. cbn [app]. eapply star_trans; [apply a_gets_all|]. cbn [app].
    eapply star_S. { eapply a_hears. apply heard_write. reflexivity. }
    cbn [or_eof]. rewrite bytes_eqb_refl. eapply star_S. { eapply a_hears. unfold identify_handler. rewrite <- (app_nil_r (write_message _)). apply heard_write. apply handler_identify_fits, L. }
    cbn beta iota. rewrite C10_identify_round_trip; [constructor|apply handler_identify_ok, K|apply handler_identify_fits, L]. }
  destruct (star_steps _ _ St) as (n & Sn). apply (steps_det _ _ n Sn). intros t H. inversion H.
Qed.
(** C116, refuted: the command [show] against another node of this code always fails with
    "invalid data", for every text given, before anything is asked for; the answering node
    is left in its bitswap handler with nothing to read. *)
Theorem C116_show_refuted text key : exists k,
  always_ends (meet (show_prog text) (serve_prog key)) (mknet (Stop (Err (NIo InvalidData))) [] [] (Hear k) [] []) /\
  bitswap_prog (fun l r => Ok (SBitswap l r)) [] = Hear k.
Proof.
  destruct (bitswap_hears (fun l r => @Ok unit served (SBitswap l r)) []) as (k & Ek). exists k. split; [|exact Ek].
  assert (St : star (meet (show_prog text) (serve_prog key)) (mknet (Stop (Err (NIo InvalidData))) [] [] (Hear k) [] [])).
  { eapply star_trans; [apply opening; reflexivity|]. rewrite (prog_eq (requests_prog key)). cbn [requests_prog].
    eapply star_S. { eapply b_hears. rewrite <- (app_nil_r (write_message bitswap_protocol)). apply heard_write. reflexivity. }
    change (registry_lookup node_services bitswap_protocol) with (Some HBitswap). cbn beta iota. rewrite Ek.
    eapply star_S; [apply b_says|]. cbn [app]. eapply star_trans; [apply a_gets_all|]. cbn [app].
    eapply star_S. { eapply a_hears. rewrite <- (app_nil_r (write_message id_protocol)). apply heard_write. reflexivity. }
    cbn [or_eof]. change (bytes_eqb id_protocol bitswap_protocol) with false. change (bytes_eqb id_protocol na) with false. constructor. }
  destruct (star_steps _ _ St) as (n & Sn). apply (steps_det _ _ n Sn). intros t H. inversion H; subst. discriminate.
Qed.
(** C116: any other protocol is refused in every order of events, and the answering node goes
    on waiting for the next request. *)
Theorem C116_unknown_refused {X} protocol name (k : prog (outcome node_error X)) key : fits protocol -> protocol <> ascii_bytes "na" ++ [10] ->
  protocol <> ascii_bytes "/ipfs/id/1.0.0" ++ [10] -> protocol <> ascii_bytes "/ipfs/bitswap/1.2.0" ++ [10] ->
  exists k', always_ends (meet (open_prog protocol name k) (serve_prog key)) (mknet (Stop (Err (NUnsupported name))) [] [] (Hear k') [] []) /\ requests_prog key = Hear k'.
Proof.
  intros F N0 N1 N2. assert (Ek : exists k', requests_prog key = Hear k') by (rewrite (prog_eq (requests_prog key)); cbn [requests_prog]; eauto).
  destruct Ek as (k' & Ek). exists k'. split; [|exact Ek].
  assert (U : registry_lookup node_services protocol = None).
  { unfold node_services, registry_add. cbn [app registry_lookup svc_bname svc_handler].
    destruct (bytes_eqb (ascii_bytes "/ipfs/id/1.0.0" ++ [10]) protocol) eqn:E1; [apply bytes_eqb_eq in E1; congruence|].
    destruct (bytes_eqb (ascii_bytes "/ipfs/bitswap/1.2.0" ++ [10]) protocol) eqn:E2; [apply bytes_eqb_eq in E2; congruence|]. reflexivity. }
  assert (St : star (meet (open_prog protocol name k) (serve_prog key)) (mknet (Stop (Err (NUnsupported name))) [] [] (Hear k') [] [])).
  { eapply star_trans; [apply opening; exact F|]. rewrite (prog_eq (requests_prog key)). cbn [requests_prog].
    eapply star_S. { eapply b_hears. rewrite <- (app_nil_r (write_message protocol)). apply heard_write. exact F. }
    cbn beta iota. rewrite U, Ek.
    eapply star_S; [apply b_says|]. cbn [app]. eapply star_trans; [apply a_gets_all|]. cbn [app].
    eapply star_S. { eapply a_hears. rewrite <- (app_nil_r (write_message na)). apply heard_write. reflexivity. }
    cbn [or_eof]. destruct (bytes_eqb na protocol) eqn:E; [apply bytes_eqb_eq in E; exfalso; apply N0; symmetry; exact E|].
    rewrite bytes_eqb_refl. constructor. }
  destruct (star_steps _ _ St) as (n & Sn). apply (steps_det _ _ n Sn). intros t H. inversion H; subst. discriminate.
Qed.
End Progs.
Print Assumptions C116_identify_program.
Print Assumptions C116_show_program.
Print Assumptions C116_serve_program.
Print Assumptions C116_identify_works.
Print Assumptions C116_show_refuted.
Print Assumptions C116_unknown_refused.

(** *** One node against any peer *)
Lemma starts_bytes_ok data m rest : bytes_ok data -> starts_with data m rest -> bytes_ok m /\ bytes_ok rest.
Proof. intros B (l & -> & _). apply bytes_ok_app in B. destruct B as [_ B]. apply bytes_ok_app in B. exact B. Qed.
Lemma open_spec protocol name src : clean src -> bytes_ok (bytes_of src) ->
  exists r out src', open_protocol protocol name src = (Some r, out, src') /\ clean src' /\ r <> Panic /\
    (forall rest, r = Ok tt /\ bytes_of src' = rest <-> exists mid, starts_with (bytes_of src) multistream_header mid /\ starts_with mid protocol rest) /\
    (out = write_message multistream_header /\ (forall mid, ~ starts_with (bytes_of src) multistream_header mid) \/ out = write_message multistream_header ++ write_message protocol).
Proof.
  intros C B. destruct (C43_handshake_exact src C B) as (r1 & s1 & E1 & C1 & H1 & P1). unfold open_protocol. rewrite E1.
  change (ascii_bytes "/multistream/1.0.0" ++ [10]) with multistream_header in *.
  destruct r1 as [[]|e|]; [| |congruence].
  - pose proof (proj1 (H1 (bytes_of s1)) (conj eq_refl eq_refl)) as S1. destruct (starts_bytes_ok _ _ _ B S1) as [_ B1].
    destruct (C43_select_exact protocol s1 C1 B1) as (r2 & s2 & E2 & C2 & H2 & _ & _ & _ & P2). unfold negotiate. rewrite E2.
    assert (X : exists r, match r2 with Ok Accepted => Some (Ok tt) | Ok Unsupported => Some (Err (NUnsupported name)) | Err e => Some (Err (NIo e)) | Panic => Some Panic end = Some r
      /\ r <> Panic /\ (r = Ok tt <-> r2 = Ok Accepted)).
    { destruct r2 as [[|]|e|]; [| | |congruence]; eexists; (split; [reflexivity|split; [discriminate|split; congruence]]). }
    destruct X as (r & -> & P & I). exists r, (write_message multistream_header ++ write_message protocol), s2. split; [reflexivity|]. split; [exact C2|]. split; [exact P|].
    split; [|auto]. intros rest. split.
    + intros [Hr He]. exists (bytes_of s1). split; [exact S1|]. apply H2. rewrite I in Hr. auto.
    + intros (mid & M1 & M2). destruct (starts_unique _ _ _ _ _ B S1 M1) as [_ ->]. apply H2 in M2. rewrite I. exact M2.
  - assert (N : forall mid, ~ starts_with (bytes_of src) multistream_header mid) by (intros mid M; apply H1 in M; destruct M; discriminate).
    exists (Err (NIo e)), (write_message multistream_header), s1. split; [reflexivity|]. split; [exact C1|]. split; [discriminate|]. split; [|auto].
    intros rest. split; [intros [X _]; discriminate|]. intros (mid & M & _). exfalso. exact (N mid M).
Qed.
(** C116: against any peer: a description is printed exactly when the peer confirms the
    handshake and the protocol and then sends a well-formed one; what is sent is fixed; the
    request is withheld from a peer that does not confirm the handshake; no peer makes the
    command panic. *)
Theorem C116_identify_exact src : clean src -> bytes_ok (bytes_of src) -> fits (bytes_of src) ->
  exists r out src', identify_command src = (Some r, out, src') /\ r <> Panic /\
    (forall i, r = Ok (Some i) <-> exists rest1 rest2 m rest3,
       starts_with (bytes_of src) (ascii_bytes "/multistream/1.0.0" ++ [10]) rest1 /\
       starts_with rest1 (ascii_bytes "/ipfs/id/1.0.0" ++ [10]) rest2 /\ starts_with rest2 m rest3 /\ identify_msg m i) /\
    (out = frames [ascii_bytes "/multistream/1.0.0" ++ [10]; ascii_bytes "/ipfs/id/1.0.0" ++ [10]] \/
     out = frames [ascii_bytes "/multistream/1.0.0" ++ [10]] /\ forall rest, ~ starts_with (bytes_of src) (ascii_bytes "/multistream/1.0.0" ++ [10]) rest).
Proof.
  intros C B F. change (ascii_bytes "/multistream/1.0.0" ++ [10]) with multistream_header. change (ascii_bytes "/ipfs/id/1.0.0" ++ [10]) with id_protocol.
  unfold frames. cbn [map concat]. rewrite !app_nil_r.
  destruct (open_spec id_protocol "identify protocol unsupported" src C B) as (r & out & s & E & Cs & P & H & O). unfold identify_command. rewrite E.
  assert (O' : out = write_message multistream_header ++ write_message id_protocol \/
     out = write_message multistream_header /\ forall rest, ~ starts_with (bytes_of src) multistream_header rest) by tauto.
  destruct r as [[]|e|]; [| |congruence].
  - destruct (proj1 (H (bytes_of s)) (conj eq_refl eq_refl)) as (mid & M1 & M2). destruct (starts_parts _ _ _ B F M1) as (_ & _ & Bm & Fm & _).
    destruct (starts_parts _ _ _ Bm Fm M2) as (_ & _ & Bs & Fs & _).
    destruct (C42_read_exact s Cs Bs) as (r2 & s2 & E2 & C2 & R1 & R2 & R3 & R4 & R5 & R6). unfold identify_client_inner. rewrite E2.
    assert (U : forall i, (exists rest1 rest2 m rest3, starts_with (bytes_of src) multistream_header rest1 /\ starts_with rest1 id_protocol rest2 /\ starts_with rest2 m rest3 /\ identify_msg m i)
      <-> exists m, r2 = Ok (Some m) /\ identify_msg m i).
    { intros i. split.
      - intros (a & b & m & c & X1 & X2 & X3 & X4). destruct (starts_unique _ _ _ _ _ B M1 X1) as [_ ->]. destruct (starts_unique _ _ _ _ _ Bm M2 X2) as [_ ->].
        apply R1 in X3. exists m. split; [apply X3|exact X4].
      - intros (m & -> & X). exists mid, (bytes_of s), m, (bytes_of s2). split; [exact M1|]. split; [exact M2|]. split; [apply R1; auto|exact X]. }
    destruct r2 as [[m|]|e|]; [| | |congruence].
    + assert (Sm : starts_with (bytes_of s) m (bytes_of s2)) by (apply R1; auto). destruct (starts_parts _ _ _ Bs Fs Sm) as (Bd & Fd & _).
      pose proof (identify_from_pb_ok m) as I. pose proof (fun i => I i Bd Fd) as I'. clear I.
      assert (NP : identify_from_pb m <> Panic) by exact (proj1 (identify_total m Bd Fd)).
      destruct (identify_from_pb m) as [i|e|] eqn:D; [| |congruence].
      * eexists _, out, s2. split; [reflexivity|]. split; [discriminate|]. split; [|exact O'].
        intros j. rewrite U. split.
        -- intros X. exists m. split; [reflexivity|]. apply I'. congruence.
        -- intros (m' & X & Y). assert (m' = m) as -> by congruence. apply I' in Y. congruence.
      * eexists _, out, s2. split; [reflexivity|]. split; [discriminate|]. split; [|exact O'].
        intros j. rewrite U. split; [discriminate|]. intros (m' & X & Y). assert (m' = m) as -> by congruence. apply I' in Y. discriminate.
    + eexists _, out, s2. split; [reflexivity|]. split; [discriminate|]. split; [|exact O']. intros j. rewrite U. split; [discriminate|]. intros (m' & X & _). discriminate.
    + eexists _, out, s2. split; [reflexivity|]. split; [discriminate|]. split; [|exact O']. intros j. rewrite U. split; [discriminate|]. intros (m' & X & _). discriminate.
  - eexists _, out, s. split; [reflexivity|]. split; [discriminate|]. split; [|exact O']. intros i. split; [discriminate|].
    intros (a & b & m & c & X1 & X2 & _). destruct (proj2 (H b) (ex_intro _ a (conj X1 X2))). discriminate.
Qed.
Print Assumptions C116_identify_exact.

(** *** Getting to the multiplexed connection *)
Lemma upgrade_out lossy protocol name src r out src' : upgrade lossy protocol name src = (r, out, src') ->
  exists k, out = frames (firstn k [multistream_header; ascii_bytes "ls" ++ [10]; protocol]) /\
    forall l, r = Some (Ok l) -> k = 3%nat.
Proof.
  unfold upgrade, negotiate, multistream_handshake. assert (Q : forall p s, exists x s', multistream_select p s = (x, write_message p, s')).
  { intros p s. unfold multistream_select. destruct (read_message None s) as [[m lim] s']. eauto. }
  destruct (Q multistream_header src) as (x & s & ->). intros H.
  assert (K1 : out = write_message multistream_header /\ (forall l, r <> Some (Ok l)) -> exists k, out = frames (firstn k [multistream_header; ascii_bytes "ls" ++ [10]; protocol]) /\ forall l, r = Some (Ok l) -> k = 3%nat).
  { intros [-> N]. exists 1%nat. split; [unfold frames; cbn [firstn map concat]; rewrite app_nil_r; reflexivity|]. intros l X. exfalso. exact (N l X). }
  destruct x as [[[|]|e|]|]; try (apply K1; split; [congruence|intros l X; congruence]).
  assert (QL : exists y s', multistream_list lossy s = (y, write_message (ascii_bytes "ls" ++ [10]), s')).
  { unfold multistream_list. destruct (read_varint None s) as [[m lim] s']. destruct m as [[n|e|]|]; eauto. destruct (max_ls_response_size <? n); eauto.
    destruct (list_loop lossy (S (length s')) (limited None n) s'). eauto. }
  destruct QL as (y & s2 & QL). rewrite QL in H.
  assert (K2 : out = write_message multistream_header ++ write_message (ascii_bytes "ls" ++ [10]) /\ (forall l, r <> Some (Ok l)) -> exists k, out = frames (firstn k [multistream_header; ascii_bytes "ls" ++ [10]; protocol]) /\ forall l, r = Some (Ok l) -> k = 3%nat).
  { intros [-> N]. exists 2%nat. split; [unfold frames; cbn [firstn map concat]; rewrite app_nil_r; reflexivity|]. intros l X. exfalso. exact (N l X). }
  destruct y as [[l|e|]|]; try (apply K2; split; [congruence|intros l X; congruence]).
  destruct (Q protocol s2) as (z & s3 & Ez). rewrite Ez in H. exists 3%nat. split; [|auto]. unfold frames. cbn [firstn map concat]. rewrite app_nil_r. congruence.
Qed.
(** C116: whatever the peer sends, what the node writes in the clear is the three fixed
    negotiation messages or a beginning of them, and it writes the same way inside TLS, and
    only when TLS was set up over what followed in the clear. *)
Theorem C116_nothing_else_in_clear lossy tls src r out out' : dial lossy tls src = (r, out, out') ->
  (exists k, out = frames (firstn k [ascii_bytes "/multistream/1.0.0" ++ [10]; ascii_bytes "ls" ++ [10]; ascii_bytes "/tls/1.0.0" ++ [10]])) /\
  (exists k, out' = frames (firstn k [ascii_bytes "/multistream/1.0.0" ++ [10]; ascii_bytes "ls" ++ [10]; ascii_bytes "/mplex/6.7.0" ++ [10]])) /\
  (out' <> [] -> out = frames [ascii_bytes "/multistream/1.0.0" ++ [10]; ascii_bytes "ls" ++ [10]; ascii_bytes "/tls/1.0.0" ++ [10]] /\
    exists socket plain, tls socket = Some plain).
Proof.
  unfold dial. destruct (upgrade lossy (ascii_bytes "/tls/1.0.0" ++ [10]) "/tls/1.0.0 is unsupported" src) as [[x o] s] eqn:E1.
  destruct (upgrade_out _ _ _ _ _ _ _ E1) as (k & Ho & Hk). change multistream_header with (ascii_bytes "/multistream/1.0.0" ++ [10]) in Ho. intros H.
  assert (K : out = o /\ out' = [] -> (exists k, out = frames (firstn k [ascii_bytes "/multistream/1.0.0" ++ [10]; ascii_bytes "ls" ++ [10]; ascii_bytes "/tls/1.0.0" ++ [10]])) /\
    (exists k, out' = frames (firstn k [ascii_bytes "/multistream/1.0.0" ++ [10]; ascii_bytes "ls" ++ [10]; ascii_bytes "/mplex/6.7.0" ++ [10]])) /\
    (out' <> [] -> out = frames [ascii_bytes "/multistream/1.0.0" ++ [10]; ascii_bytes "ls" ++ [10]; ascii_bytes "/tls/1.0.0" ++ [10]] /\ exists socket plain, tls socket = Some plain)).
  { intros [-> ->]. split; [exists k; exact Ho|]. split; [exists 0%nat; reflexivity|]. intros X. congruence. }
  destruct x as [[l|e|]|]; try (apply K; split; congruence).
  destruct (tls s) as [plain|] eqn:T; [|apply K; split; congruence].
  destruct (upgrade lossy (ascii_bytes "/mplex/6.7.0" ++ [10]) "/mplex/6.7.0 is unsupported" plain) as [[y o2] p2] eqn:E2.
  destruct (upgrade_out _ _ _ _ _ _ _ E2) as (k2 & Ho2 & _). change multistream_header with (ascii_bytes "/multistream/1.0.0" ++ [10]) in Ho2.
  assert (out = o) as -> by congruence. assert (out' = o2) as -> by congruence.
  split; [exists k; exact Ho|]. split; [exists k2; exact Ho2|]. intros _. rewrite (Hk l eq_refl) in Ho. split; [exact Ho|]. eauto.
Qed.
Print Assumptions C116_nothing_else_in_clear.
Lemma upgrade_works lossy protocol name names src rest : (forall n, utf8_valid n = true -> lossy n = n) -> Forall (fun n => utf8_valid n = true) names ->
  blen (frames names) <= 65536 -> fits protocol ->
  carries src (frames [multistream_header; frames names; protocol] ++ rest) ->
  exists src', upgrade lossy protocol name src = (Some (Ok names), frames [multistream_header; ascii_bytes "ls" ++ [10]; protocol], src') /\ carries src' rest.
Proof.
  intros Lo U Sz F [C E]. unfold frames at 1 in E. cbn [map concat] in E. rewrite app_nil_r, <- !app_assoc in E.
  unfold upgrade, multistream_handshake, negotiate. unfold multistream_select at 1. unfold read_message.
  destruct (read_opt_message None src) as [[r l] s] eqn:R. apply none_spec in R; [|exact C]. destruct R as (r0 & -> & -> & C' & _ & R).
  rewrite E, flat_write in R by reflexivity. assert (r0 = Ok (Some multistream_header)) as -> by congruence. assert (Es : bytes_of s = write_message (frames names) ++ write_message protocol ++ rest) by congruence.
  cbn [option_map or_eof]. rewrite bytes_eqb_refl.
  destruct (C43_list_round_trip lossy names s _ Lo U Sz (conj C' Es)) as (s2 & -> & C2 & E2).
  unfold multistream_select, read_message.
  destruct (read_opt_message None s2) as [[r l2] s3] eqn:R2. apply none_spec in R2; [|exact C2]. destruct R2 as (r0 & -> & -> & C3 & _ & R2).
  rewrite E2, flat_write in R2 by exact F. assert (r0 = Ok (Some protocol)) as -> by congruence.
  cbn [option_map or_eof]. rewrite bytes_eqb_refl. exists s3. split; [|split; [exact C3|congruence]].
  unfold frames at 1. cbn [map concat]. rewrite app_nil_r. reflexivity.
Qed.
(** C116: a peer that supports all of it is connected to: the multiplexer gets the plain text
    after the negotiation, all of it. *)
Theorem C116_dial_works lossy tls names1 names2 src socket rest plain : (forall n, utf8_valid n = true -> lossy n = n) ->
  Forall (fun n => utf8_valid n = true) names1 -> Forall (fun n => utf8_valid n = true) names2 -> blen (frames names1) <= 65536 -> blen (frames names2) <= 65536 ->
  carries src (frames [ascii_bytes "/multistream/1.0.0" ++ [10]; frames names1; ascii_bytes "/tls/1.0.0" ++ [10]] ++ socket) ->
  (forall s, carries s socket -> tls s = Some plain) ->
  carries plain (frames [ascii_bytes "/multistream/1.0.0" ++ [10]; frames names2; ascii_bytes "/mplex/6.7.0" ++ [10]] ++ rest) ->
  exists plain', fst (fst (dial lossy tls src)) = Some (Ok plain') /\ carries plain' rest.
Proof.
  intros Lo U1 U2 S1 S2 C1 T C2. unfold dial.
  destruct (upgrade_works lossy (ascii_bytes "/tls/1.0.0" ++ [10]) "/tls/1.0.0 is unsupported" names1 src socket Lo U1 S1 eq_refl C1) as (s & -> & Cs).
  rewrite (T s Cs).
  destruct (upgrade_works lossy (ascii_bytes "/mplex/6.7.0" ++ [10]) "/mplex/6.7.0 is unsupported" names2 plain rest Lo U2 S2 eq_refl C2) as (p & -> & Cp).
  exists p. split; [reflexivity|exact Cp].
Qed.
Print Assumptions C116_dial_works.
(** C116: a peer that answers [na] to TLS is left, with an error, before anything else is
    sent. *)
Theorem C116_no_tls_no_connection lossy tls names src rest : (forall n, utf8_valid n = true -> lossy n = n) ->
  Forall (fun n => utf8_valid n = true) names -> blen (frames names) <= 65536 ->
  carries src (frames [ascii_bytes "/multistream/1.0.0" ++ [10]; frames names; ascii_bytes "na" ++ [10]] ++ rest) ->
  dial lossy tls src = (Some (Err (NUnsupported "/tls/1.0.0 is unsupported")),
    frames [ascii_bytes "/multistream/1.0.0" ++ [10]; ascii_bytes "ls" ++ [10]; ascii_bytes "/tls/1.0.0" ++ [10]], []).
Proof.
  intros Lo U Sz [C E]. change (ascii_bytes "/multistream/1.0.0" ++ [10]) with multistream_header in *. change (ascii_bytes "na" ++ [10]) with na in E. unfold frames at 1 in E. cbn [map concat] in E. rewrite app_nil_r, <- !app_assoc in E.
  unfold dial, upgrade, multistream_handshake, negotiate. unfold multistream_select at 1. unfold read_message.
  destruct (read_opt_message None src) as [[r l] s] eqn:R. apply none_spec in R; [|exact C]. destruct R as (r0 & -> & -> & C' & _ & R).
  rewrite E, flat_write in R by reflexivity. assert (r0 = Ok (Some multistream_header)) as -> by congruence. assert (Es : bytes_of s = write_message (frames names) ++ write_message na ++ rest) by congruence.
  cbn [option_map or_eof]. rewrite bytes_eqb_refl.
  destruct (C43_list_round_trip lossy names s _ Lo U Sz (conj C' Es)) as (s2 & -> & C2 & E2).
  unfold multistream_select at 1. unfold read_message.
  destruct (read_opt_message None s2) as [[r l2] s3] eqn:R2. apply none_spec in R2; [|exact C2]. destruct R2 as (r0 & -> & -> & C3 & _ & R2).
  rewrite E2, flat_write in R2 by reflexivity. assert (r0 = Ok (Some na)) as -> by congruence.
  cbn [option_map or_eof]. change (bytes_eqb na (ascii_bytes "/tls/1.0.0" ++ [10])) with false. change (bytes_eqb na na) with true.
  unfold frames. cbn [map concat]. rewrite app_nil_r. reflexivity.
Qed.
Print Assumptions C116_no_tls_no_connection.
(** The description of a node with the key 7, 7, ... as a peer sees it. *)
Example C116_example :
  let answer := frames [ascii_bytes "/multistream/1.0.0" ++ [10]; ascii_bytes "/ipfs/id/1.0.0" ++ [10]] ++ identify_handler (repeat 7 32) in
  fst (fst (identify_command (map Byte answer))) = Some (Ok (Some (handler_identify (repeat 7 32)))) /\
  fst (fst (serve (fun _ => []) (fun _ => []) (repeat 7 32) (map Byte (snd (fst (identify_command (map Byte answer))))))) = Some (Ok SIdentify) /\
  snd (fst (serve (fun _ => []) (fun _ => []) (repeat 7 32) (map Byte (snd (fst (identify_command (map Byte answer))))))) = answer /\
  fst (fst (identify_command (map Byte (frames [ascii_bytes "/multistream/1.0.0" ++ [10]; ascii_bytes "na" ++ [10]])))) = Some (Err (NUnsupported "identify protocol unsupported")).
Proof. repeat split; vm_compute; reflexivity. Qed.
