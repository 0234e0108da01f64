(** mplex frames: C38 and C40. *)
From Verif Require Import Base BaseProofs VarintModel VarintSpec VarintProofs VarintProofs2 MplexModel MplexProofs MplexProofs2.
Ltac Zify.zify_post_hook ::= Z.div_mod_to_equations.

(** ** Specification *)
(** What a sender can do, and what arrives at the other side: the stream number, kind and
    payload; a new stream's name is not delivered. *)
Inductive sending := SendNew (num : N) (name : option bytes) | SendMessage (s : stream_id) (data : bytes)
  | SendClose (s : stream_id).
Definition arrives (x : sending) : frame :=
  match x with
  | SendNew num _ => {| f_id := Initiator num; f_op := New; f_data := [] |}
  | SendMessage s data => {| f_id := s; f_op := Message; f_data := data |}
  | SendClose s => {| f_id := s; f_op := Close; f_data := [] |}
  end.
Definition number_of (x : sending) : N :=
  match x with
  | SendNew n _ | SendMessage (Receiver n) _ | SendMessage (Initiator n) _ | SendClose (Receiver n) | SendClose (Initiator n) => n
  end.
Definition payload_of (x : sending) : bytes :=
  match x with SendNew _ (Some n) => n | SendMessage _ d => d | _ => [] end.
(** The sender's buffer after one more sending. *)
Definition send (out : bytes) (x : sending) : bytes :=
  match x with
  | SendNew num name => append_new out num name
  | SendMessage s data => append_message out s data
  | SendClose s => append_close out s
  end.
(** Any transport that delivers [d] in some pieces, with any pauses, and then ends. *)
Definition delivers (answers : list answer) (d : bytes) : Prop :=
  exists chunks, pieces chunks /\ answers = chunks ++ [ARead []] /\ data_of chunks = d.

Lemma delivers_receive answers d : delivers answers d ->
  exists n0, forall n, (n0 <= n)%nat -> receive n frame_stream_new answers = whole (S (length d)) d.
Proof.
  intros (ch & P & -> & E). exists (S (length ch + length d))%nat. intros n L.
  rewrite (receive_whole n frame_stream_new ch []); [cbn [frame_stream_new fs_in app]; rewrite E; reflexivity|exact P|reflexivity|].
  cbn [frame_stream_new fs_in app]. rewrite E. lia.
Qed.

(** ** C38 *)
Definition header_for (x : sending) : N :=
  match x with
  | SendNew n _ => header_of n NewStream
  | SendMessage (Receiver n) _ => header_of n MessageReceiver
  | SendMessage (Initiator n) _ => header_of n MessageInitiator
  | SendClose (Receiver n) => header_of n CloseReceiver
  | SendClose (Initiator n) => header_of n CloseInitiator
  end.
Lemma send_wire out x : send out x = out ++ wire_frame (header_for x) (payload_of x).
Proof. destruct x as [n [m|]|[n|n] d|[n|n]]; reflexivity. Qed.
Lemma send_all xs : forall out, fold_left send xs out = out ++ concat (map (fun x => wire_frame (header_for x) (payload_of x)) xs).
Proof.
  induction xs as [|x xs IH]; intros out; cbn [fold_left map concat]; [rewrite app_nil_r; reflexivity|].
  rewrite IH, send_wire, <- app_assoc. reflexivity.
Qed.
Lemma buffered_sent x rest : number_of x < 2 ^ 61 -> blen (payload_of x) < 2 ^ 63 ->
  buffered_frame (wire_frame (header_for x) (payload_of x) ++ rest) = Ok (Some (arrives x, rest)).
Proof.
  intros Hn Hl. assert (L : blen (payload_of x) + 20 < two64) by (change (2 ^ 63) with two63 in Hl; unfold two63, two64 in *; lia).
  assert (H : exists fl, header_for x = header_of (number_of x) fl /\ from_message_parts (number_of x) fl (payload_of x) = arrives x).
  { destruct x as [n [m|]|[n|n] d|[n|n]]; eexists; split; reflexivity. }
  destruct H as (fl & E & <-). rewrite E.
  destruct (header_parts (number_of x) fl Hn) as (H1 & H2 & H3).
  rewrite (buffered_wire _ fl _ rest H1); [rewrite H2; reflexivity|rewrite H3; destruct fl; reflexivity|exact L].
Qed.
Lemma whole_sent xs tail st : Forall (fun x => number_of x < 2 ^ 61 /\ blen (payload_of x) < 2 ^ 63) xs ->
  whole (S (length tail)) tail = ([], st) ->
  forall fuel, let d := concat (map (fun x => wire_frame (header_for x) (payload_of x)) xs) ++ tail in
  (length d < fuel)%nat -> whole fuel d = (map arrives xs, st).
Proof.
  intros F W. induction F as [|x xs [Hn Hl] F IH]; intros fuel d L.
  - cbn [map]. rewrite <- W. apply whole_fuel; unfold d in *; cbn [map concat app] in *; lia.
  - unfold d in *. cbn [map concat] in *. rewrite <- app_assoc in *. destruct fuel as [|fuel]; [lia|]. cbn [whole].
    rewrite buffered_sent by assumption.
    pose proof (buffered_app (wire_frame (header_for x) (payload_of x) ++ concat (map (fun x => wire_frame (header_for x) (payload_of x)) xs) ++ tail) []) as B.
    rewrite buffered_sent in B by assumption. destruct B as (_ & B & _).
    rewrite (IH fuel) by lia. reflexivity.
Qed.

(** Everything sent arrives, in order, and then the end; whatever the pieces.  (Stream
    numbers below 2^61: the header keeps three bits for the kind.) *)
Theorem C38_frames_round_trip_partial : forall (xs : list sending) (answers : list answer),
  Forall (fun x => number_of x < 2 ^ 61 /\ blen (payload_of x) < 2 ^ 63) xs ->
  delivers answers (fold_left send xs []) ->
  exists n0, forall n, (n0 <= n)%nat -> receive n frame_stream_new answers = (map arrives xs, Finished_ok).
Proof.
  intros xs answers F D. destruct (delivers_receive _ _ D) as (n0 & R). exists n0. intros n L. rewrite R by exact L.
  rewrite send_all. cbn [app]. pose proof (whole_sent xs [] Finished_ok F eq_refl) as W. cbv zeta in W. rewrite app_nil_r in W.
  apply W. lia.
Qed.
Print Assumptions C38_frames_round_trip_partial.
(** If the transport ends inside a frame, the frames before it arrive and then an error. *)
Theorem C38_cut_off : forall (xs : list sending) (x : sending) (part rest : bytes) (answers : list answer),
  Forall (fun x => number_of x < 2 ^ 61 /\ blen (payload_of x) < 2 ^ 63) (x :: xs) ->
  send [] x = part ++ rest -> part <> [] -> rest <> [] ->
  delivers answers (fold_left send xs [] ++ part) ->
  exists n0, forall n, (n0 <= n)%nat -> receive n frame_stream_new answers = (map arrives xs, Failed UnexpectedEof).
Proof.
  intros xs x part rest answers F E Np Nr D. inversion F as [|? ? [Hn Hl] F']; subst.
  destruct (delivers_receive _ _ D) as (n0 & R). exists n0. intros n L. rewrite R by exact L.
  rewrite send_all. cbn [app]. apply (whole_sent xs part (Failed UnexpectedEof) F'); [|lia].
  rewrite send_wire in E. cbn [app] in E.
  pose proof (buffered_sent x [] Hn Hl) as B. rewrite app_nil_r, E in B.
  pose proof (buffered_app part rest) as A. cbn [whole].
  destruct (buffered_frame part) as [[[f r]|]|e|].
  - destruct A as (A & _). rewrite A in B. assert (X : r ++ rest = []) by congruence. apply app_eq_nil in X. tauto.
  - destruct part; [congruence|reflexivity].
  - congruence.
  - congruence.
Qed.
Print Assumptions C38_cut_off.
(** Any two ways of delivering the same bytes, well-formed or not, are read alike, and
    reading them comes to an end. *)
Theorem C38_segmentation_is_irrelevant : forall (answers1 answers2 : list answer) (d : bytes),
  delivers answers1 d -> delivers answers2 d ->
  exists n0, forall n, (n0 <= n)%nat ->
    receive n frame_stream_new answers1 = receive n frame_stream_new answers2 /\
    snd (receive n frame_stream_new answers1) <> OutOfPolls /\ snd (receive n frame_stream_new answers1) <> Waiting.
Proof.
  intros a1 a2 d D1 D2. destruct (delivers_receive _ _ D1) as (n1 & R1). destruct (delivers_receive _ _ D2) as (n2 & R2).
  exists (Nat.max n1 n2). intros n L. rewrite R1, R2 by lia. split; [reflexivity|]. apply whole_ends. lia.
Qed.
Print Assumptions C38_segmentation_is_irrelevant.
(** Which byte streams are accepted, and how they are read: exactly concatenations of frames. *)
Theorem C38_accepted_streams : forall (answers : list answer) (d : bytes) (fs : list frame),
  bytes_ok d -> blen d < 2 ^ 64 -> delivers answers d ->
  exists n0, forall n, (n0 <= n)%nat ->
    (receive n frame_stream_new answers = (fs, Finished_ok) <->
     exists us, d = concat us /\ Forall2 frame_bytes us fs).
Proof.
  intros a d fs B Fi D. destruct (delivers_receive _ _ D) as (n0 & R). exists n0. intros n L. rewrite R by exact L.
  apply whole_finished; [exact B|exact Fi|lia].
Qed.
Print Assumptions C38_accepted_streams.
(** From 2^61 on, different streams are confused. *)
Theorem C38_large_numbers_refuted : exists (s1 s2 : stream_id) (d : bytes),
  s1 <> s2 /\ send [] (SendMessage s1 d) = send [] (SendMessage s2 d).
Proof. exists (Receiver 5), (Receiver (2 ^ 61 + 5)), [1]. split; [discriminate|vm_compute; reflexivity]. Qed.
Print Assumptions C38_large_numbers_refuted.
Definition some_sendings : list sending :=
  [SendNew 33 (Some [110; 97]); SendMessage (Initiator 33) [1; 2; 3]; SendMessage (Receiver 700) (repeat 7 200); SendClose (Initiator 33)].
Definition some_pieces : list answer :=
  let d := fold_left send some_sendings [] in
  [ARead (firstn 1 d); APending; ARead (firstn 12 (skipn 1 d)); ARead (skipn 13 d)].
Example C38_example :
  delivers (some_pieces ++ [ARead []]) (fold_left send some_sendings []) /\
  receive 20 frame_stream_new (some_pieces ++ [ARead []]) = (map arrives some_sendings, Finished_ok) /\
  length (fold_left send some_sendings []) = 218%nat.
Proof.
  split; [|split; vm_compute; reflexivity].
  exists some_pieces. split; [repeat constructor; vm_compute; discriminate|]. split; [reflexivity|vm_compute; reflexivity].
Qed.

(** ** C40 *)
(** The reader panics exactly when, after complete frames, a header announces a payload that
    ends beyond 2^64. *)
Theorem C40_what_crashes_partial : forall (answers : list answer) (d : bytes) (fs : list frame),
  bytes_ok d -> blen d < 2 ^ 64 -> delivers answers d ->
  exists n0, forall n, (n0 <= n)%nat ->
    (receive n frame_stream_new answers = (fs, Crashed) <->
     exists us v, d = concat us ++ v /\ Forall2 frame_bytes us fs /\ oversized v).
Proof.
  intros a d fs B Fi D. destruct (delivers_receive _ _ D) as (n0 & R). exists n0. intros n L. rewrite R by exact L.
  apply whole_crashed; [exact B|exact Fi|lia].
Qed.
Print Assumptions C40_what_crashes_partial.
Theorem C40_crash_refuted : exists d, bytes_ok d /\ length d = 11%nat /\
  forall n, receive (S n) frame_stream_new [ARead d] = ([], Crashed).
Proof.
  exists [2; 255; 255; 255; 255; 255; 255; 255; 255; 255; 1]. split; [repeat constructor|]. split; [reflexivity|].
  intros n. cbn [receive]. vm_compute. reflexivity.
Qed.
Print Assumptions C40_crash_refuted.
