(** C95 and C96: the peer wire messages, and the reader and writer of a peer connection. *)
From Verif Require Import Base BaseProofs MplexModel LpioModel LpioSpec DownloadModel.

(** *** Specification *)
(** What a reader delivers before it ends, and how: by end of file or by an error. *)
Fixpoint lead (src : list item) : bytes * option ioerr :=
  match src with
  | [] => ([], None)
  | Byte b :: t => let (d, e) := lead t in (b :: d, e)
  | Fail e :: _ => ([], Some e)
  | _ :: t => lead t
  end.
(** The wire form of each message, by the BitTorrent specification. *)
Definition wire (m : pmessage) : bytes :=
  match m with
  | KeepAlive => []
  | Choke => [0] | Unchoke => [1] | Interested => [2] | NotInterested => [3]
  | Have i => 4 :: be_bytes 4 i
  | BitField b => 5 :: b
  | Piece i b block => 7 :: be_bytes 4 i ++ be_bytes 4 b ++ block
  | Unknown id body => id :: body
  end.
(** The messages a program may be given: numbers of 32 bits, and [Unknown] only for the ids that
    have no constructor. *)
Definition message_ok (m : pmessage) : Prop :=
  match m with
  | Have i => i < 4294967296
  | Piece i b _ => i < 4294967296 /\ b < 4294967296
  | Unknown id _ => ~ In id [0; 1; 2; 3; 4; 5; 7]
  | _ => True
  end.

(** *** Reading *)
Lemma lead_take room : forall src d t, take_bytes room src = (d, t) ->
  lead src = (d ++ fst (lead t), snd (lead t)) /\ (length d <= room)%nat /\ (length t <= length src)%nat.
Proof.
  induction room as [|room IH]; intros src d t H.
  - cbn [take_bytes] in H. injection H as <- <-. destruct (lead src). split; [reflexivity|cbn; lia].
  - destruct src as [|[b| | |e] src].
    1, 3, 4, 5: cbn [take_bytes] in H; injection H as <- <-; match goal with |- context [lead ?s] => destruct (lead s) end; split; [reflexivity|cbn; lia].
    cbn [take_bytes] in H. destruct (take_bytes room src) as [d1 t1] eqn:E. injection H as <- <-. apply IH in E. destruct E as (E & L1 & L2).
    cbn [lead]. rewrite E. split; [reflexivity|cbn [length]; lia].
Qed.
(** One awaited read. *)
Lemma lead_poll room src : (1 <= room)%nat -> forall r t, poll_read_src room src = (r, t) -> (length t <= length src)%nat /\
  match r with
  | Wait => lead src = lead t /\ (length t < length src)%nat
  | Done (Ok d) => lead src = (d ++ fst (lead t), snd (lead t)) /\ (length d <= room)%nat /\ (d = [] -> lead src = ([], None) /\ t = [])
  | Done (Err e) => lead src = ([], Some e)
  | Done Panic => False
  end.
Proof.
  intros R. induction src as [|[b| | |e] src IH]; intros r t H; cbn [poll_read_src] in H.
  - injection H as <- <-. cbn. auto with arith.
  - destruct (take_bytes room (Byte b :: src)) as [d t1] eqn:E. injection H as <- <-.
    assert (N0 : d <> []). { destruct room as [|room]; [lia|]. cbn [take_bytes] in E. destruct (take_bytes room src). injection E as <- _. discriminate. }
    apply lead_take in E. destruct E as (E & L1 & L2). split; [exact L2|]. split; [exact E|]. split; [exact L1|]. intros X. contradiction.
  - apply IH in H. destruct H as [L H]. split; [cbn [length]; lia|]. cbn [lead]. destruct r as [|[d|e|]]; [|exact H|exact H|exact H].
    destruct H as [H1 H2]. split; [exact H1|cbn [length]; lia].
  - injection H as <- <-. cbn. split; [lia|split; [reflexivity|lia]].
  - injection H as <- <-. cbn. split; [lia|reflexivity].
Qed.
Lemma lead_await fuel : forall room src r l t, (1 <= room)%nat -> (length src < fuel)%nat -> await_read fuel None room src = (r, l, t) ->
  (length t <= length src)%nat /\
  match r with
  | Some (Ok d) => lead src = (d ++ fst (lead t), snd (lead t)) /\ (length d <= room)%nat /\ (d = [] -> lead src = ([], None) /\ t = [])
  | Some (Err e) => lead src = ([], Some e)
  | Some Panic | None => False
  end.
Proof.
  induction fuel as [|fuel IH]; intros room src r l t R L H; [lia|]. cbn [await_read poll_read_lim] in H.
  destruct (poll_read_src room src) as [r1 t1] eqn:E. apply lead_poll in E; [|exact R]. destruct E as [L1 E]. destruct r1 as [|r1].
  - destruct E as [E L2]. apply IH in H; [|exact R|lia]. destruct H as [L3 H]. split; [lia|]. rewrite E. exact H.
  - injection H as <- <- <-. split; [exact L1|]. destruct r1; exact E.
Qed.
(** [read_exact]: the next [n] bytes, or the error, or the end. *)
Lemma exact_spec n fuel : forall got src, (length got <= n)%nat -> (n - length got < fuel)%nat ->
  let k := (n - length got)%nat in
  let (data, e) := lead src in
  exists r t, exact_loop fuel n got src = (Some r, t) /\
    if (k <=? length data)%nat then r = Ok (got ++ firstn k data) /\ lead t = (skipn k data, e)
    else r = Err (match e with Some e => e | None => UnexpectedEof end).
Proof.
  induction fuel as [|fuel IH]; intros got src G F; [lia|]. cbn zeta. destruct (lead src) as [data e] eqn:E. cbn [exact_loop].
  destruct (length got <? n)%nat eqn:C.
  - destruct (await_read (S (length src)) None (n - length got) src) as [[r l] t] eqn:A. apply lead_await in A; [|apply Nat.ltb_lt in C; lia|lia].
    destruct A as [L A]. apply Nat.ltb_lt in C. destruct r as [[d|x|]|]; [| |destruct A|destruct A].
    + destruct A as (A1 & A2 & A3). rewrite E in A1. injection A1 as A1 A1'. destruct d as [|b d].
      * destruct (A3 eq_refl) as [A4 A5]. rewrite E in A4. injection A4 as -> ->. exists (Err UnexpectedEof), t. split; [reflexivity|].
        replace (n - length got <=? length (@nil N))%nat with false by (symmetry; apply Nat.leb_gt; cbn; lia). reflexivity.
      * specialize (IH (got ++ b :: d) t). rewrite app_length in IH. cbn zeta in IH. cbn [length] in IH, A2.
        specialize (IH ltac:(lia) ltac:(lia)). destruct (lead t) as [data' e'] eqn:Et. cbn [fst snd] in A1, A1'. subst e'.
        destruct IH as (r & t' & -> & H). exists r, t'. split; [reflexivity|]. rewrite A1.
        assert (Lk : (n - (length got + S (length d)) <=? length data')%nat = (n - length got <=? length ((b :: d) ++ data'))%nat).
        { rewrite app_length. cbn [length]. apply Bool.eq_iff_eq_true. rewrite !Nat.leb_le. lia. }
        rewrite Lk in H. destruct (n - length got <=? length ((b :: d) ++ data'))%nat; [|exact H]. destruct H as [-> H].
        rewrite (firstn_app (n - length got)), (skipn_app (n - length got)). cbn [length] in *.
        replace (n - length got - S (length d))%nat with (n - (length got + S (length d)))%nat by lia.
        rewrite (firstn_all2 (n := (n - length got)%nat) (b :: d)) by (cbn [length]; lia).
        rewrite (skipn_all2 (n := (n - length got)%nat) (b :: d)) by (cbn [length]; lia). rewrite <- app_assoc. split; [reflexivity|exact H].
    + rewrite E in A. injection A as -> ->. exists (Err x), t. split; [reflexivity|].
      replace (n - length got <=? length (@nil N))%nat with false by (symmetry; apply Nat.leb_gt; cbn; lia). reflexivity.
  - apply Nat.ltb_ge in C. replace (n - length got)%nat with 0%nat by lia. exists (Ok got), src. split; [reflexivity|].
    cbn [Nat.leb firstn skipn]. rewrite app_nil_r. split; [reflexivity|exact E].
Qed.
Lemma read_exact_spec n src :
  let (data, e) := lead src in
  exists r t, read_exact n src = (Some r, t) /\
    if (n <=? length data)%nat then r = Ok (firstn n data) /\ lead t = (skipn n data, e)
    else r = Err (match e with Some e => e | None => UnexpectedEof end).
Proof.
  pose proof (exact_spec n (S n) [] src) as H. cbn [length] in H. rewrite Nat.sub_0_r in H. cbn zeta in H. specialize (H ltac:(lia) ltac:(lia)).
  cbn [app] in H. exact H.
Qed.

(** [raw_loop] when enough bytes come, and when an error comes first. *)
Lemma raw_spec n : forall len body src, (N.to_nat (len - blen body) = n)%nat -> blen body <= len ->
  let (data, e) := lead src in
  if (n <=? length data)%nat then exists t, lead t = (skipn n data, e) /\ forall fuel, (n < fuel)%nat -> raw_loop fuel len body src = (Some (Ok (body ++ firstn n data)), t)
  else match e with
       | Some x => exists t, forall fuel, (n < fuel)%nat -> raw_loop fuel len body src = (Some (Err x), t)
       | None => forall fuel, fst (raw_loop fuel len body src) = None
       end.
Proof.
  induction n as [n IH] using (well_founded_induction lt_wf). intros len body src Hn Hb. destruct (lead src) as [data e] eqn:E.
  destruct n as [|n].
  - cbn [Nat.leb firstn skipn]. exists src. split; [exact E|]. intros fuel F. destruct fuel as [|fuel]; [lia|]. cbn [raw_loop].
    replace (blen body <? len) with false by lia. rewrite app_nil_r. reflexivity.
  - assert (S1 : forall fuel, raw_loop (S fuel) len body src =
      let remaining := len - blen body in
      let toread := if bufsize <? remaining then bufsize else remaining in
      match await_read (S (length src)) None (N.to_nat toread) src with
      | (None, _, src) => (None, src)
      | (Some (Ok d), _, src) => raw_loop fuel len (body ++ d) src
      | (Some (Err e), _, src) => (Some (Err e), src)
      | (Some Panic, _, src) => (Some Panic, src)
      end).
    { intros fuel. cbn [raw_loop]. replace (blen body <? len) with true by lia. reflexivity. }
    cbn zeta in S1. set (toread := if bufsize <? len - blen body then bufsize else len - blen body) in *.
    assert (T : 1 <= toread /\ toread <= len - blen body) by (unfold toread, bufsize; destruct (4 <? len - blen body) eqn:Q; lia).
    destruct (await_read (S (length src)) None (N.to_nat toread) src) as [[r l] t] eqn:A. apply lead_await in A; [|lia|lia].
    destruct A as [L A]. destruct r as [[d|x|]|]; [| |destruct A|destruct A].
    + destruct A as (A1 & A2 & A3). rewrite E in A1. injection A1 as A1 A1'. destruct d as [|b d].
      * destruct (A3 eq_refl) as [A4 ->]. rewrite E in A4. injection A4 as -> ->. cbn [length Nat.leb].
        assert (Spin : forall m fuel, (fuel <= m)%nat -> fst (raw_loop fuel len body []) = None).
        { induction m as [|m IHm]; intros fuel F; [replace fuel with 0%nat by lia; reflexivity|]. destruct fuel as [|fuel]; [reflexivity|].
          cbn [raw_loop]. replace (blen body <? len) with true by lia. cbn [length await_read poll_read_lim poll_read_src]. rewrite app_nil_r. apply IHm. lia. }
        intros fuel. destruct fuel as [|fuel]; [reflexivity|]. rewrite S1, app_nil_r. apply (Spin fuel). lia.
      * assert (Ld : (length (b :: d) <= S n)%nat) by lia. assert (Bl : blen (body ++ b :: d) = blen body + N.of_nat (length (b :: d))) by (rewrite blen_app; reflexivity).
        specialize (IH (S n - length (b :: d))%nat ltac:(cbn [length] in *; lia) len (body ++ b :: d) t ltac:(rewrite Bl; lia) ltac:(rewrite Bl; lia)).
        destruct (lead t) as [data' e'] eqn:Et. cbn [fst snd] in A1, A1'. subst e'.
        assert (Lk : (S n - length (b :: d) <=? length data')%nat = (S n <=? length data)%nat).
        { rewrite A1, app_length. apply Bool.eq_iff_eq_true. rewrite !Nat.leb_le. lia. }
        rewrite Lk in IH. destruct (S n <=? length data)%nat.
        -- destruct IH as (t' & Lt & IH). exists t'. rewrite A1 at 1. rewrite skipn_app, (skipn_all2 (n := S n) (b :: d)) by lia. split; [exact Lt|].
           intros fuel F. destruct fuel as [|fuel]; [lia|]. rewrite S1, IH by (cbn [length]; lia). rewrite A1 at 1. rewrite firstn_app, (firstn_all2 (n := S n) (b :: d)) by lia.
           rewrite <- app_assoc. reflexivity.
        -- destruct e as [x|].
           ++ destruct IH as (t' & IH). exists t'. intros fuel F. destruct fuel as [|fuel]; [lia|]. rewrite S1. apply IH. cbn [length] in *. lia.
           ++ intros fuel. destruct fuel as [|fuel]; [reflexivity|]. rewrite S1. apply IH.
    + rewrite E in A. injection A as -> ->. cbn [length Nat.leb]. exists t. intros fuel F. destruct fuel as [|fuel]; [lia|]. rewrite S1. reflexivity.
Qed.

(** *** C95: messages *)
Lemma four_bytes (d : bytes) : length d = 4%nat -> bytes_ok d -> be_bytes 4 (of_be_bytes d) = d /\ of_be_bytes d < 4294967296.
Proof.
  intros L B. split.
  - rewrite <- L. apply be_of_be_bytes. exact B.
  - pose proof (of_be_bytes_lt d B) as H. unfold blen in H. rewrite L in H. change (256 ^ N.of_nat 4) with 4294967296 in H. exact H.
Qed.
Lemma of_four i : i < 4294967296 -> of_be_bytes (be_bytes 4 i) = i.
Proof. intros H. apply of_be_be_bytes. exact H. Qed.
(** C95: a body decodes to a message exactly when it is the wire form of that message. *)
Theorem C95_body_exactly body m : bytes_ok body -> (decode_body body = Ok m <-> message_ok m /\ wire m = body).
Proof.
  intros B. split.
  - intros H. destruct body as [|id body]; [cbn in H; injection H as <-; cbn; auto|].
    apply bytes_ok_cons in B. destruct B as [Hid B]. unfold decode_body in H.
    assert (Emp : forall m0, (if (length body =? 0)%nat then Ok m0 else Err (DBody id (blen body))) = Ok m -> m = m0 /\ body = []).
    { intros m0 X. destruct body; [|discriminate]. injection X as <-. auto. }
    assert (Unk : Ok (Unknown id body) = (Ok m : outcome derror pmessage) -> ~ In id [0; 1; 2; 3; 4; 5; 7] -> message_ok m /\ wire m = id :: body).
    { intros X K. injection X as <-. split; [exact K|reflexivity]. }
    destruct id as [|[[[p|p|]|[p|p|]|]|[[p|p|]|[p|p|]|]|]];
      try (apply Unk in H; [exact H|cbn; intros K; repeat (destruct K as [K|K]; [discriminate|]); exact K]);
      try (apply Emp in H; destruct H as [-> ->]; cbn; auto).
    + destruct (length body <? 8)%nat eqn:L; [discriminate|]. apply Nat.ltb_ge in L.
      assert (m = Piece (of_be_bytes (firstn 4 body)) (of_be_bytes (firstn 4 (skipn 4 body))) (skipn 8 body)) as -> by congruence. cbn [message_ok wire].
      destruct (four_bytes (firstn 4 body)) as [F1 F2]; [rewrite firstn_length; lia|apply bytes_ok_firstn; exact B|].
      destruct (four_bytes (firstn 4 (skipn 4 body))) as [F3 F4]; [rewrite firstn_length, skipn_length; lia|apply bytes_ok_firstn, bytes_ok_skipn; exact B|].
      split; [split; assumption|]. rewrite F1, F3. f_equal. rewrite <- (firstn_skipn 4 body) at 4. f_equal. rewrite <- (firstn_skipn 4 (skipn 4 body)) at 2. f_equal.
      destruct body as [|? [|? [|? [|? ?]]]]; reflexivity.
    + injection H as <-. cbn. auto.
    + destruct (length body =? 4)%nat eqn:L; [|discriminate]. apply Nat.eqb_eq in L. cbn [negb] in H.
      assert (m = Have (of_be_bytes (firstn 4 body))) as -> by congruence. rewrite firstn_all2 by lia.
      destruct (four_bytes body L B) as [F1 F2]. cbn [message_ok wire]. rewrite F1. split; [exact F2|reflexivity].
  - intros [K <-]. destruct m as [| | | | |i|b|i b blk|id bd]; cbn [wire message_ok] in *; try reflexivity.
    + cbn [decode_body]. rewrite be_bytes_length. cbn [Nat.eqb negb]. rewrite firstn_all2 by (rewrite be_bytes_length; lia). rewrite of_four by exact K. reflexivity.
    + destruct K as [K1 K2]. cbn [decode_body]. rewrite !app_length, !be_bytes_length. cbn [Nat.add Nat.ltb Nat.leb].
      set (x := be_bytes 4 i). assert (Lx : length x = 4%nat) by apply be_bytes_length. set (y := be_bytes 4 b). assert (Ly : length y = 4%nat) by apply be_bytes_length.
      replace (firstn 4 (x ++ y ++ blk)) with x by (rewrite firstn_app, Lx, firstn_all2 by lia; cbn [Nat.sub firstn]; rewrite app_nil_r; reflexivity).
      replace (skipn 4 (x ++ y ++ blk)) with (y ++ blk) by (rewrite skipn_app, Lx, skipn_all2 by lia; reflexivity).
      replace (firstn 4 (y ++ blk)) with y by (rewrite firstn_app, Ly, firstn_all2 by lia; cbn [Nat.sub firstn]; rewrite app_nil_r; reflexivity).
      replace (skipn 8 (x ++ y ++ blk)) with blk by (rewrite app_assoc, skipn_app, skipn_all2, app_length, Lx, Ly by (rewrite app_length; lia); reflexivity).
      unfold x, y. rewrite !of_four by assumption. reflexivity.
    + cbn [decode_body]. cbn [In] in K.
      destruct id as [|[[[p|p|]|[p|p|]|]|[[p|p|]|[p|p|]|]|]]; try reflexivity; exfalso; apply K; repeat ((left; reflexivity) || right).
Qed.
Print Assumptions C95_body_exactly.
Example C95_body_example :
  decode_body [7; 0; 0; 0; 9; 0; 0; 64; 0; 171; 205] = Ok (Piece 9 16384 [171; 205]) /\
  decode_body [4; 0; 0; 1; 2] = Ok (Have 258) /\ decode_body [0; 0] = Err (DBody 0 1) /\ decode_body [6; 1] = Ok (Unknown 6 [1]).
Proof. repeat split. Qed.
(** C95: no body makes the decoder panic. *)
Theorem C95_decode_never_panics body : decode_body body <> Panic.
Proof.
  destruct body as [|id body]; [discriminate|]. unfold decode_body.
  assert (E : forall m0, (if (length body =? 0)%nat then Ok m0 else Err (DBody id (blen body)) : outcome derror pmessage) <> Panic) by (intros; destruct (length body =? 0)%nat; discriminate).
  destruct id as [|[[[p|p|]|[p|p|]|]|[[p|p|]|[p|p|]|]|]]; try apply E; try discriminate.
  - destruct (length body <? 8)%nat; discriminate.
  - destruct (negb (length body =? 4)%nat); discriminate.
Qed.
Print Assumptions C95_decode_never_panics.

(** The cases of [read_message_raw]. *)
Lemma raw_message_spec src :
  let (data, e) := lead src in bytes_ok data ->
  let len := of_be_bytes (firstn 4 data) in let rest := skipn 4 data in let n := N.to_nat len in
  if (4 <=? length data)%nat then
    if (n <=? length rest)%nat then exists t, lead t = (skipn n rest, e) /\ forall fuel, (n < fuel)%nat -> read_message_raw fuel src = (Some (Ok (firstn n rest)), t)
    else match e with
         | Some x => exists t, forall fuel, (n < fuel)%nat -> read_message_raw fuel src = (Some (Err x), t)
         | None => forall fuel, fst (read_message_raw fuel src) = None
         end
  else exists t, forall fuel, read_message_raw fuel src = (Some (Err (match e with Some x => x | None => UnexpectedEof end)), t).
Proof.
  pose proof (read_exact_spec 4 src) as X. destruct (lead src) as [data e]. intros B. cbn zeta. destruct X as (r & t & E & X).
  destruct (4 <=? length data)%nat.
  - destruct X as [-> Lt]. pose proof (raw_spec _ (of_be_bytes (firstn 4 data)) [] t eq_refl) as Y. rewrite Lt in Y.
    change (blen []) with 0 in Y. rewrite N.sub_0_r in Y. specialize (Y ltac:(lia)).
    destruct (N.to_nat (of_be_bytes (firstn 4 data)) <=? length (skipn 4 data))%nat.
    + destruct Y as (t' & Lt' & Y). exists t'. split; [exact Lt'|]. intros fuel F. unfold read_message_raw. rewrite E. apply Y. exact F.
    + destruct e as [x|].
      * destruct Y as (t' & Y). exists t'. intros fuel F. unfold read_message_raw. rewrite E. apply Y. exact F.
      * intros fuel. unfold read_message_raw. rewrite E. apply Y.
  - subst r. exists t. intros fuel. unfold read_message_raw. rewrite E. reflexivity.
Qed.
Lemma frame_parts (p : bytes) (len : N) rest : p = be_bytes 4 len ++ rest -> len < 4294967296 ->
  of_be_bytes (firstn 4 p) = len /\ skipn 4 p = rest /\ (4 <=? length p)%nat = true.
Proof.
  intros -> L. assert (L4 : length (be_bytes 4 len) = 4%nat) by apply be_bytes_length.
  rewrite firstn_app, L4, firstn_all2 by lia. cbn [Nat.sub firstn]. rewrite app_nil_r, skipn_app, L4, skipn_all2 by lia. cbn [Nat.sub skipn app].
  rewrite of_four by exact L. split; [reflexivity|]. split; [reflexivity|]. apply Nat.leb_le. rewrite app_length, L4. lia.
Qed.
(** C95: a message that arrives, in any pieces and whatever follows it, is read as that message. *)
Theorem C95_read_message m src rest e :
  message_ok m -> bytes_ok (wire m) -> blen (wire m) < 4294967296 -> bytes_ok rest ->
  lead src = (be_bytes 4 (blen (wire m)) ++ wire m ++ rest, e) ->
  exists t, lead t = (rest, e) /\ forall fuel, (length (wire m) < fuel)%nat -> read_peer_message fuel src = (Some (Ok m), t).
Proof.
  intros K Bm L Br E. pose proof (raw_message_spec src) as X. rewrite E in X.
  assert (B : bytes_ok (be_bytes 4 (blen (wire m)) ++ wire m ++ rest)) by (apply bytes_ok_app; split; [apply be_bytes_ok|apply bytes_ok_app; split; assumption]).
  specialize (X B). cbn zeta in X. destruct (frame_parts _ (blen (wire m)) (wire m ++ rest) eq_refl L) as (P1 & P2 & P3). rewrite P1, P2, P3 in X.
  assert (N1 : N.to_nat (blen (wire m)) = length (wire m)) by (unfold blen; lia). rewrite N1 in X.
  replace (length (wire m) <=? length (wire m ++ rest))%nat with true in X by (symmetry; apply Nat.leb_le; rewrite app_length; lia).
  destruct X as (t & Lt & X). rewrite skipn_app_length in Lt. exists t. split; [exact Lt|]. intros fuel F. unfold read_peer_message. rewrite (X fuel F), firstn_app_length.
  rewrite (proj2 (C95_body_exactly (wire m) m Bm) (conj K eq_refl)). reflexivity.
Qed.
Print Assumptions C95_read_message.
(** C95: and a message is only ever read when its wire form stood at the front. *)
Theorem C95_read_sound fuel m src t : bytes_ok (fst (lead src)) -> read_peer_message fuel src = (Some (Ok m), t) ->
  message_ok m /\ lead src = (be_bytes 4 (blen (wire m)) ++ wire m ++ fst (lead t), snd (lead t)).
Proof.
  intros B H. pose proof (raw_message_spec src) as X. destruct (lead src) as [data e] eqn:E. cbn [fst] in B. specialize (X B). cbn zeta in X.
  unfold read_peer_message in H.
  assert (Big : forall r u f, read_message_raw fuel src = (Some r, u) -> (fuel <= f)%nat -> read_message_raw f src = (Some r, u)).
  { unfold read_message_raw. destruct (read_exact 4 src) as [[[q|q|]|] s0]; try (intros r u f Y _; exact Y). generalize (of_be_bytes q), (@nil N).
    clear. revert s0. induction fuel as [|fuel IH]; intros s0 len body r u f Y F; [cbn in Y; discriminate|]. destruct f as [|f]; [lia|]. cbn [raw_loop] in Y |- *.
    destruct (blen body <? len); [|exact Y]. destruct (await_read _ _ _ s0) as [[[[d|x|]|] l] s1]; try exact Y. apply IH; [exact Y|lia]. }
  destruct (read_message_raw fuel src) as [[[body|x|]|] t'] eqn:R; try discriminate. assert (D : decode_body body = Ok m) by congruence. assert (t' = t) as -> by congruence. clear H.
  specialize (Big _ _ (fuel + S (N.to_nat (of_be_bytes (firstn 4 data))))%nat eq_refl ltac:(lia)).
  destruct (4 <=? length data)%nat eqn:L4.
  - apply Nat.leb_le in L4. destruct (N.to_nat (of_be_bytes (firstn 4 data)) <=? length (skipn 4 data))%nat eqn:Ln.
    + apply Nat.leb_le in Ln. destruct X as (t1 & Lt & X). rewrite X in Big by lia. assert (t1 = t) as -> by congruence.
      assert (body = firstn (N.to_nat (of_be_bytes (firstn 4 data))) (skipn 4 data)) as -> by congruence.
      apply C95_body_exactly in D; [|apply bytes_ok_firstn, bytes_ok_skipn; exact B]. destruct D as [K D]. split; [exact K|]. rewrite D, Lt. cbn [fst snd].
      destruct (four_bytes (firstn 4 data)) as [F1 F2]; [rewrite firstn_length; lia|apply bytes_ok_firstn; exact B|].
      replace (blen (firstn (N.to_nat (of_be_bytes (firstn 4 data))) (skipn 4 data))) with (of_be_bytes (firstn 4 data)) by (unfold blen; rewrite firstn_length, Nat.min_l by exact Ln; lia).
      rewrite F1, firstn_skipn, firstn_skipn. reflexivity.
    + destruct e as [x|]; [destruct X as (t1 & X); rewrite X in Big by lia; discriminate|]. pose proof (X fuel) as Y. rewrite R in Y. discriminate.
  - destruct X as (t1 & X). rewrite X in R. discriminate.
Qed.
Print Assumptions C95_read_sound.
(** C95: a stream that fails gives that error, not a message. *)
Theorem C95_failure_reported src data x : bytes_ok data -> lead src = (data, Some x) ->
  ((length data < 4)%nat \/ blen (skipn 4 data) < of_be_bytes (firstn 4 data)) ->
  exists t n, forall fuel, (n < fuel)%nat -> read_peer_message fuel src = (Some (Err (DIo x)), t).
Proof.
  intros B E H. pose proof (raw_message_spec src) as X. rewrite E in X. specialize (X B). cbn zeta in X.
  destruct (4 <=? length data)%nat eqn:L4.
  - apply Nat.leb_le in L4. destruct H as [H|H]; [lia|].
    replace (N.to_nat (of_be_bytes (firstn 4 data)) <=? length (skipn 4 data))%nat with false in X by (symmetry; apply Nat.leb_gt; unfold blen in H; lia).
    destruct X as (t & X). exists t, (N.to_nat (of_be_bytes (firstn 4 data))). intros fuel F. unfold read_peer_message. rewrite X by exact F. reflexivity.
  - destruct X as (t & X). exists t, 0%nat. intros fuel F. unfold read_peer_message. rewrite X. reflexivity.
Qed.
Print Assumptions C95_failure_reported.
(** C95 does not hold of a peer that closes the connection inside a message: the loop then reads
    nothing again and again, and never returns. *)
Theorem C95_closed_in_message_refuted src len part :
  bytes_ok part -> len < 4294967296 -> blen part < len -> lead src = (be_bytes 4 len ++ part, None) ->
  forall fuel, fst (read_peer_message fuel src) = None.
Proof.
  intros B L P E fuel. pose proof (raw_message_spec src) as X. rewrite E in X. specialize (X ltac:(apply bytes_ok_app; split; [apply be_bytes_ok|exact B])). cbn zeta in X.
  destruct (frame_parts _ len part eq_refl L) as (P1 & P2 & P3). rewrite P1, P2, P3 in X.
  replace (N.to_nat len <=? length part)%nat with false in X by (symmetry; apply Nat.leb_gt; unfold blen in P; lia).
  specialize (X fuel). unfold read_peer_message. destruct (read_message_raw fuel src) as [[r|] t]; [discriminate|reflexivity].
Qed.
Print Assumptions C95_closed_in_message_refuted.
Example C95_closed_example : lead (map Byte [0; 0; 0; 5; 4; 0]) = (be_bytes 4 5 ++ [4; 0], None) /\
  fst (read_peer_message 100 (map Byte [0; 0; 0; 5; 4; 0])) = None /\
  read_peer_message 10 [Byte 0; Byte 0; Pause; Byte 0; Cut; Byte 1; Byte 1; Byte 9] = (Some (Ok Unchoke), [Byte 9]).
Proof. repeat split. Qed.

(** *** C95: the handshake *)
(** C95: a handshake is accepted exactly when the first 68 bytes are the length 19, the name of
    the protocol, any eight bytes, the info hash and the peer id. *)
Theorem C95_handshake_exactly src h t : bytes_ok (fst (lead src)) ->
  (recv_handshake src = (Some (Ok h), t) ->
   exists reserved, length reserved = 8%nat /\ length (hs_info_hash h) = 20%nat /\ length (hs_peer_id h) = 20%nat /\
     lead src = ([19] ++ ascii_bytes "BitTorrent protocol" ++ reserved ++ hs_info_hash h ++ hs_peer_id h ++ fst (lead t), snd (lead t))) /\
  (forall reserved rest e, length reserved = 8%nat -> length (hs_info_hash h) = 20%nat -> length (hs_peer_id h) = 20%nat ->
     lead src = ([19] ++ ascii_bytes "BitTorrent protocol" ++ reserved ++ hs_info_hash h ++ hs_peer_id h ++ rest, e) ->
     exists t, recv_handshake src = (Some (Ok h), t) /\ lead t = (rest, e)).
Proof.
  intros B. pose proof (read_exact_spec 68 src) as X. destruct (lead src) as [data e] eqn:E. cbn [fst] in B. destruct X as (r & t0 & R & X).
  unfold recv_handshake. rewrite R. split.
  - intros H. destruct (68 <=? length data)%nat eqn:L; [|subst r; discriminate]. apply Nat.leb_le in L. destruct X as [-> Lt].
    assert (t0 = t) as -> by congruence. rewrite Lt. cbn [fst snd].
    destruct (nth 0 (firstn 68 data) 0 =? 19) eqn:N0; [|discriminate]. cbn [negb] in H.
    destruct (bytes_eqb (firstn 19 (skipn 1 (firstn 68 data))) protocol_name) eqn:N1; [|discriminate]. cbn [negb] in H.
    apply bytes_eqb_eq in N1. apply N.eqb_eq in N0.
    assert (Hh : h = {| hs_info_hash := firstn 20 (skipn 28 (firstn 68 data)); hs_peer_id := firstn 20 (skipn 48 (firstn 68 data)) |}) by congruence. clear H.
    set (b68 := firstn 68 data) in *. assert (L68 : length b68 = 68%nat) by (unfold b68; rewrite firstn_length; lia).
    exists (firstn 8 (skipn 20 b68)). subst h. cbn [hs_info_hash hs_peer_id]. rewrite !firstn_length, !skipn_length, L68.
    split; [reflexivity|]. split; [reflexivity|]. split; [reflexivity|]. f_equal. fold protocol_name. rewrite <- N1. replace [19] with (firstn 1 b68).
    2: { destruct b68 as [|x b]; [discriminate|]. cbn [nth] in N0. cbn [firstn]. rewrite N0. reflexivity. }
    rewrite <- (firstn_skipn 68 data) at 1. fold b68. rewrite !app_assoc. f_equal. rewrite <- !app_assoc. clear -L68.
    do 69 (destruct b68 as [|? b68]; [try (exfalso; cbn in L68; lia)|]); try reflexivity. exfalso. cbn in L68. lia.
  - intros reserved rest e' L8 L20 L20' Ed. injection Ed as Ed ->.
    set (p := [19] ++ ascii_bytes "BitTorrent protocol" ++ reserved ++ hs_info_hash h ++ hs_peer_id h) in *.
    assert (Lp : length p = 68%nat) by (unfold p; rewrite !app_length, L8, L20, L20'; reflexivity).
    assert (Ep : data = p ++ rest) by (rewrite Ed; unfold p; rewrite <- !app_assoc; reflexivity). rewrite Ep in X.
    replace (68 <=? length (p ++ rest))%nat with true in X by (symmetry; apply Nat.leb_le; rewrite app_length; lia). destruct X as [-> Lt].
    exists t0. rewrite <- Lp in Lt at 1. rewrite <- Lp, firstn_app_length. rewrite skipn_app_length in Lt. split; [|exact Lt]. f_equal. f_equal.
    destruct h as [hh hp]. cbn [hs_info_hash hs_peer_id] in *. unfold p. clear -L8 L20 L20'.
    set (n := ascii_bytes "BitTorrent protocol"). assert (Ln : length n = 19%nat) by reflexivity. change ([19] ++ n ++ reserved ++ hh ++ hp) with (19 :: n ++ reserved ++ hh ++ hp).
    change (nth 0 (19 :: n ++ reserved ++ hh ++ hp) 0) with 19. change (19 =? 19) with true. cbn [negb].
    change (skipn 1 (19 :: n ++ reserved ++ hh ++ hp)) with (n ++ reserved ++ hh ++ hp).
    change (skipn 28 (19 :: n ++ reserved ++ hh ++ hp)) with (skipn 27 (n ++ reserved ++ hh ++ hp)).
    change (skipn 48 (19 :: n ++ reserved ++ hh ++ hp)) with (skipn 47 (n ++ reserved ++ hh ++ hp)).
    replace (firstn 19 (n ++ reserved ++ hh ++ hp)) with n by (rewrite <- Ln, firstn_app_length; reflexivity).
    change protocol_name with n. rewrite bytes_eqb_refl. cbn [negb]. f_equal. f_equal.
    + replace (n ++ reserved ++ hh ++ hp) with ((n ++ reserved) ++ hh ++ hp) by (rewrite <- app_assoc; reflexivity).
      replace 27%nat with (length (n ++ reserved)) by (rewrite app_length, Ln, L8; reflexivity). rewrite skipn_app_length. rewrite <- L20, firstn_app_length. reflexivity.
    + replace (n ++ reserved ++ hh ++ hp) with ((n ++ reserved ++ hh) ++ hp) by (rewrite <- !app_assoc; reflexivity).
      replace 47%nat with (length (n ++ reserved ++ hh)) by (rewrite !app_length, Ln, L8, L20; reflexivity). rewrite skipn_app_length. apply firstn_all2. lia.
Qed.
Print Assumptions C95_handshake_exactly.
(** C95: what this program sends is accepted by it. *)
Theorem C95_handshake_round_trip h src rest e : length (hs_info_hash h) = 20%nat -> length (hs_peer_id h) = 20%nat -> bytes_ok (send_handshake h ++ rest) ->
  lead src = (send_handshake h ++ rest, e) -> exists t, recv_handshake src = (Some (Ok h), t) /\ lead t = (rest, e).
Proof.
  intros L1 L2 B E. apply (proj2 (C95_handshake_exactly src h [] ltac:(rewrite E; exact B)) (repeat 0 8) rest e eq_refl L1 L2).
  rewrite E. unfold send_handshake, protocol_name. rewrite <- !app_assoc. reflexivity.
Qed.
Print Assumptions C95_handshake_round_trip.
Example C95_handshake_example :
  let h := {| hs_info_hash := repeat 7 20; hs_peer_id := repeat 9 20 |} in
  length (send_handshake h) = 68%nat /\ recv_handshake (map Byte (send_handshake h) ++ [Byte 1]) = (Some (Ok h), [Byte 1]) /\
  fst (recv_handshake (map Byte (firstn 67 (send_handshake h)))) = Some (Err (DIo UnexpectedEof)).
Proof. repeat split. Qed.
