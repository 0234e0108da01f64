(** Lemmas about transport parameters. *)
From Verif Require Import Base BaseProofs BinaryModel BinarySpec BinaryProofs BinaryProofs2 MessageProofs MessageProofs2 TlsTypesProofs QuicModel QuicSpec.
From Coq Require Import Lia ZArith ZifyBool ZifyNat ZifyN.
Ltac Zify.zify_post_hook ::= Z.div_mod_to_equations.
Local Open Scope list_scope. Local Open Scope N_scope.

Lemma quic_form_length w v : length (quic_form w v) = w.
Proof. apply be_bytes_length. Qed.
Lemma blen_form w v : blen (quic_form w v) = N.of_nat w.
Proof. unfold blen. rewrite quic_form_length. reflexivity. Qed.
Lemma quic_enc_form v : quic_enc v = quic_form (quic_width v) v.
Proof. reflexivity. Qed.
Lemma width_ok v : v < two62 -> form_ok (quic_width v) v.
Proof. intros H. destruct (quic_width_cases v H) as (I & L & _). split; assumption. Qed.
Lemma width_least w v : form_ok w v -> (quic_width v <= w)%nat.
Proof.
  intros [I L]. unfold quic_width. cbn [In] in I.
  destruct I as [<-|[<-|[<-|[<-|[]]]]]; [change (2 ^ (8 * N.of_nat 1 - 2)) with 64 in L|change (2 ^ (8 * N.of_nat 2 - 2)) with 16384 in L|change (2 ^ (8 * N.of_nat 4 - 2)) with 1073741824 in L|];
    repeat match goal with |- context [?a <? ?b] => destruct (N.ltb_spec a b) end; lia.
Qed.
Lemma form_lt w v : form_ok w v -> v < two62.
Proof.
  intros [I L]. eapply N.lt_le_trans; [exact L|]. change two62 with (2 ^ 62). apply N.pow_le_mono_r; [discriminate|].
  cbn [In] in I. lia.
Qed.
Lemma form_nonempty w v : form_ok w v -> quic_form w v <> [].
Proof. intros [I L] E. apply (f_equal (@length N)) in E. rewrite quic_form_length in E. subst w. cbn [In] in I. cbn in I. intuition discriminate. Qed.
Lemma read_form w v pre post : form_ok w v -> fits (pre ++ quic_form w v ++ post) -> read_quic_varint (at_pos pre (quic_form w v ++ post)) = (Ok v, at_pos (pre ++ quic_form w v) post).
Proof. intros [I L] F. apply read_quic_form; assumption. Qed.
Lemma read_quic_inv pre rest x r' : bytes_ok rest -> read_quic_varint (at_pos pre rest) = (x, r') ->
  (exists e, x = Err e) \/ (exists w v post, form_ok w v /\ rest = quic_form w v ++ post /\ x = Ok v /\ r' = at_pos (pre ++ quic_form w v) post).
Proof.
  intros O E. destruct x as [n|e|]; [right|left; eauto|].
  2:{ exfalso. destruct (wb_quic (at_pos pre rest) (at_in_bounds _ _)) as [NP _]. rewrite E in NP. apply NP. reflexivity. }
  destruct (run_rop_value RQuic pre rest (inl n) r' Logic.I O) as (s & post & -> & -> & V).
  { cbn [run_rop]. unfold rbind. rewrite E. reflexivity. }
  cbn [rop_value] in V. destruct s as [|b s]; [contradiction|]. destruct V as [L ->].
  apply bytes_ok_app in O. destruct O as [O _]. pose proof O as O'. apply bytes_ok_cons in O'. destruct O' as [Hb O'].
  assert (T : b / 64 < 4) by lia.
  assert (W : In (length (b :: s)) [1; 2; 4; 8]%nat /\ quic_tag (length (b :: s)) = b / 64).
  { rewrite L. assert (D : b / 64 = 0 \/ b / 64 = 1 \/ b / 64 = 2 \/ b / 64 = 3) by lia. destruct D as [->|[->|[->| ->]]]; (split; [vm_compute; auto 8|reflexivity]). }
  destruct W as [W Tg]. set (w := length (b :: s)) in *. set (m := 2 ^ (8 * N.of_nat w - 2)).
  exists w, (of_be_bytes (b :: s) mod m), post.
  assert (Pm : m = 64 * 256 ^ N.of_nat (length s)).
  { unfold m, w. cbn [length]. change 64 with (2 ^ 6). change 256 with (2 ^ 8). rewrite <- N.pow_mul_r, <- N.pow_add_r. f_equal. lia. }
  assert (Ev : of_be_bytes (b :: s) = b * 256 ^ N.of_nat (length s) + of_be_bytes s) by (change (b :: s) with ([b] ++ s); rewrite of_be_app, of_be_single; reflexivity).
  pose proof (of_be_bytes_lt s O') as Ls. pose proof (pow256_pos (N.of_nat (length s))) as Pp.
  assert (Dv : of_be_bytes (b :: s) / m = b / 64).
  { symmetry. apply (N.div_unique _ m (b / 64) ((b mod 64) * 256 ^ N.of_nat (length s) + of_be_bytes s)).
    - rewrite Pm. assert (b mod 64 <= 63) by lia. nia.
    - rewrite Pm, Ev. rewrite (N.div_mod b 64) at 1 by discriminate. ring. }
  assert (Ef : b :: s = quic_form w (of_be_bytes (b :: s) mod m)).
  { unfold quic_form. fold m. rewrite Tg, <- Dv. pose proof (N.div_mod (of_be_bytes (b :: s)) m) as X. rewrite N.mul_comm, <- X by (rewrite Pm; lia).
    symmetry. apply be_of_be_bytes. exact O. }
  split; [split; [exact W|apply N.mod_lt; lia]|]. rewrite <- Ef. auto.
Qed.
Lemma varint_exact w v : form_ok w v -> quic_varint_from_bytes (quic_form w v) = Ok v.
Proof.
  intros F. unfold quic_varint_from_bytes, rbind. rewrite new_at_pos. rewrite <- (app_nil_r (quic_form w v)), read_form; [|exact F|].
  - unfold expect_eof. rewrite remaining_at. reflexivity.
  - unfold fits. rewrite app_nil_l, app_nil_r, blen_form. destruct F as [I _]. cbn [In] in I. change two64 with 18446744073709551616. lia.
Qed.
Lemma varint_inv d : bytes_ok d -> (exists w v, form_ok w v /\ d = quic_form w v /\ quic_varint_from_bytes d = Ok v) \/
  ((forall w v, form_ok w v -> d <> quic_form w v) /\ exists e, quic_varint_from_bytes d = Err e).
Proof.
  intros O. destruct (quic_varint_from_bytes d) as [v|e|] eqn:E.
  - left. unfold quic_varint_from_bytes, rbind in E. rewrite new_at_pos in E. destruct (read_quic_varint (at_pos [] d)) as [x r] eqn:R.
    apply read_quic_inv in R; [|exact O]. destruct R as [[e ->]|(w & v' & post & F & -> & -> & ->)]; [discriminate|].
    unfold expect_eof in E. rewrite remaining_at in E. destruct (_ <? _)%nat eqn:L; [discriminate|]. cbn in E. injection E as <-.
    exists w, v'. apply Nat.ltb_ge in L. destruct post as [|x post]; [|cbn [length] in L; lia].
    rewrite app_nil_r. split; [exact F|]. split; reflexivity.
  - right. split; [|eauto]. intros w v F ->. rewrite varint_exact in E by exact F. discriminate.
  - exfalso. unfold quic_varint_from_bytes, rbind in E. rewrite new_at_pos in E. destruct (read_quic_varint (at_pos [] d)) as [x r] eqn:R.
    apply read_quic_inv in R; [|exact O]. destruct R as [[e ->]|(w & v' & post & F & -> & -> & ->)]; [discriminate|].
    unfold expect_eof in E. destruct (_ <? _)%nat; discriminate.
Qed.

(** *** What a parameter means *)
Definition decoded (id : N) (d : bytes) : param := match param_decode id d with Ok p => p | _ => PInvalid id d end.
Lemma decode_known id p d : In (id, p) param_ids -> param_decode id d = (let? v := from_binary (quic_varint_from_bytes d) in Ok (PNumber p v)).
Proof. unfold param_ids. cbn [In]. intros H. repeat (destruct H as [H|H]; [injection H as <- <-; reflexivity|]). contradiction. Qed.
Lemma decode_other id d : ~ In id (15 :: map fst param_ids) -> param_decode id d = Ok (PUnknown id d).
Proof.
  unfold param_ids. cbn [map fst In]. intros H. unfold param_decode. cbv zeta.
  repeat match goal with |- context [?a =? ?b] => destruct (N.eqb_spec a b); [exfalso; intuition congruence|] end. reflexivity.
Qed.
Lemma decode_cases id : id = 15 \/ (exists p, In (id, p) param_ids) \/ ~ In id (15 :: map fst param_ids).
Proof.
  destruct (in_dec N.eq_dec id (15 :: map fst param_ids)) as [[<-|I]|NI]; [auto| |auto]. right. left.
  apply in_map_iff in I. destruct I as ([i p] & <- & I). exists p. exact I.
Qed.
Lemma decoded_means id d : bytes_ok d -> means id d (decoded id d).
Proof.
  intros O. unfold decoded. destruct (decode_cases id) as [->|[[p I]|NI]].
  - change (param_decode 15 d) with (let? c := connection_id_from_raw d in Ok (PSourceId c)). unfold connection_id_from_raw.
    destruct (Nat.leb_spec (length d) 20); cbn [bind]; constructor; assumption.
  - rewrite (decode_known id p d I). destruct (varint_inv d O) as [(w & v & F & -> & ->)|(N & e & ->)]; cbn [from_binary map_err bind].
    + apply MNumber; assumption.
    + eapply MBadNumber; eassumption.
  - rewrite decode_other by exact NI. apply MOther. exact NI.
Qed.
Lemma ids_functional id p q : In (id, p) param_ids -> In (id, q) param_ids -> p = q.
Proof.
  unfold param_ids. cbn [In]. intros H1 H2.
  repeat (destruct H1 as [H1|H1]; [injection H1 as <- <-; repeat (destruct H2 as [H2|H2]; [try discriminate; injection H2; auto|]); contradiction|]). contradiction.
Qed.
Lemma known_not_15 p : ~ In (15, p) param_ids.
Proof. unfold param_ids. cbn [In]. intuition discriminate. Qed.
Lemma means_decoded id d p : bytes_ok d -> means id d p -> p = decoded id d.
Proof.
  intros O M. unfold decoded. destruct M as [id p w v I F|id p d I N|d L|d L|id d NI].
  - rewrite (decode_known _ _ _ I), varint_exact by exact F. reflexivity.
  - rewrite (decode_known _ _ _ I). destruct (varint_inv d O) as [(w & v & F & E & _)|(_ & e & ->)]; [destruct (N w v F E)|reflexivity].
  - change (param_decode 15 d) with (let? c := connection_id_from_raw d in Ok (PSourceId c)). unfold connection_id_from_raw.
    destruct (Nat.leb_spec (length d) 20); [reflexivity|lia].
  - change (param_decode 15 d) with (let? c := connection_id_from_raw d in Ok (PSourceId c)). unfold connection_id_from_raw.
    destruct (Nat.leb_spec (length d) 20); [lia|reflexivity].
  - rewrite decode_other by exact NI. reflexivity.
Qed.
Lemma decode_not_panic id d : bytes_ok d -> param_decode id d <> Panic.
Proof.
  intros O. destruct (decode_cases id) as [->|[[p I]|NI]].
  - change (param_decode 15 d) with (let? c := connection_id_from_raw d in Ok (PSourceId c)). unfold connection_id_from_raw. destruct (_ <=? _)%nat; discriminate.
  - rewrite (decode_known id p d I). destruct (varint_inv d O) as [(w & v & F & -> & ->)|(N & e & ->)]; discriminate.
  - rewrite decode_other by exact NI. discriminate.
Qed.

(** *** The list *)
Lemma param_read_ok x pre post : wire_param_ok x -> bytes_ok (wp_value x) -> fits (pre ++ wire_param_bytes x ++ post) ->
  param_read (at_pos pre (wire_param_bytes x ++ post)) = (Ok (decoded (wp_id x) (wp_value x)), at_pos (pre ++ wire_param_bytes x) post).
Proof.
  intros [F1 F2] O F. unfold param_read, wire_param_bytes, rbind in *. rewrite <- !app_assoc in *. rewrite read_form; [|exact F1|exact F].
  rewrite read_form; [|exact F2|rewrite <- app_assoc; exact F]. unfold read_fixed. rewrite take_ok by (rewrite <- !app_assoc; exact F).
  unfold decoded. pose proof (decode_not_panic (wp_id x) (wp_value x) O) as NP. rewrite <- !app_assoc.
  destruct (param_decode (wp_id x) (wp_value x)); [reflexivity|reflexivity|contradiction].
Qed.
Lemma param_read_inv pre rest x r : bytes_ok rest -> param_read (at_pos pre rest) = (x, r) ->
  (exists e, x = Err e) \/ exists y post, wire_param_ok y /\ rest = wire_param_bytes y ++ post /\ x = Ok (decoded (wp_id y) (wp_value y)) /\ r = at_pos (pre ++ wire_param_bytes y) post.
Proof.
  intros O E. unfold param_read, rbind in E. destruct (read_quic_varint (at_pos pre rest)) as [x1 r1] eqn:E1.
  apply read_quic_inv in E1; [|exact O]. destruct E1 as [[e ->]|(w1 & id & p1 & F1 & -> & -> & ->)]; [injection E as <- <-; left; eauto|].
  apply bytes_ok_app in O. destruct O as [_ O]. destruct (read_quic_varint (at_pos (pre ++ quic_form w1 id) p1)) as [x2 r2] eqn:E2.
  apply read_quic_inv in E2; [|exact O]. destruct E2 as [[e ->]|(w2 & len & p2 & F2 & -> & -> & ->)]; [injection E as <- <-; left; eauto|].
  apply bytes_ok_app in O. destruct O as [_ O]. unfold read_fixed in E. match type of E with context [take ?a ?b ?c] => destruct (take a b c) as [x3 r3] eqn:E3 end.
  apply take_inv in E3. destruct E3 as [(e & -> & ->)|(s & p3 & -> & L & -> & ->)]; [injection E as <- <-; left; eauto|].
  apply bytes_ok_app in O. destruct O as [O _]. pose proof (decode_not_panic id s O) as NP.
  right. exists {| wp_id := id; wp_id_width := w1; wp_len_width := w2; wp_value := s |}, p3. unfold wire_param_ok, wire_param_bytes, decoded. cbn [wp_id wp_id_width wp_len_width wp_value].
  rewrite L. split; [auto|]. split; [rewrite <- !app_assoc; reflexivity|]. rewrite <- !app_assoc in E.
  destruct (param_decode id s); [|injection E as <- <-|contradiction]; [injection E as <- <-|]; auto.
Qed.
Lemma wire_param_nonempty x : wire_param_ok x -> wire_param_bytes x <> [].
Proof. intros [F _] E. unfold wire_param_bytes in E. apply app_eq_nil in E. destruct (form_nonempty _ _ F). tauto. Qed.
Lemma decode_loop_ok xs : forall fuel pre, Forall wire_param_ok xs -> Forall (fun x => bytes_ok (wp_value x)) xs -> fits (pre ++ concat (map wire_param_bytes xs)) ->
  (length (concat (map wire_param_bytes xs)) < fuel)%nat ->
  decode_loop fuel (at_pos pre (concat (map wire_param_bytes xs))) = Ok (map (fun x => decoded (wp_id x) (wp_value x)) xs).
Proof.
  induction xs as [|x xs IH]; intros fuel pre W O F L; (destruct fuel as [|fuel]; [lia|]); cbn [decode_loop map concat] in *; rewrite remaining_at.
  - reflexivity.
  - inversion W as [|? ? W1 W2]; subst. inversion O as [|? ? O1 O2]; subst. pose proof (wire_param_nonempty x W1) as NE.
    rewrite app_length in *. assert (1 <= length (wire_param_bytes x))%nat by (destruct (wire_param_bytes x); [contradiction|cbn; lia]).
    replace (0 <? _)%nat with true by (symmetry; apply Nat.ltb_lt; lia). rewrite param_read_ok by assumption. rewrite IH; [reflexivity|assumption|assumption| |lia].
    rewrite <- app_assoc. exact F.
Qed.
Lemma decode_loop_inv fuel : forall pre rest l, bytes_ok rest -> decode_loop fuel (at_pos pre rest) = Ok l ->
  exists xs, Forall wire_param_ok xs /\ rest = concat (map wire_param_bytes xs) /\ l = map (fun x => decoded (wp_id x) (wp_value x)) xs.
Proof.
  induction fuel as [|fuel IH]; intros pre rest l O E; cbn [decode_loop] in E; [discriminate|]. rewrite remaining_at in E.
  destruct (Nat.ltb_spec 0 (length rest)) as [L|L].
  - destruct (param_read (at_pos pre rest)) as [x r] eqn:R. apply param_read_inv in R; [|exact O].
    destruct R as [[e ->]|(y & post & Y & -> & -> & ->)]; [discriminate|]. apply bytes_ok_app in O.
    apply bind_ok in E. destruct E as (l' & E & X). injection X as <-. apply IH in E; [|tauto]. destruct E as (xs & W & -> & ->).
    exists (y :: xs). cbn [map concat]. auto.
  - destruct rest; [|cbn [length] in L; lia]. injection E as <-. exists []. auto.
Qed.
Lemma decode_loop_total fuel : forall pre rest, bytes_ok rest -> (length rest < fuel)%nat -> decode_loop fuel (at_pos pre rest) <> Panic.
Proof.
  induction fuel as [|fuel IH]; intros pre rest O L; [lia|]. cbn [decode_loop]. rewrite remaining_at.
  destruct (Nat.ltb_spec 0 (length rest)) as [L0|L0]; [|discriminate].
  destruct (param_read (at_pos pre rest)) as [x r] eqn:R. apply param_read_inv in R; [|exact O].
  destruct R as [[e ->]|(y & post & Y & -> & -> & ->)]; [discriminate|]. apply bytes_ok_app in O. pose proof (wire_param_nonempty y Y) as NE.
  rewrite app_length in L. assert (1 <= length (wire_param_bytes y))%nat by (destruct (wire_param_bytes y); [contradiction|cbn; lia]).
  specialize (IH (pre ++ wire_param_bytes y) post (proj2 O) ltac:(lia)). destruct (decode_loop fuel _); [discriminate|discriminate|contradiction].
Qed.
Lemma values_ok xs : bytes_ok (concat (map wire_param_bytes xs)) -> Forall (fun x => bytes_ok (wp_value x)) xs.
Proof.
  induction xs as [|x xs IH]; cbn [map concat]; intros O; [constructor|]. apply bytes_ok_app in O. destruct O as [O1 O2]. constructor; [|auto].
  unfold wire_param_bytes in O1. rewrite !bytes_ok_app in O1. tauto.
Qed.
Lemma decoded_forall2 xs l : Forall (fun x => bytes_ok (wp_value x)) xs ->
  (Forall2 (fun x p => means (wp_id x) (wp_value x) p) xs l <-> l = map (fun x => decoded (wp_id x) (wp_value x)) xs).
Proof.
  intros O. split.
  - intros F. induction F as [|x p xs l M F IH]; [reflexivity|]. inversion O; subst. cbn [map]. f_equal; [apply means_decoded; assumption|auto].
  - intros ->. induction xs as [|x xs IH]; cbn [map]; [constructor|]. inversion O; subst. constructor; [apply decoded_means; assumption|auto].
Qed.

(** *** Encoding *)
Lemma encode_raw_ok id d out : id < two62 -> blen d < two62 -> encode_raw id d out = (Ok tt, out ++ wire_param_bytes (shortest id d)).
Proof.
  intros H1 H2. unfold encode_raw, wbind. rewrite !write_quic_ok by assumption. unfold write_raw. f_equal.
  unfold wire_param_bytes, shortest. cbn [wp_id wp_id_width wp_len_width wp_value]. rewrite !quic_enc_form, <- !app_assoc. reflexivity.
Qed.
Lemma ids_small id p : In (id, p) param_ids -> id < two62.
Proof. unfold param_ids. cbn [In]. intros H. repeat (destruct H as [H|H]; [injection H as <- <-; reflexivity|]). contradiction. Qed.
Lemma blen_enc v : v < two62 -> blen (quic_enc v) < two62.
Proof. intros H. destruct (quic_width_cases v H) as (I & _). rewrite quic_enc_form, blen_form. cbn [In] in I. change two62 with 4611686018427387904. lia. Qed.
Lemma encode_number id p v out : In (id, p) param_ids -> v < two62 -> param_encode (PNumber p v) out = (Ok tt, out ++ wire_param_bytes (shortest id (quic_enc v))).
Proof.
  intros I H. assert (E : param_encode (PNumber p v) = encode_varint id v).
  { unfold param_ids in I. cbn [In] in I. repeat (destruct I as [I|I]; [injection I as <- <-; reflexivity|]). contradiction. }
  rewrite E. unfold encode_varint. rewrite write_quic_ok by exact H. cbn [snd app]. apply encode_raw_ok; [eapply ids_small, I|apply blen_enc, H].
Qed.
Lemma encode_sent p id d out : sent_as p id d -> blen d < two62 -> param_encode p out = (Ok tt, out ++ wire_param_bytes (shortest id d)).
Proof.
  intros S L. destruct S as [d|id p v I V|d|id d H|id d H]; cbn [param_encode].
  - apply encode_raw_ok; [reflexivity|exact L].
  - apply encode_number; assumption.
  - apply encode_raw_ok; [reflexivity|exact L].
  - apply encode_raw_ok; assumption.
  - apply encode_raw_ok; assumption.
Qed.
Lemma encode_items l : forall xs out, Forall2 (fun p x => sent_as p (fst x) (snd x) /\ blen (snd x) < two62) l xs ->
  write_items param_encode l out = (Ok tt, out ++ concat (map (fun x => wire_param_bytes (shortest (fst x) (snd x))) xs)).
Proof.
  induction l as [|p l IH]; intros xs out F; inversion F as [|? x ? xs' [S L] F']; subst; cbn [write_items map concat].
  - unfold wret. rewrite app_nil_r. reflexivity.
  - unfold wbind. rewrite (encode_sent p (fst x) (snd x)) by assumption. rewrite (IH xs') by assumption. rewrite app_assoc. reflexivity.
Qed.
Lemma sent_exists p : canonical p -> exists id d, sent_as p id d /\ blen d < two62 /\ id < two62 /\ (bytes_ok d -> decoded id d = p).
Proof.
  destruct p as [d|p v|d|id d|id d]; cbn [canonical]; intros H.
  - contradiction.
  - assert (I : exists id, In (id, p) param_ids) by (destruct p; eexists; unfold param_ids; cbn [In]; eauto 12).
    destruct I as [id I]. exists id, (quic_enc v). split; [constructor; assumption|]. split; [apply blen_enc, H|]. split; [eapply ids_small, I|].
    intros _. unfold decoded. rewrite (decode_known _ _ _ I), quic_enc_form, varint_exact by apply width_ok, H. reflexivity.
  - exists 15, d. split; [constructor|]. split; [unfold blen; change two62 with 4611686018427387904; lia|]. split; [reflexivity|]. intros O. symmetry. apply means_decoded; [exact O|]. constructor. exact H.
  - destruct H as [M L]. exists id, d. assert (id < two62).
    { inversion M; subst; [eapply ids_small; eassumption|reflexivity]. }
    split; [constructor; assumption|]. split; [exact L|]. split; [assumption|]. intros O. symmetry. apply means_decoded; assumption.
  - destruct H as (NI & H & L). exists id, d. split; [constructor; assumption|]. split; [exact L|]. split; [exact H|]. intros O. symmetry. apply means_decoded; [exact O|]. constructor. exact NI.
Qed.

(** *** Encoding again what was decoded *)
Lemma sent_again id d p : means id d p -> id < two62 -> blen d < two62 -> exists d', sent_as p id d' /\ (length d' <= length d)%nat /\ blen d' < two62 /\
  (d' = d <-> (In id (map fst param_ids) -> forall w v, form_ok w v -> d = quic_form w v -> w = quic_width v)) /\ (length d' = length d -> d' = d).
Proof.
  intros M H L. destruct M as [id p w v I F|id p d I N|d Ld|d Ld|id d NI].
  - pose proof (form_lt _ _ F) as V. exists (quic_enc v). split; [constructor; assumption|]. rewrite quic_enc_form, !quic_form_length.
    split; [apply width_least, F|]. split; [rewrite <- quic_enc_form; apply blen_enc, V|]. split; [split|].
    + intros E _ w' v' F' E'. assert (Ew : w' = w) by (apply (f_equal (@length N)) in E'; rewrite !quic_form_length in E'; auto). subst w'.
      assert (v' = v). { assert (X : quic_varint_from_bytes (quic_form w v) = quic_varint_from_bytes (quic_form w v')) by congruence. rewrite !varint_exact in X by assumption. congruence. }
      subst v'. apply (f_equal (@length N)) in E. rewrite !quic_form_length in E. auto.
    + intros X. rewrite <- (X ltac:(apply in_map_iff; exists (id, p); auto) w v F eq_refl). reflexivity.
    + intros ->. reflexivity.
  - exists d. split; [constructor; assumption|]. split; [lia|]. split; [exact L|]. split; [|auto]. split; [|auto]. intros _ _ w v F E. destruct (N w v F E).
  - exists d. split; [constructor|]. split; [lia|]. split; [exact L|]. split; [|auto]. split; [|auto]. intros _ I. apply in_map_iff in I. destruct I as ([i q] & E & I). cbn in E. subst i. destruct (known_not_15 _ I).
  - exists d. split; [constructor; assumption|]. split; [lia|]. split; [exact L|]. split; [|auto]. split; [|auto]. intros _ I. apply in_map_iff in I. destruct I as ([i q] & E & I). cbn in E. subst i. destruct (known_not_15 _ I).
  - exists d. split; [constructor; assumption|]. split; [lia|]. split; [exact L|]. split; [|auto]. split; [|auto]. intros _ I. destruct NI. right. exact I.
Qed.
Lemma wire_param_length x : length (wire_param_bytes x) = (wp_id_width x + wp_len_width x + length (wp_value x))%nat.
Proof. unfold wire_param_bytes. rewrite !app_length, !quic_form_length. lia. Qed.
Lemma width_mono a b : a <= b -> (quic_width a <= quic_width b)%nat.
Proof. intros H. unfold quic_width. repeat match goal with |- context [?a <? ?b] => destruct (N.ltb_spec a b) end; lia. Qed.
Lemma again_minimal x p d' : wire_param_ok x -> means (wp_id x) (wp_value x) p -> sent_as p (wp_id x) d' -> (length d' <= length (wp_value x))%nat ->
  (d' = wp_value x <-> (In (wp_id x) (map fst param_ids) -> forall w v, form_ok w v -> wp_value x = quic_form w v -> w = quic_width v)) -> (length d' = length (wp_value x) -> d' = wp_value x) ->
  (length (wire_param_bytes (shortest (wp_id x) d')) <= length (wire_param_bytes x))%nat /\
  (minimal x <-> length (wire_param_bytes (shortest (wp_id x) d')) = length (wire_param_bytes x)) /\
  (minimal x -> wire_param_bytes (shortest (wp_id x) d') = wire_param_bytes x).
Proof.
  intros [F1 F2] M S L E1 E2. pose proof (width_least _ _ F1) as W1. pose proof (width_least _ _ F2) as W2.
  pose proof (width_mono (blen d') (blen (wp_value x)) ltac:(unfold blen; lia)) as W3. rewrite !wire_param_length. cbn [shortest wp_id wp_id_width wp_len_width wp_value].
  split; [lia|]. unfold minimal. split; [split|].
  - intros (M1 & M2 & M3). apply E1 in M3. subst d'. lia.
  - intros EL. assert (EV : d' = wp_value x) by (apply E2; lia). split; [lia|]. rewrite EV in EL. split; [lia|]. apply E1, EV.
  - intros (M1 & M2 & M3). apply E1 in M3. subst d'. unfold wire_param_bytes, shortest. cbn [wp_id wp_id_width wp_len_width wp_value]. rewrite M1, M2. reflexivity.
Qed.
Lemma encode_again xs l : Forall wire_param_ok xs -> Forall2 (fun x p => means (wp_id x) (wp_value x) p) xs l ->
  exists ys, encode_list l = concat (map wire_param_bytes ys) /\
    Forall2 (fun x y => (length (wire_param_bytes y) <= length (wire_param_bytes x))%nat /\ (minimal x <-> length (wire_param_bytes y) = length (wire_param_bytes x)) /\ (minimal x -> wire_param_bytes y = wire_param_bytes x)) xs ys.
Proof.
  intros W M. assert (X : exists zs, Forall2 (fun p z => sent_as p (fst z) (snd z) /\ blen (snd z) < two62) l zs /\
    Forall2 (fun x y => (length (wire_param_bytes y) <= length (wire_param_bytes x))%nat /\ (minimal x <-> length (wire_param_bytes y) = length (wire_param_bytes x)) /\ (minimal x -> wire_param_bytes y = wire_param_bytes x)) xs
      (map (fun z => shortest (fst z) (snd z)) zs)).
  { induction M as [|x p xs l M1 M IH]; [exists []; split; constructor|]. inversion W as [|? ? W1 W2]; subst. destruct (IH W2) as (zs & Z1 & Z2).
    destruct (sent_again _ _ _ M1 (form_lt _ _ (proj1 W1)) (form_lt _ _ (proj2 W1))) as (d' & S & L & Ld & E1 & E2).
    exists ((wp_id x, d') :: zs). split; [constructor; auto|]. cbn [map fst snd]. constructor; [|exact Z2]. eapply again_minimal; eauto. }
  destruct X as (zs & Z1 & Z2). exists (map (fun z => shortest (fst z) (snd z)) zs). split; [|exact Z2].
  unfold encode_list. rewrite (encode_items l zs) by exact Z1. cbn [snd app]. rewrite map_map. reflexivity.
Qed.
Lemma concat_minimal xs ys : Forall2 (fun x y => (length (wire_param_bytes y) <= length (wire_param_bytes x))%nat /\ (minimal x <-> length (wire_param_bytes y) = length (wire_param_bytes x)) /\ (minimal x -> wire_param_bytes y = wire_param_bytes x)) xs ys ->
  (concat (map wire_param_bytes ys) = concat (map wire_param_bytes xs) <-> Forall minimal xs).
Proof.
  intros F. split.
  - intros E. apply (f_equal (@length N)) in E.
    assert (X : (length (concat (map wire_param_bytes ys)) <= length (concat (map wire_param_bytes xs)))%nat /\ (length (concat (map wire_param_bytes ys)) = length (concat (map wire_param_bytes xs)) -> Forall minimal xs)).
    { clear E. induction F as [|x y xs ys (L & M & _) F IH]; [split; [lia|constructor]|]. cbn [map concat]. rewrite !app_length. destruct IH as [IL IM].
      split; [lia|]. intros E. constructor; [apply M; lia|apply IM; lia]. }
    apply X. exact E.
  - intros M. induction F as [|x y xs ys (L & _ & E) F IH]; [reflexivity|]. inversion M; subst. cbn [map concat]. rewrite E, IH by assumption. reflexivity.
Qed.
