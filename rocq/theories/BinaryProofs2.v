(** Binary writer: what is written, and that it reads back. *)
From Verif Require Import Base BaseProofs BinaryModel BinarySpec BinaryProofs.
Ltac Zify.zify_post_hook ::= Z.div_mod_to_equations.

(** ** Big-endian bytes *)
Lemma pow256_pos n : 0 < 256 ^ n.
Proof. assert (256 ^ n <> 0) by (apply N.pow_nonzero; lia). lia. Qed.
Lemma le_bytes_snoc n v : le_bytes (S n) v = le_bytes n v ++ [(v / 256 ^ N.of_nat n) mod 256].
Proof.
  revert v. induction n as [|n IH]; intros v.
  - cbn [le_bytes app]. change (256 ^ N.of_nat 0) with 1. rewrite N.div_1_r. reflexivity.
  - change (le_bytes (S (S n)) v) with (v mod 256 :: le_bytes (S n) (v / 256)).
    rewrite IH. cbn [le_bytes app]. rewrite N.div_div, pow256_S; [reflexivity|lia|].
    pose proof (pow256_pos (N.of_nat n)). lia.
Qed.
Lemma be_bytes_S n v : be_bytes (S n) v = (v / 256 ^ N.of_nat n) mod 256 :: be_bytes n v.
Proof. unfold be_bytes. rewrite le_bytes_snoc, rev_app_distr. reflexivity. Qed.
Lemma be_bytes_skip k n v : skipn k (be_bytes (k + n) v) = be_bytes n v.
Proof.
  induction k as [|k IH]; [reflexivity|]. rewrite Nat.add_succ_l, be_bytes_S. exact IH.
Qed.
Lemma be_bytes_add n v k : be_bytes n (v + k * 256 ^ N.of_nat n) = be_bytes n v.
Proof.
  unfold be_bytes. f_equal. revert v. induction n as [|n IH]; intros v; [reflexivity|].
  cbn [le_bytes]. rewrite pow256_S.
  replace (v + k * (256 * 256 ^ N.of_nat n)) with (v + (k * 256 ^ N.of_nat n) * 256) by lia.
  rewrite N.mod_add, N.div_add by lia. f_equal. apply IH.
Qed.
Lemma be_bytes_mod n v : be_bytes n (v mod 256 ^ N.of_nat n) = be_bytes n v.
Proof.
  pose proof (pow256_pos (N.of_nat n)).
  rewrite (N.div_mod v (256 ^ N.of_nat n)) at 2 by lia.
  rewrite N.add_comm, N.mul_comm, be_bytes_add. reflexivity.
Qed.
Lemma be_bytes_one v : v < 256 -> be_bytes 1 v = [v].
Proof. intros H. unfold be_bytes. cbn [le_bytes rev app]. rewrite N.mod_small by lia. reflexivity. Qed.
Lemma blen_be n v : blen (be_bytes n v) = N.of_nat n.
Proof. rewrite blen_nat, be_bytes_length. reflexivity. Qed.

(** ** QUIC varints *)
Lemma skip_or_at i m l : skipn i (or_at i m l) = match skipn i l with [] => [] | x :: t => N.lor x m :: t end.
Proof.
  unfold or_at. destruct (Nat.le_gt_cases i (length l)) as [H|H].
  - rewrite skipn_app, skipn_all2; rewrite firstn_length_le by lia; [|lia].
    rewrite Nat.sub_diag. reflexivity.
  - rewrite (skipn_all2 l) by lia. rewrite app_nil_r, skipn_all2; [reflexivity|].
    rewrite firstn_length. lia.
Qed.
Lemma or_tag x : x < 64 -> N.lor x 64 = x + 64 /\ N.lor x 128 = x + 128 /\ N.lor x 192 = x + 192.
Proof.
  intros H.
  assert (K : (x <? 64) = true -> (N.lor x 64 =? x + 64) && (N.lor x 128 =? x + 128) && (N.lor x 192 =? x + 192) = true).
  { intros _. pose proof (byte_sweep (fun x => negb (x <? 64) ||
      ((N.lor x 64 =? x + 64) && (N.lor x 128 =? x + 128) && (N.lor x 192 =? x + 192))) eq_refl x ltac:(lia)) as S.
    cbv beta in S. replace (x <? 64) with true in S by lia. exact S. }
  specialize (K ltac:(lia)). lia.
Qed.
Lemma quic_tagged n v tag :
  v < 64 * 256 ^ N.of_nat n -> tag < 4 ->
  be_bytes (S n) (tag * (64 * 256 ^ N.of_nat n) + v) =
  (v / 256 ^ N.of_nat n + 64 * tag) :: be_bytes n v.
Proof.
  intros V T. pose proof (pow256_pos (N.of_nat n)) as P. rewrite be_bytes_S. f_equal.
  - replace (tag * (64 * 256 ^ N.of_nat n) + v) with (v + (64 * tag) * 256 ^ N.of_nat n) by lia.
    rewrite N.div_add by lia.
    assert (v / 256 ^ N.of_nat n < 64) by (apply N.div_lt_upper_bound; lia).
    apply N.mod_small. lia.
  - replace (tag * (64 * 256 ^ N.of_nat n) + v) with (v + (64 * tag) * 256 ^ N.of_nat n) by lia.
    apply be_bytes_add.
Qed.
Lemma quic_untagged n v :
  v < 64 * 256 ^ N.of_nat n ->
  be_bytes (S n) v = (v / 256 ^ N.of_nat n) :: be_bytes n v /\ v / 256 ^ N.of_nat n < 64.
Proof.
  intros V. pose proof (quic_tagged n v 0 V ltac:(lia)) as E.
  rewrite N.mul_0_l, N.add_0_l, N.mul_0_r, N.add_0_r in E. split; [exact E|].
  pose proof (pow256_pos (N.of_nat n)). apply N.div_lt_upper_bound; lia.
Qed.
Lemma write_quic_ok v d : v < two62 -> write_quic_varint v d = (Ok tt, d ++ quic_enc v).
Proof.
  intros V. unfold write_quic_varint, quic_enc, quic_width.
  replace (v <=? 63) with (v <? 64) by lia.
  replace (v <=? 16383) with (v <? 16384) by lia.
  replace (v <=? 1073741823) with (v <? 1073741824) by lia.
  destruct (v <? 64) eqn:E1.
  - cbn [quic_tag]. rewrite N.mul_0_l, N.add_0_l.
    change 8%nat with (7 + 1)%nat. rewrite be_bytes_skip. reflexivity.
  - destruct (v <? 16384) eqn:E2.
    + cbn [quic_tag]. rewrite skip_or_at. change 8%nat with (6 + 2)%nat. rewrite be_bytes_skip.
      change (2 ^ (8 * N.of_nat 2 - 2)) with (64 * 256 ^ N.of_nat 1).
      rewrite quic_tagged by (change (256 ^ N.of_nat 1) with 256; lia).
      destruct (quic_untagged 1 v) as [-> L]; [change (256 ^ N.of_nat 1) with 256; lia|].
      rewrite (proj1 (or_tag _ L)). reflexivity.
    + destruct (v <? 1073741824) eqn:E3.
      * cbn [quic_tag]. rewrite skip_or_at. change 8%nat with (4 + 4)%nat. rewrite be_bytes_skip.
        change (2 ^ (8 * N.of_nat 4 - 2)) with (64 * 256 ^ N.of_nat 3).
        rewrite quic_tagged by (change (256 ^ N.of_nat 3) with 16777216; lia).
        destruct (quic_untagged 3 v) as [-> L]; [change (256 ^ N.of_nat 3) with 16777216; lia|].
        rewrite (proj1 (proj2 (or_tag _ L))). reflexivity.
      * cbn [quic_tag]. unfold or_at. cbn [firstn skipn app].
        change (2 ^ (8 * N.of_nat 8 - 2)) with (64 * 256 ^ N.of_nat 7).
        unfold two62 in V.
        rewrite quic_tagged by (change (256 ^ N.of_nat 7) with 72057594037927936; lia).
        destruct (quic_untagged 7 v) as [-> L]; [change (256 ^ N.of_nat 7) with 72057594037927936; lia|].
        rewrite (proj2 (proj2 (or_tag _ L))). reflexivity.
Qed.
Lemma quic_width_cases v : v < two62 ->
  In (quic_width v) [1; 2; 4; 8]%nat /\
  v < 2 ^ (8 * N.of_nat (quic_width v) - 2) /\ quic_tag (quic_width v) < 4 /\
  N.of_nat (quic_width v) = 2 ^ quic_tag (quic_width v).
Proof.
  unfold quic_width, two62. intros V.
  destruct (v <? 64) eqn:E1; [|destruct (v <? 16384) eqn:E2; [|destruct (v <? 1073741824) eqn:E3]].
  - change (2 ^ _) with 64 at 1. cbn. repeat split; auto; lia.
  - change (2 ^ _) with 16384 at 1. cbn. repeat split; auto; lia.
  - change (2 ^ _) with 1073741824 at 1. cbn. repeat split; auto; lia.
  - change (2 ^ _) with 4611686018427387904 at 1. cbn. repeat split; auto; lia.
Qed.
Lemma u8_ok pre b post : fits (pre ++ b :: post) ->
  read_u8 (at_pos pre (b :: post)) = (Ok b, at_pos (pre ++ [b]) post).
Proof.
  intros F. unfold read_u8. change 1 with (blen [b]). change (b :: post) with ([b] ++ post).
  rewrite take_ok by auto. rewrite of_be_single. reflexivity.
Qed.
Lemma fits_app_l a b : fits (a ++ b) -> fits a.
Proof. unfold fits. rewrite blen_app. lia. Qed.
Lemma quic_loop_ok n v pre s post :
  length s = n -> v < 2 ^ (62 - 8 * N.of_nat n) -> (n <= 7)%nat -> bytes_ok s -> fits (pre ++ s ++ post) ->
  quic_loop n v (at_pos pre (s ++ post)) =
  (Ok (v * 256 ^ N.of_nat n + of_be_bytes s), at_pos (pre ++ s) post).
Proof.
  revert v pre s. induction n as [|n IH]; intros v pre s L V Hn B F; cbn [quic_loop].
  - destruct s; [|discriminate]. rewrite app_nil_r. change (256 ^ N.of_nat 0) with 1.
    change (of_be_bytes []) with 0. rewrite N.mul_1_r, N.add_0_r. reflexivity.
  - destruct s as [|b s]; [discriminate|]. injection L as L.
    unfold rbind. cbn [app] in *. rewrite u8_ok by auto.
    apply bytes_ok_cons in B. destruct B as [Hb B].
    assert (Hp : 2 ^ (62 - 8 * N.of_nat n) = 256 * 2 ^ (62 - 8 * N.of_nat (S n))).
    { change 256 with (2 ^ 8). rewrite <- N.pow_add_r. f_equal. lia. }
    assert (Hle : 2 ^ (62 - 8 * N.of_nat n) <= two64).
    { change two64 with (2 ^ 64). apply N.pow_le_mono_r; lia. }
    assert (Hs : N.shiftl v 8 mod two64 = v * 256).
    { rewrite N.shiftl_mul_pow2. change (2 ^ 8) with 256. apply N.mod_small. lia. }
    rewrite Hs, IH; auto; try lia.
    2:{ rewrite <- app_assoc. exact F. }
    rewrite <- app_assoc. cbn [app]. f_equal. f_equal.
    change (b :: s) with ([b] ++ s). rewrite of_be_app, of_be_single, pow256_S, L. nia.
Qed.
Lemma quic_tag_cases w : In w [1; 2; 4; 8]%nat -> quic_tag w < 4 /\ N.of_nat w = 2 ^ quic_tag w.
Proof. cbn [In]. intros [<-|[<-|[<-|[<-|[]]]]]; vm_compute; auto. Qed.
(** Any of the four forms, shortest or not. *)
Lemma read_quic_form w v pre post :
  In w [1; 2; 4; 8]%nat -> v < 2 ^ (8 * N.of_nat w - 2) ->
  let s := be_bytes w (quic_tag w * 2 ^ (8 * N.of_nat w - 2) + v) in
  fits (pre ++ s ++ post) ->
  read_quic_varint (at_pos pre (s ++ post)) = (Ok v, at_pos (pre ++ s) post).
Proof.
  intros I Lv s F. subst s. destruct (quic_tag_cases w I) as (T & W).
  set (t := quic_tag w) in *.
  assert (K : exists n, w = S n).
  { destruct w; [cbn in I; intuition discriminate | eauto]. }
  destruct K as [n K]. rewrite K in *.
  assert (P : 2 ^ (8 * N.of_nat (S n) - 2) = 64 * 256 ^ N.of_nat n).
  { change 64 with (2 ^ 6). change 256 with (2 ^ 8). rewrite <- N.pow_mul_r, <- N.pow_add_r.
    f_equal. lia. }
  rewrite P in *. rewrite quic_tagged in * by auto. cbn [app] in *.
  destruct (quic_untagged n v Lv) as [_ U].
  set (q := v / 256 ^ N.of_nat n) in *.
  unfold read_quic_varint, rbind. rewrite u8_ok by auto.
  rewrite shiftr_pow, N.shiftl_1_l, land_63. change (2 ^ 6) with 64.
  assert (Q1 : (q + 64 * t) / 64 = t) by lia. rewrite Q1, <- W.
  assert (Q2 : (q + 64 * t) mod 64 = q) by lia. rewrite Q2.
  assert (Q3 : N.to_nat (N.of_nat (S n) - 1) = n) by lia. rewrite Q3.
  assert (n7 : (n <= 7)%nat /\ 2 ^ 6 <= 2 ^ (62 - 8 * N.of_nat n)).
  { cbn in I. assert (D : (n = 0 \/ n = 1 \/ n = 3 \/ n = 7)%nat) by lia.
    destruct D as [->|[->|[->| ->]]]; vm_compute; split; (discriminate || lia). }
  destruct n7 as [n7 n6]. change (2 ^ 6) with 64 in n6.
  rewrite quic_loop_ok; auto using be_bytes_length, be_bytes_ok; try lia.
  2:{ rewrite <- app_assoc. exact F. }
  rewrite <- app_assoc. cbn [app]. f_equal. f_equal.
  pose proof (pow256_pos (N.of_nat n)) as Pp.
  rewrite <- be_bytes_mod, of_be_be_bytes by (apply N.mod_lt; lia).
  unfold q. pose proof (N.div_mod v (256 ^ N.of_nat n)). lia.
Qed.
Lemma read_quic_ok v pre post : v < two62 -> fits (pre ++ quic_enc v ++ post) ->
  read_quic_varint (at_pos pre (quic_enc v ++ post)) = (Ok v, at_pos (pre ++ quic_enc v) post).
Proof.
  intros V F. destruct (quic_width_cases v V) as (I & Lv & T & W).
  unfold quic_enc in *. cbv zeta in *. apply read_quic_form; auto.
Qed.
(** What becomes of values that do not fit. *)
Lemma or_192 x : x < 256 -> N.lor x 192 = x mod 64 + 192.
Proof.
  intros H.
  pose proof (byte_sweep (fun x => N.lor x 192 =? x mod 64 + 192) eq_refl x H) as S. cbv beta in S. lia.
Qed.
Lemma write_quic_large v d : two62 <= v < two64 ->
  write_quic_varint v d = (Ok tt, d ++ be_bytes 8 (3 * 2 ^ 62 + v mod two62)).
Proof.
  unfold two62, two64. intros V. unfold write_quic_varint.
  replace (v <=? 63) with false by lia. replace (v <=? 16383) with false by lia.
  replace (v <=? 1073741823) with false by lia.
  unfold or_at. cbn [firstn skipn app].
  change (2 ^ 62) with (64 * 256 ^ N.of_nat 7).
  assert (Hm : v mod 4611686018427387904 < 4611686018427387904) by (apply N.mod_lt; lia).
  rewrite quic_tagged by (change (256 ^ N.of_nat 7) with 72057594037927936; lia).
  rewrite be_bytes_S. unfold write_raw. f_equal. f_equal.
  rewrite or_192 by (apply N.mod_lt; lia).
  change (256 ^ N.of_nat 7) with 72057594037927936. f_equal.
  - lia.
  - assert (E : v = v mod 4611686018427387904 + (v / 4611686018427387904 * 64) * 256 ^ N.of_nat 7).
    { change (256 ^ N.of_nat 7) with 72057594037927936. lia. }
    rewrite E at 1. apply be_bytes_add.
Qed.

(** ** Round trip for all shapes *)
Lemma write_num_ok w v d : In w [1; 2; 3; 4; 8]%nat -> v < 256 ^ N.of_nat w ->
  write_num w v d = (Ok tt, d ++ be_bytes w v).
Proof.
  cbn [In]. intros [<-|[<-|[<-|[<-|[<-|[]]]]]] V; unfold write_num; try reflexivity.
  - unfold write_u8, write_raw. rewrite be_bytes_one; auto.
Qed.
Lemma read_num_take w : In w [1; 2; 3; 4; 8]%nat ->
  exists f, read_num w = take (N.of_nat w) f /\ forall s, f s = of_be_bytes s.
Proof.
  cbn [In]. intros [<-|[<-|[<-|[<-|[<-|[]]]]]];
    (eexists; split; [reflexivity|]); intros s; try reflexivity. apply of_be_zero.
Qed.
Lemma read_num_ok w v pre post : In w [1; 2; 3; 4; 8]%nat -> v < 256 ^ N.of_nat w ->
  fits (pre ++ be_bytes w v ++ post) ->
  read_num w (at_pos pre (be_bytes w v ++ post)) = (Ok v, at_pos (pre ++ be_bytes w v) post).
Proof.
  intros I V F. destruct (read_num_take w I) as (f & -> & Hf).
  rewrite <- (blen_be w v). rewrite take_ok by auto. rewrite Hf, of_be_be_bytes by auto. reflexivity.
Qed.
Lemma in3 w : In w [1; 2; 3]%nat -> In w [1; 2; 3; 4; 8]%nat.
Proof. cbn. tauto. Qed.
Lemma read_bytes_num w : In w [1; 2; 3]%nat -> read_bytes w = (do len <- read_num w; read_fixed len).
Proof. cbn [In]. intros [<-|[<-|[<-|[]]]]; reflexivity. Qed.
Lemma read_list_num {A} w (item : rd A) : In w [1; 2; 3]%nat ->
  read_list w item = (do len <- read_num w; read_fixed_list item len).
Proof. cbn [In]. intros [<-|[<-|[<-|[]]]]; reflexivity. Qed.
Lemma write_bytes_ok w b d : In w [1; 2; 3]%nat ->
  write_bytes w b d = if blen b <? 256 ^ N.of_nat w then (Ok tt, d ++ be_bytes w (blen b) ++ b)
                      else (Err BValueTooLarge, d).
Proof.
  cbn [In]. intros [<-|[<-|[<-|[]]]]; unfold write_bytes.
  - unfold write_len8_bytes. change (256 ^ N.of_nat 1) with 256.
    destruct (255 <? blen b) eqn:E; destruct (blen b <? 256) eqn:E2; try lia; auto.
    unfold wbind, write_u8, write_raw. rewrite be_bytes_one, <- app_assoc by lia.
    rewrite N.mod_small by (unfold two8; lia). reflexivity.
  - unfold write_len16_bytes. change (256 ^ N.of_nat 2) with 65536.
    destruct (65535 <? blen b) eqn:E; destruct (blen b <? 65536) eqn:E2; try lia; auto.
    unfold wbind, write_u16, write_raw. rewrite <- app_assoc.
    rewrite N.mod_small by (unfold two16; lia). reflexivity.
  - unfold write_len24_bytes. change (256 ^ N.of_nat 3) with 16777216. unfold two24.
    destruct (16777216 <=? blen b) eqn:E; destruct (blen b <? 16777216) eqn:E2; try lia; auto.
    unfold wbind, write_u24, write_raw. rewrite <- app_assoc.
    rewrite N.mod_small by (unfold two32; lia).
    change 4%nat with (1 + 3)%nat. rewrite be_bytes_skip. reflexivity.
Qed.
Lemma patch_ok d z p b : length z = length b -> patch (d ++ z ++ p) (length d) b = d ++ b ++ p.
Proof.
  intros L. unfold patch. rewrite firstn_app_length. f_equal. f_equal.
  rewrite <- L, <- app_length, app_assoc, skipn_app_length. reflexivity.
Qed.
(** The list writers, given what the elements write. *)
Lemma write_list_ok {A} w (item : A -> wr) items d p : In w [1; 2; 3]%nat ->
  write_items item items (d ++ repeat 0 w) = (Ok tt, (d ++ repeat 0 w) ++ p) ->
  write_list w item items d =
  if blen p <? 256 ^ N.of_nat w then (Ok tt, d ++ be_bytes w (blen p) ++ p) else (Err BValueTooLarge, d).
Proof.
  intros I H.
  assert (K : exists max lenb, write_list w item = write_len_list w max lenb item /\
                max = 256 ^ N.of_nat w - 1 /\
                forall x, x <= max -> lenb x = be_bytes w x).
  { cbn [In] in I. destruct I as [<-|[<-|[<-|[]]]].
    - eexists _, _. split; [reflexivity|]. split; [reflexivity|]. intros x Hx.
      rewrite be_bytes_one by lia. rewrite N.mod_small by (unfold two8; lia). reflexivity.
    - eexists _, _. split; [reflexivity|]. split; [reflexivity|]. intros x Hx. cbv beta.
      rewrite N.mod_small by (unfold two16; lia). reflexivity.
    - eexists _, _. split; [reflexivity|]. split; [reflexivity|]. intros x Hx. cbv beta.
      rewrite N.mod_small by (unfold two32; lia).
      change 4%nat with (1 + 3)%nat. rewrite be_bytes_skip. reflexivity. }
  destruct K as (max & lenb & -> & Hm & Hl).
  unfold write_len_list, write_list_inner. rewrite H.
  rewrite !blen_app.
  replace (blen d + blen (repeat 0 w) + blen p - (blen d + blen (repeat 0 w))) with (blen p) by lia.
  pose proof (pow256_pos (N.of_nat w)) as P.
  replace (max <? blen p) with (negb (blen p <? 256 ^ N.of_nat w)) by lia.
  destruct (blen p <? 256 ^ N.of_nat w) eqn:E; cbn [negb].
  - rewrite Hl by lia. rewrite <- app_assoc, patch_ok; [reflexivity|].
    rewrite repeat_length, be_bytes_length. reflexivity.
  - rewrite <- app_assoc, firstn_app_length. reflexivity.
Qed.
Lemma write_list_err {A} w (item : A -> wr) items d e z : In w [1; 2; 3]%nat ->
  write_items item items (d ++ repeat 0 w) = (Err e, d ++ z) ->
  write_list w item items d = (Err e, d).
Proof.
  intros I H.
  assert (K : exists max lenb, write_list w item = write_len_list w max lenb item).
  { cbn [In] in I. destruct I as [<-|[<-|[<-|[]]]]; eexists _, _; reflexivity. }
  destruct K as (max & lenb & ->). unfold write_len_list, write_list_inner. rewrite H.
  rewrite firstn_app_length. reflexivity.
Qed.

Lemma lengths_fit_dec s : forall x : val s, {lengths_fit s x} + {~ lengths_fit s x}.
Proof.
  induction s; cbn [lengths_fit val]; intros x; auto.
  - destruct (blen x <? 256 ^ N.of_nat width) eqn:E; [left|right]; lia.
  - destruct (IHs1 (fst x)); [destruct (IHs2 (snd x))|]; [left|right|right]; tauto.
  - destruct (Forall_dec _ IHs x) as [F|F]; [|right; tauto].
    destruct (N.ltb_spec0 (blen (concat (map (enc s) x))) (256 ^ N.of_nat width)); [left|right]; tauto.
Qed.

Lemma write_items_fit {A} (item : A -> wr) (ok : A -> Prop) (en : A -> bytes) :
  (forall x d, ok x -> item x d = (Ok tt, d ++ en x)) ->
  forall l d, Forall ok l -> write_items item l d = (Ok tt, d ++ concat (map en l)).
Proof.
  intros H l. induction l as [|x l IH]; intros d F; cbn [write_items map concat].
  - rewrite app_nil_r. reflexivity.
  - inversion F; subst. unfold wbind. rewrite H by auto. rewrite IH by auto. rewrite app_assoc. reflexivity.
Qed.
Lemma write_items_unfit {A} (item : A -> wr) (ok good : A -> Prop) (en : A -> bytes) :
  (forall x, {good x} + {~ good x}) ->
  (forall x d, ok x -> good x -> item x d = (Ok tt, d ++ en x)) ->
  (forall x d, ok x -> ~ good x -> exists z, item x d = (Err BValueTooLarge, d ++ z)) ->
  forall l d, Forall ok l -> ~ Forall good l -> exists z, write_items item l d = (Err BValueTooLarge, d ++ z).
Proof.
  intros D H1 H2 l. induction l as [|x l IH]; intros d F G; cbn [write_items].
  - now destruct G.
  - inversion F; subst. unfold wbind. destruct (D x) as [g|g].
    + rewrite H1 by auto. destruct (IH (d ++ en x)) as [z ->]; auto.
      exists (en x ++ z). rewrite app_assoc. reflexivity.
    + destruct (H2 x d) as [z ->]; eauto.
Qed.
Lemma write_shape_correct s : shape_ok s -> forall x d, val_ok s x ->
  (lengths_fit s x -> write_shape s x d = (Ok tt, d ++ enc s x)) /\
  (~ lengths_fit s x -> exists z, write_shape s x d = (Err BValueTooLarge, d ++ z)).
Proof.
  induction s; cbn [shape_ok val val_ok lengths_fit enc write_shape]; intros S x d V.
  - split; [|tauto]. intros _. apply write_num_ok; auto.
  - split; [|tauto]. intros _. apply write_quic_ok; auto.
  - split; [|tauto]. reflexivity.
  - rewrite write_bytes_ok by auto. split; intros L.
    + replace (blen x <? 256 ^ N.of_nat width) with true by lia. reflexivity.
    + replace (blen x <? 256 ^ N.of_nat width) with false by lia.
      exists []. rewrite app_nil_r. reflexivity.
  - destruct S as [S1 S2]. destruct x as [x1 x2]; cbn [fst snd] in *. destruct V as [V1 V2]. unfold wbind. split.
    + intros [L1 L2]. rewrite (proj1 (IHs1 S1 x1 d V1) L1).
      rewrite (proj1 (IHs2 S2 x2 _ V2) L2). rewrite app_assoc. reflexivity.
    + intros L. destruct (lengths_fit_dec s1 x1) as [L1|L1].
      * rewrite (proj1 (IHs1 S1 x1 d V1) L1).
        destruct (proj2 (IHs2 S2 x2 (d ++ enc s1 x1) V2)) as [z ->]; [tauto|].
        exists (enc s1 x1 ++ z). rewrite app_assoc. reflexivity.
      * destruct (proj2 (IHs1 S1 x1 d V1) L1) as [z ->]. eauto.
  - destruct S as [Sw S].
    destruct (Forall_dec _ (lengths_fit_dec s) x) as [G|G].
    + assert (W : write_items (write_shape s) x (d ++ repeat 0 width) =
                  (Ok tt, (d ++ repeat 0 width) ++ concat (map (enc s) x))).
      { apply write_items_fit with (ok := fun y => val_ok s y /\ lengths_fit s y).
        - intros y d' [Vy Ly]. apply IHs; auto.
        - rewrite Forall_forall in *. auto. }
      rewrite (write_list_ok _ _ _ _ _ Sw W). split; intros L.
      * replace (_ <? _) with true by lia. reflexivity.
      * replace (_ <? _) with false by (assert (~ (blen (concat (map (enc s) x)) < 256 ^ N.of_nat width)) by tauto; lia).
        exists []. rewrite app_nil_r. reflexivity.
    + split; [tauto|]. intros _.
      destruct (write_items_unfit (write_shape s) (val_ok s) (lengths_fit s) (enc s) (lengths_fit_dec s)
                  (fun y d Vy Ly => proj1 (IHs S y d Vy) Ly) (fun y d Vy Ly => proj2 (IHs S y d Vy) Ly)
                  x (d ++ repeat 0 width) V G) as [z W].
      rewrite <- app_assoc in W. rewrite (write_list_err _ _ _ _ _ _ Sw W).
      exists []. rewrite app_nil_r. reflexivity.
Qed.

Lemma list_loop_ok {A} (item : rd A) (en : A -> bytes) l fuel pre :
  (forall x pre post, In x l -> fits (pre ++ en x ++ post) ->
     item (at_pos pre (en x ++ post)) = (Ok x, at_pos (pre ++ en x) post)) ->
  (forall x, In x l -> en x <> []) ->
  fits (pre ++ concat (map en l)) ->
  (length (concat (map en l)) < fuel)%nat ->
  list_loop fuel item (at_pos pre (concat (map en l))) = Some (Ok l).
Proof.
  revert fuel pre. induction l as [|x l IH]; intros fuel pre H NE F L.
  - destruct fuel; [lia|]. cbn [list_loop map concat]. rewrite remaining_at. reflexivity.
  - destruct fuel; [lia|]. cbn [list_loop map concat] in *. rewrite remaining_at.
    assert (Hx : en x <> []) by (apply NE; left; auto).
    rewrite app_length in *.
    assert (Lx : (0 < length (en x))%nat) by (destruct (en x); [easy|cbn; lia]).
    replace (0 <? length (en x) + length (concat (map en l)))%nat with true by lia.
    rewrite H; [|left; auto|auto].
    unfold at_pos at 1 2. cbn [r_off]. rewrite app_length.
    replace (length pre =? length pre + length (en x))%nat with false by lia.
    rewrite IH; auto.
    + intros y p q Hy. apply H. right; auto.
    + intros y Hy. apply NE. right; auto.
    + rewrite <- app_assoc. exact F.
    + lia.
Qed.
Lemma fixed_list_ok {A} (item : rd A) (en : A -> bytes) l pre post :
  (forall x pre post, In x l -> fits (pre ++ en x ++ post) ->
     item (at_pos pre (en x ++ post)) = (Ok x, at_pos (pre ++ en x) post)) ->
  (forall x, In x l -> en x <> []) ->
  fits (pre ++ concat (map en l) ++ post) ->
  read_fixed_list item (blen (concat (map en l))) (at_pos pre (concat (map en l) ++ post)) =
  (Ok l, at_pos (pre ++ concat (map en l)) post).
Proof.
  intros H NE F. unfold read_fixed_list, rbind. rewrite nested_ok by auto.
  rewrite remaining_at. rewrite (list_loop_ok item en); auto.
  rewrite app_assoc in F. eapply fits_app_l. exact F.
Qed.
Lemma read_shape_correct s : shape_ok s -> forall x pre post,
  val_ok s x -> lengths_fit s x -> elements_nonempty s x -> fits (pre ++ enc s x ++ post) ->
  read_shape s (at_pos pre (enc s x ++ post)) = (Ok x, at_pos (pre ++ enc s x) post).
Proof.
  induction s; cbn [shape_ok val val_ok lengths_fit enc elements_nonempty read_shape];
    intros S x pre post V L NE F.
  - apply read_num_ok; auto.
  - apply read_quic_ok; auto.
  - destruct V as [V <-]. unfold read_fixed. rewrite take_ok by auto. reflexivity.
  - rewrite read_bytes_num by auto. unfold rbind. rewrite <- !app_assoc in *.
    rewrite read_num_ok; auto using in3.
    unfold read_fixed. rewrite take_ok; [|rewrite <- app_assoc; exact F].
    rewrite <- app_assoc. reflexivity.
  - destruct S as [S1 S2], V as [V1 V2], L as [L1 L2], NE as [N1 N2]. unfold rbind.
    rewrite <- !app_assoc in *. rewrite IHs1 by auto.
    rewrite IHs2; auto; [|rewrite <- app_assoc; exact F].
    unfold rret. rewrite <- app_assoc. destruct x; reflexivity.
  - destruct S as [Sw S], L as [L1 L2]. rewrite read_list_num by auto. unfold rbind.
    cbv zeta in *. rewrite <- !app_assoc in *. rewrite read_num_ok; auto using in3.
    rewrite Forall_forall in *.
    rewrite fixed_list_ok.
    + rewrite <- app_assoc. reflexivity.
    + intros y p q Hy Fy. apply IHs; auto. apply NE; auto.
    + intros y Hy. apply NE; auto.
    + rewrite <- app_assoc. exact F.
Qed.

(* ------------------------------------------------------------------ *)
(** ** Failed writes leave the buffer unchanged *)
Lemma appends_items {A} (item : A -> wr) items : (forall x, appends (item x)) -> appends (write_items item items).
Proof.
  intros H. induction items as [|x l IH]; intros d; cbn [write_items].
  - exists []. rewrite app_nil_r. reflexivity.
  - unfold wbind. destruct (H x d) as [s Hs]. destruct (item x d) as [[[]|e|] d1]; cbn [snd] in *; subst d1; eauto.
    destruct (IH (d ++ s)) as [s' Hs']. rewrite Hs'. exists (s ++ s'). rewrite app_assoc. reflexivity.
Qed.
Lemma write_list_outcome {A} w (item : A -> wr) items d :
  In w [1; 2; 3]%nat -> (forall x, appends (item x)) ->
  match write_list w item items d with
  | (Err _, d') => d' = d
  | (Ok _, d') =>
    exists payload, d' = d ++ be_bytes w (blen payload) ++ payload /\
      blen payload < 256 ^ N.of_nat w /\
      write_items item items (d ++ repeat 0 w) = (Ok tt, (d ++ repeat 0 w) ++ payload)
  | (Panic, _) => fst (write_items item items (d ++ repeat 0 w)) = Panic
  end.
Proof.
  intros I H. destruct (appends_items item items H (d ++ repeat 0 w)) as [s Hs].
  destruct (write_items item items (d ++ repeat 0 w)) as [[[]|e|] d1] eqn:E; cbn [snd] in Hs; subst d1.
  - rewrite (write_list_ok _ _ _ _ _ I E). destruct (_ <? _) eqn:L; auto.
    exists s. repeat split; auto. lia.
  - rewrite <- app_assoc in E. rewrite (write_list_err _ _ _ _ _ _ I E). reflexivity.
  - assert (K : exists max lenb, write_list w item = write_len_list w max lenb item).
    { cbn [In] in I. destruct I as [<-|[<-|[<-|[]]]]; eexists _, _; reflexivity. }
    destruct K as (max & lenb & ->). unfold write_len_list, write_list_inner. rewrite E. reflexivity.
Qed.
Lemma write_bytes_outcome w b d : In w [1; 2; 3]%nat ->
  match write_bytes w b d with
  | (Err e, d') => d' = d /\ e = BValueTooLarge /\ 256 ^ N.of_nat w <= blen b
  | (Ok _, d') => d' = d ++ be_bytes w (blen b) ++ b /\ blen b < 256 ^ N.of_nat w
  | (Panic, _) => False
  end.
Proof.
  intros I. rewrite write_bytes_ok by auto. destruct (_ <? _) eqn:E; repeat split; auto; lia.
Qed.
Lemma write_u16_nested_outcome f d : appends f ->
  match write_u16_nested f d with
  | (Err _, d') => d' = d
  | (Ok _, d') =>
    exists payload, f (d ++ [0; 0]) = (Ok tt, (d ++ [0; 0]) ++ payload) /\
      d' = d ++ be_bytes 2 (blen payload) ++ payload
  | (Panic, _) => fst (f (d ++ [0; 0])) = Panic
  end.
Proof.
  intros H. unfold write_u16_nested. destruct (H (d ++ [0; 0])) as [s Hs].
  destruct (f (d ++ [0; 0])) as [[[]|e|] d1] eqn:E; cbn [snd] in Hs; subst d1.
  - exists s. split; auto. rewrite <- app_assoc, patch_ok by reflexivity.
    f_equal. f_equal. rewrite !blen_app, !blen_cons, blen_nil, blen_nat.
    replace (N.of_nat (length d) + (1 + (1 + 0) + blen s) - (N.of_nat (length d) + 2)) with (blen s) by lia.
    change two16 with (256 ^ N.of_nat 2). apply be_bytes_mod.
  - rewrite <- app_assoc, firstn_app_length. reflexivity.
  - reflexivity.
Qed.
