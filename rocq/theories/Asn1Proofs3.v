(** The ASN.1 reader reads exactly the grammar of Asn1Grammar.v. *)
From Verif Require Import Base BaseProofs BinaryModel BinarySpec BinaryProofs BinaryProofs2 Asn1Model Asn1Spec Asn1Proofs Asn1Proofs2 Asn1Grammar.

Lemma id_byte_sum c f tag : tag <= 30 -> id_byte c f tag = 64 * class_no c + 32 * form_no f + tag.
Proof.
  intros H. assert (X : forallb (fun t => id_byte c f t =? 64 * class_no c + 32 * form_no f + t) (map N.of_nat (seq 0 31)) = true) by (destruct c, f; vm_compute; reflexivity).
  rewrite forallb_forall in X. apply N.eqb_eq, X. apply in_map_iff. exists (N.to_nat tag). split; [lia|]. apply in_seq. lia.
Qed.
Lemma byte_split b : b < 256 -> (N.land b 0x1f = 0x1f) \/ exists c f tag, tag <= 30 /\ b = id_byte c f tag.
Proof.
  intros H. assert (X : N.land b 31 = b mod 32) by (change 31 with (N.ones 5); apply N.land_ones). rewrite X.
  destruct (N.eq_dec (b mod 32) 31) as [E|E]; [left; exact E|right].
  set (c := match b / 64 with 0 => CUniversal | 1 => CApplication | 2 => CContext | _ => CPrivate end).
  set (f := match (b / 32) mod 2 with 0 => FPrimitive | _ => FConstructed end).
  exists c, f, (b mod 32). split; [lia|]. rewrite id_byte_sum by lia.
  assert (C : class_no c = b / 64).
  { unfold c. assert (b / 64 < 4) by lia. destruct (b / 64) as [|[[?|?|]|[?|?|]|]]; try reflexivity; lia. }
  assert (F : form_no f = (b / 32) mod 2).
  { unfold f. assert ((b / 32) mod 2 < 2) by lia. destruct ((b / 32) mod 2) as [|[[?|?|]|[?|?|]|]]; try reflexivity; lia. }
  rewrite C, F. lia.
Qed.
Lemma identifier_inv pre rest id r' : bytes_ok rest -> read_identifier (at_pos pre rest) = (Ok id, r') ->
  exists post, id_tag id <= 30 /\ rest = id_byte (id_class id) (id_form id) (id_tag id) :: post /\ r' = at_pos (pre ++ [id_byte (id_class id) (id_form id) (id_tag id)]) post.
Proof.
  intros B H. unfold read_identifier, rbind in H. destruct (read_u8 (at_pos pre rest)) as [y r1] eqn:E. apply take_inv in E.
  destruct E as [(e & -> & ->)|(s & post & -> & Ls & -> & ->)]; [discriminate|]. destruct s as [|b [|]]; cbn in Ls; try lia.
  change (of_be_bytes [b]) with (b + 256 * 0) in H. rewrite N.mul_0_r, N.add_0_r in H.
  apply bytes_ok_app in B. destruct B as [B _]. apply bytes_ok_cons in B. destruct B as [B _].
  cbv zeta in H. destruct (N.land b 31 =? 31) eqn:E; [discriminate|]. unfold rret in H. destruct (byte_split b B) as [X|(c & f & tag & T & ->)]; [lia|].
  exists post. enough (id = {| id_class := c; id_form := f; id_tag := tag |}) as -> by (cbn [id_class id_form id_tag]; split; [exact T|]; split; [reflexivity|]; congruence).
  assert (F : fits ([] ++ id_byte c f tag :: [])) by (unfold fits, two64; cbn; lia).
  pose proof (identifier_ok c f tag [] [] T F) as G. unfold read_identifier, rbind in G. rewrite u8_ok in G by exact F. cbv zeta in G. rewrite E in G.
  unfold rret in *. congruence.
Qed.

(** *** Object identifiers *)
Lemma base128_snoc s b : base128 (s ++ [b]) = base128 s * 128 + b mod 128.
Proof. unfold base128. rewrite fold_left_app. reflexivity. Qed.
Lemma var_value a b : N.lor (N.shiftl (a mod two64) 7 mod two64) (N.land b 0x7f) = (a * 128 + b mod 128) mod two64.
Proof.
  rewrite N.shiftl_mul_pow2. change (2 ^ 7) with 128. change 127 with (N.ones 7). rewrite N.land_ones. change (2 ^ 7) with 128.
  assert (E : (a mod two64 * 128) mod two64 = (a mod 144115188075855872) * 128).
  { unfold two64. lia. }
  rewrite E. rewrite lor_low7 by (apply N.mod_lt; discriminate). unfold two64. lia.
Qed.
Lemma top_bit b : b < 256 -> (N.land b 0x80 =? 0) = (b <? 128).
Proof. intros H. apply eqb_true_iff. apply (byte_sweep (fun b => Bool.eqb (N.land b 0x80 =? 0) (b <? 128))); [vm_compute; reflexivity|exact H]. Qed.
Lemma var_loop_exact fuel : forall seen pre rest, bytes_ok rest -> (length rest < fuel)%nat -> forall v r',
  var_loop fuel (base128 seen mod two64) (at_pos pre rest) = (Ok v, r') ->
  exists s post, rest = s ++ post /\ r' = at_pos (pre ++ s) post /\ arc_form s /\ v = base128 (seen ++ s) mod two64.
Proof.
  induction fuel as [|fuel IH]; intros seen pre rest B L v r' H; [lia|]. cbn [var_loop] in H. unfold rbind at 1 in H.
  destruct (read_u8 (at_pos pre rest)) as [y r1] eqn:E. apply take_inv in E. destruct E as [(e & -> & ->)|(s & post & -> & Ls & -> & ->)]; [discriminate|].
  destruct s as [|b [|]]; cbn in Ls; try lia. change (of_be_bytes [b]) with (b + 256 * 0) in H. rewrite N.mul_0_r, N.add_0_r in H.
  apply bytes_ok_app in B. destruct B as [B B']. apply bytes_ok_cons in B. destruct B as [B _].
  rewrite var_value, <- base128_snoc, top_bit in H by exact B. destruct (b <? 128) eqn:T.
  - exists [b], post. unfold rret in H. assert (v = base128 (seen ++ [b]) mod two64) by congruence. split; [reflexivity|]. split; [congruence|]. split; [|assumption].
    exists [], b. split; [reflexivity|]. split; [constructor|lia].
  - cbn [app length] in L. destruct (IH (seen ++ [b]) (pre ++ [b]) post B' ltac:(lia) v r' H) as (s & q & -> & -> & (init & last & -> & A & B2) & ->).
    exists (b :: init ++ [last]), q. split; [reflexivity|]. split; [rewrite <- app_assoc; reflexivity|]. split.
    + exists (b :: init), last. split; [reflexivity|]. split; [constructor; [lia|exact A]|exact B2].
    + rewrite <- app_assoc. reflexivity.
Qed.
Lemma var_loop_full fuel : forall init last seen pre post, Forall (fun b => 128 <= b) init -> last < 128 -> bytes_ok init -> (length init < fuel)%nat ->
  fits (pre ++ (init ++ [last]) ++ post) ->
  var_loop fuel (base128 seen mod two64) (at_pos pre ((init ++ [last]) ++ post)) = (Ok (base128 (seen ++ init ++ [last]) mod two64), at_pos (pre ++ init ++ [last]) post).
Proof.
  induction fuel as [|fuel IH]; intros init last seen pre post A T B L F; [lia|]. cbn [var_loop]. unfold rbind at 1. destruct init as [|b init]; cbn [app length] in *.
  - rewrite u8_ok by exact F. rewrite var_value, <- base128_snoc, top_bit by lia. replace (last <? 128) with true by lia. reflexivity.
  - rewrite u8_ok by exact F. inversion A as [|? ? A1 A2]; subst. apply bytes_ok_cons in B. destruct B as [B1 B2].
    rewrite var_value, <- base128_snoc, top_bit by exact B1. replace (b <? 128) with false by lia.
    rewrite IH; [rewrite <- !app_assoc; reflexivity|exact A2|exact T|exact B2|lia|rewrite <- app_assoc; exact F].
Qed.
Lemma until_parts fuel : forall pre rest, bytes_ok rest -> (length rest < fuel)%nat -> forall l,
  until_empty fuel read_var_u64 (at_pos pre rest) = Ok l -> parts_form rest l.
Proof.
  induction fuel as [|fuel IH]; intros pre rest B L l H; [lia|]. cbn [until_empty] in H. rewrite remaining_at in H. destruct (0 <? length rest)%nat eqn:E0.
  - destruct (read_var_u64 (at_pos pre rest)) as [y r1] eqn:E. destruct y as [v|e|]; try discriminate.
    unfold read_var_u64 in E. rewrite remaining_at in E. change 0 with (base128 [] mod two64) in E.
    apply var_loop_exact in E; [|exact B|lia]. destruct E as (s & post & -> & -> & A & ->). cbn [app] in *.
    destruct (remaining (at_pos (pre ++ s) post) =? length (s ++ post))%nat; [discriminate|].
    apply bind_ok in H. destruct H as (t & H & X). assert (base128 s mod two64 :: t = l) by congruence. subst l.
    apply bytes_ok_app in B. destruct A as (i & z & -> & A). rewrite !app_length in L. cbn [length] in L. constructor; [exists i, z; auto|]. apply (IH (pre ++ i ++ [z])); [apply B|lia|exact H].
  - destruct rest; [|cbn in E0; lia]. assert (l = []) by congruence. subst l. constructor.
Qed.
Lemma until_parts_full d l : parts_form d l -> forall fuel pre, bytes_ok d -> (length d < fuel)%nat -> fits (pre ++ d) ->
  until_empty fuel read_var_u64 (at_pos pre d) = Ok l.
Proof.
  induction 1 as [|s d l (i & z & -> & A & Z) P IH]; intros fuel pre B L F; (destruct fuel as [|fuel]; [lia|]); cbn [until_empty]; rewrite !remaining_at.
  - reflexivity.
  - rewrite !app_length in *. cbn [length] in *. replace (0 <? length i + 1 + length d)%nat with true by (symmetry; apply Nat.ltb_lt; lia).
    apply bytes_ok_app in B. destruct B as [B B']. apply bytes_ok_app in B. unfold read_var_u64. rewrite remaining_at.
    change 0 with (base128 [] mod two64) at 1.
    rewrite var_loop_full; [|exact A|exact Z|apply B|rewrite !app_length; cbn [length]; lia|exact F].
    rewrite remaining_at. cbn [app]. replace (length d =? length i + 1 + length d)%nat with false by (symmetry; apply Nat.eqb_neq; lia).
    rewrite IH; [reflexivity|exact B'|lia|rewrite <- app_assoc; exact F].
Qed.

(** *** What is read is in the grammar *)
Definition sound (fuel : nat) : Prop := forall pre rest i r', (length rest < fuel)%nat -> bytes_ok rest -> read_item fuel (at_pos pre rest) = (Ok i, r') ->
  exists s post, rest = s ++ post /\ r' = at_pos (pre ++ s) post /\ der s (erase i).
Lemma der_two s i : der s i -> (2 <= length s)%nat.
Proof. intros H. inversion H as [f len c v L]; subst. apply length_form_nonempty in L. cbn [length]. rewrite app_length. lia. Qed.
Lemma until_sound fuel : sound fuel -> forall lf pre rest l, (length rest < lf)%nat -> (length rest < fuel)%nat -> bytes_ok rest ->
  until_empty lf (read_item fuel) (at_pos pre rest) = Ok l -> ders rest (map erase l).
Proof.
  intros G. induction lf as [|lf IH]; intros pre rest l L Lf B H; [lia|]. cbn [until_empty] in H. rewrite remaining_at in H.
  destruct (0 <? length rest)%nat eqn:E0.
  - destruct (read_item fuel (at_pos pre rest)) as [y r'] eqn:E. destruct y as [i|e|]; try discriminate.
    destruct (G _ _ _ _ Lf B E) as (s & post & -> & -> & D). pose proof (der_two _ _ D) as T. rewrite app_length in *.
    destruct (remaining (at_pos (pre ++ s) post) =? length s + length post)%nat; [discriminate|]. apply bind_ok in H. destruct H as (t & H & X).
    assert (i :: t = l) by congruence. subst l. apply bytes_ok_app in B. cbn [map]. constructor; [exact D|]. apply (IH (pre ++ s)); [lia|lia|apply B|exact H].
  - destruct rest; [|cbn in E0; lia]. assert (l = []) by congruence. subst l. constructor.
Qed.
Lemma text_inv pre c s : read_text (at_pos pre c) = Ok s -> s = c /\ utf8_valid c = true.
Proof. unfold read_text. rewrite remaining_data_at. cbn [bind]. destruct (utf8_valid c) eqn:E; [|discriminate]. intros H. split; congruence. Qed.
Definition erase_value (v : value) : value := item_value (erase (Item 0 0 v)).
Lemma contents_sound fuel c f tag pre rest v : sound fuel -> tag <= 30 -> (length rest < fuel)%nat -> bytes_ok rest ->
  read_contents (read_item fuel) {| id_class := c; id_form := f; id_tag := tag |} (blen rest) (at_pos pre rest) = Ok v -> holds (64 * class_no c + 32 * form_no f + tag) rest (erase_value v).
Proof.
  intros G T Lf B. unfold read_contents. cbn [id_class id_form id_tag].
  assert (TAG : forall c, c <> CUniversal -> forall v, (let? i := fst (read_item fuel (at_pos pre rest)) in Ok (tagged c tag i)) = Ok v ->
     holds (64 * class_no c + 32 * 1 + tag) rest (erase_value v)).
  { intros k K w H. apply bind_ok in H. destruct H as (i & H & X). assert (tagged k tag i = w) by congruence. subst w.
    destruct (read_item fuel (at_pos pre rest)) as [y r'] eqn:E. cbn [fst] in H. subst y. destruct (G _ _ _ _ Lf B E) as (s & post & -> & -> & D).
    replace (erase_value (tagged k tag i)) with (tagged k tag (erase i)) by (destruct k; reflexivity). apply holds_tagged; assumption. }
  destruct c.
  2,3,4: destruct f; [intros H; match type of H with Ok ?x = _ => assert (x = v) by congruence end; subst v; cbn [form_no]; rewrite N.mul_0_r, N.add_0_r; apply holds_other; [discriminate|exact T]
    |first [apply (TAG CApplication); discriminate|apply (TAG CContext); discriminate|apply (TAG CPrivate); discriminate]].
  cbn [class_no]. rewrite N.mul_0_r, N.add_0_l.
  assert (UNK : ~ In tag known_tags -> Ok (VUnknown {| id_class := CUniversal; id_form := f; id_tag := tag |} (blen rest)) = @Ok berr _ v -> holds (32 * form_no f + tag) rest (erase_value v)).
  { intros K H. match type of H with Ok ?x = _ => assert (x = v) by congruence end. subst v. apply holds_unknown; assumption. }
  destruct tag as [|p]; [apply UNK; cbn; intuition discriminate|].
  clear T TAG.
  repeat match goal with
  | |- context[match ?p with xI _ => _ | xO _ => _ | xH => _ end] => is_var p; destruct p
  end; try (apply UNK; cbn; intuition discriminate); destruct f; try discriminate; clear UNK; intros H.
  - (* 23 *) apply bind_ok in H. destruct H as (s & H & X). assert (VUtcTime s = v) by congruence. subst v. apply text_inv in H. destruct H as [-> U]. apply (holds_utc rest U).
  - apply bind_ok in H. destruct H as (s & H & X). assert (VPrintableString s = v) by congruence. subst v. apply text_inv in H. destruct H as [-> U]. apply (holds_printable rest U).
  - (* 17 *) apply bind_ok in H. destruct H as (l & H & X). assert (VSet l = v) by congruence. subst v. rewrite remaining_at in H. apply (until_sound fuel G) in H; [|lia|exact Lf|exact B]. apply (holds_set rest _ H).
  - (* 5 *) rewrite remaining_at in H. destruct (length rest =? 0)%nat eqn:E; [|cbn [negb] in H; discriminate]. destruct rest; [|cbn in E; discriminate]. assert (VNull = v) by (cbn in H; congruence). subst v. apply holds_null.
  - (* 3 *) unfold rbind in H. destruct (read_u8 (at_pos pre rest)) as [y r1] eqn:E. apply take_inv in E. destruct E as [(e & -> & ->)|(s & post & -> & Ls & -> & ->)]; [discriminate|].
    destruct s as [|b [|]]; cbn in Ls; try lia. change (of_be_bytes [b]) with (b + 256 * 0) in H. rewrite N.mul_0_r, N.add_0_r in H.
    pose proof (remaining_data_at (pre ++ [b]) post) as X. destruct (remaining_data (at_pos (pre ++ [b]) post)) as [z r2]. cbn [fst] in X. subst z. cbn [rret fst] in H.
    assert (VBitString b post = v) by congruence. subst v. apply holds_bits.
  - (* 6 *) apply bind_ok in H. destruct H as (a & H & X). assert (VOid a = v) by congruence. subst v. unfold read_object_identifier in H. apply bind_ok in H. destruct H as (l & H & Y).
    assert (arcs_of l = a) by congruence. subst a. rewrite remaining_at in H. apply until_parts in H; [|exact B|lia]. apply (holds_oid rest l H).
  - (* 12 *) apply bind_ok in H. destruct H as (s & H & X). assert (VUtf8String s = v) by congruence. subst v. apply text_inv in H. destruct H as [-> U]. apply (holds_utf8 rest U).
  - (* 24 *) apply bind_ok in H. destruct H as (s & H & X). assert (VGeneralizedTime s = v) by congruence. subst v. apply text_inv in H. destruct H as [-> U]. apply (holds_generalized rest U).
  - (* 16 *) apply bind_ok in H. destruct H as (l & H & X). assert (VSequence l = v) by congruence. subst v. rewrite remaining_at in H. apply (until_sound fuel G) in H; [|lia|exact Lf|exact B]. apply (holds_sequence rest _ H).
  - (* 4 *) rewrite remaining_data_at in H. cbn [bind] in H. assert (VOctetString rest = v) by congruence. subst v. apply holds_octets.
  - (* 2 *) rewrite remaining_data_at in H. cbn [bind] in H. assert (VInteger rest = v) by congruence. subst v. apply holds_integer.
  - (* 1 *) rewrite remaining_at in H. destruct (length rest =? 1)%nat eqn:E; cbn [negb] in H; [|discriminate]. destruct rest as [|b [|]]; try (cbn in E; discriminate).
    apply bind_ok in H. destruct H as (x & H & X). destruct (read_u8 (at_pos pre [b])) as [y r1] eqn:E1. cbn [fst] in H. subst y. apply take_inv in E1.
    destruct E1 as [(e & Q & _)|(s & post & Q1 & Ls & Q & _)]; [discriminate|]. destruct s as [|b' [|]]; cbn in Ls; try lia. assert (b' = b) by (cbn in Q1; congruence). subst b'.
    change (of_be_bytes [b]) with (b + 256 * 0) in Q. rewrite N.mul_0_r, N.add_0_r in Q. assert (x = b) by congruence. subst x.
    destruct (b =? 0) eqn:Z; [assert (VBoolean false = v) by congruence; subst v; replace b with 0 by lia; apply holds_false|].
    destruct (b =? 255) eqn:Z2; [|discriminate]. assert (VBoolean true = v) by congruence; subst v; replace b with 255 by lia; apply holds_true.
Qed.
Lemma read_item_sound fuel : sound fuel.
Proof.
  induction fuel as [|fuel IH]; intros pre rest i r' L B H; [lia|]. cbn [read_item] in H. unfold rbind at 1 in H.
  destruct (read_identifier (at_pos pre rest)) as [y r1] eqn:E1. destruct y as [id|e|]; try discriminate.
  apply identifier_inv in E1; [|exact B]. destruct id as [c f tag]. cbn [id_class id_form id_tag] in E1. destruct E1 as (rest1 & T & -> & ->).
  set (b := id_byte c f tag) in *. apply bytes_ok_cons in B. destruct B as [_ B]. cbn [length] in L.
  unfold rbind at 1 in H. destruct (read_length (at_pos (pre ++ [b]) rest1)) as [y r1] eqn:E2. apply read_length_inv in E2; [|exact B].
  destruct E2 as (P & s1 & rest2 & -> & -> & Q). destruct y as [len|e|]; try discriminate.
  specialize (Q len eq_refl). rewrite app_length in L. apply bytes_ok_app in B. destruct B as [_ B].
  unfold rbind at 1 in H. destruct (read_nested len (at_pos ((pre ++ [b]) ++ s1) rest2)) as [y r1] eqn:E3. apply nested_inv in E3.
  destruct E3 as [(e & -> & ->)|(k & post & -> & Lc & -> & ->)]; [discriminate|].
  unfold rbind, rlift in H. rewrite app_length in L. apply bytes_ok_app in B. destruct B as [B _]. subst len.
  destruct (read_contents (read_item fuel) {| id_class := c; id_form := f; id_tag := tag |} (blen k) (at_pos ((pre ++ [b]) ++ s1) k)) as [v|e|] eqn:E4; try discriminate.
  apply contents_sound in E4; [|exact IH|exact T|lia|exact B]. rewrite <- id_byte_sum in E4 by exact T. fold b in E4.
  cbn [at_pos r_off] in H.
  match type of H with (Ok ?x, ?y) = _ => assert (X : x = i) by congruence; assert (Y : y = r') by congruence end. subst i r'.
  exists (b :: s1 ++ k), post. split; [cbn [app]; rewrite <- app_assoc; reflexivity|]. split; [rewrite <- !app_assoc; reflexivity|].
  replace (erase (Item (length pre) (length (((pre ++ [b]) ++ s1) ++ k)) v)) with (Item 0 0 (erase_value v)) by (destruct v; reflexivity).
  constructor; [exact Q|exact E4].
Qed.

(** *** What is in the grammar is read *)
Lemma item_step fuel c f tag len data pre post v : tag <= 30 -> length_form len (blen data) -> bytes_ok len ->
  fits (pre ++ id_byte c f tag :: (len ++ data) ++ post) ->
  read_contents (read_item fuel) {| id_class := c; id_form := f; id_tag := tag |} (blen data) (at_pos (pre ++ id_byte c f tag :: len) data) = Ok v ->
  read_item (S fuel) (at_pos pre (id_byte c f tag :: (len ++ data) ++ post)) =
    (Ok (Item (length pre) (length (pre ++ id_byte c f tag :: len ++ data)) v), at_pos (pre ++ id_byte c f tag :: len ++ data) post).
Proof.
  intros T LF LB F R. cbn [read_item]. unfold rbind at 1. rewrite <- !app_assoc in *. rewrite identifier_ok by assumption.
  unfold rbind at 1. rewrite (length_form_read _ _ _ _ LF LB) by (rewrite <- app_assoc; exact F).
  unfold rbind at 1. rewrite nested_ok by (rewrite <- !app_assoc; exact F).
  unfold rbind, rlift. rewrite <- !app_assoc. cbn [app]. rewrite R. reflexivity.
Qed.
Lemma read_complete :
  (forall s j, der s j -> bytes_ok s -> forall fuel pre post, (length s <= fuel)%nat -> fits (pre ++ s ++ post) ->
     exists i, read_item fuel (at_pos pre (s ++ post)) = (Ok i, at_pos (pre ++ s) post) /\ erase i = j) /\
  (forall d l, ders d l -> bytes_ok d -> forall fuel lf pre, (length d <= fuel)%nat -> (length d < lf)%nat -> fits (pre ++ d) ->
     exists js, until_empty lf (read_item fuel) (at_pos pre d) = Ok js /\ map erase js = l) /\
  (forall b d v, holds b d v -> bytes_ok d -> exists c f tag, tag <= 30 /\ b = id_byte c f tag /\ forall fuel pre, (length d <= fuel)%nat -> fits (pre ++ d) ->
     exists w, read_contents (read_item fuel) {| id_class := c; id_form := f; id_tag := tag |} (blen d) (at_pos pre d) = Ok w /\ erase_value w = v).
Proof.
  apply der_mutind.
  - intros b len c v LF _ IH B fuel pre post L F. apply bytes_ok_cons in B. destruct B as [_ B]. apply bytes_ok_app in B. destruct B as [B1 B2].
    destruct (IH B2) as (cl & f & tag & T & -> & R). destruct fuel as [|fuel]; [cbn in L; lia|].
    cbn [length] in L. rewrite app_length in L. cbn [app] in *.
    destruct (R fuel (pre ++ id_byte cl f tag :: len)) as (w & W & <-); [lia| |].
    { unfold fits, blen in *. rewrite !app_length in *. cbn [length] in *. rewrite !app_length in *. lia. }
    eexists. split; [apply item_step; eassumption|]. destruct w; reflexivity.
  - intros B fuel lf pre L L2 F. destruct lf as [|lf]; [cbn in L2; lia|]. exists []. cbn [until_empty]. rewrite remaining_at. split; reflexivity.
  - intros s i d l D IH _ IHl B fuel lf pre L L2 F. destruct lf as [|lf]; [lia|]. cbn [until_empty]. rewrite remaining_at.
    pose proof (der_two _ _ D) as T. apply bytes_ok_app in B. destruct B as [B1 B2]. rewrite app_length in *.
    replace (0 <? length s + length d)%nat with true by (symmetry; apply Nat.ltb_lt; lia).
    destruct (IH B1 fuel pre d ltac:(lia) F) as (j & R & <-). rewrite R, remaining_at.
    replace (length d =? length s + length d)%nat with false by (symmetry; apply Nat.eqb_neq; lia).
    destruct (IHl B2 fuel lf (pre ++ s)) as (js & R2 & <-); [lia|lia|rewrite <- app_assoc; exact F|]. rewrite R2. exists (j :: js). split; reflexivity.
  - intros _. exists CUniversal, FPrimitive, 1. split; [lia|]. split; [reflexivity|]. intros fuel pre _ F. unfold read_contents. cbn [id_class id_form id_tag]. rewrite remaining_at. cbn [length Nat.eqb negb].
    rewrite u8_ok by exact F. eexists. split; reflexivity.
  - intros _. exists CUniversal, FPrimitive, 1. split; [lia|]. split; [reflexivity|]. intros fuel pre _ F. unfold read_contents. cbn [id_class id_form id_tag]. rewrite remaining_at. cbn [length Nat.eqb negb].
    rewrite u8_ok by exact F. eexists. split; reflexivity.
  - intros d _. exists CUniversal, FPrimitive, 2. split; [lia|]. split; [reflexivity|]. intros fuel pre _ F. unfold read_contents. cbn [id_class id_form id_tag]. rewrite remaining_data_at. eexists. split; reflexivity.
  - intros u d _. exists CUniversal, FPrimitive, 3. split; [lia|]. split; [reflexivity|]. intros fuel pre _ F. unfold read_contents. cbn [id_class id_form id_tag]. unfold rbind. rewrite u8_ok by exact F.
    pose proof (remaining_data_at (pre ++ [u]) d) as X. destruct (remaining_data (at_pos (pre ++ [u]) d)) as [z r2]. cbn [fst] in X. subst z. eexists. split; reflexivity.
  - intros d _. exists CUniversal, FPrimitive, 4. split; [lia|]. split; [reflexivity|]. intros fuel pre _ F. unfold read_contents. cbn [id_class id_form id_tag]. rewrite remaining_data_at. eexists. split; reflexivity.
  - intros _. exists CUniversal, FPrimitive, 5. split; [lia|]. split; [reflexivity|]. intros fuel pre _ F. unfold read_contents. cbn [id_class id_form id_tag]. rewrite remaining_at. eexists. split; reflexivity.
  - intros d l P B. exists CUniversal, FPrimitive, 6. split; [lia|]. split; [reflexivity|]. intros fuel pre _ F. unfold read_contents. cbn [id_class id_form id_tag]. unfold read_object_identifier. rewrite remaining_at.
    rewrite (until_parts_full d l P) by (auto; lia). eexists. split; reflexivity.
  - intros d U _. exists CUniversal, FPrimitive, 12. split; [lia|]. split; [reflexivity|]. intros fuel pre _ F. unfold read_contents. cbn [id_class id_form id_tag]. rewrite read_text_at by exact U. eexists. split; reflexivity.
  - intros d U _. exists CUniversal, FPrimitive, 19. split; [lia|]. split; [reflexivity|]. intros fuel pre _ F. unfold read_contents. cbn [id_class id_form id_tag]. rewrite read_text_at by exact U. eexists. split; reflexivity.
  - intros d U _. exists CUniversal, FPrimitive, 23. split; [lia|]. split; [reflexivity|]. intros fuel pre _ F. unfold read_contents. cbn [id_class id_form id_tag]. rewrite read_text_at by exact U. eexists. split; reflexivity.
  - intros d U _. exists CUniversal, FPrimitive, 24. split; [lia|]. split; [reflexivity|]. intros fuel pre _ F. unfold read_contents. cbn [id_class id_form id_tag]. rewrite read_text_at by exact U. eexists. split; reflexivity.
  - intros d l _ IH B. exists CUniversal, FConstructed, 16. split; [lia|]. split; [reflexivity|]. intros fuel pre L F. unfold read_contents. cbn [id_class id_form id_tag]. rewrite remaining_at.
    destruct (IH B fuel (S (length d)) pre L ltac:(lia) F) as (js & R & <-). rewrite R. eexists. split; reflexivity.
  - intros d l _ IH B. exists CUniversal, FConstructed, 17. split; [lia|]. split; [reflexivity|]. intros fuel pre L F. unfold read_contents. cbn [id_class id_form id_tag]. rewrite remaining_at.
    destruct (IH B fuel (S (length d)) pre L ltac:(lia) F) as (js & R & <-). rewrite R. eexists. split; reflexivity.
  - intros c tag s junk j NU T _ IH B. exists c, FConstructed, tag. split; [exact T|]. split; [rewrite id_byte_sum by exact T; cbn [form_no]; lia|]. intros fuel pre L F.
    apply bytes_ok_app in B. rewrite app_length in L. destruct (IH (proj1 B) fuel pre junk ltac:(lia) F) as (i & R & <-).
    unfold read_contents. cbn [id_class id_form id_tag]. destruct c; [contradiction|..]; rewrite R; eexists; split; reflexivity.
  - intros c tag d NU T B. exists c, FPrimitive, tag. split; [exact T|]. split; [rewrite id_byte_sum by exact T; cbn [form_no]; lia|]. intros fuel pre L F.
    unfold read_contents. cbn [id_class id_form id_tag]. destruct c; [contradiction|..]; eexists; split; reflexivity.
  - intros f tag d T K B. exists CUniversal, f, tag. split; [exact T|]. split; [rewrite id_byte_sum by exact T; cbn [class_no]; lia|]. intros fuel pre L F.
    exists (VUnknown {| id_class := CUniversal; id_form := f; id_tag := tag |} (blen d)). split; [|reflexivity].
    unfold read_contents. cbn [id_class id_form id_tag]. destruct tag as [|p]; [reflexivity|].
    clear - K.
    repeat match goal with
    | |- context[match ?p with xI _ => _ | xO _ => _ | xH => _ end] => is_var p; destruct p
    end; try reflexivity; exfalso; apply K; cbn; tauto.
Qed.
