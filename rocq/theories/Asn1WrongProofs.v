(** The reader refuses bytes exactly for the reasons of Asn1Wrong.v. *)
From Coq Require Import String.
From Verif Require Import Base BaseProofs BinaryModel BinarySpec BinaryProofs BinaryProofs2 Asn1Model Asn1Spec Asn1Proofs Asn1Proofs2 Asn1Grammar Asn1Proofs3 Asn1Wrong.
Local Open Scope string_scope. Local Open Scope list_scope. Local Open Scope N_scope.
Notation length := List.length.

(** Less than half of the address space, as every slice. *)
Definition slice (d : bytes) : Prop := 2 * blen d < two64.
Lemma slice_fits d : slice d -> fits d.
Proof. unfold slice, fits, two64. lia. Qed.
Lemma slice_same d d' : length d' = length d -> slice d -> slice d'.
Proof. unfold slice, blen. intros ->. auto. Qed.
Lemma slice_less d d' : (length d' <= length d)%nat -> slice d -> slice d'.
Proof. unfold slice, blen. lia. Qed.

(** *** What the basic readers say *)
Lemma check_short size pre rest : slice (pre ++ rest) -> size < two32 -> blen rest < size ->
  check_available size (at_pos pre rest) = Err (BUnexpectedEOF (length pre) size).
Proof.
  unfold slice, check_available, at_pos, two64, two32. cbn [r_buf r_off]. unfold blen. rewrite app_length. intros S L H.
  destruct (_ <=? _) eqn:E; [apply N.leb_le in E; lia|]. clear E. destruct (_ <=? _) eqn:E; [apply N.leb_le in E; lia|]. reflexivity.
Qed.
Lemma u8_cut pre : slice pre -> read_u8 (at_pos pre []) = (Err (BUnexpectedEOF (length pre) 1), at_pos pre []).
Proof.
  intros S. unfold read_u8, take. rewrite check_short; [reflexivity|rewrite app_nil_r; exact S|reflexivity|reflexivity].
Qed.
Lemma nested_cut size pre rest : slice (pre ++ rest) -> size < two32 -> blen rest < size ->
  read_nested size (at_pos pre rest) = (Err (BUnexpectedEOF (length pre) size), at_pos pre rest).
Proof. intros S L H. unfold read_nested. rewrite check_short by assumption. reflexivity. Qed.
Lemma land_31 b : N.land b 0x1f = b mod 32.
Proof. change 31 with (N.ones 5). apply N.land_ones. Qed.
Lemma identifier_high b pre s : fits (pre ++ b :: s) -> b mod 32 = 31 ->
  fst (read_identifier (at_pos pre (b :: s))) = Err (BPlain "Unsupported: tag >= 31").
Proof.
  intros F H. unfold read_identifier, rbind. rewrite u8_ok by exact F. cbv zeta. rewrite land_31, H. reflexivity.
Qed.
Lemma id_byte_mod c f tag : tag <= 30 -> id_byte c f tag mod 32 = tag.
Proof. intros T. rewrite id_byte_sum by exact T. destruct c, f; cbn [class_no form_no]; lia. Qed.

Lemma length_loop_cut n : forall v pre s, slice (pre ++ s) -> (length s < n)%nat -> 
  fst (length_loop n v (at_pos pre s)) = Err (BUnexpectedEOF (length pre + length s) 1).
Proof.
  induction n as [|n IH]; intros v pre s S L; [lia|]. cbn [length_loop]. unfold rbind. destruct s as [|b s].
  - rewrite app_nil_r in S. rewrite u8_cut by exact S. cbn [fst length]. rewrite Nat.add_0_r. reflexivity.
  - rewrite u8_ok by (apply slice_fits; exact S). cbn [length] in L. rewrite IH; [|rewrite <- app_assoc; exact S|lia].
    rewrite app_length. cbn [length]. do 2 f_equal. lia.
Qed.
Lemma bad_length_read at_ s e : bad_length at_ s e -> forall pre, length pre = at_ -> bytes_ok s -> slice (pre ++ s) ->
  fst (read_length (at_pos pre s)) = Err e.
Proof.
  intros H pre <- B S. unfold read_length, rbind. inversion H as [Q|s' Q|s' Q|b s' R Q|k s' K L Q]; subst.
  - rewrite app_nil_r in S. rewrite u8_cut by exact S. reflexivity.
  - rewrite u8_ok by (apply slice_fits; exact S). reflexivity.
  - rewrite u8_ok by (apply slice_fits; exact S). reflexivity.
  - rewrite u8_ok by (apply slice_fits; exact S). replace b with (128 + (b - 128)) by lia. destruct (long_first (b - 128)) as [-> ->]; [lia|].
    replace (b - 128 =? 127) with false by lia. replace (b - 128 =? 0) with false by lia. replace (4 <? b - 128) with true by lia. reflexivity.
  - rewrite u8_ok by (apply slice_fits; exact S). destruct (long_first k) as [-> ->]; [lia|].
    replace (k =? 127) with false by lia. replace (k =? 0) with false by lia. replace (4 <? k) with false by lia.
    rewrite length_loop_cut; [|rewrite <- app_assoc; exact S|unfold blen in L; lia]. rewrite app_length. reflexivity.
Qed.
(** A length reader either reads a length or meets the fault. *)
Lemma length_or (pre s : bytes) : bytes_ok s -> (exists len n post, s = len ++ post /\ length_form len n) \/ exists e, bad_length (length pre) s e.
Proof.
  intros B. destruct s as [|b s]; [right; eexists; constructor|]. apply bytes_ok_cons in B. destruct B as [B _].
  destruct (N.ltb_spec b 128) as [L|L]; [left; exists [b], b, s; split; [reflexivity|left; auto]|].
  destruct (N.eq_dec b 255) as [->|N1]; [right; eexists; constructor|]. destruct (N.eq_dec b 128) as [->|N2]; [right; eexists; constructor|].
  destruct (N.ltb_spec 132 b) as [K|K]; [right; eexists; apply bl_large; unfold byte_ok in B; lia|].
  set (k := b - 128). replace b with (128 + k) in * by lia. destruct (N.ltb_spec (blen s) k) as [Q|Q]; [right; eexists; apply bl_cut; [lia|exact Q]|].
  left. exists (128 + k :: firstn (N.to_nat k) s), (of_be_bytes (firstn (N.to_nat k) s)), (skipn (N.to_nat k) s).
  split; [cbn [app]; rewrite firstn_skipn; reflexivity|]. right. exists (firstn (N.to_nat k) s).
  assert (E : blen (firstn (N.to_nat k) s) = k) by (unfold blen in *; rewrite firstn_length_le; lia). rewrite E. split; [reflexivity|]. split; [lia|reflexivity].
Qed.
Lemma length_form_small len n : bytes_ok len -> length_form len n -> n < two32.
Proof.
  intros B [[_ L]|(d & -> & L & ->)]; [unfold two32; lia|]. apply bytes_ok_cons in B. destruct B as [_ B].
  pose proof (of_be_bytes_lt d B) as X. assert (256 ^ N.of_nat (length d) <= 256 ^ 4) by (apply N.pow_le_mono_r; unfold blen in L; lia).
  change (256 ^ 4) with two32 in *. lia.
Qed.

(** *** Object identifiers *)
Lemma var_loop_cut fuel : forall v pre s, slice (pre ++ s) -> (length s < fuel)%nat -> bytes_ok s -> Forall (fun b => 128 <= b) s ->
  fst (var_loop fuel v (at_pos pre s)) = Err (BUnexpectedEOF (length pre + length s) 1).
Proof.
  induction fuel as [|fuel IH]; intros v pre s S L B H; [lia|]. cbn [var_loop]. unfold rbind. destruct s as [|b s].
  - rewrite app_nil_r in S. rewrite u8_cut by exact S. cbn [fst length]. rewrite Nat.add_0_r. reflexivity.
  - rewrite u8_ok by (apply slice_fits; exact S). cbn [length] in L. inversion H as [|? ? H1 H2]; subst. apply bytes_ok_cons in B. destruct B as [B1 B2].
    cbv zeta. rewrite top_bit by exact B1. replace (b <? 128) with false by lia. rewrite IH; [|rewrite <- app_assoc; exact S|lia|exact B2|exact H2].
    rewrite app_length. cbn [length]. do 2 f_equal. lia.
Qed.
Lemma until_parts_cut d l : parts_form d l -> forall fuel pre tail, bytes_ok (d ++ tail) -> (length (d ++ tail) < fuel)%nat -> slice (pre ++ d ++ tail) ->
  tail <> [] -> Forall (fun b => 128 <= b) tail ->
  until_empty fuel read_var_u64 (at_pos pre (d ++ tail)) = Err (BUnexpectedEOF (length pre + length (d ++ tail)) 1).
Proof.
  induction 1 as [|s d l (i & z & -> & A & Z) P IH]; intros fuel pre tail B L S T H; (destruct fuel as [|fuel]; [lia|]); cbn [until_empty]; rewrite !remaining_at.
  - cbn [app] in *. replace (0 <? length tail)%nat with true by (destruct tail; [contradiction|reflexivity]).
    pose proof (var_loop_cut (Datatypes.S (length tail)) 0 pre tail S ltac:(lia) B H) as X. unfold read_var_u64. rewrite remaining_at.
    destruct (var_loop _ _ _) as [y r']. cbn [fst] in X. subst y. reflexivity.
  - rewrite <- !app_assoc in *. replace (0 <? _)%nat with true by (symmetry; apply Nat.ltb_lt; rewrite !app_length; cbn [length]; lia).
    unfold read_var_u64. rewrite remaining_at. change 0 with (base128 [] mod two64) at 1. rewrite (app_assoc i [z]).
    apply bytes_ok_app in B. destruct B as [B1 B]. apply bytes_ok_app in B. destruct B as [B2 B3].
    rewrite var_loop_full; [|exact A|exact Z|exact B1|rewrite !app_length; cbn [length]; lia|rewrite <- app_assoc; apply slice_fits; exact S].
    rewrite remaining_at. cbn [app]. replace (_ =? _)%nat with false by (symmetry; apply Nat.eqb_neq; rewrite !app_length; cbn [length]; lia).
    rewrite IH; [|exact B3|rewrite !app_length in *; cbn [length] in *; lia|rewrite <- !app_assoc; exact S|exact T|exact H].
    cbn [bind]. rewrite !app_length. cbn [length]. do 2 f_equal. lia.
Qed.
Lemma parts_or c : (exists l, parts_form c l) \/ exists d l tail, c = d ++ tail /\ parts_form d l /\ tail <> [] /\ Forall (fun b => 128 <= b) tail.
Proof.
  induction c as [|b c IH]; [left; exists []; constructor|].
  assert (LONG : forall d l, 128 <= b -> d <> [] -> parts_form d l -> exists l', parts_form (b :: d) l').
  { intros d l B N P. destruct P as [|s d l (i & z & -> & A & Z) P]; [contradiction|]. eexists. change (b :: (i ++ [z]) ++ d) with ((b :: i ++ [z]) ++ d).
    constructor; [|exact P]. exists (b :: i), z. split; [reflexivity|]. split; [constructor; assumption|exact Z]. }
  assert (SHORT : forall d l, b < 128 -> parts_form d l -> exists l', parts_form (b :: d) l').
  { intros d l B P. eexists. change (b :: d) with ([b] ++ d). constructor; [|exact P]. exists [], b. repeat split; [constructor|exact B]. }
  destruct (N.ltb_spec b 128) as [B|B].
  - destruct IH as [(l & P)|(d & l & tail & -> & P & T)]; destruct (SHORT _ _ B P) as (l' & P'); [left; eauto|]. right. exists (b :: d), l', tail. auto.
  - destruct IH as [(l & P)|(d & l & tail & -> & P & T & F)].
    + destruct c as [|x c]; [right; exists [], [], [b]; repeat split; [constructor|discriminate|constructor; [exact B|constructor]]|].
      left. apply (LONG _ l B); [discriminate|exact P].
    + right. destruct d as [|x d]; [exists [], [], (b :: tail); repeat split; [constructor|discriminate|constructor; assumption]|].
      destruct (LONG (x :: d) l B ltac:(discriminate) P) as (l' & P'). exists (b :: x :: d), l', tail. auto.
Qed.

(** *** Every fault is reported *)
Lemma item_unfit fuel c f tag len data pre post e : tag <= 30 -> length_form len (blen data) -> bytes_ok len ->
  fits (pre ++ id_byte c f tag :: len ++ data ++ post) ->
  read_contents (read_item fuel) {| id_class := c; id_form := f; id_tag := tag |} (blen data) (at_pos (pre ++ id_byte c f tag :: len) data) = Err e ->
  fst (read_item (S fuel) (at_pos pre (id_byte c f tag :: len ++ data ++ post))) = Err e.
Proof.
  intros T LF LB F R. cbn [read_item]. unfold rbind at 1. rewrite identifier_ok by assumption.
  unfold rbind at 1. rewrite (length_form_read _ _ _ _ LF LB) by (rewrite <- app_assoc; exact F).
  unfold rbind at 1. rewrite nested_ok by (rewrite <- !app_assoc; exact F).
  unfold rbind, rlift. rewrite <- !app_assoc. cbn [app]. rewrite R. reflexivity.
Qed.
Lemma byte_of b : byte_ok b -> b mod 32 <> 31 -> exists c f tag, tag <= 30 /\ b = id_byte c f tag.
Proof. intros B H. destruct (byte_split b B) as [X|X]; [rewrite land_31 in X; contradiction|exact X]. Qed.
Lemma text_bad pre c : utf8_valid c = false -> read_text (at_pos pre c) = Err BInvalidUTF8.
Proof. intros U. unfold read_text. rewrite remaining_data_at. cbn [bind]. rewrite U. reflexivity. Qed.
Lemma wrong_read :
  (forall a s e, wrong a s e -> bytes_ok s -> forall fuel pre, length pre = a -> (length s < fuel)%nat -> slice (pre ++ s) ->
     fst (read_item fuel (at_pos pre s)) = Err e) /\
  (forall a s e, wrongs a s e -> bytes_ok s -> forall fuel lf pre, length pre = a -> (length s < fuel)%nat -> (length s < lf)%nat -> slice (pre ++ s) ->
     until_empty lf (read_item fuel) (at_pos pre s) = Err e) /\
  (forall a b d e, unfit a b d e -> bytes_ok d -> exists c f tag, tag <= 30 /\ b = id_byte c f tag /\
     forall fuel pre, length pre = a -> (length d < fuel)%nat -> slice (pre ++ d) ->
     read_contents (read_item fuel) {| id_class := c; id_form := f; id_tag := tag |} (blen d) (at_pos pre d) = Err e).
Proof.
  apply wrong_mutind.
  - intros a B fuel pre <- L S. destruct fuel as [|fuel]; [lia|]. cbn [read_item]. unfold rbind at 1, read_identifier, rbind at 1.
    rewrite app_nil_r in S. rewrite u8_cut by exact S. reflexivity.
  - intros a b s H B fuel pre <- L S. destruct fuel as [|fuel]; [lia|]. cbn [read_item]. unfold rbind at 1.
    pose proof (identifier_high b pre s (slice_fits _ S) H) as X. destruct (read_identifier _) as [y r]. cbn [fst] in X. subst y. reflexivity.
  - intros a b s e H K B fuel pre <- L S. destruct fuel as [|fuel]; [lia|]. cbn [read_item]. unfold rbind at 1.
    apply bytes_ok_cons in B. destruct B as [B1 B2]. destruct (byte_of b B1 H) as (c & f & tag & T & ->). rewrite identifier_ok by (auto using slice_fits). unfold rbind at 1.
    pose proof (bad_length_read _ _ _ K (pre ++ [id_byte c f tag])) as X. rewrite app_length, <- app_assoc in X. specialize (X eq_refl B2 S).
    destruct (read_length _) as [y r]. cbn [fst] in X. subst y. reflexivity.
  - intros a b len n s H K Q B fuel pre <- L S. destruct fuel as [|fuel]; [lia|]. cbn [read_item]. unfold rbind at 1.
    apply bytes_ok_cons in B. destruct B as [B1 B2]. apply bytes_ok_app in B2. destruct B2 as [B2 B3].
    destruct (byte_of b B1 H) as (c & f & tag & T & ->). rewrite identifier_ok by (auto using slice_fits). unfold rbind at 1.
    rewrite (length_form_read _ _ _ _ K B2) by (rewrite <- app_assoc; apply slice_fits; exact S). unfold rbind at 1.
    rewrite nested_cut; [|rewrite <- !app_assoc; exact S|exact (length_form_small _ _ B2 K)|exact Q]. cbn [fst]. rewrite !app_length. reflexivity.
  - intros a b len c post e K _ IH B fuel pre <- L S. destruct fuel as [|fuel]; [lia|].
    apply bytes_ok_cons in B. destruct B as [B1 B2]. apply bytes_ok_app in B2. destruct B2 as [B2 B3]. apply bytes_ok_app in B3. destruct B3 as [B3 _].
    destruct (IH B3) as (cl & f & tag & T & -> & R). apply item_unfit; [exact T|exact K|exact B2|apply slice_fits; exact S|].
    cbn [length] in L. rewrite !app_length in L. apply R; [rewrite app_length; cbn [length]; lia|lia|].
    eapply slice_less; [|exact S]. rewrite !app_length. cbn [length]. rewrite !app_length. lia.
  - intros a s e N W IH B fuel lf pre P L L2 S. destruct lf as [|lf]; [lia|]. cbn [until_empty]. rewrite remaining_at.
    replace (0 <? length s)%nat with true by (destruct s; [contradiction|reflexivity]). specialize (IH B fuel pre P L S).
    destruct (read_item _ _) as [y r]. cbn [fst] in IH. subst y. reflexivity.
  - intros a s i d e D _ IH B fuel lf pre <- L L2 S. destruct lf as [|lf]; [lia|]. cbn [until_empty]. rewrite remaining_at.
    pose proof (der_two _ _ D) as T. apply bytes_ok_app in B. destruct B as [B1 B2]. rewrite app_length in *.
    replace (0 <? length s + length d)%nat with true by (symmetry; apply Nat.ltb_lt; lia).
    destruct (proj1 read_complete s i D B1 fuel pre d ltac:(lia) (slice_fits _ S)) as (j & R & _). rewrite R, remaining_at.
    replace (length d =? length s + length d)%nat with false by (symmetry; apply Nat.eqb_neq; lia).
    rewrite (IH B2 fuel lf (pre ++ s)); [reflexivity|apply app_length|lia|lia|rewrite <- app_assoc; exact S].
  - intros a t con name c H _. cbn [form_names In] in H.
    assert (F : forall tag f, tag <= 30 -> 32 * form_no f + tag = id_byte CUniversal f tag) by (intros tag f T; rewrite id_byte_sum by exact T; reflexivity).
    repeat (destruct H as [H|H]; [injection H as <- <- <-;
      first [ match goal with |- exists c f tag, _ /\ 32 + ?k = _ /\ _ => exists CUniversal, FConstructed, k end
            | match goal with |- exists c f tag, _ /\ ?k = _ /\ _ => exists CUniversal, FPrimitive, k end ];
      split; [lia|]; split; [reflexivity|]; intros; reflexivity|]). destruct H.
  - intros a c H _. exists CUniversal, FPrimitive, 1. split; [lia|]. split; [reflexivity|]. intros fuel pre _ _ _. unfold read_contents. cbn [id_class id_form id_tag].
    rewrite remaining_at. replace (length c =? 1)%nat with false by (symmetry; apply Nat.eqb_neq; exact H). reflexivity.
  - intros a v H1 H2 _. exists CUniversal, FPrimitive, 1. split; [lia|]. split; [reflexivity|]. intros fuel pre _ _ S. unfold read_contents. cbn [id_class id_form id_tag].
    rewrite remaining_at. cbn [length Nat.eqb negb]. rewrite u8_ok by (apply slice_fits; exact S). cbn [fst bind].
    replace (v =? 0) with false by lia. replace (v =? 255) with false by lia. reflexivity.
  - intros a _. exists CUniversal, FPrimitive, 3. split; [lia|]. split; [reflexivity|]. intros fuel pre <- _ S. unfold read_contents. cbn [id_class id_form id_tag].
    unfold rbind. rewrite app_nil_r in S. rewrite u8_cut by exact S. reflexivity.
  - intros a c H _. exists CUniversal, FPrimitive, 5. split; [lia|]. split; [reflexivity|]. intros fuel pre _ _ _. unfold read_contents. cbn [id_class id_form id_tag].
    rewrite remaining_at. destruct c; [contradiction|reflexivity].
  - intros a d parts tail P N F B. exists CUniversal, FPrimitive, 6. split; [lia|]. split; [reflexivity|]. intros fuel pre <- L S. unfold read_contents. cbn [id_class id_form id_tag].
    unfold read_object_identifier. rewrite remaining_at. rewrite (until_parts_cut d parts P) by (auto; lia). reflexivity.
  - intros a t c H U _. exists CUniversal, FPrimitive, t. cbn [In] in H. split; [lia|]. split; [rewrite id_byte_sum by lia; cbn [class_no form_no]; lia|].
    intros fuel pre _ _ _. unfold read_contents. cbn [id_class id_form id_tag].
    destruct H as [<-|[<-|[<-|[<-|[]]]]]; rewrite text_bad by exact U; reflexivity.
  - intros a t c e H _ IH B. exists CUniversal, FConstructed, (t - 32). cbn [In] in H. split; [lia|]. split; [rewrite id_byte_sum by lia; cbn [class_no form_no]; lia|].
    intros fuel pre P L S. unfold read_contents. cbn [id_class id_form id_tag]. specialize (IH B fuel (Datatypes.S (length c)) pre P L ltac:(lia) S).
    destruct H as [<-|[<-|[]]]; cbn [N.sub Pos.sub_mask]; change (48 - 32) with 16; change (49 - 32) with 17; rewrite remaining_at, IH; reflexivity.
  - intros a c tag s e NU T _ IH B. exists c, FConstructed, tag. split; [exact T|]. split; [rewrite id_byte_sum by exact T; cbn [form_no]; lia|].
    intros fuel pre P L S. unfold read_contents. cbn [id_class id_form id_tag]. specialize (IH B fuel pre P L S).
    destruct c; [contradiction|..]; rewrite IH; reflexivity.
Qed.

(** *** There is nothing in between *)
Definition begins (s : bytes) : Prop := exists x post i, s = x ++ post /\ der x i.
Definition settled (s : bytes) : Prop := forall a, begins s \/ exists e, wrong a s e.
Lemma list_or n : (forall s, (length s < n)%nat -> bytes_ok s -> settled s) -> forall m s, (length s < m)%nat -> (length s < n)%nat -> bytes_ok s ->
  forall a, (exists l, ders s l) \/ exists e, wrongs a s e.
Proof.
  intros G. induction m as [|m IH]; intros s L L2 B a; [lia|]. destruct s as [|b s]; [left; exists []; constructor|].
  destruct (G (b :: s) L2 B a) as [(x & post & i & E & D)|(e & W)]; [|right; exists e; apply wrongs_here; [discriminate|exact W]].
  pose proof (der_two _ _ D) as T. rewrite E in *. apply bytes_ok_app in B. rewrite app_length in *.
  destruct (IH post ltac:(lia) ltac:(lia) (proj2 B) (a + length x)%nat) as [(l & Q)|(e & Q)]; [left; exists (i :: l); constructor; assumption|right; exists e; eapply wrongs_later; eassumption].
Qed.
Lemma contents_or n : (forall s, (length s < n)%nat -> bytes_ok s -> settled s) -> forall b s, byte_ok b -> b mod 32 <> 31 -> (length s < n)%nat -> bytes_ok s ->
  forall a, (exists v, holds b s v) \/ exists e, unfit a b s e.
Proof.
  intros G b s Bb M L B a. destruct (byte_of b Bb M) as (c & f & tag & T & ->). rewrite id_byte_sum by exact T.
  assert (NU : forall k, k <> CUniversal -> (exists v, holds (64 * class_no k + 32 * form_no f + tag) s v) \/ exists e, unfit a (64 * class_no k + 32 * form_no f + tag) s e).
  { intros k K. destruct f; cbn [form_no]; [left; eexists; rewrite N.mul_0_r, N.add_0_r; apply holds_other; assumption|]. change (32 * 1) with 32.
    destruct (G s L B a) as [(x & post & i & -> & D)|(e & W)]; [left; eexists; apply holds_tagged; eassumption|right; exists e; apply unfit_tagged; assumption]. }
  destruct c; [|apply NU; discriminate..]. clear NU. cbn [class_no]. rewrite N.mul_0_r, N.add_0_l.
  destruct (in_dec N.eq_dec tag known_tags) as [K|K]; [|left; eexists; apply holds_unknown; assumption].
  assert (FORM : forall t (con : bool) name, In (t, con, name) form_names -> form_no f = (if con then 0 else 1) -> tag = t ->
     exists e, unfit a (32 * form_no f + tag) s e).
  { intros t con name H Q <-. rewrite Q. eexists. replace (32 * (if con then 0 else 1) + tag) with (if con then tag else 32 + tag) by (destruct con; reflexivity). apply unfit_form. exact H. }
  assert (LIST := list_or n G (S (length s)) s (Nat.lt_succ_diag_r _) L B a).
  assert (FORM' : (if (tag =? 16) || (tag =? 17) then f = FPrimitive else f = FConstructed) -> exists e, unfit a (32 * form_no f + tag) s e).
  { intros Q. cbn [known_tags In] in K. repeat (destruct K as [<-|K]; [cbn in Q; subst f; (eapply FORM; [| |reflexivity]); [cbn; eauto 20|reflexivity]|]). destruct K. }
  assert (TEXT : In tag [12; 19; 23; 24] -> utf8_valid s = false -> exists e, unfit a tag s e) by (intros; eexists; apply unfit_text; assumption).
  cbn [known_tags In] in K.
  repeat (destruct K as [<-|K]; [destruct f; try (right; apply FORM'; reflexivity); clear FORM FORM'; cbn [form_no N.mul Pos.mul N.add Pos.add Pos.succ]|]); [..|destruct K].
  - destruct s as [|v [|]]; [right; eexists; apply unfit_boolean_length; discriminate| |right; eexists; apply unfit_boolean_length; discriminate].
    destruct (N.eq_dec v 0) as [->|V0]; [left; eexists; constructor|]. destruct (N.eq_dec v 255) as [->|V1]; [left; eexists; constructor|]. right. eexists. apply unfit_boolean; assumption.
  - left. eexists. constructor.
  - destruct s; [right; eexists; constructor|left; eexists; constructor].
  - left. eexists. constructor.
  - destruct s; [left; eexists; constructor|right; eexists; apply unfit_null; discriminate].
  - destruct (parts_or s) as [(l & P)|(d & l & tail & -> & P & Q1 & Q2)]; [left; eexists; apply holds_oid; exact P|right; eexists; eapply unfit_oid; eassumption].
  - destruct (utf8_valid s) eqn:U; [left; eexists; constructor; exact U|right; apply TEXT; [cbn; tauto|reflexivity]].
  - destruct LIST as [(l & P)|(e & P)]; [left; eexists; constructor; exact P|right; exists e; apply unfit_list; [cbn; tauto|exact P]].
  - destruct LIST as [(l & P)|(e & P)]; [left; eexists; apply holds_set; exact P|right; exists e; apply unfit_list; [cbn; tauto|exact P]].
  - destruct (utf8_valid s) eqn:U; [left; eexists; constructor; exact U|right; apply TEXT; [cbn; tauto|reflexivity]].
  - destruct (utf8_valid s) eqn:U; [left; eexists; constructor; exact U|right; apply TEXT; [cbn; tauto|reflexivity]].
  - destruct (utf8_valid s) eqn:U; [left; eexists; constructor; exact U|right; apply TEXT; [cbn; tauto|reflexivity]].
Qed.
Lemma item_or n : forall s, (length s < n)%nat -> bytes_ok s -> settled s.
Proof.
  induction n as [|n IH]; intros s L B a; [lia|]. destruct s as [|b s]; [right; eexists; constructor|].
  apply bytes_ok_cons in B. destruct B as [Bb B]. cbn [length] in L.
  destruct (N.eq_dec (b mod 32) 31) as [M|M]; [right; eexists; apply wrong_tag; exact M|].
  destruct (length_or (repeat 0 (a + 1)) s B) as [(len & k & post & -> & LF)|(e & LF)]; [|right; exists e; rewrite repeat_length in LF; apply wrong_length; assumption].
  destruct (N.ltb_spec (blen post) k) as [Q|Q]; [right; eexists; apply wrong_cut; eassumption|].
  rewrite <- (firstn_skipn (N.to_nat k) post) in *. set (c := firstn (N.to_nat k) post) in *. set (p := skipn (N.to_nat k) post) in *.
  assert (E : blen c = k) by (unfold c, blen in *; rewrite firstn_skipn in Q; rewrite firstn_length_le; lia). clearbody c p. subst k.
  apply bytes_ok_app in B. destruct B as [_ B]. apply bytes_ok_app in B. destruct B as [B _]. rewrite !app_length in L.
  destruct (contents_or n IH b c Bb M ltac:(lia) B (a + 1 + length len)%nat) as [(v & H)|(e & H)].
  - left. exists (b :: len ++ c), p, (Item 0 0 v). split; [cbn [app]; rewrite <- app_assoc; reflexivity|]. constructor; assumption.
  - right. exists e. apply wrong_contents; assumption.
Qed.
