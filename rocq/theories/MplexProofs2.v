(** What the mplex frame reader accepts, exactly. *)
From Verif Require Import Base BaseProofs VarintModel VarintSpec VarintProofs VarintProofs2 MplexModel MplexProofs.
Ltac Zify.zify_post_hook ::= Z.div_mod_to_equations.

(** A varint on the wire. *)
Definition is_varint (l : bytes) (v : N) : Prop :=
  well_terminated l /\ (length l <= 10)%nat /\ base128_value l = v /\ v < 2 ^ 64.

Lemma extract_some d o v o' : bytes_ok d -> (o <= length d)%nat ->
  (extract_varint_u64 d o = Ok (Some (v, o')) <->
   exists l, is_varint l v /\ o' = (o + length l)%nat /\ exists rest, skipn o d = l ++ rest).
Proof.
  intros B L. assert (Bs : bytes_ok (skipn o d)) by (apply bytes_ok_skipn; exact B).
  unfold extract_varint_u64. split.
  - destruct (scan_varint (skipn o d)) as [n|] eqn:S; [|discriminate].
    destruct (decode_u64 (firstn n (skipn o d))) as [w|e|] eqn:D; try discriminate.
    intros H. injection H as <- <-.
    assert (Bf : bytes_ok (firstn n (skipn o d))) by (apply bytes_ok_firstn; exact Bs).
    apply (decode_u64_ok _ _ Bf) in D. pose proof (scan_some _ _ Bs S) as [Ln _].
    exists (firstn n (skipn o d)). split; [exact D|]. split; [rewrite firstn_length; lia|].
    exists (skipn n (skipn o d)). symmetry. apply firstn_skipn.
  - intros (l & V & -> & rest & E). rewrite E.
    assert (Bl : bytes_ok l) by (rewrite E in Bs; apply Forall_app in Bs; tauto).
    rewrite scan_well_terminated by (exact Bl || apply V).
    rewrite firstn_app_length. apply (decode_u64_ok _ _ Bl) in V. rewrite V. reflexivity.
Qed.

(** A frame header with a length: header value, length value, and the bytes they take. *)
Definition frame_head (u : bytes) (hv lv : N) : Prop :=
  exists h l, u = h ++ l /\ is_varint h hv /\ is_varint l lv /\ hv mod 8 < 7.

Lemma is_varint_unique l1 v1 l2 v2 r1 r2 : bytes_ok (l1 ++ r1) ->
  is_varint l1 v1 -> is_varint l2 v2 -> l1 ++ r1 = l2 ++ r2 -> l1 = l2 /\ v1 = v2 /\ r1 = r2.
Proof.
  intros B V1 V2 E.
  assert (B2 := B). rewrite E in B2. apply Forall_app in B as [B _]. apply Forall_app in B2 as [B2 _].
  pose proof (scan_well_terminated l1 r1 B (proj1 V1)) as S1.
  pose proof (scan_well_terminated l2 r2 B2 (proj1 V2)) as S2.
  rewrite E, S2 in S1. assert (Le : length l2 = length l1) by congruence.
  assert (El : l1 = l2).
  { rewrite <- (firstn_app_length l1 r1), E, <- Le, firstn_app_length. reflexivity. }
  subst l2. split; [reflexivity|]. split; [|apply app_inv_head in E; exact E].
  destruct V1 as (_ & _ & <- & _), V2 as (_ & _ & <- & _). reflexivity.
Qed.
Lemma flag_ok n : flag_from_raw (N.land n 7) = Err InvalidData /\ n mod 8 = 7 \/
  exists fl, flag_from_raw (N.land n 7) = Ok fl /\ flag_to_raw fl = n mod 8.
Proof.
  change 7 with (N.ones 3) at 1 3. rewrite N.land_ones. change (2 ^ 3) with 8.
  assert (Hm : n mod 8 < 8) by lia. set (m := n mod 8) in *. clearbody m.
  assert (m = 0 \/ m = 1 \/ m = 2 \/ m = 3 \/ m = 4 \/ m = 5 \/ m = 6 \/ m = 7) as C by lia.
  repeat (destruct C as [->|C]; [right; eexists; split; reflexivity|]). subst m. left. split; reflexivity.
Qed.
Lemma buffered_steps d : bytes_ok d ->
  (exists u hv lv rest, d = u ++ rest /\ frame_head u hv lv /\
     exists fl, flag_to_raw fl = hv mod 8 /\
     buffered_frame d = (if two64 <=? blen u + lv then Panic
       else if lv <=? blen rest then Ok (Some (from_message_parts (hv / 8) fl (firstn (N.to_nat lv) rest), skipn (N.to_nat lv) rest))
       else Ok None)) \/
  ((forall u hv lv rest, d = u ++ rest -> ~ frame_head u hv lv) /\
   (buffered_frame d = Ok None \/ buffered_frame d = Err InvalidData)).
Proof.
  intros B. unfold buffered_frame.
  destruct (extract_varint_u64 d 0) as [[[hv o]|]|e|] eqn:X1; cbn [bind].
  - pose proof (extract_app d 0 [] ltac:(lia)) as A1. rewrite X1 in A1. destruct A1 as [_ A1].
    apply extract_some in X1; [|exact B|lia]. destruct X1 as (h & V1 & Ho & r1 & E1). cbn [skipn Nat.add] in *. subst o.
    destruct (flag_ok hv) as [[F F8]|(fl & F & F8)]; rewrite F; cbn [bind].
    + right. split; [|right; reflexivity]. intros u hv' lv rest E (h' & l' & -> & V1' & _ & Hm).
      rewrite E1, <- app_assoc in E. destruct (is_varint_unique h hv h' hv' r1 (l' ++ rest)) as (_ & <- & _); auto; [rewrite <- E1; exact B|]. lia.
    + destruct (extract_varint_u64 d (length h)) as [[[lv o]|]|e|] eqn:X2; cbn [bind].
      * apply extract_some in X2; [|exact B|lia]. destruct X2 as (l & V2 & -> & r2 & E2).
        assert (Er : r1 = l ++ r2) by (rewrite E1, skipn_app_length in E2; exact E2).
        left. exists (h ++ l), hv, lv, r2. split; [rewrite E1, Er, app_assoc; reflexivity|].
        split; [exists h, l; repeat split; try apply V1; try apply V2; destruct fl; cbn in F8; lia|].
        exists fl. split; [exact F8|].
        replace (N.of_nat (length h + length l)) with (blen (h ++ l)) by (unfold blen; rewrite app_length; reflexivity).
        destruct (two64 <=? blen (h ++ l) + lv); [reflexivity|].
        rewrite E1, Er, app_assoc. set (u := h ++ l). rewrite (blen_app u r2).
        replace (blen u + lv <=? blen u + blen r2) with (lv <=? blen r2) by lia. unfold u.
        rewrite <- app_length, skipn_app_length. rewrite shiftr_pow. reflexivity.
      * right. split; [|left; reflexivity]. intros u hv' lv rest E (h' & l' & -> & V1' & V2' & Hm).
        rewrite E1, <- app_assoc in E. destruct (is_varint_unique h hv h' hv' r1 (l' ++ rest)) as (<- & _ & Er); auto; [rewrite <- E1; exact B|].
        assert (X : extract_varint_u64 d (length h) = Ok (Some (lv, (length h + length l')%nat))).
        { apply extract_some; [exact B|rewrite E1, app_length; lia|]. exists l'. split; [exact V2'|]. split; [reflexivity|].
          exists rest. rewrite E1, skipn_app_length. exact Er. }
        congruence.
      * right. split.
        -- intros u hv' lv rest E (h' & l' & -> & V1' & V2' & Hm).
           rewrite E1, <- app_assoc in E. destruct (is_varint_unique h hv h' hv' r1 (l' ++ rest)) as (<- & _ & Er); auto; [rewrite <- E1; exact B|].
           assert (X : extract_varint_u64 d (length h) = Ok (Some (lv, (length h + length l')%nat))).
           { apply extract_some; [exact B|rewrite E1, app_length; lia|]. exists l'. split; [exact V2'|]. split; [reflexivity|].
             exists rest. rewrite E1, skipn_app_length. exact Er. }
           congruence.
        -- right. unfold extract_varint_u64 in X2. destruct (scan_varint _); [|discriminate].
           destruct (decode_u64 _); first [discriminate | injection X2 as <-; reflexivity].
      * unfold extract_varint_u64 in X2. destruct (scan_varint _); [|discriminate]. destruct (decode_u64 _); discriminate.
  - right. split; [|left; reflexivity]. intros u hv lv rest E (h & l & -> & V1 & V2 & _).
    assert (X : extract_varint_u64 d 0 = Ok (Some (hv, (0 + length h)%nat))).
    { apply extract_some; [exact B|lia|]. exists h. split; [exact V1|]. split; [reflexivity|]. exists (l ++ rest).
      cbn [skipn]. rewrite E, app_assoc. reflexivity. }
    congruence.
  - right. split.
    + intros u hv lv rest E (h & l & -> & V1 & V2 & _).
      assert (X : extract_varint_u64 d 0 = Ok (Some (hv, (0 + length h)%nat))).
      { apply extract_some; [exact B|lia|]. exists h. split; [exact V1|]. split; [reflexivity|]. exists (l ++ rest).
        cbn [skipn]. rewrite E, app_assoc. reflexivity. }
      congruence.
    + right. unfold extract_varint_u64 in X1. destruct (scan_varint _); [|discriminate].
      destruct (decode_u64 _); first [discriminate | injection X1 as <-; reflexivity].
  - unfold extract_varint_u64 in X1. destruct (scan_varint _); [|discriminate]. destruct (decode_u64 _); discriminate.
Qed.

Lemma head_unique u1 r1 hv1 lv1 u2 r2 hv2 lv2 : bytes_ok (u1 ++ r1) ->
  frame_head u1 hv1 lv1 -> frame_head u2 hv2 lv2 -> u1 ++ r1 = u2 ++ r2 ->
  u1 = u2 /\ hv1 = hv2 /\ lv1 = lv2 /\ r1 = r2.
Proof.
  intros B (h1 & l1 & -> & V1 & W1 & _) (h2 & l2 & -> & V2 & W2 & _) E.
  rewrite <- !app_assoc in E. rewrite <- app_assoc in B.
  destruct (is_varint_unique _ _ _ _ _ _ B V1 V2 E) as (<- & <- & E2).
  apply Forall_app in B as [_ B].
  destruct (is_varint_unique _ _ _ _ _ _ B W1 W2 E2) as (<- & <- & E3). auto.
Qed.

(** A complete frame on the wire and what it means. *)
Definition frame_bytes (u : bytes) (f : frame) : Prop :=
  exists head payload hv fl, u = head ++ payload /\ frame_head head hv (blen payload) /\
    flag_to_raw fl = hv mod 8 /\ f = from_message_parts (hv / 8) fl payload.
(** A header that announces more than the address space holds. *)
Definition oversized (v : bytes) : Prop :=
  exists head rest hv lv, v = head ++ rest /\ frame_head head hv lv /\ 2 ^ 64 <= blen head + lv.

Lemma buffered_frame_iff d f rest : bytes_ok d -> fits d ->
  (buffered_frame d = Ok (Some (f, rest)) <-> exists u, d = u ++ rest /\ frame_bytes u f).
Proof.
  intros B Fi. split.
  - intros H. destruct (buffered_steps d B) as [(u & hv & lv & r & E & Hd & fl & Ef & Hb)|(_ & [Hb|Hb])]; [|congruence|congruence].
    rewrite Hb in H. destruct (two64 <=? _); [discriminate|]. destruct (lv <=? blen r) eqn:El; [|discriminate].
    assert (Lf : blen (firstn (N.to_nat lv) r) = lv) by (unfold blen in *; rewrite firstn_length; lia).
    assert (Ee : from_message_parts (hv / 8) fl (firstn (N.to_nat lv) r) = f /\ skipn (N.to_nat lv) r = rest) by (split; congruence).
    destruct Ee as [<- <-].
    exists (u ++ firstn (N.to_nat lv) r). split; [rewrite <- app_assoc, firstn_skipn; exact E|].
    exists u, (firstn (N.to_nat lv) r), hv, fl. rewrite Lf. auto.
  - intros (w & E & head & payload & hv & fl & -> & Hd & Ef & ->).
    assert (Fi' := Fi). unfold fits in Fi'. rewrite E, !blen_app in Fi'. rewrite <- app_assoc in E.
    destruct (buffered_steps d B) as [(u & hv' & lv & r & E' & Hd' & fl' & Ef' & Hb)|(No & _)]; [|exfalso; exact (No _ _ _ _ E Hd)].
    assert (Eu : head ++ payload ++ rest = u ++ r) by congruence. assert (B2 := B). rewrite E in B2.
    destruct (head_unique _ _ _ _ _ _ _ _ B2 Hd Hd' Eu) as (<- & <- & <- & <-).
    assert (fl' = fl) as -> by (destruct fl, fl'; cbn in Ef, Ef'; congruence).
    rewrite Hb. replace (two64 <=? blen head + blen payload) with false by lia.
    rewrite blen_app. replace (blen payload <=? blen payload + blen rest) with true by lia.
    unfold blen. rewrite Nat2N.id, firstn_app_length, skipn_app_length. reflexivity.
Qed.
Lemma buffered_panic_iff d : bytes_ok d -> (buffered_frame d = Panic <-> oversized d).
Proof.
  intros B. split.
  - intros H. destruct (buffered_steps d B) as [(u & hv & lv & r & E & Hd & fl & Ef & Hb)|(_ & [Hb|Hb])]; [|congruence|congruence].
    rewrite Hb in H. destruct (two64 <=? blen u + lv) eqn:Et.
    + exists u, r, hv, lv. split; [exact E|]. split; [exact Hd|]. change (2 ^ 64) with two64. lia.
    + destruct (lv <=? blen r); discriminate.
  - intros (head & rest & hv & lv & E & Hd & O).
    destruct (buffered_steps d B) as [(u & hv' & lv' & r & E' & Hd' & fl & Ef & Hb)|(No & _)]; [|exfalso; exact (No _ _ _ _ E Hd)].
    assert (Eu : head ++ rest = u ++ r) by congruence. assert (B2 := B). rewrite E in B2.
    destruct (head_unique _ _ _ _ _ _ _ _ B2 Hd Hd' Eu) as (<- & <- & <- & <-).
    rewrite Hb. change (2 ^ 64) with two64 in O. replace (two64 <=? blen head + lv) with true by lia. reflexivity.
Qed.

Lemma fits_suffix u v : fits (u ++ v) -> fits v.
Proof. unfold fits. rewrite blen_app. lia. Qed.
Lemma whole_crashed fuel d fs : bytes_ok d -> fits d -> (length d < fuel)%nat ->
  (whole fuel d = (fs, Crashed) <->
   exists us v, d = concat us ++ v /\ Forall2 frame_bytes us fs /\ oversized v).
Proof.
  revert d fs. induction fuel as [|fuel IH]; intros d fs B Fi L; [lia|]. cbn [whole].
  pose proof (buffered_app d []) as BA. split.
  - destruct (buffered_frame d) as [[[f rest]|]|e|] eqn:Eb.
    + destruct BA as (_ & Ll & _). apply buffered_frame_iff in Eb; auto. destruct Eb as (u & E & Fb).
      destruct (whole fuel rest) as [l st] eqn:W. intros H. assert (fs = f :: l /\ st = Crashed) as [-> ->] by (split; congruence).
      assert (Br : bytes_ok rest) by (rewrite E in B; apply Forall_app in B; tauto).
      assert (Fr : fits rest) by (rewrite E in Fi; apply fits_suffix in Fi; exact Fi).
      apply IH in W; [|exact Br|exact Fr|lia]. destruct W as (us & v & E2 & F2 & O).
      exists (u :: us), v. cbn [concat]. rewrite <- app_assoc, <- E2. auto.
    + destruct d; discriminate.
    + discriminate.
    + intros H. injection H as <-. apply buffered_panic_iff in Eb; [|exact B]. exists [], d. auto.
  - intros (us & v & E & F2 & O). destruct us as [|u us]; inversion F2 as [|? f ? fs' Fb F2']; subst.
    + cbn [concat app] in *. apply buffered_panic_iff in O; [|exact B]. rewrite O. reflexivity.
    + cbn [concat] in *. rewrite <- app_assoc in *.
      assert (Eb : buffered_frame (u ++ concat us ++ v) = Ok (Some (f, concat us ++ v))) by (apply buffered_frame_iff; eauto).
      rewrite Eb in *. destruct BA as (_ & Ll & _).
      assert (W : whole fuel (concat us ++ v) = (fs', Crashed)).
      { apply IH; [apply Forall_app in B; tauto|apply fits_suffix in Fi; exact Fi|lia|]. eauto. }
      rewrite W. reflexivity.
Qed.
Lemma whole_finished fuel d fs : bytes_ok d -> fits d -> (length d < fuel)%nat ->
  (whole fuel d = (fs, Finished_ok) <-> exists us, d = concat us /\ Forall2 frame_bytes us fs).
Proof.
  revert d fs. induction fuel as [|fuel IH]; intros d fs B Fi L; [lia|]. cbn [whole].
  pose proof (buffered_app d []) as BA. split.
  - destruct (buffered_frame d) as [[[f rest]|]|e|] eqn:Eb.
    + destruct BA as (_ & Ll & _). apply buffered_frame_iff in Eb; auto. destruct Eb as (u & E & Fb).
      destruct (whole fuel rest) as [l st] eqn:W. intros H. assert (fs = f :: l /\ st = Finished_ok) as [-> ->] by (split; congruence).
      assert (Br : bytes_ok rest) by (rewrite E in B; apply Forall_app in B; tauto).
      assert (Fr : fits rest) by (rewrite E in Fi; apply fits_suffix in Fi; exact Fi).
      apply IH in W; [|exact Br|exact Fr|lia]. destruct W as (us & E2 & F2).
      exists (u :: us). cbn [concat]. rewrite <- E2. auto.
    + destruct d; [|discriminate]. intros H. injection H as <-. exists []. auto.
    + discriminate.
    + discriminate.
  - intros (us & E & F2). destruct us as [|u us]; inversion F2 as [|? f ? fs' Fb F2']; subst.
    + reflexivity.
    + cbn [concat] in *.
      assert (Eb : buffered_frame (u ++ concat us) = Ok (Some (f, concat us))) by (apply buffered_frame_iff; eauto).
      rewrite Eb in *. destruct BA as (_ & Ll & _).
      assert (W : whole fuel (concat us) = (fs', Finished_ok)).
      { apply IH; [apply Forall_app in B; tauto|apply fits_suffix in Fi; exact Fi|lia|]. eauto. }
      rewrite W. reflexivity.
Qed.
