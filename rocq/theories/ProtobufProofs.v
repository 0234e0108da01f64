(** Proofs about the protobuf model. *)
From Verif Require Import Base BaseProofs VarintModel VarintSpec VarintProofs VarintProofs2.
From Verif Require Import ProtobufModel ProtobufSpec.
Ltac Zify.zify_post_hook ::= Z.div_mod_to_equations.

Lemma is_varint_decode l v : bytes_ok l -> (decode_u64 l = Ok v <-> is_varint l v).
Proof. intros H. apply decode_u64_ok, H. Qed.
Lemma is_varint_encode v : u64_ok v -> is_varint (encode_u64 v) v.
Proof.
  intros H. apply is_varint_decode; [apply encode_bytes_ok|]. apply decode_encode, H.
Qed.

(** ** Reader primitives *)
Definition good (r : pb_reader) : Prop :=
  (rd_offset r <= length (rd_data r))%nat /\ bytes_ok (rd_data r) /\ fits (rd_data r).
Definition rd_rest (r : pb_reader) : bytes := skipn (rd_offset r) (rd_data r).
Definition advance (r : pb_reader) (n : nat) : pb_reader := at_offset r (rd_offset r + n).

Lemma rd_rest_ok r : good r -> bytes_ok (rd_rest r).
Proof. intros (_ & H & _). apply bytes_ok_skipn, H. Qed.
Lemma rd_rest_length r : length (rd_rest r) = (length (rd_data r) - rd_offset r)%nat.
Proof. apply skipn_length. Qed.
Lemma good_advance r n : good r -> (n <= length (rd_rest r))%nat -> good (advance r n).
Proof.
  intros (H1 & H2 & H3) Hn. rewrite rd_rest_length in Hn. unfold good, advance, at_offset.
  cbn [rd_offset rd_data]. split; [lia|]. auto.
Qed.
Lemma advance_rest r n : rd_rest (advance r n) = skipn n (rd_rest r).
Proof. unfold rd_rest, advance, at_offset. cbn. rewrite skipn_skipn'. reflexivity. Qed.
Lemma advance_rest_app r a b : rd_rest r = a ++ b -> rd_rest (advance r (length a)) = b.
Proof. intros H. rewrite advance_rest, H. apply skipn_app_length. Qed.
Lemma advance_advance r n m : advance (advance r n) m = advance r (n + m).
Proof. unfold advance, at_offset. cbn. f_equal. lia. Qed.

Lemma get_range_rest r n : good r -> (n <= length (rd_rest r))%nat ->
  get_range (rd_data r) (rd_offset r) (rd_offset r + n) = Some (firstn n (rd_rest r)).
Proof.
  intros (H1 & _ & _) Hn. rewrite rd_rest_length in Hn. apply get_range_some.
  split; [lia|]. unfold rd_rest. f_equal. lia.
Qed.

Lemma rd_varint_ok r c l r' :
  good r ->
  (rd_varint r c = Ok (l, r') <->
   exists rest, rd_rest r = l ++ rest /\ well_terminated l /\ r' = advance r (length l)).
Proof.
  intros G. unfold rd_varint. fold (rd_rest r). split.
  - destruct (scan_varint (rd_rest r)) as [n|] eqn:E; [|discriminate].
    apply scan_some in E as [E1 E2]; [|apply rd_rest_ok, G].
    rewrite get_range_rest by (auto; lia). intros H. injection H as <- <-.
    exists (skipn n (rd_rest r)). rewrite firstn_skipn. split; [reflexivity|].
    split; [exact E2|]. rewrite firstn_length_le by lia. reflexivity.
  - intros (rest & E & W & ->).
    assert (Hok := rd_rest_ok r G). rewrite E in Hok |- *. apply bytes_ok_app in Hok as [Hl _].
    rewrite scan_well_terminated by assumption.
    rewrite get_range_rest; [|exact G|rewrite E, app_length; lia].
    rewrite E, firstn_app_length. reflexivity.
Qed.
Lemma rd_varint_not_panic r c : good r -> rd_varint r c <> Panic.
Proof.
  intros G. unfold rd_varint. fold (rd_rest r).
  destruct (scan_varint (rd_rest r)) as [n|] eqn:E; [|discriminate].
  apply scan_some in E as [E1 E2]; [|apply rd_rest_ok, G].
  rewrite get_range_rest by (auto; lia). discriminate.
Qed.

Lemma rd_read_ok r n c p r' :
  good r ->
  (rd_read r n c = Ok (p, r') <->
   exists rest, rd_rest r = p ++ rest /\ blen p = n /\ r' = advance r (length p)).
Proof.
  intros G. pose proof G as (H1 & H2 & H3). unfold rd_read. split.
  - destruct (N.leb_spec two64 (N.of_nat (rd_offset r) + n)) as [L|L]; [discriminate|].
    destruct (N.leb_spec (N.of_nat (rd_offset r) + n) (blen (rd_data r))) as [M|M]; [|discriminate].
    unfold blen in M.
    replace (N.to_nat (N.of_nat (rd_offset r) + n)) with (rd_offset r + N.to_nat n)%nat by lia.
    assert (B : (N.to_nat n <= length (rd_rest r))%nat) by (rewrite rd_rest_length; lia).
    rewrite get_range_rest by assumption.
    intros H. injection H as <- <-.
    exists (skipn (N.to_nat n) (rd_rest r)). rewrite firstn_skipn. split; [reflexivity|].
    unfold blen. rewrite firstn_length_le by exact B. split; [lia|reflexivity].
  - intros (rest & E & Hn & ->).
    assert (L : (length p <= length (rd_rest r))%nat) by (rewrite E, app_length; lia).
    rewrite rd_rest_length in L. unfold blen in *. subst n. unfold fits, blen in H3.
    destruct (N.leb_spec two64 (N.of_nat (rd_offset r) + N.of_nat (length p))) as [M|M]; [lia|].
    destruct (N.leb_spec (N.of_nat (rd_offset r) + N.of_nat (length p))
                (N.of_nat (length (rd_data r)))) as [M'|M']; [|lia].
    replace (N.to_nat (N.of_nat (rd_offset r) + N.of_nat (length p)))
      with (rd_offset r + length p)%nat by lia.
    rewrite get_range_rest; [|exact G|rewrite E, app_length; lia].
    rewrite E, firstn_app_length. reflexivity.
Qed.
Lemma rd_read_not_panic r n c : rd_read r n c <> Panic.
Proof.
  unfold rd_read. destruct (_ <=? _); [discriminate|]. destruct (_ <=? _); [|discriminate].
  destruct (get_range _ _ _); discriminate.
Qed.

Lemma rd_fixed_ok r n c p r' :
  good r ->
  (rd_fixed r n c = Ok (p, r') <->
   exists rest, rd_rest r = p ++ rest /\ length p = n /\ r' = advance r (length p)).
Proof.
  intros G. unfold rd_fixed. rewrite bind_ok. split.
  - intros ([p0 r0] & H1 & H2). cbn [fst] in H2.
    destruct (Nat.eqb_spec (length p0) n); [|discriminate]. injection H2 as -> ->.
    apply rd_read_ok in H1 as (rest & E & Hn & ->); [|exact G]. eauto.
  - intros (rest & E & Hn & ->). exists (p, advance r (length p)). split.
    + apply rd_read_ok; [exact G|]. exists rest. split; [exact E|].
      split; [unfold blen; congruence|reflexivity].
    + cbn [fst]. rewrite Hn, Nat.eqb_refl. reflexivity.
Qed.
Lemma rd_fixed_not_panic r n c : good r -> rd_fixed r n c <> Panic.
Proof.
  intros G. unfold rd_fixed. destruct (rd_read r (N.of_nat n) c) as [[p r']| |] eqn:E;
    cbn [bind]; try discriminate.
  - apply rd_read_ok in E as (rest & _ & Hn & _); [|exact G]. cbn [fst].
    unfold blen in Hn. replace (length p) with n by lia. rewrite Nat.eqb_refl. discriminate.
  - apply rd_read_not_panic in E. tauto.
Qed.

Lemma rest_le r l rest : rd_rest r = l ++ rest -> (length l <= length (rd_rest r))%nat.
Proof. intros ->. rewrite app_length. lia. Qed.

Lemma rest_ok_l r l rest : good r -> rd_rest r = l ++ rest -> bytes_ok l.
Proof. intros G E. pose proof (rd_rest_ok r G) as H. rewrite E in H. apply bytes_ok_app in H. tauto. Qed.

Lemma rd_length_delimited_ok r p r' :
  good r ->
  (rd_length_delimited r = Ok (p, r') <->
   exists lb rest, rd_rest r = lb ++ p ++ rest /\ is_varint lb (N.of_nat (length p)) /\
                   r' = advance r (length lb + length p)).
Proof.
  intros G. unfold rd_length_delimited. rewrite bind_ok. split.
  - intros ([lb r1] & H1 & H2). apply rd_varint_ok in H1 as (rest & E & W & ->); [|exact G].
    cbn [fst snd] in H2. rewrite bind_ok in H2. destruct H2 as (n & H2 & H3).
    unfold vi_to_usize in H2.
    destruct (decode_u64 lb) as [n'| |] eqn:D; cbn in H2; try discriminate. injection H2 as ->.
    apply is_varint_decode in D; [|eapply rest_ok_l; eauto].
    apply rd_read_ok in H3 as (rest2 & E2 & Hn & ->); [|apply good_advance; eauto using rest_le].
    exists lb, rest2. rewrite (advance_rest_app r lb rest E) in E2. subst rest.
    split; [exact E|]. unfold blen in Hn. rewrite Hn. split; [exact D|].
    apply advance_advance.
  - intros (lb & rest & E & V & ->).
    exists (lb, advance r (length lb)). split.
    + apply rd_varint_ok; [exact G|]. exists (p ++ rest). repeat split; auto. apply V.
    + cbn [fst snd]. rewrite bind_ok. exists (N.of_nat (length p)). split.
      * unfold vi_to_usize. apply is_varint_decode in V; [|eapply rest_ok_l; eauto].
        rewrite V. reflexivity.
      * apply rd_read_ok; [apply good_advance; eauto using rest_le|].
        exists rest. rewrite (advance_rest_app r lb _ E). split; [reflexivity|].
        split; [reflexivity|]. symmetry. apply advance_advance.
Qed.
Lemma map_err_not_panic {E F A} (g : E -> F) (x : outcome E A) : x <> Panic -> map_err g x <> Panic.
Proof. destruct x; cbn; congruence. Qed.
Lemma bind_not_panic {E A B} (x : outcome E A) (f : A -> outcome E B) :
  x <> Panic -> (forall a, x = Ok a -> f a <> Panic) -> bind x f <> Panic.
Proof. destruct x; cbn; intros H1 H2; [apply H2; reflexivity|discriminate|congruence]. Qed.

Lemma rd_length_delimited_not_panic r : good r -> rd_length_delimited r <> Panic.
Proof.
  intros G. unfold rd_length_delimited. apply bind_not_panic; [apply rd_varint_not_panic, G|].
  intros [lb r1] _. apply bind_not_panic; [apply map_err_not_panic, decode_not_panic|].
  intros n _. apply rd_read_not_panic.
Qed.

Lemma ok_some_inj {E A B} (a c : A) (b d : B) :
  @Ok E _ (Some (a, b)) = Ok (Some (c, d)) -> a = c /\ b = d.
Proof. intros H. injection H as -> ->. auto. Qed.

(** The field reference the reader builds. *)
Definition mk_ref (off : nat) (n : N) (d : field_data) : field_ref :=
  {| fr_offset := off; fr_tag := 8 * n + wire_type d; fr_number := n;
     fr_wire_type := wire_type d; fr_data := d |}.

Lemma wire_type_cases d :
  wire_type d = 0 \/ wire_type d = 1 \/ wire_type d = 2 \/ wire_type d = 5.
Proof. destruct d; cbn; tauto. Qed.
Lemma wire_type_lt d : wire_type d < 8.
Proof. destruct (wire_type_cases d) as [H|[H|[H|H]]]; rewrite H; lia. Qed.

Lemma shiftr3 v : N.shiftr v 3 = v / 8.
Proof. rewrite shiftr_pow. reflexivity. Qed.

Lemma rd_field_ok r fr r' :
  good r ->
  (rd_field r = Ok (Some (fr, r')) <->
   exists f n d rest, rd_rest r = f ++ rest /\ wire_field f n d /\
     fr = mk_ref (rd_offset r) n d /\ r' = advance r (length f)).
Proof.
  intros G. split.
  - unfold rd_field. destruct (Nat.leb_spec (length (rd_data r)) (rd_offset r)) as [L|L]; [discriminate|].
    rewrite bind_ok. intros ([t r1] & H1 & H2).
    apply rd_varint_ok in H1 as (rest1 & E1 & W & ->); [|exact G].
    cbn [fst snd] in H2. rewrite bind_ok in H2. destruct H2 as (tag & H2 & H3).
    unfold vi_to_u64 in H2.
    destruct (decode_u64 t) as [n'| |] eqn:D; cbn in H2; try discriminate. injection H2 as ->.
    apply is_varint_decode in D; [|eapply rest_ok_l; eauto].
    rewrite bind_ok in H3. destruct H3 as ([d r2] & H3 & H4).
    apply ok_some_inj in H4 as [<- <-].
    cbn [fst snd] in *. rewrite land_7 in H3. rewrite land_7, shiftr3.
    assert (G1 : good (advance r (length t))) by (apply good_advance; eauto using rest_le).
    assert (R1 := advance_rest_app r t rest1 E1).
    assert (Main : forall body rest2, rest1 = body ++ rest2 -> wire_type d = tag mod 8 ->
        wire_payload body d -> r2 = advance (advance r (length t)) (length body) ->
        exists f n d0 rest, rd_rest r = f ++ rest /\ wire_field f n d0 /\
          {| fr_offset := rd_offset r; fr_tag := tag; fr_number := tag / 8;
             fr_wire_type := tag mod 8; fr_data := d |} = mk_ref (rd_offset r) n d0 /\
          r2 = advance r (length f)).
    { intros body rest2 Eb Ht Hp ->. exists (t ++ body), (tag / 8), d, rest2.
      split; [rewrite E1, Eb, <- app_assoc; reflexivity|].
      assert (T : 8 * (tag / 8) + wire_type d = tag) by (rewrite Ht; lia).
      split; [exists t, body; split; [reflexivity|]; split; [rewrite T; exact D|exact Hp]|].
      split; [unfold mk_ref; rewrite T, Ht; reflexivity|].
      rewrite advance_advance, app_length. reflexivity. }
    destruct (N.eqb_spec (tag mod 8) 0) as [K0|K0].
    { rewrite bind_ok in H3. destruct H3 as ([l r3] & H3 & H5). injection H5 as <- <-.
      cbn [fst snd] in *. apply rd_varint_ok in H3 as (rest2 & E2 & W2 & ->); [|exact G1].
      eapply (Main l rest2); [congruence|cbn; congruence|cbn; auto|reflexivity]. }
    destruct (N.eqb_spec (tag mod 8) 1) as [K1|K1].
    { rewrite bind_ok in H3. destruct H3 as ([l r3] & H3 & H5). injection H5 as <- <-.
      cbn [fst snd] in *. apply rd_fixed_ok in H3 as (rest2 & E2 & W2 & ->); [|exact G1].
      eapply (Main l rest2); [congruence|cbn; congruence|cbn; auto|reflexivity]. }
    destruct (N.eqb_spec (tag mod 8) 2) as [K2|K2].
    { rewrite bind_ok in H3. destruct H3 as ([p r3] & H3 & H5). injection H5 as <- <-.
      cbn [fst snd] in *. apply rd_length_delimited_ok in H3 as (lb & rest2 & E2 & V & ->); [|exact G1].
      eapply (Main (lb ++ p) rest2); [rewrite <- app_assoc; congruence|cbn; congruence|cbn; eauto|].
      rewrite app_length. reflexivity. }
    destruct (N.eqb_spec (tag mod 8) 5) as [K5|K5].
    { rewrite bind_ok in H3. destruct H3 as ([l r3] & H3 & H5). injection H5 as <- <-.
      cbn [fst snd] in *. apply rd_fixed_ok in H3 as (rest2 & E2 & W2 & ->); [|exact G1].
      eapply (Main l rest2); [congruence|cbn; congruence|cbn; auto|reflexivity]. }
    discriminate.
  - intros (f & n & d & rest & E & (t & body & -> & V & P) & -> & ->).
    rewrite <- app_assoc in E.
    assert (G1 : good (advance r (length t))) by (apply good_advance; eauto using rest_le).
    assert (R1 := advance_rest_app r t _ E).
    unfold rd_field.
    destruct (Nat.leb_spec (length (rd_data r)) (rd_offset r)) as [L|L].
    { pose proof (rd_rest_length r) as RL. rewrite E, !app_length in RL.
      destruct V as (Wt & _). destruct t; [apply well_terminated_nil in Wt; tauto|]. cbn in RL. lia. }
    assert (H1 : rd_varint r CFieldTag = Ok (t, advance r (length t))).
    { apply rd_varint_ok; [exact G|]. exists (body ++ rest). repeat split; auto. apply V. }
    rewrite H1. cbn [bind fst snd].
    assert (D : vi_to_u64 t = Ok (8 * n + wire_type d)).
    { exact (proj2 (is_varint_decode t _ (rest_ok_l r t _ G E)) V). }
    rewrite D. cbn [bind map_err]. rewrite land_7, shiftr3.
    pose proof (wire_type_lt d) as WL.
    replace ((8 * n + wire_type d) mod 8) with (wire_type d) by lia.
    replace ((8 * n + wire_type d) / 8) with n by lia.
    rewrite app_length, <- advance_advance.
    destruct d as [l|p|p|p]; cbn [wire_type wire_payload N.eqb Pos.eqb] in *.
    + destruct P as [-> W]. replace (rd_varint (advance r (length t)) CVarInt)
        with (@Ok read_error _ (l, advance (advance r (length t)) (length l))); [reflexivity|].
      symmetry. apply rd_varint_ok; eauto.
    + destruct P as [-> W]. replace (rd_fixed (advance r (length t)) 4 CBits32)
        with (@Ok read_error _ (p, advance (advance r (length t)) (length p))); [reflexivity|].
      symmetry. apply rd_fixed_ok; eauto.
    + destruct P as [-> W]. replace (rd_fixed (advance r (length t)) 8 CBits64)
        with (@Ok read_error _ (p, advance (advance r (length t)) (length p))); [reflexivity|].
      symmetry. apply rd_fixed_ok; eauto.
    + destruct P as (lb & -> & Vl). rewrite app_length.
      replace (rd_length_delimited (advance r (length t)))
        with (@Ok read_error _ (p, advance (advance r (length t)) (length lb + length p))); [reflexivity|].
      symmetry. apply rd_length_delimited_ok; [exact G1|]. exists lb, rest.
      rewrite R1, <- app_assoc. auto.
Qed.

Lemma rd_field_none r : rd_field r = Ok None <-> (length (rd_data r) <= rd_offset r)%nat.
Proof.
  unfold rd_field. destruct (Nat.leb_spec (length (rd_data r)) (rd_offset r)) as [L|L].
  - tauto.
  - split; [|lia]. rewrite bind_ok. intros (x & _ & H). rewrite bind_ok in H.
    destruct H as (y & _ & H). rewrite bind_ok in H. destruct H as (z & _ & H). discriminate.
Qed.

Lemma rd_field_not_panic r : good r -> rd_field r <> Panic.
Proof.
  intros G. unfold rd_field. destruct (_ <=? _)%nat; [discriminate|].
  apply bind_not_panic; [apply rd_varint_not_panic, G|].
  intros [t r1] H1. apply rd_varint_ok in H1 as (rest & E & W & ->); [|exact G].
  apply bind_not_panic; [apply map_err_not_panic, decode_not_panic|].
  intros tag _. cbn [fst snd].
  assert (G1 : good (advance r (length t))) by (apply good_advance; eauto using rest_le).
  apply bind_not_panic; [|discriminate].
  destruct (_ =? 0); [apply bind_not_panic; [apply rd_varint_not_panic, G1|discriminate]|].
  destruct (_ =? 1); [apply bind_not_panic; [apply rd_fixed_not_panic, G1|discriminate]|].
  destruct (_ =? 2); [apply bind_not_panic; [apply rd_length_delimited_not_panic, G1|discriminate]|].
  destruct (_ =? 5); [apply bind_not_panic; [apply rd_fixed_not_panic, G1|discriminate]|].
  discriminate.
Qed.

(** ** Whole messages *)
Lemma wire_field_length f n d : wire_field f n d -> (1 <= length f)%nat.
Proof.
  intros (t & body & -> & (W & _) & _). rewrite app_length.
  destruct t; [apply well_terminated_nil in W; tauto|]. cbn. lia.
Qed.

Section Loop.
  Context {S : Type} (body : S -> N -> field_data -> outcome from_pb_error S).

  Lemma pb_loop_ok fuel : forall r s s',
    good r -> (length (rd_rest r) < fuel)%nat ->
    (pb_loop body fuel r s = Ok s' <->
     exists fs, wire_message (rd_rest r) fs /\ run_fields body fs s = Ok s').
  Proof.
    induction fuel as [|fuel IH]; intros r s s' G F; [lia|].
    cbn [pb_loop]. split.
    - rewrite bind_ok. intros (x & H1 & H2).
      destruct (rd_field r) as [o| |] eqn:E; cbn [map_err] in H1; try discriminate.
      injection H1 as ->. destruct x as [[fr r']|].
      + rewrite bind_ok in H2. destruct H2 as (s1 & H2 & H3).
        apply rd_field_ok in E as (f & n & d & rest & E & W & -> & ->); [|exact G].
        cbn [mk_ref fr_number fr_data] in *.
        apply IH in H3.
        * destruct H3 as (fs & M & R). rewrite (advance_rest_app r f rest E) in M.
          exists ((n, d) :: fs). rewrite E. split; [constructor; assumption|].
          cbn [run_fields]. rewrite H2. exact R.
        * apply good_advance; [exact G|]. eauto using rest_le.
        * rewrite (advance_rest_app r f rest E). rewrite E, app_length in F.
          apply wire_field_length in W. lia.
      + injection H2 as <-. apply rd_field_none in E.
        exists []. split; [|reflexivity].
        pose proof (rd_rest_length r) as RL. replace (rd_rest r) with (@nil N); [constructor|].
        symmetry. apply length_zero_iff_nil. lia.
    - intros (fs & M & R). inversion M as [E|f n d rest fs' W M' E]; subst.
      + injection R as <-. replace (rd_field r) with (@Ok read_error (option (field_ref * pb_reader)) None).
        * reflexivity.
        * symmetry. apply rd_field_none. pose proof (rd_rest_length r) as RL.
          rewrite <- E in RL. cbn in RL. lia.
      + symmetry in E. assert (RF : rd_field r = Ok (Some (mk_ref (rd_offset r) n d, advance r (length f)))).
        { apply rd_field_ok; [exact G|]. exists f, n, d, rest. auto. }
        rewrite RF. cbn [map_err bind mk_ref fr_number fr_data].
        cbn [run_fields] in R. rewrite bind_ok in R |- *. destruct R as (s1 & R1 & R2).
        exists s1. split; [exact R1|]. apply IH.
        * apply good_advance; [exact G|]. eauto using rest_le.
        * rewrite (advance_rest_app r f rest E). rewrite E, app_length in F.
          apply wire_field_length in W. lia.
        * exists fs'. rewrite (advance_rest_app r f rest E). auto.
  Qed.

  (** On a well-formed message the loop is exactly [run_fields] (errors included). *)
  Lemma pb_loop_message fuel : forall r s fs,
    good r -> (length (rd_rest r) < fuel)%nat -> wire_message (rd_rest r) fs ->
    pb_loop body fuel r s = run_fields body fs s.
  Proof.
    induction fuel as [|fuel IH]; intros r s fs G F M; [lia|].
    cbn [pb_loop]. inversion M as [E|f n d rest fs' W M' E]; subst.
    - replace (rd_field r) with (@Ok read_error (option (field_ref * pb_reader)) None).
      + reflexivity.
      + symmetry. apply rd_field_none. pose proof (rd_rest_length r) as RL.
        rewrite <- E in RL. cbn in RL. lia.
    - symmetry in E. assert (RF : rd_field r = Ok (Some (mk_ref (rd_offset r) n d, advance r (length f)))).
      { apply rd_field_ok; [exact G|]. exists f, n, d, rest. auto. }
      rewrite RF. cbn [map_err bind mk_ref fr_number fr_data run_fields].
      destruct (body s n d) as [s1| |]; cbn [bind]; auto. apply IH.
      + apply good_advance; [exact G|]. eauto using rest_le.
      + rewrite (advance_rest_app r f rest E). rewrite E, app_length in F.
        apply wire_field_length in W. lia.
      + rewrite (advance_rest_app r f rest E). exact M'.
  Qed.

  Lemma pb_loop_not_panic fuel : forall r s,
    (forall s n d, body s n d <> Panic) -> good r -> pb_loop body fuel r s <> Panic.
  Proof.
    induction fuel as [|fuel IH]; intros r s B G; [discriminate|].
    cbn [pb_loop]. apply bind_not_panic; [apply map_err_not_panic, rd_field_not_panic, G|].
    intros [[fr r']|] H; [|discriminate].
    apply bind_not_panic; [apply B|]. intros s' _.
    destruct (rd_field r) as [o| |] eqn:E; cbn [map_err] in H; try discriminate.
    injection H as ->. apply rd_field_ok in E as (f & n & d & rest & E & W & -> & ->); [|exact G].
    apply IH; [exact B|]. apply good_advance; [exact G|]. eauto using rest_le.
  Qed.

  (** Fuel: the loop never runs out. *)
  Lemma pb_loop_fuel fuel : forall r s,
    (forall s n d, body s n d <> Err POutOfFuel) ->
    good r -> (length (rd_rest r) < fuel)%nat -> pb_loop body fuel r s <> Err POutOfFuel.
  Proof.
    induction fuel as [|fuel IH]; intros r s B G F; [lia|].
    cbn [pb_loop]. destruct (rd_field r) as [[[fr r']|]| |] eqn:E; cbn [map_err bind]; try discriminate.
    destruct (body s (fr_number fr) (fr_data fr)) as [s'|e|] eqn:Eb; cbn [bind]; try discriminate.
    - apply rd_field_ok in E as (f & n & d & rest & E & W & -> & ->); [|exact G].
      apply IH; [exact B| |].
      + apply good_advance; [exact G|]. eauto using rest_le.
      + rewrite (advance_rest_app r f rest E). rewrite E, app_length in F.
        apply wire_field_length in W. lia.
    - intros K. apply (B s (fr_number fr) (fr_data fr)). congruence.
  Qed.

  Lemma reader_new_good data : bytes_ok data -> fits data -> good (reader_new data).
  Proof. intros H1 H2. unfold good, reader_new. cbn. split; [lia|auto]. Qed.

  Lemma pb_parse_ok data s s' :
    bytes_ok data -> fits data ->
    (pb_parse body data s = Ok s' <->
     exists fs, wire_message data fs /\ run_fields body fs s = Ok s').
  Proof.
    intros H1 H2. unfold pb_parse. rewrite pb_loop_ok.
    - reflexivity.
    - apply reader_new_good; assumption.
    - unfold rd_rest, reader_new. cbn. lia.
  Qed.
  Lemma pb_parse_message data s fs :
    bytes_ok data -> fits data -> wire_message data fs ->
    pb_parse body data s = run_fields body fs s.
  Proof.
    intros H1 H2 M. unfold pb_parse. apply pb_loop_message; [| |exact M].
    - apply reader_new_good; assumption.
    - unfold rd_rest, reader_new. cbn. lia.
  Qed.
  Lemma pb_parse_not_panic data s :
    (forall s n d, body s n d <> Panic) -> bytes_ok data -> fits data ->
    pb_parse body data s <> Panic.
  Proof. intros. apply pb_loop_not_panic; [assumption|]. apply reader_new_good; assumption. Qed.
  Lemma pb_parse_fuel data s :
    (forall s n d, body s n d <> Err POutOfFuel) -> bytes_ok data -> fits data ->
    pb_parse body data s <> Err POutOfFuel.
  Proof.
    intros. apply pb_loop_fuel; [assumption| |].
    - apply reader_new_good; assumption.
    - unfold rd_rest, reader_new. cbn. lia.
  Qed.
End Loop.

Lemma wire_message_app a fa b fb :
  wire_message a fa -> wire_message b fb -> wire_message (a ++ b) (fa ++ fb).
Proof.
  intros Ha Hb. induction Ha; cbn [app]; [exact Hb|].
  rewrite <- app_assoc. constructor; assumption.
Qed.
Lemma run_fields_app {S} (body : S -> N -> field_data -> outcome from_pb_error S) fa fb s :
  run_fields body (fa ++ fb) s = bind (run_fields body fa s) (run_fields body fb).
Proof.
  revert s; induction fa as [|[n d] fa IH]; intros s; cbn [app run_fields bind]; [reflexivity|].
  destruct (body s n d) as [s1| |]; cbn [bind]; auto.
Qed.

(** ** Determinism of the grammar *)
Definition collect (s : list (N * field_data)) (n : N) (d : field_data)
  : outcome from_pb_error (list (N * field_data)) := Ok (s ++ [(n, d)]).
Lemma run_collect fs s : run_fields collect fs s = Ok (s ++ fs).
Proof.
  revert s; induction fs as [|[n d] fs IH]; intros s; cbn [run_fields collect bind].
  - rewrite app_nil_r. reflexivity.
  - rewrite IH, <- app_assoc. reflexivity.
Qed.
Lemma parse_collect data fs :
  bytes_ok data -> fits data ->
  (pb_parse collect data [] = Ok fs <-> wire_message data fs).
Proof.
  intros H1 H2. rewrite pb_parse_ok by assumption. split.
  - intros (fs' & M & R). rewrite run_collect in R. injection R as <-. exact M.
  - intros M. exists fs. rewrite run_collect. auto.
Qed.
Lemma wire_message_unique data fs fs' :
  bytes_ok data -> fits data -> wire_message data fs -> wire_message data fs' -> fs = fs'.
Proof.
  intros H1 H2 A B. apply parse_collect in A; auto. apply parse_collect in B; auto. congruence.
Qed.

(** Splitting a message after a known prefix of fields. *)
Lemma wire_field_prefix f n d rest fs :
  bytes_ok (f ++ rest) -> fits (f ++ rest) -> wire_field f n d -> wire_message (f ++ rest) fs ->
  exists fs', fs = (n, d) :: fs' /\ wire_message rest fs'.
Proof.
  intros H1 H2 W M.
  assert (G : good (reader_new (f ++ rest))) by (apply reader_new_good; assumption).
  assert (E : rd_rest (reader_new (f ++ rest)) = f ++ rest) by reflexivity.
  assert (R : rd_field (reader_new (f ++ rest)) = Ok (Some (mk_ref 0 n d, advance (reader_new (f ++ rest)) (length f)))).
  { apply rd_field_ok; [exact G|]. exists f, n, d, rest. auto. }
  inversion M as [E0|f' n' d' rest' fs' W' M' E']; subst.
  - symmetry in E0. apply app_eq_nil in E0 as [-> _]. apply wire_field_length in W. cbn in W. lia.
  - assert (R' : rd_field (reader_new (f ++ rest)) = Ok (Some (mk_ref 0 n' d', advance (reader_new (f ++ rest)) (length f')))).
    { apply rd_field_ok; [exact G|]. exists f', n', d', rest'. rewrite E. auto. }
    rewrite R in R'. injection R' as R1 R2 R3.
    assert (L : length f = length f') by (unfold advance, at_offset in R3; cbn in R3; congruence).
    subst n' d'.
    exists fs'. split; [reflexivity|].
    assert (rest = rest').
    { rewrite <- (skipn_app_length f rest), <- (skipn_app_length f' rest'), L. f_equal. congruence. }
    subst. exact M'.
Qed.
Lemma wire_message_prefix a fa b fs :
  bytes_ok (a ++ b) -> fits (a ++ b) -> wire_message a fa -> wire_message (a ++ b) fs ->
  exists fb, fs = fa ++ fb /\ wire_message b fb.
Proof.
  intros H1 H2 Ma. revert fs H1 H2. induction Ma as [|f n d rest fa W Ma IH]; intros fs H1 H2 M.
  - exists fs. auto.
  - rewrite <- app_assoc in *. destruct (wire_field_prefix f n d _ _ H1 H2 W M) as (fs' & -> & M').
    apply bytes_ok_app in H1 as [_ H1].
    assert (F : fits (rest ++ b)).
    { unfold fits in *. rewrite blen_app in H2. lia. }
    destruct (IH fs' H1 F M') as (fb & -> & Mb). exists fb. auto.
Qed.

(** Unknown fields: a body that skips field [n] yields the same result with the
    field inserted. *)
Lemma insert_unknown {S} (body : S -> N -> field_data -> outcome from_pb_error S) a fa f n d b s s' :
  (forall s d, body s n d = Ok s) ->
  bytes_ok (a ++ f ++ b) -> fits (a ++ f ++ b) -> wire_message a fa -> wire_field f n d ->
  (pb_parse body (a ++ f ++ b) s = Ok s' <-> pb_parse body (a ++ b) s = Ok s').
Proof.
  intros B H1 H2 Ma W.
  assert (H1' : bytes_ok (a ++ b)) by (rewrite !bytes_ok_app in *; tauto).
  assert (H2' : fits (a ++ b)) by (unfold fits in *; rewrite !blen_app in *; lia).
  rewrite !pb_parse_ok by assumption. split.
  - intros (fs & M & R). destruct (wire_message_prefix a fa _ fs H1 H2 Ma M) as (fb & -> & Mb).
    assert (H1b : bytes_ok (f ++ b)) by (rewrite !bytes_ok_app in *; tauto).
    assert (H2b : fits (f ++ b)) by (unfold fits in *; rewrite !blen_app in *; lia).
    destruct (wire_field_prefix f n d b fb H1b H2b W Mb) as (fb' & -> & Mb').
    exists (fa ++ fb'). split; [apply wire_message_app; assumption|].
    rewrite run_fields_app in R |- *. destruct (run_fields body fa s) as [s1| |]; cbn [bind] in *; auto.
    cbn [run_fields] in R. rewrite B in R. exact R.
  - intros (fs & M & R). destruct (wire_message_prefix a fa _ fs H1' H2' Ma M) as (fb & -> & Mb).
    exists (fa ++ (n, d) :: fb). split.
    + apply wire_message_app; [assumption|]. constructor; assumption.
    + rewrite run_fields_app in R |- *. destruct (run_fields body fa s) as [s1| |]; cbn [bind] in *; auto.
      cbn [run_fields]. rewrite B. exact R.
Qed.

(** ** The writer *)
Lemma put_tag_eq w n ty : n < two32 -> ty < 8 ->
  put_tag w n ty = w ++ encode_u64 (8 * n + ty).
Proof.
  intros Hn Ht. unfold put_tag. f_equal. f_equal.
  rewrite N.mod_small.
  - rewrite N.lor_comm, lor_disjoint by exact Ht. change (2 ^ 3) with 8. lia.
  - rewrite N.shiftl_mul_pow2. change (2 ^ 3) with 8. unfold two32, two64 in *. lia.
Qed.
Lemma is_varint_tag n ty : n < two32 -> ty < 8 -> is_varint (encode_u64 (8 * n + ty)) (8 * n + ty).
Proof. intros. apply is_varint_encode. unfold u64_ok, two32, two64 in *. lia. Qed.

Lemma tag_assert_ok ty : ty <= 3 -> tag_assert ty = true.
Proof.
  intros H. assert (ty = 0 \/ ty = 1 \/ ty = 2 \/ ty = 3) as [->|[->|[->| ->]]] by lia; reflexivity.
Qed.

Definition f_uint64 (n v : N) : bytes := encode_u64 (8 * n) ++ encode_u64 v.
Definition f_bytes (n : N) (b : bytes) : bytes :=
  encode_u64 (8 * n + 2) ++ encode_u64 (blen b) ++ b.

Lemma write_uint64_eq w n v : n < two32 -> write_uint64 w n v = w ++ f_uint64 n v.
Proof.
  intros H. unfold write_uint64, f_uint64, VARINT_TYPE. rewrite put_tag_eq by (auto; lia).
  rewrite N.add_0_r, app_assoc. reflexivity.
Qed.
Lemma write_bytes_eq w n b : n < two32 -> write_bytes w n b = w ++ f_bytes n b.
Proof.
  intros H. unfold write_bytes, f_bytes, LENGTH_TYPE, encode_usize. rewrite put_tag_eq by (auto; lia).
  rewrite <- app_assoc. reflexivity.
Qed.
Lemma f_uint64_wire n v : n < two32 -> u64_ok v -> wire_field (f_uint64 n v) n (FVarInt (encode_u64 v)).
Proof.
  intros Hn Hv. exists (encode_u64 (8 * n)), (encode_u64 v). split; [reflexivity|].
  cbn [wire_type wire_payload]. rewrite N.add_0_r. split.
  - pose proof (is_varint_tag n 0 Hn ltac:(lia)) as T. rewrite N.add_0_r in T. exact T.
  - split; [reflexivity|apply encode_well_terminated].
Qed.
Lemma f_bytes_wire n b : n < two32 -> fits b -> wire_field (f_bytes n b) n (FBytes b).
Proof.
  intros Hn Hb. eexists _, _. split; [reflexivity|]. cbn [wire_type wire_payload]. split.
  - apply is_varint_tag; [exact Hn|lia].
  - exists (encode_u64 (blen b)). split; [reflexivity|]. apply is_varint_encode, Hb.
Qed.
Lemma f_uint64_ok n v : bytes_ok (f_uint64 n v).
Proof. apply bytes_ok_app. split; apply encode_bytes_ok. Qed.
Lemma f_bytes_ok n b : bytes_ok b -> bytes_ok (f_bytes n b).
Proof. intros H. unfold f_bytes. rewrite !bytes_ok_app. split; [apply encode_bytes_ok|]. split; [apply encode_bytes_ok|exact H]. Qed.
Lemma f_bytes_fits n b : fits (f_bytes n b) -> fits b.
Proof. unfold f_bytes, fits. rewrite !blen_app. lia. Qed.

(** ** Accessors *)
Lemma fd_uint64 v : u64_ok v -> fd_to_uint64 (FVarInt (encode_u64 v)) = Ok v.
Proof. intros H. cbn [fd_to_uint64]. unfold vi_to_u64. rewrite decode_encode by exact H. reflexivity. Qed.
Lemma fd_uint32 v : u32_ok v -> fd_to_uint32 (FVarInt (encode_u64 v)) = Ok v.
Proof.
  intros H. cbn [fd_to_uint32]. unfold vi_to_u32. unfold u32_ok, two32 in H.
  rewrite decode_encode by (unfold u64_ok, two64; lia). cbn [bind].
  destruct (N.ltb_spec 4294967295 v); [lia|reflexivity].
Qed.
Lemma fd_bool (b : bool) : fd_to_bool (FVarInt (encode_u64 (if b then 1 else 0))) = Ok b.
Proof. destruct b; reflexivity. Qed.
Lemma int_as_u64_ok z : u64_ok (int_as_u64 z).
Proof. unfold u64_ok, two64, int_as_u64. lia. Qed.
Lemma fd_int64 z : i64_ok z -> fd_to_int64 (FVarInt (encode_u64 (int_as_u64 z))) = Ok z.
Proof.
  intros H. cbn [fd_to_int64]. unfold vi_to_i64. rewrite decode_encode by apply int_as_u64_ok.
  cbn [bind map_err]. f_equal. unfold i64_ok in H. unfold u64_as_i64, int_as_u64, two63.
  destruct (N.ltb_spec (Z.to_N (z mod 18446744073709551616)) 9223372036854775808); lia.
Qed.
Lemma fd_int32 z : i32_ok z -> fd_to_int32 (FVarInt (encode_u64 (int_as_u64 z))) = Ok z.
Proof.
  intros H. cbn [fd_to_int32]. unfold vi_to_i32. rewrite decode_encode by apply int_as_u64_ok.
  cbn [bind map_err]. f_equal. unfold i32_ok in H. unfold u64_as_i32, int_as_u64, two32.
  destruct (N.ltb_spec (Z.to_N (z mod 18446744073709551616) mod 4294967296) 2147483648); lia.
Qed.

Lemma zigzag_step z k :
  (- k <= z < k)%Z ->
  let v := zigzag z in
  (Z.of_N v < 2 * k)%Z /\
  Z.lxor (Z.of_N (N.shiftr v 1)) (- Z.of_N (N.land v 1))%Z = z.
Proof.
  intros H v. subst v. unfold zigzag. rewrite land_1, shiftr_pow. change (2 ^ 1) with 2.
  destruct (Z.ltb_spec z 0) as [L|L].
  - split; [lia|].
    replace (Z.to_N (- 2 * z - 1) mod 2) with 1 by lia.
    replace (Z.of_N (Z.to_N (- 2 * z - 1) / 2)) with (- z - 1)%Z by lia.
    cbn [Z.of_N Z.opp]. rewrite Z.lxor_m1_r. unfold Z.lnot. lia.
  - split; [lia|].
    replace (Z.to_N (2 * z) mod 2) with 0 by lia.
    replace (Z.of_N (Z.to_N (2 * z) / 2)) with z by lia.
    cbn [Z.of_N Z.opp]. apply Z.lxor_0_r.
Qed.
Lemma fd_sint64 z : i64_ok z -> fd_to_sint64 (FVarInt (encode_u64 (zigzag z))) = Ok z.
Proof.
  intros H. unfold i64_ok in H.
  destruct (zigzag_step z 9223372036854775808 H) as [B E].
  cbn [fd_to_sint64]. unfold vi_to_i64_zigzag, vi_to_u64.
  rewrite decode_encode by (unfold u64_ok, two64; lia). cbn [bind map_err].
  f_equal. etransitivity; [|exact E]. f_equal.
  unfold u64_as_i64. rewrite shiftr_pow. change (2 ^ 1) with 2. unfold two63.
  destruct (N.ltb_spec (zigzag z / 2) 9223372036854775808); [reflexivity|lia].
Qed.
Lemma fd_sint32 z : i32_ok z -> fd_to_sint32 (FVarInt (encode_u64 (zigzag z))) = Ok z.
Proof.
  intros H. unfold i32_ok in H.
  destruct (zigzag_step z 2147483648 H) as [B E].
  cbn [fd_to_sint32]. unfold vi_to_i32_zigzag, vi_to_u32.
  rewrite decode_encode by (unfold u64_ok, two64; lia). cbn [bind map_err].
  destruct (N.ltb_spec 4294967295 (zigzag z)); [lia|]. cbn [bind map_err].
  f_equal. etransitivity; [|exact E]. f_equal.
  unfold u64_as_i32. rewrite shiftr_pow. change (2 ^ 1) with 2. unfold two32.
  rewrite N.mod_small by lia.
  destruct (N.ltb_spec (zigzag z / 2) 2147483648); [reflexivity|lia].
Qed.
