(** Proofs about binary CIDs. *)
From Verif Require Import Base BaseProofs VarintModel VarintSpec VarintProofs.
From Verif Require Import ProtobufModel ProtobufSpec ProtobufProofs CidModel CidSpec.
Ltac Zify.zify_post_hook ::= Z.div_mod_to_equations.

Lemma codec_of_num c : codec_ok c -> codec_of (codec_num c) = c.
Proof.
  destruct c as [| | | |v]; try reflexivity. intros (_ & H1 & H2 & H3 & H4).
  unfold codec_of, codec_num. repeat match goal with
  | |- context [?a =? ?b] => destruct (N.eqb_spec a b); [contradiction|] end. reflexivity.
Qed.
Lemma hash_of_num c : hash_ok c -> hash_of (hash_num c) = c.
Proof.
  destruct c as [| | | |v]; try reflexivity. intros (_ & H1 & H2 & H3 & H4).
  unfold hash_of, hash_num. repeat match goal with
  | |- context [?a =? ?b] => destruct (N.eqb_spec a b); [contradiction|] end. reflexivity.
Qed.
Lemma codec_num_of v : codec_num (codec_of v) = v.
Proof.
  unfold codec_of. repeat match goal with
  | |- context [?a =? ?b] => destruct (N.eqb_spec a b); [subst; reflexivity|] end. reflexivity.
Qed.
Lemma hash_num_of v : hash_num (hash_of v) = v.
Proof.
  unfold hash_of. repeat match goal with
  | |- context [?a =? ?b] => destruct (N.eqb_spec a b); [subst; reflexivity|] end. reflexivity.
Qed.
Lemma codec_of_ok v : v < 2 ^ 64 -> codec_ok (codec_of v).
Proof.
  intros H. unfold codec_of. repeat match goal with
  | |- context [?a =? ?b] => destruct (N.eqb_spec a b); [exact I|] end. cbn. auto.
Qed.
Lemma hash_of_ok v : v < 2 ^ 64 -> hash_ok (hash_of v).
Proof.
  intros H. unfold hash_of. repeat match goal with
  | |- context [?a =? ?b] => destruct (N.eqb_spec a b); [exact I|] end. cbn. auto.
Qed.
Lemma codec_num_lt c : codec_ok c -> u64_ok (codec_num c).
Proof. destruct c; cbn; try reflexivity. intros [H _]; exact H. Qed.
Lemma hash_num_lt c : hash_ok c -> u64_ok (hash_num c).
Proof. destruct c; cbn; try reflexivity. intros [H _]; exact H. Qed.

Lemma cid_varint_ok pre suf e v o :
  bytes_ok (pre ++ suf) ->
  (cid_varint (pre ++ suf) (length pre) e = Ok (v, o) <->
   exists l rest, suf = l ++ rest /\ is_varint l v /\ o = (length pre + length l)%nat).
Proof.
  intros Hok. apply bytes_ok_app in Hok as [Hp Hs].
  unfold cid_varint, read_from. rewrite skipn_app_length. split.
  - destruct (scan_varint suf) as [n|] eqn:E; [|discriminate].
    apply scan_some in E as [E1 E2]; [|exact Hs].
    assert (G : get_range (pre ++ suf) (length pre) (length pre + n) = Some (firstn n suf)).
    { apply get_range_some. rewrite app_length, skipn_app_length. split; [lia|]. f_equal. lia. }
    rewrite G. rewrite bind_ok. intros (n' & H1 & H2). injection H2 as <- <-.
    destruct (decode_u64 (firstn n suf)) as [w| |] eqn:D; cbn [map_err] in H1; try discriminate.
    injection H1 as ->. apply is_varint_decode in D; [|apply bytes_ok_firstn, Hs].
    exists (firstn n suf), (skipn n suf). rewrite firstn_skipn. split; [reflexivity|].
    split; [exact D|]. rewrite firstn_length_le by lia. reflexivity.
  - intros (l & rest & -> & V & ->). apply bytes_ok_app in Hs as [Hl Hr].
    rewrite scan_well_terminated; [|exact Hl|apply V].
    rewrite get_range_app. apply is_varint_decode in V; [|exact Hl]. rewrite V. reflexivity.
Qed.
Lemma cid_varint_not_panic b o e : cid_varint b o e <> Panic.
Proof.
  unfold cid_varint. destruct (read_from b o) as [[l|] o']; [|discriminate].
  apply bind_not_panic; [apply map_err_not_panic, decode_not_panic|]. discriminate.
Qed.

Lemma cid_v0_spec b : is_cid_v0 b = true <-> exists h, b = 0x12 :: 0x20 :: h /\ length h = 32%nat.
Proof.
  unfold is_cid_v0. rewrite andb_true_iff, Nat.eqb_eq. split.
  - intros [L H]. destruct b as [|b0 [|b1 h]]; try discriminate.
    apply andb_true_iff in H as [H0 H1]. apply N.eqb_eq in H0, H1. subst.
    exists h. split; [reflexivity|]. cbn [length] in L. lia.
  - intros (h & -> & L). cbn [length]. rewrite L. auto.
Qed.

Lemma cid_from_bytes_v1_ok b c :
  bytes_ok b -> fits b ->
  (cid_from_bytes_v1 b = Ok c <-> cid_ver c = CIDv1 /\ cid_wire b c).
Proof.
  intros Hok Hf. split.
  - unfold cid_from_bytes_v1. destruct b as [|v b]; [discriminate|].
    destruct (N.eqb_spec v 1) as [->|]; cbn [negb]; [|discriminate].
    rewrite bind_ok. intros ([codec o1] & H1 & H). cbn beta iota in H.
    apply (cid_varint_ok [1] b) in H1 as (lc & r1 & -> & V1 & ->); [|exact Hok].
    rewrite bind_ok in H. destruct H as ([hash o2] & H2 & H).
    change (1 :: lc ++ r1) with (([1] ++ lc) ++ r1) in H2, Hok.
    rewrite <- app_length in H2.
    apply cid_varint_ok in H2 as (lh & r2 & -> & V2 & ->); [|exact Hok].
    rewrite bind_ok in H. destruct H as ([size o3] & H3 & H).
    change (1 :: lc ++ lh ++ r2) with (([1] ++ lc) ++ lh ++ r2) in *.
    rewrite app_assoc in H3, H, Hok, Hf. rewrite <- !app_length in H3.
    apply cid_varint_ok in H3 as (ls & r3 & -> & V3 & ->); [|exact Hok].
    rewrite app_assoc in H, Hok, Hf. rewrite <- !app_length in H.
    set (pre := ((([1] ++ lc) ++ lh) ++ ls)) in *.
    destruct (N.leb_spec two64 (N.of_nat (length pre) + size)) as [L|L]; [discriminate|].
    destruct (N.eqb_spec (N.of_nat (length pre) + size) (blen (pre ++ r3))) as [Es|]; [|discriminate].
    cbn [negb] in H. unfold blen in Es. rewrite app_length in Es.
    replace (N.to_nat (N.of_nat (length pre) + size)) with (length pre + length r3)%nat in H by lia.
    unfold index_range in H. rewrite <- (app_nil_r r3) in H at 1.
    rewrite get_range_app in H. cbn [bind] in H. injection H as <-. cbn [cid_ver].
    split; [reflexivity|]. unfold cid_wire. cbn [cid_ver cid_codec cid_hash_type cid_hash].
    exists lc, lh, ls. rewrite codec_num_of, hash_num_of.
    replace size with (N.of_nat (length r3)) in V3 by lia.
    split; [subst pre; rewrite <- !app_assoc; reflexivity|].
    repeat (split; [assumption|]). split; [apply codec_of_ok, V1|apply hash_of_ok, V2].
  - intros [Hv W]. unfold cid_wire in W. rewrite Hv in W.
    destruct W as (lc & lh & ls & -> & V1 & V2 & V3 & K1 & K2).
    unfold cid_from_bytes_v1. cbn [N.eqb Pos.eqb negb].
    assert (S1 : cid_varint (1 :: lc ++ lh ++ ls ++ cid_hash c) 1 CInvalidCodec =
                 Ok (codec_num (cid_codec c), (1 + length lc)%nat)).
    { apply (cid_varint_ok [1]); [exact Hok|]. eauto. }
    rewrite S1. cbn [bind].
    assert (S2 : cid_varint (1 :: lc ++ lh ++ ls ++ cid_hash c) (1 + length lc) CInvalidHashType =
                 Ok (hash_num (cid_hash_type c), (1 + length lc + length lh)%nat)).
    { apply (cid_varint_ok (1 :: lc)); [exact Hok|]. eauto. }
    rewrite S2. cbn [bind].
    assert (S3 : cid_varint (1 :: lc ++ lh ++ ls ++ cid_hash c) (1 + length lc + length lh) CInvalidHashSize =
                 Ok (N.of_nat (length (cid_hash c)), (1 + length lc + length lh + length ls)%nat)).
    { pose proof (cid_varint_ok (1 :: lc ++ lh) (ls ++ cid_hash c) CInvalidHashSize
        (N.of_nat (length (cid_hash c))) (1 + length lc + length lh + length ls)) as K.
      cbn [app length] in K. rewrite <- app_assoc, app_length in K.
      apply K; [exact Hok|]. exists ls, (cid_hash c). repeat split; auto; try apply V3; lia. }
    rewrite S3. cbn [bind].
    assert (BL : blen (1 :: lc ++ lh ++ ls ++ cid_hash c) =
      N.of_nat (1 + length lc + length lh + length ls) + N.of_nat (length (cid_hash c))).
    { unfold blen. cbn [length]. rewrite !app_length. lia. }
    rewrite <- BL. unfold fits in Hf.
    destruct (N.leb_spec two64 (blen (1 :: lc ++ lh ++ ls ++ cid_hash c))) as [L|L]; [lia|].
    rewrite N.eqb_refl. cbn [negb].
    assert (IR : index_range (1 :: lc ++ lh ++ ls ++ cid_hash c) (1 + length lc + length lh + length ls)
                   (N.to_nat (blen (1 :: lc ++ lh ++ ls ++ cid_hash c))) = @Ok cid_error _ (cid_hash c)).
    { unfold index_range. rewrite BL.
      set (pre := (1 :: lc) ++ lh ++ ls).
      assert (PL : length pre = (1 + length lc + length lh + length ls)%nat)
        by (subst pre; rewrite !app_length; cbn [length]; lia).
      replace (N.to_nat (N.of_nat (1 + length lc + length lh + length ls) + N.of_nat (length (cid_hash c))))
        with (length pre + length (cid_hash c))%nat by lia.
      rewrite <- PL.
      replace (1 :: lc ++ lh ++ ls ++ cid_hash c) with (pre ++ cid_hash c ++ [])
        by (subst pre; rewrite app_nil_r, <- !app_assoc; reflexivity).
      rewrite get_range_app. reflexivity. }
    rewrite IR. cbn [bind]. rewrite codec_of_num, hash_of_num by assumption.
    destruct c as [ver codec ht h]. cbn [cid_ver cid_codec cid_hash_type cid_hash] in *. subst. reflexivity.
Qed.
Lemma cid_from_bytes_v1_not_panic b : bytes_ok b -> fits b -> cid_from_bytes_v1 b <> Panic.
Proof.
  intros Hok Hf. unfold cid_from_bytes_v1. destruct b as [|v b]; [discriminate|].
  destruct (negb (v =? 1)); [discriminate|].
  apply bind_not_panic; [apply cid_varint_not_panic|]. intros [x1 o1] _.
  apply bind_not_panic; [apply cid_varint_not_panic|]. intros [x2 o2] _.
  apply bind_not_panic; [apply cid_varint_not_panic|]. intros [x3 o3] _.
  destruct (_ <=? _); [discriminate|].
  destruct (N.eqb_spec (N.of_nat o3 + x3) (blen (v :: b))) as [E|]; [|discriminate].
  cbn [negb]. unfold index_range.
  assert (G : get_range (v :: b) o3 (N.to_nat (N.of_nat o3 + x3)) =
    Some (firstn (N.to_nat (N.of_nat o3 + x3) - o3) (skipn o3 (v :: b)))).
  { apply get_range_some. unfold blen in E. split; [lia|reflexivity]. }
  rewrite G. discriminate.
Qed.

Theorem cid_from_bytes_ok b c :
  bytes_ok b -> fits b -> (cid_from_bytes b = Ok c <-> cid_wire b c).
Proof.
  intros Hok Hf. unfold cid_from_bytes. destruct (is_cid_v0 b) eqn:E.
  - apply cid_v0_spec in E as (h & -> & L).
    assert (IR : index_range (18 :: 32 :: h) 2 (length (18 :: 32 :: h)) = @Ok cid_error _ h).
    { unfold index_range. replace (18 :: 32 :: h) with ([18; 32] ++ h ++ []) by (rewrite app_nil_r; reflexivity).
      rewrite !app_length. cbn [length]. rewrite Nat.add_0_r.
      change 2%nat with (length [18; 32]) at 1. rewrite get_range_app. reflexivity. }
    rewrite IR. cbn [bind]. split.
    + intros H. injection H as <-. unfold cid_wire. cbn. auto.
    + unfold cid_wire. destruct c as [ver codec ht hh]. cbn. destruct ver.
      * intros (H & L' & -> & ->). injection H as ->. reflexivity.
      * intros (lc & lh & ls & H & _). discriminate.
  - rewrite cid_from_bytes_v1_ok by assumption. split; [tauto|].
    intros W. split; [|exact W]. unfold cid_wire in W. destruct (cid_ver c); [|reflexivity].
    destruct W as (-> & L & _).
    assert (is_cid_v0 (18 :: 32 :: cid_hash c) = true) by (apply cid_v0_spec; eauto). congruence.
Qed.
Theorem cid_from_bytes_not_panic b : bytes_ok b -> fits b -> cid_from_bytes b <> Panic.
Proof.
  intros Hok Hf. unfold cid_from_bytes. destruct (is_cid_v0 b) eqn:E.
  - apply cid_v0_spec in E as (h & -> & L). unfold index_range, get_range. cbn [length].
    rewrite L. cbn. discriminate.
  - apply cid_from_bytes_v1_not_panic; assumption.
Qed.

Lemma cid_to_bytes_ok c : cid_ok c -> bytes_ok (cid_to_bytes c).
Proof.
  intros (H & _).
  assert (V1 : bytes_ok (cid_to_bytes_v1 c)).
  { unfold cid_to_bytes_v1. rewrite !bytes_ok_app. split; [repeat constructor|].
    repeat split; auto; apply encode_bytes_ok. }
  unfold cid_to_bytes.
  destruct (cid_ver c), (cid_codec c), (cid_hash_type c), (length (cid_hash c) =? 32)%nat; auto.
  apply bytes_ok_app. split; [|exact H]. repeat constructor.
Qed.
Lemma cid_to_bytes_wire c : cid_ok c -> fits (cid_hash c) -> cid_wire (cid_to_bytes c) c.
Proof.
  intros (Hb & Hc & Hh & H0) Hf. unfold cid_to_bytes, cid_wire.
  destruct (cid_ver c).
  - destruct H0 as (E1 & E2 & E3); [reflexivity|]. rewrite E1, E2, E3. cbn. auto.
  - exists (encode_u64 (codec_num (cid_codec c))), (encode_u64 (hash_num (cid_hash_type c))),
      (encode_u64 (blen (cid_hash c))).
    split; [reflexivity|].
    split; [apply is_varint_encode, codec_num_lt, Hc|].
    split; [apply is_varint_encode, hash_num_lt, Hh|].
    split; [apply is_varint_encode, Hf|]. auto.
Qed.
Theorem cid_round_trip c :
  cid_ok c -> fits (cid_to_bytes c) -> cid_from_bytes (cid_to_bytes c) = Ok c.
Proof.
  intros H Hf. apply cid_from_bytes_ok; [apply cid_to_bytes_ok, H|exact Hf|].
  apply cid_to_bytes_wire; [exact H|].
  unfold cid_to_bytes, cid_to_bytes_v1, fits in *.
  destruct (cid_ver c), (cid_codec c), (cid_hash_type c), (length (cid_hash c) =? 32)%nat;
    rewrite ?blen_app in *; lia.
Qed.

(** The parser's results are well formed. *)
Lemma cid_wire_ok b c : bytes_ok b -> cid_wire b c -> cid_ok c.
Proof.
  intros Hb W. unfold cid_wire in W. unfold cid_ok. destruct (cid_ver c) eqn:E.
  - destruct W as (-> & L & E1 & E2). apply bytes_ok_cons in Hb as [_ Hb].
    apply bytes_ok_cons in Hb as [_ Hb]. rewrite E1, E2. repeat split; auto.
  - destruct W as (lc & lh & ls & -> & _ & _ & _ & K1 & K2).
    apply bytes_ok_cons in Hb as [_ Hb]. rewrite !bytes_ok_app in Hb.
    repeat split; try tauto; discriminate.
Qed.

Theorem cid_bytes_injective c d :
  cid_ok c -> cid_ok d -> fits (cid_to_bytes c) -> cid_to_bytes c = cid_to_bytes d -> c = d.
Proof.
  intros Hc Hd F E.
  pose proof (cid_round_trip c Hc F) as R1. rewrite E in R1, F.
  rewrite (cid_round_trip d Hd F) in R1. congruence.
Qed.

(** The prefix parser: same head as a version-1 CID (or version 0 written as byte 0). *)
Lemma cid_prefix_ok b p :
  bytes_ok b ->
  (cid_prefix_from_bytes b = Ok p <->
   exists v lc lh ls rest, b = v :: lc ++ lh ++ ls ++ rest /\
     v = (match cp_ver p with CIDv0 => 0 | CIDv1 => 1 end) /\
     is_varint lc (codec_num (cp_codec p)) /\ is_varint lh (hash_num (cp_hash_type p)) /\
     is_varint ls (cp_hash_size p) /\ codec_ok (cp_codec p) /\ hash_ok (cp_hash_type p)).
Proof.
  intros Hok. split.
  - unfold cid_prefix_from_bytes. destruct b as [|v b]; [discriminate|].
    rewrite bind_ok. intros (ver & Hver & H).
    assert (Ev : v = match ver with CIDv0 => 0 | CIDv1 => 1 end).
    { destruct (N.eqb_spec v 0); [injection Hver as <-; auto|].
      destruct (N.eqb_spec v 1); [injection Hver as <-; auto|discriminate]. }
    clear Hver.
    rewrite bind_ok in H. destruct H as ([codec o1] & H1 & H). cbn beta iota in H.
    apply (cid_varint_ok [v] b) in H1 as (lc & r1 & -> & V1 & ->); [|exact Hok].
    rewrite bind_ok in H. destruct H as ([hash o2] & H2 & H).
    change (v :: lc ++ r1) with (([v] ++ lc) ++ r1) in H2, Hok.
    rewrite <- app_length in H2.
    apply cid_varint_ok in H2 as (lh & r2 & -> & V2 & ->); [|exact Hok].
    rewrite bind_ok in H. destruct H as ([size o3] & H3 & H).
    change (v :: lc ++ lh ++ r2) with (([v] ++ lc) ++ lh ++ r2) in *.
    rewrite app_assoc in H3, Hok. rewrite <- !app_length in H3.
    apply cid_varint_ok in H3 as (ls & r3 & -> & V3 & ->); [|exact Hok].
    injection H as <-. cbn [cp_ver cp_codec cp_hash_type cp_hash_size].
    exists v, lc, lh, ls, r3. rewrite codec_num_of, hash_num_of.
    split; [reflexivity|]. split; [exact Ev|]. split; [exact V1|]. split; [exact V2|].
    split; [exact V3|]. split; [apply codec_of_ok, V1|apply hash_of_ok, V2].
  - intros (v & lc & lh & ls & rest & -> & Ev & V1 & V2 & V3 & K1 & K2).
    unfold cid_prefix_from_bytes.
    assert (S0 : (if v =? 0 then Ok CIDv0 else if v =? 1 then Ok CIDv1 else Err CUnsupportedVersion)
                 = Ok (cp_ver p)) by (destruct (cp_ver p); subst v; reflexivity).
    rewrite S0. cbn [bind].
    assert (S1 : cid_varint (v :: lc ++ lh ++ ls ++ rest) 1 CInvalidCodec =
                 Ok (codec_num (cp_codec p), (1 + length lc)%nat)).
    { apply (cid_varint_ok [v]); [exact Hok|]. eauto. }
    rewrite S1. cbn [bind].
    assert (S2 : cid_varint (v :: lc ++ lh ++ ls ++ rest) (1 + length lc) CInvalidHashType =
                 Ok (hash_num (cp_hash_type p), (1 + length lc + length lh)%nat)).
    { apply (cid_varint_ok (v :: lc)); [exact Hok|]. eauto. }
    rewrite S2. cbn [bind].
    assert (S3 : cid_varint (v :: lc ++ lh ++ ls ++ rest) (1 + length lc + length lh) CInvalidHashSize =
                 Ok (cp_hash_size p, (1 + length lc + length lh + length ls)%nat)).
    { pose proof (cid_varint_ok (v :: lc ++ lh) (ls ++ rest) CInvalidHashSize
        (cp_hash_size p) (1 + length lc + length lh + length ls)) as K.
      cbn [app length] in K. rewrite <- app_assoc, app_length in K.
      apply K; [exact Hok|]. exists ls, rest. repeat split; auto; try apply V3; lia. }
    rewrite S3. cbn [bind]. rewrite codec_of_num, hash_of_num by assumption.
    destruct p; reflexivity.
Qed.
