(** Multiaddr proofs. *)
From Verif Require Import Base BaseProofs VarintModel VarintSpec VarintProofs.
From Verif Require Import ProtobufModel ProtobufSpec ProtobufProofs IdentifyModel MessageSpec MessageProofs.
Ltac Zify.zify_post_hook ::= Z.div_mod_to_equations.

Lemma ma_parts_ok b l : bytes_ok b ->
  (ma_parts b = Some l <-> exists r, b = l ++ r /\ well_terminated l).
Proof.
  revert l; induction b as [|x b IH]; intros l Hok; cbn [ma_parts].
  - split; [discriminate|]. intros (r & H & W). symmetry in H. apply app_eq_nil in H as [-> _].
    apply well_terminated_nil in W. tauto.
  - apply bytes_ok_cons in Hok as [Hx Hb]. rewrite top_bit_clear by exact Hx.
    destruct (N.ltb_spec x 128) as [L|L].
    + split.
      * intros H. injection H as <-. exists b. split; [reflexivity|]. apply well_terminated_one, L.
      * intros (r & H & W). destruct l as [|y l]; [apply well_terminated_nil in W; tauto|].
        injection H as <- H. apply well_terminated_small in W; [|exact L]. subst. reflexivity.
    + split.
      * destruct (ma_parts b) as [k|] eqn:E; [|discriminate]. cbn. intros H. injection H as <-.
        destruct (proj1 (IH k Hb) eq_refl) as (r & -> & W). exists r. split; [reflexivity|].
        apply well_terminated_cons; assumption.
      * intros (r & H & W). destruct l as [|y l]; [apply well_terminated_nil in W; tauto|].
        injection H as <- H. apply well_terminated_cons in W; [|exact L].
        assert (E : ma_parts b = Some l) by (apply IH; eauto). rewrite E. reflexivity.
Qed.
Lemma ma_varint_ok b p o : bytes_ok b ->
  (ma_varint b = Some (p, o) <-> exists l r, b = l ++ r /\ is_varint l p /\ o = length l).
Proof.
  intros Hok. unfold ma_varint. split.
  - destruct (ma_parts b) as [l|] eqn:E; [|discriminate]. apply ma_parts_ok in E as (r & -> & W); [|exact Hok].
    destruct (decode_u64 l) as [v| |] eqn:D; try discriminate. intros H. injection H as <- <-.
    apply bytes_ok_app in Hok as [Hl _]. apply is_varint_decode in D; [|exact Hl]. eauto.
  - intros (l & r & -> & V & ->).
    assert (E : ma_parts (l ++ r) = Some l) by (apply ma_parts_ok; [exact Hok|]; exists r; split; [reflexivity|apply V]).
    rewrite E. apply bytes_ok_app in Hok as [Hl _]. apply is_varint_decode in V; [|exact Hl].
    rewrite V. reflexivity.
Qed.

Lemma be_two p : p < 65536 -> be_bytes 2 p = [p / 256; p mod 256].
Proof.
  intros H. unfold be_bytes. cbn [le_bytes rev app].
  replace (p / 256 mod 256) with (p / 256); [reflexivity|]. symmetry. apply N.mod_small. lia.
Qed.
Lemma of_be_two p : of_be_bytes [p / 256; p mod 256] = p.
Proof. unfold of_be_bytes. cbn [rev app of_le_bytes]. lia. Qed.
Lemma two_bytes x y : y < 256 ->
  [x; y] = [of_be_bytes [x; y] / 256; of_be_bytes [x; y] mod 256].
Proof.
  intros Hy. unfold of_be_bytes. cbn [rev app of_le_bytes]. rewrite N.mul_0_r, N.add_0_r.
  replace ((y + 256 * x) / 256) with x by lia. replace ((y + 256 * x) mod 256) with y by lia. reflexivity.
Qed.

Lemma addr_read_valid l code payload a rest :
  bytes_ok (l ++ payload ++ rest) -> is_varint l code -> addr_wire code payload a ->
  addr_read (l ++ payload ++ rest) = Ok (a, (length l + length payload)%nat).
Proof.
  intros Hok V W. unfold addr_read.
  assert (M : ma_varint (l ++ payload ++ rest) = Some (code, length l)) by (apply ma_varint_ok; eauto).
  rewrite M.
  assert (IR : forall n, length payload = n ->
     index_range (l ++ payload ++ rest) (length l) (length l + n) = @Ok unit _ payload).
  { intros n <-. unfold index_range. rewrite get_range_app. reflexivity. }
  assert (LE : forall n, length payload = n -> (length l + n <=? length (l ++ payload ++ rest))%nat = true).
  { intros n <-. apply Nat.leb_le. rewrite !app_length. lia. }
  destruct a as [x|x|p|p| | | ]; cbn [addr_wire] in W; try contradiction; destruct W as [-> W];
    cbn [N.eqb Pos.eqb].
  - destruct W as [-> L]. rewrite LE, IR by exact L. cbn [bind]. rewrite L. reflexivity.
  - destruct W as [-> L]. rewrite LE, IR by exact L. cbn [bind]. rewrite L. reflexivity.
  - subst payload. rewrite LE, IR by reflexivity. cbn [bind]. rewrite of_be_two. reflexivity.
  - subst payload. rewrite LE, IR by reflexivity. cbn [bind]. rewrite of_be_two. reflexivity.
  - subst payload. cbn [length]. rewrite Nat.add_0_r. reflexivity.
Qed.
Lemma split_at (b : bytes) n : (n <= length b)%nat -> exists x r, b = x ++ r /\ length x = n.
Proof.
  intros H. exists (firstn n b), (skipn n b). rewrite firstn_skipn. split; [reflexivity|].
  apply firstn_length_le, H.
Qed.
Lemma addr_read_cases b : bytes_ok b ->
  (exists l code payload a rest, b = l ++ payload ++ rest /\ is_varint l code /\ addr_wire code payload a) \/
  (addr_read b = Ok (AInvalid b, length b)).
Proof.
  intros Hok. unfold addr_read. destruct (ma_varint b) as [[p o]|] eqn:E; [|auto].
  apply ma_varint_ok in E as (l & r & -> & V & ->); [|exact Hok].
  assert (Sp : forall n, (length l + n <=? length (l ++ r))%nat = true ->
             exists x y, r = x ++ y /\ length x = n).
  { intros n H. apply Nat.leb_le in H. rewrite app_length in H. apply split_at. lia. }
  apply bytes_ok_app in Hok as [_ Hr].
  destruct (N.eqb_spec p 4) as [->|_].
  { destruct (_ <=? _)%nat eqn:L; [|auto]. apply Sp in L as (x & y & -> & L).
    left. exists l, 4, x, (AIP4 x), y. cbn. auto. }
  destruct (N.eqb_spec p 41) as [->|_].
  { destruct (_ <=? _)%nat eqn:L; [|auto]. apply Sp in L as (x & y & -> & L).
    left. exists l, 41, x, (AIP6 x), y. cbn. auto. }
  destruct (N.eqb_spec p 6) as [->|_].
  { destruct (_ <=? _)%nat eqn:L; [|auto]. apply Sp in L as (x & y & -> & L).
    left. destruct x as [|x1 [|x2 [|x3 x]]]; try discriminate.
    exists l, 6, [x1; x2], (ATCP (of_be_bytes [x1; x2])), y. split; [reflexivity|]. split; [exact V|].
    split; [reflexivity|]. apply two_bytes.
    apply bytes_ok_app in Hr as [Hr _]. apply bytes_ok_cons in Hr as [_ Hr]. apply bytes_ok_cons in Hr. tauto. }
  destruct (N.eqb_spec p 273) as [->|_].
  { destruct (_ <=? _)%nat eqn:L; [|auto]. apply Sp in L as (x & y & -> & L).
    left. destruct x as [|x1 [|x2 [|x3 x]]]; try discriminate.
    exists l, 273, [x1; x2], (AUDP (of_be_bytes [x1; x2])), y. split; [reflexivity|]. split; [exact V|].
    split; [reflexivity|]. apply two_bytes.
    apply bytes_ok_app in Hr as [Hr _]. apply bytes_ok_cons in Hr as [_ Hr]. apply bytes_ok_cons in Hr. tauto. }
  destruct (N.eqb_spec p 460) as [->|_]; [|auto].
  left. exists l, 460, [], AQUIC, r. cbn. auto.
Qed.
Lemma addr_read_invalid b : bytes_ok b -> ~ starts_with_addr b -> addr_read b = Ok (AInvalid b, length b).
Proof.
  intros Hok N. destruct (addr_read_cases b Hok) as [(l & code & payload & a & rest & E & V & W)|E]; [|exact E].
  elim N. exists l, code, payload, a, rest. auto.
Qed.
Lemma starts_decide b : bytes_ok b -> starts_with_addr b \/ ~ starts_with_addr b.
Proof.
  intros Hok. destruct (addr_read_cases b Hok) as [(l & code & payload & a & rest & E & V & W)|E].
  - left. exists l, code, payload, a, rest. auto.
  - right. intros (l & code & payload & a & rest & -> & V & W).
    rewrite (addr_read_valid l code payload a rest Hok V W) in E. injection E as -> _. exact W.
Qed.

Lemma is_varint_length l v : is_varint l v -> (1 <= length l)%nat.
Proof. intros [W _]. destruct l; [apply well_terminated_nil in W; tauto|]. cbn. lia. Qed.

Lemma index_tail (a b : bytes) : index_range (a ++ b) (length a) (length (a ++ b)) = @Ok unit _ b.
Proof.
  unfold index_range. rewrite app_length. rewrite <- (app_nil_r b) at 1. rewrite get_range_app. reflexivity.
Qed.

Lemma multiaddr_loop_wire fuel : forall b m,
  bytes_ok b -> (length b < fuel)%nat -> multiaddr_wire b m -> multiaddr_loop fuel b = Ok m.
Proof.
  induction fuel as [|fuel IH]; intros b m Hok F M; [lia|].
  cbn [multiaddr_loop]. inversion M as [|l code payload a rest m' V W M'|d Hd Hn]; subst.
  - reflexivity.
  - pose proof (is_varint_length _ _ V) as LL.
    assert (NE : exists x y, l ++ payload ++ rest = x :: y).
    { destruct l; [cbn in LL; lia|]. cbn. eauto. }
    destruct NE as (x & y & NE). rewrite NE. rewrite <- NE.
    rewrite (addr_read_valid _ _ _ _ _ Hok V W). cbn [bind].
    rewrite app_assoc, <- app_length, index_tail. cbn [bind].
    rewrite !app_length in F. rewrite !bytes_ok_app in Hok.
    rewrite (IH rest m'); [reflexivity|tauto|lia|exact M'].
  - destruct b as [|x y]; [congruence|]. rewrite addr_read_invalid by assumption. cbn [bind].
    rewrite <- (app_nil_r (x :: y)) at 1. rewrite <- (app_nil_r (x :: y)) at 3.
    rewrite index_tail. cbn [bind]. destruct fuel; [cbn in F; lia|]. reflexivity.
Qed.
Lemma multiaddr_wire_exists b : bytes_ok b -> exists m, multiaddr_wire b m.
Proof.
  remember (length b) as n eqn:E. revert b E. induction n as [n IH] using lt_wf_ind. intros b -> Hok.
  destruct b as [|x y]; [exists []; constructor|].
  destruct (starts_decide (x :: y) Hok) as [(l & code & payload & a & rest & E & V & W)|N].
  - pose proof (is_varint_length _ _ V) as LL. rewrite E in Hok. rewrite !bytes_ok_app in Hok.
    destruct (IH (length rest)) with (b := rest) as (m & M); [|reflexivity|tauto|].
    + rewrite E, !app_length. lia.
    + exists (a :: m). rewrite E. econstructor; eauto.
  - exists [AInvalid (x :: y)]. constructor; [discriminate|exact N].
Qed.
Theorem multiaddr_from_bytes_ok b m : bytes_ok b ->
  (multiaddr_from_bytes b = Ok m <-> multiaddr_wire b m).
Proof.
  intros Hok. assert (W : forall m, multiaddr_wire b m -> multiaddr_from_bytes b = Ok m).
  { intros m' M. apply multiaddr_loop_wire; auto. }
  split; [|apply W]. intros H. destruct (multiaddr_wire_exists b Hok) as (m' & M).
  rewrite (W m' M) in H. injection H as <-. exact M.
Qed.
Theorem multiaddr_total b : bytes_ok b -> exists m, multiaddr_from_bytes b = Ok m.
Proof.
  intros Hok. destruct (multiaddr_wire_exists b Hok) as (m & M). exists m. apply multiaddr_from_bytes_ok; assumption.
Qed.

(** ** Serialising *)
Lemma addr_encode_wire a : addr_ok a ->
  exists code payload, addr_encode a = encode_u64 code ++ payload /\ u64_ok code /\
    addr_wire code payload a /\ bytes_ok payload.
Proof.
  destruct a as [x|x|p|p| | | ]; cbn [addr_ok]; try contradiction.
  - intros [Hb L]. exists 4, x. cbn. repeat split; auto.
  - intros [Hb L]. exists 41, x. cbn. repeat split; auto.
  - change (2 ^ 16) with 65536. intros H. exists 6, (be_bytes 2 p). split; [reflexivity|].
    split; [reflexivity|]. split; [|apply be_bytes_ok]. cbn [addr_wire]. rewrite be_two by exact H. auto.
  - change (2 ^ 16) with 65536. intros H. exists 273, (be_bytes 2 p). split; [reflexivity|].
    split; [reflexivity|]. split; [|apply be_bytes_ok]. cbn [addr_wire]. rewrite be_two by exact H. auto.
  - intros _. exists 460, []. cbn. repeat split. constructor.
Qed.
Lemma multiaddr_encode_ok m : Forall addr_ok m -> bytes_ok (multiaddr_to_bytes m).
Proof.
  unfold multiaddr_to_bytes. induction 1 as [|a m H _ IH]; cbn [map concat]; [constructor|].
  destruct (addr_encode_wire a H) as (code & payload & E & _ & _ & Hp). rewrite E, !bytes_ok_app.
  split; [split; [apply encode_bytes_ok|exact Hp]|exact IH].
Qed.
Lemma multiaddr_encode_wire m : Forall addr_ok m -> multiaddr_wire (multiaddr_to_bytes m) m.
Proof.
  unfold multiaddr_to_bytes. induction 1 as [|a m H _ IH]; cbn [map concat]; [constructor|].
  destruct (addr_encode_wire a H) as (code & payload & E & Hc & W & _). rewrite E, <- app_assoc.
  apply (mw_cons _ code); auto. apply is_varint_encode, Hc.
Qed.
Theorem multiaddr_round_trip m : Forall addr_ok m -> multiaddr_from_bytes (multiaddr_to_bytes m) = Ok m.
Proof.
  intros H. apply multiaddr_from_bytes_ok; [apply multiaddr_encode_ok, H|apply multiaddr_encode_wire, H].
Qed.

(** Well-formed addresses followed by a tail that cannot be an address. *)
Lemma addr_wire_ok code payload a : bytes_ok payload -> addr_wire code payload a ->
  addr_ok a /\ addr_encode a = encode_u64 code ++ payload.
Proof.
  intros Hb. destruct a as [x|x|p|p| | | ]; cbn [addr_wire addr_ok addr_encode]; try contradiction.
  - intros (-> & -> & L). auto.
  - intros (-> & -> & L). auto.
  - intros (-> & ->). apply bytes_ok_cons in Hb as [Hb _]. change (2 ^ 16) with 65536.
    assert (HP : p < 65536) by lia. split; [exact HP|]. f_equal. exact (be_two p HP).
  - intros (-> & ->). apply bytes_ok_cons in Hb as [Hb _]. change (2 ^ 16) with 65536.
    assert (HP : p < 65536) by lia. split; [exact HP|]. f_equal. exact (be_two p HP).
  - intros (-> & ->). rewrite app_nil_r. auto.
Qed.
(** Re-serialising what was parsed gives something that parses the same. *)
Lemma reserialise_wire b m : bytes_ok b -> multiaddr_wire b m ->
  multiaddr_wire (multiaddr_to_bytes m) m /\ bytes_ok (multiaddr_to_bytes m) /\
  (length (multiaddr_to_bytes m) <= length b)%nat.
Proof.
  intros Hok M. induction M as [|l code payload a rest m V W M IH|d Hd Hn]; unfold multiaddr_to_bytes; cbn [map concat].
  - repeat split; [constructor|constructor|lia].
  - rewrite !bytes_ok_app in Hok. destruct Hok as (Hl & Hp & Hr). destruct (IH Hr) as (IH1 & IH2 & IH3).
    destruct (addr_wire_ok code payload a Hp W) as [_ E]. rewrite E, <- app_assoc.
    split; [|split].
    + apply (mw_cons _ code); auto. apply is_varint_encode, V.
    + rewrite !bytes_ok_app. split; [apply encode_bytes_ok|]. auto.
    + unfold multiaddr_to_bytes in IH3. rewrite !app_length.
      assert (length (encode_u64 code) <= length l)%nat; [|lia].
      destruct V as (Wt & _ & Ev & _). apply encode_minimal; assumption.
  - rewrite app_nil_r. cbn [addr_encode]. repeat split; [constructor; assumption|exact Hok|lia].
Qed.
Theorem multiaddr_stable b m : bytes_ok b -> multiaddr_from_bytes b = Ok m ->
  multiaddr_from_bytes (multiaddr_to_bytes m) = Ok m.
Proof.
  intros Hok H. apply multiaddr_from_bytes_ok in H; [|exact Hok].
  destruct (reserialise_wire b m Hok H) as (W & Hb & _). apply multiaddr_from_bytes_ok; assumption.
Qed.

Lemma varint_same_length l : forall l', bytes_ok l -> bytes_ok l' -> well_terminated l -> well_terminated l' ->
  length l = length l' -> base128_value l = base128_value l' -> l = l'.
Proof.
  induction l as [|b l IH]; intros [|c l'] H1 H2 W1 W2 L E; try discriminate; [reflexivity|].
  apply bytes_ok_cons in H1 as [Hb H1]. apply bytes_ok_cons in H2 as [Hc H2].
  cbn [length] in L. injection L as L. cbn [base128_value] in E.
  destruct (N.ltb_spec b 128) as [B|B].
  - apply well_terminated_small in W1; [|exact B]. subst l. destruct l'; [|discriminate].
    destruct (N.ltb_spec c 128) as [C|C].
    + cbn in E. f_equal. lia.
    + apply well_terminated_cons, well_terminated_nil in W2; [contradiction|exact C].
  - apply well_terminated_cons in W1; [|exact B].
    destruct (N.ltb_spec c 128) as [C|C].
    + apply well_terminated_small in W2; [|exact C]. subst l'. destruct l; [|discriminate].
      apply well_terminated_nil in W1. contradiction.
    + apply well_terminated_cons in W2; [|exact C].
      assert (V : base128_value l = base128_value l') by lia. f_equal; [lia|]. apply IH; assumption.
Qed.
Lemma minimal_is_encode l v : bytes_ok l -> minimal_varint l v -> l = encode_u64 v.
Proof.
  intros Hb [V M]. assert (Hv : u64_ok v) by apply V.
  pose proof (is_varint_encode v Hv) as VE.
  apply varint_same_length; [exact Hb|apply encode_bytes_ok|apply V|apply VE| |].
  - apply Nat.le_antisymm; [apply M; [apply encode_bytes_ok|exact VE]|].
    apply encode_minimal; [exact Hb|apply V|apply V].
  - destruct V as (_ & _ & -> & _). destruct VE as (_ & _ & -> & _). reflexivity.
Qed.
Theorem multiaddr_reserialise b m : bytes_ok b -> multiaddr_minimal b ->
  multiaddr_from_bytes b = Ok m -> multiaddr_to_bytes m = b.
Proof.
  intros Hok M H. apply multiaddr_from_bytes_ok in H; [|exact Hok].
  assert (X : exists m', multiaddr_wire b m' /\ multiaddr_to_bytes m' = b).
  { clear m H. induction M as [|l code payload a rest V W M IH|d Hd Hn].
    - exists []. split; [constructor|reflexivity].
    - rewrite !bytes_ok_app in Hok. destruct Hok as (Hl & Hp & Hr). destruct (IH Hr) as (m' & M' & E).
      exists (a :: m'). split; [econstructor; [apply V|exact W|exact M']|].
      unfold multiaddr_to_bytes in *. cbn [map concat]. rewrite E.
      rewrite (proj2 (addr_wire_ok _ _ _ Hp W)), (minimal_is_encode l code Hl V), <- app_assoc. reflexivity.
    - exists [AInvalid d]. split; [constructor; assumption|]. unfold multiaddr_to_bytes. cbn. apply app_nil_r. }
  destruct X as (m' & W & E).
  apply multiaddr_from_bytes_ok in W; [|exact Hok]. apply multiaddr_from_bytes_ok in H; [|exact Hok].
  congruence.
Qed.
