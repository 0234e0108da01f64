(** C24-C27: content identifiers. *)
From Verif Require Import BaseProofs VarintModel VarintSpec ProtobufSpec CidModel CidSpec CidProofs
  MultibaseModel MultibaseSpec MultibaseProofs4 CidTextModel CidTextSpec CidTextProofs BlockModel.
Local Open Scope string_scope. Local Open Scope list_scope. Local Open Scope N_scope.

(** C24. *)
Theorem C24_cid_bytes_round_trip : forall c : cid,
  cid_ok c -> fits (cid_to_bytes c) -> cid_from_bytes (cid_to_bytes c) = Ok c.
Proof. exact cid_round_trip. Qed.
Print Assumptions C24_cid_bytes_round_trip.
Definition digest32 : bytes := map N.of_nat (seq 200 32).
Definition v0_example : cid :=
  {| cid_ver := CIDv0; cid_codec := CDagPB; cid_hash_type := HSha2256; cid_hash := digest32 |}.
Definition v1_example : cid :=
  {| cid_ver := CIDv1; cid_codec := CUnknown 300; cid_hash_type := HBlake2b256; cid_hash := digest32 |}.
Lemma v0_example_ok : cid_ok v0_example.
Proof.
  repeat split; try (apply bytes_okb_spec; vm_compute; reflexivity).
Qed.
Lemma v1_example_ok : cid_ok v1_example.
Proof.
  split; [apply bytes_okb_spec; vm_compute; reflexivity|].
  cbn. repeat split; try discriminate.
Qed.
Example C24_case :
  cid_ok v0_example /\ cid_ok v1_example /\ length (cid_to_bytes v0_example) = 34%nat /\
  firstn 6 (cid_to_bytes v1_example) = [1; 172; 2; 160; 228; 2].
Proof.
  split; [exact v0_example_ok|]. split; [exact v1_example_ok|].
  split; vm_compute; reflexivity.
Qed.

(** C25. *)
Theorem C25_cid_text_round_trip : forall c : cid,
  cid_ok c -> fits (cid_to_string c) -> fits (cid_hash c) ->
  cid_from_string (cid_to_string c) = Ok c /\
  match cid_ver c with
  | CIDv0 => length (cid_to_string c) = 46%nat /\
             firstn 2 (cid_to_string c) = ascii_bytes "Qm" /\
             denotes Base58BTC (cid_to_string c) (cid_to_bytes c)
  | CIDv1 => cid_to_string c = ch "b" :: encode_noprefix (cid_to_bytes c) Base32
  end.
Proof.
  intros c H F Fh. split; [apply cid_from_string_ok; [exact F|apply cid_string_text; auto]|].
  pose proof (cid_text_shape c H) as S. destruct (cid_ver c) eqn:Ev.
  - destruct S as [L Q]. split; [exact L|]. split.
    + unfold starts_with_Qm in Q. destruct (cid_to_string c) as [|q [|m t]]; try discriminate.
      apply andb_true_iff in Q as [Q1 Q2]. apply N.eqb_eq in Q1, Q2. subst. reflexivity.
    + unfold cid_to_string in *. destruct (is_cid_v0 (cid_to_bytes c)) eqn:E.
      * apply encode_denotes, cid_to_bytes_ok, H.
      * exfalso. unfold encode in Q. unfold starts_with_Qm in Q.
        destruct (encode_noprefix (cid_to_bytes c) Base32); discriminate.
  - destruct S as [t E]. unfold cid_to_string in *. destruct (is_cid_v0 (cid_to_bytes c)) eqn:V.
    + exfalso. apply cid_v0_spec in V as (h & V & _). unfold cid_to_bytes in V.
      rewrite Ev in V. discriminate.
    + reflexivity.
Qed.
Print Assumptions C25_cid_text_round_trip.
Example C25_case :
  cid_to_string v0_example = ascii_bytes "QmbrSiRtDtcJAA4JmA95yuVqd82nMTszWTpbJLNZHbNhwc" /\
  cid_from_string (cid_to_string v0_example) = Ok v0_example /\
  cid_from_string (cid_to_string v1_example) = Ok v1_example.
Proof. vm_compute. auto. Qed.

(** C26. Totality, exact acceptance and unambiguity. *)
Theorem C26_cid_parse_total : forall b : bytes,
  bytes_ok b -> fits b ->
  cid_from_bytes b <> Panic /\ cid_from_string b <> Panic /\ cid_prefix_from_bytes b <> Panic.
Proof.
  intros b H F. split; [apply cid_from_bytes_not_panic; auto|].
  split; [apply cid_from_string_not_panic, F|].
  unfold cid_prefix_from_bytes. destruct b as [|v b]; [discriminate|].
  apply ProtobufProofs.bind_not_panic.
  { destruct (v =? 0); [discriminate|]. destruct (v =? 1); discriminate. }
  intros ver _. apply ProtobufProofs.bind_not_panic; [apply cid_varint_not_panic|]. intros [x1 o1] _.
  apply ProtobufProofs.bind_not_panic; [apply cid_varint_not_panic|]. intros [x2 o2] _.
  apply ProtobufProofs.bind_not_panic; [apply cid_varint_not_panic|]. intros [x3 o3] _. discriminate.
Qed.
Print Assumptions C26_cid_parse_total.
Theorem C26_cid_bytes_exact : forall (b : bytes) (c : cid),
  bytes_ok b -> fits b -> (cid_from_bytes b = Ok c <-> cid_wire b c).
Proof. exact cid_from_bytes_ok. Qed.
Print Assumptions C26_cid_bytes_exact.
Theorem C26_cid_text_exact : forall (s : bytes) (c : cid),
  fits s -> (cid_from_string s = Ok c <-> cid_text s c).
Proof. exact cid_from_string_ok. Qed.
Print Assumptions C26_cid_text_exact.
(** Two byte strings that parse to the same CID agree except for how its three varints
    are spelled. *)
Theorem C26_cid_bytes_same : forall (b b' : bytes) (c : cid),
  bytes_ok b -> bytes_ok b' -> fits b -> fits b' ->
  cid_from_bytes b = Ok c -> cid_from_bytes b' = Ok c ->
  b = b' \/
  exists x y z lx ly lz lx' ly' lz' h,
    b = 1 :: lx ++ ly ++ lz ++ h /\ b' = 1 :: lx' ++ ly' ++ lz' ++ h /\
    is_varint lx x /\ is_varint lx' x /\ is_varint ly y /\ is_varint ly' y /\
    is_varint lz z /\ is_varint lz' z.
Proof.
  intros b b' c H H' F F' E E'. apply cid_from_bytes_ok in E, E'; auto.
  unfold cid_wire in E, E'. destruct (cid_ver c).
  - left. destruct E as [-> _], E' as [-> _]. reflexivity.
  - right. destruct E as (l1 & l2 & l3 & -> & V1 & V2 & V3 & _), E' as (m1 & m2 & m3 & -> & W1 & W2 & W3 & _).
    exists (codec_num (cid_codec c)), (hash_num (cid_hash_type c)), (N.of_nat (length (cid_hash c))).
    exists l1, l2, l3, m1, m2, m3, (cid_hash c). split; [reflexivity|]. split; [reflexivity|]. auto 10.
Qed.
Print Assumptions C26_cid_bytes_same.
Theorem C26_cid_bytes_distinct : forall c d : cid,
  cid_ok c -> cid_ok d -> fits (cid_to_bytes c) -> cid_to_bytes c = cid_to_bytes d -> c = d.
Proof. exact cid_bytes_injective. Qed.
Print Assumptions C26_cid_bytes_distinct.
Theorem C26_cid_text_distinct : forall c d : cid,
  cid_ok c -> cid_ok d -> fits (cid_to_string c) -> fits (cid_hash c) -> fits (cid_hash d) ->
  cid_to_string c = cid_to_string d -> c = d.
Proof.
  intros c d Hc Hd F Fc Fd E.
  pose proof (proj1 (C25_cid_text_round_trip c Hc F Fc)) as R. rewrite E in R, F.
  pose proof (proj1 (C25_cid_text_round_trip d Hd F Fd)) as R'. congruence.
Qed.
Print Assumptions C26_cid_text_distinct.
Example C26_case :
  cid_from_bytes [1; 0x55; 0x12; 2; 7; 8] = cid_from_bytes [1; 0xd5; 0x00; 0x92; 0x80; 0; 2; 7; 8] /\
  cid_from_bytes [1; 0x55; 0x12; 2; 7; 8] =
    Ok {| cid_ver := CIDv1; cid_codec := CRaw; cid_hash_type := HSha2256; cid_hash := [7; 8] |} /\
  cid_from_bytes [1; 0x55; 0x12; 3; 7; 8] = Err CHashSizeMismatch /\
  cid_from_string (ascii_bytes "f015512020708") =
    Ok {| cid_ver := CIDv1; cid_codec := CRaw; cid_hash_type := HSha2256; cid_hash := [7; 8] |}.
Proof. repeat split; vm_compute; reflexivity. Qed.

(** C27. The CID computed for a received block: the prefix's version and codec, and the
    digest of exactly the block's bytes under the prefix's hash function. *)
Theorem C27_block_cid : forall (sha256 blake2b256 : bytes -> bytes) (p : cid_prefix) (data : bytes) (c : cid),
  get_block_cid sha256 blake2b256 p data = Ok c <->
  cid_ver c = cp_ver p /\ cid_codec c = cp_codec p /\ cid_hash_type c = cp_hash_type p /\
  ((cp_hash_type p = HSha2256 /\ cid_hash c = sha256 data) \/
   (cp_hash_type p = HBlake2b256 /\ cid_hash c = blake2b256 data)).
Proof.
  intros sha blake p data c. unfold get_block_cid. destruct (cp_hash_type p) eqn:E; split;
    try discriminate; try (intros (_ & _ & _ & [[? _]|[? _]]); discriminate).
  - intros K. injection K as <-. cbn. auto 10.
  - intros (E1 & E2 & E3 & [[_ E4]|[? _]]); [|discriminate].
    destruct c; cbn in *; subst; reflexivity.
  - intros K. injection K as <-. cbn. auto 10.
  - intros (E1 & E2 & E3 & [[? _]|[_ E4]]); [discriminate|].
    destruct c; cbn in *; subst; reflexivity.
Qed.
Print Assumptions C27_block_cid.
(** A block whose computed CID is the requested one contains a preimage of the requested
    digest; two blocks accepted for the same CID have equal digests. *)
Theorem C27_block_matches_request :
  forall (sha256 blake2b256 : bytes -> bytes) (p q : cid_prefix) (data data' : bytes) (wanted : cid),
  get_block_cid sha256 blake2b256 p data = Ok wanted ->
  (match cid_hash_type wanted with
   | HSha2256 => cid_hash wanted = sha256 data
   | HBlake2b256 => cid_hash wanted = blake2b256 data
   | _ => False
   end) /\
  (get_block_cid sha256 blake2b256 q data' = Ok wanted ->
   (cid_hash_type wanted = HSha2256 /\ sha256 data = sha256 data') \/
   (cid_hash_type wanted = HBlake2b256 /\ blake2b256 data = blake2b256 data')).
Proof.
  intros sha blake p q data data' w H. apply C27_block_cid in H as (_ & _ & E3 & H).
  split.
  - rewrite E3. destruct H as [[-> H]|[-> H]]; exact H.
  - intros H'. apply C27_block_cid in H' as (_ & _ & E3' & H').
    destruct H as [[A H]|[A H]], H' as [[A' H']|[A' H']]; rewrite A in E3; rewrite A' in E3';
      rewrite E3 in *; try discriminate; rewrite H in H'; auto.
Qed.
Print Assumptions C27_block_matches_request.
Theorem C27_other_hash_rejected :
  forall (sha256 blake2b256 : bytes -> bytes) (p : cid_prefix) (data : bytes),
  cp_hash_type p <> HSha2256 -> cp_hash_type p <> HBlake2b256 ->
  exists e, get_block_cid sha256 blake2b256 p data = Err e.
Proof.
  intros sha blake p data H H'. unfold get_block_cid.
  destruct (cp_hash_type p); try congruence; eexists; reflexivity.
Qed.
Print Assumptions C27_other_hash_rejected.
Example C27_case :
  get_block_cid (fun d => rev d) (fun d => d)
    {| cp_ver := CIDv1; cp_codec := CRaw; cp_hash_type := HSha2256; cp_hash_size := 99 |} [1; 2; 3] =
  Ok {| cid_ver := CIDv1; cid_codec := CRaw; cid_hash_type := HSha2256; cid_hash := [3; 2; 1] |}.
Proof. reflexivity. Qed.
