(** Write sequences, and summary lemmas for the protobuf property file. *)
From Verif Require Import Base BaseProofs VarintModel VarintSpec VarintProofs VarintProofs2.
From Verif Require Import ProtobufModel ProtobufSpec ProtobufProofs ProtobufOps.
Ltac Zify.zify_post_hook ::= Z.div_mod_to_equations.

Definition op_bytes (o : wop) : bytes :=
  match o with
  | OInt32 n z | OInt64 n z => f_uint64 n (int_as_u64 z)
  | OUint32 n v | OUint64 n v | OUsize n v => f_uint64 n v
  | OBool n b => f_uint64 n (if b : bool then 1 else 0)
  | OBytes n b | OString n b => f_bytes n b
  end.
Definition op_data (o : wop) : field_data :=
  match o with
  | OInt32 n z | OInt64 n z => FVarInt (encode_u64 (int_as_u64 z))
  | OUint32 n v | OUint64 n v | OUsize n v => FVarInt (encode_u64 v)
  | OBool n b => FVarInt (encode_u64 (if b : bool then 1 else 0))
  | OBytes n b | OString n b => FBytes b
  end.

Lemma op_ok_number o : op_ok o -> op_number o < two32.
Proof. destruct o; intros [H _]; exact H. Qed.

Lemma apply_op_eq w o : op_number o < two32 -> apply_op w o = w ++ op_bytes o.
Proof.
  intros H. destruct o; cbn [apply_op op_bytes op_number] in *;
    unfold write_int32, write_int64, write_uint32, write_bool, write_usize, write_string;
    auto using write_uint64_eq, write_bytes_eq.
Qed.
Lemma op_wire o : op_ok o -> fits (op_bytes o) -> wire_field (op_bytes o) (op_number o) (op_data o).
Proof.
  intros H F. pose proof (op_ok_number o H) as Hn.
  destruct o as [n z|n z|n v|n v|n v|n b|n b|n b]; cbn [op_bytes op_number op_data] in *; unfold op_ok in H;
    try (apply f_uint64_wire; [exact Hn|]);
    try (apply f_bytes_wire; [exact Hn|apply f_bytes_fits in F; exact F]);
    try apply int_as_u64_ok.
  - destruct H as [_ H]. unfold u64_ok, two64. lia.
  - destruct H as [_ H]. exact H.
  - destruct H as [_ H]. exact H.
  - destruct b; reflexivity.
Qed.
Lemma op_bytes_ok o : op_ok o -> bytes_ok (op_bytes o).
Proof.
  destruct o; intros H; cbn [op_bytes]; auto using f_uint64_ok; apply f_bytes_ok; apply H.
Qed.
Lemma op_reads_data o : op_ok o -> op_reads o (op_number o, op_data o).
Proof.
  destruct o as [n z|n z|n v|n v|n v|n b|n b|n b]; intros [_ H]; cbn [op_reads op_number op_data];
    (split; [reflexivity|]).
  - apply fd_int32, H.
  - apply fd_int64, H.
  - apply fd_uint32, H.
  - apply fd_uint64, H.
  - apply fd_uint64, H.
  - apply fd_bool.
  - reflexivity.
  - cbn [snd fd_to_string]. destruct H as [_ H]. rewrite H. reflexivity.
Qed.

Lemma fold_ops ops w : Forall op_ok ops ->
  fold_left apply_op ops w = w ++ concat (map op_bytes ops).
Proof.
  revert w; induction ops as [|o ops IH]; intros w H; cbn [fold_left map concat].
  - rewrite app_nil_r. reflexivity.
  - inversion H; subst. rewrite apply_op_eq by (apply op_ok_number; assumption).
    rewrite IH by assumption. rewrite <- app_assoc. reflexivity.
Qed.
Lemma ops_wire ops : Forall op_ok ops -> fits (concat (map op_bytes ops)) ->
  wire_message (concat (map op_bytes ops)) (map (fun o => (op_number o, op_data o)) ops).
Proof.
  induction ops as [|o ops IH]; intros H F; cbn [map concat] in *; [constructor|].
  inversion H; subst. unfold fits in F. rewrite blen_app in F. constructor.
  - apply op_wire; [assumption|]. unfold fits. lia.
  - apply IH; [assumption|]. unfold fits. lia.
Qed.
Lemma ops_bytes_ok ops : Forall op_ok ops -> bytes_ok (concat (map op_bytes ops)).
Proof.
  induction 1; cbn [map concat]; [constructor|]. apply bytes_ok_app. auto using op_bytes_ok.
Qed.

Theorem write_read_ops ops :
  Forall op_ok ops -> fits (fold_left apply_op ops []) ->
  exists fs, pb_parse collect (fold_left apply_op ops []) [] = Ok fs /\ Forall2 op_reads ops fs.
Proof.
  intros H. rewrite fold_ops by exact H. cbn [app]. intros F.
  exists (map (fun o => (op_number o, op_data o)) ops). split.
  - apply parse_collect; auto using ops_bytes_ok, ops_wire.
  - clear F. induction H; cbn [map]; constructor; auto using op_reads_data.
Qed.

Lemma encode_len_bound v : u64_ok v -> blen (encode_u64 v) <= 10.
Proof. intros H. apply encode_length_u64 in H. unfold blen. lia. Qed.

Lemma op_fits_scalar o :
  op_ok o -> (forall n b, o <> OBytes n b) -> (forall n b, o <> OString n b) -> fits (op_bytes o).
Proof.
  intros H N1 N2. pose proof (op_ok_number o H) as Hn.
  assert (forall n v, n < two32 -> u64_ok v -> fits (f_uint64 n v)) as K.
  { intros n v A B. unfold fits, f_uint64. rewrite blen_app.
    pose proof (encode_len_bound v B).
    pose proof (encode_len_bound (8 * n) ltac:(unfold u64_ok, two32, two64 in *; lia)).
    unfold two64. lia. }
  destruct o as [n z|n z|n v|n v|n v|n b|n b|n b]; cbn [op_bytes op_number] in *; unfold op_ok in H;
    try (apply K; [exact Hn|]); try apply int_as_u64_ok.
  - destruct H as [_ H]. unfold u64_ok, two64. lia.
  - apply H.
  - apply H.
  - destruct b; reflexivity.
  - exfalso. eapply N1. reflexivity.
  - exfalso. eapply N2. reflexivity.
Qed.

Theorem write_read_one o :
  op_ok o -> (forall n b, o <> OBytes n b) -> (forall n b, o <> OString n b) ->
  exists f, pb_parse collect (apply_op [] o) [] = Ok [f] /\ op_reads o f.
Proof.
  intros H N1 N2. exists (op_number o, op_data o).
  rewrite apply_op_eq by (apply op_ok_number; exact H). cbn [app]. split; [|apply op_reads_data, H].
  apply parse_collect.
  - apply op_bytes_ok, H.
  - apply op_fits_scalar; assumption.
  - pose proof (ops_wire [o]) as W. cbn [map concat] in W. rewrite app_nil_r in W.
    apply W; [auto|]. apply op_fits_scalar; assumption.
Qed.

(** ** C07 *)
Lemma wire_payload_slice body d : wire_payload body d ->
  exists lb, body = lb ++ payload d.
Proof.
  destruct d as [l|p|p|p]; cbn [wire_payload payload].
  - intros [-> _]. exists []. reflexivity.
  - intros [-> _]. exists []. reflexivity.
  - intros [-> _]. exists []. reflexivity.
  - intros (lb & -> & _). exists lb. reflexivity.
Qed.
Theorem field_in_bounds data off :
  bytes_ok data -> fits data -> (off <= length data)%nat ->
  rd_field {| rd_offset := off; rd_data := data |} <> Panic /\
  (rd_field {| rd_offset := off; rd_data := data |} = Ok None <-> off = length data) /\
  (forall fr r', rd_field {| rd_offset := off; rd_data := data |} = Ok (Some (fr, r')) ->
     rd_data r' = data /\ (off < rd_offset r' <= length data)%nat /\
     exists a, (off < a)%nat /\ get_range data a (rd_offset r') = Some (payload (fr_data fr))).
Proof.
  intros H1 H2 H3.
  assert (G : good {| rd_offset := off; rd_data := data |}) by (split; auto).
  split; [apply rd_field_not_panic, G|]. split.
  - rewrite rd_field_none. cbn [rd_data rd_offset]. lia.
  - intros fr r' E. apply rd_field_ok in E as (f & n & d & rest & E & W & -> & ->); [|exact G].
    cbn [mk_ref fr_data]. unfold advance, at_offset. cbn [rd_data rd_offset].
    unfold rd_rest in E. cbn [rd_data rd_offset] in E.
    assert (L : (off + length f <= length data)%nat).
    { apply (f_equal (@length N)) in E. rewrite skipn_length, app_length in E. lia. }
    split; [reflexivity|]. split; [apply wire_field_length in W; lia|].
    destruct W as (t & body & -> & V & P). apply wire_payload_slice in P as (lb & ->).
    exists (off + length t + length lb)%nat. split.
    + destruct V as (W & _). destruct t; [apply well_terminated_nil in W; tauto|]. cbn. lia.
    + apply get_range_some. rewrite !app_length in *. split; [lia|].
      replace (off + (length t + (length lb + length (payload d))) - (off + length t + length lb))%nat
        with (length (payload d)) by lia.
      rewrite <- Nat.add_assoc, <- skipn_skipn', E, <- app_assoc.
      rewrite (Nat.add_comm (length t)), Nat.add_comm, <- skipn_skipn', skipn_app_length.
      rewrite <- app_assoc, skipn_app_length, firstn_app_length. reflexivity.
Qed.
Theorem parse_total data :
  bytes_ok data -> fits data ->
  (exists fs, pb_parse collect data [] = Ok fs /\ wire_message data fs) \/
  (exists e, pb_parse collect data [] = Err (PRead e)).
Proof.
  intros H1 H2.
  destruct (pb_parse collect data []) as [fs|e|] eqn:E.
  - left. exists fs. split; [reflexivity|]. apply parse_collect in E; auto.
  - right. unfold pb_parse in E.
    assert (K : forall fuel r s, pb_loop collect fuel r s = Err e -> e <> POutOfFuel ->
      exists e0, e = PRead e0).
    { induction fuel as [|fuel IH]; intros r s Hl He; cbn [pb_loop] in Hl; [congruence|].
      destruct (rd_field r) as [[[fr r']|]|e0|]; cbn [map_err bind collect] in Hl; try discriminate.
      - apply IH in Hl; auto.
      - exists e0. congruence. }
    destruct (K _ _ _ E) as (e0 & ->); [|eauto].
    intros ->. eapply (pb_parse_fuel collect data []); eauto. intros; discriminate.
  - apply pb_parse_not_panic in E; [tauto| |assumption|assumption]. intros; discriminate.
Qed.

(** ** C08 *)
Theorem fixed64_swapped n v : n < two32 -> u64_ok v ->
  pb_parse collect (write_fixed64 [] n v) [] = Ok [(n, FBits64 (be_bytes 8 v))] /\
  fd_to_fixed64 (FBits64 (be_bytes 8 v)) = Ok (of_le_bytes (rev (le_bytes 8 v))).
Proof.
  intros Hn Hv. split; [|reflexivity].
  unfold write_fixed64, BITS64_TYPE. rewrite put_tag_eq by (auto; lia). cbn [app].
  assert (F : fits (encode_u64 (8 * n + 1) ++ be_bytes 8 v)).
  { unfold fits. rewrite blen_app. unfold blen at 2. rewrite be_bytes_length.
    pose proof (encode_len_bound (8 * n + 1) ltac:(unfold u64_ok, two32, two64 in *; lia)).
    unfold two64. lia. }
  apply parse_collect; [|exact F|].
  - apply bytes_ok_app. split; [apply encode_bytes_ok|apply be_bytes_ok].
  - rewrite <- (app_nil_r (encode_u64 (8 * n + 1) ++ be_bytes 8 v)). constructor; [|constructor].
    eexists _, _. split; [reflexivity|]. split.
    + apply is_varint_tag; [exact Hn|reflexivity].
    + split; [reflexivity|]. apply be_bytes_length.
Qed.
Theorem fixed64_refuted :
  exists n v, n < 2 ^ 32 /\ v < 2 ^ 64 /\
    exists d w, pb_parse collect (write_fixed64 [] n v) [] = Ok [(n, d)] /\
                fd_to_fixed64 d = Ok w /\ w <> v.
Proof.
  exists 1, 1. split; [reflexivity|]. split; [reflexivity|].
  exists (FBits64 [0;0;0;0;0;0;0;1]), 72057594037927936. vm_compute.
  split; [reflexivity|]. split; [reflexivity|discriminate].
Qed.
Theorem fixed32_panics w n z bits :
  write_fixed32 w n z = Panic /\ write_sfixed32 w n z = Panic /\ write_float w n bits = Panic.
Proof. repeat split; reflexivity. Qed.
