(** C08, continued: the fixed-width fields that other implementations write are read
    correctly; which written values survive; and fields of the wrong kind. *)
From Verif Require Import Base BaseProofs VarintModel VarintSpec VarintProofs VarintProofs2.
From Verif Require Import ProtobufModel ProtobufSpec ProtobufOps ProtobufProofs ProtobufProofs2.
Ltac Zify.zify_post_hook ::= Z.div_mod_to_equations.
Local Open Scope list_scope. Local Open Scope N_scope.

(** A fixed-width field as the protobuf encoding document has it: the tag, then the
    value in little-endian order, as two's complement when signed. *)
Definition standard32 (n v : N) : bytes := encode_u64 (8 * n + 5) ++ le_bytes 4 v.
Definition standard64 (n v : N) : bytes := encode_u64 (8 * n + 1) ++ le_bytes 8 v.
Definition complement (bits : Z) (z : Z) : N := Z.to_N (z mod 2 ^ bits).

Lemma one_fixed n wt (b : bytes) d : n < two32 -> wt < 8 -> bytes_ok b -> (length b <= 8)%nat ->
  (wt = 1 /\ d = FBits64 b /\ length b = 8%nat \/ wt = 5 /\ d = FBits32 b /\ length b = 4%nat) ->
  pb_parse collect (encode_u64 (8 * n + wt) ++ b) [] = Ok [(n, d)].
Proof.
  intros Hn Hw Hb Hl Hk.
  assert (F : fits (encode_u64 (8 * n + wt) ++ b)).
  { unfold fits. rewrite blen_app. unfold blen at 2.
    pose proof (encode_len_bound (8 * n + wt) ltac:(unfold u64_ok, two32, two64 in *; lia)).
    unfold two64. lia. }
  apply parse_collect; [|exact F|].
  - apply bytes_ok_app. split; [apply encode_bytes_ok|exact Hb].
  - rewrite <- (app_nil_r (encode_u64 (8 * n + wt) ++ b)). constructor; [|constructor].
    destruct Hk as [(-> & -> & K)|(-> & -> & K)]; eexists _, _; (split; [reflexivity|]); (split; [apply is_varint_tag; [exact Hn|reflexivity]|]); (split; [reflexivity|exact K]).
Qed.

Lemma complement32 y : complement 32 y = Z.to_N (y mod 4294967296). Proof. reflexivity. Qed.
Lemma complement64 z : complement 64 z = Z.to_N (z mod 18446744073709551616). Proof. reflexivity. Qed.

(** What others write is read: the number, and the value by the accessor of every
    type of that width (floats and doubles by their bit patterns). *)
Theorem C08_standard_read n v w y z : n < 2 ^ 32 -> v < 2 ^ 32 -> w < 2 ^ 64 -> (- 2 ^ 31 <= y < 2 ^ 31)%Z -> (- 2 ^ 63 <= z < 2 ^ 63)%Z ->
  (exists d, pb_parse collect (standard32 n v) [] = Ok [(n, d)] /\ fd_to_fixed32 d = Ok v /\ fd_to_float d = Ok v) /\
  (exists d, pb_parse collect (standard32 n (complement 32 y)) [] = Ok [(n, d)] /\ fd_to_sfixed32 d = Ok y) /\
  (exists d, pb_parse collect (standard64 n w) [] = Ok [(n, d)] /\ fd_to_fixed64 d = Ok w /\ fd_to_double d = Ok w) /\
  (exists d, pb_parse collect (standard64 n (complement 64 z)) [] = Ok [(n, d)] /\ fd_to_sfixed64 d = Ok z).
Proof.
  intros Hn Hv Hw Hy Hz.
  assert (P4 : forall x, pb_parse collect (standard32 n x) [] = Ok [(n, FBits32 (le_bytes 4 x))]).
  { intros x. apply one_fixed; [exact Hn|reflexivity|apply le_bytes_ok|rewrite le_bytes_length; lia|right; rewrite le_bytes_length; auto]. }
  assert (P8 : forall x, pb_parse collect (standard64 n x) [] = Ok [(n, FBits64 (le_bytes 8 x))]).
  { intros x. apply one_fixed; [exact Hn|reflexivity|apply le_bytes_ok|rewrite le_bytes_length; lia|left; rewrite le_bytes_length; auto]. }
  split; [|split; [|split]]; eexists; (split; [first [apply P4|apply P8]|]).
  - unfold fd_to_fixed32, fd_to_float. rewrite of_le_le_bytes by exact Hv. auto.
  - unfold fd_to_sfixed32. rewrite of_le_le_bytes.
    + f_equal. rewrite complement32. unfold u64_as_i32, two32. destruct (N.ltb_spec (Z.to_N (y mod 4294967296) mod 4294967296) 2147483648) as [q|q]; lia.
    + change (256 ^ N.of_nat 4) with 4294967296. rewrite complement32. lia.
  - unfold fd_to_fixed64, fd_to_double. rewrite of_le_le_bytes by exact Hw. auto.
  - unfold fd_to_sfixed64. rewrite of_le_le_bytes.
    + f_equal. rewrite complement64. unfold u64_as_i64. destruct (N.ltb_spec (Z.to_N (z mod 18446744073709551616)) two63) as [q|q]; unfold two63 in q; lia.
    + change (256 ^ N.of_nat 8) with 18446744073709551616. rewrite complement64. lia.
Qed.
Print Assumptions C08_standard_read.

(** All three 64-bit writers produce the bytes in the other order, so a written value
    is read back exactly when it is the same in both orders. *)
Theorem C08_survives n v z : n < 2 ^ 32 -> v < 2 ^ 64 -> (- 2 ^ 63 <= z < 2 ^ 63)%Z ->
  (exists d, pb_parse collect (write_fixed64 [] n v) [] = Ok [(n, d)] /\ (fd_to_fixed64 d = Ok v <-> rev (le_bytes 8 v) = le_bytes 8 v)) /\
  (exists d, pb_parse collect (write_double [] n v) [] = Ok [(n, d)] /\ (fd_to_double d = Ok v <-> rev (le_bytes 8 v) = le_bytes 8 v)) /\
  (exists d, pb_parse collect (write_sfixed64 [] n z) [] = Ok [(n, d)] /\ (fd_to_sfixed64 d = Ok z <-> rev (le_bytes 8 (complement 64 z)) = le_bytes 8 (complement 64 z))).
Proof.
  intros Hn Hv Hz.
  assert (S : forall x, x < 2 ^ 64 -> (of_le_bytes (be_bytes 8 x) = x <-> rev (le_bytes 8 x) = le_bytes 8 x)).
  { intros x Hx. unfold be_bytes. split; intros H.
    - rewrite <- H at 2. rewrite <- (le_bytes_length 8 x) at 2. rewrite <- rev_length. symmetry. apply le_of_le_bytes, bytes_ok_rev, le_bytes_ok.
    - rewrite H. apply of_le_le_bytes. exact Hx. }
  assert (P : forall x, pb_parse collect (put_tag [] n BITS64_TYPE ++ be_bytes 8 x) [] = Ok [(n, FBits64 (be_bytes 8 x))]).
  { intros x. unfold BITS64_TYPE. rewrite put_tag_eq by (auto; lia). cbn [app].
    apply one_fixed; [exact Hn|reflexivity|apply be_bytes_ok|rewrite be_bytes_length; lia|left; rewrite be_bytes_length; auto]. }
  assert (B : forall (l : bytes), length l = 8%nat -> bytes_ok l -> of_le_bytes l < 18446744073709551616).
  { intros l L O. pose proof (of_le_bytes_lt l O) as K. rewrite L in K. exact K. }
  split; [|split]; eexists; (split; [apply P|]).
  - unfold fd_to_fixed64. rewrite <- (S v Hv). split; [congruence|intros ->; reflexivity].
  - unfold fd_to_double. rewrite <- (S v Hv). split; [congruence|intros ->; reflexivity].
  - change (int_as_u64 z) with (complement 64 z). assert (C : complement 64 z < 18446744073709551616) by (rewrite complement64; lia).
    rewrite <- (S _ C). unfold fd_to_sfixed64.
    specialize (B (be_bytes 8 (complement 64 z)) (be_bytes_length _ _) (be_bytes_ok _ _)).
    revert B. generalize (of_le_bytes (be_bytes 8 (complement 64 z))). intros q Q. rewrite complement64. unfold u64_as_i64, two63. split; intros H.
    + injection H as H.
      destruct (N.ltb_spec q 9223372036854775808); lia.
    + f_equal. destruct (N.ltb_spec q 9223372036854775808); lia.
Qed.
Print Assumptions C08_survives.

(** An accessor of one kind used on a field of another kind is an error, never a panic
    and never a value. *)
Definition kind (d : field_data) : N := match d with FVarInt _ => 0 | FBits64 _ => 1 | FBytes _ => 2 | FBits32 _ => 5 end.
Theorem C08_wrong_kind d :
  (kind d <> 0 -> fd_to_bool d = not_varint /\ fd_to_int32 d = not_varint /\ fd_to_int64 d = not_varint /\ fd_to_uint32 d = not_varint /\ fd_to_uint64 d = not_varint /\
                  fd_to_sint32 d = not_varint /\ fd_to_sint64 d = not_varint) /\
  (kind d <> 1 -> fd_to_fixed64 d = not_bits64 /\ fd_to_sfixed64 d = not_bits64 /\ fd_to_double d = not_bits64) /\
  (kind d <> 2 -> fd_to_bytes d = not_bytes /\ fd_to_string d = not_bytes) /\
  (kind d <> 5 -> fd_to_fixed32 d = not_bits32 /\ fd_to_sfixed32 d = not_bits32 /\ fd_to_float d = not_bits32).
Proof. destruct d as [b|b|b|b]; cbn [kind]; (split; [|split; [|split]]); intros H; first [exfalso; apply H; reflexivity|repeat split; reflexivity]. Qed.
Print Assumptions C08_wrong_kind.

Example C08_standard_case :
  standard32 7 1 = [61; 1; 0; 0; 0] /\ pb_parse collect (standard32 1 (complement 32 (-2))) [] = Ok [(1, FBits32 [254; 255; 255; 255])] /\
  fd_to_sfixed32 (FBits32 [254; 255; 255; 255]) = Ok (-2)%Z /\
  fd_to_fixed64 (FBits64 (be_bytes 8 72057594037927937)) = Ok 72057594037927937.
Proof. repeat split; vm_compute; reflexivity. Qed.
