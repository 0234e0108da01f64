(** Summary lemmas for the varint property file. *)
From Verif Require Import Base BaseProofs VarintModel VarintSpec VarintProofs.

(** Read [n] varints one after the other with the code's own slice reader and
    decoder (test driver, not part of the code). *)
Fixpoint read_many (n : nat) (data : bytes) (offset : nat) : option (list N * nat) :=
  match n with
  | O => Some ([], offset)
  | S n' =>
    match read_from data offset with
    | (Some slice, offset') =>
      match decode_u64 slice with
      | Ok v =>
        match read_many n' data offset' with
        | Some (vs, o) => Some (v :: vs, o)
        | None => None
        end
      | _ => None
      end
    | (None, _) => None
    end
  end.

Lemma encode_summary v :
  v < 2 ^ 64 ->
    (1 <= length (encode_u64 v) <= 10)%nat /\
    bytes_ok (encode_u64 v) /\
    well_terminated (encode_u64 v) /\ base128_value (encode_u64 v) = v /\
    forall l, bytes_ok l -> well_terminated l -> base128_value l = v ->
              (length (encode_u64 v) <= length l)%nat.
Proof.
  intros H. split; [apply encode_length_u64, H|]. split; [apply encode_bytes_ok|].
  split; [apply encode_well_terminated|]. split; [apply encode_value|].
  intros. apply encode_minimal; assumption.
Qed.

Lemma encode_inj v w : encode_u64 v = encode_u64 w -> v = w.
Proof. intros H. rewrite <- (encode_value v), H. apply encode_value. Qed.

Lemma decode_errors data :
  bytes_ok data ->
    (decode_u64 data = Err MissingFinalByte <->
       Forall (fun b => 128 <= b) data /\ (length data <= 9)%nat) /\
    (decode_u64 data = Err MisplacedFinalByte <->
       exists p q v, data = p ++ q /\ q <> [] /\ decode_u64 p = Ok v) /\
    decode_u64 data <> Panic.
Proof.
  intros H. split; [apply decode_missing, H|]. split; [apply decode_misplaced, H|].
  apply decode_not_panic.
Qed.

Lemma feed_exact data :
  bytes_ok data ->
    (forall l rest, data = l ++ rest -> well_terminated l -> (length l <= 10)%nat ->
       feed decoder_new data = (Finished (base128_value l mod 2 ^ 64), length l)) /\
    (Forall (fun b => 128 <= b) data -> (length data <= 10)%nat ->
       feed decoder_new data = (Pending, length data)) /\
    (forall l rest, data = l ++ rest -> Forall (fun b => 128 <= b) l ->
       length l = 10%nat -> rest <> [] ->
       feed decoder_new data = (DOverflow, 11%nat)).
Proof.
  intros Hok. split; [|split].
  - intros l rest -> Hw Hl. apply bytes_ok_app in Hok as [Ha Hb].
    rewrite feed_new_ok by assumption. reflexivity.
  - intros H1 H2. apply (feed_pending data 0 0); auto.
  - intros l rest -> H1 H2 H3.
    pose proof (feed_overflow l 0 0 rest Hok H1 H2 H3) as F. rewrite H2 in F. exact F.
Qed.

Lemma feed_refuted :
  exists l, bytes_ok l /\ well_terminated l /\ base128_value l = 2 ^ 64 /\
    decode_u64 l = Err Overflow /\ feed decoder_new l = (Finished 0, 10%nat).
Proof.
  exists [128;128;128;128;128;128;128;128;128;2].
  split; [apply bytes_okb_spec; reflexivity|].
  split; [|vm_compute; auto].
  exists [128;128;128;128;128;128;128;128;128], 2. repeat split; repeat constructor; lia.
Qed.

Lemma read_many_concat before vs after :
  Forall (fun v => v < 2 ^ 64) vs ->
    read_many (length vs) (before ++ concat (map encode_u64 vs) ++ after) (length before) =
    Some (vs, (length before + length (concat (map encode_u64 vs)))%nat).
Proof.
  revert before. induction vs as [|v vs IH]; intros before H.
  - cbn. f_equal. f_equal. lia.
  - inversion H as [|? ? Hv Hvs]; subst. cbn [length read_many map concat].
    rewrite <- app_assoc. rewrite read_from_encode.
    rewrite decode_encode by exact Hv.
    specialize (IH (before ++ encode_u64 v) Hvs). rewrite app_length in IH.
    rewrite <- !app_assoc in IH. rewrite IH. rewrite app_length.
    f_equal. f_equal. lia.
Qed.
