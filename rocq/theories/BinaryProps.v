(** The binary reader and writer: C15-C18. *)
From Verif Require Import Base BaseProofs BinaryModel BinarySpec BinaryProofs BinaryProofs2.
Ltac Zify.zify_post_hook ::= Z.div_mod_to_equations.

(** ** C15 *)
(** Every read that can be put together from the primitive reads, pairing and the list
    readers is well behaved on every reader in bounds. *)
Theorem C15_reads_stay_in_bounds : forall s, well_behaved (read_shape s).
Proof. exact wb_shape. Qed.
Print Assumptions C15_reads_stay_in_bounds.
(** The list readers add no misbehaviour to that of the element parser, whatever it is. *)
Theorem C15_lists_stay_in_bounds : forall (A : Type) (w : nat) (item : rd A),
  well_behaved item -> well_behaved (read_list w item).
Proof. exact @wb_list. Qed.
Print Assumptions C15_lists_stay_in_bounds.

(** Any sequence of primitive reads from the start of any input, going on after failures. *)
Fixpoint run_rops (ops : list rop) (r : reader) : list (outcome berr (N + bytes) * reader) :=
  match ops with
  | [] => []
  | o :: ops => let x := run_rop o r in x :: run_rops ops (snd x)
  end.
Fixpoint steps_ok (b : bytes) (from : nat) (ops : list rop) (xs : list (outcome berr (N + bytes) * reader)) : Prop :=
  match ops, xs with
  | [], [] => True
  | o :: ops, (x, r) :: xs =>
    r_buf r = b /\ (from <= r_off r <= length b)%nat /\
    match x with
    | Ok v => rop_value o (between b from (r_off r)) v
    | Err _ => match o with RNum _ | RFixed _ => r_off r = from | _ => True end
    | Panic => False
    end /\
    steps_ok b (r_off r) ops xs
  | _, _ => False
  end.
Lemma run_rops_ok b ops from : bytes_ok b -> Forall rop_ok ops -> (from <= length b)%nat ->
  steps_ok b from ops (run_rops ops {| r_buf := b; r_off := from |}).
Proof.
  intros B. revert from. induction ops as [|o ops IH]; intros from O L; [exact I|].
  inversion O as [|o' ops' Ho Hops]; subst. cbn [run_rops steps_ok].
  set (r0 := {| r_buf := b; r_off := from |}).
  assert (I0 : in_bounds r0) by exact L.
  destruct (wb_rop o r0 I0) as (P & Bf & Le & I1).
  pose proof (atomic_rop o Ho) as At.
  destruct (run_rop o r0) as [x r1] eqn:E. cbn [fst snd] in *.
  destruct r1 as [b1 o1]. cbn [r_buf r_off r0] in *. subst b1.
  unfold in_bounds in I1. cbn [r_buf r_off] in I1.
  split; [auto|]. split; [lia|]. split; [|apply IH; auto].
  destruct x as [v|e|]; [| |congruence].
  - destruct (at_split _ I0) as (pre & rest & Hr). rewrite Hr in E.
    unfold r0, at_pos in Hr. injection Hr as Hb Hf.
    apply run_rop_value in E; auto.
    + destruct E as (s & post & -> & Hr' & V). unfold at_pos in Hr'. injection Hr' as _ Ho1.
      unfold between. rewrite Hf, Hb, Ho1, skipn_app_length, app_length.
      replace (length pre + length s - length pre)%nat with (length s) by lia.
      rewrite firstn_app_length. exact V.
    + rewrite Hb in B. apply bytes_ok_app in B. tauto.
  - destruct o; auto.
    + specialize (At Logic.I r0 e I0). rewrite E in At. specialize (At eq_refl). unfold r0 in At; cbn in At; congruence.
    + specialize (At Logic.I r0 e I0). rewrite E in At. specialize (At eq_refl). unfold r0 in At; cbn in At; congruence.
Qed.
Theorem C15_read_sequences : forall (b : bytes) (ops : list rop),
  bytes_ok b -> Forall rop_ok ops -> steps_ok b 0 ops (run_rops ops (new_reader b)).
Proof. intros b ops B O. apply run_rops_ok; auto. lia. Qed.
Print Assumptions C15_read_sequences.

Example C15_example :
  map fst (run_rops [RNum 2; RLen 1; RFixed 18446744073709551615; RNum 4; RNum 1; RQuic]
                    (new_reader [1; 2; 2; 9; 8; 64; 5; 7]))
  = [Ok (inl 258); Ok (inr [9; 8]); Err (BSizeOverflow 5 18446744073709551615);
     Err (BUnexpectedEOF 5 4); Ok (inl 64); Ok (inl 5)].
Proof. vm_compute. reflexivity. Qed.

(** ** C16 *)
(** What is written is exactly the specified bytes, or, when some length does not fit its
    prefix, an error. *)
Theorem C16_writes_are_exact : forall (s : shape) (x : val s) (d : bytes),
  shape_ok s -> val_ok s x ->
  (lengths_fit s x -> write_shape s x d = (Ok tt, d ++ enc s x)) /\
  (~ lengths_fit s x -> exists z, write_shape s x d = (Err BValueTooLarge, d ++ z)).
Proof. exact (fun s x d S V => write_shape_correct s S x d V). Qed.
Print Assumptions C16_writes_are_exact.
(** A successful write is read back unchanged from any position, consuming exactly the
    bytes written. *)
Theorem C16_round_trip : forall (s : shape) (x : val s) (before after d : bytes),
  shape_ok s -> val_ok s x -> elements_nonempty s x ->
  write_shape s x before = (Ok tt, d) ->
  fits (d ++ after) ->
  read_shape s (new_reader_at (d ++ after) (length before)) =
  (Ok x, new_reader_at (d ++ after) (length d)).
Proof.
  intros s x before after d S V NE W F.
  destruct (write_shape_correct s S x before V) as [H1 H2].
  destruct (lengths_fit_dec s x) as [L|L].
  - rewrite (H1 L) in W. injection W as <-. rewrite <- app_assoc in F.
    pose proof (read_shape_correct s S x before after V L NE F) as R.
    unfold at_pos in R. rewrite !app_assoc in R. exact R.
  - destruct (H2 L) as [z E]. rewrite E in W. discriminate.
Qed.
Print Assumptions C16_round_trip.
(** Different values have different bytes: no value's encoding is a proper prefix of
    another's. *)
Theorem C16_encoding_is_prefix_free : forall (s : shape) (x y : val s) (p q : bytes),
  shape_ok s -> val_ok s x -> val_ok s y -> lengths_fit s x -> lengths_fit s y ->
  elements_nonempty s x -> elements_nonempty s y -> fits (enc s x ++ p) ->
  enc s x ++ p = enc s y ++ q -> x = y /\ p = q.
Proof.
  intros s x y p q S Vx Vy Lx Ly Nx Ny F E.
  pose proof (read_shape_correct s S x [] p Vx Lx Nx F) as Rx.
  pose proof (read_shape_correct s S y [] q Vy Ly Ny) as Ry. cbn [app] in *.
  rewrite <- E in Ry. specialize (Ry F). rewrite Rx in Ry.
  assert (x = y) by congruence. subst y. split; auto. apply app_inv_head in E. exact E.
Qed.
Print Assumptions C16_encoding_is_prefix_free.

Example C16_example :
  let s := SPair (SNum 2) (SList 2 (SPair SQuic (SBytes 1))) in
  let x := (772, [(5, [1; 2]); (16384, [])]) in
  val_ok s x /\ lengths_fit s x /\
  write_shape s x [9] = (Ok tt, [9; 3; 4; 0; 9; 5; 2; 1; 2; 128; 0; 64; 0; 0]) /\
  fst (read_shape s (new_reader_at [9; 3; 4; 0; 9; 5; 2; 1; 2; 128; 0; 64; 0; 0; 77] 1)) = Ok x.
Proof.
  cbn [val_ok lengths_fit fst snd]. split; [|split; [|split; vm_compute; reflexivity]].
  - split; [vm_compute; reflexivity|]. repeat constructor.
  - split; [exact I|]. split; [|vm_compute; reflexivity]. repeat constructor.
Qed.

(** ** C17 *)
(** Every value below 2^62 is written in the shortest form and reads back unchanged. *)
Theorem C17_quic_round_trip : forall (v : N) (before after : bytes),
  v < two62 -> fits (before ++ quic_enc v ++ after) ->
  write_quic_varint v before = (Ok tt, before ++ quic_enc v) /\
  read_quic_varint (new_reader_at (before ++ quic_enc v ++ after) (length before)) =
  (Ok v, new_reader_at (before ++ quic_enc v ++ after) (length (before ++ quic_enc v))).
Proof.
  intros v before after V F. split; [apply write_quic_ok; auto|].
  pose proof (read_quic_ok v before after V F) as R. unfold at_pos in R.
  rewrite <- app_assoc in R. exact R.
Qed.
Print Assumptions C17_quic_round_trip.
(** No shorter byte string reads as the value: whatever the reader accepts as [v] is at
    least as long as what the writer produces for [v]. *)
Theorem C17_quic_shortest : forall (v : N) (s rest : bytes) (r : reader),
  bytes_ok (s ++ rest) -> v < two62 ->
  read_quic_varint (new_reader (s ++ rest)) = (Ok v, r) -> r_off r = length s ->
  (length (quic_enc v) <= length s)%nat.
Proof.
  intros v s rest r B V H L.
  assert (R : run_rop RQuic (at_pos [] (s ++ rest)) = (Ok (inl v), r)).
  { unfold run_rop, rbind. rewrite <- new_at_pos, H. reflexivity. }
  apply run_rop_value in R; auto; [|exact I].
  destruct R as (s' & post & E & -> & Rv). unfold at_pos in L. cbn [app r_off] in L.
  assert (s' = s).
  { apply (f_equal (firstn (length s))) in E. rewrite firstn_app_length in E.
    rewrite <- L, firstn_app_length in E. auto. }
  subst s'. cbn [rop_value] in Rv. destruct s as [|b s]; [easy|].
  apply bytes_ok_app in B. destruct B as [B _]. apply bytes_ok_cons in B. destruct B as [Hb _].
  unfold quic_enc. cbv zeta. rewrite be_bytes_length. destruct Rv as [Ls Ev].
  assert (D : b / 64 = 0 \/ b / 64 = 1 \/ b / 64 = 2 \/ b / 64 = 3) by lia.
  remember (of_be_bytes (b :: s)) as z. remember (length (b :: s)) as n.
  destruct D as [D|[D|[D|D]]]; rewrite D in Ls; vm_compute in Ls; rewrite Ls in *.
  - change (2 ^ _) with 64 in Ev. unfold quic_width. assert (v < 64) by (subst v; apply N.mod_lt; lia).
    replace (v <? 64) with true by lia. lia.
  - change (2 ^ _) with 16384 in Ev. unfold quic_width. assert (v < 16384) by (subst v; apply N.mod_lt; lia).
    destruct (v <? 64); [lia|]. replace (v <? 16384) with true by lia. lia.
  - change (2 ^ _) with 1073741824 in Ev. unfold quic_width.
    assert (v < 1073741824) by (subst v; apply N.mod_lt; lia).
    destruct (v <? 64); [lia|]. destruct (v <? 16384); [lia|]. replace (v <? 1073741824) with true by lia. lia.
  - unfold quic_width. destruct (v <? 64); [lia|]. destruct (v <? 16384); [lia|].
    destruct (v <? 1073741824); lia.
Qed.
Print Assumptions C17_quic_shortest.
(** The full statement is false: every u64 from 2^62 up is accepted by the writer and reads
    back as its remainder modulo 2^62. *)
Theorem C17_quic_large_values_refuted : forall (v : N) (before after : bytes),
  two62 <= v < two64 ->
  exists s, write_quic_varint v before = (Ok tt, before ++ s) /\
    (fits (before ++ s ++ after) ->
     fst (read_quic_varint (new_reader_at (before ++ s ++ after) (length before))) = Ok (v mod two62)) /\
    v mod two62 <> v.
Proof.
  intros v before after V. exists (be_bytes 8 (3 * 2 ^ 62 + v mod two62)).
  assert (Hm : v mod two62 < two62) by (apply N.mod_lt; unfold two62; lia).
  split; [apply write_quic_large; auto|]. split; [|lia].
  intros F. pose proof (read_quic_form 8 (v mod two62) before after ltac:(cbn; tauto) Hm F) as R.
  unfold at_pos in R. change (8 * N.of_nat 8 - 2) with 62 in R. change (quic_tag 8) with 3 in R.
  unfold new_reader_at. exact (f_equal fst R).
Qed.
Print Assumptions C17_quic_large_values_refuted.
Example C17_example :
  quic_enc 63 = [63] /\ quic_enc 64 = [64; 64] /\ quic_enc 16383 = [127; 255] /\
  quic_enc 494878333 = [157; 127; 62; 125] /\
  quic_enc 151288809941952652 = [194; 25; 124; 94; 255; 20; 232; 140].
Proof. repeat split; vm_compute; reflexivity. Qed.

(** ** C18 *)
Theorem C18_length_prefixed_bytes : forall (w : nat) (b d : bytes),
  In w [1; 2; 3]%nat ->
  match write_bytes w b d with
  | (Err e, d') => d' = d /\ e = BValueTooLarge /\ 256 ^ N.of_nat w <= blen b
  | (Ok _, d') => d' = d ++ be_bytes w (blen b) ++ b /\ blen b < 256 ^ N.of_nat w
  | (Panic, _) => False
  end.
Proof. exact write_bytes_outcome. Qed.
Print Assumptions C18_length_prefixed_bytes.
(** For any element encoder that only appends and may fail at any element. *)
Theorem C18_length_prefixed_lists : forall (A : Type) (w : nat) (item : A -> wr) (items : list A) (d : bytes),
  In w [1; 2; 3]%nat -> (forall x, appends (item x)) ->
  match write_list w item items d with
  | (Err _, d') => d' = d
  | (Ok _, d') =>
    exists payload, d' = d ++ be_bytes w (blen payload) ++ payload /\
      blen payload < 256 ^ N.of_nat w /\
      write_items item items (d ++ repeat 0 w) = (Ok tt, (d ++ repeat 0 w) ++ payload)
  | (Panic, _) => fst (write_items item items (d ++ repeat 0 w)) = Panic
  end.
Proof. exact @write_list_outcome. Qed.
Print Assumptions C18_length_prefixed_lists.
(** The nested writer: failure leaves the buffer unchanged, but success only means that the
    prefix is the payload length modulo 2^16. *)
Theorem C18_nested_partial : forall (f : wr) (d : bytes),
  appends f ->
  match write_u16_nested f d with
  | (Err _, d') => d' = d
  | (Ok _, d') =>
    exists payload, f (d ++ [0; 0]) = (Ok tt, (d ++ [0; 0]) ++ payload) /\
      d' = d ++ be_bytes 2 (blen payload) ++ payload
  | (Panic, _) => fst (f (d ++ [0; 0])) = Panic
  end.
Proof. exact write_u16_nested_outcome. Qed.
Print Assumptions C18_nested_partial.
(** Every body of 65536 bytes or more is written with a wrong length. *)
Theorem C18_nested_length_refuted : forall (body d : bytes),
  65536 <= blen body ->
  exists lenb, write_u16_nested (write_raw body) d = (Ok tt, d ++ lenb ++ body) /\
    length lenb = 2%nat /\ of_be_bytes lenb <> blen body.
Proof.
  intros body d L.
  assert (Ap : appends (write_raw body)) by (intros x; exists body; reflexivity).
  pose proof (write_u16_nested_outcome (write_raw body) d Ap) as H.
  destruct (write_u16_nested (write_raw body) d) as [[[]|e|] d'] eqn:E.
  - destruct H as (p & Hp & ->). unfold write_raw in Hp. injection Hp as Hp. apply app_inv_head in Hp. subst p.
    exists (be_bytes 2 (blen body)). split; [auto|]. split; [apply be_bytes_length|].
    pose proof (of_be_bytes_lt _ (be_bytes_ok 2 (blen body))) as B. rewrite be_bytes_length in B.
    change (256 ^ N.of_nat 2) with 65536 in B. lia.
  - unfold write_u16_nested, write_raw in E. discriminate.
  - discriminate.
Qed.
Print Assumptions C18_nested_length_refuted.
Example C18_example :
  let item (n : N) : wr := if n =? 0 then (fun d => (Err BOther, d ++ [7])) else write_u16 n in
  write_list 2 item [1; 2; 0] [5; 5] = (Err BOther, [5; 5]) /\
  write_list 2 item [1; 2; 3] [5; 5] = (Ok tt, [5; 5; 0; 6; 0; 1; 0; 2; 0; 3]).
Proof. split; vm_compute; reflexivity. Qed.
