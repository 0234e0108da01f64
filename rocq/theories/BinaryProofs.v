(** Proofs about the binary reader and writer. *)
From Verif Require Import Base BaseProofs BinaryModel BinarySpec.
Ltac Zify.zify_post_hook ::= Z.div_mod_to_equations.

(** A reader, as what has been read and what is left. *)
Definition at_pos (pre rest : bytes) : reader := {| r_buf := pre ++ rest; r_off := length pre |}.

Lemma at_split r : in_bounds r -> exists pre rest, r = at_pos pre rest.
Proof.
  unfold in_bounds, at_pos. destruct r as [b o]; cbn [r_buf r_off]; intros H.
  exists (firstn o b), (skipn o b). rewrite firstn_skipn, firstn_length_le by lia. reflexivity.
Qed.
Lemma at_in_bounds pre rest : in_bounds (at_pos pre rest).
Proof. unfold in_bounds, at_pos; cbn. rewrite app_length. lia. Qed.
Lemma new_at_pos b : new_reader b = at_pos [] b.
Proof. reflexivity. Qed.
Lemma remaining_at pre rest : remaining (at_pos pre rest) = length rest.
Proof. unfold remaining, at_pos; cbn [r_buf r_off]. rewrite app_length. lia. Qed.
Lemma blen_nat l : blen l = N.of_nat (length l).
Proof. reflexivity. Qed.

Lemma check_available_ok pre s post :
  fits (pre ++ s ++ post) ->
  check_available (blen s) (at_pos pre (s ++ post)) = Ok (length (pre ++ s)).
Proof.
  unfold fits, check_available, at_pos; cbn [r_buf r_off]. intros F.
  rewrite !blen_app, !blen_nat, !app_length in *.
  replace (two64 <=? N.of_nat (length pre) + N.of_nat (length s)) with false by lia.

  replace (N.of_nat (length pre) + N.of_nat (length s) <=?
           N.of_nat (length pre) + (N.of_nat (length s) + N.of_nat (length post))) with true by lia.
  f_equal. lia.
Qed.
Lemma index_range_at {E} (pre s post : bytes) :
  index_range (E := E) (pre ++ s ++ post) (length pre) (length (pre ++ s)) = Ok s.
Proof. unfold index_range. rewrite app_length, get_range_app. reflexivity. Qed.
Lemma index_range_prefix {E} (pre s post : bytes) :
  index_range (E := E) (pre ++ s ++ post) 0 (length (pre ++ s)) = Ok (pre ++ s).
Proof.
  unfold index_range, get_range. rewrite !app_length.
  replace ((0 <=? length pre + length s) && (length pre + length s <=? length pre + (length s + length post)))%nat
    with true by lia.
  rewrite Nat.sub_0_r, <- app_length, app_assoc. cbn [skipn]. rewrite firstn_app_length. reflexivity.
Qed.
Lemma set_off_at pre s post : set_off (at_pos pre (s ++ post)) (length (pre ++ s)) = at_pos (pre ++ s) post.
Proof. unfold set_off, at_pos; cbn. rewrite app_assoc. reflexivity. Qed.

Lemma take_ok {A} (f : bytes -> A) pre s post :
  fits (pre ++ s ++ post) ->
  take (blen s) f (at_pos pre (s ++ post)) = (Ok (f s), at_pos (pre ++ s) post).
Proof.
  intros F. unfold take. rewrite check_available_ok by auto.
  cbn [at_pos r_buf r_off]. rewrite index_range_at. f_equal. apply set_off_at.
Qed.

Lemma check_available_inv size pre rest n :
  check_available size (at_pos pre rest) = Ok n ->
  exists s post, rest = s ++ post /\ blen s = size /\ n = length (pre ++ s).
Proof.
  unfold check_available, at_pos; cbn [r_buf r_off].
  destruct (two64 <=? _); [discriminate|].
  destruct (_ <=? _) eqn:E; [|discriminate]. intros H. injection H as <-.
  rewrite blen_app, !blen_nat in E.
  exists (firstn (N.to_nat size) rest), (skipn (N.to_nat size) rest).
  rewrite firstn_skipn, app_length, !blen_nat, firstn_length_le by lia.
  repeat split; lia.
Qed.
Lemma check_available_not_panic size r : check_available size r <> Panic.
Proof. unfold check_available. destruct (two64 <=? _); [discriminate|]. destruct (_ <=? _); discriminate. Qed.

Lemma take_inv {A} size (f : bytes -> A) pre rest x r' :
  take size f (at_pos pre rest) = (x, r') ->
  (exists e, x = Err e /\ r' = at_pos pre rest) \/
  (exists s post, rest = s ++ post /\ blen s = size /\ x = Ok (f s) /\ r' = at_pos (pre ++ s) post).
Proof.
  unfold take. destruct (check_available size (at_pos pre rest)) as [n|e|] eqn:E.
  - apply check_available_inv in E. destruct E as (s & post & -> & L & ->).
    cbn [at_pos r_buf r_off]. rewrite index_range_at.
    intros H. injection H as <- <-. right. exists s, post.
    repeat split; auto. apply set_off_at.
  - intros H. injection H as <- <-. left. eauto.
  - now apply check_available_not_panic in E.
Qed.
Lemma take_short {A} size (f : bytes -> A) pre rest :
  blen rest < size -> exists e, take size f (at_pos pre rest) = (Err e, at_pos pre rest).
Proof.
  intros H. destruct (take size f (at_pos pre rest)) as [x r'] eqn:E.
  apply take_inv in E. destruct E as [(e & -> & ->) | (s & post & -> & L & _)]; eauto.
  rewrite blen_app in H. lia.
Qed.

Lemma nested_ok pre s post :
  fits (pre ++ s ++ post) ->
  read_nested (blen s) (at_pos pre (s ++ post)) = (Ok (at_pos pre s), at_pos (pre ++ s) post).
Proof.
  intros F. unfold read_nested. rewrite check_available_ok by auto.
  cbn [at_pos r_buf r_off]. rewrite index_range_prefix. f_equal. apply set_off_at.
Qed.
Lemma nested_inv size pre rest x r' :
  read_nested size (at_pos pre rest) = (x, r') ->
  (exists e, x = Err e /\ r' = at_pos pre rest) \/
  (exists s post, rest = s ++ post /\ blen s = size /\ x = Ok (at_pos pre s) /\
                  r' = at_pos (pre ++ s) post).
Proof.
  unfold read_nested. destruct (check_available size (at_pos pre rest)) as [n|e|] eqn:E.
  - apply check_available_inv in E. destruct E as (s & post & -> & L & ->).
    cbn [at_pos r_buf r_off]. rewrite index_range_prefix. intros H. injection H as <- <-.
    right. exists s, post. repeat split; auto. apply set_off_at.
  - intros H. injection H as <- <-. left. eauto.
  - now apply check_available_not_panic in E.
Qed.

(* ------------------------------------------------------------------ *)
(** ** Well-behavedness and its closure *)

(** What [well_behaved] says about a reader in [at_pos] form. *)
Lemma wb_at {A} (m : rd A) :
  well_behaved m <->
  (forall pre rest, exists x s post,
     m (at_pos pre rest) = (x, at_pos (pre ++ s) post) /\ rest = s ++ post /\ x <> Panic).
Proof.
  split.
  - intros W pre rest. destruct (W (at_pos pre rest) (at_in_bounds _ _)) as (P & B & L & I).
    destruct (m (at_pos pre rest)) as [x [b o]] eqn:E. cbn [fst snd r_buf r_off at_pos] in *.
    subst b. unfold in_bounds in I. cbn [r_buf r_off] in I. rewrite app_length in I.
    exists x, (firstn (o - length pre) rest), (skipn (o - length pre) rest).
    rewrite firstn_skipn. repeat split; auto. unfold at_pos. f_equal. f_equal.
    + rewrite <- app_assoc, firstn_skipn. reflexivity.
    + rewrite app_length, firstn_length_le by lia. lia.
  - intros W r I. apply at_split in I. destruct I as (pre & rest & ->).
    destruct (W pre rest) as (x & s & post & -> & -> & P). cbn [fst snd].
    repeat split; auto using at_in_bounds; cbn [at_pos r_buf r_off].
    + rewrite app_assoc. reflexivity.
    + rewrite app_length. lia.
Qed.

Lemma wb_ret {A} (a : A) : well_behaved (rret a).
Proof. intros r I. cbn. repeat split; auto; discriminate. Qed.
Lemma wb_fail {A} e : well_behaved (@rfail A e).
Proof. intros r I. cbn. repeat split; auto; discriminate. Qed.
Lemma wb_lift {A} (x : outcome berr A) : x <> Panic -> well_behaved (rlift x).
Proof. intros P r I. cbn. repeat split; auto. Qed.
Lemma wb_bind {A B} (m : rd A) (k : A -> rd B) :
  well_behaved m -> (forall a, well_behaved (k a)) -> well_behaved (rbind m k).
Proof.
  intros M K r I. destruct (M r I) as (P & Bf & L & I'). unfold rbind.
  destruct (m r) as [[a|e|] r']; cbn [fst snd] in *; try (repeat split; auto; fail).
  - destruct (K a r' I') as (P2 & B2 & L2 & I2). repeat split; auto; try congruence. lia.
  - repeat split; auto; congruence.
Qed.
(** As [wb_bind], when the continuation is well behaved only for results satisfying a property. *)
Lemma wb_bind_if {A B} (m : rd A) (k : A -> rd B) (P : A -> Prop) :
  well_behaved m -> (forall r a, in_bounds r -> fst (m r) = Ok a -> P a) ->
  (forall a, P a -> well_behaved (k a)) -> well_behaved (rbind m k).
Proof.
  intros M R K r I. destruct (M r I) as (Pa & Bf & L & I'). unfold rbind.
  specialize (R r). destruct (m r) as [[a|e|] r']; cbn [fst snd] in *; try (repeat split; auto; fail).
  - destruct (K a (R a I eq_refl) r' I') as (P2 & B2 & L2 & I2). repeat split; auto; try congruence. lia.
  - repeat split; auto; congruence.
Qed.
Lemma wb_take {A} size (f : bytes -> A) : well_behaved (take size f).
Proof.
  apply wb_at. intros pre rest. destruct (take size f (at_pos pre rest)) as [x r'] eqn:E.
  apply take_inv in E. destruct E as [(e & -> & ->) | (s & post & -> & L & -> & ->)].
  - exists (Err e), [], rest. rewrite app_nil_r. repeat split; auto; discriminate.
  - exists (Ok (f s)), s, post. repeat split; auto; discriminate.
Qed.
Lemma atomic_take {A} size (f : bytes -> A) : atomic (take size f).
Proof.
  intros r e I. apply at_split in I. destruct I as (pre & rest & ->).
  destruct (take size f (at_pos pre rest)) as [x r'] eqn:E. cbn [fst snd].
  apply take_inv in E. destruct E as [(e' & -> & ->) | (s & post & -> & L & -> & ->)]; auto; discriminate.
Qed.
Lemma wb_u8 : well_behaved read_u8. Proof. apply wb_take. Qed.
Lemma wb_num w : well_behaved (read_num w).
Proof. unfold read_num. destruct w as [|[|[|[|[|?]]]]]; apply wb_take. Qed.
Lemma wb_fixed n : well_behaved (read_fixed n). Proof. apply wb_take. Qed.
Lemma wb_bytes w : well_behaved (read_bytes w).
Proof.
  unfold read_bytes. destruct w as [|[|[|?]]]; apply wb_bind; auto using wb_fixed; apply wb_take.
Qed.
Lemma wb_quic : well_behaved read_quic_varint.
Proof.
  unfold read_quic_varint. apply wb_bind; auto using wb_u8. intros v.
  generalize (N.to_nat (N.shiftl 1 (N.shiftr v 6) - 1)), (N.land v 63).
  intros n. induction n as [|n IH]; intros k; cbn [quic_loop]; auto using wb_ret.
  apply wb_bind; auto using wb_u8.
Qed.
Lemma wb_remaining_data : well_behaved remaining_data.
Proof.
  apply wb_at. intros pre rest. exists (Ok rest), [], rest.
  unfold remaining_data. rewrite app_nil_r. split; [|split; [auto | discriminate]].
  f_equal. cbn [at_pos r_buf r_off].
  rewrite <- (app_nil_r rest) at 1. rewrite <- (index_range_at (E := berr) pre rest []).
  rewrite app_nil_r. reflexivity.
Qed.
Lemma wb_expect_eof : well_behaved expect_eof.
Proof. intros r I. unfold expect_eof. destruct (_ <? _)%nat; cbn; repeat split; auto; discriminate. Qed.

Lemma list_loop_total {A} (item : rd A) fuel inner :
  well_behaved item -> in_bounds inner -> (remaining inner < fuel)%nat ->
  exists x, list_loop fuel item inner = Some x /\ x <> Panic.
Proof.
  intros W. revert inner. induction fuel as [|fuel IH]; intros inner I F; [lia|].
  cbn [list_loop]. destruct (0 <? remaining inner)%nat eqn:R.
  2:{ eexists; split; eauto; discriminate. }
  destruct (W inner I) as (P & B & L & I').
  destruct (item inner) as [[a|e|] r']; cbn [fst snd] in *.
  - destruct (r_off inner =? r_off r')%nat eqn:E.
    + eexists; split; eauto; discriminate.
    + destruct (IH r' I') as (x & -> & Px).
      { unfold remaining, in_bounds in *. rewrite B in *. lia. }
      destruct x; eexists; (split; [reflexivity|]); auto; discriminate.
  - eexists; split; eauto; discriminate.
  - congruence.
Qed.
Lemma wb_fixed_list {A} (item : rd A) len : well_behaved item -> well_behaved (read_fixed_list item len).
Proof.
  intros W. unfold read_fixed_list. apply wb_bind_if with (P := in_bounds).
  - apply wb_at. intros pre rest. destruct (read_nested len (at_pos pre rest)) as [x r'] eqn:E.
    apply nested_inv in E. destruct E as [(e & -> & ->) | (s & post & -> & L & -> & ->)].
    + exists (Err e), [], rest. rewrite app_nil_r. repeat split; auto; discriminate.
    + exists (Ok (at_pos pre s)), s, post. repeat split; auto; discriminate.
  - intros r a I. apply at_split in I. destruct I as (pre & rest & ->).
    destruct (read_nested len (at_pos pre rest)) as [x r'] eqn:E. cbn [fst].
    apply nested_inv in E. destruct E as [(e & -> & ->) | (s & post & -> & L & -> & ->)]; [discriminate|].
    intros H. injection H as <-. apply at_in_bounds.
  - intros inner I. apply wb_lift.
    destruct (list_loop_total item (S (remaining inner)) inner W I ltac:(lia)) as (x & -> & P). auto.
Qed.
Lemma wb_list {A} w (item : rd A) : well_behaved item -> well_behaved (read_list w item).
Proof.
  intros W. unfold read_list.
  destruct w as [|[|[|?]]]; apply wb_bind; auto using wb_fixed_list; apply wb_take.
Qed.
Lemma wb_shape s : well_behaved (read_shape s).
Proof.
  induction s; cbn [read_shape val]; auto using wb_num, wb_quic, wb_fixed, wb_bytes, wb_list.
  apply wb_bind; auto. intros a. apply wb_bind; auto. intros b. apply wb_ret.
Qed.

(* ------------------------------------------------------------------ *)
(** ** What the primitive reads return *)

Lemma be_snoc l b : of_be_bytes (l ++ [b]) = of_be_bytes l * 256 + b.
Proof. unfold of_be_bytes. rewrite rev_app_distr. cbn [rev app of_le_bytes]. lia. Qed.
Lemma of_le_app a b : of_le_bytes (a ++ b) = of_le_bytes a + 256 ^ N.of_nat (length a) * of_le_bytes b.
Proof.
  induction a as [|x a IH].
  - cbn [app of_le_bytes length]. change (256 ^ N.of_nat 0) with 1. lia.
  - cbn [app of_le_bytes length]. rewrite IH, pow256_S. nia.
Qed.
Lemma of_be_app a b : of_be_bytes (a ++ b) = of_be_bytes a * 256 ^ N.of_nat (length b) + of_be_bytes b.
Proof. unfold of_be_bytes. rewrite rev_app_distr, of_le_app, rev_length. lia. Qed.
Lemma of_be_single b : of_be_bytes [b] = b.
Proof. unfold of_be_bytes. cbn [rev app of_le_bytes]. lia. Qed.
Lemma of_be_zero s : of_be_bytes (0 :: s) = of_be_bytes s.
Proof. change (0 :: s) with ([0] ++ s). rewrite of_be_app, of_be_single. lia. Qed.

Lemma u8_inv pre rest x r' :
  read_u8 (at_pos pre rest) = (x, r') ->
  (exists e, x = Err e /\ r' = at_pos pre rest) \/
  (exists b post, rest = b :: post /\ x = Ok b /\ r' = at_pos (pre ++ [b]) post).
Proof.
  unfold read_u8. intros H. apply take_inv in H.
  destruct H as [H | (s & post & -> & L & -> & ->)]; [left; exact H|]. right.
  rewrite blen_nat in L. destruct s as [|b [|? ?]]; cbn [length] in L; try lia.
  exists b, post. rewrite of_be_single. auto.
Qed.
Lemma quic_loop_inv n v pre rest a r' :
  v < 2 ^ (62 - 8 * N.of_nat n) -> (n <= 7)%nat -> bytes_ok rest ->
  quic_loop n v (at_pos pre rest) = (Ok a, r') ->
  exists s post, rest = s ++ post /\ length s = n /\ r' = at_pos (pre ++ s) post /\
                 a = v * 256 ^ N.of_nat n + of_be_bytes s.
Proof.
  revert v pre rest. induction n as [|n IH]; intros v pre rest V Hn B; cbn [quic_loop].
  - intros H. injection H as <- <-. exists [], rest. rewrite app_nil_r.
    change (256 ^ N.of_nat 0) with 1. change (of_be_bytes []) with 0. repeat split; auto; lia.
  - unfold rbind. destruct (read_u8 (at_pos pre rest)) as [x r1] eqn:E.
    apply u8_inv in E. destruct E as [(e & -> & ->) | (b & post & -> & -> & ->)]; [discriminate|].
    apply bytes_ok_cons in B. destruct B as [Hb B].
    assert (Hp : 2 ^ (62 - 8 * N.of_nat n) = 256 * 2 ^ (62 - 8 * N.of_nat (S n))).
    { change 256 with (2 ^ 8). rewrite <- N.pow_add_r. f_equal. lia. }
    assert (Hle : 2 ^ (62 - 8 * N.of_nat n) <= two64).
    { change two64 with (2 ^ 64). apply N.pow_le_mono_r; lia. }
    assert (Hs : N.shiftl v 8 mod two64 = v * 256).
    { rewrite N.shiftl_mul_pow2. change (2 ^ 8) with 256. apply N.mod_small. lia. }
    rewrite Hs. intros H. apply IH in H; auto; [|lia|lia].
    destruct H as (s & post' & -> & L & -> & ->).
    exists (b :: s), post'. cbn [length app]. rewrite <- app_assoc. repeat split; auto.
    change (b :: s) with ([b] ++ s). rewrite of_be_app, of_be_single, pow256_S, L. nia.
Qed.

Lemma run_rop_value o pre rest v r' :
  rop_ok o -> bytes_ok rest ->
  run_rop o (at_pos pre rest) = (Ok v, r') ->
  exists s post, rest = s ++ post /\ r' = at_pos (pre ++ s) post /\ rop_value o s v.
Proof.
  intros O B. destruct o as [w| |n|w]; cbn [rop_ok run_rop] in *; unfold rbind.
  - assert (K : exists f, read_num w = take (N.of_nat w) f /\ forall s, f s = of_be_bytes s).
    { cbn [In] in O. destruct O as [<-|[<-|[<-|[<-|[<-|[]]]]]];
        (eexists; split; [reflexivity|]); intros s; try reflexivity. apply of_be_zero. }
    destruct K as (f & -> & Hf).
    destruct (take (N.of_nat w) f (at_pos pre rest)) as [x r1] eqn:E. apply take_inv in E.
    destruct E as [(e & -> & ->) | (s & post & -> & L & -> & ->)]; [discriminate|].
    intros H. cbn [rret] in H. injection H as <- <-. exists s, post.
    rewrite blen_nat in L. cbn [rop_value]. rewrite Hf. repeat split; auto; lia.
  - unfold read_quic_varint, rbind. destruct (read_u8 (at_pos pre rest)) as [x r1] eqn:E.
    apply u8_inv in E. destruct E as [(e & -> & ->) | (b & post & -> & -> & ->)]; [discriminate|].
    apply bytes_ok_cons in B. destruct B as [Hb B].
    rewrite shiftr_pow, N.shiftl_1_l, land_63. change (2 ^ 6) with 64.
    destruct (quic_loop _ _ _) as [y r2] eqn:Q. destruct y as [a| |]; try discriminate.
    intros H. injection H as <- <-.
    assert (T : b / 64 < 4) by lia.
    set (t := b / 64) in *.
    assert (T2 : (N.to_nat (2 ^ t - 1) <= 7)%nat /\ 2 ^ 6 <= 2 ^ (62 - 8 * N.of_nat (N.to_nat (2 ^ t - 1)))).
    { assert (D : t = 0 \/ t = 1 \/ t = 2 \/ t = 3) by lia.
      destruct D as [->|[->|[->| ->]]]; vm_compute; split; (discriminate || lia). }
    destruct T2 as [T2 T3]. change (2 ^ 6) with 64 in T3.
    apply quic_loop_inv in Q; auto; [|lia].
    destruct Q as (s & post' & -> & L & -> & ->).
    exists (b :: s), post'. rewrite <- app_assoc. split; [reflexivity|]. split; [reflexivity|].
    cbn [rop_value length]. fold t. rewrite L.
    assert (T4 : 1 <= 2 ^ t) by (assert (2 ^ t <> 0) by (apply N.pow_nonzero; lia); lia).
    split; [lia|].
    apply bytes_ok_app in B. destruct B as [B _]. apply of_be_bytes_lt in B. rewrite L in B.
    change (b :: s) with ([b] ++ s). rewrite of_be_app, of_be_single, L.
    set (n := N.to_nat (2 ^ t - 1)) in *.
    assert (M : 2 ^ (8 * N.of_nat (S n) - 2) = 64 * 256 ^ N.of_nat n).
    { change 64 with (2 ^ 6). change 256 with (2 ^ 8). rewrite <- N.pow_mul_r, <- N.pow_add_r.
      f_equal. lia. }
    rewrite M. assert (Dv : b = 64 * (b / 64) + b mod 64) by (apply N.div_mod; lia).
    assert (Lm : b mod 64 < 64) by (apply N.mod_lt; lia).
    rewrite Dv at 2. set (q := b / 64) in *. set (m := b mod 64) in *. clearbody q m.
    set (P := 256 ^ N.of_nat n) in *. clearbody P.
    apply N.mod_unique with (q := q); nia.
  - destruct (read_fixed n (at_pos pre rest)) as [x r1] eqn:E. unfold read_fixed in E. apply take_inv in E.
    destruct E as [(e & -> & ->) | (s & post & -> & L & -> & ->)]; [discriminate|].
    intros H. cbn [rret] in H. injection H as <- <-. exists s, post. cbn [rop_value]. auto.
  - assert (K : exists f, read_bytes w = (do len <- take (N.of_nat w) f; read_fixed len) /\
                          forall s, f s = of_be_bytes s).
    { cbn [In] in O. destruct O as [<-|[<-|[<-|[]]]];
        (eexists; split; [reflexivity|]); intros s; try reflexivity. apply of_be_zero. }
    destruct K as (f & -> & Hf). unfold rbind.
    destruct (take (N.of_nat w) f (at_pos pre rest)) as [x r1] eqn:E. apply take_inv in E.
    destruct E as [(e & -> & ->) | (s & post & -> & L & -> & ->)]; [discriminate|].
    destruct (read_fixed (f s) (at_pos (pre ++ s) post)) as [y r2] eqn:E. unfold read_fixed in E.
    apply take_inv in E.
    destruct E as [(e & -> & ->) | (s' & post' & -> & L' & -> & ->)]; [discriminate|].
    intros H. cbn [rret] in H. injection H as <- <-. exists (s ++ s'), post'.
    rewrite <- !app_assoc. split; [reflexivity|]. split; [reflexivity|].
    cbn [rop_value]. rewrite blen_nat in L. assert (w = length s) by lia. subst w.
    rewrite firstn_app_length, <- Hf. auto.
Qed.

Lemma atomic_rop o : rop_ok o -> (match o with RNum _ | RFixed _ => True | _ => False end) ->
  atomic (run_rop o).
Proof.
  intros O C. destruct o as [w| |n|w]; try easy.
  - assert (K : atomic (read_num w)).
    { unfold read_num. destruct w as [|[|[|[|[|?]]]]]; apply atomic_take. }
    intros r e I. specialize (K r). unfold run_rop, rbind.
    destruct (read_num w r) as [[?|e'|] r1]; cbn; try discriminate.
    intros H. apply (K e' I eq_refl).
  - assert (K : atomic (read_fixed n)) by apply atomic_take.
    intros r e I. specialize (K r). unfold run_rop, rbind.
    destruct (read_fixed n r) as [[?|e'|] r1]; cbn; try discriminate.
    intros H. apply (K e' I eq_refl).
Qed.
Lemma wb_rop o : well_behaved (run_rop o).
Proof.
  destruct o; unfold run_rop.
  - intros r. apply (wb_bind _ _ (wb_num width) (fun a => wb_ret (inl a))).
  - intros r. apply (wb_bind _ _ wb_quic (fun a => wb_ret (inl a))).
  - intros r. apply (wb_bind _ _ (wb_fixed n) (fun a => wb_ret (inr a))).
  - intros r. apply (wb_bind _ _ (wb_bytes width) (fun a => wb_ret (inr a))).
Qed.
