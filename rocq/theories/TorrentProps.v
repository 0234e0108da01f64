(** Torrent files (C31-C33) and bit-fields (C34). *)
From Verif Require Import Base BaseProofs BencodeModel BencodeSpec BencodeProofs BencodeProofs2
  BencodeProps TorrentModel.
Ltac Zify.zify_post_hook ::= Z.div_mod_to_equations.

(** ** Specification *)
(** The entry of a key. *)
Definition entry {A} (m : list (bytes * A)) (k : string) (v : A) : Prop := In (ascii_bytes k, v) m.
(** Paths: components separated by slashes, leading empty components left out. *)
Fixpoint drop_empty (l : list bytes) : list bytes :=
  match l with [] :: t => drop_empty t | _ => l end.
Fixpoint intercalate (sep : N) (l : list bytes) : bytes :=
  match l with
  | [] => []
  | [x] => x
  | x :: t => x ++ [sep] ++ intercalate sep t
  end.
Definition joined (l : list bytes) : bytes := intercalate 47 (drop_empty l).
(** A dictionary entry describes a file. *)
Definition describes_file (b : bval) (f : torrent_file) : Prop :=
  exists m comps, b = BDict m /\ entry m "length" (BInt (tf_length f)) /\
    entry m "path" (BList (map BBytes comps)) /\ Forall (fun c => utf8_valid c = true) comps /\
    tf_path f = joined comps.
Definition total_of (files : list torrent_file) : N := fold_right N.add 0 (map tf_length files).

(** What an accepted torrent says about the file it came from. *)
Definition describes (sha1 : bytes -> bytes) (d : bytes) (t : torrent) : Prop :=
  exists s post root info info_bytes before after file_vals groups,
    (* the input begins with a bencoded dictionary *)
    d = s ++ post /\ ben s (BDict root) /\
    (* the hash is taken over the bytes of the info dictionary *)
    entry root "info" (BDict info) /\ s = before ++ info_bytes ++ after /\
    ben info_bytes (BDict info) /\ t_info_hash t = sha1 info_bytes /\
    (* the fields are the entries of the dictionaries *)
    entry info "name" (BBytes (t_name t)) /\ utf8_valid (t_name t) = true /\
    entry info "piece length" (BInt (t_piece_length t)) /\
    entry info "pieces" (BBytes (concat (t_pieces t))) /\
    entry info "files" (BList file_vals) /\ Forall2 describes_file file_vals (t_files t) /\
    entry root "announce-list" (BList groups) /\
    groups = map (fun g => BList (map BBytes g)) (t_tracker_groups t) /\
    (* the pieces *)
    Forall (fun p => length p = 20%nat) (t_pieces t) /\
    t_total_length t = total_of (t_files t) /\
    t_total_length t <= t_piece_length t * N.of_nat (length (t_pieces t)).

(** ** Lemmas *)
Lemma vl_ok {A} (x : outcome verr A) a : vl x = Ok a -> x = Ok a.
Proof. destruct x; cbn; congruence. Qed.
Lemma as_dict_inv v l m : as_dictionary v = Ok (l, m) -> v = VDict l m.
Proof. destruct v; cbn; intros H; try discriminate. injection H as <- <-. reflexivity. Qed.
Lemma as_list_inv v l : as_list v = Ok l -> exists loc, v = VList loc l.
Proof. destruct v; cbn; intros H; try discriminate. injection H as <-. eauto. Qed.
Lemma as_bytes_inv v d : as_byte_string v = Ok d -> exists loc, v = VBytes loc d.
Proof. destruct v; cbn; intros H; try discriminate. injection H as <-. eauto. Qed.
Lemma as_int_inv v n : as_integer v = Ok n -> exists loc, v = VInt loc n.
Proof. destruct v; cbn; intros H; try discriminate. injection H as <-. eauto. Qed.
Lemma as_string_inv v d : as_string v = Ok d -> (exists loc, v = VBytes loc d) /\ utf8_valid d = true.
Proof.
  unfold as_string. intros H. apply bind_ok in H. destruct H as (x & H1 & H).
  destruct (utf8_valid x) eqn:U; [|discriminate]. injection H as <-. apply as_bytes_inv in H1. auto.
Qed.
Lemma required_inv d k v : get_required d k = Ok v -> In (k, v) (snd d).
Proof.
  unfold get_required, of_option. destruct (map_get k (snd d)) eqn:E; [|discriminate].
  intros H. injection H as <-. apply map_get_in; auto.
Qed.
Lemma collect_forall2 {E A B} (f : A -> outcome E B) l r : collect f l = Ok r -> Forall2 (fun x y => f x = Ok y) l r.
Proof.
  revert r. induction l as [|x l IH]; intros r; cbn [collect].
  - intros H. injection H as <-. constructor.
  - intros H. apply bind_ok in H. destruct H as (y & H1 & H). apply bind_ok in H. destruct H as (r' & H2 & H).
    injection H as <-. constructor; auto.
Qed.
Lemma strings_strip l r : Forall2 (fun x y => vl (as_string x) = Ok y) l r ->
  map strip l = map BBytes r /\ Forall (fun c => utf8_valid c = true) r.
Proof.
  induction 1 as [|x y l r H F [IH1 IH2]]; [split; auto|].
  apply vl_ok, as_string_inv in H. destruct H as [[loc ->] U]. cbn [map strip]. split; [f_equal; auto | auto].
Qed.
Lemma join_from acc comps : acc <> [] -> fold_left push_component comps acc =
  match comps with [] => acc | _ => acc ++ [47] ++ intercalate 47 comps end.
Proof.
  revert acc. induction comps as [|c comps IH]; intros acc NE; cbn [fold_left]; auto.
  assert (E : push_component acc c = acc ++ [47] ++ c).
  { unfold push_component. destruct acc; [congruence|]. rewrite <- app_assoc. reflexivity. }
  rewrite E, IH.
  - destruct comps as [|c2 comps]; [reflexivity|]. rewrite <- !app_assoc. reflexivity.
  - destruct acc; discriminate.
Qed.
Lemma join_path_joined comps : join_path comps = joined comps.
Proof.
  unfold join_path, joined. induction comps as [|c comps IH]; auto. cbn [fold_left].
  change (push_component [] c) with c. destruct c as [|x c]; [exact IH|].
  rewrite join_from by discriminate. cbn [drop_empty intercalate]. destruct comps; reflexivity.
Qed.
Lemma parse_file_ok v f : parse_file v = Ok f -> describes_file (strip v) f.
Proof.
  unfold parse_file. intros H.
  apply bind_ok in H. destruct H as ([l m] & H1 & H). apply vl_ok, as_dict_inv in H1. subst v.
  apply bind_ok in H. destruct H as (lv & H2 & H). apply vl_ok, required_inv in H2. cbn [snd] in H2.
  apply bind_ok in H. destruct H as (pv & H3 & H). apply vl_ok, required_inv in H3. cbn [snd] in H3.
  apply bind_ok in H. destruct H as (n & H4 & H). apply vl_ok, as_int_inv in H4. destruct H4 as [ln ->].
  apply bind_ok in H. destruct H as (cv & H5 & H). apply vl_ok, as_list_inv in H5. destruct H5 as [lp ->].
  apply bind_ok in H. destruct H as (comps & H6 & H). injection H as <-.
  apply collect_forall2, strings_strip in H6. destruct H6 as [S U].
  exists (strip_map m), comps. cbn [strip tf_length tf_path]. split; [reflexivity|]. unfold entry, strip_map.
  split; [|split; [|split; [exact U|apply join_path_joined]]].
  - apply in_map_iff. exists (key "length", VInt ln n). auto.
  - apply in_map_iff. exists (key "path", VList lp cv). cbn [fst snd strip]. rewrite S. auto.
Qed.
Lemma cut20_ok fuel d : (length d <= fuel)%nat -> (length d mod 20 = 0)%nat ->
  concat (cut20 fuel d) = d /\ Forall (fun p => length p = 20%nat) (cut20 fuel d).
Proof.
  revert d. induction fuel as [|fuel IH]; intros d L M; cbn [cut20].
  - destruct d; [auto | cbn in L; lia].
  - destruct (20 <=? length d)%nat eqn:E.
    + destruct (IH (skipn 20 d)) as [C F]; [rewrite skipn_length; lia | rewrite skipn_length; lia |].
      cbn [concat]. rewrite C, firstn_skipn. split; auto. constructor; auto. apply firstn_length_le. lia.
    + destruct d as [|x d]; [auto|]. cbn [length] in *. lia.
Qed.
Lemma sum_ok acc files n : sum_lengths acc files = Ok n -> n = acc + total_of files.
Proof.
  revert acc. induction files as [|f files IH]; intros acc; cbn [sum_lengths].
  - intros H. injection H as <-. cbn. lia.
  - intros H. apply bind_ok in H. destruct H as (a & H1 & H). unfold checked_add in H1.
    destruct (_ <=? _); [discriminate|]. injection H1 as <-. apply IH in H. subst n.
    unfold total_of. cbn [map fold_right]. lia.
Qed.
Lemma slice_decompose d l e : (l <= e)%nat -> (e <= length d)%nat ->
  d = firstn l d ++ slice d (mkloc l e) ++ skipn e d.
Proof.
  intros L1 L2. unfold slice, mkloc; cbn [l_start l_end].
  rewrite <- (firstn_skipn l d) at 1. f_equal. rewrite <- (firstn_skipn (e - l) (skipn l d)) at 1. f_equal.
  rewrite skipn_skipn'. f_equal. lia.
Qed.

(** ** C31 *)
Theorem C31_accepted_torrents_are_consistent : forall (sha1 : bytes -> bytes) (d : bytes) (t : torrent),
  from_bytes sha1 d = Ok t -> describes sha1 d t.
Proof.
  intros sha1 d t H. unfold from_bytes in H.
  apply bind_ok in H. destruct H as (v & P & H).
  assert (P' : parse d = Ok v) by (destruct (parse d); cbn in P; congruence). clear P.
  apply parse_inv in P'. destruct P' as [e P]. apply prefix_sound in P.
  destruct P as (s & post & Ed & _ & Bs & Lv & G).
  apply bind_ok in H. destruct H as ([rl root] & H1 & H). apply vl_ok, as_dict_inv in H1. subst v.
  apply bind_ok in H. destruct H as (iv & H1 & H). apply vl_ok, required_inv in H1. cbn [snd] in H1.
  apply bind_ok in H. destruct H as ([il info] & H2 & H). apply vl_ok, as_dict_inv in H2. subst iv.
  apply bind_ok in H. destruct H as (nv & H3 & H). apply vl_ok, required_inv in H3. cbn [snd] in H3.
  apply bind_ok in H. destruct H as (name & H4 & H). apply vl_ok, as_string_inv in H4. destruct H4 as [[nl ->] Un].
  apply bind_ok in H. destruct H as (av & H5 & H). apply vl_ok, required_inv in H5. cbn [snd] in H5.
  apply bind_ok in H. destruct H as (groups & H6 & H).
  unfold parse_announce_list in H6. apply bind_ok in H6. destruct H6 as (gl & H6 & H6').
  apply vl_ok, as_list_inv in H6. destruct H6 as [al ->]. apply collect_forall2 in H6'.
  apply bind_ok in H. destruct H as (fv & H7 & H). apply vl_ok, required_inv in H7. cbn [snd] in H7.
  apply bind_ok in H. destruct H as (files & H8 & H).
  unfold parse_files in H8. apply bind_ok in H8. destruct H8 as (fl & H8 & H8').
  apply vl_ok, as_list_inv in H8. destruct H8 as [fll ->]. apply collect_forall2 in H8'.
  apply bind_ok in H. destruct H as (pv & H9 & H). apply vl_ok, required_inv in H9. cbn [snd] in H9.
  apply bind_ok in H. destruct H as (pl & H10 & H). apply vl_ok, as_int_inv in H10. destruct H10 as [pll ->].
  apply bind_ok in H. destruct H as (psv & H11 & H). apply vl_ok, required_inv in H11. cbn [snd] in H11.
  apply bind_ok in H. destruct H as (pd & H12 & H). apply vl_ok, as_bytes_inv in H12. destruct H12 as [psl ->].
  destruct (negb (blen pd mod 20 =? 0)) eqn:M; [discriminate|].
  apply bind_ok in H. destruct H as (ib & H13 & H).
  apply bind_ok in H. destruct H as (total & H14 & H). apply sum_ok in H14.
  apply bind_ok in H. destruct H as (room & H15 & H). unfold checked_mul in H15.
  destruct (two64 <=? _); [discriminate|]. injection H15 as <-.
  destruct (_ <? total) eqn:R; [discriminate|]. injection H as <-.
  assert (M' : (length pd mod 20 = 0)%nat).
  { unfold blen in M. lia. }
  destruct (cut20_ok (length pd) pd (le_n _) M') as [C F20].
  cbn [loc_of] in Lv. subst rl.
  assert (Sub : subvalue (VDict il info) (VDict (mkloc 0 (length s)) root)).
  { eapply sub_step; [apply sub_refl|]. exists (key "info"). exact H1. }
  destruct (good_sub _ _ _ _ _ G Sub) as (Bi & I & _). cbn [loc_of] in *.
  unfold inside in I. cbn [l_start l_end] in I.
  assert (Ls : (length s <= length d)%nat) by (subst d; rewrite app_length; lia).
  assert (Ib : ib = slice d il).
  { unfold index_range in H13. destruct (get_range d (l_start (fst (il, info))) (l_end (fst (il, info)))) eqn:E; [|discriminate].
    injection H13 as <-. cbn [fst] in E. unfold get_range in E. destruct (_ && _); [|discriminate].
    injection E as <-. reflexivity. }
  assert (Ss : slice d il = slice s il).
  { unfold slice. rewrite Ed, skipn_app, firstn_app, skipn_length.
    replace (l_end il - l_start il - (length s - l_start il))%nat with 0%nat by lia.
    rewrite firstn_O, app_nil_r. reflexivity. }
  exists s, post, (strip_map root), (strip_map info), (slice s il),
    (firstn (l_start il) s), (skipn (l_end il) s), (map strip fl), (map strip gl).
  cbn [t_info_hash t_name t_tracker_groups t_files t_piece_length t_pieces t_total_length].
  assert (En : forall m k x, In (key k, x) m -> entry (strip_map m) k (strip x)).
  { intros m k x Hx. unfold entry, strip_map. apply in_map_iff. exists (key k, x). auto. }
  split; [exact Ed|]. split; [exact Bs|].
  split; [apply (En root "info"%string (VDict il info)); exact H1|].
  split.
  { destruct il as [a b]. cbn [l_start l_end] in *. apply (slice_decompose s a b); lia. }
  split; [rewrite <- Ss; exact Bi|].
  split; [congruence|].
  split; [apply (En info "name"%string (VBytes nl name)); exact H3|].
  split; [exact Un|].
  split; [apply (En info "piece length"%string (VInt pll pl)); exact H9|].
  split; [rewrite C; apply (En info "pieces"%string (VBytes psl pd)); exact H11|].
  split; [apply (En info "files"%string (VList fll fl)); exact H7|].
  split.
  { clear - H8'. induction H8'; cbn [map]; constructor; auto. apply parse_file_ok; auto. }
  split; [apply (En root "announce-list"%string (VList al gl)); exact H5|].
  split.
  { clear - H6'. induction H6' as [|x y l r H F IH]; cbn [map]; auto. f_equal; auto.
    apply bind_ok in H. destruct H as (ms & H & H'). apply vl_ok, as_list_inv in H. destruct H as [loc ->].
    apply collect_forall2, strings_strip in H'. cbn [strip]. f_equal. tauto. }
  split; [exact F20|].
  split; [rewrite H14; lia|]. lia.
Qed.
Print Assumptions C31_accepted_torrents_are_consistent.

(** ** C32 *)
(** When the piece hashes are not more than the files need, the last piece is the remainder. *)
Theorem C32_last_piece_partial : forall (sha1 : bytes -> bytes) (d : bytes) (t : torrent),
  from_bytes sha1 d = Ok t -> t_pieces t <> [] ->
  t_piece_length t * (N.of_nat (length (t_pieces t)) - 1) <= t_total_length t ->
  exists n, last_piece_length t = Ok n /\ n <= t_piece_length t /\
    t_piece_length t * (N.of_nat (length (t_pieces t)) - 1) + n = t_total_length t.
Proof.
  intros sha1 d t A NE L. unfold last_piece_length.
  assert (R : t_piece_length t * N.of_nat (length (t_pieces t)) < two64 /\
              t_total_length t <= t_piece_length t * N.of_nat (length (t_pieces t))).
  { unfold from_bytes in A.
    repeat (apply bind_ok in A; destruct A as (? & _ & A)).
    destruct (negb _); [discriminate|].
    apply bind_ok in A. destruct A as (? & _ & A). apply bind_ok in A. destruct A as (? & _ & A).
    apply bind_ok in A. destruct A as (? & Hm & A). unfold checked_mul in Hm.
    destruct (two64 <=? _) eqn:E; [discriminate|]. injection Hm as <-.
    destruct (_ <? _) eqn:E2; [discriminate|]. injection A as <-.
    cbn [t_piece_length t_pieces t_total_length]. lia. }
  destruct R as [R1 R2].
  destruct (t_pieces t) as [|p ps] eqn:Ep; [congruence|]. rewrite <- Ep in *.
  assert (Lp : (0 < length (t_pieces t))%nat) by (rewrite Ep; cbn; lia).
  set (n := length (t_pieces t)) in *. clearbody n. set (P := t_piece_length t) in *.
  assert (En : N.of_nat (n - 1) = N.of_nat n - 1) by lia. rewrite En.
  assert (K : P * N.of_nat n = P * (N.of_nat n - 1) + P) by nia.
  unfold checked_mul. replace (two64 <=? P * (N.of_nat n - 1)) with false by lia. cbn [bind].
  replace (t_total_length t <? P * (N.of_nat n - 1)) with false by lia.
  exists (t_total_length t - P * (N.of_nat n - 1)). repeat split; lia.
Qed.
Print Assumptions C32_last_piece_partial.
(** A torrent with three piece hashes for one byte of data is accepted, and computing the
    length of its last piece underflows. *)
Definition surplus_torrent : bytes :=
  ascii_bytes "d13:announce-listll1:aee4:infod5:filesld6:lengthi1e4:pathl1:xeee4:name1:n12:piece lengthi10e6:pieces60:012345678901234567890123456789012345678901234567890123456789ee".
Theorem C32_last_piece_refuted : exists (d : bytes) (t : torrent),
  from_bytes (fun b => b) d = Ok t /\ last_piece_length t = Panic.
Proof.
  exists surplus_torrent. eexists. split; vm_compute; reflexivity.
Qed.
Print Assumptions C32_last_piece_refuted.
(** Exactly then it fails: for an accepted torrent the computation panics if and only if
    the pieces before the last are already longer than the files. *)
Theorem C32_when_it_fails : forall (sha1 : bytes -> bytes) (d : bytes) (t : torrent),
  from_bytes sha1 d = Ok t -> t_pieces t <> [] ->
  (last_piece_length t = Panic <->
   t_total_length t < t_piece_length t * (N.of_nat (length (t_pieces t)) - 1)).
Proof.
  intros sha1 d t A NE. split.
  - intros H. destruct (N.lt_ge_cases (t_total_length t) (t_piece_length t * (N.of_nat (length (t_pieces t)) - 1))); auto.
    destruct (C32_last_piece_partial sha1 d t A NE H0) as (n & E & _). congruence.
  - intros H. unfold last_piece_length. destruct (t_pieces t) as [|p ps] eqn:Ep; [congruence|]. rewrite <- Ep in *.
    assert (En : N.of_nat (length (t_pieces t) - 1) = N.of_nat (length (t_pieces t)) - 1) by (rewrite Ep; cbn [length]; lia).
    rewrite En. unfold checked_mul. destruct (two64 <=? _); [reflexivity|]. cbn [bind].
    replace (_ <? _) with true by lia. reflexivity.
Qed.
Print Assumptions C32_when_it_fails.

(** ** C33 *)
Fixpoint split_slash (acc : bytes) (p : bytes) : list bytes :=
  match p with
  | [] => [acc]
  | c :: t => if c =? 47 then acc :: split_slash [] t else split_slash (acc ++ [c]) t
  end.
Definition path_components (p : bytes) : list bytes := split_slash [] p.
Definition clean (c : bytes) : Prop := c <> [] /\ ~ In 47 c /\ c <> [46; 46] /\ c <> [46].
Lemma split_clean acc c rest : ~ In 47 c -> split_slash acc (c ++ rest) = split_slash (acc ++ c) rest.
Proof.
  revert acc. induction c as [|x c IH]; intros acc H; cbn [app split_slash].
  - rewrite app_nil_r. reflexivity.
  - replace (x =? 47) with false.
    + rewrite IH by (intros I; apply H; right; auto). rewrite <- app_assoc. reflexivity.
    + symmetry. apply N.eqb_neq. intros ->. apply H. left; auto.
Qed.
(** Clean components come back as the path's components: the file stays below the torrent's
    directory if every component is clean. *)
Theorem C33_clean_paths_partial : forall comps, comps <> [] -> Forall clean comps ->
  path_components (joined comps) = comps.
Proof.
  intros comps NE F. unfold joined.
  assert (D : drop_empty comps = comps).
  { destruct comps as [|c comps]; auto. inversion F as [|? ? [N1 _] _]; subst. destruct c; [congruence|reflexivity]. }
  rewrite D. unfold path_components. clear D. induction comps as [|c comps IH]; [congruence|].
  inversion F as [|? ? (N1 & N2 & _) F']; subst. destruct comps as [|c2 comps].
  - cbn [intercalate]. rewrite <- (app_nil_r c) at 1. rewrite split_clean by auto. reflexivity.
  - change (intercalate 47 (c :: c2 :: comps)) with (c ++ [47] ++ intercalate 47 (c2 :: comps)).
    rewrite split_clean by auto. cbn [app split_slash]. change (47 =? 47) with true. cbv iota.
    f_equal. apply IH; auto. discriminate.
Qed.
Print Assumptions C33_clean_paths_partial.
(** An accepted torrent may name the parent directory and absolute paths. *)
Definition dotdot_torrent : bytes :=
  ascii_bytes "d13:announce-listll1:aee4:infod5:filesld6:lengthi1e4:pathl2:..6:passwdeed6:lengthi1e4:pathl4:/etceee4:name1:n12:piece lengthi10e6:pieces20:01234567890123456789ee".
Theorem C33_paths_refuted : exists (d : bytes) (t : torrent) (f g : torrent_file),
  from_bytes (fun b => b) d = Ok t /\ In f (t_files t) /\ In g (t_files t) /\
  In [46; 46] (path_components (tf_path f)) /\ exists p, tf_path g = 47 :: p.
Proof.
  exists dotdot_torrent. eexists. eexists. eexists.
  split; [vm_compute; reflexivity|]. cbn [t_files].
  split; [left; reflexivity|]. split; [right; left; reflexivity|].
  split; [left; reflexivity|]. eexists. reflexivity.
Qed.
Print Assumptions C33_paths_refuted.
Example C31_example :
  match from_bytes (fun b => b) dotdot_torrent with
  | Ok t => t_total_length t = 2 /\ t_pieces t = [ascii_bytes "01234567890123456789"] /\
            map tf_length (t_files t) = [1; 1] /\ t_tracker_groups t = [[ascii_bytes "a"]] /\
            last_piece_length t = Ok 2
  | _ => False
  end.
Proof. vm_compute. repeat split; reflexivity. Qed.

(** ** C34 *)
Lemma land_bit b k : negb (N.land b (N.shiftl 1 k) =? 0) = N.testbit b k.
Proof.
  rewrite N.shiftl_1_l. destruct (N.testbit b k) eqn:E.
  - assert (N.land b (2 ^ k) <> 0).
    { intros H. assert (T : N.testbit (N.land b (2 ^ k)) k = false) by (rewrite H; apply N.bits_0).
      rewrite N.land_spec, E, N.pow2_bits_true in T. discriminate. }
    destruct (N.eqb_spec (N.land b (2 ^ k)) 0); [contradiction|reflexivity].
  - assert (H : N.land b (2 ^ k) = 0).
    { apply N.bits_inj. intros i. rewrite N.land_spec, N.bits_0. destruct (N.eqb_spec k i) as [->|NE].
      - rewrite E. reflexivity.
      - rewrite N.pow2_bits_false by auto. apply andb_false_r. }
    rewrite H. reflexivity.
Qed.
Lemma update_from_length i e bs : length (update_from i e bs) = length e.
Proof.
  revert i. induction e as [|x e IH]; intros i; cbn [update_from]; auto.
  destruct (nth_error bs (i / 8)); cbn [length]; auto.
Qed.
Lemma update_from_nth i e bs j : nth_error (update_from i e bs) j =
  match nth_error e j with
  | None => None
  | Some old => Some (match nth_error bs ((i + j) / 8) with
                      | Some b => N.testbit b (N.of_nat (7 - (i + j) mod 8))
                      | None => old
                      end)
  end.
Proof.
  revert i j. induction e as [|x e IH]; intros i j; cbn [update_from].
  - destruct j; reflexivity.
  - destruct (nth_error bs (i / 8)) as [b|] eqn:E.
    + destruct j as [|j]; cbn [nth_error].
      * rewrite Nat.add_0_r, E, land_bit. reflexivity.
      * rewrite IH. replace (S i + j)%nat with (i + S j)%nat by lia. reflexivity.
    + assert (N2 : nth_error bs ((i + j) / 8) = None).
      { apply nth_error_None in E. apply nth_error_None.
        assert (i / 8 <= (i + j) / 8)%nat by (apply Nat.div_le_mono; lia). lia. }
      rewrite N2. destruct (nth_error (x :: e) j); reflexivity.
Qed.
(** Entry [i] becomes bit 7-(i mod 8) of byte i/8, if there is such a byte. *)
Theorem C34_update_exact : forall (e : bitfield) (bs : bytes) (i : nat),
  nth_error (update_from_bytes e bs) i =
  match nth_error e i with
  | None => None
  | Some old => Some (match nth_error bs (i / 8) with
                      | Some b => N.testbit b (N.of_nat (7 - i mod 8))
                      | None => old
                      end)
  end.
Proof. exact (fun e bs i => update_from_nth 0 e bs i). Qed.
Print Assumptions C34_update_exact.
Lemma counts_add e : (num_set e + num_clear e = length e)%nat.
Proof. induction e as [|[|] e IH]; cbn [num_set num_clear negb length]; lia. Qed.
(** After any sequence of updates of a new field: the size and the counts. *)
Theorem C34_counts : forall (size : nat) (updates : list bytes),
  let e := fold_left update_from_bytes updates (bf_new size) in
  length e = size /\ (num_set e + num_clear e = size)%nat /\
  num_set e = length (filter (fun b => b) e).
Proof.
  intros size updates e.
  assert (L : length e = size).
  { subst e. assert (K : forall e0, length (fold_left update_from_bytes updates e0) = length e0).
    { induction updates as [|u us IH]; intros e0; cbn [fold_left]; auto. rewrite IH. apply update_from_length. }
    rewrite K. apply repeat_length. }
  split; [exact L|]. split; [rewrite counts_add; exact L|].
  clear L. induction e as [|[|] e IH]; cbn [num_set filter length]; auto.
Qed.
Print Assumptions C34_counts.
Example C34_example :
  update_from_bytes (bf_new 10) [0x5a; 0xa5] =
  [false; true; false; true; true; false; true; false; true; false].
Proof. vm_compute. reflexivity. Qed.
