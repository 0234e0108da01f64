(** C126: a file is read as a torrent exactly if it is one. *)
From Verif Require Import Base BaseProofs BencodeModel BencodeSpec BencodeProofs BencodeProofs2 BencodeProps TorrentModel TorrentProps TorrentExactSpec.
Ltac Zify.zify_post_hook ::= Z.div_mod_to_equations.

(** *** Where the entries of a dictionary are written *)
Definition shown (w : written) : bytes * bval := (w_key w, w_value w).
Lemma entries_list s es : ben_entries s es -> exists l, s = concat (map entry_text l) /\ Forall entry_good l /\ es = map shown l.
Proof.
  induction 1 as [|ks k s1 s2 b es Bk Uk B Be (l & -> & F & ->)].
  - exists []. auto.
  - exists ({| w_key_text := ks; w_key := k; w_text := s1; w_value := b |} :: l). cbn [map concat shown w_key w_value]. change (entry_text {| w_key_text := ks; w_key := k; w_text := s1; w_value := b |}) with (ks ++ s1). rewrite <- app_assoc.
    split; [reflexivity|]. split; [|reflexivity]. constructor; [|exact F]. split; [exact Bk|]. split; [exact Uk|exact B].
Qed.
Lemma bstring_unique ks ks' k k' r r' : bstring ks k -> bstring ks' k' -> fits (ks ++ r) -> ks ++ r = ks' ++ r' -> ks = ks' /\ k = k'.
Proof.
  intros A B F E. destruct (C29_grammar_unambiguous ks ks' r r' (BBytes k) (BBytes k') (ben_bytes _ _ A) (ben_bytes _ _ B) F E) as [H1 H2].
  injection H2 as H2. auto.
Qed.
Lemma fits_tail (a b : bytes) : fits (a ++ b) -> fits b.
Proof. unfold fits, blen. rewrite app_length. lia. Qed.
Lemma lists_unique l : forall l' p p', Forall entry_good l -> Forall entry_good l' -> fits (concat (map entry_text l) ++ [101] ++ p) ->
  concat (map entry_text l) ++ [101] ++ p = concat (map entry_text l') ++ [101] ++ p' -> l = l'.
Proof.
  induction l as [|w l IH]; intros [|w' l'] p p' F F' Fi E; cbn [map concat] in *; [reflexivity|..].
  - exfalso. inversion F' as [|? ? (B & _) _]; subst. unfold entry_text in E. destruct (bstring_not_e _ _ B) as (c & t & K & NE). rewrite K in E. cbn [app] in E. injection E as E _. congruence.
  - exfalso. inversion F as [|? ? (B & _) _]; subst. unfold entry_text in E. destruct (bstring_not_e _ _ B) as (c & t & K & NE). rewrite K in E. cbn [app] in E. injection E as E _. congruence.
  - inversion F as [|? ? (B & _ & V) F1]; subst. inversion F' as [|? ? (B' & _ & V') F1']; subst. change (entry_text w) with (w_key_text w ++ w_text w) in E, Fi. change (entry_text w') with (w_key_text w' ++ w_text w') in E. repeat rewrite <- app_assoc in E. repeat rewrite <- app_assoc in Fi.
    destruct (bstring_unique _ _ _ _ _ _ B B' Fi E) as [K1 K2]. rewrite K1 in E. apply app_inv_head in E. apply fits_tail in Fi.
    destruct (C29_grammar_unambiguous _ _ _ _ _ _ V V' Fi E) as [K3 K4]. rewrite K3 in E. apply app_inv_head in E. apply fits_tail in Fi.
    rewrite (IH l' p p' F1 F1' Fi E). f_equal. destruct w, w'; cbn in *; congruence.
Qed.
Lemma last_split {A B} (f : A -> B) (l1 l2 m1 m2 : list A) x y : l1 ++ x :: l2 = m1 ++ y :: m2 -> f x = f y -> ~ In (f x) (map f l2) -> ~ In (f x) (map f m2) -> l1 = m1 /\ x = y /\ l2 = m2.
Proof.
  revert m1. induction l1 as [|a l1 IH]; intros [|b m1] E K N1 N2; cbn [app] in E.
  - injection E as -> ->. auto.
  - exfalso. injection E as -> ->. apply N1. rewrite map_app. apply in_or_app. right. left. auto.
  - exfalso. injection E as -> <-. apply N2. rewrite map_app. apply in_or_app. right. left. reflexivity.
  - injection E as -> E. destruct (IH m1 E K N1 N2) as (-> & -> & ->). auto.
Qed.
Lemma last_written_unique s k x x' b b' : fits s -> last_written s k x b -> last_written s k x' b' -> x = x' /\ b = b'.
Proof.
  intros Fi (l1 & w & l2 & (E & F) & K & X & V & N1) (m1 & w' & m2 & (E' & F') & K' & X' & V' & N1'). rewrite E in E'. cbn [app] in E'. injection E' as E'.
  assert (L : l1 ++ w :: l2 = m1 ++ w' :: m2).
  { apply (lists_unique _ _ [] [] F F'); [|exact E']. rewrite E in Fi. exact (fits_tail [100] _ Fi). }
  destruct (last_split w_key _ _ _ _ _ _ L ltac:(congruence) ltac:(congruence) ltac:(congruence)) as (_ & -> & _). split; congruence.
Qed.

(** The parser's locations of the entries. *)
Lemma entries_placed fuel : forall pre rest m m' e, parse_entries fuel (pre ++ rest) (length pre) m = Ok (m', e) -> key_sorted m ->
  exists l post, rest = concat (map entry_text l) ++ [101] ++ post /\ e = length (pre ++ concat (map entry_text l) ++ [101]) /\ Forall entry_good l /\
    forall k v, In (k, v) m' -> (In (k, v) m /\ ~ In k (map w_key l)) \/
      exists l1 w l2, l = l1 ++ w :: l2 /\ w_key w = k /\ w_value w = strip v /\ ~ In k (map w_key l2) /\
        slice (pre ++ rest) (loc_of v) = w_text w.
Proof.
  induction fuel as [|fuel IH]; intros pre rest m m' e H S; [discriminate H|]. cbn [parse_entries] in H. unfold peek in H. destruct rest as [|b rest]; [rewrite nth_at_end in H; discriminate|].
  rewrite nth_at in H. destruct (b =? 101) eqn:B.
  - rewrite advance_at in H. injection H as <- <-. apply N.eqb_eq in B. subst b. exists [], rest. cbn [map concat app]. split; [reflexivity|]. split; [reflexivity|]. split; [constructor|]. intros k v I. left. auto.
  - apply bind_ok in H. destruct H as ([k o1] & H1 & H). apply utf8_string_inv in H1. destruct H1 as (ks & r1 & E & Bk & Uk & ->). rewrite E in *. clear E b B rest.
    rewrite app_assoc in H. apply bind_ok in H. destruct H as ([v o2] & H1 & H). apply (proj1 (parse_sound fuel)) in H1. destruct H1 as (x & r2 & -> & -> & Bx & Lx & _).
    rewrite app_assoc in H. apply IH in H; [|apply insert_sorted, S]. destruct H as (l & post & -> & -> & F & P).
    set (w0 := {| w_key_text := ks; w_key := k; w_text := x; w_value := strip v |}).
    exists (w0 :: l), post. cbn [map concat]. change (entry_text w0) with (ks ++ x). rewrite <- !app_assoc. split; [reflexivity|]. split; [rewrite <- ?app_assoc; reflexivity|].
    split; [constructor; [split; [exact Bk|]; split; [exact Uk|exact Bx]|exact F]|].
    intros k' v' I. specialize (P k' v' I). rewrite <- !app_assoc in P. destruct P as [(I' & NI)|(l1 & w & l2 & -> & K & V & NI & SL)].
    + apply (insert_spec _ _ _ _ _ S) in I'. destruct I' as [[-> ->]|[NE I']].
      * right. exists [], w0, l. split; [reflexivity|]. split; [reflexivity|]. split; [reflexivity|]. split; [exact NI|]. rewrite Lx.
        pose proof (slice_at (pre ++ ks) x (concat (map entry_text l) ++ [101] ++ post)) as Q. rewrite <- !app_assoc in Q. rewrite <- !app_assoc. exact Q.
      * left. split; [exact I'|]. cbn [map w_key w0 In]. intros [Q|Q]; [apply NE; symmetry; exact Q|exact (NI Q)].
    + right. exists (w0 :: l1), w, l2. split; [reflexivity|]. auto.
Qed.
Lemma dict_placed d l m e : parse_prefix d = Ok (VDict l m, e) ->
  exists s post, d = s ++ post /\ e = length s /\ forall k v, In (k, v) m -> last_written s k (slice d (loc_of v)) (strip v).
Proof.
  unfold parse_prefix. generalize (fuel_for d). intros fuel H. destruct fuel as [|fuel]; [discriminate H|]. cbn [parse_value] in H. destruct d as [|b d]; [discriminate H|]. change (peek (b :: d) 0) with (Some b) in H. cbv beta iota in H.
  destruct (b =? 105); [apply bind_ok in H; destruct H as ([n o] & _ & H); discriminate H|]. destruct (b =? 108); [apply bind_ok in H; destruct H as (o & _ & H); apply bind_ok in H; destruct H as ([n o2] & _ & H); discriminate H|].
  destruct (b =? 100) eqn:B; [|destruct (is_digit b); [apply bind_ok in H; destruct H as ([n o] & _ & H); discriminate H|discriminate H]].
  apply bind_ok in H. destruct H as (o1 & X & H). apply (expect_inv [] (b :: d)) in X. destruct X as (post & E & ->). injection E as -> ->.
  apply bind_ok in H. destruct H as ([m1 o2] & P & H). injection H as <- <- <-. apply (entries_placed fuel [100] post [] m1 o2) in P; [|constructor].
  destruct P as (ws & rest & -> & -> & F & P). exists ([100] ++ concat (map entry_text ws) ++ [101]), rest. split; [cbn [app]; rewrite <- app_assoc; reflexivity|]. split; [reflexivity|].
  intros k v I. destruct (P k v I) as [([] & _)|(l1 & w & l2 & -> & K & V & NI & SL)]. exists l1, w, l2. split; [split; [reflexivity|exact F]|]. split; [exact K|]. split; [symmetry; exact SL|]. split; [exact V|exact NI].
Qed.

(** *** The fields *)
Definition fields_of (sha1 : bytes -> bytes) (data : bytes) : outcome terr torrent :=
  let? v := map_err TParse (parse data) in
  let? root := vl (as_dictionary v) in
  let? info_v := vl (get_required root (key "info")) in
  let? info := vl (as_dictionary info_v) in
  let? name_v := vl (get_required info (key "name")) in
  let? name := vl (as_string name_v) in
  let? al_v := vl (get_required root (key "announce-list")) in
  let? groups := parse_announce_list al_v in
  let? files_v := vl (get_required info (key "files")) in
  let? files := parse_files files_v in
  let? pl_v := vl (get_required info (key "piece length")) in
  let? piece_length := vl (as_integer pl_v) in
  let? ps_v := vl (get_required info (key "pieces")) in
  let? pieces_data := vl (as_byte_string ps_v) in
  if negb (blen pieces_data mod 20 =? 0) then Err (TPiecesNotMultiple (blen pieces_data))
  else
    let? info_bytes := index_range data (l_start (fst info)) (l_end (fst info)) in
    Ok {| t_info_hash := sha1 info_bytes; t_name := name; t_tracker_groups := groups;
          t_files := files; t_piece_length := piece_length; t_pieces := cut20 (length pieces_data) pieces_data;
          t_total_length := total_of files |}.
Lemma sum_exact l : forall acc, acc < two64 -> sum_lengths acc l = if two64 <=? acc + total_of l then Panic else Ok (acc + total_of l).
Proof.
  induction l as [|f l IH]; intros acc A; cbn [sum_lengths].
  - unfold total_of. cbn [map fold_right]. rewrite N.add_0_r. replace (two64 <=? acc) with false by lia. reflexivity.
  - unfold checked_add. change (total_of (f :: l)) with (tf_length f + total_of l). destruct (N.leb_spec two64 (acc + tf_length f)) as [G|G]; cbn [bind].
    + replace (two64 <=? acc + (tf_length f + total_of l)) with true by lia. reflexivity.
    + rewrite IH by exact G. rewrite N.add_assoc. reflexivity.
Qed.
Lemma from_bytes_split sha1 d : from_bytes sha1 d =
  let? t := fields_of sha1 d in
  if (two64 <=? t_total_length t) || (two64 <=? room t) then Panic else if room t <? t_total_length t then Err TNotEnoughPieces else Ok t.
Proof.
  unfold from_bytes, fields_of.
  destruct (map_err TParse (parse d)) as [v|e|]; [|reflexivity..]. cbn [bind].
  destruct (vl (as_dictionary v)) as [root|e|]; [|reflexivity..]. cbn [bind].
  destruct (vl (get_required root (key "info"))) as [iv|e|]; [|reflexivity..]. cbn [bind].
  destruct (vl (as_dictionary iv)) as [info|e|]; [|reflexivity..]. cbn [bind].
  destruct (vl (get_required info (key "name"))) as [nv|e|]; [|reflexivity..]. cbn [bind].
  destruct (vl (as_string nv)) as [name|e|]; [|reflexivity..]. cbn [bind].
  destruct (vl (get_required root (key "announce-list"))) as [av|e|]; [|reflexivity..]. cbn [bind].
  destruct (parse_announce_list av) as [groups|e|]; [|reflexivity..]. cbn [bind].
  destruct (vl (get_required info (key "files"))) as [fv|e|]; [|reflexivity..]. cbn [bind].
  destruct (parse_files fv) as [files|e|]; [|reflexivity..]. cbn [bind].
  destruct (vl (get_required info (key "piece length"))) as [pv|e|]; [|reflexivity..]. cbn [bind].
  destruct (vl (as_integer pv)) as [pl|e|]; [|reflexivity..]. cbn [bind].
  destruct (vl (get_required info (key "pieces"))) as [sv|e|]; [|reflexivity..]. cbn [bind].
  destruct (vl (as_byte_string sv)) as [pd|e|]; [|reflexivity..]. cbn [bind].
  destruct (negb (blen pd mod 20 =? 0)); [reflexivity|]. destruct (index_range d (l_start (fst info)) (l_end (fst info))) as [ib|e|]; [|reflexivity..]. cbn [bind].
  rewrite sum_exact by reflexivity. unfold room, checked_mul. cbn [t_total_length t_piece_length t_pieces]. rewrite N.add_0_l. destruct (two64 <=? total_of files); [reflexivity|]. cbn [bind orb].
  destruct (two64 <=? pl * N.of_nat (length (cut20 (length pd) pd))); reflexivity.
Qed.

(** Reading the fields is sound ... *)
Lemma announce_sound v g : parse_announce_list v = Ok g -> strip v = BList (map (fun g => BList (map BBytes g)) g) /\ Forall (Forall (fun u => utf8_valid u = true)) g.
Proof.
  unfold parse_announce_list. intros H. apply bind_ok in H. destruct H as (gl & H & H'). apply vl_ok, as_list_inv in H. destruct H as [al ->]. apply collect_forall2 in H'. cbn [strip].
  induction H' as [|x y l r H F [IH1 IH2]]; [split; [reflexivity|constructor]|]. apply bind_ok in H. destruct H as (ms & H & H'). apply vl_ok, as_list_inv in H. destruct H as [loc ->].
  apply collect_forall2, strings_strip in H'. destruct H' as [H1 H2]. cbn [map strip]. rewrite H1. injection IH1 as ->. split; [reflexivity|]. constructor; assumption.
Qed.
Lemma fields_sound sha1 d t : fields_of sha1 d = Ok t -> fields sha1 d t.
Proof.
  intros H. unfold fields_of in H.
  apply bind_ok in H. destruct H as (v & P & H). assert (P' : parse d = Ok v) by (destruct (parse d); cbn in P; congruence). clear P. apply parse_inv in P'. destruct P' as [e P].
  apply bind_ok in H. destruct H as ([rl root] & H1 & H). apply vl_ok, as_dict_inv in H1. subst v.
  destruct (dict_placed _ _ _ _ P) as (s & post & Ed & -> & LW). pose proof (prefix_sound _ _ _ P) as (s2 & post2 & Ed2 & Es & Bs & _).
  assert (s2 = s) as ->. { pose proof (f_equal (firstn (length s)) Ed) as Q1. pose proof (f_equal (firstn (length s2)) Ed2) as Q2. rewrite firstn_app_length in Q1, Q2. rewrite Es in Q1. congruence. }
  apply bind_ok in H. destruct H as (iv & H1 & H). apply vl_ok, required_inv in H1. cbn [snd] in H1.
  apply bind_ok in H. destruct H as ([il info] & H2 & H). apply vl_ok, as_dict_inv in H2. subst iv.
  apply bind_ok in H. destruct H as (nv & H3 & H). apply vl_ok, required_inv in H3. cbn [snd] in H3.
  apply bind_ok in H. destruct H as (name & H4 & H). apply vl_ok, as_string_inv in H4. destruct H4 as [[nl ->] Un].
  apply bind_ok in H. destruct H as (av & H5 & H). apply vl_ok, required_inv in H5. cbn [snd] in H5.
  apply bind_ok in H. destruct H as (groups & H6 & H). apply announce_sound in H6. destruct H6 as [A1 A2].
  apply bind_ok in H. destruct H as (fv & H7 & H). apply vl_ok, required_inv in H7. cbn [snd] in H7.
  apply bind_ok in H. destruct H as (files & H8 & H).
  unfold parse_files in H8. apply bind_ok in H8. destruct H8 as (fl & H8 & H8'). apply vl_ok, as_list_inv in H8. destruct H8 as [fll ->]. apply collect_forall2 in H8'.
  apply bind_ok in H. destruct H as (pv & H9 & H). apply vl_ok, required_inv in H9. cbn [snd] in H9.
  apply bind_ok in H. destruct H as (pl & H10 & H). apply vl_ok, as_int_inv in H10. destruct H10 as [pll ->].
  apply bind_ok in H. destruct H as (psv & H11 & H). apply vl_ok, required_inv in H11. cbn [snd] in H11.
  apply bind_ok in H. destruct H as (pd & H12 & H). apply vl_ok, as_bytes_inv in H12. destruct H12 as [psl ->].
  destruct (negb (blen pd mod 20 =? 0)) eqn:M; [discriminate|]. apply bind_ok in H. destruct H as (ib & H13 & H). injection H as <-.
  assert (M' : (length pd mod 20 = 0)%nat) by (unfold blen in M; lia).
  destruct (cut20_ok (length pd) pd (le_n _) M') as [C F20].
  assert (Ib : ib = slice d il).
  { cbn [fst] in H13. unfold index_range in H13. destruct (get_range d (l_start il) (l_end il)) eqn:E; [|discriminate].
    injection H13 as <-. unfold get_range in E. destruct (_ && _); [|discriminate]. injection E as <-. reflexivity. }
  assert (En : forall m k x, In (key k, x) m -> entry (strip_map m) k (strip x)).
  { intros m k x Hx. unfold entry, strip_map. apply in_map_iff. exists (key k, x). auto. }
  exists s, post, (strip_map root), (strip_map info), ib, (map strip fl).
  cbn [t_info_hash t_name t_tracker_groups t_files t_piece_length t_pieces t_total_length].
  split; [exact Ed|]. split; [exact Bs|]. split; [exact (En root "info"%string (VDict il info) H1)|].
  split; [rewrite Ib; exact (LW _ _ H1)|]. split; [reflexivity|].
  split; [exact (En info "name"%string (VBytes nl name) H3)|]. split; [exact Un|].
  split; [rewrite <- A1; exact (En root "announce-list"%string av H5)|]. split; [exact A2|].
  split; [exact (En info "files"%string (VList fll fl) H7)|].
  split; [clear - H8'; induction H8'; cbn [map]; constructor; auto; apply parse_file_ok; auto|].
  split; [exact (En info "piece length"%string (VInt pll pl) H9)|]. split; [rewrite C; exact (En info "pieces"%string (VBytes psl pd) H11)|]. split; [exact F20|reflexivity].
Qed.

(** ... and complete. *)
Lemma sorted_get {A} (m : list (bytes * A)) k v : key_sorted m -> In (k, v) m -> map_get k m = Some v.
Proof.
  induction 1 as [|k1 v1 m L S IH]; intros I; [destruct I|]. cbn [map_get]. destruct I as [I|I].
  - injection I as -> ->. rewrite bytes_eqb_refl. reflexivity.
  - destruct (bytes_eqb k k1) eqn:E; [|exact (IH I)]. apply bytes_eqb_eq in E. subst k1. pose proof (L _ _ I) as Q. rewrite bytes_ltb_irrefl in Q. discriminate.
Qed.
Lemma get_strip m k : map_get k (strip_map m) = option_map strip (map_get k m).
Proof. induction m as [|[k1 v1] m IH]; [reflexivity|]. cbn [strip_map map map_get fst snd]. destruct (bytes_eqb k k1); [reflexivity|exact IH]. Qed.
Lemma required_complete l m k b : key_sorted (strip_map m) -> entry (strip_map m) k b -> exists v, vl (get_required (l, m) (key k)) = Ok v /\ strip v = b /\ In (key k, v) m.
Proof.
  intros S I. apply (sorted_get _ _ _ S) in I. rewrite get_strip in I. unfold get_required. cbn [snd fst]. unfold key. destruct (map_get (ascii_bytes k) m) as [v|] eqn:E; [|discriminate I].
  injection I as I. exists v. split; [reflexivity|]. split; [exact I|]. apply map_get_in, E.
Qed.
(** All dictionaries in the value are sorted. *)
Definition sorted_value (v : value) : Prop := forall l m, subvalue (VDict l m) v -> key_sorted (strip_map m).
Lemma sorted_good d lo hi v : good d lo hi v -> sorted_value v.
Proof.
  intros G l m S. destruct (good_sub _ _ _ _ _ G S) as (B & _). cbn [strip] in B. inversion B as [| | |s es m' Be [Sm _]]; subst. exact Sm.
Qed.
Lemma sorted_child v w : sorted_value v -> child w v -> sorted_value w.
Proof. intros S C l m Q. apply (S l m). exact (sub_step _ _ _ Q C). Qed.
Lemma strings_complete l : forall r, map strip l = map BBytes r -> Forall (fun c => utf8_valid c = true) r -> collect (fun c => vl (as_string c)) l = Ok r.
Proof.
  induction l as [|v l IH]; intros [|c r] E F; cbn [map] in E; try discriminate E; [reflexivity|]. injection E as E1 E2. inversion F as [|? ? U F']; subst. cbn [collect].
  destruct v as [loc d| | |]; cbn [strip] in E1; try discriminate E1. injection E1 as ->.
  assert (Q : vl (as_string (VBytes loc c)) = Ok c) by (unfold as_string; cbn [as_byte_string bind]; rewrite U; reflexivity). rewrite Q. cbn [bind]. rewrite (IH r E2 F'). reflexivity.
Qed.
Lemma announce_complete v g : strip v = BList (map (fun g => BList (map BBytes g)) g) -> Forall (Forall (fun u => utf8_valid u = true)) g -> parse_announce_list v = Ok g.
Proof.
  intros E F. destruct v as [| |loc gl|]; cbn [strip] in E; try discriminate E. injection E as E. unfold parse_announce_list. cbn [as_list vl map_err bind].
  revert g E F. induction gl as [|v gl IH]; intros [|x g] E F; cbn [map] in E; try discriminate E; [reflexivity|]. injection E as E1 E2. inversion F as [|? ? U F']; subst. cbn [collect].
  destruct v as [| |lo ms|]; cbn [strip] in E1; try discriminate E1. injection E1 as E1. cbn [as_list vl map_err bind]. rewrite (strings_complete ms x E1 U). cbn [bind]. rewrite (IH g E2 F'). reflexivity.
Qed.
Lemma file_complete v f : sorted_value v -> describes_file (strip v) f -> parse_file v = Ok f.
Proof.
  intros S (m & comps & E & L & P & U & J). destruct v as [| | |loc mv]; cbn [strip] in E; try discriminate E. injection E as <-. fold (strip_map mv) in L, P.
  pose proof (S _ _ (sub_refl _)) as Sm. destruct (required_complete loc mv _ _ Sm L) as (lv & E1 & E2 & _). destruct (required_complete loc mv _ _ Sm P) as (pv & E3 & E4 & _).
  unfold parse_file. cbn [as_dictionary vl map_err bind]. rewrite E1. cbn [bind]. rewrite E3. cbn [bind].
  destruct lv; cbn [strip] in E2; try discriminate E2. injection E2 as ->. destruct pv; cbn [strip] in E4; try discriminate E4. injection E4 as E4. cbn [as_integer as_list vl map_err bind].
  rewrite (strings_complete _ _ E4 U). cbn [bind]. rewrite join_path_joined, <- J. destruct f; reflexivity.
Qed.
Lemma files_complete l : forall files, (forall v, In v l -> sorted_value v) -> Forall2 describes_file (map strip l) files -> collect parse_file l = Ok files.
Proof.
  induction l as [|v l IH]; intros files S F; cbn [map] in F; inversion F as [|? f ? fs D F']; subst; [reflexivity|]. cbn [collect].
  rewrite (file_complete v f (S v (or_introl eq_refl)) D). cbn [bind]. rewrite (IH fs (fun x I => S x (or_intror I)) F'). reflexivity.
Qed.
Lemma cut20_concat l : forall fuel, Forall (fun p : bytes => length p = 20%nat) l -> (length (concat l) <= fuel)%nat -> cut20 fuel (concat l) = l.
Proof.
  induction l as [|p l IH]; intros fuel F L; [destruct fuel; reflexivity|]. inversion F as [|? ? P F']; subst. cbn [concat] in *. rewrite app_length in L. destruct fuel as [|fuel]; [lia|]. cbn [cut20].
  rewrite app_length. replace (20 <=? length p + length (concat l))%nat with true by lia. rewrite <- P, firstn_app_length, skipn_app_length. f_equal. apply IH; [exact F'|lia].
Qed.
Lemma concat20 l : Forall (fun p : bytes => length p = 20%nat) l -> length (concat l) = (20 * length l)%nat.
Proof. induction 1 as [|p l P F IH]; [reflexivity|]. cbn [concat]. rewrite app_length. cbn [length]. lia. Qed.
Lemma fields_complete sha1 d t : fits d -> fields sha1 d t -> fields_of sha1 d = Ok t.
Proof.
  intros Fi (s & post & root & info & ib & fvals & Ed & Bs & I1 & LW & Hh & I2 & Un & I3 & Ua & I4 & Ff & I5 & I6 & F20 & Ht).
  rewrite Ed in Fi. destruct (prefix_complete s post _ Bs Fi) as (v & P & Sv). rewrite <- Ed in *.
  destruct v as [| | |rl rm]; cbn [strip] in Sv; try discriminate Sv. injection Sv as Sv. fold (strip_map rm) in Sv. subst root.
  destruct (dict_placed _ _ _ _ P) as (s2 & post2 & Ed2 & Es & PL).
  assert (s2 = s) as ->. { pose proof (f_equal (firstn (length s)) Ed) as Q1. pose proof (f_equal (firstn (length s2)) Ed2) as Q2. rewrite firstn_app_length in Q1, Q2. rewrite <- Es in Q2. congruence. }
  pose proof (prefix_sound _ _ _ P) as (s3 & post3 & Ed3 & _ & _ & _ & G). pose proof (sorted_good _ _ _ _ G) as So.
  pose proof (So _ _ (sub_refl _)) as Sr.
  destruct (required_complete rl rm _ _ Sr I1) as (iv & R1 & S1 & In1). destruct (required_complete rl rm _ _ Sr I3) as (av & R3 & S3 & _).
  destruct iv as [| | |il im]; cbn [strip] in S1; try discriminate S1. injection S1 as S1. fold (strip_map im) in S1. subst info.
  assert (Ci : child (VDict il im) (VDict rl rm)) by (exists (key "info"); exact In1).
  pose proof (sorted_child _ _ So Ci) as Si. pose proof (Si _ _ (sub_refl _)) as Sm.
  assert (Ib : slice d il = ib).
  { apply (fun Q => proj1 (last_written_unique s (ascii_bytes "info") _ _ _ _ Q (PL _ _ In1) LW)). unfold fits, blen in *. rewrite Ed, app_length in Fi. lia. }
  destruct (required_complete il im _ _ Sm I2) as (nv & R2 & S2 & _). destruct (required_complete il im _ _ Sm I4) as (fv & R4 & S4 & In4).
  destruct (required_complete il im _ _ Sm I5) as (pv & R5 & S5 & _). destruct (required_complete il im _ _ Sm I6) as (sv & R6 & S6 & _).
  assert (Ix : index_range (E := terr) d (l_start il) (l_end il) = Ok ib).
  { assert (Sub : subvalue (VDict il im) (VDict rl rm)) by (eapply sub_step; [apply sub_refl|exact Ci]). destruct (good_sub _ _ _ _ _ G Sub) as (_ & In & _). cbn [loc_of] in In. unfold inside in In. cbn [l_start l_end] in In.
    assert (LS : (length s3 <= length d)%nat) by (rewrite Ed3, app_length; lia). rewrite <- Ib. unfold index_range, get_range, slice. replace ((l_start il <=? l_end il) && (l_end il <=? length d))%nat with true by lia. reflexivity. }
  unfold fields_of, parse. rewrite P. cbn [bind map_err as_dictionary vl]. rewrite R1. cbn [bind as_dictionary vl map_err]. rewrite R2. cbn [bind].
  destruct nv; cbn [strip] in S2; try discriminate S2. injection S2 as ->. unfold as_string at 1. cbn [as_byte_string bind]. rewrite Un. cbn [vl map_err bind]. rewrite R3. cbn [bind]. rewrite (announce_complete _ _ S3 Ua). cbn [bind]. rewrite R4. cbn [bind].
  destruct fv as [| |fl fs|]; cbn [strip] in S4; try discriminate S4. injection S4 as S4. unfold parse_files. cbn [as_list vl map_err bind].
  rewrite (files_complete fs (t_files t)); [|intros x Ix2; apply (sorted_child (VList fl fs)); [apply (sorted_child _ _ Si); exists (key "files"); exact In4|exact Ix2]|rewrite S4; exact Ff].
  cbn [bind]. rewrite R5. cbn [bind]. destruct pv; cbn [strip] in S5; try discriminate S5. injection S5 as ->. cbn [as_integer vl map_err bind]. rewrite R6. cbn [bind].
  destruct sv; cbn [strip] in S6; try discriminate S6. injection S6 as ->. cbn [as_byte_string vl map_err bind fst].
  assert (M : negb (blen (concat (t_pieces t)) mod 20 =? 0) = false) by (unfold blen; rewrite (concat20 _ F20); lia). rewrite M, Ix. cbn [bind]. rewrite (cut20_concat _ _ F20 (le_n _)), <- Hh, <- Ht. destruct t; reflexivity.
Qed.

(** The other results of reading the fields. *)
Definition plain {A} (x : outcome terr A) : Prop := x <> Panic /\ x <> Err TNotEnoughPieces.
Lemma plain_bind {A B} (x : outcome terr A) (f : A -> outcome terr B) : plain x -> (forall a, x = Ok a -> plain (f a)) -> plain (bind x f).
Proof. intros [H1 H2] F. destruct x as [a|e|]; cbn [bind]; [exact (F a eq_refl)|split; congruence|congruence]. Qed.
Lemma plain_vl {A} (x : outcome verr A) : x <> Panic -> plain (vl x).
Proof. intros H. destruct x; cbn [vl map_err]; split; congruence. Qed.
Lemma plain_collect {A B} (f : A -> outcome terr B) l : (forall a, plain (f a)) -> plain (collect f l).
Proof. intros F. induction l as [|a l IH]; cbn [collect]; [split; discriminate|]. apply plain_bind; [apply F|]. intros b _. apply plain_bind; [exact IH|]. intros r _. split; discriminate. Qed.
Lemma plain_string v : plain (vl (as_string v)).
Proof. apply plain_vl. unfold as_string. destruct v as [loc x| | |]; cbn [as_byte_string bind]; try discriminate. destruct (utf8_valid x); discriminate. Qed.
Lemma plain_list v : plain (vl (as_list v)). Proof. apply plain_vl. destruct v; discriminate. Qed.
Lemma plain_dict v : plain (vl (as_dictionary v)). Proof. apply plain_vl. destruct v; discriminate. Qed.
Lemma plain_bytes v : plain (vl (as_byte_string v)). Proof. apply plain_vl. destruct v; discriminate. Qed.
Lemma plain_int v : plain (vl (as_integer v)). Proof. apply plain_vl. destruct v; discriminate. Qed.
Lemma plain_get m k : plain (vl (get_required m k)). Proof. apply plain_vl. unfold get_required, of_option. destruct (map_get k (snd m)); discriminate. Qed.
Lemma fields_plain sha1 d : plain (fields_of sha1 d).
Proof.
  unfold fields_of. apply plain_bind. { pose proof (C30_parser_total d) as [H _]. destruct (parse d); cbn [map_err]; split; congruence. }
  intros v Pv. assert (P' : parse d = Ok v) by (destruct (parse d); cbn in Pv; congruence). clear Pv. apply parse_inv in P'. destruct P' as [e P].
  apply plain_bind; [apply plain_dict|]. intros [rl rm] H1. apply vl_ok, as_dict_inv in H1. subst v. pose proof (prefix_sound _ _ _ P) as (s & post & Ed & Es & _ & Lv & G).
  apply plain_bind; [apply plain_get|]. intros iv H2. apply vl_ok, required_inv in H2. cbn [snd] in H2. apply plain_bind; [apply plain_dict|]. intros [il im] H3. apply vl_ok, as_dict_inv in H3. subst iv.
  apply plain_bind; [apply plain_get|]. intros nv _. apply plain_bind; [apply plain_string|]. intros name _. apply plain_bind; [apply plain_get|]. intros av _.
  apply plain_bind. { unfold parse_announce_list. apply plain_bind; [apply plain_list|]. intros g _. apply plain_collect. intros a. apply plain_bind; [apply plain_list|]. intros ms _. apply plain_collect, plain_string. }
  intros groups _. apply plain_bind; [apply plain_get|]. intros fv _.
  apply plain_bind. { unfold parse_files. apply plain_bind; [apply plain_list|]. intros l _. apply plain_collect. intros a. unfold parse_file. apply plain_bind; [apply plain_dict|]. intros m _.
    apply plain_bind; [apply plain_get|]. intros lv _. apply plain_bind; [apply plain_get|]. intros pv _. apply plain_bind; [apply plain_int|]. intros n _. apply plain_bind; [apply plain_list|]. intros cv _.
    apply plain_bind; [apply plain_collect, plain_string|]. intros cs _. split; discriminate. }
  intros files _. apply plain_bind; [apply plain_get|]. intros pv _. apply plain_bind; [apply plain_int|]. intros pl _. apply plain_bind; [apply plain_get|]. intros sv _. apply plain_bind; [apply plain_bytes|]. intros pd _.
  destruct (negb (blen pd mod 20 =? 0)); [split; discriminate|]. cbn [fst].
  assert (Ci : child (VDict il im) (VDict rl rm)) by (exists (key "info"); exact H2).
  assert (Sub : subvalue (VDict il im) (VDict rl rm)) by (eapply sub_step; [apply sub_refl|exact Ci]). destruct (good_sub _ _ _ _ _ G Sub) as (_ & In & _). cbn [loc_of] in In. unfold inside in In. cbn [l_start l_end] in In.
  assert (LS : (length s <= length d)%nat) by (rewrite Ed, app_length; lia). unfold index_range, get_range. replace ((l_start il <=? l_end il) && (l_end il <=? length d))%nat with true by lia. split; discriminate.
Qed.

(** *** The theorems *)
(** The file says at most one thing. *)
Theorem C126_one_reading sha1 d t t' : fits d -> fields sha1 d t -> fields sha1 d t' -> t = t'.
Proof. intros F A B. apply (fields_complete _ _ _ F) in A. apply (fields_complete _ _ _ F) in B. congruence. Qed.
Print Assumptions C126_one_reading.
(** A file is accepted exactly if it has all that a torrent needs and the pieces can hold the
    files; what is read is what it says.  Reading panics exactly if the length of the files or
    what the pieces can hold does not fit in 64 bits. *)
Theorem C126_exact sha1 d : fits d ->
  (forall t, from_bytes sha1 d = Ok t <-> fields sha1 d t /\ t_total_length t <= room t /\ room t < two64) /\
  (from_bytes sha1 d = Panic <-> exists t, fields sha1 d t /\ (two64 <= t_total_length t \/ two64 <= room t)) /\
  (from_bytes sha1 d = Err TNotEnoughPieces <-> exists t, fields sha1 d t /\ room t < t_total_length t < two64) /\
  ((exists e, e <> TNotEnoughPieces /\ from_bytes sha1 d = Err e) <-> forall t, ~ fields sha1 d t).
Proof.
  intros F. rewrite from_bytes_split. destruct (fields_plain sha1 d) as [NP NE].
  assert (EX : forall t, fields sha1 d t <-> fields_of sha1 d = Ok t) by (intros t; split; [apply fields_complete, F|apply fields_sound]).
  setoid_rewrite EX. clear EX. destruct (fields_of sha1 d) as [t|e|]; [..|congruence]; cbn [bind].
  - destruct (N.leb_spec two64 (t_total_length t)) as [A|A]; [|destruct (N.leb_spec two64 (room t)) as [B|B]; [|destruct (N.ltb_spec (room t) (t_total_length t)) as [C|C]]]; cbn [orb].
    + split; [intros t'; split; [discriminate|intros (H & H1 & H2); injection H as <-; lia]|]. split; [split; [intros _; exists t; auto|reflexivity]|].
      split; [split; [discriminate|intros (t' & H & H1); injection H as <-; lia]|]. split; [intros (e & _ & H); discriminate H|intros H; destruct (H t eq_refl)].
    + split; [intros t'; split; [discriminate|intros (H & H1 & H2); injection H as <-; lia]|]. split; [split; [intros _; exists t; auto|reflexivity]|].
      split; [split; [discriminate|intros (t' & H & H1); injection H as <-; lia]|]. split; [intros (e & _ & H); discriminate H|intros H; destruct (H t eq_refl)].
    + split; [intros t'; split; [discriminate|intros (H & H1 & H2); injection H as <-; lia]|]. split; [split; [discriminate|intros (t' & H & H1); injection H as <-; lia]|].
      split; [split; [intros _; exists t; auto|reflexivity]|]. split; [intros (e & H1 & H); congruence|intros H; destruct (H t eq_refl)].
    + split; [intros t'; split; [intros H; injection H as <-; auto|intros (H & _); exact H]|]. split; [split; [discriminate|intros (t' & H & H1); injection H as <-; lia]|].
      split; [split; [discriminate|intros (t' & H & H1); injection H as <-; lia]|]. split; [intros (e & _ & H); discriminate H|intros H; destruct (H t eq_refl)].
  - split; [intros t'; split; [discriminate|intros (H & _); discriminate H]|]. split; [split; [discriminate|intros (t' & H & _); discriminate H]|].
    split; [split; [congruence|intros (t' & H & _); discriminate H]|]. split; [intros _ t' H; discriminate H|intros _; exists e; split; [congruence|reflexivity]].
Qed.
Print Assumptions C126_exact.

(** A torrent that is accepted, one that lists its info twice (the last counts), one whose
    lengths overflow, one with too few pieces, and one without trackers. *)
Definition twice_torrent : bytes :=
  ascii_bytes "d4:infod4:name1:xe13:announce-listll1:aee4:infod5:filesld6:lengthi7e4:pathl1:xeee4:name1:n12:piece lengthi10e6:pieces020:01234567890123456789ee...".
Definition huge_torrent : bytes :=
  ascii_bytes "d13:announce-listll1:aee4:infod5:filesld6:lengthi9223372036854775808e4:pathl1:xeed6:lengthi9223372036854775808e4:pathl1:yeee4:name1:n12:piece lengthi10e6:pieces20:01234567890123456789ee".
Definition short_torrent : bytes :=
  ascii_bytes "d13:announce-listll1:aee4:infod5:filesld6:lengthi11e4:pathl1:xeee4:name1:n12:piece lengthi10e6:pieces20:01234567890123456789ee".
Definition lonely_torrent : bytes :=
  ascii_bytes "d4:infod5:filesld6:lengthi1e4:pathl1:xeee4:name1:n12:piece lengthi10e6:pieces20:01234567890123456789ee".
Example C126_case :
  match from_bytes (fun b => b) twice_torrent with
  | Ok t => t_info_hash t = ascii_bytes "d5:filesld6:lengthi7e4:pathl1:xeee4:name1:n12:piece lengthi10e6:pieces020:01234567890123456789e" /\ t_total_length t = 7 /\ fits twice_torrent
  | _ => False
  end /\
  from_bytes (fun b => b) huge_torrent = Panic /\ from_bytes (fun b => b) short_torrent = Err TNotEnoughPieces /\
  match from_bytes (fun b => b) lonely_torrent with Err (TValue (VMissingKey _ k)) => k = ascii_bytes "announce-list" | _ => False end.
Proof. vm_compute. repeat split; reflexivity. Qed.
