(** Why a file is not a torrent: C131. *)
From Verif Require Import Base BaseProofs BencodeModel BencodeSpec BencodeProps TorrentModel ChatModel UtilModel BencodePathModel BencodePathProps TorrentTextModel.
Local Open Scope string_scope. Local Open Scope list_scope. Local Open Scope N_scope.

(** *** Specification *)
(** The value that some steps lead to. *)
Fixpoint at_steps (v : pvalue) (s : list step) : option pvalue :=
  match s with
  | [] => Some v
  | At i :: t => match v with PList _ l => match nth_error l i with Some w => at_steps w t | None => None end | _ => None end
  | Of k :: t => match v with PDict _ m => match find (fun e => bytes_eqb k (fst e)) m with Some e => at_steps (snd e) t | None => None end | _ => None end
  end.
Inductive kind := KDictionary | KList | KBytes | KInteger.
Definition kind_of (v : pvalue) : kind := match v with PBytes _ _ => KBytes | PInt _ _ => KInteger | PList _ _ => KList | PDict _ _ => KDictionary end.
Definition kind_name (k : kind) : string := match k with KDictionary => "dictionary" | KList => "list" | KBytes => "bytes" | KInteger => "integer" end.
(** What is asked of a value: that it is of a kind, that it has a key, that it is text. *)
Inductive demand := IsA (s : list step) (k : kind) | HasKey (s : list step) (k : bytes) | IsText (s : list step).
Definition met (v : pvalue) (d : demand) : Prop :=
  match d with
  | IsA s k => exists w, at_steps v s = Some w /\ kind_of w = k
  | HasKey s k => exists w, at_steps v (s ++ [Of k]) = Some w
  | IsText s => exists l t, at_steps v s = Some (PBytes l t) /\ utf8_valid t = true
  end.
(** The message for a demand that is not met. *)
Definition complaint (utf8 : bytes -> bytes) (v : pvalue) (d : demand) (text : bytes) : Prop :=
  match d with
  | IsA s k => text = path_text s ++ ascii_bytes ": Expected " ++ ascii_bytes (kind_name k)
  | HasKey s k => text = path_text s ++ ascii_bytes ": Missing key: " ++ k
  | IsText s => exists l t, at_steps v s = Some (PBytes l t) /\ text = path_text s ++ ascii_bytes ": " ++ utf8 t
  end.
(** The demands on a torrent, in the order in which they are made. *)
Definition indices (v : pvalue) (s : list step) : list nat := match at_steps v s with Some (PList _ l) => seq 0 (length l) | _ => [] end.
Definition k (s : string) : step := Of (ascii_bytes s).
Definition text_at (s : list step) : list demand := [IsA s KBytes; IsText s].
Definition list_at (v : pvalue) (s : list step) (each : list step -> list demand) : list demand :=
  IsA s KList :: flat_map (fun i => each (s ++ [At i])) (indices v s).
Definition file_at (v : pvalue) (s : list step) : list demand :=
  [IsA s KDictionary; HasKey s (ascii_bytes "length"); HasKey s (ascii_bytes "path"); IsA (s ++ [k "length"]) KInteger] ++
  list_at v (s ++ [k "path"]) text_at.
Definition demands (v : pvalue) : list demand :=
  [IsA [] KDictionary; HasKey [] (ascii_bytes "info"); IsA [k "info"] KDictionary; HasKey [k "info"] (ascii_bytes "name")] ++ text_at [k "info"; k "name"] ++
  [HasKey [] (ascii_bytes "announce-list")] ++ list_at v [k "announce-list"] (fun s => list_at v s text_at) ++
  [HasKey [k "info"] (ascii_bytes "files")] ++ list_at v [k "info"; k "files"] (file_at v) ++
  [HasKey [k "info"] (ascii_bytes "piece length"); IsA [k "info"; k "piece length"] KInteger; HasKey [k "info"] (ascii_bytes "pieces"); IsA [k "info"; k "pieces"] KBytes].
(** The first demand that is not met. *)
Definition first_unmet (v : pvalue) (ds : list demand) (d : demand) : Prop :=
  exists a b, ds = a ++ d :: b /\ Forall (met v) a /\ ~ met v d.
(** Forgetting paths and texts. *)
Definition forget_loc (l : plocation) : location := mkloc (pl_start l) (pl_end l).
Definition forget_value (e : pverr) : verr :=
  match e with WBadUtf8 l _ => VBadUtf8 (forget_loc l) | WMissingKey l k => VMissingKey (forget_loc l) k | WNotType l _ => VNotType (forget_loc l) end.
Definition same_error (p : pterr) (t : terr) : Prop :=
  match t with
  | TPiecesNotMultiple n => p = UString (ascii_bytes "Pieces data is " ++ decimal_text n ++ ascii_bytes " bytes, which is not a multiple of 20")
  | TNotEnoughPieces => p = UString (ascii_bytes "Not enough pieces")
  | TValue e => exists e', p = UValue e' /\ forget_value e' = e
  | TParse e => exists path, p = UParse (path, e)
  end.
Definition agree {A B} (r : A -> B -> Prop) (x : outcome pterr A) (y : outcome terr B) : Prop :=
  match x, y with Ok a, Ok b => r a b | Err p, Err t => same_error p t | Panic, Panic => True | _, _ => False end.

(** *** The reader with paths is the reader. *)
Lemma agree_bind {A A' B B'} (r : A -> A' -> Prop) (q : B -> B' -> Prop) x y f g : agree r x y -> (forall a a', r a a' -> agree q (f a) (g a')) -> agree q (bind x f) (bind y g).
Proof. destruct x, y; cbn; intros H K; try contradiction; auto. Qed.
Definition erased (v : pvalue) (w : value) : Prop := w = erase v.
Lemma loc_erase v : loc_of (erase v) = forget_loc (ploc_of v). Proof. destruct v; reflexivity. Qed.
Lemma agree_list v : agree (fun a b => b = map erase a) (wl (as_list_p v)) (vl (as_list (erase v))).
Proof. destruct v; cbn; first [reflexivity|eexists; split; reflexivity]. Qed.
Lemma agree_dict v : agree (fun a b => b = (forget_loc (fst a), erase_map (snd a))) (wl (as_dictionary_p v)) (vl (as_dictionary (erase v))).
Proof. destruct v; cbn; first [reflexivity|eexists; split; reflexivity]. Qed.
Lemma agree_int v : agree eq (wl (as_integer_p v)) (vl (as_integer (erase v))).
Proof. destruct v; cbn; first [reflexivity|eexists; split; reflexivity]. Qed.
Lemma agree_bytes v : agree eq (wl (as_byte_string_p v)) (vl (as_byte_string (erase v))).
Proof. destruct v; cbn; first [reflexivity|eexists; split; reflexivity]. Qed.
Lemma agree_string v : agree eq (wl (as_string_p v)) (vl (as_string (erase v))).
Proof. destruct v as [l d|l n|l x|l m]; cbn; try (eexists; split; reflexivity). destruct (utf8_valid d); cbn; [reflexivity|eexists; split; reflexivity]. Qed.
Lemma erase_get key m : map_get key (erase_map m) = option_map erase (map_get key m).
Proof. induction m as [|[k0 v] m IH]; [reflexivity|]. cbn [erase_map map map_get fst snd]. destruct (bytes_eqb key k0); [reflexivity|exact IH]. Qed.
Lemma agree_get l m key : agree (fun a b => b = erase a) (wl (get_required_p (l, m) key)) (vl (get_required (forget_loc l, erase_map m) key)).
Proof. unfold get_required_p, get_required. cbn [fst snd]. rewrite erase_get. destruct (map_get key m); cbn; [reflexivity|eexists; split; reflexivity]. Qed.
Lemma agree_collect {B B'} (r : B -> B' -> Prop) (f : pvalue -> outcome pterr B) (g : value -> outcome terr B') : (forall v, agree r (f v) (g (erase v))) -> forall l, agree (Forall2 r) (collect f l) (collect g (map erase l)).
Proof.
  intros H. induction l as [|x l IH]; cbn [collect map]; [constructor|]. eapply agree_bind; [apply H|]. intros a a' R. eapply agree_bind; [exact IH|]. intros b b' R2. constructor; assumption.
Qed.
Lemma forall2_eq {A} (l l' : list A) : Forall2 eq l l' -> l = l'. Proof. induction 1; congruence. Qed.
Lemma agree_collect_eq {B} (f : pvalue -> outcome pterr B) (g : value -> outcome terr B) : (forall v, agree eq (f v) (g (erase v))) -> forall l, agree eq (collect f l) (collect g (map erase l)).
Proof. intros H l. pose proof (agree_collect eq f g H l) as X. destruct (collect f l), (collect g (map erase l)); cbn in *; auto. apply forall2_eq, X. Qed.
Lemma agree_announce v : agree eq (parse_announce_list_p v) (parse_announce_list (erase v)).
Proof.
  unfold parse_announce_list_p, parse_announce_list. eapply agree_bind; [apply agree_list|]. intros a b ->. apply agree_collect_eq. intros g.
  eapply agree_bind; [apply agree_list|]. intros m m' ->. apply agree_collect_eq, agree_string.
Qed.
Lemma agree_file v : agree eq (parse_file_p v) (parse_file (erase v)).
Proof.
  unfold parse_file_p, parse_file. eapply agree_bind; [apply agree_dict|]. intros [l m] b ->. cbn [fst snd]. eapply agree_bind; [apply agree_get|]. intros lv ? ->. eapply agree_bind; [apply agree_get|]. intros pv ? ->.
  eapply agree_bind; [apply agree_int|]. intros n ? <-. eapply agree_bind; [apply agree_list|]. intros c ? ->. eapply agree_bind; [apply agree_collect_eq, agree_string|]. intros cs ? <-. reflexivity.
Qed.
Lemma agree_files v : agree eq (parse_files_p v) (parse_files (erase v)).
Proof. unfold parse_files_p, parse_files. eapply agree_bind; [apply agree_list|]. intros a b ->. apply agree_collect_eq, agree_file. Qed.
Lemma agree_sum l : forall acc, agree eq (sum_lengths_p acc l) (sum_lengths acc l).
Proof. induction l as [|f l IH]; intros acc; cbn [sum_lengths_p sum_lengths]; [reflexivity|]. unfold checked_add. destruct (two64 <=? acc + tf_length f); cbn [bind]; [exact Logic.I|apply IH]. Qed.
(** The reader with paths gives the torrents and the errors of TorrentModel.v. *)
Theorem C131_same_reader sha1 data : agree eq (from_bytes_p sha1 data) (from_bytes sha1 data).
Proof.
  unfold from_bytes_p, from_bytes. apply (agree_bind (fun a b => b = erase a)).
  { destruct (C107_paths_name_steps data) as (H1 & H2 & H3). destruct (parse_p data) as [v|[p e]|].
    - destruct (H1 v eq_refl) as [-> _]. reflexivity.
    - rewrite (H2 p e eq_refl). exists p. reflexivity.
    - destruct H3. reflexivity. }
  intros v ? ->. eapply agree_bind; [apply agree_dict|]. intros [rl rm] ? ->. cbn [fst snd]. eapply agree_bind; [apply agree_get|]. intros iv ? ->. eapply agree_bind; [apply agree_dict|]. intros [il im] ? ->. cbn [fst snd].
  eapply agree_bind; [apply agree_get|]. intros nv ? ->. eapply agree_bind; [apply agree_string|]. intros nm ? <-. eapply agree_bind; [apply agree_get|]. intros av ? ->. eapply agree_bind; [apply agree_announce|]. intros gs ? <-.
  eapply agree_bind; [apply agree_get|]. intros fv ? ->. eapply agree_bind; [apply agree_files|]. intros fs ? <-. eapply agree_bind; [apply agree_get|]. intros lv ? ->. eapply agree_bind; [apply agree_int|]. intros pl ? <-.
  eapply agree_bind; [apply agree_get|]. intros sv ? ->. eapply agree_bind; [apply agree_bytes|]. intros pd ? <-. destruct (negb (blen pd mod 20 =? 0)); [reflexivity|]. cbv zeta. cbn [forget_loc mkloc l_start l_end].
  apply (agree_bind eq); [unfold index_range; destruct (get_range data (pl_start il) (pl_end il)); [reflexivity|exact Logic.I]|]. intros ib ? <-.
  eapply agree_bind; [apply agree_sum|]. intros tot ? <-. apply (agree_bind eq); [unfold checked_mul; match goal with |- context [if ?c then _ else _] => destruct c end; [exact Logic.I|reflexivity]|]. intros room ? <-.
  destruct (room <? tot); reflexivity.
Qed.
Print Assumptions C131_same_reader.

(** *** Demands *)
Lemma find_get key (m : list (bytes * pvalue)) : find (fun e => bytes_eqb key (fst e)) m = match map_get key m with Some w => option_map (fun e => e) (find (fun e => bytes_eqb key (fst e)) m) | None => None end.
Proof. induction m as [|[k0 w] m IH]; [reflexivity|]. cbn [find map_get fst]. destruct (bytes_eqb key k0); [reflexivity|]. destruct (map_get key m); [destruct (find _ m); reflexivity|exact IH]. Qed.
Lemma at_key l m key t : at_steps (PDict l m) (Of key :: t) = match map_get key m with Some w => at_steps w t | None => None end.
Proof. cbn [at_steps]. induction m as [|[k0 w] m IH]; [reflexivity|]. cbn [find map_get fst]. destruct (bytes_eqb key k0); [reflexivity|exact IH]. Qed.
Lemma at_app v s t : at_steps v (s ++ t) = match at_steps v s with Some w => at_steps w t | None => None end.
Proof.
  revert v. induction s as [|[i|key] s IH]; intros v; [reflexivity| |]; cbn [app at_steps]; destruct v as [l d|l n|l x|l m]; try reflexivity.
  - destruct (nth_error x i); [apply IH|reflexivity].
  - destruct (find (fun e => bytes_eqb key (fst e)) m) as [[k0 w]|]; [apply IH|reflexivity].
Qed.
Definition blames (v : pvalue) (d : demand) (e : pverr) : Prop :=
  match d with
  | IsA s kd => exists w, at_steps v s = Some w /\ e = WNotType (ploc_of w) (kind_name kd)
  | HasKey s key => exists l m, at_steps v s = Some (PDict l m) /\ e = WMissingKey l key
  | IsText s => exists l t, at_steps v s = Some (PBytes l t) /\ e = WBadUtf8 l t
  end.
Definition found (v : pvalue) (ds : list demand) (e : pverr) : Prop := exists d, first_unmet v ds d /\ blames v d e.
Definition strict {A} v ds (x : outcome pterr A) : Prop := match x with Ok _ => Forall (met v) ds | Err (UValue e) => found v ds e | _ => False end.
Definition weak {A} v ds (x : outcome pterr A) : Prop := match x with Err (UValue e) => found v ds e | _ => Forall (met v) ds end.
Lemma found_left v a b e : found v a e -> found v (a ++ b) e.
Proof. intros (d & (x & y & -> & F & U) & B). exists d. split; [|exact B]. exists x, (y ++ b). split; [rewrite <- app_assoc; reflexivity|]. split; assumption. Qed.
Lemma found_right v a b e : Forall (met v) a -> found v b e -> found v (a ++ b) e.
Proof. intros Fa (d & (x & y & -> & F & U) & B). exists d. split; [|exact B]. exists (a ++ x), y. split; [rewrite <- app_assoc; reflexivity|]. split; [apply Forall_app; split; assumption|exact U]. Qed.
Lemma strict_bind {A B} v d1 d2 (x : outcome pterr A) (f : A -> outcome pterr B) : strict v d1 x -> (forall a, x = Ok a -> strict v d2 (f a)) -> strict v (d1 ++ d2) (bind x f).
Proof.
  destruct x as [a|[s|e|e]|]; cbn [strict bind]; intros H K; try contradiction; [|apply found_left, H].
  specialize (K a eq_refl). destruct (f a) as [b|[s|e|e]|]; cbn [strict] in *; try contradiction; [apply Forall_app; split; assumption|apply found_right; assumption].
Qed.
Lemma weak_bind {A B} v d1 d2 (x : outcome pterr A) (f : A -> outcome pterr B) : strict v d1 x -> (forall a, x = Ok a -> weak v d2 (f a)) -> weak v (d1 ++ d2) (bind x f).
Proof.
  destruct x as [a|[s|e|e]|]; cbn [strict weak bind]; intros H K; try contradiction; [|apply found_left, H].
  specialize (K a eq_refl). destruct (f a) as [b|[s|e|e]|]; cbn [weak] in *; first [apply Forall_app; split; assumption|apply found_right; assumption].
Qed.
Lemma one_met {A} v d (a : A) : met v d -> strict v [d] (Ok a). Proof. intros H. repeat constructor. exact H. Qed.
Lemma one_unmet {A} v d e : ~ met v d -> blames v d e -> strict v [d] (@Err pterr A (UValue e)).
Proof. intros H B. exists d. split; [|exact B]. exists [], []. repeat split; [constructor|exact H]. Qed.
Lemma strict_kind v s w kd : at_steps v s = Some w -> forall A (x : outcome pverr A), (kind_of w = kd -> exists a, x = Ok a) -> (kind_of w <> kd -> x = Err (WNotType (ploc_of w) (kind_name kd))) -> strict v [IsA s kd] (wl x).
Proof.
  intros H A x H1 H2. assert (D : kind_of w = kd \/ kind_of w <> kd) by (destruct (kind_of w), kd; auto; right; discriminate). destruct D as [D|D].
  - destruct (H1 D) as [a ->]. apply one_met. exists w. auto.
  - rewrite (H2 D). cbn. apply (@one_unmet A); [|exists w; auto]. intros (w' & E & K). rewrite H in E. injection E as <-. contradiction.
Qed.
Lemma strict_list v s w : at_steps v s = Some w -> strict v [IsA s KList] (wl (as_list_p w)).
Proof. intros H. apply (strict_kind v s w KList H); destruct w; cbn; intros K; try discriminate K; try (eexists; reflexivity); try reflexivity. destruct K; reflexivity. Qed.
Lemma strict_dict v s w : at_steps v s = Some w -> strict v [IsA s KDictionary] (wl (as_dictionary_p w)).
Proof. intros H. apply (strict_kind v s w KDictionary H); destruct w; cbn; intros K; try discriminate K; try (eexists; reflexivity); try reflexivity. destruct K; reflexivity. Qed.
Lemma strict_int v s w : at_steps v s = Some w -> strict v [IsA s KInteger] (wl (as_integer_p w)).
Proof. intros H. apply (strict_kind v s w KInteger H); destruct w; cbn; intros K; try discriminate K; try (eexists; reflexivity); try reflexivity. destruct K; reflexivity. Qed.
Lemma strict_bytes v s w : at_steps v s = Some w -> strict v [IsA s KBytes] (wl (as_byte_string_p w)).
Proof. intros H. apply (strict_kind v s w KBytes H); destruct w; cbn; intros K; try discriminate K; try (eexists; reflexivity); try reflexivity. destruct K; reflexivity. Qed.
Lemma wl_bind {A B} (x : outcome pverr A) (f : A -> outcome pverr B) : wl (bind x f) = bind (wl x) (fun a => wl (f a)). Proof. destruct x; reflexivity. Qed.
Lemma strict_text v s w : at_steps v s = Some w -> strict v (text_at s) (wl (as_string_p w)).
Proof.
  intros H. unfold as_string_p. rewrite wl_bind. apply (strict_bind v [IsA s KBytes] [IsText s]); [apply strict_bytes, H|]. intros t E. destruct w as [l d|l n|l x|l m]; try discriminate E. injection E as ->.
  destruct (utf8_valid t) eqn:U; cbn [wl map_err ploc_of].
  - apply one_met. exists l, t. auto.
  - apply one_unmet; [|exists l, t; auto]. intros (l2 & t2 & E & V). rewrite H in E. injection E as <- <-. congruence.
Qed.
Lemma strict_get v s l m key : at_steps v s = Some (PDict l m) -> strict v [HasKey s key] (wl (get_required_p (l, m) key)).
Proof.
  intros H. unfold get_required_p. cbn [fst snd]. assert (E : at_steps v (s ++ [Of key]) = map_get key m) by (rewrite at_app, H, at_key; destruct (map_get key m); reflexivity).
  destruct (map_get key m) as [w|] eqn:G; cbn [of_option wl map_err].
  - apply one_met. exists w. exact E.
  - apply one_unmet; [|exists l, m; auto]. intros (w & X). rewrite E in X. discriminate X.
Qed.
Lemma get_at v s l m key w : at_steps v s = Some (PDict l m) -> wl (get_required_p (l, m) key) = Ok w -> at_steps v (s ++ [Of key]) = Some w.
Proof. intros H G. rewrite at_app, H, at_key. unfold get_required_p in G. cbn [fst snd] in G. destruct (map_get key m) as [w2|]; cbn in G; [injection G as <-; reflexivity|discriminate G]. Qed.
Lemma dict_at v s w l m : at_steps v s = Some w -> wl (as_dictionary_p w) = Ok (l, m) -> at_steps v s = Some (PDict l m).
Proof. intros H G. destruct w; cbn in G; try discriminate G. injection G as -> ->. exact H. Qed.
Lemma strict_collect {B} v s l x (f : pvalue -> outcome pterr B) each : at_steps v s = Some (PList l x) -> (forall i w, at_steps v (s ++ [At i]) = Some w -> strict v (each (s ++ [At i])) (f w)) ->
  strict v (flat_map (fun i => each (s ++ [At i])) (indices v s)) (collect f x).
Proof.
  intros H K. unfold indices. rewrite H.
  assert (G : forall y pre, x = pre ++ y -> strict v (flat_map (fun i => each (s ++ [At i])) (seq (length pre) (length y))) (collect f y)).
  { induction y as [|w y IH]; intros pre E; cbn [length seq flat_map collect]; [constructor|]. apply strict_bind.
    - apply K. rewrite at_app, H. cbn [at_steps]. rewrite E, nth_error_app2, Nat.sub_diag by lia. reflexivity.
    - intros a _. rewrite <- (app_nil_r (flat_map _ _)). apply strict_bind.
      + specialize (IH (pre ++ [w])). rewrite app_length in IH. cbn [length] in IH. rewrite Nat.add_1_r in IH. apply IH. rewrite E, <- app_assoc. reflexivity.
      + intros r _. constructor. }
  apply (G x []). reflexivity.
Qed.
Lemma strict_each {B} v s w (f : pvalue -> outcome pterr B) each : at_steps v s = Some w -> (forall i w, at_steps v (s ++ [At i]) = Some w -> strict v (each (s ++ [At i])) (f w)) ->
  strict v (list_at v s each) (let? l := wl (as_list_p w) in collect f l).
Proof.
  intros H K. unfold list_at. apply (strict_bind v [IsA s KList]); [apply strict_list, H|]. intros x E. destruct w; cbn in E; try discriminate E. injection E as ->. eapply strict_collect; [exact H|exact K].
Qed.
Lemma strict_announce v s w : at_steps v s = Some w -> strict v (list_at v s (fun s => list_at v s text_at)) (parse_announce_list_p w).
Proof.
  intros H. unfold parse_announce_list_p. apply (strict_each v s w (fun g => let? members := wl (as_list_p g) in collect (fun t => wl (as_string_p t)) members) (fun s => list_at v s text_at) H). intros i g Hg.
  apply (strict_each v _ g (fun t => wl (as_string_p t)) text_at Hg). intros j t Ht. apply strict_text, Ht.
Qed.
Lemma strict_file v s w : at_steps v s = Some w -> strict v (file_at v s) (parse_file_p w).
Proof.
  intros H. unfold file_at, parse_file_p. change (strict v ([IsA s KDictionary] ++ [HasKey s (ascii_bytes "length")] ++ [HasKey s (ascii_bytes "path")] ++ [IsA (s ++ [k "length"]) KInteger] ++ list_at v (s ++ [k "path"]) text_at)
    (let? d := wl (as_dictionary_p w) in let? len_v := wl (get_required_p d (key "length")) in let? path_v := wl (get_required_p d (key "path")) in let? len := wl (as_integer_p len_v) in
     let? comps_v := wl (as_list_p path_v) in let? comps := collect (fun c => wl (as_string_p c)) comps_v in Ok {| tf_length := len; tf_path := join_path comps |})).
  apply strict_bind; [apply strict_dict, H|]. intros [l m] E. pose proof (dict_at _ _ _ _ _ H E) as D. apply strict_bind; [apply (strict_get v s l m), D|]. intros lv E1. pose proof (get_at _ _ _ _ _ _ D E1) as D1.
  apply strict_bind; [apply (strict_get v s l m), D|]. intros pv E2. pose proof (get_at _ _ _ _ _ _ D E2) as D2. apply strict_bind; [apply strict_int; exact D1|]. intros n _.
  pose proof (strict_each v (s ++ [k "path"]) pv (fun t => wl (as_string_p t)) text_at D2 (fun i w0 X => strict_text v _ w0 X)) as C.
  destruct (wl (as_list_p pv)) as [x|[e|e|e]|]; cbn [bind] in *; try exact C. destruct (collect (fun c => wl (as_string_p c)) x) as [cs|[e|e|e]|]; exact C.
Qed.
Lemma strict_files v s w : at_steps v s = Some w -> strict v (list_at v s (file_at v)) (parse_files_p w).
Proof. intros H. unfold parse_files_p. apply strict_each; [exact H|]. intros i f Hf. apply strict_file, Hf. Qed.
Lemma first_unique v ds d d' : first_unmet v ds d -> first_unmet v ds d' -> d = d'.
Proof.
  intros (a & b & -> & Fa & U) (a' & b' & E & Fa' & U'). revert a' E Fa'. induction Fa as [|x a M Fa IH]; intros [|x' a'] E Fa'; cbn [app] in E.
  - injection E as -> _. reflexivity.
  - injection E as -> _. inversion Fa'; subst. contradiction.
  - injection E as <- _. contradiction.
  - injection E as _ E. inversion Fa'; subst. eapply IH; eassumption.
Qed.
(** What is read after parsing. *)
Definition after_parse (sha1 : bytes -> bytes) (data : bytes) (v : pvalue) : outcome pterr torrent :=
  let? root := wl (as_dictionary_p v) in
  let? info_v := wl (get_required_p root (key "info")) in
  let? info := wl (as_dictionary_p info_v) in
  let? name_v := wl (get_required_p info (key "name")) in
  let? name := wl (as_string_p name_v) in
  let? al_v := wl (get_required_p root (key "announce-list")) in
  let? groups := parse_announce_list_p al_v in
  let? files_v := wl (get_required_p info (key "files")) in
  let? files := parse_files_p files_v in
  let? pl_v := wl (get_required_p info (key "piece length")) in
  let? piece_length := wl (as_integer_p pl_v) in
  let? ps_v := wl (get_required_p info (key "pieces")) in
  let? pieces_data := wl (as_byte_string_p ps_v) in
  if negb (blen pieces_data mod 20 =? 0) then
    Err (UString (ascii_bytes "Pieces data is " ++ ChatModel.decimal (blen pieces_data) ++ ascii_bytes " bytes, which is not a multiple of 20"))
  else
    let pieces := cut20 (length pieces_data) pieces_data in
    let? info_bytes := index_range data (pl_start (fst info)) (pl_end (fst info)) in
    let? total := sum_lengths_p 0 files in
    let? room := checked_mul piece_length (N.of_nat (length pieces)) in
    if room <? total then Err (UString (ascii_bytes "Not enough pieces"))
    else Ok {| t_info_hash := sha1 info_bytes; t_name := name; t_tracker_groups := groups;
               t_files := files; t_piece_length := piece_length; t_pieces := pieces;
               t_total_length := total |}.
Lemma sum_no_error l : forall acc e, sum_lengths_p acc l <> Err e.
Proof. induction l as [|f l IH]; intros acc e; cbn [sum_lengths_p]; [discriminate|]. destruct (two64 <=? acc + tf_length f); [discriminate|apply IH]. Qed.
Lemma weak_reader sha1 data v : weak v (demands v) (after_parse sha1 data v).
Proof.
  unfold after_parse. assert (R : at_steps v [] = Some v) by reflexivity.
  change (demands v) with ([IsA [] KDictionary] ++ [HasKey [] (ascii_bytes "info")] ++ [IsA [k "info"] KDictionary] ++ [HasKey [k "info"] (ascii_bytes "name")] ++ text_at [k "info"; k "name"] ++
    [HasKey [] (ascii_bytes "announce-list")] ++ list_at v [k "announce-list"] (fun s => list_at v s text_at) ++ [HasKey [k "info"] (ascii_bytes "files")] ++ list_at v [k "info"; k "files"] (file_at v) ++
    [HasKey [k "info"] (ascii_bytes "piece length")] ++ [IsA [k "info"; k "piece length"] KInteger] ++ [HasKey [k "info"] (ascii_bytes "pieces")] ++ [IsA [k "info"; k "pieces"] KBytes] ++ []).
  apply weak_bind; [apply strict_dict, R|]. intros [l m] E. pose proof (dict_at _ _ _ _ _ R E) as D. apply weak_bind; [apply (strict_get v [] l m), D|]. intros iv E1. pose proof (get_at _ _ _ _ _ _ D E1) as D1.
  apply weak_bind; [apply strict_dict; exact D1|]. intros [il im] E2. pose proof (dict_at _ _ _ _ _ D1 E2) as DI. cbn [app] in DI.
  apply weak_bind; [apply (strict_get v [k "info"] il im), DI|]. intros nv E3. apply weak_bind; [apply strict_text; exact (get_at _ _ _ _ _ _ DI E3)|]. intros nm _.
  apply weak_bind; [apply (strict_get v [] l m), D|]. intros av E4. apply weak_bind; [apply strict_announce; exact (get_at _ _ _ _ _ _ D E4)|]. intros gs _.
  apply weak_bind; [apply (strict_get v [k "info"] il im), DI|]. intros fv E5. apply weak_bind; [apply strict_files; exact (get_at _ _ _ _ _ _ DI E5)|]. intros fs _.
  apply weak_bind; [apply (strict_get v [k "info"] il im), DI|]. intros lv E6. apply weak_bind; [apply strict_int; exact (get_at _ _ _ _ _ _ DI E6)|]. intros pl _.
  apply weak_bind; [apply (strict_get v [k "info"] il im), DI|]. intros sv E7. apply weak_bind; [apply strict_bytes; exact (get_at _ _ _ _ _ _ DI E7)|]. intros pd _.
  destruct (negb (blen pd mod 20 =? 0)); [constructor|]. cbv zeta. unfold index_range. destruct (get_range data (pl_start (fst (il, im))) (pl_end (fst (il, im)))); cbn [bind]; [|constructor].
  destruct (sum_lengths_p 0 fs) as [t|e|] eqn:ES; cbn [bind]; [|destruct (sum_no_error _ _ _ ES)|constructor]. unfold checked_mul. match goal with |- context [if ?c then Panic else _] => destruct c end; cbn [bind]; [constructor|].
  match goal with |- context [if ?c then _ else _] => destruct c end; constructor.
Qed.
Lemma at_below v s : forall w, at_steps v s = Some w -> below v s w.
Proof.
  revert v. induction s as [|[i|key] s IH]; intros v w H; cbn [at_steps] in H; [injection H as <-; constructor| |]; destruct v as [l d|l n|l x|l m]; try discriminate H.
  - destruct (nth_error x i) eqn:E; [|discriminate H]. econstructor; [exact E|apply IH, H].
  - destruct (find (fun e => bytes_eqb key (fst e)) m) as [[k0 w0]|] eqn:E; [|discriminate H]. apply find_some in E. destruct E as [I E]. cbn [fst] in E. apply bytes_eqb_eq in E. subst k0. econstructor; [exact I|apply IH, H].
Qed.
Lemma blames_text data v utf8 d e : parse_p data = Ok v -> blames v d e -> complaint utf8 v d (value_error_text utf8 e).
Proof.
  intros P B. destruct (proj1 (proj1 (C107_paths_name_steps data) v P)). pose proof (proj2 (proj1 (C107_paths_name_steps data) v P)) as L. destruct d as [s kd|s key|s]; cbn [blames complaint] in *.
  - destruct B as (w & H & ->). cbn [value_error_text]. rewrite (L s w (at_below _ _ _ H)). rewrite (app_assoc (ascii_bytes ": ")). reflexivity.
  - destruct B as (l & m & H & ->). cbn [value_error_text]. change l with (ploc_of (PDict l m)). rewrite (L s _ (at_below _ _ _ H)). rewrite (app_assoc (ascii_bytes ": ")). reflexivity.
  - destruct B as (l & t & H & ->). exists l, t. split; [exact H|]. cbn [value_error_text]. change l with (ploc_of (PBytes l t)). rewrite (L s _ (at_below _ _ _ H)). reflexivity.
Qed.
(** A bencoded file is refused for its contents exactly when a demand is not met, and then the
    message is the complaint about the first such demand. *)
Theorem C131_first_demand sha1 utf8 bad data v : parse_p data = Ok v ->
  (forall e, from_bytes_p sha1 data = Err (UValue e) -> exists d, first_unmet v (demands v) d /\ complaint utf8 v d (torrent_error_text utf8 bad data (UValue e))) /\
  (forall d, first_unmet v (demands v) d -> exists e, from_bytes_p sha1 data = Err (UValue e) /\ complaint utf8 v d (torrent_error_text utf8 bad data (UValue e))) /\
  ((forall e, from_bytes_p sha1 data <> Err (UValue e)) <-> Forall (met v) (demands v)).
Proof.
  intros P. assert (E : from_bytes_p sha1 data = after_parse sha1 data v) by (unfold from_bytes_p; rewrite P; reflexivity). rewrite E. clear E. pose proof (weak_reader sha1 data v) as W. cbn [torrent_error_text]. split; [|split].
  - intros e H. rewrite H in W. destruct W as (d & F & B). exists d. split; [exact F|]. eapply blames_text; eassumption.
  - intros d F. destruct (after_parse sha1 data v) as [t|[s|e|e]|]; cbn [weak] in W; try (exfalso; destruct F as (a & b & X & _ & U); rewrite X in W; apply Forall_app in W; destruct W as [_ W]; inversion W; contradiction).
    destruct W as (d' & F' & B). rewrite (first_unique _ _ _ _ F F'). exists e. split; [reflexivity|]. eapply blames_text; eassumption.
  - split.
    + intros N. destruct (after_parse sha1 data v) as [t|[s|e|e]|]; cbn [weak] in W; try exact W. destruct (N e eq_refl).
    + intros F e H. rewrite H in W. destruct W as (d & (a & b & X & _ & U) & _). rewrite X in F. apply Forall_app in F. destruct F as [_ F]. inversion F. contradiction.
Qed.
Print Assumptions C131_first_demand.
(** The path in such a message is made of fixed words and numbers: it is one line whatever the
    file contains, as long as the text about invalid UTF-8 is. *)
Definition plain_line (l : bytes) : Prop := Forall (fun b => 32 <= b /\ b < 127) l.
Definition plain_step (s : step) : Prop := match s with At _ => True | Of key => plain_line key end.
Lemma plain_b l : forallb (fun b => (32 <=? b) && (b <? 127)) l = true -> plain_line l.
Proof. intros H. apply Forall_forall. intros b Hb. rewrite forallb_forall in H. specialize (H b Hb). cbv beta in H. lia. Qed.
Lemma plain_app a b : plain_line a -> plain_line b -> plain_line (a ++ b).
Proof. intros H1 H2. apply Forall_app. split; assumption. Qed.
Definition demand_steps (d : demand) : list step := match d with IsA s _ | HasKey s _ | IsText s => s end.
Definition plain_demand (d : demand) : Prop := Forall plain_step (demand_steps d) /\ match d with HasKey _ key => plain_line key | _ => True end.
Lemma plain_k s : plain_line (ascii_bytes s) -> plain_step (k s). Proof. auto. Qed.
Lemma plain_snoc s x : Forall plain_step s -> plain_step x -> Forall plain_step (s ++ [x]).
Proof. intros H1 H2. apply Forall_app. split; [exact H1|apply Forall_cons; [exact H2|apply Forall_nil]]. Qed.
Lemma plain_text s : Forall plain_step s -> Forall plain_demand (text_at s).
Proof. intros H. repeat constructor; exact H. Qed.
Lemma plain_list v s each : Forall plain_step s -> (forall i, Forall plain_demand (each (s ++ [At i]))) -> Forall plain_demand (list_at v s each).
Proof.
  intros H K. constructor; [split; [exact H|exact Logic.I]|]. induction (indices v s) as [|i l IH]; [constructor|]. cbn [flat_map]. apply Forall_app. split; [apply K|exact IH].
Qed.
Lemma plain_file v s : Forall plain_step s -> Forall plain_demand (file_at v s).
Proof.
  intros H. assert (P1 : plain_line (ascii_bytes "length")) by (apply plain_b; reflexivity). assert (P2 : plain_line (ascii_bytes "path")) by (apply plain_b; reflexivity).
  unfold file_at. apply Forall_app. split; [repeat (apply Forall_cons; [split; [first [exact H|apply plain_snoc; assumption]|first [exact P1|exact P2|exact Logic.I]]|]); constructor|].
  apply plain_list; [apply plain_snoc; assumption|]. intros i. apply plain_text. apply plain_snoc; [apply plain_snoc; assumption|exact Logic.I].
Qed.
Lemma plain_demands v : Forall plain_demand (demands v).
Proof.
  assert (P : forall s, forallb (fun b => (32 <=? b) && (b <? 127)) (ascii_bytes s) = true -> plain_step (k s)) by (intros s H; apply plain_b, H).
  assert (S1 : Forall plain_step [k "info"]) by (apply Forall_cons; [apply P; reflexivity|apply Forall_nil]).
  assert (S2 : Forall plain_step [k "announce-list"]) by (apply Forall_cons; [apply P; reflexivity|apply Forall_nil]).
  assert (T : forall s, forallb (fun b => (32 <=? b) && (b <? 127)) (ascii_bytes s) = true -> Forall plain_step [k "info"; k s]) by (intros s H; apply Forall_cons; [apply P; reflexivity|]; apply Forall_cons; [apply P, H|apply Forall_nil]).
  assert (H0 : forall s, forallb (fun b => (32 <=? b) && (b <? 127)) (ascii_bytes s) = true -> plain_demand (HasKey [] (ascii_bytes s))) by (intros s H; split; [constructor|apply plain_b, H]).
  assert (H1 : forall s, forallb (fun b => (32 <=? b) && (b <? 127)) (ascii_bytes s) = true -> plain_demand (HasKey [k "info"] (ascii_bytes s))) by (intros s H; split; [exact S1|apply plain_b, H]).
  unfold demands. repeat (apply Forall_app; split).
  - apply Forall_cons; [split; constructor|]. apply Forall_cons; [apply H0; reflexivity|]. apply Forall_cons; [split; [exact S1|exact Logic.I]|]. apply Forall_cons; [apply H1; reflexivity|apply Forall_nil].
  - apply plain_text, T. reflexivity.
  - apply Forall_cons; [apply H0; reflexivity|apply Forall_nil].
  - apply plain_list; [exact S2|]. intros i. apply plain_list; [apply plain_snoc; [exact S2|exact Logic.I]|]. intros j. apply plain_text. apply plain_snoc; [apply plain_snoc; [exact S2|exact Logic.I]|exact Logic.I].
  - apply Forall_cons; [apply H1; reflexivity|apply Forall_nil].
  - apply plain_list; [apply T; reflexivity|]. intros i. apply plain_file. apply plain_snoc; [apply T; reflexivity|exact Logic.I].
  - constructor; [apply H1; reflexivity|]. constructor; [split; [apply T; reflexivity|exact Logic.I]|]. constructor; [apply H1; reflexivity|]. constructor; [split; [apply T; reflexivity|exact Logic.I]|constructor].
Qed.
Lemma plain_path s : Forall plain_step s -> plain_line (path_text s).
Proof.
  induction 1 as [|x s H _ IH]; [constructor|]. rewrite path_cons. apply plain_app; [|exact IH]. unfold path_text. cbn [flat_map]. rewrite app_nil_r. apply plain_app; [apply plain_b; reflexivity|].
  destruct x as [i|key]; [|exact H]. destruct (ChatProps2.decimal_ok (N.of_nat i)) as (_ & B & _). eapply Forall_impl; [|exact B]. cbv beta. intros b. lia.
Qed.
Theorem C131_one_line sha1 utf8 bad data e : (forall d, plain_line (utf8 d)) -> from_bytes_p sha1 data = Err e -> (forall x, e <> UParse x) -> plain_line (torrent_error_text utf8 bad data e).
Proof.
  intros U H NP. destruct (parse_p data) as [v|x|] eqn:P; [|exfalso; unfold from_bytes_p in H; rewrite P in H; cbn in H; injection H as <-; destruct (NP x eq_refl)|exfalso; unfold from_bytes_p in H; rewrite P in H; discriminate H].
  destruct e as [s|e|x]; [| |destruct (NP x eq_refl)].
  - assert (X : from_bytes_p sha1 data = after_parse sha1 data v) by (unfold from_bytes_p; rewrite P; reflexivity). pose proof (C131_same_reader sha1 data) as A. rewrite H in A. destruct (from_bytes sha1 data) as [t|t|]; cbn [agree] in A; try contradiction.
    destruct t as [n| |e|e]; cbn [same_error] in A; [| |destruct A as (? & A & _); discriminate A|destruct A as (? & A); discriminate A]; apply (f_equal (fun p => match p with UString s => s | _ => [] end)) in A; cbv beta iota in A; cbn [torrent_error_text]; rewrite A.
    + apply plain_app; [apply plain_b; reflexivity|]. apply plain_app; [|apply plain_b; reflexivity]. destruct (ChatProps2.decimal_ok n) as (_ & B & _). eapply Forall_impl; [|exact B]. cbv beta. intros b. lia.
    + apply plain_b. reflexivity.
  - destruct (proj1 (C131_first_demand sha1 utf8 bad data v P) e H) as (d & (a & b & E & _) & C). pose proof (plain_demands v) as PD. rewrite E in PD. apply Forall_app in PD. destruct PD as [_ PD]. inversion PD as [|? ? [PD1 PD2] _]; subst.
    destruct d as [s kd|s key|s]; cbn [complaint demand_steps] in *.
    + rewrite C. apply plain_app; [apply plain_path, PD1|]. apply plain_app; [apply plain_b; reflexivity|]. apply plain_b. destruct kd; reflexivity.
    + rewrite C. apply plain_app; [apply plain_path, PD1|]. apply plain_app; [apply plain_b; reflexivity|exact PD2].
    + destruct C as (l & t & _ & ->). apply plain_app; [apply plain_path, PD1|]. apply plain_app; [apply plain_b; reflexivity|apply U].
Qed.
Print Assumptions C131_one_line.
(** Not so for errors of the parser: their path is made of the file's own keys, so a file can
    have any UTF-8 text appear in the message. *)
Theorem C131_parse_line_refuted sha1 utf8 bad line : utf8_valid line = true -> blen line + blen (decimal_text (blen line)) + 3 < two64 -> exists data o before,
  from_bytes_p sha1 data = Err (UParse (ascii_bytes "/" ++ line, PUnknownType o 120)) /\
  torrent_error_text utf8 bad data (UParse (ascii_bytes "/" ++ line, PUnknownType o 120)) = before ++ line ++ [34] ++ ascii_bytes ": Unknown value type: 120".
Proof.
  intros U L. destruct (ChatProps2.decimal_ok (blen line)) as (D1 & D2 & D3 & _). set (ks := decimal_text (blen line) ++ [58] ++ line). set (data := [100] ++ ks ++ [120]).
  assert (F : fits data) by (unfold fits, data, ks; rewrite !blen_app; change (blen [100]) with 1; change (blen [58]) with 1; change (blen [120]) with 1; lia).
  exists data, (length ([100] ++ ks)), (ascii_bytes "Offset " ++ decimal_text (N.of_nat (length ([100] ++ ks))) ++ ascii_bytes ", path " ++ [34; 47]). split.
  - assert (P : parse_p data = Err (ascii_bytes "/" ++ line, PUnknownType (length ([100] ++ ks)) 120)).
    { apply C107_errors_name_faults; [exact F|]. exists [Of line], ([100] ++ ks), [120]. split; [|split; [unfold data; rewrite <- app_assoc; reflexivity|split; [unfold path_text; cbn [flat_map]; rewrite app_nil_r; reflexivity|constructor; lia]]].
      apply (leads_entry [] [] ks line [120]); [constructor| |exact U|constructor]. exists (decimal_text (blen line)). split; [|reflexivity]. split; [exact D1|]. split; [exact D2|]. split; [exact D3|]. lia. }
    unfold from_bytes_p. rewrite P. reflexivity.
  - cbn [torrent_error_text]. unfold error_text. cbn [fst snd error_offset error_message]. rewrite <- !app_assoc. reflexivity.
Qed.
Print Assumptions C131_parse_line_refuted.
(** The parts of a message, and the text of a hash, by example: a torrent without files, one
    whose second tracker group is not a list, and one whose first file has a number for a path. *)
Example C131_examples :
  let show s := match from_bytes_p (fun _ => []) (ascii_bytes s) with Err e => torrent_error_text (fun _ => ascii_bytes "bad") (fun _ => []) (ascii_bytes s) e | _ => [] end in
  show "d13:announce-listle4:infod4:name1:xee" = ascii_bytes "/info: Missing key: files" /\
  show "d13:announce-listl0:e4:infod4:name1:xee" = ascii_bytes "/announce-list/0: Expected list" /\
  show "d13:announce-listllei7ee4:infod4:name1:xee" = ascii_bytes "/announce-list/1: Expected list" /\
  show "d13:announce-listle4:infod5:filesld6:lengthi1e4:pathi2eee4:name1:xee" = ascii_bytes "/info/files/0/path: Expected list" /\
  show "d13:announce-listle4:infod5:filesle4:name1:x12:piece lengthi4e6:pieces3:abcee" = ascii_bytes "Pieces data is 3 bytes, which is not a multiple of 20" /\
  show "i1e" = ascii_bytes ": Expected dictionary" /\
  hash_display [0; 171; 255] = ascii_bytes "00abff".
Proof. vm_compute. auto 10. Qed.
