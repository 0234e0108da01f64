(** The paths and errors of the bencoding parser, C107. *)
From Verif Require Import Base BaseProofs BencodeModel BencodeSpec BencodeProofs BencodeProofs2 BencodeProps ChatModel Asn1PrintProps BencodePathModel.
Local Open Scope string_scope. Local Open Scope list_scope. Local Open Scope N_scope.
Notation decimal_text := ChatModel.decimal.

(** *** What a path is. *)
(** A step into a list or into a dictionary. *)
Inductive step := At (index : nat) | Of (key : bytes).
(** A path names its steps, each after a slash. *)
Definition path_text (l : list step) : bytes :=
  flat_map (fun s => [47] ++ match s with At i => decimal_text (N.of_nat i) | Of k => k end) l.
(** The value below [v] at some steps. *)
Inductive below : pvalue -> list step -> pvalue -> Prop :=
| below_here v : below v [] v
| below_item l items i w s u : nth_error items i = Some w -> below w s u -> below (PList l items) (At i :: s) u
| below_entry l m k w s u : In (k, w) m -> below w s u -> below (PDict l m) (Of k :: s) u.
(** Where the steps lead in a text: [rest] is what is left of [d] from there on. *)
Inductive leads : bytes -> list step -> bytes -> Prop :=
| leads_here d : leads d [] d
| leads_item its l c d s rest : ben_items its l -> c <> 101 -> leads (c :: d) s rest -> leads ([108] ++ its ++ c :: d) (At (length l) :: s) rest
| leads_entry its l ks k d s rest : ben_entries its l -> bstring ks k -> utf8_valid k = true -> leads d s rest -> leads ([100] ++ its ++ ks ++ d) (Of k :: s) rest.
(** What is wrong with a text as a value, itself and not in one of its parts; [o] is the offset
    of the text.  Numbers and strings first. *)
Definition digits (ds : bytes) : Prop := Forall (fun c => 48 <= c <= 57) ds.
Definition stops (post : bytes) : Prop := match post with [] => True | c :: _ => ~ (48 <= c <= 57) end.
Definition lacks (c : N) (post : bytes) : Prop := match post with [] => True | b :: _ => b <> c end.
Inductive number_fault (o : nat) : bytes -> perr -> Prop :=
| nf_digit post : stops post -> number_fault o post (PExpectedDigit o)
| nf_large ds post : digits ds -> stops post -> two64 <= dec_value ds -> number_fault o (ds ++ post) (PBadInteger o).
Inductive string_fault (o : nat) : bytes -> perr -> Prop :=
| sf_number t e : number_fault o t e -> string_fault o t e
| sf_colon ds n post : BencodeSpec.decimal ds n -> stops post -> lacks 58 post -> string_fault o (ds ++ post) (PExpectedByte (o + length ds) 58)
| sf_overflow ds n post : BencodeSpec.decimal ds n -> two64 <= N.of_nat (o + length ds + 1) + n -> string_fault o (ds ++ [58] ++ post) (PIntegerOverflow (o + length ds + 1))
| sf_beyond ds n post : BencodeSpec.decimal ds n -> N.of_nat (o + length ds + 1) + n < two64 -> blen post < n -> string_fault o (ds ++ [58] ++ post) (PBeyondEnd (o + length ds + 1)).
Inductive fault (o : nat) : bytes -> perr -> Prop :=
| f_nothing : fault o [] (PPrematureEnd o)
| f_kind b t : b <> 105 -> b <> 108 -> b <> 100 -> ~ (48 <= b <= 57) -> fault o (b :: t) (PUnknownType o b)
| f_number t e : number_fault (o + 1) t e -> fault o ([105] ++ t) e
| f_number_end ds n post : BencodeSpec.decimal ds n -> stops post -> lacks 101 post -> fault o ([105] ++ ds ++ post) (PExpectedByte (o + 1 + length ds) 101)
| f_string b t e : 48 <= b <= 57 -> string_fault o (b :: t) e -> fault o (b :: t) e
| f_list its l : ben_items its l -> fault o ([108] ++ its) (PPrematureEnd (o + 1 + length its))
| f_dict its l : ben_entries its l -> fault o ([100] ++ its) (PPrematureEnd (o + 1 + length its))
| f_key its l c t e : ben_entries its l -> c <> 101 -> string_fault (o + 1 + length its) (c :: t) e -> fault o ([100] ++ its ++ c :: t) e
| f_key_text its l ks k t : ben_entries its l -> bstring ks k -> utf8_valid k = false -> fault o ([100] ++ its ++ ks ++ t) (PBadUtf8 (o + 1 + length its)).
(** Forgetting the paths. *)
Fixpoint erase (v : pvalue) : value :=
  match v with
  | PBytes l d => VBytes (mkloc (pl_start l) (pl_end l)) d
  | PInt l n => VInt (mkloc (pl_start l) (pl_end l)) n
  | PList l items => VList (mkloc (pl_start l) (pl_end l)) (map erase items)
  | PDict l m => VDict (mkloc (pl_start l) (pl_end l)) (map (fun e => (fst e, erase (snd e))) m)
  end.

(** *** The parser with paths is the parser. *)
Definition erase_map (m : list (bytes * pvalue)) : list (bytes * value) := map (fun e => (fst e, erase (snd e))) m.
Lemma erase_insert k v m : erase_map (map_insert k v m) = map_insert k (erase v) (erase_map m).
Proof.
  induction m as [|[k' v'] m IH]; [reflexivity|]. cbn [map_insert erase_map map fst snd]. destruct (bytes_ltb k k'); [reflexivity|]. destruct (bytes_eqb k k'); [reflexivity|]. cbn [map fst snd]. f_equal. exact IH.
Qed.
Definition same {A B} (f : A -> B) (x : outcome (bytes * perr) (A * nat)) (y : outcome perr (B * nat)) : Prop :=
  match x with Ok (a, e) => y = Ok (f a, e) | Err (_, e) => y = Err e | Panic => y = Panic end.
Lemma parsers_agree fuel : forall data off path,
  same erase (parse_value_p fuel data off path) (parse_value fuel data off) /\
  (forall index, same (map erase) (parse_items_p fuel data off path index) (parse_items fuel data off)) /\
  (forall m, same erase_map (parse_entries_p fuel data off path m) (parse_entries fuel data off (erase_map m))).
Proof.
  induction fuel as [|fuel IH]; intros data off path; [repeat split|]. split; [|split].
  - cbn [parse_value_p parse_value]. destruct (peek data off) as [b|]; [|reflexivity]. destruct (b =? 105).
    { unfold at_path. destruct (parse_integer data off) as [[v e]|x|]; reflexivity. }
    destruct (b =? 108).
    { unfold at_path. destruct (expect_byte data off 108) as [o|x|]; cbn [map_err bind]; try reflexivity. destruct (IH data o path) as (_ & I & _). specialize (I 0%nat). unfold same in I. destruct (parse_items_p fuel data o path 0) as [[l e]|[p x]|]; rewrite I; reflexivity. }
    destruct (b =? 100).
    { unfold at_path. destruct (expect_byte data off 100) as [o|x|]; cbn [map_err bind]; try reflexivity. destruct (IH data o path) as (_ & _ & I). specialize (I []). unfold same in I. cbn [erase_map map] in I. destruct (parse_entries_p fuel data o path []) as [[l e]|[p x]|]; rewrite I; reflexivity. }
    destruct (is_digit b); [|reflexivity]. unfold at_path. destruct (parse_byte_string data off) as [[v e]|x|]; reflexivity.
  - intros index. cbn [parse_items_p parse_items]. destruct (peek data off) as [b|]; [|reflexivity]. destruct (b =? 101); [reflexivity|].
    destruct (IH data off (index_path path index)) as (I & _ & _). unfold same in I. destruct (parse_value_p fuel data off (index_path path index)) as [[v o]|[p x]|]; rewrite I; cbn [bind]; try reflexivity.
    destruct (IH data o path) as (_ & J & _). specialize (J (S index)). unfold same in J. destruct (parse_items_p fuel data o path (S index)) as [[l e]|[p x]|]; rewrite J; reflexivity.
  - intros m. cbn [parse_entries_p parse_entries]. destruct (peek data off) as [b|]; [|reflexivity]. destruct (b =? 101); [reflexivity|]. unfold at_path.
    destruct (parse_utf8_string data off) as [[k o]|x|]; cbn [map_err bind]; try reflexivity.
    destruct (IH data o (key_path path k)) as (I & _ & _). unfold same in I. destruct (parse_value_p fuel data o (key_path path k)) as [[v o2]|[p x]|]; rewrite I; cbn [bind]; try reflexivity.
    destruct (IH data o2 path) as (_ & _ & J). specialize (J (map_insert k v m)). rewrite erase_insert in J. exact J.
Qed.

(** *** Paths of values *)
(** Every value below [v] has the path of its steps, after [path]. *)
Definition labelled (path : bytes) (v : pvalue) : Prop := forall s w, below v s w -> pl_path (ploc_of w) = path ++ path_text s.
Lemma index_path_eq path i : index_path path i = path ++ path_text [At i].
Proof. unfold index_path, path_text. cbn [flat_map]. rewrite app_nil_r. reflexivity. Qed.
Lemma key_path_eq path k : key_path path k = path ++ path_text [Of k].
Proof. unfold key_path, path_text. cbn [flat_map]. rewrite app_nil_r. reflexivity. Qed.
Lemma path_cons s l : path_text (s :: l) = path_text [s] ++ path_text l.
Proof. unfold path_text. cbn [flat_map]. rewrite app_nil_r. reflexivity. Qed.
Lemma labelled_step path s v : labelled (path ++ path_text [s]) v -> forall t w, below v t w -> pl_path (ploc_of w) = path ++ path_text (s :: t).
Proof. intros L t w B. rewrite (L _ _ B), (path_cons s t), app_assoc. reflexivity. Qed.
Lemma insert_sub {A} k (v : A) m k' v' : In (k', v') (map_insert k v m) -> (k' = k /\ v' = v) \/ In (k', v') m.
Proof.
  induction m as [|[k2 v2] m IH]; cbn [map_insert].
  - intros [H|[]]. injection H as <- <-. auto.
  - destruct (bytes_ltb k k2); [intros [H|H]; [injection H as <- <-; auto|auto]|]. destruct (bytes_eqb k k2); [intros [H|H]; [injection H as <- <-; auto|right; right; exact H]|].
    intros [H|H]; [right; left; exact H|]. destruct (IH H) as [X|X]; [auto|right; right; exact X].
Qed.
Lemma paths_ok fuel : forall data off path,
  (forall v e, parse_value_p fuel data off path = Ok (v, e) -> labelled path v) /\
  (forall index l e, parse_items_p fuel data off path index = Ok (l, e) -> forall i w, nth_error l i = Some w -> labelled (path ++ path_text [At (index + i)]) w) /\
  (forall m m' e, parse_entries_p fuel data off path m = Ok (m', e) -> forall k w, In (k, w) m' -> In (k, w) m \/ labelled (path ++ path_text [Of k]) w).
Proof.
  induction fuel as [|fuel IH]; intros data off path; [repeat split; intros; discriminate|]. split; [|split].
  - intros v e. cbn [parse_value_p]. destruct (peek data off) as [b|]; [|discriminate]. destruct (b =? 105).
    { intros H. apply bind_ok in H. destruct H as ([n o] & _ & H). injection H as <- <-. intros s w B. inversion B; subst. cbn. rewrite app_nil_r. reflexivity. }
    destruct (b =? 108).
    { intros H. apply bind_ok in H. destruct H as (o & _ & H). apply bind_ok in H. destruct H as ([l o2] & P & H). injection H as <- <-. intros s w B. inversion B as [|? ? i w' s' u N B'|]; subst; [cbn; rewrite app_nil_r; reflexivity|].
      destruct (IH data o path) as (_ & I & _). pose proof (I _ _ _ P _ _ N) as L. eapply labelled_step; [exact L|exact B']. }
    destruct (b =? 100).
    { intros H. apply bind_ok in H. destruct H as (o & _ & H). apply bind_ok in H. destruct H as ([l o2] & P & H). injection H as <- <-. intros s w B. inversion B as [| |? ? k w' s' u N B']; subst; [cbn; rewrite app_nil_r; reflexivity|].
      destruct (IH data o path) as (_ & _ & I). destruct (I _ _ _ P _ _ N) as [[]|L]. eapply labelled_step; [exact L|exact B']. }
    destruct (is_digit b); [|discriminate]. intros H. apply bind_ok in H. destruct H as ([n o] & _ & H). injection H as <- <-. intros s w B. inversion B; subst. cbn. rewrite app_nil_r. reflexivity.
  - intros index l e. cbn [parse_items_p]. destruct (peek data off) as [b|]; [|discriminate]. destruct (b =? 101).
    { intros H. injection H as <- _. intros [|i] w N; discriminate N. }
    intros H. apply bind_ok in H. destruct H as ([v o] & P & H). apply bind_ok in H. destruct H as ([l' o2] & Q & H). injection H as <- _. intros [|i] w N.
    + injection N as <-. destruct (IH data off (index_path path index)) as (I & _). rewrite Nat.add_0_r, <- index_path_eq. exact (I _ _ P).
    + destruct (IH data o path) as (_ & I & _). replace (index + S i)%nat with (S index + i)%nat by lia. exact (I _ _ _ Q _ _ N).
  - intros m m' e. cbn [parse_entries_p]. destruct (peek data off) as [b|]; [|discriminate]. destruct (b =? 101).
    { intros H. injection H as <- _. auto. }
    intros H. apply bind_ok in H. destruct H as ([k o] & _ & H). apply bind_ok in H. destruct H as ([v o2] & P & H). intros k' w N.
    destruct (IH data o2 path) as (_ & _ & I). destruct (I _ _ _ H _ _ N) as [X|X]; [|auto]. apply insert_sub in X. destruct X as [(-> & ->)|X]; [|auto]. right.
    destruct (IH data o (key_path path k)) as (J & _). rewrite <- key_path_eq. exact (J _ _ P).
Qed.

(** C107: carrying paths changes nothing: the parser gives the values of BencodeModel.v, and
    every value in the result has the path of the steps that lead to it. *)
Theorem C107_paths_name_steps : forall data,
  (forall v, parse_p data = Ok v -> parse data = Ok (erase v) /\ forall s w, below v s w -> pl_path (ploc_of w) = path_text s) /\
  (forall p e, parse_p data = Err (p, e) -> parse data = Err e) /\ parse_p data <> Panic.
Proof.
  intros data. unfold parse_p, parse, parse_prefix. destruct (parsers_agree (fuel_for data) data 0 []) as (A & _). unfold same in A. destruct (parse_value_p (fuel_for data) data 0 []) as [[v e]|[p x]|] eqn:P; rewrite A; cbn [bind].
  - split; [|split; [discriminate|discriminate]]. intros v' H. injection H as <-. split; [reflexivity|]. intros s w B. destruct (paths_ok (fuel_for data) data 0 []) as (L & _). exact (L _ _ P _ _ B).
  - split; [discriminate|]. split; [|discriminate]. intros p' x' H. injection H as <- <-. reflexivity.
  - exfalso. destruct (parse_total (fuel_for data)) as (T & _). specialize (T [] data). cbn [app length] in T. destruct T as (T & _); [unfold fuel_for; lia|]. congruence.
Qed.
Print Assumptions C107_paths_name_steps.

(** *** Errors *)
Lemma stops_no_digit post : stops post <-> no_digit post.
Proof. destruct post as [|c post]; cbn; [tauto|]. pose proof (is_digit_spec c). destruct (is_digit c); split; intuition congruence. Qed.
Lemma decimal_nonempty ds n : BencodeSpec.decimal ds n -> ds <> [].
Proof. intros (H & _). exact H. Qed.
Lemma expect_err pre post c : lacks c post <-> expect_byte (pre ++ post) (length pre) c = Err (PExpectedByte (length pre) c).
Proof.
  unfold expect_byte, peek. destruct post as [|b post]; cbn [lacks]; [rewrite nth_at_end; tauto|]. rewrite nth_at. destruct (b =? c) eqn:B; cbn [negb].
  - apply N.eqb_eq in B. split; [congruence|discriminate].
  - apply N.eqb_neq in B. tauto.
Qed.
Lemma expect_cases pre post c : (exists t, post = c :: t /\ expect_byte (pre ++ post) (length pre) c = Ok (length (pre ++ [c]))) \/ (lacks c post /\ expect_byte (pre ++ post) (length pre) c = Err (PExpectedByte (length pre) c)).
Proof.
  destruct post as [|b t]; [right; split; [exact Logic.I|apply expect_err; exact Logic.I]|]. destruct (N.eq_dec b c) as [->|D].
  - left. exists t. split; [reflexivity|apply expect_ok].
  - right. split; [exact D|apply expect_err; exact D].
Qed.
Lemma usize_err pre rest e : parse_usize (pre ++ rest) (length pre) = Err e <-> number_fault (length pre) rest e.
Proof.
  split.
  - destruct (digits_split rest) as (ds & post & -> & D & P). rewrite usize_eval by auto. destruct ds as [|c ds].
    + intros H. injection H as <-. apply nf_digit. apply stops_no_digit. exact P.
    + destruct (dec_value (c :: ds) <? two64) eqn:L; [discriminate|]. intros H. injection H as <-. apply nf_large; [exact D|apply stops_no_digit; exact P|lia].
  - intros [post S|ds post D S L].
    + apply stops_no_digit in S. exact (usize_eval pre [] post (Forall_nil _) S).
    + apply stops_no_digit in S. rewrite usize_eval by auto. destruct ds as [|c ds]; [exfalso; revert L; vm_compute; congruence|]. replace (dec_value (c :: ds) <? two64) with false by lia. reflexivity.
Qed.
Lemma byte_string_err pre rest e : parse_byte_string (pre ++ rest) (length pre) = Err e <-> string_fault (length pre) rest e.
Proof.
  unfold parse_byte_string. split.
  - destruct (parse_usize (pre ++ rest) (length pre)) as [[n o]|x|] eqn:U; cbn [bind]; [|intros H; injection H as <-; apply sf_number, usize_err; exact U|discriminate].
    apply usize_inv in U. destruct U as (ds & post & -> & D & -> & P). apply stops_no_digit in P. rewrite app_assoc. destruct (expect_cases (pre ++ ds) post 58) as [(t & -> & E)|(K & E)]; rewrite E; cbn [bind].
    + replace (length ((pre ++ ds) ++ [58])) with (length pre + length ds + 1)%nat by (rewrite !app_length; cbn [length]; lia).
      destruct (two64 <=? N.of_nat (length pre + length ds + 1) + n) eqn:O; [intros H; injection H as <-; apply sf_overflow with n; [exact D|lia]|].
      destruct (blen ((pre ++ ds) ++ 58 :: t) <? N.of_nat (length pre + length ds + 1) + n) eqn:B.
      * intros H. injection H as <-. apply sf_beyond with n; [exact D|lia|]. unfold blen in *. rewrite !app_length in B. cbn [length] in B. lia.
      * unfold index_range. destruct (get_range _ _ _); discriminate.
    + intros H. injection H as <-. rewrite app_length. eapply sf_colon; eauto.
  - intros [t x F|ds n post D P K|ds n post D O|ds n post D O B].
    + apply usize_err in F. rewrite F. reflexivity.
    + apply stops_no_digit in P. rewrite (usize_ok _ _ _ _ D P). cbn [bind]. rewrite app_assoc. apply (expect_err (pre ++ ds)) in K. rewrite K. cbn [bind]. rewrite app_length. reflexivity.
    + rewrite (usize_ok pre ds ([58] ++ post) _ D eq_refl). cbn [bind app]. rewrite app_assoc, expect_ok. cbn [bind]. replace (length ((pre ++ ds) ++ [58])) with (length pre + length ds + 1)%nat by (rewrite !app_length; cbn [length]; lia). replace (two64 <=? N.of_nat (length pre + length ds + 1) + n) with true by lia. reflexivity.
    + rewrite (usize_ok pre ds ([58] ++ post) _ D eq_refl). cbn [bind app]. rewrite app_assoc, expect_ok. cbn [bind]. replace (length ((pre ++ ds) ++ [58])) with (length pre + length ds + 1)%nat by (rewrite !app_length; cbn [length]; lia). replace (two64 <=? N.of_nat (length pre + length ds + 1) + n) with false by lia.
      replace (blen ((pre ++ ds) ++ 58 :: post) <? N.of_nat (length pre + length ds + 1) + n) with true; [reflexivity|]. symmetry. apply N.ltb_lt. unfold blen in *. rewrite !app_length. cbn [length]. lia.
Qed.
Definition value_err (pre rest path p : bytes) (e : perr) : Prop :=
  exists s mid tgt, leads rest s tgt /\ rest = mid ++ tgt /\ p = path ++ path_text s /\ fault (length (pre ++ mid)) tgt e.
Definition items_err (pre rest path : bytes) (index : nat) (p : bytes) (e : perr) : Prop :=
  exists its l tl, rest = its ++ tl /\ ben_items its l /\
    ((tl = [] /\ p = path /\ e = PPrematureEnd (length (pre ++ its))) \/
     (exists c d, tl = c :: d /\ c <> 101 /\ value_err (pre ++ its) tl (path ++ path_text [At (index + length l)]) p e)).
Definition entries_err (pre rest path p : bytes) (e : perr) : Prop :=
  exists its l tl, rest = its ++ tl /\ ben_entries its l /\
    ((tl = [] /\ p = path /\ e = PPrematureEnd (length (pre ++ its))) \/
     (exists c d, tl = c :: d /\ c <> 101 /\ p = path /\ string_fault (length (pre ++ its)) tl e) \/
     (exists ks k d, tl = ks ++ d /\ bstring ks k /\ utf8_valid k = false /\ p = path /\ e = PBadUtf8 (length (pre ++ its))) \/
     (exists ks k d, tl = ks ++ d /\ bstring ks k /\ utf8_valid k = true /\ value_err ((pre ++ its) ++ ks) d (path ++ path_text [Of k]) p e)).
Lemma map_err_inv {E1 E2 A} (f : E1 -> E2) (x : outcome E1 A) y : map_err f x = Err y -> exists e, x = Err e /\ y = f e.
Proof. destruct x; cbn; intros H; try discriminate. injection H as <-. eauto. Qed.
Lemma map_ok_inv {E1 E2 A} (f : E1 -> E2) (x : outcome E1 A) y : map_err f x = Ok y -> x = Ok y.
Proof. destruct x; cbn; intros H; try discriminate. injection H as <-. reflexivity. Qed.
Lemma bind_err {E A B} (x : outcome E A) (f : A -> outcome E B) e : bind x f = Err e -> x = Err e \/ exists a, x = Ok a /\ f a = Err e.
Proof. destruct x as [a|z|]; cbn; intros H; [right; eauto|left; congruence|discriminate]. Qed.
Lemma value_here pre rest path e : fault (length pre) rest e -> value_err pre rest path path e.
Proof. intros F. exists [], [], rest. split; [constructor|]. split; [reflexivity|]. split; [cbn; rewrite app_nil_r; reflexivity|]. rewrite app_nil_r. exact F. Qed.
Lemma plus_one (pre : bytes) c : length (pre ++ [c]) = (length pre + 1)%nat.
Proof. rewrite app_length. reflexivity. Qed.
Lemma values_sound fuel data off path v e : parse_value_p fuel data off path = Ok (v, e) -> parse_value fuel data off = Ok (erase v, e).
Proof. intros H. destruct (parsers_agree fuel data off path) as (A & _). rewrite H in A. exact A. Qed.
Lemma errors_sound fuel :
  (forall pre rest path p e, parse_value_p fuel (pre ++ rest) (length pre) path = Err (p, e) -> e <> POutOfFuel -> value_err pre rest path p e) /\
  (forall pre rest path index p e, parse_items_p fuel (pre ++ rest) (length pre) path index = Err (p, e) -> e <> POutOfFuel -> items_err pre rest path index p e) /\
  (forall pre rest path m p e, parse_entries_p fuel (pre ++ rest) (length pre) path m = Err (p, e) -> e <> POutOfFuel -> entries_err pre rest path p e).
Proof.
  induction fuel as [|fuel (IHv & IHi & IHe)].
  { split; [|split]; [intros pre rest path p e H NF|intros pre rest path index p e H NF|intros pre rest path m p e H NF]; cbn [parse_value_p parse_items_p parse_entries_p] in H; congruence. }
  split; [|split].
  - intros pre rest path p e H NF. cbn [parse_value_p] in H. unfold peek in H. destruct rest as [|b rest].
    { rewrite nth_at_end in H. injection H as <- <-. apply value_here. constructor. }
    rewrite nth_at in H. destruct (b =? 105) eqn:B1; [|destruct (b =? 108) eqn:B2; [|destruct (b =? 100) eqn:B3; [|destruct (is_digit b) eqn:B4]]].
    + apply N.eqb_eq in B1. subst b. apply bind_err in H. destruct H as [H|([n o] & _ & H)]; [|discriminate]. apply map_err_inv in H. destruct H as (x & H & Q). injection Q as -> ->. apply value_here.
      unfold parse_integer in H. rewrite expect_ok in H. cbn [bind] in H. rewrite (snoc_assoc pre 105 rest) in H. apply bind_err in H. destruct H as [H|([n o] & U & H)].
      * apply usize_err in H. rewrite plus_one in H. exact (f_number _ rest x H).
      * apply usize_inv in U. destruct U as (ds & post & -> & D & -> & P). apply stops_no_digit in P. apply bind_err in H. destruct H as [H|(o & _ & H)]; [|discriminate]. rewrite app_assoc in H.
        destruct (expect_cases ((pre ++ [105]) ++ ds) post 101) as [(t & -> & E)|(K & E)]; rewrite E in H; [discriminate|]. injection H as <-. rewrite app_length, plus_one. eapply f_number_end; eauto.
    + apply N.eqb_eq in B2. subst b. rewrite expect_ok in H. unfold at_path in H. cbn [bind map_err] in H. rewrite (snoc_assoc pre 108 rest) in H. apply bind_err in H. destruct H as [H|([l o] & _ & H)]; [|discriminate]. apply IHi in H; [|exact NF].
      destruct H as (its & l & tl & -> & I & [(-> & -> & ->)|(c & d & -> & C & (s & mid & tgt & L & Q & -> & F))]).
      * apply value_here. rewrite app_nil_r, !app_length. eapply (f_list _ its); eauto.
      * exists (At (length l) :: s), ([108] ++ its ++ mid), tgt. split; [exact (leads_item its l c d s tgt I C L)|]. split; [rewrite Q, <- !app_assoc; reflexivity|]. split; [rewrite (path_cons (At (length l)) s), app_assoc; reflexivity|]. rewrite <- !app_assoc in F. exact F.
    + apply N.eqb_eq in B3. subst b. rewrite expect_ok in H. unfold at_path in H. cbn [bind map_err] in H. rewrite (snoc_assoc pre 100 rest) in H. apply bind_err in H. destruct H as [H|([l o] & _ & H)]; [|discriminate]. apply IHe in H; [|exact NF].
      destruct H as (its & l & tl & -> & I & [(-> & -> & ->)|[(c & d & -> & C & -> & F)|[(ks & k & d & -> & B & U & -> & ->)|(ks & k & d & -> & B & U & (s & mid & tgt & L & -> & -> & F))]]]).
      * apply value_here. rewrite app_nil_r, !app_length. eapply (f_dict _ its); eauto.
      * apply value_here. rewrite !app_length in F. eapply (f_key _ its); eauto.
      * apply value_here. rewrite !app_length. eapply (f_key_text _ its); eauto.
      * exists (Of k :: s), ([100] ++ its ++ ks ++ mid), tgt. split; [exact (leads_entry its l ks k _ s tgt I B U L)|]. split; [rewrite <- !app_assoc; reflexivity|]. split; [rewrite (path_cons (Of k) s), app_assoc; reflexivity|]. rewrite <- !app_assoc in F. exact F.
    + apply bind_err in H. destruct H as [H|([n o] & _ & H)]; [|discriminate]. apply map_err_inv in H. destruct H as (x & H & Q). injection Q as -> ->. apply value_here. apply byte_string_err in H. apply f_string; [apply is_digit_spec; exact B4|exact H].
    + injection H as <- <-. apply value_here. apply f_kind; try lia. intros X. apply is_digit_spec in X. congruence.
  - intros pre rest path index p e H NF. cbn [parse_items_p] in H. unfold peek in H. destruct rest as [|b rest].
    { rewrite nth_at_end in H. injection H as <- <-. exists [], [], []. split; [reflexivity|]. split; [constructor|]. left. rewrite app_nil_r. auto. }
    rewrite nth_at in H. destruct (b =? 101) eqn:B; [discriminate|]. apply N.eqb_neq in B. apply bind_err in H. destruct H as [H|([v o] & P & H)].
    + apply IHv in H; [|exact NF]. exists [], [], (b :: rest). split; [reflexivity|]. split; [constructor|]. right. exists b, rest. split; [reflexivity|]. split; [exact B|]. rewrite app_nil_r. cbn [length]. rewrite Nat.add_0_r, <- index_path_eq. exact H.
    + apply bind_err in H. destruct H as [H|([l o2] & _ & H)]; [|discriminate]. apply values_sound, (proj1 (parse_sound fuel)) in P. destruct P as (s & post & Er & -> & Bv & _). rewrite Er in *. rewrite app_assoc in H. apply IHi in H; [|exact NF].
      destruct H as (its & l & tl & -> & I & H). exists (s ++ its), (strip (erase v) :: l), tl. split; [rewrite <- app_assoc; reflexivity|]. split; [constructor; assumption|].
      replace (index + length (strip (erase v) :: l))%nat with (S index + length l)%nat by (cbn [length]; lia). rewrite app_assoc. exact H.
  - intros pre rest path m p e H NF. cbn [parse_entries_p] in H. unfold peek in H. destruct rest as [|b rest].
    { rewrite nth_at_end in H. injection H as <- <-. exists [], [], []. split; [reflexivity|]. split; [constructor|]. left. rewrite app_nil_r. auto. }
    rewrite nth_at in H. destruct (b =? 101) eqn:B; [discriminate|]. apply N.eqb_neq in B. apply bind_err in H. destruct H as [H|([k o] & P & H)].
    + apply map_err_inv in H. destruct H as (x & H & Q). injection Q as -> ->. exists [], [], (b :: rest). split; [reflexivity|]. split; [constructor|]. rewrite app_nil_r. unfold parse_utf8_string in H. apply bind_err in H. destruct H as [H|([k o] & P & H)].
      * right. left. exists b, rest. apply byte_string_err in H. auto.
      * right. right. left. apply byte_string_inv in P. destruct P as (ks & d & -> & Bk & _). exists ks, k, d. destruct (utf8_valid k); [discriminate|]. injection H as <-. auto.
    + apply map_ok_inv in P. apply utf8_string_inv in P. destruct P as (ks & d & Er & Bk & U & ->). rewrite Er in *. rewrite app_assoc in H. apply bind_err in H. destruct H as [H|([v o] & P & H)].
      * apply IHv in H; [|exact NF]. exists [], [], (ks ++ d). split; [reflexivity|]. split; [constructor|]. right. right. right. exists ks, k, d. rewrite app_nil_r, <- key_path_eq. auto.
      * apply values_sound, (proj1 (parse_sound fuel)) in P. destruct P as (s & post & -> & -> & Bv & _). rewrite app_assoc in H. apply IHe in H; [|exact NF]. destruct H as (its & l & tl & -> & I & H).
        exists (ks ++ s ++ its), ((k, strip (erase v)) :: l), tl. split; [rewrite <- !app_assoc; reflexivity|]. split; [constructor; assumption|]. replace (pre ++ ks ++ s ++ its) with (((pre ++ ks) ++ s) ++ its) by (rewrite <- !app_assoc; reflexivity). exact H.
Qed.
Lemma agree_ok fuel data off path v e : parse_value fuel data off = Ok (v, e) -> exists w, parse_value_p fuel data off path = Ok (w, e).
Proof.
  intros H. destruct (parsers_agree fuel data off path) as (A & _). rewrite H in A. unfold same in A. destruct (parse_value_p fuel data off path) as [[w e']|[p x]|]; try discriminate. injection A as _ <-. eauto.
Qed.
Lemma value_parses s b fuel pre post path : ben s b -> (2 * length s <= fuel)%nat -> fits (pre ++ s ++ post) -> exists w, parse_value_p fuel (pre ++ s ++ post) (length pre) path = Ok (w, length (pre ++ s)).
Proof. intros B L F. destruct (proj1 parse_complete s b B fuel pre post L F) as (v & P & _). eapply agree_ok. exact P. Qed.
Lemma items_prefix l : forall its, ben_items its l -> forall fuel pre tl path index, (2 * length (its ++ tl) + 2 <= fuel)%nat -> fits (pre ++ its ++ tl) ->
  exists fuel', (2 * length tl + 2 <= fuel')%nat /\ forall x, parse_items_p fuel' ((pre ++ its) ++ tl) (length (pre ++ its)) path (index + length l) = Err x -> parse_items_p fuel (pre ++ its ++ tl) (length pre) path index = Err x.
Proof.
  induction l as [|b l IH]; intros its I fuel pre tl path index L F; inversion I as [|s1 s2 b' l' B I' E1 E2]; subst.
  - exists fuel. split; [exact L|]. cbn [length]. rewrite Nat.add_0_r, !app_nil_r. auto.
  - pose proof (ben_nonempty _ _ B) as NE. destruct (ben_first_not_e _ _ B) as (c & t & Es & C). destruct fuel as [|fuel]; [lia|]. rewrite !app_length in L. rewrite <- !app_assoc in F.
    destruct (value_parses s1 b fuel pre (s2 ++ tl) (index_path path index) B ltac:(lia) F) as (w & P).
    destruct (IH s2 I' fuel (pre ++ s1) tl path (S index)) as (fuel' & L' & H); [rewrite app_length; lia|rewrite <- app_assoc; exact F|].
    exists fuel'. split; [exact L'|]. intros x X. rewrite <- !app_assoc in H. rewrite <- !app_assoc in X. rewrite <- !app_assoc. cbn [parse_items_p]. rewrite (peek_first pre s1 (s2 ++ tl) c t Es). replace (c =? 101) with false by lia. rewrite P. cbn [bind].
    rewrite (H x); [reflexivity|]. cbn [length] in X. replace (S index + length l)%nat with (index + S (length l))%nat by lia. exact X.
Qed.
Lemma entries_prefix l : forall its, ben_entries its l -> forall fuel pre tl path m, (2 * length (its ++ tl) + 2 <= fuel)%nat -> fits (pre ++ its ++ tl) ->
  exists fuel' m', (2 * length tl + 2 <= fuel')%nat /\ forall x, parse_entries_p fuel' ((pre ++ its) ++ tl) (length (pre ++ its)) path m' = Err x -> parse_entries_p fuel (pre ++ its ++ tl) (length pre) path m = Err x.
Proof.
  induction l as [|b l IH]; intros its I fuel pre tl path m L F; inversion I as [|ks k s1 s2 b' l' Bk U B I' E1 E2]; subst.
  - exists fuel, m. split; [exact L|]. rewrite !app_nil_r. auto.
  - pose proof (ben_nonempty _ _ B) as NE. destruct (bstring_not_e _ _ Bk) as (c & t & Es & C). destruct fuel as [|fuel]; [lia|]. rewrite !app_length in L. rewrite <- !app_assoc in F.
    pose proof (utf8_string_ok pre ks k (s1 ++ s2 ++ tl) Bk U F) as K.
    destruct (value_parses s1 b' fuel (pre ++ ks) (s2 ++ tl) (key_path path k) B ltac:(lia)) as (w & P); [rewrite <- app_assoc; exact F|].
    destruct (IH s2 I' fuel ((pre ++ ks) ++ s1) tl path (map_insert k w m)) as (fuel' & m' & L' & H); [rewrite app_length; lia|rewrite <- !app_assoc; exact F|].
    exists fuel', m'. split; [exact L'|]. intros x X. rewrite <- !app_assoc in H. rewrite <- !app_assoc in X. rewrite <- !app_assoc in P. rewrite <- !app_assoc. cbn [parse_entries_p]. rewrite (peek_first pre ks (s1 ++ s2 ++ tl) c t Es). replace (c =? 101) with false by lia. unfold at_path. rewrite K. cbn [map_err bind]. rewrite P. cbn [bind]. exact (H x X).
Qed.
Lemma leads_suffix d s r : leads d s r -> exists m, d = m ++ r.
Proof.
  induction 1 as [d|its l c d s rest I C L (m & E)|its l ks k d s rest I B U L (m & E)]; [exists []; reflexivity| |].
  - exists ([108] ++ its ++ m). rewrite E, <- !app_assoc. reflexivity.
  - exists ([100] ++ its ++ ks ++ m). rewrite E, <- !app_assoc. reflexivity.
Qed.
Lemma peek_at (pre : bytes) c post : peek (pre ++ c :: post) (length pre) = Some c.
Proof. apply nth_at. Qed.
Lemma utf8_string_fault pre rest e : string_fault (length pre) rest e -> parse_utf8_string (pre ++ rest) (length pre) = Err e.
Proof. intros F. unfold parse_utf8_string. apply byte_string_err in F. rewrite F. reflexivity. Qed.
Lemma fault_reported fuel pre rest path e : fault (length pre) rest e -> (2 * length rest + 1 <= fuel)%nat -> fits (pre ++ rest) -> parse_value_p fuel (pre ++ rest) (length pre) path = Err (path, e).
Proof.
  intros F L Fit. destruct fuel as [|fuel]; [lia|]. cbn [parse_value_p]. destruct F as [|b t N1 N2 N3 N4|t e F|ds n post D P K|b t e Db F|its l I|its l I|its l c t e I C F|its l ks k t I B U].
  - unfold peek. rewrite nth_at_end. reflexivity.
  - rewrite peek_at. replace (b =? 105) with false by lia. replace (b =? 108) with false by lia. replace (b =? 100) with false by lia. destruct (is_digit b) eqn:Q; [|reflexivity]. apply is_digit_spec in Q. tauto.
  - cbn [app]. rewrite peek_at. change (105 =? 105) with true. cbv iota. unfold parse_integer, at_path. rewrite expect_ok. cbn [bind]. rewrite <- (plus_one pre 105) in F. apply usize_err in F. rewrite (snoc_assoc pre 105 t), F. reflexivity.
  - cbn [app]. rewrite peek_at. change (105 =? 105) with true. cbv iota. unfold parse_integer, at_path. rewrite expect_ok. cbn [bind]. rewrite (snoc_assoc pre 105). apply stops_no_digit in P. rewrite (usize_ok _ _ _ _ D P). cbn [bind]. rewrite app_assoc. apply (expect_err ((pre ++ [105]) ++ ds)) in K. rewrite K. cbn [bind map_err]. rewrite app_length, plus_one. reflexivity.
  - rewrite peek_at. replace (b =? 105) with false by lia. replace (b =? 108) with false by lia. replace (b =? 100) with false by lia. apply is_digit_spec in Db. rewrite Db. unfold at_path. apply byte_string_err in F. rewrite F. reflexivity.
  - cbn [app] in *. rewrite peek_at. change (108 =? 105) with false. change (108 =? 108) with true. cbv iota. rewrite expect_ok. unfold at_path. cbn [bind map_err]. rewrite (snoc_assoc pre 108) in *. cbn [length] in L.
    destruct (items_prefix l its I fuel (pre ++ [108]) [] path 0) as (fuel' & L' & H); [rewrite app_nil_r; lia|rewrite app_nil_r; exact Fit|]. rewrite !app_nil_r in H. rewrite (H (path, PPrematureEnd (length pre + 1 + length its))); [reflexivity|]. destruct fuel' as [|fuel']; [lia|]. cbn [parse_items_p]. replace (peek _ _) with (@None N). 2:{ symmetry. apply nth_error_None. lia. } rewrite app_length, plus_one. reflexivity.
  - cbn [app] in *. rewrite peek_at. change (100 =? 105) with false. change (100 =? 108) with false. change (100 =? 100) with true. cbv iota. rewrite expect_ok. unfold at_path. cbn [bind map_err]. rewrite (snoc_assoc pre 100) in *. cbn [length] in L.
    destruct (entries_prefix l its I fuel (pre ++ [100]) [] path []) as (fuel' & m' & L' & H); [rewrite app_nil_r; lia|rewrite app_nil_r; exact Fit|]. rewrite !app_nil_r in H. rewrite (H (path, PPrematureEnd (length pre + 1 + length its))); [reflexivity|]. destruct fuel' as [|fuel']; [lia|]. cbn [parse_entries_p]. replace (peek _ _) with (@None N). 2:{ symmetry. apply nth_error_None. lia. } rewrite app_length, plus_one. reflexivity.
  - cbn [app] in *. rewrite peek_at. change (100 =? 105) with false. change (100 =? 108) with false. change (100 =? 100) with true. cbv iota. rewrite expect_ok. unfold at_path. cbn [bind map_err]. rewrite (snoc_assoc pre 100) in *. cbn [length] in L.
    destruct (entries_prefix l its I fuel (pre ++ [100]) (c :: t) path []) as (fuel' & m' & L' & H); [lia|exact Fit|]. rewrite (H (path, e)); [reflexivity|]. destruct fuel' as [|fuel']; [lia|]. cbn [parse_entries_p]. rewrite peek_at. replace (c =? 101) with false by lia. unfold at_path. rewrite utf8_string_fault with (e := e); [reflexivity|]. rewrite app_length, plus_one. exact F.
  - cbn [app] in *. rewrite peek_at. change (100 =? 105) with false. change (100 =? 108) with false. change (100 =? 100) with true. cbv iota. rewrite expect_ok. unfold at_path. cbn [bind map_err]. rewrite (snoc_assoc pre 100) in *. cbn [length] in L.
    destruct (entries_prefix l its I fuel (pre ++ [100]) (ks ++ t) path []) as (fuel' & m' & L' & H); [lia|exact Fit|]. rewrite (H (path, PBadUtf8 (length pre + 1 + length its))); [reflexivity|]. destruct fuel' as [|fuel']; [lia|]. cbn [parse_entries_p]. destruct (bstring_not_e _ _ B) as (c & t' & Es & C). rewrite (peek_first _ ks t c t' Es). replace (c =? 101) with false by lia. unfold at_path, parse_utf8_string. rewrite (byte_string_ok (( pre ++ [100]) ++ its) ks k t B); [|rewrite <- app_assoc; exact Fit]. cbn [bind]. rewrite U. cbn [map_err bind]. rewrite app_length, plus_one. reflexivity.
Qed.
Lemma errors_complete rest s tgt : leads rest s tgt -> forall fuel pre path mid e, rest = mid ++ tgt -> fault (length (pre ++ mid)) tgt e -> (2 * length rest + 1 <= fuel)%nat -> fits (pre ++ rest) -> parse_value_p fuel (pre ++ rest) (length pre) path = Err (path ++ path_text s, e).
Proof.
  induction 1 as [d|its l c d s rest I C L IH|its l ks k d s rest I B U L IH]; intros fuel pre path mid e E F Lf Fit.
  - assert (mid = []) by (apply (app_inv_tail d); symmetry; exact E). subst mid. rewrite app_nil_r in F. cbn [path_text flat_map]. rewrite app_nil_r. apply fault_reported; assumption.
  - destruct (leads_suffix _ _ _ L) as (m & Em). assert (mid = [108] ++ its ++ m). { apply (app_inv_tail rest). rewrite <- E, Em, <- !app_assoc. reflexivity. } subst mid.
    destruct fuel as [|fuel]; [lia|]. cbn [app] in *. cbn [parse_value_p]. rewrite peek_at. change (108 =? 105) with false. change (108 =? 108) with true. cbv iota. rewrite expect_ok. unfold at_path. cbn [bind map_err]. rewrite (snoc_assoc pre 108) in *. cbn [length] in Lf.
    destruct (items_prefix l its I fuel (pre ++ [108]) (c :: d) path 0) as (fuel' & L' & H); [lia|exact Fit|]. rewrite (H (path ++ path_text (At (length l) :: s), e)); [reflexivity|]. destruct fuel' as [|fuel']; [lia|]. cbn [parse_items_p]. rewrite peek_at. replace (c =? 101) with false by lia.
    rewrite (IH fuel' ((pre ++ [108]) ++ its) (index_path path (0 + length l)) m e Em); [| |lia|rewrite <- app_assoc; exact Fit].
    + cbn [bind Nat.add]. rewrite index_path_eq, (path_cons (At (length l)) s), app_assoc. reflexivity.
    + rewrite <- !app_assoc. rewrite <- !app_assoc in F. exact F.
  - destruct (leads_suffix _ _ _ L) as (m & Em). assert (mid = [100] ++ its ++ ks ++ m). { apply (app_inv_tail rest). rewrite <- E, Em, <- !app_assoc. reflexivity. } subst mid.
    destruct fuel as [|fuel]; [lia|]. cbn [app] in *. cbn [parse_value_p]. rewrite peek_at. change (100 =? 105) with false. change (100 =? 108) with false. change (100 =? 100) with true. cbv iota. rewrite expect_ok. unfold at_path. cbn [bind map_err]. rewrite (snoc_assoc pre 100) in *. cbn [length] in Lf.
    destruct (entries_prefix l its I fuel (pre ++ [100]) (ks ++ d) path []) as (fuel' & m' & L' & H); [lia|exact Fit|]. rewrite (H (path ++ path_text (Of k :: s), e)); [reflexivity|]. destruct fuel' as [|fuel']; [lia|]. cbn [parse_entries_p]. destruct (bstring_not_e _ _ B) as (c & t' & Es & C). rewrite (peek_first _ ks d c t' Es). replace (c =? 101) with false by lia. unfold at_path. rewrite (utf8_string_ok ((pre ++ [100]) ++ its) ks k d B U); [|rewrite <- app_assoc; exact Fit]. cbn [bind map_err].
    rewrite (app_assoc ((pre ++ [100]) ++ its) ks d). rewrite (IH fuel' (((pre ++ [100]) ++ its) ++ ks) (key_path path k) m e Em).
    + cbn [bind]. rewrite key_path_eq, (path_cons (Of k) s), app_assoc. reflexivity.
    + rewrite <- !app_assoc. rewrite <- !app_assoc in F. exact F.
    + rewrite app_length in L'. lia.
    + rewrite <- !app_assoc. rewrite <- !app_assoc in Fit. exact Fit.
Qed.

(** C107: an error is reported exactly when the text has a fault somewhere: following some steps
    through complete items and entries leads to a text that is faulty itself.  The error has
    the path of these steps and says what is wrong there. *)
Theorem C107_errors_name_faults : forall data p e, fits data ->
  (parse_p data = Err (p, e) <->
   exists s before rest, leads data s rest /\ data = before ++ rest /\ p = path_text s /\ fault (length before) rest e).
Proof.
  intros data p e Fit. unfold parse_p. split.
  - intros H. apply bind_err in H. destruct H as [H|([v o] & _ & H)]; [|discriminate]. destruct (proj1 (errors_sound (fuel_for data)) [] data [] p e H) as (s & mid & tgt & L & E & -> & F).
    + intros ->. destruct (parsers_agree (fuel_for data) data 0 []) as (A & _). rewrite H in A. cbn [same] in A. destruct (parse_total (fuel_for data)) as (T & _). specialize (T [] data). cbn [app length] in T. destruct T as (_ & T); [unfold fuel_for; lia|]. congruence.
    + exists s, mid, tgt. auto.
  - intros (s & mid & tgt & L & E & -> & F). pose proof (errors_complete data s tgt L (fuel_for data) [] [] mid e E F) as H. cbn [app length] in H. rewrite H; [reflexivity|unfold fuel_for; lia|exact Fit].
Qed.
Print Assumptions C107_errors_name_faults.
(** C107: the offset of an error lies within the faulty text, or at its end. *)
Lemma fault_offset o rest e : fault o rest e -> (o <= error_offset e <= o + length rest)%nat.
Proof.
  assert (NF : forall o t e, number_fault o t e -> error_offset e = o) by (intros o' t e' []; reflexivity).
  assert (SF : forall o t e, string_fault o t e -> (o <= error_offset e <= o + length t)%nat).
  { intros o' t e' [t' x H|ds n post D P K|ds n post D O|ds n post D O B]; [apply NF in H; lia| | |]; cbn [error_offset]; rewrite !app_length; cbn [length]; lia. }
  intros [|b t N1 N2 N3 N4|t e' F|ds n post D P K|b t e' Db F|its l I|its l I|its l c t e' I C F|its l ks k t I B U]; cbn [error_offset length app]; rewrite ?app_length; try lia.
  - apply NF in F. lia.
  - apply SF in F. cbn [length] in F. lia.
  - apply SF in F. cbn [length] in F. cbn [length]. lia.
Qed.
Theorem C107_error_offsets : forall data p e, fits data -> parse_p data = Err (p, e) ->
  exists s before rest, leads data s rest /\ data = before ++ rest /\ p = path_text s /\ (length before <= error_offset e <= length data)%nat.
Proof.
  intros data p e Fit H. apply (C107_errors_name_faults data p e Fit) in H. destruct H as (s & before & rest & L & E & P & F). exists s, before, rest. split; [exact L|]. split; [exact E|]. split; [exact P|]. apply fault_offset in F. rewrite E, app_length. exact F.
Qed.
Print Assumptions C107_error_offsets.
(** A path does not determine the steps: the keys of a dictionary may contain slashes and look
    like indices. *)
Theorem C107_paths_unique_refuted : exists data v w1 w2 s1 s2,
  parse_p data = Ok v /\ below v s1 w1 /\ below v s2 w2 /\ w1 <> w2 /\ pl_path (ploc_of w1) = pl_path (ploc_of w2).
Proof.
  (* d1:ad1:bi1ee3:a/bi2ee *)
  eexists (ascii_bytes "d1:ad1:bi1ee3:a/bi2ee"), _, _, _, [Of (ascii_bytes "a"); Of (ascii_bytes "b")], [Of (ascii_bytes "a/b")].
  split; [vm_compute; reflexivity|]. split; [eapply below_entry; [left; reflexivity|eapply below_entry; [left; reflexivity|constructor]]|].
  split; [eapply below_entry; [right; left; reflexivity|constructor]|]. split; [discriminate|reflexivity].
Qed.
Print Assumptions C107_paths_unique_refuted.
(** Keys without slashes that are not numbers: then it does. *)
Definition plain_key (k : bytes) : Prop := ~ In 47 k /\ forall i, k <> decimal_text i.
Definition step_text (s : step) : bytes := match s with At i => decimal_text (N.of_nat i) | Of k => k end.
Lemma step_inj a b : (forall k, a = Of k \/ b = Of k -> plain_key k) -> step_text a = step_text b -> a = b.
Proof.
  intros P. destruct a as [i|k], b as [j|k2]; cbn [step_text]; intros H.
  - apply decimal_inj in H. f_equal. lia.
  - destruct (P k2 (or_intror eq_refl)) as (_ & X). congruence.
  - destruct (P k (or_introl eq_refl)) as (_ & X). congruence.
  - congruence.
Qed.
Theorem C107_paths_unique_partial : forall s1 s2, (forall k, In (Of k) s1 \/ In (Of k) s2 -> plain_key k) -> path_text s1 = path_text s2 -> s1 = s2.
Proof.
  assert (FR : forall a, (forall k, a = Of k -> plain_key k) -> ~ In 47 (step_text a)).
  { intros [i|k] P; cbn [step_text]; [apply decimal_free; lia|]. destruct (P k eq_refl) as (X & _). exact X. }
  assert (C : forall s, path_text s = [] -> s = []) by (intros [|a s]; [reflexivity|discriminate]).
  assert (SP : forall (a b c d : bytes), ~ In 47 a -> ~ In 47 b -> (c = [] \/ exists c', c = 47 :: c') -> (d = [] \/ exists d', d = 47 :: d') -> a ++ c = b ++ d -> a = b /\ c = d).
  { intros a b c d Na Nb [->|(c' & ->)] [->|(d' & ->)] H.
    - rewrite !app_nil_r in H. auto.
    - exfalso. rewrite app_nil_r in H. apply Na. rewrite H, in_app_iff. right. left. reflexivity.
    - exfalso. rewrite app_nil_r in H. apply Nb. rewrite <- H, in_app_iff. right. left. reflexivity.
    - apply split_at in H; [|assumption..]. destruct H as (-> & ->). auto. }
  assert (SL : forall s, path_text s = [] \/ exists t, path_text s = 47 :: t) by (intros [|a s]; [left; reflexivity|right; eexists; reflexivity]).
  induction s1 as [|a s1 IH]; intros s2 P H; [symmetry; apply C; symmetry; exact H|]. destruct s2 as [|b s2]; [discriminate|].
  change (47 :: step_text a ++ path_text s1 = 47 :: step_text b ++ path_text s2) in H. injection H as H. apply SP in H; [|apply FR; intros k ->; apply P; left; left; reflexivity|apply FR; intros k ->; apply P; right; left; reflexivity|apply SL|apply SL].
  destruct H as (H1 & H2). f_equal.
  - apply step_inj; [|exact H1]. intros k [->| ->]; apply P; [left|right]; left; reflexivity.
  - apply IH; [|exact H2]. intros k [X|X]; apply P; [left|right]; right; exact X.
Qed.
Print Assumptions C107_paths_unique_partial.
(** The text of an error names the offset and the path. *)
Theorem C107_error_texts : forall bad data data' p p' e e', (forall x, error_text bad data (p, e) = ascii_bytes "Offset " ++ decimal_text (N.of_nat (error_offset e)) ++ ascii_bytes ", path " ++ [34] ++ p ++ [34] ++ ascii_bytes ": " ++ x -> x = error_message bad data e) /\
  (error_text bad data (p, e) = error_text bad data' (p', e') -> error_offset e = error_offset e' /\ (~ In 34 p -> ~ In 34 p' -> p = p')).
Proof.
  intros bad data data' p p' e e'. unfold error_text. cbn [fst snd]. split.
  - intros x H. repeat (apply app_inv_head in H). symmetry. exact H.
  - intros H. apply app_inv_head in H. change (ascii_bytes ", path ") with (44 :: ascii_bytes " path ") in H. cbn [app] in H. apply split_at in H; [|apply decimal_free; lia..]. destruct H as (H1 & H2). split; [apply decimal_inj in H1; lia|]. intros N1 N2.
    apply app_inv_head in H2. injection H2 as H2. apply split_at in H2; [|assumption..]. exact (proj1 H2).
Qed.
Print Assumptions C107_error_texts.
(** A list within a dictionary with a faulty second item: [d1:ali1e9zee]. *)
Example C107_example :
  parse_p (ascii_bytes "d1:ali1e9zee") = Err (ascii_bytes "/a/1", PExpectedByte 9 58) /\
  error_text (fun _ => []) (ascii_bytes "d1:ali1e9zee") (ascii_bytes "/a/1", PExpectedByte 9 58) = ascii_bytes "Offset 9, path ""/a/1"": Expected ':', got 'z'" /\
  match parse_p (ascii_bytes "d1:ali1e2:xyee") with
  | Ok (PDict _ [(_, PList _ [_; w])]) => ploc_of w = {| pl_start := 8; pl_end := 12; pl_path := ascii_bytes "/a/1" |}
  | _ => False
  end.
Proof. vm_compute. auto. Qed.
