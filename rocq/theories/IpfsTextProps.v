(** The debug texts of the structures of IPFS and libp2p, C128. *)
From Coq Require Import String Ascii.
From Verif Require Import Base BaseProofs UtilModel ChatModel Asn1ToolModel Asn1PrintProps HexDumpModel HexDumpProps VarintModel ProtobufModel
  CidModel CidSpec CidProofs CidTextModel CidProps MultibaseModel MultibaseSpec MultibaseProofs4 IdentifyModel BitswapModel DagPbModel UnixfsModel CliModel CliProps NamesModel MessageSpec PemProps
  DebugModel DebugSpec DebugProofs DebugProofs2 DebugProps IpfsTextModel.
Local Open Scope string_scope. Local Open Scope list_scope. Local Open Scope N_scope.

(** *** Vocabulary *)
(** What is assumed of [Debug] of a string: it shows where it ends, it is on one line, and it
    starts with a quote. *)
Definition quoting (quote : bytes -> bytes) : Prop :=
  (forall s s' x y, utf8_valid s = true -> utf8_valid s' = true -> quote s ++ x = quote s' ++ y -> s = s' /\ x = y) /\
  (forall s, ~ In 10 (quote s) /\ ~ In 13 (quote s)) /\ (forall s, hd 0 (quote s) = 34).
(** Two options, compared by [R]. *)
Definition both {A} (R : A -> A -> Prop) (o o' : option A) : Prop :=
  match o, o' with Some x, Some y => R x y | None, None => True | _, _ => False end.
(** Data of the same length. *)
Definition same_size : option bytes -> option bytes -> Prop := both (fun d d' => length d = length d').

(** *** Leaves *)
Lemma dname_sep m s s' (R : Prop) : ~ In 10 (ascii_bytes s) -> ~ In 10 (ascii_bytes s') -> bsep (ascii_bytes s) (ascii_bytes s') R -> sep m (dname s) (dname s') R.
Proof. apply sep_text. Qed.
Ltac differ := apply bsep_differ; intros ? ? E; discriminate E.
Ltac differ_sep m := destruct m; apply bsep_differ; intros ? ? E; discriminate E.
Lemma same_sep m d : sep m d d True.
Proof. intros s u _ _ E. apply app_inv_head in E. auto. Qed.
Lemma same_sep' m d (R : Prop) : R -> sep m d d R.
Proof. intros r s u _ _ E. apply app_inv_head in E. auto. Qed.
Lemma option_sep {A} (f : A -> dbg) (R : A -> A -> Prop) m o o' :
  (forall x y, o = Some x -> o' = Some y -> sep (deeper m) (f x) (f y) (R x y)) -> sep m (doption f o) (doption f o') (both R o o').
Proof.
  intros S. destruct o as [x|], o' as [y|]; cbn [doption both].
  - apply single. apply S; reflexivity.
  - destruct m; apply bsep_differ; intros s u E; discriminate E.
  - destruct m; apply bsep_differ; intros s u E; discriminate E.
  - apply same_sep.
Qed.
Lemma both_eq {A} (o o' : option A) : both eq o o' -> o = o'.
Proof. destruct o, o'; cbn; congruence || tauto. Qed.
Lemma opt_number_sep m o o' : sep m (doption dnumber o) (doption dnumber o') (o = o').
Proof. eapply weaken; [apply both_eq|]. apply option_sep. intros x y _ _. apply number_sep. Qed.
Lemma integer_chars z : Forall (fun c => 48 <= c <= 57 \/ c = 45) (integer_text z).
Proof.
  assert (D : forall n, Forall (fun c => 48 <= c <= 57 \/ c = 45) (ChatModel.decimal n)) by (intros n; eapply Forall_impl; [|apply decimal_digits]; cbv beta; intros c; lia).
  destruct z as [|p|p]; cbn [integer_text]; try apply D. apply Forall_app. split; [repeat constructor; lia|apply D].
Qed.
Lemma integer_inj z z' : integer_text z = integer_text z' -> z = z'.
Proof.
  assert (M : forall n t, ChatModel.decimal n <> 45 :: t).
  { intros n t E. pose proof (decimal_digits n) as F. rewrite E in F. inversion F as [|? ? P ?]. cbv beta in P. lia. }
  intros H. destruct z as [|p|p], z' as [|q|q]; cbn [integer_text Z.abs_N] in H; try reflexivity.
  all: try (apply decimal_inj in H; lia).
  all: try (symmetry in H; apply M in H; destruct H).
  all: try (apply M in H; destruct H).
  apply app_inv_head, decimal_inj in H. lia.
Qed.
Lemma integer_flat z : ~ In 10 (integer_text z).
Proof. intros X. pose proof (integer_chars z) as F. rewrite Forall_forall in F. apply F in X. lia. Qed.
Lemma integer_sep m z z' : sep m (dinteger z) (dinteger z') (z = z').
Proof.
  apply sep_text; [apply integer_flat|apply integer_flat|]. eapply bsep_weak; [apply integer_inj|].
  apply (run_sep (fun c => 48 <= c <= 57 \/ c = 45)); [unfold stop; intros c; lia|apply integer_chars|apply integer_chars].
Qed.
Lemma bool_sep m b b' : sep m (dbool b) (dbool b') (b = b').
Proof. destruct b, b'; try (apply same_sep'; reflexivity); differ_sep m. Qed.
Lemma version_sep m v v' : sep m (dversion v) (dversion v') (v = v').
Proof. destruct v, v'; try (apply same_sep'; reflexivity); differ_sep m. Qed.
Lemma codec_sep m v v' : sep m (dcodec v) (dcodec v') (v = v').
Proof.
  destruct v, v'; try (apply same_sep'; reflexivity); try (differ_sep m). apply single. eapply weaken; [|apply number_sep]. congruence.
Qed.
Lemma hash_type_sep m v v' : sep m (dhash_type v) (dhash_type v') (v = v').
Proof.
  destruct v, v'; try (apply same_sep'; reflexivity); try (differ_sep m). apply single. eapply weaken; [|apply number_sep]. congruence.
Qed.
Lemma want_type_sep m v v' : sep m (dwant_type v) (dwant_type v') (v = v').
Proof. destruct v, v'; try (apply same_sep'; reflexivity); differ_sep m. Qed.
Lemma presence_type_sep m v v' : sep m (dpresence_type v) (dpresence_type v') (v = v').
Proof. destruct v, v'; try (apply same_sep'; reflexivity); differ_sep m. Qed.
Lemma key_type_sep m v v' : sep m (dkey_type v) (dkey_type v') (v = v').
Proof. destruct v, v'; try (apply same_sep'; reflexivity); differ_sep m. Qed.
Lemma data_type_sep m v v' : sep m (ddata_type v) (ddata_type v') (v = v').
Proof. destruct v, v'; try (apply same_sep'; reflexivity); differ_sep m. Qed.
Lemma string_sep quote m s s' : quoting quote -> utf8_valid s = true -> utf8_valid s' = true -> sep m (dstring quote s) (dstring quote s') (s = s').
Proof. intros (Q & F & _) U U'. apply sep_text; [apply F|apply F|]. intros x y _ _ E. apply Q; assumption. Qed.
Lemma string_begins quote m s : quoting quote -> begins (render m (dstring quote s)).
Proof.
  intros (_ & F & H). apply text_begins; [apply F|]. specialize (H s). split; [intros E; rewrite E in H; discriminate H|]. rewrite H. discriminate.
Qed.
Lemma length_flat d : ~ In 10 (length_text d).
Proof. unfold length_text. rewrite !in_app_iff. intros [X|[X|X]]; [vm_compute in X; intuition discriminate|exact (decimal_flat _ X)|vm_compute in X; intuition discriminate]. Qed.
Lemma opt_length_sep m o o' : sep m (dtext (opt_length_text o)) (dtext (opt_length_text o')) (same_size o o').
Proof.
  destruct o as [d|], o' as [d'|]; cbn [opt_length_text same_size both].
  - apply sep_text; [apply length_flat|apply length_flat|]. unfold length_text. apply bsep_prefix. intros s u _ _ E. rewrite <- !app_assoc in E.
    destruct (decimal_sep (blen d) (blen d') _ _ (or_intror (or_introl eq_refl) : halts (32 :: _)) (or_intror (or_introl eq_refl) : halts (32 :: _)) E) as [L e].
    apply (app_inv_head (ascii_bytes " bytes>")) in e. split; [unfold blen in L; lia|exact e].
  - destruct m; apply bsep_differ; intros s u E; discriminate E.
  - destruct m; apply bsep_differ; intros s u E; discriminate E.
  - apply same_sep.
Qed.

(** *** Structures *)
Lemma cid_sep m c c' : bytes_ok (cid_hash c) -> bytes_ok (cid_hash c') -> sep m (dcid c) (dcid c') (c = c').
Proof.
  intros B B'. eapply weaken; [|apply seps_group; fields; [apply version_sep|apply codec_sep|apply hash_type_sep|apply binary_sep; assumption]].
  destruct c, c'; cbn. intuition congruence.
Qed.
Lemma prefix_sep m c c' : sep m (dprefix c) (dprefix c') (c = c').
Proof.
  eapply weaken; [|apply seps_group; fields; [apply version_sep|apply codec_sep|apply hash_type_sep|apply number_sep]].
  destruct c, c'; cbn. intuition congruence.
Qed.
Lemma wanted_sep m e e' : bytes_ok (en_block e) -> bytes_ok (en_block e') -> sep m (dwanted e) (dwanted e') (e = e').
Proof.
  intros B B'. eapply weaken; [|apply seps_group; fields; [apply binary_sep; assumption|apply integer_sep|apply bool_sep|apply want_type_sep|apply bool_sep]].
  destruct e, e'; cbn. intuition congruence.
Qed.
Lemma struct_begins m name fields_ : name <> EmptyString -> hd 0 (ascii_bytes name) <> 93 -> begins (render m (dstruct name fields_)).
Proof.
  intros N H. assert (T : forall x, begins (ascii_bytes name ++ x)).
  { intros x. destruct name as [|a t]; [congruence|]. split; [discriminate|]. exact H. }
  destruct fields_ as [|f l]; destruct m; cbn [dstruct map render plain at_depth]; apply T.
Qed.
Lemma want_list_sep m w w' : Forall (fun e => bytes_ok (en_block e)) (wl_entries w) -> Forall (fun e => bytes_ok (en_block e)) (wl_entries w') ->
  sep m (dwant_list w) (dwant_list w') (w = w').
Proof.
  intros B B'. rewrite Forall_forall in B, B'. eapply weaken; [|apply seps_group; fields; [apply (sep_vec dwanted eq)|apply bool_sep]].
  - intros (P & Q & _). apply forall2_eq in P. destruct w, w'; cbn in *; congruence.
  - intros x y X Y. apply wanted_sep; auto.
  - intros x _. apply struct_begins; discriminate.
Qed.
Lemma block_sep m b b' : block_ok b -> block_ok b' -> sep m (dblock b) (dblock b') (b = b').
Proof.
  intros [P D] [P' D']. eapply weaken; [|apply seps_group; fields; [apply binary_sep; assumption|apply binary_sep; assumption]].
  destruct b, b'; cbn. intuition congruence.
Qed.
Lemma blocks_sep m l l' : Forall block_ok l -> Forall block_ok l' -> sep m (dvec dblock l) (dvec dblock l') (l = l').
Proof.
  intros B B'. rewrite Forall_forall in B, B'. eapply weaken; [apply forall2_eq|]. apply sep_vec; [intros x y X Y; apply block_sep; auto|]. intros x _. apply struct_begins; discriminate.
Qed.
Lemma presence_sep m p p' : sep m (dpresence p) (dpresence p') (p = p').
Proof.
  eapply weaken; [|apply seps_group; fields; [apply vec_numbers_sep|apply presence_type_sep]]. destruct p, p'; cbn. intuition congruence.
Qed.
(** Bitswap messages, with all their fields. *)
Definition whole_message_ok (m : bs_message) : Prop :=
  opt_ok (fun w => Forall (fun e => bytes_ok (en_block e)) (wl_entries w)) (bm_wantlist m) /\ Forall block_ok (bm_blocks m) /\ Forall block_ok (bm_payload m).
Lemma bitswap_sep m x y : whole_message_ok x -> whole_message_ok y -> sep m (dbitswap x) (dbitswap y) (x = y).
Proof.
  intros (W & B & P) (W' & B' & P'). eapply weaken; [|apply seps_group; fields; [apply (option_sep dwant_list eq)|apply blocks_sep; assumption|apply blocks_sep; assumption|apply (sep_vec dpresence eq)|apply opt_number_sep]].
  - intros (H1 & H2 & H3 & H4 & H5 & _). apply both_eq in H1. apply forall2_eq in H4. destruct x, y; cbn in *; congruence.
  - intros a b A C. rewrite A in W. rewrite C in W'. apply want_list_sep; assumption.
  - intros a b _ _. apply presence_sep.
  - intros a _. apply struct_begins; discriminate.
Qed.

(** CIDs as text. *)
Lemma stands_text b cs ds : Forall2 (stands_for b) cs ds -> forallb wordb (ascii_bytes (letters b)) = true -> Forall word cs.
Proof.
  intros F W. apply words_ok in W. rewrite Forall_forall in W. induction F as [|c d cs ds S F IH]; [constructor|]. constructor; [|exact IH]. apply W. eapply nth_error_In. exact S.
Qed.
Lemma cid_words c : cid_ok c -> Forall word (cid_to_string c).
Proof.
  intros K. pose proof (cid_to_bytes_ok c K) as B. unfold cid_to_string. destruct (is_cid_v0 (cid_to_bytes c)).
  - destruct (encode_denotes Base58BTC _ B) as (z & one & num & ds & cs & _ & O & -> & F & _). apply Forall_app. split; [|apply (stands_text Base58BTC cs ds F); reflexivity].
    apply Forall_forall. intros x X. apply repeat_spec in X. subst x. injection O as <-. unfold word. lia.
  - unfold encode. constructor; [unfold word; cbn; lia|]. destruct (encode_denotes Base32 _ B) as (cs & ds & zeros & pad & -> & F & _ & _ & _ & P). cbn [padded] in P. subst pad. cbn [repeat]. rewrite app_nil_r.
    apply (stands_text Base32 cs ds F); reflexivity.
Qed.
Lemma cid_utf8 c : cid_ok c -> utf8_valid (cid_to_string c) = true.
Proof. intros K. apply ascii_utf8. eapply Forall_impl; [|apply cid_words, K]. unfold word. cbv beta. intros x. lia. Qed.
(** A CID whose text has a length in the range of [usize]. *)
Definition cid_shown (c : cid) : Prop := cid_ok c /\ fits (cid_to_string c) /\ fits (cid_hash c).
Lemma cid_string_inj c c' : cid_shown c -> cid_shown c' -> cid_to_string c = cid_to_string c' -> c = c'.
Proof.
  intros (K & F & H) (K' & F' & H') E. pose proof (proj1 (C25_cid_text_round_trip c K F H)) as R. pose proof (proj1 (C25_cid_text_round_trip c' K' F' H')) as R'. rewrite E in R. congruence.
Qed.
Definition node_shown (n : pb_node) : Prop := Forall (fun l => cid_shown (lk_hash l) /\ opt_ok str_ok (lk_name l)) (nd_links n).
Lemma link_sep quote m l l' : quoting quote -> cid_shown (lk_hash l) /\ opt_ok str_ok (lk_name l) -> cid_shown (lk_hash l') /\ opt_ok str_ok (lk_name l') ->
  sep m (dlink quote l) (dlink quote l') (l = l').
Proof.
  intros Q (C & S) (C' & S'). eapply weaken; [|apply seps_group; fields; [apply string_sep; [exact Q|apply cid_utf8, C|apply cid_utf8, C']|apply (option_sep (dstring quote) eq)|apply opt_number_sep]].
  - intros (H1 & H2 & H3 & _). apply cid_string_inj in H1; [|assumption|assumption]. apply both_eq in H2. destruct l, l'; cbn in *; congruence.
  - intros x y X Y. rewrite X in S. rewrite Y in S'. apply string_sep; [exact Q|apply S|apply S'].
Qed.
Lemma node_sep quote m n n' : quoting quote -> node_shown n -> node_shown n' ->
  sep m (dnode quote n) (dnode quote n') (nd_links n = nd_links n' /\ same_size (nd_bytes n) (nd_bytes n')).
Proof.
  intros Q S S'. unfold node_shown in *. rewrite Forall_forall in S, S'. eapply weaken; [|apply seps_group; fields; [apply (sep_vec (dlink quote) eq)|apply opt_length_sep]].
  - intros (P & R & _). apply forall2_eq in P. split; assumption.
  - intros x y X Y. apply link_sep; auto.
  - intros x _. apply struct_begins; discriminate.
Qed.
Lemma time_sep m t t' : sep m (dtime t) (dtime t') (t = t').
Proof.
  eapply weaken; [|apply seps_group; fields; [apply integer_sep|apply opt_number_sep]]. destruct t, t'; cbn. intuition congruence.
Qed.
(** Equal but for the data, whose length is the same. *)
Definition same_data (d d' : fs_data) : Prop :=
  same_size (fd_bytes d) (fd_bytes d') /\ fd_type d = fd_type d' /\ fd_filesize d = fd_filesize d' /\ fd_blocksizes d = fd_blocksizes d' /\
  fd_hash_type d = fd_hash_type d' /\ fd_fanout d = fd_fanout d' /\ fd_mode d = fd_mode d' /\ fd_mtime d = fd_mtime d'.
Lemma fs_data_sep m d d' : sep m (dfs_data d) (dfs_data d') (same_data d d').
Proof.
  assert (S : sep (deeper m) (DNamed (ascii_bytes (fst (match fd_bytes d with Some x => ("data len", dnumber (blen x)) | None => ("data", dname "None") end)))
                                     (snd (match fd_bytes d with Some x => ("data len", dnumber (blen x)) | None => ("data", dname "None") end)))
                             (DNamed (ascii_bytes (fst (match fd_bytes d' with Some x => ("data len", dnumber (blen x)) | None => ("data", dname "None") end)))
                                     (snd (match fd_bytes d' with Some x => ("data len", dnumber (blen x)) | None => ("data", dname "None") end)))
              (same_size (fd_bytes d) (fd_bytes d'))).
  { destruct (fd_bytes d) as [x|], (fd_bytes d') as [y|]; cbn [fst snd same_size both].
    - apply sep_named. eapply weaken; [|apply number_sep]. unfold blen. lia.
    - differ_sep m.
    - differ_sep m.
    - apply same_sep. }
  eapply weaken; [|apply seps_group; apply seps_cons; [apply sep_named, data_type_sep|apply seps_cons; [exact S|fields; [apply opt_number_sep|apply vec_numbers_sep|apply opt_number_sep|apply opt_number_sep|apply opt_number_sep|apply (option_sep dtime eq)]]]].
  - intros (H1 & H2 & H3 & H4 & H5 & H6 & H7 & H8 & _). apply both_eq in H8. unfold same_data. tauto.
  - intros x y _ _. apply time_sep.
Qed.
Lemma public_key_sep m k k' : key_ok k -> key_ok k' -> sep m (dpublic_key k) (dpublic_key k') (k = k').
Proof.
  intros B B'. eapply weaken; [|apply seps_group; fields; [apply key_type_sep|apply binary_sep; assumption]]. destruct k, k'; cbn. intuition congruence.
Qed.
Lemma address_flat ip6 a : ip6_laws ip6 -> Forall shown_ok a -> flat (multiaddr_debug ip6 a).
Proof.
  intros L F. destruct (C112_plain_text ip6 a L F) as [P ->]. rewrite Forall_forall in P. apply flat_app; [apply flatb_ok; reflexivity|]. apply flat_app; [|apply flatb_ok; reflexivity].
  split; intros X; apply P in X; lia.
Qed.
Lemma address_sep ip6 m a a' : ip6_laws ip6 -> Forall shown_ok a -> Forall shown_ok a' -> sep m (daddress ip6 a) (daddress ip6 a') (a = a').
Proof.
  intros L F F'. apply sep_text; [apply address_flat; assumption|apply address_flat; assumption|]. intros s u _ _ E. destruct (C112_plain_text ip6 a L F) as [P Q], (C112_plain_text ip6 a' L F') as [P' Q']. rewrite Q, Q' in E.
  cbn [app] in E. injection E as E. rewrite <- !app_assoc in E. cbn [app] in E. rewrite Forall_forall in P, P'. apply cut_sep in E; [|intros X; apply P in X; lia|intros X; apply P' in X; lia].
  destruct E as [E ->]. split; [|reflexivity]. apply (C112_text_determines ip6); assumption.
Qed.
(** What a received [Identify] is made of. *)
Definition identify_shown (i : identify) : Prop :=
  str_ok (id_protocol_version i) /\ str_ok (id_agent_version i) /\ key_ok (id_public_key i) /\ Forall (Forall shown_ok) (id_listen_addrs i) /\ Forall shown_ok (id_observed_addr i) /\
  Forall str_ok (id_protocols i) /\ opt_ok bytes_ok (id_signed_peer_record i).
Lemma identify_sep quote ip6 m i i' : quoting quote -> ip6_laws ip6 -> identify_shown i -> identify_shown i' -> sep m (didentify quote ip6 i) (didentify quote ip6 i') (i = i').
Proof.
  intros Q L (A1 & A2 & A3 & A4 & A5 & A6 & A7) (B1 & B2 & B3 & B4 & B5 & B6 & B7). rewrite Forall_forall in A4, B4, A6, B6.
  eapply weaken; [|apply seps_group; fields; [apply string_sep; [exact Q|apply A1|apply B1]|apply string_sep; [exact Q|apply A2|apply B2]|apply public_key_sep; assumption|apply (sep_vec (daddress ip6) eq)|apply address_sep; assumption|apply (sep_vec (dstring quote) eq)|apply (option_sep dbinary eq)]].
  - intros (H1 & H2 & H3 & H4 & H5 & H6 & H7 & _). apply forall2_eq in H4, H6. apply both_eq in H7. destruct i, i'; cbn in *; congruence.
  - intros x y X Y. apply address_sep; auto.
  - intros x X. apply text_begins; [apply address_flat; [exact L|destruct X; auto]|]. destruct (C112_plain_text ip6 x L) as [_ ->]; [destruct X; auto|]. split; discriminate.
  - intros x y X Y. apply string_sep; [exact Q|apply A6, X|apply B6, Y].
  - intros x _. apply string_begins, Q.
  - intros x y X Y. rewrite X in A7. rewrite Y in B7. apply binary_sep; assumption.
Qed.

(** *** The texts as a whole *)
Lemma vec_named' {A} (f : A -> dbg) l : (forall x, named_flat (f x)) -> named_flat (dvec f l).
Proof. apply vec_named. Qed.
Lemma option_named {A} (f : A -> dbg) o : (forall x, named_flat (f x)) -> named_flat (doption f o).
Proof. intros H. destruct o as [x|]; cbn [doption]; [|exact I]. cbn [dtuple named_flat]. split; [no_lf|]. split; [apply H|exact I]. Qed.
Ltac named :=
  repeat match goal with
  | |- named_flat (dvec _ _) => apply vec_named; intros ?
  | |- named_flat (doption _ _) => apply option_named; intros ?
  | |- named_flat (DText _ _) => exact I
  | |- _ /\ _ => split
  | |- True => exact I
  | |- ~ In 10 _ => no_lf
  | |- named_flat (dcodec ?x) => destruct x; cbn [dcodec]
  | |- named_flat (dhash_type ?x) => destruct x; cbn [dhash_type]
  | |- named_flat _ => progress cbn [named_flat dtuple dstruct map fst snd dnumber dbinary dtext dname dversion draw_cid dcid dprefix dlink dnode dstring ddata_type dtime dfs_data dinteger dbool
      dwant_type dwanted dwant_list dblock dpresence_type dpresence dbitswap dkey_type dpublic_key daddress didentify]
  end.
Lemma cid_named c : named_flat (dcid c). Proof. named. Qed.
Lemma prefix_named c : named_flat (dprefix c). Proof. named. Qed.
Lemma node_named quote n : named_flat (dnode quote n). Proof. named. Qed.
Lemma fs_data_named d : named_flat (dfs_data d).
Proof. unfold dfs_data. destruct (fd_bytes d); named. Qed.
Lemma bitswap_named m : named_flat (dbitswap m). Proof. named. Qed.
Lemma identify_named quote ip6 i : named_flat (didentify quote ip6 i). Proof. named. Qed.
Lemma sep_text_eq d d' R : named_flat d -> named_flat d' -> (forall m, sep m d d' R) -> (plain d = plain d' -> R) /\ (pretty d = pretty d' -> R).
Proof.
  intros F F' S. split; intros E.
  - destruct (S None [] [] I I) as [r _]; [cbn [render]; rewrite E; reflexivity|exact r].
  - rewrite (pretty_depth d F), (pretty_depth d' F') in E. destruct (S (Some 0%nat) [] [] I I) as [r _]; [cbn [render]; rewrite E; reflexivity|exact r].
Qed.

(** C128: the texts of CIDs and their prefixes tell everything about them. *)
Theorem C128_cid c c' : bytes_ok (cid_hash c) -> bytes_ok (cid_hash c') ->
  (plain (dcid c) = plain (dcid c') <-> c = c') /\ (pretty (dcid c) = pretty (dcid c') <-> c = c').
Proof.
  intros B B'. destruct (sep_text_eq _ _ _ (cid_named c) (cid_named c') (fun m => cid_sep m c c' B B')) as [P Q].
  split; (split; [assumption|intros ->; reflexivity]).
Qed.
Print Assumptions C128_cid.
Theorem C128_prefix c c' : (plain (dprefix c) = plain (dprefix c') <-> c = c') /\ (pretty (dprefix c) = pretty (dprefix c') <-> c = c').
Proof.
  destruct (sep_text_eq _ _ _ (prefix_named c) (prefix_named c') (fun m => prefix_sep m c c')) as [P Q]. split; (split; [assumption|intros ->; reflexivity]).
Qed.
Print Assumptions C128_prefix.
(** C128: so do the texts of Bitswap messages, with all the bytes of their blocks. *)
Theorem C128_message x y : whole_message_ok x -> whole_message_ok y ->
  (plain (dbitswap x) = plain (dbitswap y) <-> x = y) /\ (pretty (dbitswap x) = pretty (dbitswap y) <-> x = y).
Proof.
  intros O O'. destruct (sep_text_eq _ _ _ (bitswap_named x) (bitswap_named y) (fun m => bitswap_sep m x y O O')) as [P Q]. split; (split; [assumption|intros ->; reflexivity]).
Qed.
Print Assumptions C128_message.
(** C128: the text of a node tells its links, in order, and only the length of its data. *)
Theorem C128_node quote n n' : quoting quote -> node_shown n -> node_shown n' ->
  (plain (dnode quote n) = plain (dnode quote n') <-> nd_links n = nd_links n' /\ same_size (nd_bytes n) (nd_bytes n')) /\
  (pretty (dnode quote n) = pretty (dnode quote n') <-> nd_links n = nd_links n' /\ same_size (nd_bytes n) (nd_bytes n')).
Proof.
  intros Q S S'. destruct (sep_text_eq _ _ _ (node_named quote n) (node_named quote n') (fun m => node_sep quote m n n' Q S S')) as [A B].
  assert (E : nd_links n = nd_links n' /\ same_size (nd_bytes n) (nd_bytes n') -> dnode quote n = dnode quote n').
  { intros [L Z]. unfold dnode. rewrite L. replace (opt_length_text (nd_bytes n')) with (opt_length_text (nd_bytes n)); [reflexivity|].
    destruct (nd_bytes n) as [d|], (nd_bytes n') as [d'|]; cbn in Z |- *; try contradiction; [|reflexivity]. unfold length_text, blen. rewrite Z. reflexivity. }
  split; (split; [assumption|intros X; rewrite (E X); reflexivity]).
Qed.
Print Assumptions C128_node.
(** C128: the text of UnixFS data tells all of it but the data, and the length of that. *)
Theorem C128_fs_data d d' : (plain (dfs_data d) = plain (dfs_data d') <-> same_data d d') /\ (pretty (dfs_data d) = pretty (dfs_data d') <-> same_data d d').
Proof.
  destruct (sep_text_eq _ _ _ (fs_data_named d) (fs_data_named d') (fun m => fs_data_sep m d d')) as [A B].
  assert (E : same_data d d' -> dfs_data d = dfs_data d').
  { intros (Z & T & F & S & H & N & M & X). unfold dfs_data. rewrite T, F, S, H, N, M, X.
    destruct (fd_bytes d) as [x|], (fd_bytes d') as [y|]; cbn in Z; try contradiction; [|reflexivity]. unfold blen. rewrite Z. reflexivity. }
  split; (split; [assumption|intros X; rewrite (E X); reflexivity]).
Qed.
Print Assumptions C128_fs_data.
(** C128: the text of an [Identify] tells everything in it. *)
Theorem C128_identify quote ip6 i i' : quoting quote -> ip6_laws ip6 -> identify_shown i -> identify_shown i' ->
  (plain (didentify quote ip6 i) = plain (didentify quote ip6 i') <-> i = i') /\ (pretty (didentify quote ip6 i) = pretty (didentify quote ip6 i') <-> i = i').
Proof.
  intros Q L S S'. destruct (sep_text_eq _ _ _ (identify_named quote ip6 i) (identify_named quote ip6 i') (fun m => identify_sep quote ip6 m i i' Q L S S')) as [A B].
  split; (split; [assumption|intros ->; reflexivity]).
Qed.
Print Assumptions C128_identify.

(** C128: in the plain form each of them is one line. *)
Lemma number_leaf n : leaves_flat (dnumber n). Proof. apply word_flat, decimal_words. Qed.
Lemma binary_leaf d : bytes_ok d -> leaves_flat (dbinary d). Proof. intros B. apply word_flat, to_hex_words, B. Qed.
Lemma name_leaf s : flatb (ascii_bytes s) = true -> leaves_flat (dname s). Proof. apply flatb_ok. Qed.
Lemma integer_leaf z : leaves_flat (dinteger z).
Proof. split; intros X; pose proof (integer_chars z) as F; rewrite Forall_forall in F; apply F in X; lia. Qed.
Lemma option_leaf {A} (f : A -> dbg) o : (forall x, o = Some x -> leaves_flat (f x)) -> leaves_flat (doption f o).
Proof. intros H. destruct o as [x|]; cbn [doption]; [|apply flatb_ok; reflexivity]. cbn [dtuple leaves_flat]. split; [apply flatb_ok; reflexivity|]. split; [apply H; reflexivity|exact I]. Qed.
Lemma struct_leaf name (l : list (string * dbg)) : flatb (ascii_bytes name) = true -> Forall (fun f => flatb (ascii_bytes (fst f)) = true /\ leaves_flat (snd f)) l -> leaves_flat (dstruct name l).
Proof.
  intros N F. cbn [dstruct leaves_flat]. split; [apply flatb_ok, N|]. apply leaves_all, Forall_map. eapply Forall_impl; [|exact F]. intros [n d] [A B]. cbn [fst snd leaves_flat] in *. split; [apply flatb_ok, A|exact B].
Qed.
Lemma codec_leaf c : leaves_flat (dcodec c).
Proof. destruct c; try (apply flatb_ok; reflexivity). cbn [dcodec dtuple leaves_flat]. split; [apply flatb_ok; reflexivity|]. split; [apply number_leaf|exact I]. Qed.
Lemma hash_leaf c : leaves_flat (dhash_type c).
Proof. destruct c; try (apply flatb_ok; reflexivity). cbn [dhash_type dtuple leaves_flat]. split; [apply flatb_ok; reflexivity|]. split; [apply number_leaf|exact I]. Qed.
Lemma opt_number_leaf o : leaves_flat (doption dnumber o).
Proof. apply option_leaf. intros x _. apply number_leaf. Qed.
Ltac leaf := apply struct_leaf; [reflexivity|]; repeat (apply Forall_cons; [split; [reflexivity|cbn [snd]]|]); [..|apply Forall_nil].
Lemma cid_leaf c : bytes_ok (cid_hash c) -> leaves_flat (dcid c).
Proof. intros B. leaf; [destruct (cid_ver c); apply flatb_ok; reflexivity|apply codec_leaf|apply hash_leaf|apply binary_leaf, B]. Qed.
Lemma prefix_leaf c : leaves_flat (dprefix c).
Proof. leaf; [destruct (cp_ver c); apply flatb_ok; reflexivity|apply codec_leaf|apply hash_leaf|apply number_leaf]. Qed.
Lemma wanted_leaf e : bytes_ok (en_block e) -> leaves_flat (dwanted e).
Proof. intros B. leaf; [apply binary_leaf, B|apply integer_leaf|destruct (en_cancel e)|destruct (en_want_type e)|destruct (en_send_dont_have e)]; apply flatb_ok; reflexivity. Qed.
Lemma block_leaf b : block_ok b -> leaves_flat (dblock b).
Proof. intros [P D]. leaf; apply binary_leaf; assumption. Qed.
Lemma bitswap_leaf m : whole_message_ok m -> leaves_flat (dbitswap m).
Proof.
  intros (W & B & P). rewrite Forall_forall in B, P. leaf.
  - apply option_leaf. intros w E. rewrite E in W. cbn [opt_ok] in W. rewrite Forall_forall in W. leaf; [apply vec_flat; intros e X; apply wanted_leaf, W, X|destruct (wl_full w); apply flatb_ok; reflexivity].
  - apply vec_flat. intros b X. apply block_leaf, B, X.
  - apply vec_flat. intros b X. apply block_leaf, P, X.
  - apply vec_flat. intros p _. leaf; [apply vec_flat; intros n _; apply number_leaf|destruct (bp_type p); apply flatb_ok; reflexivity].
  - apply opt_number_leaf.
Qed.
Lemma string_leaf quote s : quoting quote -> leaves_flat (dstring quote s).
Proof. intros (_ & F & _). exact (F s). Qed.
Lemma node_leaf quote n : quoting quote -> leaves_flat (dnode quote n).
Proof.
  intros Q. leaf.
  - apply vec_flat. intros l _. leaf; [apply string_leaf, Q|apply option_leaf; intros s _; apply string_leaf, Q|apply opt_number_leaf].
  - destruct (nd_bytes n) as [d|]; [|apply flatb_ok; reflexivity]. cbn [opt_length_text]. unfold length_text. apply flat_app; [apply flatb_ok; reflexivity|]. apply flat_app; [apply word_flat, decimal_words|apply flatb_ok; reflexivity].
Qed.
Lemma fs_data_leaf d : leaves_flat (dfs_data d).
Proof.
  apply struct_leaf; [reflexivity|]. apply Forall_cons; [split; [reflexivity|destruct (fd_type d); apply flatb_ok; reflexivity]|]. apply Forall_cons; [destruct (fd_bytes d); (split; [reflexivity|]); [apply number_leaf|apply flatb_ok; reflexivity]|].
  repeat (apply Forall_cons; [split; [reflexivity|cbn [snd]]|]); [..|apply Forall_nil]; try apply opt_number_leaf.
  - apply vec_flat. intros n _. apply number_leaf.
  - apply option_leaf. intros t _. leaf; [apply integer_leaf|apply opt_number_leaf].
Qed.
Lemma identify_leaf quote ip6 i : quoting quote -> ip6_laws ip6 -> identify_shown i -> leaves_flat (didentify quote ip6 i).
Proof.
  intros Q L (A1 & A2 & A3 & A4 & A5 & A6 & A7). rewrite Forall_forall in A4. leaf; try (apply string_leaf, Q).
  - leaf; [destruct (pk_type (id_public_key i)); apply flatb_ok; reflexivity|apply binary_leaf, A3].
  - apply vec_flat. intros a X. apply (address_flat ip6 a L (A4 a X)).
  - apply (address_flat ip6 _ L A5).
  - apply vec_flat. intros s _. apply string_leaf, Q.
  - apply option_leaf. intros x E. rewrite E in A7. apply binary_leaf, A7.
Qed.
Theorem C128_one_line quote ip6 : quoting quote -> ip6_laws ip6 ->
  (forall c, bytes_ok (cid_hash c) -> flat (plain (dcid c))) /\ (forall c, flat (plain (dprefix c))) /\
  (forall m, whole_message_ok m -> flat (plain (dbitswap m))) /\ (forall n, flat (plain (dnode quote n))) /\ (forall d, flat (plain (dfs_data d))) /\
  (forall i, identify_shown i -> flat (plain (didentify quote ip6 i))).
Proof.
  intros Q L. repeat apply conj; intros; apply plain_flat; [apply cid_leaf|apply prefix_leaf|apply bitswap_leaf|apply node_leaf|apply fs_data_leaf|apply identify_leaf]; assumption.
Qed.
Print Assumptions C128_one_line.
(** C128: but nodes and UnixFS data that differ in their contents show the same text. *)
Theorem C128_contents_refuted quote : (forall d d', length d = length d' ->
  pretty (dnode quote {| nd_links := []; nd_bytes := Some d |}) = pretty (dnode quote {| nd_links := []; nd_bytes := Some d' |})) /\
  ~ (forall n n', pretty (dnode quote n) = pretty (dnode quote n') -> n = n').
Proof.
  assert (A : forall d d', length d = length d' -> pretty (dnode quote {| nd_links := []; nd_bytes := Some d |}) = pretty (dnode quote {| nd_links := []; nd_bytes := Some d' |})).
  { intros d d' H. unfold dnode. cbn [nd_links nd_bytes opt_length_text]. unfold length_text, blen. rewrite H. reflexivity. }
  split; [exact A|]. intros X. specialize (X _ _ (A [1] [2] eq_refl)). discriminate X.
Qed.
Print Assumptions C128_contents_refuted.
(** C128: the texts of errors of the protobuf reader tell them apart. *)
Theorem C128_read_error e e' : plain (dread_error e) = plain (dread_error e') <-> e = e'.
Proof.
  split; [|intros ->; reflexivity]. intros E.
  assert (C : forall m c c', sep m (dread_case c) (dread_case c') (c = c')).
  { intros m c c'. apply sep_text; [destruct c; no_lf|destruct c'; no_lf|]. eapply bsep_weak; [|apply words_sep; apply words_ok; [destruct c|destruct c']; reflexivity].
    intros H. destruct c, c'; reflexivity || discriminate H. }
  assert (S : sep None (dread_error e) (dread_error e') (e = e')).
  { destruct e, e'; try (apply same_sep'; reflexivity); try (apply bsep_differ; intros s u X; discriminate X).
    - eapply weaken; [|apply seps_group, seps_cons; [apply number_sep|apply seps_cons; [apply C|apply seps_nil]]]. intros (A & B & _). apply Nat2N.inj in A. congruence.
    - apply single. eapply weaken; [|apply number_sep]. intros A. apply Nat2N.inj in A. congruence.
    - eapply weaken; [|apply seps_group, seps_cons; [apply number_sep|apply seps_cons; [apply number_sep|apply seps_nil]]]. intros (A & B & _). apply Nat2N.inj in A. congruence. }
  destruct (S [] [] I I) as [r _]; [cbn [render]; rewrite E; reflexivity|exact r].
Qed.
Print Assumptions C128_read_error.

(** *** Cases *)
(** A quoting as the standard library does it for ASCII text (other bytes are left as they
    are). *)
Definition quote_char (c : N) : bytes :=
  if c =? 34 then [92; 34] else if c =? 92 then [92; 92] else if c =? 10 then [92; 110] else if c =? 13 then [92; 114]
  else if c =? 9 then [92; 116] else if c =? 0 then [92; 48]
  else if (c <? 32) || (c =? 127) then ascii_bytes "\u{" ++ hex_number c ++ ascii_bytes "}" else [c].
Definition std_quote (s : bytes) : bytes := [34] ++ flat_map quote_char s ++ [34].
Definition quoted_codes : list N := [34; 92; 127] ++ map N.of_nat (seq 0 32).
Fixpoint clash (a b : bytes) : bool :=
  match a, b with x :: a, y :: b => if x =? y then clash a b else true | _, _ => false end.
Lemma clash_ok a : forall b x y, clash a b = true -> a ++ x <> b ++ y.
Proof.
  induction a as [|c a IH]; intros [|d b] x y H E; try discriminate H. cbn [clash] in H. cbn [app] in E. injection E as -> E. rewrite N.eqb_refl in H. exact (IH b x y H E).
Qed.
Lemma quote_char_kind c : (In c quoted_codes /\ hd 0 (quote_char c) = 92 /\ quote_char c <> []) \/ (quote_char c = [c] /\ c <> 34 /\ c <> 92 /\ c <> 10 /\ c <> 13).
Proof.
  assert (D : In c quoted_codes \/ ~ In c quoted_codes) by (destruct (in_dec N.eq_dec c quoted_codes); auto). destruct D as [D|D].
  - left. split; [exact D|]. assert (A : forallb (fun c => (hd 0 (quote_char c) =? 92) && negb (length (quote_char c) =? 0)%nat) quoted_codes = true) by (vm_compute; reflexivity).
    rewrite forallb_forall in A. specialize (A c D). destruct (quote_char c); cbn in *; [discriminate A|]. split; [lia|discriminate].
  - right. assert (A : c <> 34 /\ c <> 92 /\ c <> 127 /\ 32 <= c).
    { repeat split; try (intros ->; apply D; vm_compute; tauto). destruct (N.le_gt_cases 32 c) as [G|G]; [exact G|]. exfalso. apply D. unfold quoted_codes. apply in_or_app. right. apply in_map_iff. exists (N.to_nat c). split; [lia|]. apply in_seq. lia. }
    destruct A as (A1 & A2 & A3 & A4). unfold quote_char. repeat match goal with |- context [if ?b then _ else _] => destruct b eqn:?; [lia|] end. repeat split; lia.
Qed.
Lemma quote_char_sep c c' x y : quote_char c ++ x = quote_char c' ++ y -> c = c' /\ x = y.
Proof.
  intros E. destruct (quote_char_kind c) as [(I1 & H1 & N1)|(Q1 & A1 & B1 & _)], (quote_char_kind c') as [(I2 & H2 & N2)|(Q2 & A2 & B2 & _)].
  - destruct (N.eq_dec c c') as [->|NE]; [apply app_inv_head in E; auto|]. exfalso. apply (clash_ok (quote_char c) (quote_char c') x y); [|exact E].
    assert (A : forallb (fun c => forallb (fun c' => (c =? c') || clash (quote_char c) (quote_char c')) quoted_codes) quoted_codes = true) by (vm_compute; reflexivity).
    rewrite forallb_forall in A. specialize (A c I1). rewrite forallb_forall in A. specialize (A c' I2). apply orb_true_iff in A. destruct A as [A|A]; [apply N.eqb_eq in A; congruence|exact A].
  - exfalso. rewrite Q2 in E. destruct (quote_char c) as [|h t]; [congruence|]. cbn in H1, E. injection E as E _. congruence.
  - exfalso. rewrite Q1 in E. destruct (quote_char c') as [|h t]; [congruence|]. cbn in H2, E. injection E as E _. congruence.
  - rewrite Q1, Q2 in E. cbn in E. injection E as -> ->. auto.
Qed.
Lemma quote_chars_sep s : forall s' x y, flat_map quote_char s ++ 34 :: x = flat_map quote_char s' ++ 34 :: y -> s = s' /\ x = y.
Proof.
  assert (H : forall c t z, quote_char c ++ t <> 34 :: z).
  { intros c t z E. destruct (quote_char_kind c) as [(_ & H & N)|(Q & A & _)]; [|rewrite Q in E; cbn in E; injection E as E _; congruence]. destruct (quote_char c); [congruence|]. cbn in H, E. injection E as E _. congruence. }
  induction s as [|c s IH]; intros [|c' s'] x y E; cbn [flat_map app] in E.
  - injection E as E. auto.
  - rewrite <- app_assoc in E. symmetry in E. apply H in E. destruct E.
  - rewrite <- app_assoc in E. apply H in E. destruct E.
  - rewrite <- !app_assoc in E. apply quote_char_sep in E. destruct E as [-> E]. apply IH in E. destruct E as [-> ->]. auto.
Qed.
Lemma std_quoting : quoting std_quote.
Proof.
  split; [|split; [|reflexivity]].
  - intros s s' x y _ _ E. unfold std_quote in E. rewrite <- !app_assoc in E. cbn [app] in E. injection E as E. apply quote_chars_sep in E. exact E.
  - intros s. assert (A : forall c x, In x (quote_char c) -> x <> 10 /\ x <> 13).
    { intros c x X. destruct (quote_char_kind c) as [(P & _)|(Q & _ & _ & N1 & N2)]; [|rewrite Q in X; destruct X as [<-|[]]; auto].
      assert (B : forallb (fun c => forallb (fun x => negb ((x =? 10) || (x =? 13))) (quote_char c)) quoted_codes = true) by (vm_compute; reflexivity).
      rewrite forallb_forall in B. specialize (B c P). rewrite forallb_forall in B. specialize (B x X). lia. }
    unfold std_quote. split; intros X; rewrite !in_app_iff in X; destruct X as [[X|[]]|[X|[X|[]]]]; try discriminate X; apply in_flat_map in X; destruct X as (c & _ & X); apply A in X; tauto.
Qed.
Definition sample_cid : cid := {| cid_ver := CIDv1; cid_codec := CUnknown 99; cid_hash_type := HSha2256; cid_hash := repeat 7 3 |}.
Definition sample_node : pb_node :=
  {| nd_links := [{| lk_hash := sample_cid; lk_name := Some (ascii_bytes "a" ++ [10; 34] ++ ascii_bytes "b"); lk_tsize := Some 12 |}; {| lk_hash := sample_cid; lk_name := None; lk_tsize := None |}];
     nd_bytes := Some [8; 1] |}.
Definition lf : string := String "010" "".
Example C128_example_cid :
  plain (dcid sample_cid) = ascii_bytes "CID { version: CIDv1, codec: Unknown(99), hash_type: Sha2256, hash: 070707 }" /\
  pretty (dcid sample_cid) = ascii_bytes (String.concat lf
    ["CID {"; "    version: CIDv1,"; "    codec: Unknown("; "        99,"; "    ),"; "    hash_type: Sha2256,"; "    hash: 070707,"; "}"]).
Proof. split; vm_compute; reflexivity. Qed.
Example C128_example_node : node_shown sample_node /\
  plain (dnode std_quote sample_node) =
    ascii_bytes "PBNode { links: [PBLink { hash: " ++ std_quote (cid_to_string sample_cid) ++ ascii_bytes ", name: Some(""a\n\""b""), tsize: Some(12) }, PBLink { hash: " ++
    std_quote (cid_to_string sample_cid) ++ ascii_bytes ", name: None, tsize: None }], bytes: <2 bytes> }".
Proof.
  split; [|vm_compute; reflexivity].
  assert (K : cid_shown sample_cid).
  { split; [|split; unfold fits; vm_compute; reflexivity]. split; [repeat constructor|]. repeat split; try discriminate. }
  unfold node_shown. cbn [sample_node nd_links]. apply Forall_cons; [|apply Forall_cons; [|apply Forall_nil]]; (split; [exact K|]); cbn [lk_name opt_ok]; [|exact I].
  split; [|reflexivity]. apply bytes_okb_spec. vm_compute. reflexivity.
Qed.
Example C128_example_message :
  plain (dbitswap {| bm_wantlist := Some {| wl_entries := [{| en_block := [1; 255]; en_priority := -3; en_cancel := false; en_want_type := WHave; en_send_dont_have := true |}]; wl_full := true |};
                     bm_blocks := [{| bl_prefix := [1; 2]; bl_data := [] |}]; bm_payload := []; bm_block_presence := [{| bp_cid := [9; 10]; bp_type := PDontHave |}]; bm_pending_bytes := Some 5 |})
  = ascii_bytes ("Message { wantlist: Some(WantList { entries: [Entry { block: 01ff, priority: -3, cancel: false, want_type: Have, send_dont_have: true }], full: true }), " ++
                 "blocks: [Block { prefix: 0102, data:  }], payload: [], block_presence: [BlockPresence { cid: [9, 10], type_: DontHave }], pending_bytes: Some(5) }")%string.
Proof. vm_compute. reflexivity. Qed.
Example C128_example_data :
  pretty (dfs_data {| fd_type := TFile; fd_bytes := Some [1; 2; 3]; fd_filesize := Some 3; fd_blocksizes := []; fd_hash_type := None; fd_fanout := None; fd_mode := Some 420;
                      fd_mtime := Some {| ut_seconds := -1; ut_nanos := None |} |})
  = ascii_bytes (String.concat lf
      ["Data {"; "    type_: File,"; "    data len: 3,"; "    filesize: Some("; "        3,"; "    ),"; "    blocksizes: [],"; "    hash_type: None,"; "    fanout: None,"; "    mode: Some("; "        420,"; "    ),";
       "    mtime: Some("; "        UnixTime {"; "            seconds: -1,"; "            fractional_nanoseconds: None,"; "        },"; "    ),"; "}"]).
Proof. vm_compute. reflexivity. Qed.
