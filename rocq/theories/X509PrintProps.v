(** Printing certificates: C122. *)
From Verif Require Import Base BaseProofs UtilModel Asn1Model X509Model CaModel ChatModel Asn1ToolModel Asn1Spec X509Spec PemModel PemProps CaProps Asn1PrintProps X509PrintModel.
Local Open Scope string_scope. Local Open Scope list_scope. Local Open Scope N_scope.

(** *** Specification *)
(** Texts without newlines. *)
Definition one_line (t : bytes) : Prop := ~ In 10 t.
Definition plain_name (n : list rdn) : Prop := Forall (fun r => match item_value (rdn_value r) with VPrintableString s | VUtf8String s => one_line s | _ => True end) n.
Definition plain_time (t : time) : Prop := match t with TUtc s | TGeneralized s => one_line s end.
Definition plain_certificate (c : certificate) : Prop :=
  let t := ce_tbs c in bytes_ok (tb_serial t) /\ plain_name (tb_issuer t) /\ plain_name (tb_subject t) /\ plain_time (va_before (tb_validity t)) /\ plain_time (va_after (tb_validity t)).
(** What a reader of the text is to learn of an algorithm, of an extension and of the rest. *)
Definition kind_of (a : algorithm) : list N * option string := (al_oid a, option_map type_str (al_params a)).
Definition extension_of (x : extension) : list N * bool * nat := (ex_id x, ex_critical x, length (ex_data x)).
Definition summary (c : certificate) := let t := ce_tbs c in
  (tb_version t, tb_serial t, kind_of (tb_signature t), time_text (va_before (tb_validity t)), time_text (va_after (tb_validity t)),
   kind_of (sp_alg (tb_key t)), length (bs_bytes (sp_key (tb_key t))), map extension_of (tb_extensions t), kind_of (ce_alg c), length (bs_bytes (ce_value c))).

(** *** Lines *)
Lemma println_inj l l' : Forall one_line l -> Forall one_line l' -> println l = println l' -> l = l'.
Proof.
  revert l'. induction l as [|t l IH]; intros [|t' l'] F F' H; [reflexivity|exfalso; unfold println in H; cbn [flat_map] in H; destruct t'; discriminate H|exfalso; unfold println in H; cbn [flat_map] in H; destruct t; discriminate H|].
  inversion F; inversion F'; subst. unfold println in H. cbn [flat_map] in H. rewrite <- !app_assoc in H. cbn [app] in H. apply split_at in H; [|assumption..]. destruct H as (-> & H). f_equal. apply IH; assumption.
Qed.
Definition clean (c : N) (t : bytes) : bool := forallb (fun x => negb (x =? c)) t.
Lemma clean_ok c t : clean c t = true -> ~ In c t.
Proof. unfold clean. rewrite forallb_forall. intros F X. specialize (F c X). rewrite N.eqb_refl in F. discriminate. Qed.
Lemma not_in_app {A} (x : A) a b : ~ In x a -> ~ In x b -> ~ In x (a ++ b).
Proof. intros H H' X. apply in_app_or in X. tauto. Qed.
Lemma long_free c oid : c = 10 \/ c = 32 -> ~ In c (get_long_name x509_names oid).
Proof.
  intros C. unfold get_long_name. destruct (lookup_long_name x509_names oid) as [s|] eqn:E.
  - apply find_rev_in in E. destruct E as (e & E & _ & ->).
    assert (NN : forallb (fun e : list N * string * option string => clean 10 (ascii_bytes (snd (fst e))) && clean 32 (ascii_bytes (snd (fst e)))) x509_names = true) by (vm_compute; reflexivity).
    rewrite forallb_forall in NN. specialize (NN e E). apply andb_prop in NN. destruct NN as [N1 N2]. apply clean_ok in N1. apply clean_ok in N2. destruct C; subst; assumption.
  - apply oid_free. lia.
Qed.
Lemma type_free i : ~ In 10 (ascii_bytes (type_str i)).
Proof. apply clean_ok. unfold type_str. destruct (item_value i); vm_compute; reflexivity. Qed.
Lemma type_inj p p' : match p with Some i => ascii_bytes (type_str i) | None => ascii_bytes "None" end = match p' with Some i => ascii_bytes (type_str i) | None => ascii_bytes "None" end ->
  option_map type_str p = option_map type_str p'.
Proof.
  destruct p as [i|], p' as [j|]; cbn [option_map]; unfold type_str; [destruct (item_value i), (item_value j)|destruct (item_value i)|destruct (item_value j)|]; try reflexivity; intros H; vm_compute in H; discriminate H.
Qed.
Lemma algorithm_free a : one_line (algorithm_text x509_names a).
Proof.
  unfold algorithm_text. apply not_in_app; [apply long_free; left; reflexivity|]. apply not_in_app; [apply clean_ok; reflexivity|]. destruct (al_params a); [apply type_free|apply clean_ok; reflexivity].
Qed.
Lemma algorithm_inj a a' : algorithm_text x509_names a = algorithm_text x509_names a' -> kind_of a = kind_of a'.
Proof.
  unfold algorithm_text. cbn [app]. intros H. apply split_at in H; [|apply long_free; right; reflexivity..]. destruct H as (H1 & H2). apply C103_registry in H1. apply type_inj in H2. unfold kind_of. congruence.
Qed.
Definition attribute (oid : list N) : option bytes :=
  match lookup_short_name x509_names oid with Some short => Some (upper short) | None => lookup_long_name x509_names oid end.
Lemma short_long oid s : lookup_short_name x509_names oid = Some s -> exists e, In e x509_names /\ fst (fst e) = oid.
Proof. unfold lookup_short_name. intros H. apply short_in in H. destruct H as (l & t & H & _). apply in_rev in H. eexists. split; [exact H|reflexivity]. Qed.
Lemma attribute_in oid s : attribute oid = Some s -> exists e, In e x509_names /\ fst (fst e) = oid.
Proof.
  unfold attribute. destruct (lookup_short_name x509_names oid) eqn:E; intros H; [exact (short_long _ _ E)|]. apply find_rev_in in H. destruct H as (e & I1 & F & _). exists e. auto.
Qed.
Lemma attribute_free oid s : attribute oid = Some s -> ~ In 10 s /\ ~ In 61 s /\ ~ In 44 s.
Proof.
  intros H. destruct (attribute_in _ _ H) as (e & I1 & E).
  assert (NN : forallb (fun e : list N * string * option string => match attribute (fst (fst e)) with Some s => clean 10 s && clean 61 s && clean 44 s | None => false end) x509_names = true) by (vm_compute; reflexivity).
  rewrite forallb_forall in NN. specialize (NN e I1). rewrite E, H in NN. apply andb_prop in NN. destruct NN as [NN N3]. apply andb_prop in NN. destruct NN as [N1 N2].
  repeat split; apply clean_ok; assumption.
Qed.
Lemma attribute_inj oid oid' s : attribute oid = Some s -> attribute oid' = Some s -> oid = oid'.
Proof.
  intros H H'. destruct (attribute_in _ _ H) as (e & I1 & E). destruct (attribute_in _ _ H') as (e' & I2 & E').
  assert (NN : forallb (fun e : list N * string * option string => forallb (fun e' : list N * string * option string =>
    match attribute (fst (fst e)), attribute (fst (fst e')) with Some s, Some s' => negb (bytes_eqb s s') || bytes_eqb (fst (fst e)) (fst (fst e')) | _, _ => false end) x509_names) x509_names = true) by (vm_compute; reflexivity).
  rewrite forallb_forall in NN. specialize (NN e I1). rewrite forallb_forall in NN. specialize (NN e' I2). rewrite E, E', H, H', bytes_eqb_refl in NN. cbn in NN. apply bytes_eqb_eq. exact NN.
Qed.
Lemma part_eq r : part_text x509_names r = match attribute (rdn_id r) with Some s => s | None => [63] end ++ [61] ++ match as_string (rdn_value r) with Some s => s | None => [63] end.
Proof. unfold part_text, attribute. destruct (lookup_short_name x509_names (rdn_id r)); reflexivity. Qed.
Lemma part_free r : match item_value (rdn_value r) with VPrintableString s | VUtf8String s => one_line s | _ => True end -> one_line (part_text x509_names r).
Proof.
  intros F. rewrite part_eq. apply not_in_app; [|apply not_in_app; [apply clean_ok; reflexivity|]].
  - destruct (attribute (rdn_id r)) eqn:E; [apply (attribute_free _ _ E)|apply clean_ok; reflexivity].
  - unfold as_string. destruct (item_value (rdn_value r)); first [exact F|apply clean_ok; reflexivity].
Qed.
Lemma name_free n : plain_name n -> one_line (name_text x509_names n).
Proof.
  intros F. destruct F as [|r n F G]; [intros []|]. unfold name_text. apply not_in_app; [apply part_free, F|]. induction G as [|r' n F' G IH]; [intros []|].
  cbn [flat_map]. apply not_in_app; [apply not_in_app; [apply clean_ok; reflexivity|apply part_free, F']|exact IH].
Qed.
Lemma decimal_line n : one_line (decimal n).
Proof. apply decimal_free. lia. Qed.
Ltac free := repeat first [apply Forall_nil | apply Forall_cons | apply Forall_app; split | apply algorithm_free | apply decimal_line | apply not_in_app | (apply clean_ok; vm_compute; reflexivity)].
Lemma extensions_free indent i l : one_line indent -> Forall one_line (extensions_lines x509_names indent i l).
Proof.
  intros Fi. revert i. induction l as [|x l IH]; intros i; [constructor|]. cbn [extensions_lines extension_lines app]. free; try exact Fi; try apply IH.
  - apply long_free. left. reflexivity.
  - destruct (ex_critical x); apply clean_ok; reflexivity.
Qed.
Lemma certificate_free c : plain_certificate c -> Forall one_line (certificate_lines x509_names c).
Proof.
  intros (B & I1 & S1 & T1 & T2). unfold certificate_lines, tbs_lines, spki_lines. free; try (apply name_free; assumption); try (apply extensions_free; apply clean_ok; vm_compute; reflexivity).
  - destruct (tb_version (ce_tbs c)); apply clean_ok; reflexivity.
  - apply to_hex_free; [exact B|]. apply not_hex. lia.
  - unfold time_text. destruct (va_before _); exact T1.
  - unfold time_text. destruct (va_after _); exact T2.
Qed.
Lemma cons_both {A} (x y : A) l m : x :: l = y :: m -> x = y /\ l = m.
Proof. intros H. injection H as -> ->. auto. Qed.
Ltac peel H n := apply cons_both in H; destruct H as (n & H).
Lemma extensions_inj indent i l l' r r' : length r = length r' -> extensions_lines x509_names indent i l ++ r = extensions_lines x509_names indent i l' ++ r' -> map extension_of l = map extension_of l' /\ r = r'.
Proof.
  intros L. revert i l'. induction l as [|x l IH]; intros i [|x' l'] H.
  - split; [reflexivity|exact H].
  - exfalso. apply (f_equal (@length _)) in H. cbn [extensions_lines extension_lines app length] in H. rewrite !app_length in H. lia.
  - exfalso. apply (f_equal (@length _)) in H. cbn [extensions_lines extension_lines app length] in H. rewrite !app_length in H. lia.
  - cbn [extensions_lines extension_lines app] in H. peel H H0. peel H H1. peel H H2. peel H H3. destruct (IH _ _ H) as (M & ->). split; [|reflexivity]. cbn [map]. f_equal; [|exact M].
    apply app_inv_head in H1. apply app_inv_head in H1. apply C103_registry in H1. apply app_inv_head in H2. apply app_inv_head in H2. apply app_inv_head in H3. apply app_inv_head in H3. apply app_inv_tail in H3. apply decimal_inj in H3.
    unfold extension_of. f_equal; [f_equal; [exact H1|]|unfold blen in H3; lia]. destruct (ex_critical x), (ex_critical x'); first [reflexivity|discriminate H2].
Qed.

(** *** Theorems *)
(** As long as no text in the certificates contains a newline, what is printed shows the
    version, serial number, algorithms, both names as printed, both times, the length of the
    key and of the signature, and of each extension the identifier, the flag and the length. *)
Theorem C122_shows c c' : plain_certificate c -> plain_certificate c' -> certificate_text x509_names c = certificate_text x509_names c' ->
  summary c = summary c' /\ name_text x509_names (tb_issuer (ce_tbs c)) = name_text x509_names (tb_issuer (ce_tbs c')) /\ name_text x509_names (tb_subject (ce_tbs c)) = name_text x509_names (tb_subject (ce_tbs c')).
Proof.
  intros P P' H. apply println_inj in H; [|apply certificate_free; assumption..]. unfold certificate_lines, tbs_lines, spki_lines in H.
  rewrite <- !app_assoc in H. apply app_inv_head in H. cbn [app] in H.
  peel H H1. peel H H2. peel H H3. peel H H4. peel H H5. peel H H6. peel H H7. peel H H8. peel H H9. peel H H10. peel H H11. apply extensions_inj in H; [|reflexivity]. destruct H as (X & H). peel H H12. peel H H13.
  do 2 (apply app_inv_head in H1). do 2 (apply app_inv_head in H2). do 2 (apply app_inv_head in H3). do 2 (apply app_inv_head in H4). do 2 (apply app_inv_head in H6). do 2 (apply app_inv_head in H7). do 2 (apply app_inv_head in H8).
  do 3 (apply app_inv_head in H10). do 3 (apply app_inv_head in H11). apply app_inv_head in H12. apply app_inv_head in H13. apply app_inv_tail in H11. apply app_inv_tail in H13.
  apply decimal_inj in H11. apply decimal_inj in H13. apply algorithm_inj in H3. apply algorithm_inj in H10. apply algorithm_inj in H12. apply to_hex_inj in H2; [|apply P|apply P'].
  assert (V : tb_version (ce_tbs c) = tb_version (ce_tbs c')) by (destruct (tb_version (ce_tbs c)), (tb_version (ce_tbs c')); first [reflexivity|discriminate H1]).
  split; [|split; [exact H4|exact H8]]. unfold summary. cbv zeta. rewrite V, H2, H3, H6, H7, H10, X, H12. unfold blen in H11, H13. apply Nnat.Nat2N.inj in H11. apply Nnat.Nat2N.inj in H13. rewrite H11, H13. reflexivity.
Qed.
Print Assumptions C122_shows.

(** A name with known attributes, whose values are strings without commas, can be read off its
    text. *)
Definition simple_name (n : list rdn) : Prop :=
  Forall (fun r => (exists s, attribute (rdn_id r) = Some s) /\ exists v, as_string (rdn_value r) = Some v /\ ~ In 44 v) n.
Definition parts (n : list rdn) : bytes := flat_map (fun r => [44; 32] ++ part_text x509_names r) n.
Lemma parts_cons r n : parts (r :: n) = [44; 32] ++ part_text x509_names r ++ parts n.
Proof. reflexivity. Qed.
Lemma parts_inj n : simple_name n -> forall n', simple_name n' -> parts n = parts n' ->
  map (fun r => (rdn_id r, as_string (rdn_value r))) n = map (fun r => (rdn_id r, as_string (rdn_value r))) n'.
Proof.
  assert (ST : forall m, simple_name m -> parts m = [] \/ exists t, parts m = 44 :: t).
  { intros m _. destruct m as [|r m]; [left; reflexivity|right]. eexists. reflexivity. }
  induction n as [|r n IH]; intros F [|r' n'] F' H; [reflexivity|discriminate H|discriminate H|]. inversion F as [|x y ((s & A) & v & V & C) G]; inversion F' as [|x' y' ((s' & A') & v' & V' & C') G']; subst.
  cbn [map] in *. rewrite !parts_cons, !part_eq, A, A', V, V' in H. rewrite <- !app_assoc in H. apply app_inv_head in H. cbn [app] in H.
  apply split_at in H; [|apply (attribute_free _ _ A)|apply (attribute_free _ _ A')]. destruct H as (<- & H). rewrite (attribute_inj _ _ _ A A'), V, V'.
  assert (W : v = v' /\ parts n = parts n').
  { destruct (ST n G) as [E|(t & E)], (ST n' G') as [E'|(t' & E')]; rewrite E, E' in H |- *.
    - rewrite !app_nil_r in H. auto.
    - exfalso. rewrite app_nil_r in H. apply C. rewrite H. apply in_or_app. right. left. reflexivity.
    - exfalso. rewrite app_nil_r in H. apply C'. rewrite <- H. apply in_or_app. right. left. reflexivity.
    - apply split_at in H; [|assumption..]. destruct H as (-> & ->). auto. }
  destruct W as (-> & W). f_equal. apply IH; assumption.
Qed.
Theorem C122_names n n' : simple_name n -> simple_name n' -> name_text x509_names n = name_text x509_names n' ->
  map (fun r => (rdn_id r, as_string (rdn_value r))) n = map (fun r => (rdn_id r, as_string (rdn_value r))) n'.
Proof.
  intros F F' H. apply parts_inj; [exact F|exact F'|].
  assert (NE : forall r m, name_text x509_names (r :: m) <> []).
  { intros r m X. unfold name_text in X. rewrite part_eq in X. apply app_eq_nil in X. destruct X as [X _]. apply app_eq_nil in X. destruct X as [_ X]. discriminate X. }
  destruct n as [|r n], n' as [|r' n']; [reflexivity|exfalso; symmetry in H; exact (NE _ _ H)|exfalso; exact (NE _ _ H)|].
  rewrite !parts_cons. f_equal. exact H.
Qed.
Print Assumptions C122_names.
(** With commas it is not so, and attributes that are not known all look the same. *)
Definition part (oid : list N) (v : bytes) : rdn := {| rdn_id := oid; rdn_value := item_of (VUtf8String v) |}.
Theorem C122_comma_refuted v w : name_text x509_names [part X509_COMMON_NAME v; part X509_ORGANIZATION_NAME w] = name_text x509_names [part X509_COMMON_NAME (v ++ ascii_bytes ", O=" ++ w)].
Proof. unfold name_text. cbn [flat_map]. rewrite !part_eq. cbn [rdn_id rdn_value part as_string item_value item_of]. rewrite !app_nil_r, <- !app_assoc. reflexivity. Qed.
Print Assumptions C122_comma_refuted.
Theorem C122_unknown_refuted oid oid' v : attribute oid = None -> attribute oid' = None -> name_text x509_names [part oid v] = name_text x509_names [part oid' v].
Proof. intros H H'. unfold name_text. rewrite !part_eq. cbn [rdn_id rdn_value part]. rewrite H, H'. reflexivity. Qed.
Print Assumptions C122_unknown_refuted.
(** And with newlines the whole text can lie: for any two periods of validity there are two
    certificates, one for each, with the same text. *)
Definition with_names (c : certificate) (issuer subject : bytes) (before after : bytes) : certificate :=
  let t := ce_tbs c in
  {| ce_tbs := {| tb_version := tb_version t; tb_serial := tb_serial t; tb_signature := tb_signature t; tb_issuer := [part X509_COMMON_NAME issuer];
                  tb_validity := {| va_before := TUtc before; va_after := TUtc after |}; tb_subject := [part X509_COMMON_NAME subject]; tb_key := tb_key t;
                  tb_issuer_id := tb_issuer_id t; tb_subject_id := tb_subject_id t; tb_extensions := tb_extensions t |};
     ce_alg := ce_alg c; ce_value := ce_value c |}.
Definition to_before : bytes := [10] ++ ascii_bytes "        validity =" ++ [10] ++ ascii_bytes "            not before = ".
Definition to_after : bytes := [10] ++ ascii_bytes "            not after = ".
Definition to_subject : bytes := [10] ++ ascii_bytes "        subject = CN=".
Lemma println_app a b : println (a ++ b) = println a ++ println b.
Proof. apply flat_map_app. Qed.
Lemma with_names_text c : exists head tail, forall issuer subject before after,
  certificate_text x509_names (with_names c issuer subject before after) = head ++ issuer ++ to_before ++ before ++ to_after ++ after ++ to_subject ++ subject ++ tail.
Proof.
  set (t := ce_tbs c). set (ind := ascii_bytes "        ").
  set (first := [ascii_bytes "Certificate"; ascii_bytes "    tbs_certificate"; ind ++ ascii_bytes "version = " ++ ascii_bytes (version_text (tb_version t)); ind ++ ascii_bytes "serial_number = " ++ to_hex (tb_serial t); ind ++ ascii_bytes "signature = " ++ algorithm_text x509_names (tb_signature t)]).
  set (final := ([ind ++ ascii_bytes "subject_public_key_info ="] ++ spki_lines x509_names (ind ++ ascii_bytes "    ") (tb_key t) ++ extensions_lines x509_names ind 0 (tb_extensions t)) ++
    [ascii_bytes "    signature_algorithm = " ++ algorithm_text x509_names (ce_alg c); ascii_bytes "    signature_value = <" ++ decimal (blen (bs_bytes (ce_value c))) ++ ascii_bytes " bytes>"]).
  exists (println first ++ ascii_bytes "        issuer = CN="), ([10] ++ println final). intros issuer subject before after.
  transitivity (println (first ++ [ind ++ ascii_bytes "issuer = " ++ name_text x509_names [part X509_COMMON_NAME issuer]; ind ++ ascii_bytes "validity ="; ind ++ ascii_bytes "    not before = " ++ before;
    ind ++ ascii_bytes "    not after = " ++ after; ind ++ ascii_bytes "subject = " ++ name_text x509_names [part X509_COMMON_NAME subject]] ++ final)).
  - reflexivity.
  - rewrite !println_app. rewrite <- (app_assoc (println first)). f_equal. clearbody final. clear first t c.
    assert (A : attribute X509_COMMON_NAME = Some (ascii_bytes "CN")) by (vm_compute; reflexivity).
    unfold name_text. rewrite !part_eq. cbn [rdn_id rdn_value part as_string item_value item_of flat_map]. rewrite A, !app_nil_r.
    unfold println at 1. cbn [flat_map]. rewrite app_nil_r, <- !app_assoc. reflexivity.
Qed.
Theorem C122_forged_refuted c before after before' after' : exists issuer subject issuer' subject',
  certificate_text x509_names (with_names c issuer subject before after) = certificate_text x509_names (with_names c issuer' subject' before' after').
Proof.
  destruct (with_names_text c) as (head & tail & E).
  exists [], (to_before ++ before' ++ to_after ++ after' ++ to_subject), (to_before ++ before ++ to_after ++ after ++ to_subject), [].
  rewrite !E. cbn [app]. rewrite <- !app_assoc. reflexivity.
Qed.
Print Assumptions C122_forged_refuted.

(** What [x509 print] shows of a certificate made by [x509 generate]: all of this. *)
Definition generated_lines (key signature : bytes) : list bytes :=
  map ascii_bytes ["Certificate"; "    tbs_certificate"; "        version = V3"; "        serial_number = 00fece0a9eaa3eddc3"; "        signature = sha256WithRSAEncryption Null";
    "        issuer = C=US, O=My Personal CA, CN=my.personal.ca"; "        validity ="; "            not before = 210515162539Z"; "            not after = 220312162539Z";
    "        subject = CN=client"; "        subject_public_key_info ="; "            algorithm = rsaEncryption Null"] ++
  [ascii_bytes "            subject_public_key = <" ++ decimal (blen key) ++ ascii_bytes " bytes>"] ++
  map ascii_bytes ["        extensions[0] ="; "            id = authorityKeyIdentifier"; "            critical = false"; "            value = <82 bytes>";
    "        extensions[1] ="; "            id = basicConstraints"; "            critical = false"; "            value = <2 bytes>";
    "        extensions[2] ="; "            id = keyUsage"; "            critical = false"; "            value = <4 bytes>"; "    signature_algorithm = sha256WithRSAEncryption Null"] ++
  [ascii_bytes "    signature_value = <" ++ decimal (blen signature) ++ ascii_bytes " bytes>"].
Lemma type_erase i : type_str (erase i) = type_str i.
Proof. destruct i as [s e v]. destruct v; reflexivity. Qed.
Lemma string_erase i : as_string (erase i) = as_string i.
Proof. destruct i as [s e v]. destruct v; reflexivity. Qed.
Lemma algorithm_erase reg a : algorithm_text reg (algorithm_map erase a) = algorithm_text reg a.
Proof. unfold algorithm_text, algorithm_map. cbn [al_oid al_params]. destruct (al_params a); cbn [option_map]; [rewrite type_erase|]; reflexivity. Qed.
Lemma name_erase reg n : name_text reg (map (rdn_map erase) n) = name_text reg n.
Proof.
  assert (P : forall r, part_text reg (rdn_map erase r) = part_text reg r) by (intros r; unfold part_text, rdn_map; cbn [rdn_id rdn_value]; rewrite string_erase; reflexivity).
  destruct n as [|r n]; [reflexivity|]. unfold name_text. cbn [map]. rewrite P. f_equal. induction n as [|q n IH]; [reflexivity|]. cbn [map flat_map]. rewrite P, IH. reflexivity.
Qed.
Lemma text_erase reg c : certificate_text reg (certificate_map erase id c) = certificate_text reg c.
Proof.
  unfold certificate_text, certificate_lines, tbs_lines, spki_lines, certificate_map, tbs_map, spki_map. cbn [ce_tbs ce_alg ce_value tb_version tb_serial tb_signature tb_issuer tb_validity tb_subject tb_key tb_extensions sp_alg sp_key].
  rewrite !algorithm_erase, !name_erase. replace (map (extension_map id) (tb_extensions (ce_tbs c))) with (tb_extensions (ce_tbs c)); [reflexivity|].
  symmetry. rewrite <- (map_id (tb_extensions (ce_tbs c))) at 2. apply map_ext. intros []. reflexivity.
Qed.
Theorem C122_generated from_der s c out :
  generate from_der (Some s) (Some c) = GOk out ->
  (forall d k, from_der d = Some k -> bytes_ok (rk_public k) /\ forall m sg, rk_sign k m = Some sg -> bytes_ok sg) ->
  exists sd sk cd ck sg, pem_text s (ascii_bytes "RSA PRIVATE KEY") sd /\ from_der sd = Some sk /\ pem_text c (ascii_bytes "RSA PRIVATE KEY") cd /\ from_der cd = Some ck /\
    rk_sign ck (signed_der (rk_public sk)) = Some sg /\
    (blen (certificate_der (rk_public sk) sg) < two32 -> print_tool (Some out) = GOk (println (generated_lines (rk_public sk) sg))).
Proof.
  intros G B. destruct (C101_print_reads_generated _ _ _ _ G B) as (sd & sk & cd & ck & sg & H1 & H2 & H3 & H4 & H5 & _ & H6). exists sd, sk, cd, ck, sg.
  split; [exact H1|]. split; [exact H2|]. split; [exact H3|]. split; [exact H4|]. split; [exact H5|]. intros L. destruct (H6 L) as (x & P & M).
  unfold print_tool. rewrite P. cbn [gbind]. rewrite <- text_erase, M. generalize (rk_public sk). intros key. reflexivity.
Qed.
Print Assumptions C122_generated.
Example C122_case :
  name_text x509_names [part [2; 5; 4; 10] (ascii_bytes "My CA"); part [2; 5; 4; 5] (ascii_bytes "7"); part [1; 2] (ascii_bytes "x")] = ascii_bytes "O=My CA, serialNumber=7, ?=x" /\
  algorithm_text x509_names ed25519 = ascii_bytes "ED25519 None" /\
  extensions_lines x509_names [] 0 [{| ex_id := X509_KEY_USAGE; ex_critical := true; ex_data := [3; 2; 4; 240] |}] =
    map ascii_bytes ["extensions[0] ="; "    id = keyUsage"; "    critical = true"; "    value = <4 bytes>"].
Proof. repeat split; vm_compute; reflexivity. Qed.
