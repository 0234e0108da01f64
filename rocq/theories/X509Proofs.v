(** Proofs about certificates. *)
From Verif Require Import Base BaseProofs MessageProofs BinaryModel BinaryProofs Asn1Model Asn1Spec Asn1Proofs IdentifyModel X509Model X509Spec.
Local Open Scope string_scope. Local Open Scope list_scope. Local Open Scope N_scope.

(** *** Item round trips *)
Lemma algorithm_rt a : algorithm_from (algorithm_to a) = Ok a.
Proof. destruct a as [o [p|]]; reflexivity. Qed.
Lemma version_rt v : version_from (version_to v) = Ok v.
Proof. destruct v; reflexivity. Qed.
Lemma rdn_rt r : rdn_from (rdn_to r) = Ok r.
Proof. destruct r; reflexivity. Qed.
Lemma each_rt {A} (f : item -> px A) (g : A -> item) (H : forall a, f (g a) = Ok a) : forall l, each f (map g l) = Ok l.
Proof. induction l as [|a l IH]; [reflexivity|]. cbn [map each]. rewrite H, IH. reflexivity. Qed.
Lemma name_rt n : name_from (name_to n) = Ok n.
Proof. unfold name_from, name_to, as_sequence, item_of. cbn [item_value bind]. apply each_rt, rdn_rt. Qed.
Lemma time_rt t : time_from (time_to t) = Ok t.
Proof. destruct t; reflexivity. Qed.
Lemma validity_rt v : validity_from (validity_to v) = Ok v.
Proof. destruct v as [[] []]; reflexivity. Qed.
Lemma bits_rt b : as_bit_string (bits_to b) = Ok b.
Proof. destruct b; reflexivity. Qed.
Lemma spki_rt s : spki_from (spki_to s) = Ok s.
Proof. destruct s as [[o [p|]] []]; reflexivity. Qed.
Lemma extension_rt x : extension_from (extension_to x) = Ok x.
Proof. destruct x as [i [|] d]; reflexivity. Qed.
Lemma tbs_rt t : tb_issuer_id t = None -> tb_subject_id t = None -> tbs_from (tbs_to t) = Ok t.
Proof.
  destruct t as [v s a i va su k ii si ex]. cbn [tb_issuer_id tb_subject_id]. intros -> ->. unfold tbs_from, tbs_to, as_sequence, item_of.
  cbn [item_value bind next tb_version tb_serial tb_signature tb_issuer tb_validity tb_subject tb_key tb_extensions].
  unfold as_integer, item_of. rewrite version_rt. cbn [bind item_value next]. rewrite algorithm_rt. cbn [bind next]. rewrite name_rt. cbn [bind next]. rewrite validity_rt. cbn [bind next].
  rewrite name_rt. cbn [bind next]. rewrite spki_rt. cbn [bind next item_value].
  rewrite (each_rt _ _ extension_rt). reflexivity.
Qed.
Lemma certificate_rt c : tb_issuer_id (ce_tbs c) = None -> tb_subject_id (ce_tbs c) = None -> certificate_from (certificate_to c) = Ok c.
Proof.
  destruct c as [t a v]. cbn [ce_tbs]. intros H1 H2. unfold certificate_from, certificate_to, as_exact_sequence, as_sequence, item_of.
  cbn [item_value bind length Nat.eqb negb elem nth_error ce_tbs ce_alg ce_value]. rewrite (tbs_rt t H1 H2). cbn [bind]. rewrite algorithm_rt. destruct v; reflexivity.
Qed.

(** *** Reading commutes with maps on items *)
Section Maps.
  Variable g : item -> item.
  Variable gb : bool -> bool.
  Definition gval (v : value) : value :=
    match v with
    | VBoolean b => VBoolean (gb b)
    | VSequence l => VSequence (map g l) | VSet l => VSet (map g l)
    | VApplication t i => VApplication t (g i) | VContextSpecific t i => VContextSpecific t (g i) | VPrivate t i => VPrivate t (g i)
    | v => v
    end.
  Hypothesis G : forall i, item_value (g i) = gval (item_value i).
  Hypothesis Gb : gb false = false.
  Definition omap {A B} (f : A -> B) (x : px A) : px B := match x with Ok a => Ok (f a) | Err e => Err e | Panic => Panic end.
  Lemma omap_bind {A B A' B'} (x : px A) (x' : px A') (k : A -> px B) (k' : A' -> px B') (f : A -> A') (h : B -> B') :
    x' = omap f x -> (forall a, k' (f a) = omap h (k a)) -> bind x' k' = omap h (bind x k).
  Proof. intros -> H. destruct x; cbn [omap bind]; auto. Qed.
  Lemma as_sequence_map i : as_sequence (g i) = omap (map g) (as_sequence i).
  Proof. unfold as_sequence. rewrite G. destruct (item_value i); reflexivity. Qed.
  Lemma as_set_map i : as_set (g i) = omap (map g) (as_set i).
  Proof. unfold as_set. rewrite G. destruct (item_value i); reflexivity. Qed.
  Lemma exact_sequence_map i n : as_exact_sequence (g i) n = omap (map g) (as_exact_sequence i n).
  Proof. unfold as_exact_sequence. apply (omap_bind _ _ _ _ (map g)); [apply as_sequence_map|]. intros l. rewrite map_length. destruct (negb _); reflexivity. Qed.
  Lemma exact_set_map i n : as_exact_set (g i) n = omap (map g) (as_exact_set i n).
  Proof. unfold as_exact_set. apply (omap_bind _ _ _ _ (map g)); [apply as_set_map|]. intros l. rewrite map_length. destruct (negb _); reflexivity. Qed.
  Lemma as_oid_map i : as_oid (g i) = omap id (as_oid i).
  Proof. unfold as_oid. rewrite G. destruct (item_value i); reflexivity. Qed.
  Lemma as_bits_map i : as_bit_string (g i) = omap id (as_bit_string i).
  Proof. unfold as_bit_string. rewrite G. destruct (item_value i); reflexivity. Qed.
  Lemma as_octets_map i : as_octet_string (g i) = omap id (as_octet_string i).
  Proof. unfold as_octet_string. rewrite G. destruct (item_value i); reflexivity. Qed.
  Lemma as_integer_map i : as_integer (g i) = omap id (as_integer i).
  Proof. unfold as_integer. rewrite G. destruct (item_value i); reflexivity. Qed.
  Lemma next_map m l : next m (map g l) = omap (fun p => (g (fst p), map g (snd p))) (next m l).
  Proof. destruct l; reflexivity. Qed.
  Lemma elem_map l k : elem (map g l) k = omap g (elem l k).
  Proof. unfold elem. rewrite nth_error_map. destruct (nth_error l k); reflexivity. Qed.
  Lemma algorithm_map_from i : algorithm_from (g i) = omap (algorithm_map g) (algorithm_from i).
  Proof.
    unfold algorithm_from. apply (omap_bind _ _ _ _ (map g)); [apply as_sequence_map|]. intros l. eapply omap_bind; [apply next_map|]. intros [e it]. cbn [fst snd].
    eapply omap_bind; [apply as_oid_map|]. intros a. destruct it as [|x [|y t]]; reflexivity.
  Qed.
  Lemma version_from_map i : version_from (g i) = omap id (version_from i).
  Proof. unfold version_from. eapply omap_bind; [apply as_integer_map|]. intros d. unfold id. destruct (negb _); [reflexivity|]. destruct d as [|[|[[]|[]|]] d]; reflexivity. Qed.
  Lemma rdn_from_map i : rdn_from (g i) = omap (rdn_map g) (rdn_from i).
  Proof.
    unfold rdn_from. eapply omap_bind; [apply exact_set_map|]. intros s. eapply omap_bind; [apply elem_map|]. intros e. eapply omap_bind; [apply exact_sequence_map|]. intros l.
    eapply omap_bind; [apply elem_map|]. intros a. eapply omap_bind; [apply as_oid_map|]. intros d. eapply omap_bind; [apply elem_map|]. intros v. reflexivity.
  Qed.
  Lemma each_map {A} (f : item -> px A) h : (forall i, f (g i) = omap h (f i)) -> forall l, each f (map g l) = omap (map h) (each f l).
  Proof.
    intros F. induction l as [|i l IH]; [reflexivity|]. cbn [map each]. eapply omap_bind; [apply F|]. intros a. eapply omap_bind; [exact IH|]. intros r. reflexivity.
  Qed.
  Lemma name_from_map i : name_from (g i) = omap (map (rdn_map g)) (name_from i).
  Proof. unfold name_from. eapply omap_bind; [apply as_sequence_map|]. intros l. apply each_map, rdn_from_map. Qed.
  Lemma time_from_map i : time_from (g i) = omap id (time_from i).
  Proof. unfold time_from. rewrite G. destruct (item_value i); reflexivity. Qed.
  Lemma validity_from_map i : validity_from (g i) = omap id (validity_from i).
  Proof.
    unfold validity_from. eapply omap_bind; [apply exact_sequence_map|]. intros l. eapply omap_bind; [apply elem_map|]. intros a. eapply omap_bind; [apply time_from_map|]. intros b.
    eapply omap_bind; [apply elem_map|]. intros c. eapply omap_bind; [apply time_from_map|]. intros d. reflexivity.
  Qed.
  Lemma spki_from_map i : spki_from (g i) = omap (spki_map g) (spki_from i).
  Proof.
    unfold spki_from. eapply omap_bind; [apply exact_sequence_map|]. intros l. eapply omap_bind; [apply elem_map|]. intros a. eapply omap_bind; [apply algorithm_map_from|]. intros b.
    eapply omap_bind; [apply elem_map|]. intros c. eapply omap_bind; [apply as_bits_map|]. intros d. reflexivity.
  Qed.
  Lemma extension_from_map i : extension_from (g i) = omap (extension_map gb) (extension_from i).
  Proof.
    unfold extension_from. eapply omap_bind; [apply as_sequence_map|]. intros l. eapply omap_bind; [apply next_map|]. intros [e it]. cbn [fst snd].
    eapply omap_bind; [apply as_oid_map|]. intros a. eapply omap_bind; [apply next_map|]. intros [e2 it2]. cbn [fst snd]. rewrite G.
    assert (O : forall b x, (let? d := as_octet_string (g x) in Ok {| ex_id := id a; ex_critical := gb b; ex_data := d |}) =
      omap (extension_map gb) (let? d := as_octet_string x in Ok {| ex_id := a; ex_critical := b; ex_data := d |})).
    { intros b x. eapply omap_bind; [apply as_octets_map|]. intros d. reflexivity. }
    specialize (O false e2) as O2. rewrite Gb in O2.
    destruct (item_value e2); cbn [gval]; try exact O2. eapply omap_bind; [apply next_map|]. intros [e3 it3]. cbn [fst]. apply O.
  Qed.
  Lemma tbs_from_map i : tbs_from (g i) = omap (tbs_map g gb) (tbs_from i).
  Proof.
    unfold tbs_from. eapply omap_bind; [apply as_sequence_map|]. intros l. eapply omap_bind; [apply next_map|]. intros [e it]. cbn [fst snd].
    apply (omap_bind _ _ _ _ (fun p => let '(v, (e, it)) := p in (v, (g e, map g it)))).
    { rewrite G. destruct (item_value e) as [| | | | | | | | | | | | |t c| |]; try reflexivity. destruct t; [|reflexivity]. cbn [gval]. eapply omap_bind; [apply version_from_map|].
      intros v. eapply omap_bind; [apply next_map|]. intros [e2 it2]. reflexivity. }
    intros (v & e2 & it2). eapply omap_bind; [apply as_integer_map|]. intros se.
    eapply omap_bind; [apply next_map|]. intros [e3 it3]. cbn [fst snd]. eapply omap_bind; [apply algorithm_map_from|]. intros al.
    eapply omap_bind; [apply next_map|]. intros [e4 it4]. cbn [fst snd]. eapply omap_bind; [apply name_from_map|]. intros iss.
    eapply omap_bind; [apply next_map|]. intros [e5 it5]. cbn [fst snd]. eapply omap_bind; [apply validity_from_map|]. intros va.
    eapply omap_bind; [apply next_map|]. intros [e6 it6]. cbn [fst snd]. eapply omap_bind; [apply name_from_map|]. intros su.
    eapply omap_bind; [apply next_map|]. intros [e7 it7]. cbn [fst snd]. eapply omap_bind; [apply spki_from_map|]. intros k.
    apply (omap_bind _ _ _ _ (map (extension_map gb))).
    { destruct it7 as [|x t]; [reflexivity|]. cbn [map]. rewrite G. destruct (item_value x) as [| | | | | | | | | | | | |n c| |]; try reflexivity.
      destruct n as [|[[]|[]|]]; try reflexivity. cbn [gval]. eapply omap_bind; [apply as_sequence_map|]. intros l2. apply each_map, extension_from_map. }
    intros ex. destruct it7 as [|x [|y t]]; reflexivity.
  Qed.
  Lemma certificate_from_map i : certificate_from (g i) = omap (certificate_map g gb) (certificate_from i).
  Proof.
    unfold certificate_from. eapply omap_bind; [apply exact_sequence_map|]. intros l. eapply omap_bind; [apply elem_map|]. intros a. eapply omap_bind; [apply tbs_from_map|]. intros t.
    eapply omap_bind; [apply elem_map|]. intros b. eapply omap_bind; [apply algorithm_map_from|]. intros al. eapply omap_bind; [apply elem_map|]. intros c.
    apply (omap_bind _ _ _ _ id).
    { rewrite G. destruct (item_value c); reflexivity. }
    intros v. reflexivity.
  Qed.
End Maps.
Lemma erase_value i : item_value (erase i) = gval erase id (item_value i).
Proof. destruct i as [s e v]. destruct v; reflexivity. Qed.
Lemma norm_value i : item_value (written i) = gval written (fun _ => false) (item_value i).
Proof. destruct i as [s e v]. destruct v; try reflexivity; unfold written; cbn [drop_true erase item_value gval]; rewrite map_map; reflexivity. Qed.
Lemma certificate_bytes c d : tb_issuer_id (ce_tbs c) = None -> tb_subject_id (ce_tbs c) = None ->
  encode_item (certificate_to c) = Ok d -> every node_ok (certificate_to c) -> blen d < two32 ->
  exists c', certificate_from_bytes d = Ok c' /\ certificate_map erase id c' = certificate_map written (fun _ => false) c.
Proof.
  intros H1 H2 E O L. destruct (reads_back_all _ d E O L) as (_ & R). destruct (R (S (length d)) [] [] ltac:(lia) ltac:(rewrite app_nil_r; unfold fits, two32, two64 in *; cbn [app]; lia)) as (j & J & K & _).
  rewrite app_nil_r in J. cbn [app] in J. unfold certificate_from_bytes, read_der. change (new_reader d) with (at_pos [] d). rewrite remaining_at, J. cbn [fst].
  pose proof (certificate_from_map erase id erase_value eq_refl j) as M1.
  pose proof (certificate_from_map written (fun _ => false) norm_value eq_refl (certificate_to c)) as M2.
  rewrite certificate_rt in M2 by assumption. cbn [omap] in M2. rewrite K in M1. change (erase (drop_true (certificate_to c))) with (written (certificate_to c)) in M1. rewrite M2 in M1.
  destruct (certificate_from j) as [c'|e|]; cbn [omap] in M1; try discriminate. exists c'. split; [reflexivity|]. congruence.
Qed.
