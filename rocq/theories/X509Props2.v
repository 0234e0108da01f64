(** Which items are certificates: C92. *)
From Verif Require Import Base BaseProofs BinaryModel BinarySpec BinaryProofs BinaryProofs2 Asn1Model Asn1Spec Asn1Proofs Asn1Proofs2 Asn1Grammar Asn1Proofs3 Asn1Props Asn1Props2 X509Model X509Spec X509Proofs X509Props X509Shape.

Ltac okeq H := match type of H with Ok ?x = Ok ?y => let E := fresh in assert (E : x = y) by congruence; clear H; try subst y; try subst x end.
Lemma as_sequence_iff i l : as_sequence i = Ok l <-> item_value i = VSequence l.
Proof. unfold as_sequence. destruct (item_value i); split; intros H; try discriminate; congruence. Qed.
Lemma as_set_iff i l : as_set i = Ok l <-> item_value i = VSet l.
Proof. unfold as_set. destruct (item_value i); split; intros H; try discriminate; congruence. Qed.
Lemma as_exact_sequence_iff i n l : as_exact_sequence i n = Ok l <-> item_value i = VSequence l /\ length l = n.
Proof.
  unfold as_exact_sequence. split.
  - intros H. apply bind_ok in H. destruct H as (k & K & H). apply as_sequence_iff in K. destruct (length k =? n)%nat eqn:E; cbn [negb] in H; [|discriminate].
    apply Nat.eqb_eq in E. split; congruence.
  - intros [H L]. apply as_sequence_iff in H. rewrite H. cbn [bind]. rewrite L, Nat.eqb_refl. reflexivity.
Qed.
Lemma as_exact_set_iff i n l : as_exact_set i n = Ok l <-> item_value i = VSet l /\ length l = n.
Proof.
  unfold as_exact_set. split.
  - intros H. apply bind_ok in H. destruct H as (k & K & H). apply as_set_iff in K. destruct (length k =? n)%nat eqn:E; cbn [negb] in H; [|discriminate].
    apply Nat.eqb_eq in E. split; congruence.
  - intros [H L]. apply as_set_iff in H. rewrite H. cbn [bind]. rewrite L, Nat.eqb_refl. reflexivity.
Qed.
Lemma as_oid_iff i a : as_oid i = Ok a <-> is_oid i a.
Proof. unfold as_oid, is_oid. destruct (item_value i); split; intros H; try discriminate; congruence. Qed.
Lemma as_integer_iff i d : as_integer i = Ok d <-> item_value i = VInteger d.
Proof. unfold as_integer. destruct (item_value i); split; intros H; try discriminate; congruence. Qed.
Lemma as_octets_iff i d : as_octet_string i = Ok d <-> item_value i = VOctetString d.
Proof. unfold as_octet_string. destruct (item_value i); split; intros H; try discriminate; congruence. Qed.
Lemma as_bits_iff i b : as_bit_string i = Ok b <-> is_bits i b.
Proof.
  unfold as_bit_string, is_bits. destruct (item_value i); split; intros H; try discriminate.
  - assert (X : {| bs_unused := unused; bs_bytes := d |} = b) by congruence. subst b. reflexivity.
  - destruct b as [u w]. cbn [bs_unused bs_bytes] in H. congruence.
Qed.
Lemma algorithm_iff i a : algorithm_from i = Ok a <-> is_algorithm i a.
Proof.
  unfold algorithm_from, is_algorithm. split.
  - intros H. apply bind_ok in H. destruct H as (l & L & H). apply as_sequence_iff in L. destruct l as [|o l]; [discriminate|]. cbn [next bind] in H.
    apply bind_ok in H. destruct H as (x & O & H). apply as_oid_iff in O. exists o. destruct l as [|p [|q l]]; try discriminate; okeq H; cbn [al_oid al_params]; auto.
  - intros (o & O & E). apply as_sequence_iff in E. apply as_oid_iff in O. rewrite E. cbn [bind next]. rewrite O. cbn [bind]. destruct a as [x [p|]]; reflexivity.
Qed.
Lemma version_iff i v : version_from i = Ok v <-> is_version i v.
Proof.
  unfold version_from, is_version. split.
  - intros H. apply bind_ok in H. destruct H as (d & D & H). apply as_integer_iff in D. destruct d as [|b [|]]; cbn [length Nat.eqb negb] in H; try discriminate.
    destruct b as [|[[?|?|]|[?|?|]|]]; try discriminate; okeq H; exact D.
  - intros H. apply as_integer_iff in H. rewrite H. destruct v; reflexivity.
Qed.
Lemma rdn_iff i r : rdn_from i = Ok r <-> is_rdn i r.
Proof.
  unfold rdn_from, is_rdn. split.
  - intros H. apply bind_ok in H. destruct H as (s & S1 & H). apply as_exact_set_iff in S1. destruct S1 as [S1 S2]. destruct s as [|e [|]]; try discriminate. cbn [elem nth_error bind] in H.
    apply bind_ok in H. destruct H as (l & L1 & H). apply as_exact_sequence_iff in L1. destruct L1 as [L1 L2]. destruct l as [|o [|v [|]]]; try discriminate. cbn [elem nth_error bind] in H.
    apply bind_ok in H. destruct H as (x & O & H). apply as_oid_iff in O. okeq H. exists e, o. auto.
  - intros (e & o & S1 & L1 & O). apply as_oid_iff in O. assert (A : as_exact_set i 1 = Ok [e]) by (apply as_exact_set_iff; auto).
    assert (B : as_exact_sequence e 2 = Ok [o; rdn_value r]) by (apply as_exact_sequence_iff; auto). rewrite A. cbn [bind elem nth_error]. rewrite B. cbn [bind elem nth_error]. rewrite O. destruct r; reflexivity.
Qed.
Lemma each_iff {A} (f : item -> px A) (P : item -> A -> Prop) : (forall i a, f i = Ok a <-> P i a) -> forall l r, each f l = Ok r <-> Forall2 P l r.
Proof.
  intros F. induction l as [|i l IH]; intros r; cbn [each]; split.
  - intros H. okeq H. constructor.
  - intros H. inversion H. reflexivity.
  - intros H. apply bind_ok in H. destruct H as (a & A1 & H). apply bind_ok in H. destruct H as (t & T & H). okeq H. constructor; [apply F; exact A1|apply IH; exact T].
  - intros H. inversion H as [|? a ? t A1 T]; subst. apply F in A1. apply IH in T. rewrite A1, T. reflexivity.
Qed.
Lemma name_iff i n : name_from i = Ok n <-> is_name i n.
Proof.
  unfold name_from, is_name. split.
  - intros H. apply bind_ok in H. destruct H as (l & L & H). exists l. split; [apply as_sequence_iff, L|]. apply (each_iff rdn_from is_rdn rdn_iff). exact H.
  - intros (l & L & H). apply as_sequence_iff in L. rewrite L. cbn [bind]. apply (each_iff rdn_from is_rdn rdn_iff). exact H.
Qed.
Lemma time_iff i t : time_from i = Ok t <-> is_time i t.
Proof. unfold time_from, is_time. destruct (item_value i); split; intros H; try discriminate; try (destruct t; discriminate); try (okeq H; reflexivity); destruct t; congruence. Qed.
Lemma validity_iff i v : validity_from i = Ok v <-> is_validity i v.
Proof.
  unfold validity_from, is_validity. split.
  - intros H. apply bind_ok in H. destruct H as (l & L1 & H). apply as_exact_sequence_iff in L1. destruct L1 as [L1 L2]. destruct l as [|a [|b [|]]]; try discriminate. cbn [elem nth_error bind] in H.
    apply bind_ok in H. destruct H as (x & X & H). cbn [elem nth_error bind] in H. apply bind_ok in H. destruct H as (y & Y & H). okeq H. apply time_iff in X. apply time_iff in Y. exists a, b. auto.
  - intros (a & b & L1 & X & Y). apply time_iff in X. apply time_iff in Y. assert (B : as_exact_sequence i 2 = Ok [a; b]) by (apply as_exact_sequence_iff; auto).
    rewrite B. cbn [bind elem nth_error]. rewrite X. cbn [bind]. rewrite Y. destruct v; reflexivity.
Qed.
Lemma spki_iff i v : spki_from i = Ok v <-> is_spki i v.
Proof.
  unfold spki_from, is_spki. split.
  - intros H. apply bind_ok in H. destruct H as (l & L1 & H). apply as_exact_sequence_iff in L1. destruct L1 as [L1 L2]. destruct l as [|a [|b [|]]]; try discriminate. cbn [elem nth_error bind] in H.
    apply bind_ok in H. destruct H as (x & X & H). cbn [elem nth_error bind] in H. apply bind_ok in H. destruct H as (y & Y & H). okeq H. apply algorithm_iff in X. apply as_bits_iff in Y. exists a, b. auto.
  - intros (a & b & L1 & X & Y). apply algorithm_iff in X. apply as_bits_iff in Y. assert (B : as_exact_sequence i 2 = Ok [a; b]) by (apply as_exact_sequence_iff; auto).
    rewrite B. cbn [bind elem nth_error]. rewrite X. cbn [bind]. rewrite Y. destruct v; reflexivity.
Qed.
Lemma extension_iff i x : extension_from i = Ok x <-> is_extension i x.
Proof.
  unfold extension_from, is_extension. split.
  - intros H. apply bind_ok in H. destruct H as (l & L & H). apply as_sequence_iff in L. destruct l as [|o l]; [discriminate|]. cbn [next bind] in H.
    apply bind_ok in H. destruct H as (a & O & H). apply as_oid_iff in O. destruct l as [|b l]; [discriminate|]. cbn [next bind] in H.
    assert (PLAIN : (let? d := as_octet_string b in Ok {| ex_id := a; ex_critical := false; ex_data := d |}) = Ok x ->
      exists o flag d more, item_value i = VSequence (o :: flag ++ d :: more) /\ is_oid o (ex_id x) /\ item_value d = VOctetString (ex_data x) /\
       (flag = [] /\ ex_critical x = false \/ exists b, flag = [b] /\ item_value b = VBoolean (ex_critical x))).
    { intros H'. apply bind_ok in H'. destruct H' as (d & D & H'). apply as_octets_iff in D. okeq H'. exists o, [], b, l. cbn [ex_id ex_data ex_critical app]. split; [exact L|]. split; [exact O|]. split; [exact D|]. left; auto. }
    destruct (item_value b) eqn:V; try exact (PLAIN H). destruct l as [|d l]; [discriminate|]. cbn [next bind fst] in H.
    apply bind_ok in H. destruct H as (dd & D & H). apply as_octets_iff in D. okeq H. exists o, [b], d, l. cbn [ex_id ex_data ex_critical]. split; [exact L|]. split; [exact O|]. split; [exact D|].
    right. exists b. auto.
  - intros (o & flag & d & more & L & O & D & F). apply as_sequence_iff in L. apply as_oid_iff in O. rewrite L. cbn [bind next]. rewrite O. cbn [bind].
    destruct F as [[-> C]|(b & -> & C)]; cbn [app next bind].
    + rewrite D. unfold as_octet_string. rewrite D. cbn [bind]. destruct x as [? c ?]. cbn [ex_critical] in C. subst c. reflexivity.
    + rewrite C. cbn [fst]. unfold as_octet_string. rewrite D. destruct x; reflexivity.
Qed.
Lemma tbs_iff i t : tbs_from i = Ok t <-> is_tbs i t.
Proof.
  unfold tbs_from, is_tbs. split.
  - intros H. apply bind_ok in H. destruct H as (l & L & H). apply as_sequence_iff in L. destruct l as [|e l]; [discriminate|]. cbn [next bind] in H.
    apply bind_ok in H. destruct H as ((v & se & l2) & V & H).
    assert (VV : exists ver, e :: l = ver ++ se :: l2 /\ (ver = [] /\ v = V1 \/ exists e c, ver = [e] /\ item_value e = VContextSpecific 0 c /\ is_version c v)).
    { assert (PLAIN : @Ok perror _ (V1, (e, l)) = Ok (v, (se, l2)) -> exists ver, e :: l = ver ++ se :: l2 /\ (ver = [] /\ v = V1 \/ exists e c, ver = [e] /\ item_value e = VContextSpecific 0 c /\ is_version c v)).
      { intros X. exists []. assert (v = V1 /\ e = se /\ l = l2) by (repeat split; congruence). destruct H0 as (-> & -> & ->). split; [reflexivity|left; auto]. }
      destruct (item_value e) as [| | | | | | | | | | | | |tag c| |] eqn:E; try exact (PLAIN V). destruct tag; [|exact (PLAIN V)].
      apply bind_ok in V. destruct V as (w & W & V). apply version_iff in W. destruct l as [|s l]; [discriminate|]. cbn [next bind] in V. exists [e].
      assert (v = w /\ s = se /\ l = l2) by (repeat split; congruence). destruct H0 as (-> & -> & ->). split; [reflexivity|]. right. exists e, c. auto. }
    clear V. destruct VV as (ver & EV & VV). rewrite EV in L. clear EV e l.
    apply bind_ok in H. destruct H as (serial & SE & H). apply as_integer_iff in SE.
    destruct l2 as [|sg l]; [discriminate|]. cbn [next bind] in H. apply bind_ok in H. destruct H as (sgv & SG & H). apply algorithm_iff in SG.
    destruct l as [|is l]; [discriminate|]. cbn [next bind] in H. apply bind_ok in H. destruct H as (isv & IS & H). apply name_iff in IS.
    destruct l as [|va l]; [discriminate|]. cbn [next bind] in H. apply bind_ok in H. destruct H as (vav & VA & H). apply validity_iff in VA.
    destruct l as [|su l]; [discriminate|]. cbn [next bind] in H. apply bind_ok in H. destruct H as (suv & SU & H). apply name_iff in SU.
    destruct l as [|sp l]; [discriminate|]. cbn [next bind] in H. apply bind_ok in H. destruct H as (spv & SP & H). apply spki_iff in SP.
    apply bind_ok in H. destruct H as (exts & EX & H).
    exists ver, se, sg, is, va, su, sp, l. split; [exact L|].
    assert (EE : (l = [] /\ exts = [] \/ exists e c l', l = e :: tl l /\ item_value e = VContextSpecific 3 c /\ item_value c = VSequence l' /\ Forall2 is_extension l' exts)).
    { destruct l as [|e l]; [left; split; [reflexivity|congruence]|right]. destruct (item_value e) as [| | | | | | | | | | | | |tag c| |] eqn:E; try discriminate.
      destruct tag as [|[[?|?|]|?|]]; try discriminate. apply bind_ok in EX. destruct EX as (l' & L' & EX). apply as_sequence_iff in L'. apply (each_iff _ _ extension_iff) in EX. exists e, c, l'. auto. }
    destruct l as [|e [|e' l]]; try discriminate; okeq H; cbn [tb_version tb_serial tb_signature tb_issuer tb_validity tb_subject tb_key tb_issuer_id tb_subject_id tb_extensions].
    + do 9 (split; [first [exact VV|assumption|reflexivity]|]). destruct EE as [EE|(e & c & l' & X & _)]; [left; exact EE|discriminate].
    + do 9 (split; [first [exact VV|assumption|reflexivity]|]). destruct EE as [[X _]|(e2 & c & l' & X & Y)]; [discriminate|]. cbn [tl] in X. assert (e = e2) by congruence. subst e2. right. exists e, c, l'. split; [reflexivity|exact Y].
  - intros (ver & se & sg & is & va & su & sp & ext & L & VV & SE & SG & IS & VA & SU & SP & U1 & U2 & EE).
    apply as_sequence_iff in L. rewrite L. cbn [bind].
    assert (V : exists e l, ver ++ [se; sg; is; va; su; sp] ++ ext = e :: l /\ match item_value e with
            | VContextSpecific 0 child =>
              let? v := version_from child in
              let? p := next "Missing serial_number" l in Ok (v, p)
            | _ => Ok (V1, (e, l))
            end = Ok (tb_version t, (se, [sg; is; va; su; sp] ++ ext))).
    { destruct VV as [[-> ->]|(e & c & -> & E & W)].
      - exists se, ([sg; is; va; su; sp] ++ ext). split; [reflexivity|]. rewrite SE. reflexivity.
      - exists e, ([se; sg; is; va; su; sp] ++ ext). split; [reflexivity|]. rewrite E. apply version_iff in W. rewrite W. reflexivity. }
    destruct V as (e & l & -> & V). cbn [next bind]. rewrite V. cbn [bind]. clear V VV.
    apply as_integer_iff in SE. rewrite SE. cbn [bind app next]. apply algorithm_iff in SG. rewrite SG. cbn [bind app next]. apply name_iff in IS. rewrite IS. cbn [bind app next].
    apply validity_iff in VA. rewrite VA. cbn [bind app next]. apply name_iff in SU. rewrite SU. cbn [bind app next]. apply spki_iff in SP. rewrite SP. cbn [bind].
    destruct t as [t1 t2 t3 t4 t5 t6 t7 u1 u2 exts]. cbn [tb_version tb_serial tb_signature tb_issuer tb_validity tb_subject tb_key tb_issuer_id tb_subject_id tb_extensions] in *. subst u1 u2.
    destruct EE as [[-> ->]|(x & c & l' & -> & X & C & EX)]; [reflexivity|]. rewrite X. apply as_sequence_iff in C. rewrite C. cbn [bind]. apply (each_iff _ _ extension_iff) in EX. rewrite EX. reflexivity.
Qed.
(** The parser succeeds exactly on the items of the given shape, with the parts that are
    there. *)
Theorem C92_certificates_exactly i c : certificate_from i = Ok c <-> is_certificate i c.
Proof.
  unfold certificate_from, is_certificate. split.
  - intros H. apply bind_ok in H. destruct H as (l & L1 & H). apply as_exact_sequence_iff in L1. destruct L1 as [L1 L2]. destruct l as [|a [|b [|d [|]]]]; try discriminate. cbn [elem nth_error bind] in H.
    apply bind_ok in H. destruct H as (t & T & H). apply tbs_iff in T. cbn [elem nth_error bind] in H. apply bind_ok in H. destruct H as (g & G & H). apply algorithm_iff in G.
    cbn [elem nth_error bind] in H. apply bind_ok in H. destruct H as (v & V & H). okeq H. exists a, b, d. cbn [ce_tbs ce_alg ce_value]. split; [exact L1|]. split; [exact T|]. split; [exact G|].
    unfold is_bits. destruct (item_value d); try discriminate. okeq V. reflexivity.
  - intros (a & b & d & L & T & G & V). assert (B : as_exact_sequence i 3 = Ok [a; b; d]) by (apply as_exact_sequence_iff; auto). rewrite B. cbn [bind elem nth_error].
    apply tbs_iff in T. rewrite T. cbn [bind]. apply algorithm_iff in G. rewrite G. cbn [bind]. unfold is_bits in V. rewrite V. cbn [bind]. destruct c as [? ? [? ?]]; reflexivity.
Qed.
Print Assumptions C92_certificates_exactly.
(** The same for the parts that are parsed on their own. *)
Theorem C92_parts_exactly :
  (forall i a, algorithm_from i = Ok a <-> is_algorithm i a) /\ (forall i v, version_from i = Ok v <-> is_version i v) /\ (forall i n, name_from i = Ok n <-> is_name i n) /\
  (forall i v, validity_from i = Ok v <-> is_validity i v) /\ (forall i s, spki_from i = Ok s <-> is_spki i s) /\ (forall i x, extension_from i = Ok x <-> is_extension i x) /\
  (forall i t, tbs_from i = Ok t <-> is_tbs i t).
Proof.
  split; [exact algorithm_iff|]. split; [exact version_iff|]. split; [exact name_iff|]. split; [exact validity_iff|]. split; [exact spki_iff|]. split; [exact extension_iff|exact tbs_iff].
Qed.
Print Assumptions C92_parts_exactly.

(** With bytes: a certificate is parsed from exactly the bytes that begin with the DER of a
    certificate; byte ranges aside it is that certificate.  What follows does not matter. *)
Theorem C92_bytes_exactly d c : bytes_ok d -> fits d ->
  ((exists c', certificate_from_bytes d = Ok c' /\ certificate_map erase id c' = c) <->
   exists s post i, d = s ++ post /\ der s i /\ is_certificate i c).
Proof.
  intros B F. split.
  - intros (c' & H & E). unfold certificate_from_bytes in H. change (new_reader d) with (at_pos [] d) in H. destruct (read_der (at_pos [] d)) as [[i|e|] r'] eqn:R; try discriminate. cbn [fst] in H.
    destruct (C90_only_the_grammar [] d i r' B R) as (s & post & -> & _ & D). exists s, post, (erase i). split; [reflexivity|]. split; [exact D|].
    apply C92_certificates_exactly. rewrite (certificate_from_map erase id X509Proofs.erase_value eq_refl), H. cbn [omap]. congruence.
  - intros (s & post & i & -> & D & C). apply C92_certificates_exactly in C. destruct (C90_all_of_the_grammar [] s post i (proj1 (proj1 (bytes_ok_app _ _) B)) F D) as (j & R & <-).
    rewrite (certificate_from_map erase id X509Proofs.erase_value eq_refl) in C. unfold certificate_from_bytes. change (new_reader (s ++ post)) with (at_pos [] (s ++ post)). rewrite R. cbn [fst].
    destruct (certificate_from j) as [c'|e|]; try discriminate. cbn [omap] in C. exists c'. split; [reflexivity|congruence].
Qed.
Print Assumptions C92_bytes_exactly.
(** So bytes behind a certificate are ignored. *)
Theorem C92_trailing_ignored_refuted d c junk : bytes_ok (d ++ junk) -> fits (d ++ junk) -> certificate_from_bytes d = Ok c ->
  exists c', certificate_from_bytes (d ++ junk) = Ok c' /\ certificate_map erase id c' = certificate_map erase id c.
Proof.
  intros B F H. apply (C92_bytes_exactly _ _ B F).
  assert (F' : fits d) by (unfold fits in *; rewrite blen_app in F; lia).
  destruct (proj1 (C92_bytes_exactly d (certificate_map erase id c) (proj1 (proj1 (bytes_ok_app _ _) B)) F') ltac:(exists c; auto)) as (s & post & i & -> & D & C).
  exists s, (post ++ junk), i. rewrite app_assoc. auto.
Qed.
Print Assumptions C92_trailing_ignored_refuted.
(** So are further elements of an extension. *)
Theorem C92_extension_junk_refuted : exists o d junk x, junk <> [] /\
  extension_from (item_of (VSequence [o; d])) = Ok x /\ extension_from (item_of (VSequence (o :: d :: junk))) = Ok x.
Proof. exists (item_of (VOid [2; 5; 29; 15])), (item_of (VOctetString [1])), [item_of VNull]. eexists. split; [discriminate|]. split; vm_compute; reflexivity. Qed.
Print Assumptions C92_extension_junk_refuted.
(** Nothing makes the parser panic. *)
Lemma bind_total {E A B} (x : outcome E A) (k : A -> outcome E B) : x <> Panic -> (forall a, x = Ok a -> k a <> Panic) -> bind x k <> Panic.
Proof. destruct x; cbn [bind]; auto. discriminate. Qed.
Lemma as_sequence_total i : as_sequence i <> Panic. Proof. unfold as_sequence. destruct (item_value i); discriminate. Qed.
Lemma as_set_total i : as_set i <> Panic. Proof. unfold as_set. destruct (item_value i); discriminate. Qed.
Lemma as_oid_total i : as_oid i <> Panic. Proof. unfold as_oid. destruct (item_value i); discriminate. Qed.
Lemma as_integer_total i : as_integer i <> Panic. Proof. unfold as_integer. destruct (item_value i); discriminate. Qed.
Lemma as_octets_total i : as_octet_string i <> Panic. Proof. unfold as_octet_string. destruct (item_value i); discriminate. Qed.
Lemma as_bits_total i : as_bit_string i <> Panic. Proof. unfold as_bit_string. destruct (item_value i); discriminate. Qed.
Lemma next_total msg l : next msg l <> Panic. Proof. destruct l; discriminate. Qed.
Lemma exact_sequence_total i n : as_exact_sequence i n <> Panic.
Proof. apply bind_total; [apply as_sequence_total|]. intros l _. destruct (negb _); discriminate. Qed.
Lemma exact_set_total i n : as_exact_set i n <> Panic.
Proof. apply bind_total; [apply as_set_total|]. intros l _. destruct (negb _); discriminate. Qed.
Lemma elem_total i n l k : as_exact_sequence i n = Ok l -> (k < n)%nat -> elem l k <> Panic.
Proof. intros H K. apply as_exact_sequence_iff in H. unfold elem. destruct (nth_error l k) eqn:E; [discriminate|]. apply nth_error_None in E. lia. Qed.
Lemma elem_set_total i n l k : as_exact_set i n = Ok l -> (k < n)%nat -> elem l k <> Panic.
Proof. intros H K. apply as_exact_set_iff in H. unfold elem. destruct (nth_error l k) eqn:E; [discriminate|]. apply nth_error_None in E. lia. Qed.
Lemma algorithm_total i : algorithm_from i <> Panic.
Proof. apply bind_total; [apply as_sequence_total|]. intros l _. apply bind_total; [apply next_total|]. intros [o t] _. apply bind_total; [apply as_oid_total|]. intros a _. destruct t as [|p [|]]; discriminate. Qed.
Lemma version_total i : version_from i <> Panic.
Proof. apply bind_total; [apply as_integer_total|]. intros d _. destruct d as [|b [|c d]]; cbn [length Nat.eqb negb]; try discriminate; destruct b as [|[[?|?|]|[?|?|]|]]; discriminate. Qed.
Lemma time_total i : time_from i <> Panic. Proof. unfold time_from. destruct (item_value i); discriminate. Qed.
Lemma each_total {A} (f : item -> px A) : (forall i, f i <> Panic) -> forall l, each f l <> Panic.
Proof. intros F. induction l as [|i l IH]; cbn [each]; [discriminate|]. apply bind_total; [apply F|]. intros a _. apply bind_total; [exact IH|]. discriminate. Qed.
Lemma rdn_total i : rdn_from i <> Panic.
Proof.
  apply bind_total; [apply exact_set_total|]. intros s S1. apply bind_total; [apply (elem_set_total _ _ _ _ S1); lia|]. intros e _. apply bind_total; [apply exact_sequence_total|]. intros l L.
  apply bind_total; [apply (elem_total _ _ _ _ L); lia|]. intros o _. apply bind_total; [apply as_oid_total|]. intros a _. apply bind_total; [apply (elem_total _ _ _ _ L); lia|]. discriminate.
Qed.
Lemma name_total i : name_from i <> Panic. Proof. apply bind_total; [apply as_sequence_total|]. intros l _. apply each_total, rdn_total. Qed.
Lemma validity_total i : validity_from i <> Panic.
Proof.
  apply bind_total; [apply exact_sequence_total|]. intros l L. apply bind_total; [apply (elem_total _ _ _ _ L); lia|]. intros o _. apply bind_total; [apply time_total|]. intros a _.
  apply bind_total; [apply (elem_total _ _ _ _ L); lia|]. intros b _. apply bind_total; [apply time_total|]. discriminate.
Qed.
Lemma spki_total i : spki_from i <> Panic.
Proof.
  apply bind_total; [apply exact_sequence_total|]. intros l L. apply bind_total; [apply (elem_total _ _ _ _ L); lia|]. intros o _. apply bind_total; [apply algorithm_total|]. intros a _.
  apply bind_total; [apply (elem_total _ _ _ _ L); lia|]. intros b _. apply bind_total; [apply as_bits_total|]. discriminate.
Qed.
Lemma extension_total i : extension_from i <> Panic.
Proof.
  apply bind_total; [apply as_sequence_total|]. intros l _. apply bind_total; [apply next_total|]. intros [o t] _. apply bind_total; [apply as_oid_total|]. intros a _. apply bind_total; [apply next_total|]. intros [b u] _.
  assert (PLAIN : (let? d := as_octet_string b in Ok {| ex_id := a; ex_critical := false; ex_data := d |}) <> Panic) by (apply bind_total; [apply as_octets_total|discriminate]).
  destruct (item_value b); try exact PLAIN. apply bind_total; [apply next_total|]. intros [d w] _. apply bind_total; [apply as_octets_total|]. discriminate.
Qed.
Lemma tbs_total i : tbs_from i <> Panic.
Proof.
  apply bind_total; [apply as_sequence_total|]. intros l _. apply bind_total; [apply next_total|]. intros [e t] _. apply bind_total.
  { destruct (item_value e) as [| | | | | | | | | | | | |tag c| |]; try discriminate. destruct tag; [|discriminate]. apply bind_total; [apply version_total|]. intros v _. apply bind_total; [apply next_total|]. discriminate. }
  intros (v & se & l2) _. apply bind_total; [apply as_integer_total|]. intros sn _.
  apply bind_total; [apply next_total|]. intros (x1 & l3) _. apply bind_total; [apply algorithm_total|]. intros y1 _.
  apply bind_total; [apply next_total|]. intros (x2 & l4) _. apply bind_total; [apply name_total|]. intros y2 _.
  apply bind_total; [apply next_total|]. intros (x3 & l5) _. apply bind_total; [apply validity_total|]. intros y3 _.
  apply bind_total; [apply next_total|]. intros (x4 & l6) _. apply bind_total; [apply name_total|]. intros y4 _.
  apply bind_total; [apply next_total|]. intros (x5 & l7) _. apply bind_total; [apply spki_total|]. intros y5 _.
  apply bind_total.
  { destruct l7 as [|x t7]; [discriminate|]. destruct (item_value x) as [| | | | | | | | | | | | |tag c| |]; try discriminate.
    destruct tag as [|[[?|?|]|?|]]; try discriminate. apply bind_total; [apply as_sequence_total|]. intros l' _. apply each_total, extension_total. }
  intros ex _. destruct l7 as [|? [|? ?]]; discriminate.
Qed.
Theorem C92_never_panics : (forall i, certificate_from i <> Panic) /\ (forall d, bytes_ok d -> certificate_from_bytes d <> Panic).
Proof.
  assert (T : forall i, certificate_from i <> Panic).
  { intros i. apply bind_total; [apply exact_sequence_total|]. intros l L. apply bind_total; [apply (elem_total _ _ _ _ L); lia|]. intros a _. apply bind_total; [apply tbs_total|]. intros t _.
    apply bind_total; [apply (elem_total _ _ _ _ L); lia|]. intros b _. apply bind_total; [apply algorithm_total|]. intros g _. apply bind_total; [apply (elem_total _ _ _ _ L); lia|]. intros c _.
    apply bind_total; [destruct (item_value c); discriminate|]. discriminate. }
  split; [exact T|]. intros d B. unfold certificate_from_bytes. destruct (read_der (new_reader d)) as [[i|e|] r] eqn:R; cbn [fst]; [apply T|discriminate|].
  exfalso. pose proof (C48_total_and_nested [] d B) as X. change (new_reader d) with (at_pos [] d) in R. rewrite R in X. destruct X as [[e X]|(i & s & post & _ & X & _)]; discriminate.
Qed.
Print Assumptions C92_never_panics.
Example C92_case : certificate_from (certificate_to sample_cert) = Ok sample_cert /\ is_certificate (certificate_to sample_cert) sample_cert /\
  certificate_from (item_of (VSequence [tbs_to (ce_tbs sample_cert); algorithm_to ed25519])) <> Ok sample_cert.
Proof. split; [vm_compute; reflexivity|]. split; [apply C92_certificates_exactly; vm_compute; reflexivity|vm_compute; discriminate]. Qed.
