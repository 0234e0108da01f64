(** Certificates: C50 and the generated libp2p certificate, C77. *)
From Verif Require Import Base BaseProofs MessageSpec MessageProofs MessageProofs2 MessageProofs3 MessageProps BinaryModel BinaryProofs Asn1Model Asn1Spec Asn1Proofs Asn1Props IdentifyModel X509Model X509Spec X509Proofs.
Local Open Scope string_scope. Local Open Scope list_scope. Local Open Scope N_scope.

(** A certificate with parameters, two name parts, a critical and a plain extension. *)
Definition sample_cert : certificate :=
  {| ce_tbs := {| tb_version := V3; tb_serial := [1; 2]; tb_signature := {| al_oid := [1; 2; 840; 113549; 1; 1; 11]; al_params := Some (item_of VNull) |};
       tb_issuer := [{| rdn_id := [2; 5; 4; 6]; rdn_value := item_of (VPrintableString (ascii_bytes "AU")) |}; {| rdn_id := [2; 5; 4; 3]; rdn_value := item_of (VUtf8String (ascii_bytes "me")) |}];
       tb_validity := {| va_before := TUtc (ascii_bytes "210101000000Z"); va_after := TGeneralized (ascii_bytes "20510101000000Z") |};
       tb_subject := []; tb_key := {| sp_alg := ed25519; sp_key := {| bs_unused := 0; bs_bytes := [1; 2; 3] |} |};
       tb_issuer_id := None; tb_subject_id := None;
       tb_extensions := [{| ex_id := [2; 5; 29; 15]; ex_critical := true; ex_data := [3; 2; 5; 160] |}; {| ex_id := [2; 5; 29; 14]; ex_critical := false; ex_data := [4] |}] |};
     ce_alg := ed25519; ce_value := {| bs_unused := 0; bs_bytes := [9; 9] |} |}.

(** *** C50 *)
(** Through items: without unique identifiers, everything comes back. *)
Theorem C50_items_round_trip_partial c : tb_issuer_id (ce_tbs c) = None -> tb_subject_id (ce_tbs c) = None -> certificate_from (certificate_to c) = Ok c.
Proof. apply certificate_rt. Qed.
Print Assumptions C50_items_round_trip_partial.
Theorem C50_parts_round_trip :
  (forall a, algorithm_from (algorithm_to a) = Ok a) /\ (forall n, name_from (name_to n) = Ok n) /\ (forall v, validity_from (validity_to v) = Ok v) /\
  (forall s, spki_from (spki_to s) = Ok s) /\ (forall x, extension_from (extension_to x) = Ok x) /\ (forall v, version_from (version_to v) = Ok v).
Proof. split; [exact algorithm_rt|]. split; [exact name_rt|]. split; [exact validity_rt|]. split; [exact spki_rt|]. split; [exact extension_rt|exact version_rt]. Qed.
Print Assumptions C50_parts_round_trip.
(** Unique identifiers are dropped. *)
Theorem C50_unique_ids_refuted : exists c c', certificate_from (certificate_to c) = Ok c' /\ c' <> c.
Proof.
  exists {| ce_tbs := {| tb_version := V1; tb_serial := [1]; tb_signature := ed25519; tb_issuer := []; tb_validity := {| va_before := TUtc []; va_after := TUtc [] |};
       tb_subject := []; tb_key := {| sp_alg := ed25519; sp_key := {| bs_unused := 0; bs_bytes := [] |} |}; tb_issuer_id := Some [1]; tb_subject_id := None; tb_extensions := [] |};
     ce_alg := ed25519; ce_value := {| bs_unused := 0; bs_bytes := [] |} |}.
  eexists. split; [vm_compute; reflexivity|discriminate].
Qed.
Print Assumptions C50_unique_ids_refuted.
(** Whatever is parsed is a fixed point of writing and parsing. *)
Theorem C50_parsed_is_stable i c : certificate_from i = Ok c -> certificate_from (certificate_to c) = Ok c.
Proof.
  intros H. assert (X : tb_issuer_id (ce_tbs c) = None /\ tb_subject_id (ce_tbs c) = None).
  { unfold certificate_from in H. repeat (apply bind_ok in H; destruct H as (? & ? & H)). injection H as <-. cbn [ce_tbs].
    match goal with T : tbs_from _ = Ok ?t |- _ => clear - T; rename T into H; unfold tbs_from in H end.
    repeat (apply bind_ok in H; destruct H as (? & ? & H); repeat match type of H with context[let (_, _) := ?p in _] => destruct p end).
    match type of H with match ?l with _ => _ end = _ => destruct l as [|? [|? ?]] end; try discriminate; injection H as <-; split; reflexivity. }
  apply certificate_rt; apply X.
Qed.
Print Assumptions C50_parsed_is_stable.
(** Through DER bytes: what comes back is the certificate with every critical flag false (and
    every true Boolean inside parameters and names false); byte ranges aside, nothing else
    differs. *)
Theorem C50_der_exact c d : tb_issuer_id (ce_tbs c) = None -> tb_subject_id (ce_tbs c) = None ->
  encode_item (certificate_to c) = Ok d -> every node_ok (certificate_to c) -> blen d < two32 ->
  exists c', certificate_from_bytes d = Ok c' /\ certificate_map erase id c' = certificate_map written (fun _ => false) c.
Proof. apply certificate_bytes. Qed.
Print Assumptions C50_der_exact.
Theorem C50_critical_refuted : exists c d c', encode_item (certificate_to c) = Ok d /\ certificate_from_bytes d = Ok c' /\
  map ex_critical (tb_extensions (ce_tbs c)) = [true; false] /\ map ex_critical (tb_extensions (ce_tbs c')) = [false; false].
Proof. exists sample_cert. eexists. eexists. split; [vm_compute; reflexivity|]. split; [vm_compute; reflexivity|]. split; reflexivity. Qed.
Print Assumptions C50_critical_refuted.
Example C50_sample : certificate_from (certificate_to sample_cert) = Ok sample_cert /\ every node_ok (certificate_to sample_cert).
Proof.
  split; [reflexivity|]. cbn [certificate_to every item_of node_ok tbs_to algorithm_to ed25519 name_to validity_to spki_to bits_to extension_to version_to time_to rdn_to map sample_cert
    ce_tbs ce_alg ce_value tb_version tb_serial tb_signature tb_issuer tb_validity tb_subject tb_key tb_extensions al_oid al_params rdn_id rdn_value va_before va_after sp_alg sp_key bs_unused bs_bytes ex_id ex_critical ex_data app].
  repeat (exact I || reflexivity || split || constructor).
Qed.

(** *** C77 *)
Lemma encode_length_bytes n : bytes_ok (encode_length n).
Proof.
  unfold encode_length. destruct (n <? 128) eqn:E; [constructor; [change (n < 256); lia|constructor]|]. cbv zeta.
  assert (L : (8 - leading_zeros (be_bytes 8 n) <= 8)%nat) by lia. destruct (8 - leading_zeros (be_bytes 8 n))%nat eqn:K; cbn [Nat.eqb].
  - constructor; [reflexivity|constructor; [reflexivity|constructor]].
  - constructor; [|apply bytes_ok_skipn, be_bytes_ok]. change (N.lor (N.of_nat (S n0)) 128 < 256). rewrite lor_80 by lia. lia.
Qed.
Lemma id_byte_lt c f tag : tag <= 30 -> id_byte c f tag < 256.
Proof.
  intros T. assert (X : forallb (fun t => id_byte c f t <? 256) (map N.of_nat (seq 0 31)) = true) by (destruct c, f; vm_compute; reflexivity).
  rewrite forallb_forall in X. apply N.ltb_lt, X, in_map_iff. exists (N.to_nat tag). split; [lia|apply in_seq; lia].
Qed.
Lemma encode_raw_bytes c f tag d x : tag <= 30 -> bytes_ok d -> encode_raw c f tag d = Ok x -> bytes_ok x /\ (length d <= length x)%nat.
Proof.
  intros T D H. rewrite encode_raw_ok in H by exact T. injection H as <-. split.
  - constructor; [change (id_byte c f tag < 256); apply id_byte_lt; exact T|]. apply bytes_ok_app. split; [apply encode_length_bytes|exact D].
  - cbn [length]. rewrite app_length. lia.
Qed.
Lemma key_bytes p : bytes_ok p -> bytes_ok (key_to_pb {| pk_type := KEd25519; pk_data := p |}).
Proof. intros H. rewrite key_ser. apply ser_ok, key_es_wf. exact H. Qed.
Lemma own_writable x ext before after : every writable (tbs_to (own_tbs x ext before after)).
Proof. cbn. repeat (exact I || split || lia). Qed.
(** An encoding is at least as long as the encoding of any element. *)
Lemma list_longer l : forall d i a, encode_list l = Ok d -> In i l -> encode_item i = Ok a -> (length a <= length d)%nat.
Proof.
  induction l as [|j l IH]; intros d i a E H Ea; [destruct H|]. change (encode_list (j :: l)) with (let? a := encode_item j in let? b := encode_list l in Ok (a ++ b)) in E.
  apply bind_ok in E. destruct E as (x & Ex & E). apply bind_ok in E. destruct E as (y & Ey & E). assert (d = x ++ y) as -> by congruence. rewrite app_length.
  destruct H as [->|H]; [assert (x = a) as -> by congruence; lia|]. specialize (IH y i a Ey H Ea). lia.
Qed.
Lemma sequence_longer s e l d i : encode_item (Item s e (VSequence l)) = Ok d -> In i l -> exists a, encode_item i = Ok a /\ (length a <= length d)%nat.
Proof.
  intros E H. change (encode_item (Item s e (VSequence l))) with (let? d := encode_list l in encode_raw CUniversal FConstructed 16 d) in E.
  apply bind_ok in E. destruct E as (x & Ex & E). rewrite encode_raw_ok in E by lia. injection E as <-.
  assert (A : exists a, encode_item i = Ok a).
  { clear - Ex H. revert x Ex. induction l as [|j l IH]; intros x Ex; [destruct H|]. change (encode_list (j :: l)) with (let? a := encode_item j in let? b := encode_list l in Ok (a ++ b)) in Ex.
    apply bind_ok in Ex. destruct Ex as (y & Ey & Ex). apply bind_ok in Ex. destruct Ex as (z & Ez & Ex). destruct H as [->|H]; [exists y; exact Ey|exact (IH H z Ez)]. }
  destruct A as (a & Ea). exists a. split; [exact Ea|]. pose proof (list_longer l x i a Ex H Ea). cbn [length]. rewrite app_length. lia.
Qed.
Lemma tbs_holds_ext x509 ext before after t : encode_item (tbs_to (own_tbs x509 ext before after)) = Ok t -> (length ext <= length t)%nat.
Proof.
  intros E. set (xs := item_of (VSequence [extension_to {| ex_id := LIBP2P_EXT; ex_critical := true; ex_data := ext |}])).
  destruct (sequence_longer _ _ _ _ (item_of (VContextSpecific 3 xs)) E) as (a & Ea & La); [do 7 right; left; reflexivity|].
  change (encode_item (item_of (VContextSpecific 3 xs))) with (let? d := encode_item xs in encode_raw CContext FConstructed 3 d) in Ea.
  apply bind_ok in Ea. destruct Ea as (b & Eb & Ea). rewrite encode_raw_ok in Ea by lia. injection Ea as <-. cbn [length] in La. rewrite app_length in La.
  destruct (sequence_longer _ _ _ _ (extension_to {| ex_id := LIBP2P_EXT; ex_critical := true; ex_data := ext |}) Eb) as (c & Ec & Lc); [left; reflexivity|].
  destruct (sequence_longer _ _ _ _ (item_of (VOctetString ext)) Ec) as (g & Eg & Lg); [right; right; left; reflexivity|].
  change (encode_item (item_of (VOctetString ext))) with (encode_raw CUniversal FPrimitive 4 ext) in Eg. rewrite encode_raw_ok in Eg by lia. injection Eg as <-. cbn [length] in Lg. rewrite app_length in Lg. lia.
Qed.
(** What a generated certificate contains, for any key pairs and any signing functions: it is
    always produced; parsed again it holds the certificate key, the validity, and exactly one
    extension, the libp2p one; that extension is a sequence of the host's public key in
    protobuf form and the host's signature of the prefix and the DER of the certificate key;
    the certificate's own signature is over exactly the bytes of its first element. *)
Theorem C77_generated_certificate_partial x509 host before after :
  bytes_ok (kp_public x509) -> bytes_ok (kp_public host) -> (forall m, bytes_ok (kp_sign x509 m)) -> (forall m, bytes_ok (kp_sign host m)) ->
  utf8_valid before = true -> utf8_valid after = true ->
  exists d, generate_certificate x509 host before after = Ok d /\ (blen d < two32 ->
    exists c ext info n t rest,
      certificate_from_bytes d = Ok c /\
      tb_key (ce_tbs c) = key_info x509 /\ tb_validity (ce_tbs c) = {| va_before := TGeneralized before; va_after := TGeneralized after |} /\
      tb_version (ce_tbs c) = V3 /\ tb_signature (ce_tbs c) = ed25519 /\ ce_alg c = ed25519 /\
      tb_extensions (ce_tbs c) = [{| ex_id := LIBP2P_EXT; ex_critical := false; ex_data := ext |}] /\
      encode_item (spki_to (key_info x509)) = Ok info /\
      (exists i k, fst (read_der (new_reader ext)) = Ok i /\
         erase i = item_of (VSequence [item_of (VOctetString k); item_of (VOctetString (kp_sign host (ascii_bytes "libp2p-tls-handshake:" ++ info)))]) /\
         key_from_pb k = Ok {| pk_type := KEd25519; pk_data := kp_public host |}) /\
      d = 48 :: encode_length n ++ t ++ rest /\ n = blen (t ++ rest) /\
      encode_item (tbs_to (own_tbs x509 ext before after)) = Ok t /\
      ce_value c = {| bs_unused := 0; bs_bytes := kp_sign x509 t |}).
Proof.
  intros Px Ph Sx Sh U1 U2. unfold generate_certificate, make_signature.
  destruct (proj2 (C46_writer_refusals (spki_to (key_info x509)))) as (info & Ei); [cbn; repeat (exact I || split || lia)|]. rewrite Ei. cbn [bind].
  set (sg := kp_sign host (ascii_bytes "libp2p-tls-handshake:" ++ info)).
  unfold generate_libp2p_ext. set (k := key_to_pb {| pk_type := KEd25519; pk_data := kp_public host |}).
  set (ei := item_of (VSequence [item_of (VOctetString k); item_of (VOctetString sg)])).
  destruct (proj2 (C46_writer_refusals ei)) as (ext & Ee); [cbn; repeat (exact I || split || lia)|]. rewrite Ee. cbn [bind].
  unfold sign_tbs_certificate. set (T := own_tbs x509 ext before after).
  destruct (proj2 (C46_writer_refusals (tbs_to T)) (own_writable _ _ _ _)) as (t & Et). rewrite Et. cbn [bind].
  set (sv := {| bs_unused := 0; bs_bytes := kp_sign x509 t |}). set (C := {| ce_tbs := T; ce_alg := ed25519; ce_value := sv |}).
  change (item_of (VSequence [tbs_to T; algorithm_to ed25519; bits_to sv])) with (certificate_to C).
  destruct (proj2 (C46_writer_refusals (certificate_to C))) as (d & Ed).
  { split; [exact I|]. split; [apply own_writable|]. cbn. repeat (exact I || split). }
  exists d. split; [exact Ed|]. intros L.
  (* the extension *)
  assert (Bk : bytes_ok k /\ (length k <= length ext)%nat /\ bytes_ok ext /\ every node_ok ei).
  { assert (K0 : bytes_ok k) by (apply key_bytes; exact Ph). pose proof Ee as Ee'. change (encode_item ei) with (let? d := encode_list [item_of (VOctetString k); item_of (VOctetString sg)] in encode_raw CUniversal FConstructed 16 d) in Ee'.
    apply bind_ok in Ee'. destruct Ee' as (dl & El & Er). change (encode_list [item_of (VOctetString k); item_of (VOctetString sg)]) with
      (let? a := encode_raw CUniversal FPrimitive 4 k in let? b := (let? a := encode_raw CUniversal FPrimitive 4 sg in let? b := Ok [] in Ok (a ++ b)) in Ok (a ++ b)) in El.
    apply bind_ok in El. destruct El as (ka & Ka & El). apply bind_ok in El. destruct El as (sb & Sb & El). apply bind_ok in Sb. destruct Sb as (sa & Sa & Sb). cbn [bind] in Sb.
    assert (sb = sa) as -> by (rewrite app_nil_r in Sb; congruence). assert (dl = ka ++ sa) as -> by congruence.
    destruct (encode_raw_bytes _ _ 4 _ _ ltac:(lia) K0 Ka) as (B1 & L1). destruct (encode_raw_bytes _ _ 4 _ _ ltac:(lia) (Sh _) Sa) as (B2 & L2).
    destruct (encode_raw_bytes _ _ 16 _ _ ltac:(lia) (proj2 (bytes_ok_app _ _) (conj B1 B2)) Er) as (B3 & L3). rewrite app_length in L3.
    split; [exact K0|]. split; [lia|]. split; [exact B3|]. split; [exact I|]. split; [split; [exact K0|exact I]|]. split; [split; [exact (Sh _)|exact I]|exact I]. }
  destruct Bk as (K0 & K1 & K2 & K3).
  (* parsing the whole *)
  assert (NO : every node_ok (certificate_to C)).
  { assert (O1 : oid_ok CRYPTO_ED25519) by (repeat constructor). assert (O2 : oid_ok X509_SERIAL_NUMBER) by (repeat constructor). assert (O3 : oid_ok LIBP2P_EXT) by (repeat constructor).
    assert (B1 : bytes_ok [1]) by (repeat constructor). assert (B2 : bytes_ok [2]) by (repeat constructor). assert (U : utf8_valid (ascii_bytes "1") = true) by reflexivity.
    pose proof (Sx t) as St. clear - O1 O2 O3 B1 B2 U U1 U2 Px K2 St. cbn [certificate_to every item_of node_ok tbs_to algorithm_to ed25519 name_to validity_to spki_to key_info bits_to extension_to own_tbs own_name version_to time_to rdn_to map C T
      ce_tbs ce_alg ce_value tb_version tb_serial tb_signature tb_issuer tb_validity tb_subject tb_key tb_extensions al_oid al_params rdn_id rdn_value va_before va_after sp_alg sp_key bs_unused bs_bytes ex_id ex_critical ex_data app sv].
    repeat (exact I || assumption || reflexivity || split). }
  destruct (certificate_bytes C d eq_refl eq_refl Ed NO L) as (c & Rc & Mc).
  (* the bytes *)
  pose proof Ed as Ed'. change (encode_item (certificate_to C)) with (let? d := (let? a := encode_item (tbs_to T) in let? b := encode_list [algorithm_to ed25519; bits_to sv] in Ok (a ++ b)) in encode_raw CUniversal FConstructed 16 d) in Ed'.
  rewrite Et in Ed'. cbn [bind] in Ed'. apply bind_ok in Ed'. destruct Ed' as (dl & Edl & Er). apply bind_ok in Edl. destruct Edl as (rest & _ & Edl). assert (dl = t ++ rest) as -> by congruence. clear Edl.
  rewrite encode_raw_ok in Er by lia.
  exists c, ext, info, (blen (t ++ rest)), t, rest. 
  assert (Al : forall a, algorithm_map erase a = ed25519 -> a = ed25519).
  { intros [o [p|]] H; [discriminate H|]. unfold algorithm_map in H. cbn [al_oid al_params option_map] in H. exact H. }
  pose proof (f_equal (fun c => sp_alg (tb_key (ce_tbs c))) Mc) as M1. apply Al in M1.
  pose proof (f_equal (fun c => sp_key (tb_key (ce_tbs c))) Mc) as M2. change (sp_key (tb_key (ce_tbs c)) = {| bs_unused := 0; bs_bytes := kp_public x509 |}) in M2.
  pose proof (f_equal (fun c => tb_validity (ce_tbs c)) Mc) as M3. change (tb_validity (ce_tbs c) = {| va_before := TGeneralized before; va_after := TGeneralized after |}) in M3.
  pose proof (f_equal (fun c => tb_version (ce_tbs c)) Mc) as M4. change (tb_version (ce_tbs c) = V3) in M4.
  pose proof (f_equal (fun c => tb_signature (ce_tbs c)) Mc) as M5. apply Al in M5.
  pose proof (f_equal ce_alg Mc) as M6. apply Al in M6.
  pose proof (f_equal (fun c => tb_extensions (ce_tbs c)) Mc) as M7.
  change (map (extension_map id) (tb_extensions (ce_tbs c)) = [{| ex_id := LIBP2P_EXT; ex_critical := false; ex_data := ext |}]) in M7.
  assert (Mx : forall l, map (extension_map id) l = l) by (induction l as [|[] l IH]; [reflexivity|]; cbn [map]; rewrite IH; reflexivity). rewrite Mx in M7.
  pose proof (f_equal ce_value Mc) as M8. change (ce_value c = sv) in M8.
  split; [exact Rc|]. split; [destruct (tb_key (ce_tbs c)) as [ka kk]; cbn [sp_alg sp_key] in M1, M2; rewrite M1, M2; reflexivity|].
  split; [exact M3|]. split; [exact M4|]. split; [exact M5|]. split; [exact M6|]. split; [exact M7|]. split; [reflexivity|]. change (id_byte CUniversal FConstructed 16) with 48 in Er.
  assert (Le : blen ext < two32).
  { pose proof (f_equal (fun x => match x with Ok d => length d | _ => 0%nat end) Ed) as X. cbn beta iota in X.
    assert (Lt : (length ext <= length t)%nat) by (exact (tbs_holds_ext x509 ext before after t Et)).
    assert (Ld : (length t <= length d)%nat) by (assert (d = 48 :: encode_length (blen (t ++ rest)) ++ t ++ rest) as -> by congruence; cbn [length]; rewrite !app_length; lia).
    unfold blen in *. lia. }
  split; [|split; [congruence|]; split; [reflexivity|]; split; [exact Et|exact M8]].
  destruct (C46_written_then_read ei ext [] [] Ee K3 Le) as (j & Rj & Ej & _); [rewrite app_nil_r; unfold fits, two32, two64 in *; cbn [app]; lia|].
  exists j, k. rewrite app_nil_r in Rj. change (new_reader ext) with (at_pos [] ext). rewrite Rj. split; [reflexivity|]. split; [exact Ej|].
  apply key_round_trip; [exact Ph|]. change (fits k). unfold fits, blen, two32, two64 in *. lia.
Qed.
Print Assumptions C77_generated_certificate_partial.
(** The extension is meant to be critical; in the bytes produced it never is. *)
Theorem C77_critical_refuted : exists x509 host before after d c,
  generate_certificate x509 host before after = Ok d /\ certificate_from_bytes d = Ok c /\
  (forall e, tb_extensions (own_tbs x509 e before after) = [{| ex_id := LIBP2P_EXT; ex_critical := true; ex_data := e |}]) /\
  map ex_critical (tb_extensions (ce_tbs c)) = [false].
Proof.
  exists {| kp_public := [1; 2]; kp_sign := fun m => firstn 4 m |}, {| kp_public := [3]; kp_sign := fun m => firstn 30 m |}, (ascii_bytes "20210101000000Z"), (ascii_bytes "20310101000000Z").
  eexists. eexists. split; [vm_compute; reflexivity|]. split; [vm_compute; reflexivity|]. split; [intros e; reflexivity|reflexivity].
Qed.
Print Assumptions C77_critical_refuted.
