(** The TLS parsers do not panic, save for one message. *)
From Verif Require Import Base BaseProofs ProtobufProofs BinaryModel BinarySpec BinaryProofs BinaryProofs2
  Asn1Model Asn1Spec Asn1Proofs Asn1Proofs2 X509Model TlsCodesModel TlsTypesModel TlsTypesSpec TlsTypesProofs TlsTypesProofs2.
Local Open Scope N_scope.
Ltac Zify.zify_post_hook ::= Z.div_mod_to_equations.

(** *** Certificates *)
Lemma exact_elem {A} (l : list item) n k (f : item -> px A) :
  length l = n -> (k < n)%nat -> (forall e, f e <> Panic) -> (let? e := elem l k in f e) <> Panic.
Proof.
  intros L K F. unfold elem. destruct (nth_error l k) eqn:E; [apply F|]. apply nth_error_None in E. lia.
Qed.
Lemma exact_sequence_total {A} i n (f : list item -> px A) :
  (forall l, length l = n -> f l <> Panic) -> (let? l := as_exact_sequence i n in f l) <> Panic.
Proof.
  intros F. unfold as_exact_sequence, as_sequence. destruct (item_value i); try discriminate. cbn [bind].
  destruct (length l =? n)%nat eqn:E; cbn [negb bind]; [apply F; apply Nat.eqb_eq; exact E|discriminate].
Qed.
Lemma exact_set_total {A} i n (f : list item -> px A) :
  (forall l, length l = n -> f l <> Panic) -> (let? l := as_exact_set i n in f l) <> Panic.
Proof.
  intros F. unfold as_exact_set, as_set. destruct (item_value i); try discriminate. cbn [bind].
  destruct (length l =? n)%nat eqn:E; cbn [negb bind]; [apply F; apply Nat.eqb_eq; exact E|discriminate].
Qed.
Lemma as_sequence_np i : as_sequence i <> Panic. Proof. unfold as_sequence. destruct (item_value i); discriminate. Qed.
Lemma as_oid_np i : as_oid i <> Panic. Proof. unfold as_oid. destruct (item_value i); discriminate. Qed.
Lemma as_integer_np i : as_integer i <> Panic. Proof. unfold as_integer. destruct (item_value i); discriminate. Qed.
Lemma as_bit_string_np i : as_bit_string i <> Panic. Proof. unfold as_bit_string. destruct (item_value i); discriminate. Qed.
Lemma as_octet_string_np i : as_octet_string i <> Panic. Proof. unfold as_octet_string. destruct (item_value i); discriminate. Qed.
Lemma next_np s it : next s it <> Panic. Proof. destruct it; discriminate. Qed.
Lemma np_bind {E A B} (x : outcome E A) (k : A -> outcome E B) : x <> Panic -> (forall a, k a <> Panic) -> (let? a := x in k a) <> Panic.
Proof. intros X K. destruct x; cbn [bind]; [apply K|discriminate|congruence]. Qed.
Lemma algorithm_np i : algorithm_from i <> Panic.
Proof.
  unfold algorithm_from. apply np_bind; [apply as_sequence_np|]. intros it. apply np_bind; [apply next_np|]. intros [e it'].
  apply np_bind; [apply as_oid_np|]. intros a. destruct it' as [|? [|? ?]]; discriminate.
Qed.
Lemma version_np i : version_from i <> Panic.
Proof.
  unfold version_from. apply np_bind; [apply as_integer_np|]. intros d. destruct d as [|a [|b d]]; cbn [length Nat.eqb negb]; try discriminate.
  destruct a as [|[p|p|]]; try discriminate. destruct p; discriminate.
Qed.
Lemma rdn_np i : rdn_from i <> Panic.
Proof.
  unfold rdn_from. apply exact_set_total. intros s L. apply (exact_elem s 1); [exact L|lia|]. intros e.
  apply exact_sequence_total. intros l L2. apply (exact_elem l 2); [exact L2|lia|]. intros a.
  apply np_bind; [apply as_oid_np|]. intros id. apply (exact_elem l 2); [exact L2|lia|]. discriminate.
Qed.
Lemma each_np {A} (f : item -> px A) l : (forall i, f i <> Panic) -> each f l <> Panic.
Proof.
  intros F. induction l as [|i l IH]; cbn [each]; [discriminate|]. apply np_bind; [apply F|]. intros a. apply np_bind; [apply IH|]. discriminate.
Qed.
Lemma name_np i : name_from i <> Panic.
Proof. unfold name_from. apply np_bind; [apply as_sequence_np|]. intros l. apply each_np, rdn_np. Qed.
Lemma time_np i : time_from i <> Panic. Proof. unfold time_from. destruct (item_value i); discriminate. Qed.
Lemma validity_np i : validity_from i <> Panic.
Proof.
  unfold validity_from. apply exact_sequence_total. intros l L. apply (exact_elem l 2); [exact L|lia|]. intros a.
  apply np_bind; [apply time_np|]. intros b. apply (exact_elem l 2); [exact L|lia|]. intros c. apply np_bind; [apply time_np|]. discriminate.
Qed.
Lemma spki_np i : spki_from i <> Panic.
Proof.
  unfold spki_from. apply exact_sequence_total. intros l L. apply (exact_elem l 2); [exact L|lia|]. intros a.
  apply np_bind; [apply algorithm_np|]. intros b. apply (exact_elem l 2); [exact L|lia|]. intros c. apply np_bind; [apply as_bit_string_np|]. discriminate.
Qed.
Lemma cert_extension_np i : extension_from i <> Panic.
Proof.
  unfold extension_from. apply np_bind; [apply as_sequence_np|]. intros it. apply np_bind; [apply next_np|]. intros [e it'].
  apply np_bind; [apply as_oid_np|]. intros id. apply np_bind; [apply next_np|]. intros [e2 it2].
  assert (D : (let? d := as_octet_string e2 in Ok {| ex_id := id; ex_critical := false; ex_data := d |}) <> Panic)
    by (apply np_bind; [apply as_octet_string_np|discriminate]).
  destruct (item_value e2); try exact D.
  apply np_bind; [apply next_np|]. intros p. apply np_bind; [apply as_octet_string_np|]. discriminate.
Qed.
Lemma tbs_np i : tbs_from i <> Panic.
Proof.
  unfold tbs_from. apply np_bind; [apply as_sequence_np|]. intros it. apply np_bind; [apply next_np|]. intros [e it1].
  apply np_bind.
  { destruct (item_value e); try discriminate. destruct tag; try discriminate.
    apply np_bind; [apply version_np|]. intros v. apply np_bind; [apply next_np|]. discriminate. }
  intros [v [e1 it2]]. apply np_bind; [apply as_integer_np|]. intros serial.
  apply np_bind; [apply next_np|]. intros [e2 it3]. apply np_bind; [apply algorithm_np|]. intros sg.
  apply np_bind; [apply next_np|]. intros [e3 it4]. apply np_bind; [apply name_np|]. intros issuer.
  apply np_bind; [apply next_np|]. intros [e4 it5]. apply np_bind; [apply validity_np|]. intros va.
  apply np_bind; [apply next_np|]. intros [e5 it6]. apply np_bind; [apply name_np|]. intros subject.
  apply np_bind; [apply next_np|]. intros [e6 it7]. apply np_bind; [apply spki_np|]. intros key.
  apply np_bind.
  { destruct it7 as [|x it7]; [discriminate|]. destruct (item_value x); try discriminate.
    destruct (N.eq_dec tag 3) as [->|T].
    - apply np_bind; [apply as_sequence_np|]. intros l. apply each_np, cert_extension_np.
    - destruct tag as [|[[p|p|]|p|]]; try discriminate. congruence. }
  intros exts. destruct it7 as [|? [|? ?]]; discriminate.
Qed.
Lemma certificate_np i : certificate_from i <> Panic.
Proof.
  unfold certificate_from. apply exact_sequence_total. intros l L. apply (exact_elem l 3); [exact L|lia|]. intros a.
  apply np_bind; [apply tbs_np|]. intros t. apply (exact_elem l 3); [exact L|lia|]. intros b.
  apply np_bind; [apply algorithm_np|]. intros g. apply (exact_elem l 3); [exact L|lia|]. intros c.
  apply np_bind; [destruct (item_value c); discriminate|]. discriminate.
Qed.
Lemma certificate_bytes_np d : bytes_ok d -> certificate_from_bytes d <> Panic.
Proof.
  intros B. unfold certificate_from_bytes. rewrite new_at_pos. unfold read_der. rewrite remaining_at.
  destruct (read_item (S (length d)) (at_pos [] d)) as [x r'] eqn:E.
  destruct (read_item_good (S (length d)) [] d x r' ltac:(lia) B E) as (P & _). cbn [fst].
  destruct x; [apply certificate_np|discriminate|congruence].
Qed.

(** *** Readers of real bytes *)
Definition safe {A} (m : rd A) : Prop := forall pre rest, bytes_ok (pre ++ rest) ->
  exists x s post, m (at_pos pre rest) = (x, at_pos (pre ++ s) post) /\ rest = s ++ post /\ x <> Panic.
Lemma wb_safe {A} (m : rd A) : well_behaved m -> safe m.
Proof. intros W pre rest _. exact (proj1 (wb_at m) W pre rest). Qed.
Lemma safe_bind_if {A B} (m : rd A) (k : A -> rd B) (P : A -> Prop) : safe m ->
  (forall pre rest a r', bytes_ok (pre ++ rest) -> m (at_pos pre rest) = (Ok a, r') -> P a) ->
  (forall a, P a -> safe (k a)) -> safe (rbind m k).
Proof.
  intros M Q K pre rest O. destruct (M pre rest O) as (x & s & post & E & R & NP). unfold rbind. rewrite E.
  destruct x as [a|e|]; [|exists (Err e), s, post; split; [reflexivity|split; [exact R|discriminate]]|congruence].
  destruct (K a (Q pre rest a _ O E) (pre ++ s) post) as (y & s2 & post2 & E2 & R2 & NP2); [rewrite <- app_assoc, <- R; exact O|].
  exists y, (s ++ s2), post2. rewrite E2, app_assoc. split; [reflexivity|]. split; [rewrite R, R2, app_assoc; reflexivity|exact NP2].
Qed.
Lemma safe_bind {A B} (m : rd A) (k : A -> rd B) : safe m -> (forall a, safe (k a)) -> safe (rbind m k).
Proof. intros M K. apply (safe_bind_if m k (fun _ => True)); auto. Qed.
Lemma safe_ret {A} (a : A) : safe (rret a). Proof. apply wb_safe, wb_ret. Qed.
Lemma safe_fail {A} e : safe (@rfail A e). Proof. apply wb_safe, wb_fail. Qed.
Lemma safe_lift {A} (x : outcome berr A) : x <> Panic -> safe (rlift x). Proof. intros P. apply wb_safe, wb_lift, P. Qed.
Lemma safe_take {A} n (f : bytes -> A) : safe (take n f). Proof. apply wb_safe, wb_take. Qed.
Lemma bytes_ok_mid a b c : bytes_ok (a ++ b ++ c) -> bytes_ok b.
Proof. intros H. apply bytes_ok_app in H. destruct H as [_ H]. apply bytes_ok_app in H. apply H. Qed.
(** A reader for a part of the buffer. *)
Lemma safe_nested {A} n (f : reader -> outcome berr A) :
  (forall pre s, bytes_ok (pre ++ s) -> blen s = n -> f (at_pos pre s) <> Panic) -> safe (do inner <- read_nested n; rlift (f inner)).
Proof.
  intros F pre rest O. unfold rbind. destruct (read_nested n (at_pos pre rest)) as [x r'] eqn:E. apply nested_inv in E.
  destruct E as [(e & -> & ->)|(s & post & R & L & -> & ->)].
  - exists (Err e), [], rest. rewrite app_nil_r. split; [reflexivity|split; [reflexivity|discriminate]].
  - exists (f (at_pos pre s)), s, post. split; [reflexivity|]. split; [exact R|]. apply F; [|exact L].
    rewrite R, app_assoc in O. apply bytes_ok_app in O. apply O.
Qed.
Lemma safe_loop {A} (item : rd A) : safe item -> forall fuel pre rest, bytes_ok (pre ++ rest) -> (length rest < fuel)%nat ->
  exists x, list_loop fuel item (at_pos pre rest) = Some x /\ x <> Panic.
Proof.
  intros W. induction fuel as [|fuel IH]; intros pre rest O L; [lia|]. cbn [list_loop]. rewrite remaining_at.
  destruct (0 <? length rest)%nat; [|eexists; split; [reflexivity|discriminate]].
  destruct (W pre rest O) as (x & s & post & -> & -> & P). destruct x as [a|e|]; [|eexists; split; [reflexivity|discriminate]|congruence].
  unfold at_pos at 1 2. cbn [r_off]. destruct (length pre =? length (pre ++ s))%nat eqn:E; [eexists; split; [reflexivity|discriminate]|].
  apply Nat.eqb_neq in E. rewrite !app_length in *.
  destruct (IH (pre ++ s) post) as (x & -> & Px); [rewrite <- app_assoc; exact O|lia|].
  destruct x; eexists; (split; [reflexivity|]); congruence.
Qed.
Lemma safe_list {A} w (item : rd A) : In w [1; 2; 3]%nat -> safe item -> safe (read_list w item).
Proof.
  intros I W. rewrite read_list_num by exact I. apply safe_bind; [apply wb_safe, wb_num|]. intros n. unfold read_fixed_list.
  apply (safe_nested n (fun inner => match list_loop (S (remaining inner)) item inner with Some x => x | None => Panic end)).
  intros pre s O _. rewrite remaining_at. destruct (safe_loop item W (S (length s)) pre s O ltac:(lia)) as (x & -> & P). exact P.
Qed.
Lemma safe_fst {A} (m : rd A) pre s : safe m -> bytes_ok (pre ++ s) -> fst (m (at_pos pre s)) <> Panic.
Proof. intros W O. destruct (W pre s O) as (x & a & b & -> & _ & P). exact P. Qed.

Ltac safe1 := first
  [ apply safe_ret | apply safe_fail | apply safe_take | apply (wb_safe _ wb_remaining_data) | apply (wb_safe _ wb_expect_eof)
  | apply (wb_safe _ (wb_bytes 1)) | apply (wb_safe _ (wb_bytes 2)) | apply (wb_safe _ (wb_bytes 3))
  | apply (safe_list 1); [apply in1|] | apply (safe_list 2); [apply in2|] | apply (safe_list 3); [apply in3'|]
  | apply safe_bind; [|intro] ].
Lemma safe_server_name : safe read_server_name.
Proof.
  unfold read_server_name. apply safe_bind; [apply safe_take|]. intros t. apply safe_bind; [apply safe_take|]. intros n.
  apply safe_bind_if with (P := fun inner => exists pre s, inner = at_pos pre s).
  - apply wb_safe. apply wb_at. intros pre rest. destruct (read_nested n (at_pos pre rest)) as [x r'] eqn:E.
    apply nested_inv in E. destruct E as [(e & -> & ->)|(s & post & -> & L & -> & ->)].
    + exists (Err e), [], rest. rewrite app_nil_r. repeat split; auto; discriminate.
    + exists (Ok (at_pos pre s)), s, post. repeat split; auto; discriminate.
  - intros pre rest a r' _ E. apply nested_inv in E. destruct E as [(e & E & _)|(s & post & _ & _ & E & _)]; [discriminate|].
    injection E as ->. eauto.
  - intros inner (pre & s & ->).
    assert (P : fst (read_fixed n (at_pos pre s)) <> Panic).
    { destruct (proj1 (wb_at _) (wb_fixed n) pre s) as (x & a & b & -> & _ & P). exact P. }
    destruct (t =? 0); (apply safe_bind; [apply safe_lift, P|]); intros d; [destruct (utf8_valid d)|]; safe1.
Qed.
Lemma safe_extension_body ctx t n : safe (extension_body ctx t n).
Proof.
  unfold extension_body.
  repeat match goal with |- context [if ?a =? ?b then _ else _] => destruct (a =? b) end;
    try (destruct ctx); try (destruct (0 <? n)); unfold read_key_share, read_protocol_name, read_distinguished_name, read_named_curve, read_named_group, read_point_format, read_psk_mode, read_signature_scheme; repeat first [apply safe_server_name|safe1].
Qed.
Lemma safe_extension ctx : safe (read_extension ctx).
Proof.
  unfold read_extension. apply safe_bind; [apply safe_take|]. intros t. apply safe_bind; [apply safe_take|]. intros n.
  apply (safe_nested n (fun inner => fst (extension_body ctx t n inner))). intros pre s O _. apply safe_fst; [apply safe_extension_body|exact O].
Qed.
Lemma extension_moves ctx pre rest x r' : read_extension ctx (at_pos pre rest) = (Ok x, r') -> (r_off (at_pos pre rest) < r_off r')%nat.
Proof.
  unfold read_extension, rbind. intros H.
  destruct (read_u16 (at_pos pre rest)) as [y r1] eqn:E1. unfold read_u16 in E1. apply take_inv in E1.
  destruct E1 as [(e & -> & ->)|(s & post & -> & L & -> & ->)]; [discriminate|].
  destruct (read_u16 (at_pos (pre ++ s) post)) as [y r2] eqn:E2. unfold read_u16 in E2. apply take_inv in E2.
  destruct E2 as [(e & -> & ->)|(s2 & post2 & -> & L2 & -> & ->)]; [discriminate|].
  match type of H with context [read_nested ?n ?r] => destruct (read_nested n r) as [y r3] eqn:E3 end. apply nested_inv in E3.
  destruct E3 as [(e & -> & ->)|(s3 & post3 & -> & L3 & -> & ->)]; [discriminate|].
  unfold rlift in H. injection H as _ <-. unfold at_pos. cbn [r_off]. rewrite !app_length. unfold blen in L. lia.
Qed.
Lemma extensions_loop_total ctx fuel pre rest : bytes_ok (pre ++ rest) -> (length rest < fuel)%nat ->
  extensions_loop fuel ctx (at_pos pre rest) <> Panic.
Proof.
  revert pre rest. induction fuel as [|fuel IH]; intros pre rest O L; [lia|]. cbn [extensions_loop]. rewrite remaining_at.
  destruct (0 <? length rest)%nat; [|discriminate].
  destruct (safe_extension ctx pre rest O) as (x & s & post & E & R & P). rewrite E. destruct x as [a|e|]; [|discriminate|congruence].
  apply extension_moves in E. unfold at_pos in E. cbn [r_off] in E. subst rest. rewrite !app_length in *.
  apply np_bind; [|discriminate]. apply IH; [rewrite <- app_assoc; exact O|lia].
Qed.
Lemma safe_extensions ctx : safe (read_extensions ctx).
Proof.
  unfold read_extensions. apply safe_bind; [apply safe_take|]. intros n.
  apply (safe_nested n (fun inner => extensions_loop (S (remaining inner)) ctx inner)).
  intros pre s O _. rewrite remaining_at. apply extensions_loop_total; [exact O|lia].
Qed.
Lemma safe_n_u8 n : safe (read_n_u8 n).
Proof. induction n as [|n IH]; cbn [read_n_u8]; [apply safe_ret|]. apply safe_bind; [apply safe_take|]. intros b. apply safe_bind; [apply IH|]. intros l. apply safe_ret. Qed.
Lemma safe_ext {A} (m m' : rd A) : (forall r, m r = m' r) -> safe m -> safe m'.
Proof. intros E H pre rest O. rewrite <- E. apply H, O. Qed.
Lemma safe_client_hello : safe read_client_hello.
Proof.
  unfold read_client_hello. repeat (apply safe_bind; [first [apply safe_take|apply (wb_safe _ (wb_bytes 1))|apply (safe_list 2); [apply in2|unfold read_cipher_suite; repeat safe1]]|intro]).
  eapply (safe_ext (do compression <- (do inner <- read_nested a3; rlift (fst (read_n_u8 (N.to_nat a3) inner)));
    do exts <- read_extensions InClientHello;
    rret {| ch_version := a; ch_random := a0; ch_session := a1; ch_suites := a2; ch_compression := compression; ch_extensions := exts |}));
    [intros r; rewrite rbind_assoc; reflexivity|]. apply safe_bind.
  - apply (safe_nested a3 (fun inner => fst (read_n_u8 (N.to_nat a3) inner))). intros pre s O _. apply safe_fst; [apply safe_n_u8|exact O].
  - intros c. apply safe_bind; [apply safe_extensions|]. intros x. apply safe_ret.
Qed.
Lemma safe_server_hello : safe read_server_hello.
Proof. unfold read_server_hello, read_cipher_suite. repeat first [apply safe_extensions|safe1]. Qed.
Lemma safe_request : safe read_certificate_request.
Proof. unfold read_certificate_request. repeat first [apply safe_extensions|safe1]. Qed.
Lemma safe_ticket : safe read_session_ticket.
Proof. unfold read_session_ticket. repeat first [apply safe_extensions|safe1]. Qed.
Lemma safe_verify : safe read_certificate_verify.
Proof. unfold read_certificate_verify, read_signature_scheme. repeat safe1. Qed.
Lemma len24_bytes_ok pre rest d r' : bytes_ok (pre ++ rest) -> read_len24_bytes (at_pos pre rest) = (Ok d, r') -> bytes_ok d.
Proof.
  intros O H. unfold read_len24_bytes, rbind in H. destruct (read_u24 (at_pos pre rest)) as [y r1] eqn:E1. unfold read_u24 in E1. apply take_inv in E1.
  destruct E1 as [(e & -> & ->)|(s & post & -> & L & -> & ->)]; [discriminate|]. unfold read_fixed in H. apply take_inv in H.
  destruct H as [(e & E & _)|(s2 & post2 & -> & _ & E & _)]; [discriminate|]. injection E as ->.
  rewrite app_assoc in O. apply bytes_ok_mid in O. exact O.
Qed.
Lemma safe_entry : safe read_certificate_entry.
Proof.
  unfold read_certificate_entry. apply safe_bind_if with (P := bytes_ok).
  - apply (wb_safe _ (wb_bytes 3)).
  - intros pre rest d r' O E. exact (len24_bytes_ok pre rest d r' O E).
  - intros d D. apply safe_bind.
    + apply safe_lift. pose proof (certificate_bytes_np d D). destruct (certificate_from_bytes d); [discriminate|discriminate|congruence].
    + intros c. apply safe_bind; [apply safe_extensions|]. intros x. apply safe_ret.
Qed.
Lemma safe_certificates : safe read_certificates.
Proof.
  unfold read_certificates. apply safe_bind; [apply (wb_safe _ (wb_bytes 1))|]. intros c. apply safe_bind; [apply (safe_list 3); [apply in3'|apply safe_entry]|].
  intros l. apply safe_ret.
Qed.
Lemma safe_body t : t <> 24 -> safe (read_handshake_body t).
Proof.
  intros T. unfold read_handshake_body. apply safe_bind; [apply safe_take|]. intros n.
  repeat match goal with |- context [if ?a =? ?b then _ else _] => destruct (N.eqb_spec a b); [|] end; try contradiction;
    repeat first [apply safe_client_hello|apply safe_server_hello|apply safe_extensions|apply safe_request|apply safe_certificates|apply safe_verify|apply safe_ticket|safe1].
Qed.
