(** Lemmas about TLS records: C55-C57, C62. *)
From Verif Require Import Base BaseProofs MplexModel BinaryProofs BinaryProofs2 MessageProofs MessageProofs2 ProtobufProofs TlsCodesModel TlsTypesModel
  TlsTypesProofs TlsTypesProofs2 TlsRecordModel TlsRecordSpec.
Local Open Scope N_scope.
Ltac Zify.zify_post_hook ::= Z.div_mod_to_equations.

(** *** Records on the wire *)
Lemma be2 x : be_bytes 2 x = [x / 256 mod 256; x mod 256].
Proof. reflexivity. Qed.
Lemma of_be2 a b : of_be_bytes [a; b] = 256 * a + b.
Proof. change [a; b] with ([a] ++ [b]). rewrite of_be_app, !of_be_single. cbn [length]. change (256 ^ N.of_nat 1) with 256. lia. Qed.
Lemma wire_open w more : wire w ++ more = w_type w :: w_version w / 256 mod 256 :: w_version w mod 256 ::
  blen (w_fragment w) / 256 mod 256 :: blen (w_fragment w) mod 256 :: w_fragment w ++ more.
Proof. unfold wire. rewrite !be2, <- !app_assoc. reflexivity. Qed.
Lemma wire_len w : blen (wire w) = 5 + blen (w_fragment w).
Proof. unfold wire. rewrite !blen_app. unfold blen at 1 2 3. rewrite !be_bytes_length. cbn [length]. lia. Qed.
Lemma wire_length w : length (wire w) = (5 + length (w_fragment w))%nat.
Proof. pose proof (wire_len w) as L. unfold blen in L. lia. Qed.
Lemma pop_wire r w more : wire_ok w -> rr_in r = wire w ++ more ->
  pop_record r = (Done (Ok (Some (as_received w))), {| rr_in := more; rr_state := rr_state r |}).
Proof.
  intros [V L] E. unfold pop_record. rewrite E. rewrite wire_open at 1. cbn iota.
  set (n := blen (w_fragment w)) in *.
  assert (En : of_be_bytes [n / 256 mod 256; n mod 256] = n) by (rewrite of_be2; lia). rewrite En.
  assert (Ev : of_be_bytes [w_version w / 256 mod 256; w_version w mod 256] = w_version w) by (rewrite of_be2; lia). rewrite Ev.
  unfold max_ciphertext. destruct (16640 <? n) eqn:B1; [lia|].
  rewrite blen_app. fold n. destruct (n + blen more <? n) eqn:B2; [lia|].
  assert (Nn : N.to_nat n = length (w_fragment w)) by (unfold n, blen; lia). rewrite Nn, <- (wire_length w).
  rewrite !firstn_app_length, skipn_app_length. unfold as_received. rewrite !be2. fold n. reflexivity.
Qed.
(** What a pop gives when no record is complete. *)
Definition no_record (r : record_receiver) : poll (tls (option tls_record)) :=
  match declared (rr_in r) with
  | None => match rr_state r with RActive => Wait | REof => Done (Ok None) | RError e => Done (Err e) end
  | Some n => if 16640 <? n then Done (Err TInvalidPlaintextRecord)
              else match rr_state r with RActive => Wait | REof => Done (Err TInvalidPlaintextRecord) | RError e => Done (Err e) end
  end.
Lemma pop_incomplete r : incomplete (rr_in r) -> fst (pop_record r) = no_record r /\ rr_in (snd (pop_record r)) = rr_in r.
Proof.
  unfold incomplete, no_record, pop_record. destruct (rr_in r) as [|b0 [|b1 [|b2 [|b3 [|b4 rest]]]]] eqn:E; cbn [declared]; cbn iota; intros H;
    try (split; [reflexivity|exact E]).
  rewrite of_be2. unfold max_ciphertext. destruct (16640 <? 256 * b3 + b4) eqn:B1; [split; [reflexivity|exact E]|].
  destruct (blen rest <? 256 * b3 + b4) eqn:B2.
  - cbn [fst snd]. split; [reflexivity|]. destruct (rr_state r); [exact E|reflexivity|exact E].
  - exfalso. rewrite !blen_cons in H. lia.
Qed.
Lemma declared_app a b n : declared a = Some n -> declared (a ++ b) = Some n.
Proof. destruct a as [|b0 [|b1 [|b2 [|b3 [|b4 rest]]]]]; try discriminate. intros H. exact H. Qed.
Lemma incomplete_prefix a b : incomplete (a ++ b) -> incomplete a.
Proof.
  unfold incomplete. destruct (declared a) as [n|] eqn:E; [|intros _; exact I]. rewrite (declared_app a b n E), blen_app. lia.
Qed.
Lemma declared_wire w more : blen (w_fragment w) < 65536 -> declared (wire w ++ more) = Some (blen (w_fragment w)).
Proof. intros L. rewrite wire_open. cbn [declared]. f_equal. set (n := blen (w_fragment w)) in *. clearbody n. lia. Qed.
Lemma prefix_cases (a b c d : bytes) : a ++ b = c ++ d -> (exists x, a = c ++ x /\ d = x ++ b) \/ (exists x, c = a ++ x /\ x <> []).
Proof.
  revert c. induction a as [|h a IH]; intros [|h' c] E.
  - left. exists []. split; [reflexivity|]. symmetry; exact E.
  - right. exists (h' :: c). split; [reflexivity|discriminate].
  - left. exists (h :: a). split; [reflexivity|]. symmetry. exact E.
  - cbn [app] in E. assert (h = h') as -> by congruence. assert (E' : a ++ b = c ++ d) by congruence.
    destruct (IH c E') as [(x & -> & ->)|(x & -> & X)]; [left|right]; exists x; (split; [reflexivity|]); [reflexivity|exact X].
Qed.
Lemma wire_prefix_incomplete a x w : wire_ok w -> wire w = a ++ x -> x <> [] -> incomplete a.
Proof.
  intros [V L] E X. unfold incomplete. destruct (declared a) as [n|] eqn:D; [|exact I]. right.
  pose proof (declared_app a x n D) as D'. rewrite <- E, <- (app_nil_r (wire w)) in D'. rewrite (declared_wire w [] ltac:(lia)) in D'.
  assert (n = blen (w_fragment w)) as -> by congruence. rewrite <- (wire_len w), E, blen_app. destruct x; [contradiction|]. rewrite blen_cons. lia.
Qed.
Lemma pop_step r more ws rest : rr_in r ++ more = concat (map wire ws) ++ rest -> Forall wire_ok ws -> incomplete rest ->
  (exists w ws' b, ws = w :: ws' /\ rr_in r = wire w ++ b /\ b ++ more = concat (map wire ws') ++ rest) \/ incomplete (rr_in r).
Proof.
  intros E O I. destruct ws as [|w ws'].
  - right. cbn [map concat app] in E. apply (incomplete_prefix _ more). rewrite E. exact I.
  - cbn [map concat] in E. rewrite <- app_assoc in E. inversion O as [|? ? O1 O2]; subst. destruct (prefix_cases _ _ _ _ E) as [(x & X1 & X2)|(x & X1 & X2)].
    + left. exists w, ws', x. split; [reflexivity|]. split; [exact X1|]. symmetry. exact X2.
    + right. exact (wire_prefix_incomplete _ x w O1 X1 X2).
Qed.
Lemma rstate_pop r : rr_in (snd (pop_record r)) = rr_in r \/ exists x, fst (pop_record r) = Done (Ok (Some x)).
Proof.
  unfold pop_record. destruct (rr_in r) as [|b0 [|b1 [|b2 [|b3 [|b4 rest]]]]] eqn:E; cbn iota; try (left; exact E).
  destruct (max_ciphertext <? of_be_bytes [b3; b4]); [left; exact E|].
  destruct (blen rest <? of_be_bytes [b3; b4]); [left; cbn [snd]; destruct (rr_state r); [exact E|reflexivity|exact E]|]. right. eexists. reflexivity.
Qed.
Lemma no_record_not_record r x : no_record r <> Done (Ok (Some x)).
Proof. unfold no_record. destruct (declared (rr_in r)) as [n|]; [destruct (16640 <? n)|]; destruct (rr_state r); discriminate. Qed.
Lemma not_record_popped x : (forall t, x <> Done (Ok (Some t))) -> popped [x] = [].
Proof. intros H. unfold popped. cbn [flat_map app]. destruct x as [|[[t|]| |]]; try reflexivity. exfalso. exact (H t eq_refl). Qed.
Lemma popped_app a b : popped (a ++ b) = popped a ++ popped b.
Proof. apply flat_map_app. Qed.
Lemma run_records os : forall r ws rest, rr_in r ++ fed os = concat (map wire ws) ++ rest -> Forall wire_ok ws -> incomplete rest ->
  exists k, (k <= length ws)%nat /\ popped (fst (rrun r os)) = map as_received (firstn k ws) /\
            rr_in (snd (rrun r os)) = concat (map wire (skipn k ws)) ++ rest.
Proof.
  induction os as [|o os IH]; intros r ws rest E O I; cbn [rrun].
  - exists 0%nat. cbn [fed flat_map] in E. rewrite app_nil_r in E. split; [lia|]. split; [reflexivity|exact E].
  - destruct o as [d| |]; cbn [rstep].
    + destruct (IH (append_data r d) ws rest) as (k & K1 & K2 & K3); [unfold append_data; cbn [rr_in]; rewrite <- app_assoc; exact E|exact O|exact I|].
      destruct (rrun (append_data r d) os) as [y r']. exists k. auto.
    + destruct (IH (close r) ws rest) as (k & K1 & K2 & K3); [exact E|exact O|exact I|].
      destruct (rrun (close r) os) as [y r']. exists k. auto.
    + change (rr_in r ++ fed os = concat (map wire ws) ++ rest) in E.
      destruct (pop_step r _ ws rest E O I) as [(w & ws' & b & -> & B1 & B2)|B].
      * inversion O as [|? ? O1 O2]; subst. rewrite (pop_wire r w b O1 B1).
        destruct (IH {| rr_in := b; rr_state := rr_state r |} ws' rest B2 O2 I) as (k & K1 & K2 & K3).
        destruct (rrun {| rr_in := b; rr_state := rr_state r |} os) as [y r']. exists (S k). cbn [length firstn skipn map fst snd] in *.
        split; [lia|]. split; [|exact K3]. rewrite popped_app, K2. reflexivity.
      * destruct (pop_incomplete r B) as [P1 P2]. destruct (pop_record r) as [x r1]. cbn [fst snd] in P1, P2.
        destruct (IH r1 ws rest) as (k & K1 & K2 & K3); [rewrite P2; exact E|exact O|exact I|].
        destruct (rrun r1 os) as [y r']. exists k. cbn [fst snd] in *. split; [exact K1|]. split; [|exact K3].
        rewrite popped_app, K2, not_record_popped; [reflexivity|]. intros t. rewrite P1. apply no_record_not_record.
Qed.
Lemma rrun_app os os' : forall r, rrun r (os ++ os') = let (x, r1) := rrun r os in let (y, r2) := rrun r1 os' in (x ++ y, r2).
Proof.
  induction os as [|o os IH]; intros r; cbn [app rrun]; [destruct (rrun r os'); reflexivity|].
  destruct (rstep r o) as [x r1]. rewrite IH. destruct (rrun r1 os) as [y r2]. destruct (rrun r2 os') as [z r3]. rewrite app_assoc. reflexivity.
Qed.

(** *** Skipping ChangeCipherSpec *)
Definition is_ccs (w : wire_record) : bool := w_type w =? 20.
Lemma type_ccs t : content_type_from t = CtChangeCipherSpec <-> t = 20.
Proof.
  unfold content_type_from. split; [|intros ->; reflexivity].
  repeat match goal with |- context [if ?c then _ else _] => destruct c eqn:? end; intros H; try discriminate H. lia.
Qed.
Lemma pop_skips_ccs ws rest s : Forall wire_ok ws -> incomplete rest -> forall fuel, (length ws < fuel)%nat ->
  match find (fun w => negb (is_ccs w)) ws with
  | Some w => exists before after, ws = before ++ w :: after /\ Forall (fun w => w_type w = 20) before /\
      pop_ignore_cc fuel {| rr_in := concat (map wire ws) ++ rest; rr_state := s |} =
      (Done (Ok (Some (as_received w))), {| rr_in := concat (map wire after) ++ rest; rr_state := s |})
  | None => let r := {| rr_in := rest; rr_state := s |} in
      pop_ignore_cc fuel {| rr_in := concat (map wire ws) ++ rest; rr_state := s |} = pop_record r
  end.
Proof.
  intros O I. induction ws as [|w ws IH]; intros fuel F; destruct fuel as [|fuel]; try (exfalso; lia).
  - cbn [find map concat app pop_ignore_cc].
    destruct (pop_incomplete {| rr_in := rest; rr_state := s |} I) as [P1 P2]. destruct (pop_record {| rr_in := rest; rr_state := s |}) as [x r1]. cbn [fst] in P1.
    rewrite P1. destruct (no_record {| rr_in := rest; rr_state := s |}) as [|[[t|]| |]] eqn:E; try reflexivity. exfalso. exact (no_record_not_record _ t E).
  - inversion O as [|? ? O1 O2]; subst. cbn [length] in F. specialize (IH O2 fuel ltac:(lia)).
    cbn [find map concat]. rewrite <- app_assoc. cbn [pop_ignore_cc].
    rewrite (pop_wire {| rr_in := wire w ++ concat (map wire ws) ++ rest; rr_state := s |} w (concat (map wire ws) ++ rest) O1 eq_refl). cbn [rr_state].
    change (tr_type (as_received w)) with (content_type_from (w_type w)).
    destruct (is_ccs w) eqn:C; unfold is_ccs in C; cbn [negb].
    + assert (T : w_type w = 20) by lia. rewrite (proj2 (type_ccs _) T).
      destruct (find (fun w => negb (is_ccs w)) ws) as [w'|].
      * destruct IH as (before & after & -> & B & IH). exists (w :: before), after. split; [reflexivity|]. split; [constructor; [exact T|exact B]|exact IH].
      * exact IH.
    + exists [], ws. split; [reflexivity|]. split; [constructor|].
      destruct (content_type_from (w_type w)) eqn:T; try reflexivity. apply type_ccs in T. lia.
Qed.
(** It never runs out of fuel. *)
Lemma pop_shorter r x r' : pop_record r = (Done (Ok (Some x)), r') -> (length (rr_in r') + 5 <= length (rr_in r))%nat.
Proof.
  unfold pop_record. destruct (rr_in r) as [|b0 [|b1 [|b2 [|b3 [|b4 rest]]]]]; cbn iota; try (intros H; destruct (rr_state r); discriminate H).
  destruct (max_ciphertext <? of_be_bytes [b3; b4]); [discriminate|].
  destruct (blen rest <? of_be_bytes [b3; b4]); [intros H; exfalso; destruct (rr_state r); discriminate H|].
  set (n := N.to_nat (of_be_bytes [b3; b4])). intros H. assert (r' = {| rr_in := skipn (5 + n) (b0 :: b1 :: b2 :: b3 :: b4 :: rest); rr_state := rr_state r |}) as -> by congruence.
  cbn [rr_in]. rewrite skipn_length. cbn [length]. lia.
Qed.
Lemma pop_not_panic r : fst (pop_record r) <> Done Panic.
Proof.
  unfold pop_record. destruct (rr_in r) as [|b0 [|b1 [|b2 [|b3 [|b4 rest]]]]]; cbn iota; try (destruct (rr_state r); discriminate).
  destruct (max_ciphertext <? of_be_bytes [b3; b4]); [discriminate|].
  destruct (blen rest <? of_be_bytes [b3; b4]); [destruct (rr_state r); discriminate|discriminate].
Qed.
Lemma ignore_cc_not_panic fuel : forall r, (length (rr_in r) < fuel)%nat -> fst (pop_ignore_cc fuel r) <> Done Panic.
Proof.
  induction fuel as [|fuel IH]; intros r L; [lia|]. cbn [pop_ignore_cc]. pose proof (pop_not_panic r) as N0. pose proof (pop_shorter r) as S0.
  destruct (pop_record r) as [[|[[x|]|e|]] r'] eqn:E; try exact N0. specialize (S0 x r' eq_refl).
  destruct (tr_type x); try discriminate. apply IH. lia.
Qed.

(** *** Nonces *)
Lemma lxor_byte x y : x < 256 -> y < 256 -> N.lxor x y < 256.
Proof.
  intros X Y. change 256 with (2 ^ 8) in *. destruct (N.eq_dec (N.lxor x y) 0) as [->|Nz]; [reflexivity|].
  apply N.log2_lt_pow2; [lia|]. eapply N.le_lt_trans; [apply N.log2_lxor|].
  apply N.max_lub_lt; [destruct (N.eq_dec x 0) as [->|]; [reflexivity|apply N.log2_lt_pow2; lia]|destruct (N.eq_dec y 0) as [->|]; [reflexivity|apply N.log2_lt_pow2; lia]].
Qed.
Lemma of_le_xor a : forall b, bytes_ok a -> bytes_ok b -> length a = length b ->
  of_le_bytes (xor_bytes a b) = N.lxor (of_le_bytes a) (of_le_bytes b).
Proof.
  induction a as [|x a IH]; intros [|y b] A B L; try discriminate L; [reflexivity|].
  inversion A as [|? ? A1 A2]; inversion B as [|? ? B1 B2]; subst. cbn [xor_bytes of_le_bytes]. rewrite IH by (auto; cbn [length] in L; lia).
  set (u := of_le_bytes a). set (v := of_le_bytes b). clearbody u v.
  assert (D : forall s t, s < 256 -> s + 256 * t = N.lor s (N.shiftl t 8)).
  { intros s t S0. rewrite lor_disjoint by exact S0. change (2 ^ 8) with 256. lia. }
  assert (X : N.lxor x y < 256) by (apply lxor_byte; assumption).
  rewrite !D by assumption. apply N.bits_inj. intros i. rewrite !N.lor_spec, !N.lxor_spec, !N.lor_spec.
  destruct (N.lt_ge_cases i 8) as [Li|Li].
  - rewrite !N.shiftl_spec_low by exact Li. rewrite !orb_false_r. reflexivity.
  - assert (H : forall s, s < 256 -> N.testbit s i = false).
    { intros s S0. destruct (N.eq_dec s 0) as [->|Nz]; [apply N.bits_0|]. apply N.bits_above_log2. apply N.lt_le_trans with 8; [|exact Li]. apply (proj1 (N.log2_lt_pow2 s 8 ltac:(lia))). exact S0. }
    rewrite (H x A1), (H y B1). cbn [xorb orb]. rewrite !N.shiftl_spec_high by lia. rewrite N.lxor_spec. reflexivity.
Qed.
Lemma xor_app a c : forall b d, length a = length b -> xor_bytes (a ++ c) (b ++ d) = xor_bytes a b ++ xor_bytes c d.
Proof. induction a as [|x a IH]; intros [|y b] d L; try discriminate L; [reflexivity|]. cbn [app xor_bytes]. rewrite IH by (cbn [length] in L; lia). reflexivity. Qed.
Lemma xor_rev a : forall b, length a = length b -> xor_bytes (rev a) (rev b) = rev (xor_bytes a b).
Proof.
  induction a as [|x a IH]; intros [|y b] L; try discriminate L; [reflexivity|]. cbn [rev xor_bytes]. cbn [length] in L.
  rewrite xor_app by (rewrite !rev_length; lia). rewrite IH by lia. reflexivity.
Qed.
Lemma of_be_xor a b : bytes_ok a -> bytes_ok b -> length a = length b -> of_be_bytes (xor_bytes a b) = N.lxor (of_be_bytes a) (of_be_bytes b).
Proof.
  intros A B L. unfold of_be_bytes. rewrite <- xor_rev by exact L. apply of_le_xor; [apply bytes_ok_rev, A|apply bytes_ok_rev, B|rewrite !rev_length; exact L].
Qed.
Lemma xor_length a : forall b, length a = length b -> length (xor_bytes a b) = length a.
Proof. induction a as [|x a IH]; intros [|y b] L; try discriminate L; [reflexivity|]. cbn [xor_bytes length] in *. rewrite IH by lia. reflexivity. Qed.
Lemma xor_ok a : forall b, bytes_ok a -> bytes_ok b -> bytes_ok (xor_bytes a b).
Proof.
  induction a as [|x a IH]; intros [|y b] A B; try constructor; inversion A; inversion B; subst; [apply lxor_byte; assumption|apply IH; assumption].
Qed.
Lemma seq_bytes seq : seq < two64 -> bytes_ok (zeros 4 ++ be_bytes 8 seq) /\ length (zeros 4 ++ be_bytes 8 seq) = 12%nat /\ of_be_bytes (zeros 4 ++ be_bytes 8 seq) = seq.
Proof.
  intros L. split; [apply bytes_ok_app; split; [repeat constructor; reflexivity|apply be_bytes_ok]|]. split; [rewrite app_length, be_bytes_length; reflexivity|].
  change (zeros 4) with [0; 0; 0; 0]. cbn [app]. rewrite !of_be_zero. apply of_be_be_bytes. exact L.
Qed.
Lemma nonce_rfc iv seq : length iv = 12%nat -> bytes_ok iv -> seq < two64 -> make_nonce iv seq = rfc_nonce iv seq.
Proof.
  intros L B S. destruct (seq_bytes seq S) as (Q1 & Q2 & Q3). unfold make_nonce, rfc_nonce.
  rewrite <- (be_of_be_bytes (xor_bytes (zeros 4 ++ be_bytes 8 seq) iv)) by (apply xor_ok; assumption).
  rewrite of_be_xor by (auto; lia). rewrite xor_length by lia. rewrite Q2, Q3, L, N.lxor_comm. reflexivity.
Qed.
Lemma nonce_length iv seq : length iv = 12%nat -> length (make_nonce iv seq) = 12%nat.
Proof. intros L. unfold make_nonce. rewrite xor_length; rewrite app_length, be_bytes_length; [reflexivity|]. cbn. lia. Qed.
Lemma nonce_injective iv s1 s2 : length iv = 12%nat -> bytes_ok iv -> s1 < two64 -> s2 < two64 -> make_nonce iv s1 = make_nonce iv s2 -> s1 = s2.
Proof.
  intros L B S1 S2 E. destruct (seq_bytes s1 S1) as (P1 & P2 & P3). destruct (seq_bytes s2 S2) as (Q1 & Q2 & Q3).
  assert (X : of_be_bytes (make_nonce iv s1) = of_be_bytes (make_nonce iv s2)) by (rewrite E; reflexivity).
  unfold make_nonce in X. rewrite !of_be_xor in X by (auto; lia). rewrite P3, Q3 in X.
  assert (Y : N.lxor (N.lxor s1 (of_be_bytes iv)) (of_be_bytes iv) = N.lxor (N.lxor s2 (of_be_bytes iv)) (of_be_bytes iv)) by (rewrite X; reflexivity).
  rewrite !N.lxor_assoc, N.lxor_nilpotent, !N.lxor_0_r in Y. exact Y.
Qed.

(** *** Protection *)
Lemma encrypt_traffic_protect P k seq inner : aead_ok P -> key_ok k -> seq < two64 -> blen inner + 16 < 65536 ->
  encrypt_traffic P k seq inner = match seal P (k_alg k) (k_key k) (rfc_nonce (k_iv k) seq) ([23; 3; 3] ++ be_bytes 2 (blen inner + 16)) inner with
                                  | Some c => Ok c | None => Err TEncryptionFailed end.
Proof.
  intros A (K1 & K2 & K3) S L. unfold encrypt_traffic, encrypt_in_place. rewrite K1, Nat.eqb_refl. cbn [negb].
  rewrite (nonce_length _ _ K2). change (nonce_len (k_alg k)) with 12%nat. cbn [Nat.eqb negb]. rewrite (nonce_rfc _ _ K2 K3 S).
  assert (E : [23; 3; 3; N.shiftr (N.of_nat (length inner + tag_len (k_alg k))) 8 mod two8; N.of_nat (length inner + tag_len (k_alg k)) mod two8] =
              [23; 3; 3] ++ be_bytes 2 (blen inner + 16)).
  { rewrite be2. cbn [app]. assert (N.of_nat (length inner + tag_len (k_alg k)) = blen inner + 16) as -> by (unfold tag_len, blen; lia).
    rewrite shiftr_pow. change two8 with 256. change (2 ^ 8) with 256. reflexivity. }
  rewrite E. destruct (seal P (k_alg k) (k_key k) (rfc_nonce (k_iv k) seq) ([23; 3; 3] ++ be_bytes 2 (blen inner + 16)) inner); reflexivity.
Qed.
Lemma protect_length P k seq inner raw : aead_ok P -> key_ok k -> protect P k seq inner = Some raw ->
  exists c, raw = ([23; 3; 3] ++ be_bytes 2 (blen inner + 16)) ++ c /\ blen c = blen inner + 16 /\
            unseal P (k_alg k) (k_key k) (rfc_nonce (k_iv k) seq) ([23; 3; 3] ++ be_bytes 2 (blen inner + 16)) c = Some inner.
Proof.
  intros A (K1 & K2 & K3) H. unfold protect in H.
  destruct (seal P (k_alg k) (k_key k) (rfc_nonce (k_iv k) seq) ([23; 3; 3] ++ be_bytes 2 (blen inner + 16)) inner) as [c|] eqn:E; [|discriminate H].
  exists c. destruct (A _ _ _ _ _ _ K1 ltac:(unfold rfc_nonce; rewrite be_bytes_length; exact K2) E) as [A1 A2]. split; [congruence|]. split; [exact A2|exact A1].
Qed.
Lemma protect_wire P k seq inner raw : aead_ok P -> key_ok k -> blen inner + 16 <= 16640 -> protect P k seq inner = Some raw ->
  exists c, blen c = blen inner + 16 /\ raw = wire {| w_type := 23; w_version := 771; w_fragment := c |}.
Proof.
  intros A K L H. destruct (protect_length P k seq inner raw A K H) as (c & -> & Lc & _). exists c. split; [exact Lc|].
  unfold wire. cbn [w_type w_version w_fragment]. rewrite Lc. rewrite <- app_assoc. reflexivity.
Qed.
Lemma raw_ok hd c : length hd = 3%nat -> blen c <= 16640 -> ciphertext_from_raw (hd ++ be_bytes 2 (blen c) ++ c) = Some (c, (5 + length c)%nat).
Proof.
  destruct hd as [|a [|b [|d [|]]]]; try discriminate. intros _ L. rewrite be2. cbn [app ciphertext_from_raw]. rewrite of_be2.
  assert (256 * (blen c / 256 mod 256) + blen c mod 256 = blen c) as -> by (set (n := blen c) in *; clearbody n; lia).
  unfold max_ciphertext. destruct (16640 <? blen c) eqn:E1; [lia|]. destruct (blen c <? blen c) eqn:E2; [lia|].
  assert (N.to_nat (blen c) = length c) as -> by (unfold blen; lia). rewrite firstn_all. reflexivity.
Qed.
Lemma decrypt_protected P k seq inner raw : aead_ok P -> key_ok k -> seq < two64 -> blen inner + 16 <= 16640 ->
  protect P k seq inner = Some raw -> decrypt_traffic P k seq raw = Ok inner.
Proof.
  intros A K S L H. destruct (protect_length P k seq inner raw A K H) as (c & -> & Lc & U). destruct K as (K1 & K2 & K3).
  unfold decrypt_traffic. rewrite <- app_assoc. assert (Eb : blen inner + 16 = blen c) by lia. rewrite Eb in *. rewrite raw_ok by (reflexivity || lia).
  assert (E5 : Nat.eqb (5 + length c)%nat (length ([23; 3; 3] ++ be_bytes 2 (blen c) ++ c)) = true).
  { rewrite !app_length, be_bytes_length. cbn [length]. apply Nat.eqb_eq. lia. } rewrite E5. cbn [negb].
  unfold decrypt_in_place. rewrite K1, Nat.eqb_refl. cbn [negb]. rewrite (nonce_length _ _ K2). change (nonce_len (k_alg k)) with 12%nat. cbn [Nat.eqb negb].
  rewrite (nonce_rfc _ _ K2 K3 S). assert (E : firstn 5 ([23; 3; 3] ++ be_bytes 2 (blen c) ++ c) = [23; 3; 3] ++ be_bytes 2 (blen c)) by (rewrite be2; reflexivity).
  rewrite E, U. reflexivity.
Qed.
Lemma drop_zeros_repeat n l : drop_zeros (repeat 0 n ++ l) = drop_zeros l.
Proof. induction n as [|n IH]; [reflexivity|exact IH]. Qed.
Lemma rev_repeat {A} (a : A) n : rev (repeat a n) = repeat a n.
Proof.
  induction n as [|n IH]; [reflexivity|]. cbn [repeat rev]. rewrite IH. symmetry. change (a :: repeat a n) with (repeat a (S n)).
  rewrite <- repeat_cons. reflexivity.
Qed.
Lemma strip_inner content t pad : t <> 0 -> drop_zeros (rev (inner_plaintext content t pad)) = t :: rev content.
Proof.
  intros T. unfold inner_plaintext. rewrite !rev_app_distr, rev_repeat, <- app_assoc, drop_zeros_repeat. cbn [rev app]. destruct t; [contradiction|reflexivity].
Qed.
Lemma drop_zeros_form l : exists n, l = repeat 0 n ++ drop_zeros l /\ match drop_zeros l with 0 :: _ => False | _ => True end.
Proof.
  induction l as [|b l (n & E & N0)]; [exists 0%nat; split; [reflexivity|exact I]|]. destruct b as [|p]; [|exists 0%nat; split; [reflexivity|exact I]].
  exists (S n). cbn [drop_zeros repeat app]. rewrite <- E. split; [reflexivity|exact N0].
Qed.
