(** Proofs about the TLS client's handshake. *)
From Verif Require Import Base BaseProofs MplexModel BinaryModel BinaryProofs MessageProofs MessageProofs2 ProtobufProofs Asn1Model X509Model TlsCodesModel TlsTypesModel
  TlsTypesProofs TlsTypesProofs2 TlsRecordModel TlsRecordSpec TlsRecordProofs TlsRecordProps TlsClientModel TlsClientSpec.
Local Open Scope string_scope. Local Open Scope list_scope. Local Open Scope N_scope.
Ltac Zify.zify_post_hook ::= Z.div_mod_to_equations.

(** *** Records *)
Definition adds (d : bytes) (new : list bytes) : Prop := forall d0 l, carries d0 l -> carries (d0 ++ d) (l ++ new).
Lemma adds_nil : adds [] [].
Proof. intros d0 l H. rewrite !app_nil_r. exact H. Qed.
Lemma adds_app d1 n1 d2 n2 : adds d1 n1 -> adds d2 n2 -> adds (d1 ++ d2) (n1 ++ n2).
Proof. intros A B d0 l H. rewrite !app_assoc. apply B, A, H. Qed.
Lemma content_type_ccs t : content_type_from t = CtChangeCipherSpec <-> t = 20.
Proof. apply type_ccs. Qed.
Lemma pop_raw r x r' : pop_record r = (Done (Ok (Some x)), r') ->
  exists t, rr_in r = tr_raw x ++ rr_in r' /\ rr_state r' = rr_state r /\ is_record (tr_raw x) t (tr_fragment x) /\ tr_type x = content_type_from t.
Proof.
  unfold pop_record. destruct (rr_in r) as [|b0 [|v1 [|v0 [|l1 [|l0 rest]]]]] eqn:E; try (destruct (rr_state r); discriminate).
  rewrite of_be2. unfold max_ciphertext. destruct (16640 <? 256 * l1 + l0) eqn:B1; [discriminate|].
  destruct (blen rest <? 256 * l1 + l0) eqn:B2; [destruct (rr_state r); discriminate|]. set (n := N.to_nat (256 * l1 + l0)). intros H.
  assert (x = {| tr_type := content_type_from b0; tr_version := of_be_bytes [v1; v0]; tr_header := [b0; v1; v0; l1; l0]; tr_fragment := firstn n rest;
                 tr_raw := firstn (5 + n) (b0 :: v1 :: v0 :: l1 :: l0 :: rest) |} /\
          r' = {| rr_in := skipn (5 + n) (b0 :: v1 :: v0 :: l1 :: l0 :: rest); rr_state := rr_state r |}) as [-> ->] by (split; congruence).
  exists b0. cbn [tr_raw tr_type tr_fragment rr_in rr_state]. split; [symmetry; apply firstn_skipn|]. split; [reflexivity|]. split; [|reflexivity].
  exists v1, v0, l1, l0. split; [reflexivity|]. assert (length (firstn n rest) = n) by (apply firstn_length_le; unfold blen in B2; lia). unfold blen. lia.
Qed.
Lemma pop_none r r' x : pop_record r = (x, r') -> (forall y, x <> Done (Ok (Some y))) -> rr_in r' = rr_in r.
Proof.
  unfold pop_record. destruct (rr_in r) as [|b0 [|v1 [|v0 [|l1 [|l0 rest]]]]] eqn:E; intros H N0;
    try (assert (r' = r) as -> by congruence; exact E).
  destruct (max_ciphertext <? of_be_bytes [l1; l0]); [assert (r' = r) as -> by congruence; exact E|].
  destruct (blen rest <? of_be_bytes [l1; l0]).
  - destruct (rr_state r); assert (H1 : r' = snd (x, r')) by reflexivity; rewrite <- H in H1; rewrite H1; cbn [snd rr_in]; congruence.
  - exfalso. injection H as <- _. eapply N0. reflexivity.
Qed.
Lemma adds_record raw t f : is_record raw t f -> adds raw (if t =? 20 then [] else [raw]).
Proof.
  intros R d0 l H. destruct (t =? 20) eqn:E.
  - rewrite app_nil_r. apply carries_ccs with f; [exact H|]. apply N.eqb_eq in E. subst t. exact R.
  - apply carries_one with t f; [exact H|exact R|apply N.eqb_neq; exact E].
Qed.
Lemma ignore_raw fuel : forall r x r', pop_ignore_cc fuel r = (x, r') ->
  exists d, rr_in r = d ++ rr_in r' /\
  match x with
  | Done (Ok (Some x)) => exists t, adds d [tr_raw x] /\ is_record (tr_raw x) t (tr_fragment x) /\ tr_type x = content_type_from t /\ t <> 20
  | _ => adds d []
  end.
Proof.
  induction fuel as [|fuel IH]; intros r x r' H.
  - cbn [pop_ignore_cc] in H. assert (x = Done Panic /\ r' = r) as [-> ->] by (split; congruence). exists []. split; [reflexivity|exact adds_nil].
  - cbn [pop_ignore_cc] in H. destruct (pop_record r) as [y r1] eqn:E.
    destruct y as [|[[y|]|e|]].
    + injection H as <- <-. exists []. split; [rewrite (pop_none r r1 _ E ltac:(intros; discriminate)); reflexivity|exact adds_nil].
    + destruct (pop_raw r y r1 E) as (t & E1 & E2 & E3 & E4). pose proof (adds_record _ _ _ E3) as A.
      destruct (tr_type y) eqn:T; try (assert (x = Done (Ok (Some y)) /\ r' = r1) as [-> ->] by (split; congruence); exists (tr_raw y); split; [exact E1|];
        assert (N0 : t <> 20) by (intros ->; discriminate E4); apply N.eqb_neq in N0; rewrite N0 in A; exists t; split; [exact A|]; split; [exact E3|]; split; [rewrite T; exact E4|apply N.eqb_neq; exact N0]).
      symmetry in E4. apply content_type_ccs in E4. subst t. cbn [N.eqb Pos.eqb] in A.
      destruct (IH _ _ _ H) as (d & D1 & D2). exists (tr_raw y ++ d). split; [rewrite E1, D1; apply app_assoc|].
      destruct x as [|[[x|]|e|]]; try (apply (adds_app _ [] _ []); [exact A|exact D2]).
      destruct D2 as (t & X1 & X2). exists t. split; [apply (adds_app _ [] _ [_]); [exact A|exact X1]|exact X2].
    + injection H as <- <-. exists []. split; [rewrite (pop_none r r1 _ E ltac:(intros; discriminate)); reflexivity|exact adds_nil].
    + injection H as <- <-. exists []. split; [rewrite (pop_none r r1 _ E ltac:(intros; discriminate)); reflexivity|exact adds_nil].
    + injection H as <- <-. exists []. split; [rewrite (pop_none r r1 _ E ltac:(intros; discriminate)); reflexivity|exact adds_nil].
Qed.
(** Receiving from the transport. *)
Lemma recv_spec r answers x r' rest : poll_recv r answers = (x, r', rest) ->
  exists pre, answers = pre ++ rest /\ rr_in r' = rr_in r ++ concat (map data_of pre).
Proof.
  unfold poll_recv. destruct answers as [|[|[|b d]|e] t]; intros H.
  - exists []. assert (r' = r /\ rest = []) as [-> ->] by (split; congruence). split; [reflexivity|symmetry; apply app_nil_r].
  - exists [APending]. assert (r' = r /\ rest = t) as [-> ->] by (split; congruence). split; [reflexivity|symmetry; apply app_nil_r].
  - exists [ARead []]. assert (r' = close r /\ rest = t) as [-> ->] by (split; congruence). split; [reflexivity|symmetry; apply app_nil_r].
  - exists [ARead (b :: d)]. assert (r' = append_data r (b :: d) /\ rest = t) as [-> ->] by (split; congruence). split; [reflexivity|]. cbn [map concat data_of]. rewrite app_nil_r. reflexivity.
  - exists [AError e]. assert (rr_in r' = rr_in r /\ rest = t) as [-> ->] by (split; [injection H as _ <- _; reflexivity|congruence]). split; [reflexivity|symmetry; apply app_nil_r].
Qed.
Lemma used_app pre rest : used (pre ++ rest) rest = concat (map data_of pre).
Proof. unfold used. rewrite app_length. replace (length pre + length rest - length rest)%nat with (length pre) by lia. rewrite firstn_app_length. reflexivity. Qed.
(** Flushing. *)
Lemma flush_spec out : forall ws w x out' ws' w' sent, flush_out out ws w = (x, out', ws', w', sent) ->
  out = sent ++ out' /\ (x = Done (Ok tt) -> out' = [] /\ ws' = ws) /\ (x = Wait -> ws' = ws) /\ x <> Done Panic /\ (ws' = ws \/ exists e, ws' = WsError e /\ x = Done (Err e)) /\ (length w' <= length w)%nat.
Proof.
  intros ws w. revert out. induction w as [|[|n|e] t IH]; intros out x out' ws' w' sent H; destruct out as [|b o]; cbn [flush_out] in H;
    try (injection H as <- <- <- <- <-; cbn [app length]; repeat split; try discriminate; auto; fail).
  - destruct (flush_out (skipn n (b :: o)) ws t) as [[[[x1 o1] ws1] t1] s1] eqn:E.
    assert (x = x1 /\ out' = o1 /\ ws' = ws1 /\ w' = t1 /\ sent = firstn n (b :: o) ++ s1) as (-> & -> & -> & -> & ->) by (repeat split; congruence).
    destruct (IH _ _ _ _ _ _ E) as (A & B & C & D & F & G). split; [|split; [exact B|split; [exact C|split; [exact D|split; [exact F|cbn [length]; lia]]]]]. rewrite <- app_assoc, <- A. symmetry. apply firstn_skipn.
  - injection H as <- <- <- <- <-. cbn [app length]. repeat split; try discriminate; auto. right. exists (TIo e). auto.
Qed.

(** *** The key schedule *)
Lemma label_ok P h prk label ctx len out : blen (ascii_bytes "tls13 " ++ ascii_bytes label) < 256 -> blen ctx < 256 -> N.of_nat len < 65536 ->
  hkdf_expand_label P h prk (ascii_bytes label) ctx len = Ok out -> out = expand_label P h prk label ctx len.
Proof.
  intros L1 L2 L3 H. unfold hkdf_expand_label, hkdf_expand in H. destruct (length prk <? byte_len h)%nat; [discriminate H|].
  destruct (255 * byte_len h <? len)%nat; [discriminate H|]. unfold expand_label. rewrite !N.mod_small in H by (change two16 with 65536 || change two8 with 256; lia). congruence.
Qed.
Lemma len_small h : N.of_nat (byte_len h) < 256.
Proof. destruct h; reflexivity. Qed.
Lemma digest_small P h d : sizes_ok P -> blen (digest P h d) < 256.
Proof. intros (A & _). unfold blen. rewrite A. apply len_small. Qed.
Lemma key_ok_of P h a secret label messages : sizes_ok P -> key_ok (traffic_key P h a secret label messages).
Proof.
  intros (_ & _ & A). unfold traffic_key, key_ok. cbn [k_key k_alg k_iv]. unfold expand_label. split; [apply A|]. split; apply A.
Qed.
Lemma key_new_ok P raw h a k : key_new P raw h a = Ok k ->
  k = {| k_raw := raw; k_alg := a; k_key := expand_label P h raw "key" [] (key_len a); k_iv := expand_label P h raw "iv" [] 12 |}.
Proof.
  intros H. unfold key_new in H. apply bind_ok in H. destruct H as (wk & H1 & H). apply bind_ok in H. destruct H as (iv & H2 & H).
  apply label_ok in H1; [|reflexivity|reflexivity|destruct a; reflexivity]. apply label_ok in H2; [|reflexivity|reflexivity|reflexivity]. subst. congruence.
Qed.
Lemma derive_from_ok P c t prk label keys : sizes_ok P -> blen (ascii_bytes label) < 200 -> ts_alg t = c_hash c ->
  derive_from P c t prk (ascii_bytes label) = Ok keys ->
  exists lc ls, ascii_bytes lc = ascii_bytes "c " ++ ascii_bytes label ++ ascii_bytes " traffic" /\ ascii_bytes ls = ascii_bytes "s " ++ ascii_bytes label ++ ascii_bytes " traffic" /\
  (forall lc ls, ascii_bytes lc = ascii_bytes "c " ++ ascii_bytes label ++ ascii_bytes " traffic" -> ascii_bytes ls = ascii_bytes "s " ++ ascii_bytes label ++ ascii_bytes " traffic" ->
   keys = {| t_client := traffic_key P (c_hash c) (c_aead c) prk lc (ts_data t); t_server := traffic_key P (c_hash c) (c_aead c) prk ls (ts_data t) |}).
Proof.
  intros S L T H. exists ("c " ++ label ++ " traffic")%string, ("s " ++ label ++ " traffic")%string.
  assert (AA : forall a b, ascii_bytes (a ++ b)%string = ascii_bytes a ++ ascii_bytes b).
  { intros a b. induction a as [|x a IH]; [reflexivity|]. cbn. f_equal. exact IH. }
  rewrite !AA. split; [reflexivity|]. split; [reflexivity|]. intros lc ls Ec Es.
  unfold derive_from in H. unfold get_hash in H. rewrite T in H. rewrite <- Ec, <- Es in H.
  apply bind_ok in H. destruct H as (cs & H1 & H). apply bind_ok in H. destruct H as (ck & H2 & H).
  apply bind_ok in H. destruct H as (ss & H3 & H). apply bind_ok in H. destruct H as (sk & H4 & H).
  unfold derive_secret in H1, H3. pose proof (len_small (c_hash c)).
  assert (B1 : blen (ascii_bytes "tls13 ") = 6) by reflexivity. assert (B2 : blen (ascii_bytes "c ") = 2) by reflexivity.
  assert (B3 : blen (ascii_bytes "s ") = 2) by reflexivity. assert (B4 : blen (ascii_bytes " traffic") = 8) by reflexivity.
  apply label_ok in H1; [|rewrite Ec, !blen_app; lia|apply digest_small; assumption|lia].
  apply label_ok in H3; [|rewrite Es, !blen_app; lia|apply digest_small; assumption|lia].
  apply key_new_ok in H2, H4. subst cs ss ck sk. unfold traffic_key. congruence.
Qed.
Lemma derived_ok P h prk secret out : sizes_ok P -> get_derived_prk P h prk secret = Ok out -> out = next_secret P h prk secret.
Proof.
  intros S H. unfold get_derived_prk in H. apply bind_ok in H. destruct H as (salt & H1 & H). unfold derive_secret in H1. pose proof (len_small h).
  apply label_ok in H1; [|reflexivity|apply digest_small; assumption|lia]. subst salt. unfold next_secret. congruence.
Qed.
Lemma share_ok l k : x25519_share l = Some k -> exists before x after, l = before ++ x :: after /\ is_share x k /\ Forall (fun y => forall k', ~ is_share y k') before.
Proof.
  induction l as [|x l IH]; intros H; [discriminate H|]. cbn [x25519_share] in H.
  assert (Dec : (exists g q, x = XKeyShareServer {| ks_group := g; ks_key := q |} /\ g = NgX25519 /\ q = k) \/ ((forall k', ~ is_share x k') /\ x25519_share l = Some k)).
  { destruct x as [ | | | | | | | | | | | | | |[g q]| ]; try (right; split; [intros k' B; discriminate B|exact H]).
    cbn [ks_group ks_key] in H. destruct g; try (right; split; [intros k' B; discriminate B|exact H]). left. exists NgX25519, q. split; [reflexivity|]. split; [reflexivity|congruence]. }
  destruct Dec as [(g & q & -> & -> & ->)|[N0 H']].
  - exists [], (XKeyShareServer {| ks_group := NgX25519; ks_key := k |}), l. split; [reflexivity|]. split; [reflexivity|constructor].
  - destruct (IH H') as (b & y & a & -> & Y & F). exists (x :: b), y, a. split; [reflexivity|]. split; [exact Y|constructor; assumption].
Qed.
Lemma suite_ok sh c : ciphers_from sh = Ok c -> suite_of (sh_suite sh) (c_hash c) (c_aead c).
Proof.
  unfold ciphers_from. destruct (sh_suite sh); intros H; try discriminate H; assert (c = c) by reflexivity; injection H as <-; [left|right]; auto.
Qed.
Lemma handshake_encryption_ok P c t sh private prk keys : sizes_ok P -> ts_alg t = c_hash c -> handshake_encryption P c t sh private = Ok (prk, keys) ->
  exists share secret, share_of sh share /\ agree P private share = Some secret /\ prk = handshake_secret P (c_hash c) secret /\
    keys = {| t_client := traffic_key P (c_hash c) (c_aead c) prk "c hs traffic" (ts_data t); t_server := traffic_key P (c_hash c) (c_aead c) prk "s hs traffic" (ts_data t) |}.
Proof.
  intros S T H. unfold handshake_encryption in H. apply bind_ok in H. destruct H as (secret & H1 & H). apply of_option_ok in H1. unfold shared_secret in H1.
  destruct (x25519_share (sh_extensions sh)) as [share|] eqn:X; [|discriminate H1]. apply share_ok in X.
  apply bind_ok in H. destruct H as (prk' & H2 & H). apply map_err_ok in H2. apply (derived_ok P _ _ _ _ S) in H2.
  apply bind_ok in H. destruct H as (keys' & H3 & H). apply map_err_ok in H3.
  destruct (derive_from_ok P c t prk' "hs" keys' S ltac:(reflexivity) T H3) as (_ & _ & _ & _ & K).
  specialize (K "c hs traffic" "s hs traffic" eq_refl eq_refl). exists share, secret. split; [exact X|]. split; [exact H1|].
  assert (prk = prk' /\ keys = keys') as [-> ->] by (split; congruence). split; [exact H2|exact K].
Qed.

(** *** Checks *)
Lemma oid_eqb_eq a : forall b, oid_eqb a b = true -> a = b.
Proof.
  induction a as [|x a IH]; intros [|y b] H; try discriminate H; [reflexivity|]. cbn [oid_eqb] in H. apply andb_true_iff in H. destruct H as [H1 H2].
  apply N.eqb_eq in H1. rewrite H1, (IH b H2). reflexivity.
Qed.
Lemma certificate_alg_ok o a : certificate_alg o = Some a ->
  In (o, a) [([1; 2; 840; 113549; 1; 1; 11], RsaPkcs1 SHA256); ([1; 2; 840; 113549; 1; 1; 12], RsaPkcs1 SHA384);
             ([1; 2; 840; 113549; 1; 1; 13], RsaPkcs1 SHA512); ([1; 2; 840; 10045; 4; 3; 2], EcdsaP256Sha256); ([1; 3; 101; 112], Ed25519Sig)].
Proof.
  unfold certificate_alg, CRYPTO_ED25519. intros H.
  repeat match type of H with (if oid_eqb ?x ?y then _ else _) = _ => let X := fresh "X" in destruct (oid_eqb x y) eqn:X; [apply oid_eqb_eq in X; subst o|] end; try discriminate H;
    injection H as <-; cbn [In]; auto 10.
Qed.
Lemma range_split {A} (l : list A) s e x : get_range l s e = Some x -> exists before after, l = before ++ x ++ after /\ s = length before /\ e = length (before ++ x).
Proof.
  unfold get_range. destruct (s <=? e)%nat eqn:E1; [|discriminate]. destruct (e <=? length l)%nat eqn:E2; [|discriminate]. cbn [andb]. intros H.
  assert (x = firstn (e - s) (skipn s l)) as -> by congruence. apply Nat.leb_le in E1, E2. exists (firstn s l), (skipn (e - s) (skipn s l)). rewrite firstn_skipn, firstn_skipn.
  split; [reflexivity|]. rewrite app_length, !firstn_length, skipn_length. lia.
Qed.
Lemma verify_certificate_ok P ca cert : verify_certificate P ca cert = Ok tt -> issued_by P ca cert.
Proof.
  intros H. unfold verify_certificate, bad_cert in H. apply bind_ok in H. destruct H as (ic & H1 & H). apply map_err_ok in H1.
  apply bind_ok in H. destruct H as (item & H2 & H). apply map_err_ok in H2. apply bind_ok in H. destruct H as (els & H3 & H). apply map_err_ok in H3.
  unfold as_exact_sequence in H3. apply bind_ok in H3. destruct H3 as (l & H3 & H3'). unfold as_sequence in H3. destruct (item_value item) eqn:V; try discriminate H3.
  destruct els as [|a [|b [|c [|]]]]; try (destruct l as [|? [|? [|? [|]]]]; discriminate H3').
  assert (l = [a; b; c]) as -> by (destruct l as [|? [|? [|? [|]]]]; try discriminate H3'; cbn in H3'; congruence).
  cbn [elem nth_error map_err bind] in H. apply bind_ok in H. destruct H as (tb & H4 & H). apply bind_ok in H. destruct H as (g & H5 & H). apply map_err_ok in H5.
  apply bind_ok in H. destruct H as (sg & H6 & H). apply map_err_ok in H6. unfold as_bit_string in H6. destruct (item_value c) eqn:Vc; try discriminate H6.
  destruct (certificate_alg (al_oid g)) as [al|] eqn:G; [|discriminate H]. apply certificate_alg_ok in G. apply bind_ok in H. destruct H as (signed & H7 & H).
  unfold index_range in H7. destruct (get_range cert (item_start a) (item_stop a)) as [x|] eqn:R; [|discriminate H7]. assert (x = signed) as -> by congruence. apply range_split in R.
  destruct (sig_verify P al (bs_bytes (sp_key (tb_key (ce_tbs ic)))) signed (bs_bytes sg)) eqn:SV; [|discriminate H].
  assert (sg = {| bs_unused := unused; bs_bytes := d |}) as -> by congruence. cbn [bs_bytes] in SV.
  exists ic, item, a, b, c, g, al, unused, d, signed. repeat (split; [first [assumption | congruence]|]). exact SV.
Qed.
Lemma rsa_verify_ok P s k input sg : rsa_verify P s k input sg = Ok tt ->
  exists a, In (s, a) [(SsEcdsaSecp256r1Sha256, EcdsaP256Sha256); (SsRsaPssRsaeSha256, RsaPss SHA256);
      (SsRsaPssRsaeSha384, RsaPss SHA384); (SsRsaPssRsaeSha512, RsaPss SHA512); (SsEd25519, Ed25519Sig)] /\ sig_verify P a k input sg = true.
Proof.
  unfold rsa_verify. intros H. destruct (scheme_alg s) as [a|] eqn:A; [|discriminate H]. exists a. destruct (sig_verify P a k input sg) eqn:V; [|discriminate H]. split; [|reflexivity].
  destruct s; try discriminate A; injection A as <-; cbn [In]; auto 10.
Qed.
Lemma verify_finished_ok P h k thash v : verify_finished P h k thash v = Ok tt -> v = hmac P h (expand_label P h (k_raw k) "finished" [] (byte_len h)) thash.
Proof.
  intros H. unfold verify_finished in H. apply bind_ok in H. destruct H as (fk & H1 & H). apply map_err_ok in H1. unfold derive_secret in H1. pose proof (len_small h).
  apply label_ok in H1; [|reflexivity|reflexivity|lia]. apply bind_ok in H. destruct H as (good & H2 & H). apply map_err_ok in H2. unfold hmac_verify in H2.
  destruct (length v =? byte_len h)%nat; [|discriminate H2]. destruct good; [|discriminate H]. assert (bytes_eqb (hmac P h fk thash) v = true) as E by congruence.
  apply bytes_eqb_eq in E. congruence.
Qed.
