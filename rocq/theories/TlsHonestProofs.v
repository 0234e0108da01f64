(** Proofs for C113: the client's handshake with an authentic server.  Records that arrive in
    pieces, and the messages inside. *)
From Verif Require Import Base BaseProofs MplexModel BinaryModel BinaryProofs MessageProofs MessageProofs2 ProtobufProofs Asn1Model X509Model TlsCodesModel TlsTypesModel
  TlsTypesSpec TlsTypesProofs TlsTypesProofs2 TlsTypesProofs3 TlsRecordModel TlsRecordSpec TlsRecordProofs TlsRecordProps TlsClientModel TlsClientSpec TlsClientProofs TlsClientProofs2 TlsClientProofs3 TlsClientProofs5.
Local Open Scope string_scope. Local Open Scope list_scope. Local Open Scope N_scope.
Ltac Zify.zify_post_hook ::= Z.div_mod_to_equations.

(** *** A sequence of records *)
Record rec := { rc_raw : bytes; rc_type : N; rc_frag : bytes }.
Definition is_rec (x : rec) : Prop := is_record (rc_raw x) (rc_type x) (rc_frag x).
Definition bytes_of (rs : list rec) : bytes := concat (map rc_raw rs).
Definition real (rs : list rec) : list bytes := map rc_raw (filter (fun x => negb (rc_type x =? 20)) rs).
Lemma carries_list d l : carries d l -> exists rs, d = bytes_of rs /\ l = real rs /\ Forall is_rec rs.
Proof.
  induction 1 as [|d l raw f C (rs & -> & -> & F) R|d l raw t f C (rs & -> & -> & F) R N0].
  - exists []. repeat constructor.
  - exists (rs ++ [{| rc_raw := raw; rc_type := 20; rc_frag := f |}]). unfold bytes_of, real. rewrite map_app, concat_app, filter_app, map_app. cbn.
    rewrite !app_nil_r. split; [reflexivity|]. split; [reflexivity|]. apply Forall_app. split; [exact F|]. repeat constructor. exact R.
  - exists (rs ++ [{| rc_raw := raw; rc_type := t; rc_frag := f |}]). unfold bytes_of, real. rewrite map_app, concat_app, filter_app, map_app. cbn [map filter rc_type concat rc_raw].
    destruct (t =? 20) eqn:E; [apply N.eqb_eq in E; contradiction|]. cbn [negb map rc_raw]. rewrite !app_nil_r. split; [reflexivity|]. split; [reflexivity|].
    apply Forall_app. split; [exact F|]. repeat constructor. exact R.
Qed.
Lemma list_carries rs : Forall is_rec rs -> carries (bytes_of rs) (real rs).
Proof.
  induction rs as [|x rs IH] using rev_ind; intros F; [constructor|]. apply Forall_app in F. destruct F as [F Fx]. inversion Fx as [|? ? R _]; subst. specialize (IH F).
  unfold bytes_of, real. rewrite map_app, concat_app, filter_app, map_app. cbn [map filter concat]. rewrite !app_nil_r. fold (bytes_of rs) (real rs).
  destruct (rc_type x =? 20) eqn:E; cbn [negb map].
  - rewrite app_nil_r. apply carries_ccs with (rc_frag x); [exact IH|]. apply N.eqb_eq in E. unfold is_rec in R. rewrite E in R. exact R.
  - apply carries_one with (rc_type x) (rc_frag x); [exact IH|exact R|apply N.eqb_neq; exact E].
Qed.
Lemma is_rec_long x : is_rec x -> (5 <= length (rc_raw x))%nat.
Proof. intros (v1 & v0 & l1 & l0 & E & _). rewrite E. cbn. lia. Qed.

Lemma app_cases {A} (a b c d : list A) : a ++ b = c ++ d -> (length a < length c)%nat \/ exists m, a = c ++ m /\ m ++ b = d.
Proof.
  revert c. induction a as [|x a IH]; intros c H.
  - destruct c as [|y c]; [right; exists []; auto|left; cbn; lia].
  - destruct c as [|y c]; [right; exists (x :: a); auto|]. cbn [app] in H. assert (x = y) as -> by congruence. assert (H' : a ++ b = c ++ d) by congruence.
    destruct (IH c H') as [L|(m & -> & E)]; [left; cbn [length]; lia|right; exists m; auto].
Qed.
Lemma pop_honest r fut x rest : rr_state r = RActive -> is_rec x -> rr_in r ++ fut = rc_raw x ++ rest ->
  (pop_record r = (Wait, r) /\ (length (rr_in r) < length (rc_raw x))%nat) \/
  (exists y more, pop_record r = (Done (Ok (Some y)), {| rr_in := more; rr_state := RActive |}) /\ rr_in r = rc_raw x ++ more /\ more ++ fut = rest /\
     tr_raw y = rc_raw x /\ tr_fragment y = rc_frag x /\ tr_type y = content_type_from (rc_type x)).
Proof.
  intros A R E. destruct R as (v1 & v0 & l1 & l0 & Er & L1 & L2). destruct (app_cases _ _ _ _ E) as [L|(more & E1 & E2)].
  - left. split; [|exact L]. unfold pop_record. rewrite Er in E, L. cbn [app length] in E, L.
    destruct (rr_in r) as [|b0 [|c1 [|c0 [|m1 [|m0 tail]]]]] eqn:Ei; try (rewrite A; reflexivity).
    cbn [app] in E. injection E as -> -> -> -> -> E. cbn [length] in L. rewrite of_be2. unfold max_ciphertext.
    destruct (16640 <? 256 * l1 + l0) eqn:B1; [lia|]. destruct (blen tail <? 256 * l1 + l0) eqn:B2; [|unfold blen in *; lia]. rewrite A. reflexivity.
  - right. unfold pop_record. rewrite E1, Er. cbn [app]. rewrite of_be2. unfold max_ciphertext.
    destruct (16640 <? 256 * l1 + l0) eqn:B1; [lia|]. destruct (blen (rc_frag x ++ more) <? 256 * l1 + l0) eqn:B2; [rewrite blen_app in B2; lia|].
    assert (Ln : N.to_nat (256 * l1 + l0) = length (rc_frag x)) by (unfold blen in *; lia). rewrite Ln. cbn [Nat.add firstn skipn]. rewrite firstn_app_length, skipn_app_length, A.
    eexists. exists more. split; [reflexivity|]. cbn [tr_raw tr_fragment tr_type]. auto 10.
Qed.
(** Waiting for [rs], when [fut] is still to come: there is too much of it. *)
Definition arriving (r : record_receiver) (fut : bytes) (rs : list rec) (rest : bytes) : Prop :=
  rr_state r = RActive /\ Forall is_rec rs /\ rr_in r ++ fut = bytes_of rs ++ rest.
Lemma ignore_honest fuel : forall r fut rs rest, arriving r fut rs rest -> real rs <> [] -> (length (rr_in r) < fuel)%nat ->
  (exists r' rs', pop_ignore_cc fuel r = (Wait, r') /\ arriving r' fut rs' rest /\ real rs' = real rs /\ (length rest < length fut)%nat) \/
  (exists y x r' rs', pop_ignore_cc fuel r = (Done (Ok (Some y)), r') /\ arriving r' fut rs' rest /\ real rs = rc_raw x :: real rs' /\ is_rec x /\ rc_type x <> 20 /\
     tr_raw y = rc_raw x /\ tr_fragment y = rc_frag x /\ tr_type y = content_type_from (rc_type x) /\ (length (rr_in r') < length (rr_in r))%nat).
Proof.
  induction fuel as [|fuel IH]; intros r fut rs rest (A & F & E) Ne L; [lia|]. destruct rs as [|x rs]; [destruct Ne; reflexivity|].
  inversion F as [|? ? R F']; subst. pose proof (is_rec_long x R) as Lx.
  assert (E' : rr_in r ++ fut = rc_raw x ++ (bytes_of rs ++ rest)) by (rewrite E; unfold bytes_of; cbn [map concat]; rewrite <- app_assoc; reflexivity).
  cbn [pop_ignore_cc]. destruct (pop_honest r fut x _ A R E') as [[-> Lr]|(y & more & -> & E1 & E2 & Y1 & Y2 & Y3)].
  - left. exists r, (x :: rs). split; [reflexivity|]. split; [split; [exact A|]; split; [exact F|exact E]|]. split; [reflexivity|].
    apply (f_equal (@length _)) in E'. rewrite !app_length in E'. lia.
  - assert (Ar : arriving {| rr_in := more; rr_state := RActive |} fut rs rest) by (split; [reflexivity|]; split; [exact F'|exact E2]).
    assert (Lm : (length more < length (rr_in r))%nat) by (rewrite E1, app_length; lia). unfold real in *. cbn [filter] in *.
    rewrite Y3. destruct (rc_type x =? 20) eqn:T.
    + apply N.eqb_eq in T. cbn [negb] in *. rewrite T. change (content_type_from 20) with CtChangeCipherSpec. cbn iota. cbn [rr_in] in *.
      destruct (IH _ _ _ _ Ar Ne ltac:(cbn [rr_in]; lia)) as [H|(y' & x' & r' & rs' & H)]; [left; exact H|]. right. exists y', x', r', rs'. cbn [rr_in] in H.
      decompose [and] H. repeat (split; [assumption|]). lia.
    + right. exists y, x, {| rr_in := more; rr_state := RActive |}, rs. apply N.eqb_neq in T. cbn [negb map].
      assert (content_type_from (rc_type x) <> CtChangeCipherSpec) by (rewrite content_type_ccs; exact T).
      destruct (content_type_from (rc_type x)); try contradiction; (split; [reflexivity|]); auto 12.
Qed.

(** *** The messages inside *)
Lemma decrypt_handshake P k seq raw t f content h : key_ok k -> seq < two64 -> is_record raw t f -> opens P k seq raw content 22 -> handshake_in content h ->
  decrypt_message P seq k raw = Ok (MHandshake h, content).
Proof.
  intros (K1 & K2 & K3) S (v1 & v0 & l1 & l0 & -> & L1 & L2) (hd & c & pad & E1 & E2 & E3 & _) Hi.
  destruct hd as [|h0 [|h1 [|h2 [|h3 [|h4 [|h5 hd]]]]]]; try discriminate E2. cbn [app] in E1. injection E1 as <- <- <- <- <- <-.
  unfold decrypt_message, decrypt_traffic. cbn [app ciphertext_from_raw]. rewrite of_be2. unfold max_ciphertext.
  destruct (16640 <? 256 * l1 + l0) eqn:B1; [lia|]. destruct (blen f <? 256 * l1 + l0) eqn:B2; [lia|]. assert (Ln : N.to_nat (256 * l1 + l0) = length f) by (unfold blen in *; lia). rewrite Ln, firstn_all.
  change (length (t :: v1 :: v0 :: l1 :: l0 :: f)) with (5 + length f)%nat. rewrite Nat.eqb_refl. cbn [negb]. unfold decrypt_in_place. rewrite K1, Nat.eqb_refl. cbn [negb].
  rewrite (nonce_length _ _ K2). change (nonce_len (k_alg k)) with 12%nat. cbn [Nat.eqb negb]. rewrite (nonce_rfc _ _ K2 K3 S). cbn [firstn]. rewrite E3. cbn [of_option map_err bind].
  rewrite strip_inner by discriminate. rewrite rev_involutive. change (content_type_from 22) with CtHandshake. unfold handshake_in in Hi. rewrite Hi. reflexivity.
Qed.
(** What is still expected: from this transcript and state, the messages [msgs] with the
    contents [bodies] lead to [final]. *)
Definition over (st : client_state) : Prop := match st with StFinished _ _ _ _ _ => True | _ => False end.
Fixpoint expects (P : primitives) (h : hash_alg) (data : bytes) (st : client_state) (bodies : list bytes) (msgs : list handshake) (final : client_state) : Prop :=
  match bodies, msgs with
  | [], [] => st = final
  | b :: bodies, m :: msgs => ~ over st /\ exists st', on_handshake st (digest P h data) m = Ok st' /\ expects P h (data ++ b) st' bodies msgs final
  | _, _ => False
  end.
Definition sm_of (st : client_state) : option server_messages :=
  match st with
  | StFinished ee cr c cv fin => Some {| sm_extensions := ee; sm_request := cr; sm_certificate := c; sm_verify := cv; sm_finished := fin |}
  | _ => None
  end.
Definition coming (P : primitives) (h : hash_alg) (k : key) (whole rest : bytes) (final : client_state) (r : record_receiver) (fut : bytes)
    (se : sequence_encryption) (t : transcript) (st : client_state) : Prop :=
  exists rs bodies msgs, arriving r fut rs rest /\ flight P k (se_server se) (real rs) bodies msgs /\ expects P h (ts_data t) st bodies msgs final /\
    ts_data t ++ concat bodies = whole /\ se_server se + N.of_nat (length (real rs)) < two64 /\ t_server (e_secrets (se_enc se)) = k /\ ts_alg t = h.
Lemma receive_honest fuel : forall P h k whole rest final r fut se t st x r' se' t' st' sm, key_ok k -> sm_of final = Some sm ->
  coming P h k whole rest final r fut se t st -> (length (rr_in r) < fuel)%nat -> receive_messages fuel P r se t st = (x, r', se', t', st') ->
  se_enc se' = se_enc se /\ se_client se' = se_client se /\
  ((x = Wait /\ coming P h k whole rest final r' fut se' t' st' /\ (length rest < length fut)%nat) \/
   (x = Done (Ok sm) /\ ts_data t' = whole /\ ts_alg t' = h /\ exists rs, arriving r' fut rs rest /\ real rs = [])).
Proof.
  induction fuel as [|fuel IH]; intros P h k whole rest final r fut se t st x r' se' t' st' sm K F (rs & bodies & msgs & Ar & Fl & Ex & W & B & Ek & Eh) L H; [lia|].
  destruct bodies as [|b bodies]; destruct msgs as [|m msgs]; try (cbn [expects] in Ex; contradiction).
  - cbn [expects] in Ex. subst st. destruct final as [| | | | |ee cr c cv fin]; try discriminate F. cbn [receive_messages] in H. injection H as <- <- <- <- <-.
    split; [reflexivity|]. split; [reflexivity|]. right. cbn [sm_of] in F. split; [congruence|]. cbn [concat] in W. rewrite app_nil_r in W. split; [exact W|]. split; [exact Eh|]. exists rs. split; [exact Ar|].
    destruct (real rs); [reflexivity|contradiction].
  - cbn [expects] in Ex. destruct Ex as (No & st1 & On & Ex).
    destruct (real rs) as [|raw raws] eqn:Rr; [contradiction|]. cbn [flight] in Fl. destruct Fl as (F1 & F2 & F3).
    assert (Hs : (let hash := get_hash P t in
      let '(x, r', n, ts) := receive_encrypted_message P r (se_server se) (se_enc se) (Some t) in
      let se' := {| se_client := se_client se; se_server := n; se_enc := se_enc se |} in
      let t' := match ts with Some t' => t' | None => t end in
      match x with
      | Wait => (Wait, r', se', t', st)
      | Done (Err e) => (Done (Err e), r', se', t', st)
      | Done Panic => (Done Panic, r', se', t', st)
      | Done (Ok None) => (Done (Err TUnexpectedEOF), r', se', t', st)
      | Done (Ok (Some (MHandshake h))) =>
        match on_handshake st hash h with
        | Ok s' => receive_messages fuel P r' se' t' s'
        | Err e => (Done (Err e), r', se', t', st)
        | Panic => (Done Panic, r', se', t', st)
        end
      | Done (Ok (Some _)) => (Done (Err TUnexpectedMessage), r', se', t', st)
      end) = (x, r', se', t', st')).
    { destruct st; try (exact H). destruct No. exact Logic.I. }
    clear H. cbv zeta in Hs. unfold receive_encrypted_message, receive_record_ignore_cc in Hs.
    destruct (ignore_honest (S (length (rr_in r))) r fut rs rest Ar ltac:(rewrite Rr; discriminate) ltac:(lia)) as [(r1 & rs1 & I1 & I2 & I3 & I4)|(y & x1 & r1 & rs1 & I1 & I2 & I3 & I4 & I5 & I6 & I7 & I8 & I9)]; rewrite I1 in Hs.
    + injection Hs as <- <- <- <- <-. cbn [se_enc se_client]. split; [reflexivity|]. split; [reflexivity|]. left. split; [reflexivity|]. split; [|exact I4].
      exists rs1, (b :: bodies), (m :: msgs). cbn [se_server se_enc]. rewrite I3, Rr. split; [exact I2|]. split; [cbn [flight]; auto|]. split; [cbn [expects]; eauto|]. auto.
    + rewrite Rr in I3. injection I3 as Er I3. rewrite I6, <- Er, Ek in Hs. pose proof I4 as I4'. unfold is_rec in I4'. rewrite <- Er in I4'. cbn [length] in B.
      rewrite (decrypt_handshake P k (se_server se) raw _ _ b m K ltac:(lia) I4' F1 F2) in Hs. cbn [bind] in Hs. unfold incr in Hs.
      destruct (two64 <=? se_server se + 1) eqn:B2; [lia|]. cbn [bind option_map] in Hs. unfold get_hash in Hs. rewrite Eh, On in Hs.
      refine (IH P h k whole rest final r1 fut _ _ st1 x r' se' t' st' sm K F _ _ Hs); [|lia].
      exists rs1, bodies, msgs. cbn [se_server se_enc ts_data ts_alg transcript_update]. rewrite <- I3. split; [exact I2|]. split; [exact F3|]. split; [exact Ex|].
      split; [rewrite <- W; cbn [concat]; rewrite app_assoc; reflexivity|]. split; [lia|]. auto.
Qed.
