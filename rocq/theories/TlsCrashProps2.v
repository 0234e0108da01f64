(** C149: exactly what stops the establishing of a TLS connection. *)
From Verif Require Import Base BaseProofs MplexModel BinaryModel BinaryProofs MessageProofs MessageProofs2 ProtobufProofs Asn1Model Asn1Spec Asn1Proofs Asn1Props X509Model X509Props2 TlsCodesModel TlsTypesModel
  TlsTypesSpec TlsTypesProofs TlsTypesProofs2 TlsTypesProofs3 TlsTypesProofs4 TlsTypesProps TlsRecordModel TlsRecordSpec TlsRecordProofs TlsRecordProps TlsClientModel TlsClientSpec TlsClientProofs TlsClientProofs2
  TlsClientProofs3 TlsClientProofs4 TlsClientProofs5 TlsClientProofs6 TlsClientProps TlsHonestProofs TlsHonestProofs2 TlsCrashProps.
Local Open Scope string_scope. Local Open Scope list_scope. Local Open Scope N_scope.
Ltac Zify.zify_post_hook ::= Z.div_mod_to_equations.

(** *** The certificates in a message are bytes *)
Definition certificates_ok (o : option certificates) : Prop := forall c, o = Some c -> Forall (fun e => bytes_ok (en_data e)) (ct_list c).
Lemma safe_ok {A} (m : rd A) pre rest a r' : safe m -> bytes_ok (pre ++ rest) -> m (at_pos pre rest) = (Ok a, r') ->
  exists pre' rest', r' = at_pos pre' rest' /\ bytes_ok (pre' ++ rest').
Proof.
  intros S O E. destruct (S pre rest O) as (x & s & post & E' & R & _). rewrite E in E'. assert (r' = at_pos (pre ++ s) post) as -> by congruence.
  exists (pre ++ s), post. split; [reflexivity|]. rewrite <- app_assoc, <- R. exact O.
Qed.
Lemma entry_bytes_ok pre rest e r' : bytes_ok (pre ++ rest) -> read_certificate_entry (at_pos pre rest) = (Ok e, r') -> bytes_ok (en_data e).
Proof.
  intros O H. unfold read_certificate_entry in H. apply rbind_ok in H. destruct H as (d & r1 & D & H). apply len24_bytes_ok in D; [|exact O].
  apply rbind_ok in H. destruct H as (c & r2 & _ & H). apply rbind_ok in H. destruct H as (x & r3 & _ & H). unfold rret in H. injection H as <- _. exact D.
Qed.
Lemma entries_bytes_ok fuel : forall pre rest l, bytes_ok (pre ++ rest) -> list_loop fuel read_certificate_entry (at_pos pre rest) = Some (Ok l) -> Forall (fun e => bytes_ok (en_data e)) l.
Proof.
  induction fuel as [|fuel IH]; intros pre rest l O H; [discriminate H|]. cbn [list_loop] in H.
  destruct (0 <? remaining (at_pos pre rest))%nat; [|injection H as <-; constructor].
  destruct (read_certificate_entry (at_pos pre rest)) as [[a|e|] r1] eqn:E; try discriminate H. destruct (_ =? r_off r1)%nat; [discriminate H|].
  destruct (safe_ok _ _ _ _ _ safe_entry O E) as (pre' & rest' & -> & O').
  destruct (list_loop fuel read_certificate_entry (at_pos pre' rest')) as [[l1|e|]|] eqn:E1; try discriminate H. injection H as <-.
  constructor; [exact (entry_bytes_ok _ _ _ _ O E)|exact (IH _ _ _ O' E1)].
Qed.
Lemma certificate_in_ok content c : bytes_ok content -> handshake_in content (HCertificate c) -> Forall (fun e => bytes_ok (en_data e)) (ct_list c).
Proof.
  unfold handshake_in, message_from_raw. intros O H. apply bind_ok in H. destruct H as (hs & H & E). assert (hs = HCertificate c) as -> by congruence. clear E.
  destruct (read_handshake (new_reader content)) as [x r'] eqn:R. cbn [fst] in H. subst x. rewrite new_at_pos in R. unfold read_handshake in R. apply rbind_ok in R. destruct R as (t & r1 & R1 & R).
  assert (S1 : safe read_u8) by apply safe_take. destruct (safe_ok _ [] content _ _ S1 O R1) as (p1 & q1 & -> & O1).
  unfold read_handshake_body in R. apply rbind_ok in R. destruct R as (len & r2 & R2 & R).
  assert (S2 : safe read_u24) by apply safe_take. destruct (safe_ok _ _ _ _ _ S2 O1 R2) as (p2 & q2 & -> & O2).
  assert (Other : forall (A : Type) (m : rd A) (f : A -> handshake), (forall a, f a <> HCertificate c) -> (do x <- m; rret (f x)) (at_pos p2 q2) = (Ok (HCertificate c), r') -> False).
  { intros A m f Nf X. apply rbind_ok in X. destruct X as (y & r3 & _ & X). unfold rret in X. injection X as X _. exact (Nf _ X). }
  repeat match type of R with (if ?b then _ else _) _ = _ => destruct b end;
    try (exfalso; refine (Other _ _ _ _ R); intros ?; discriminate); try discriminate R.
  apply rbind_ok in R. destruct R as (c' & r3 & R & E). unfold rret in E. injection E as -> _. unfold read_certificates in R.
  apply rbind_ok in R. destruct R as (cx & r4 & R4 & R). destruct (safe_ok _ _ _ _ _ (wb_safe _ (wb_bytes 1)) O2 R4) as (p3 & q3 & -> & O3).
  apply rbind_ok in R. destruct R as (l & r5 & R & E). unfold rret in E. injection E as <- _. cbn [ct_list].
  unfold read_len24_list in R. apply rbind_ok in R. destruct R as (n & r6 & R6 & R). destruct (safe_ok _ _ _ _ _ S2 O3 R6) as (p4 & q4 & -> & O4).
  unfold read_fixed_list in R. apply rbind_ok in R. destruct R as (inner & r7 & R7 & R). apply nested_inv in R7.
  destruct R7 as [(e & Q & _)|(s & post & -> & _ & Q & _)]; [discriminate Q|]. assert (inner = at_pos p4 s) as -> by congruence. unfold rlift in R.
  destruct (list_loop _ read_certificate_entry (at_pos p4 s)) as [o|] eqn:Lp; [|discriminate R]. assert (o = Ok l) as -> by (injection R; congruence).
  refine (entries_bytes_ok _ p4 s l _ Lp). rewrite app_assoc in O4. apply bytes_ok_app in O4. apply O4.
Qed.
Definition st_certificate (s : client_state) : option certificates :=
  match s with StCertificate _ _ c => Some c | StVerify _ _ c _ => c | StFinished _ _ c _ _ => c | _ => None end.
Lemma certificate_step s hash h s' : on_handshake s hash h = Ok s' -> certificates_ok (st_certificate s) -> (forall c, h = HCertificate c -> Forall (fun e => bytes_ok (en_data e)) (ct_list c)) ->
  certificates_ok (st_certificate s').
Proof.
  intros H C N. destruct s, h; try discriminate H; cbn [on_handshake] in H; injection H as <-; cbn [st_certificate] in *; try exact C; intros c' E; try discriminate E; injection E as <-; first [apply N; reflexivity | apply C; reflexivity].
Qed.

(** *** Reading the server's messages keeps everything in order *)
Lemma opens_bytes P k seq raw content t : plain_ok P -> bytes_ok raw -> opens P k seq raw content t -> bytes_ok content.
Proof.
  intros PO O (hd & c & pad & -> & _ & U & _). apply bytes_ok_app in O. destruct O as [_ O]. destruct (PO _ _ _ _ _ _ O U) as (O1 & _). exact (inner_parts _ _ _ O1).
Qed.
Lemma messages_keep P fuel : plain_ok P -> forall r se t s, key_ok (t_server (e_secrets (se_enc se))) -> se_server se < two64 -> bytes_ok (rr_in r) -> certificates_ok (st_certificate s) ->
  forall x r' se' t' s', receive_messages fuel P r se t s = (x, r', se', t', s') ->
  bytes_ok (rr_in r') /\ se_enc se' = se_enc se /\ se_client se' = se_client se /\ se_server se' < two64 /\ ts_alg t' = ts_alg t /\ certificates_ok (st_certificate s') /\
  (x = Wait -> (stage s < 5)%nat /\ (stage s' < 5)%nat) /\ (forall sm, x = Done (Ok sm) -> certificates_ok (sm_certificate sm)).
Proof.
  intros PO. induction fuel as [|fuel IH]; intros r se t s K S O C x r' se' t' s' H.
  { destruct s; cbn [receive_messages] in H; injection H as <- <- <- <- <-; do 6 (split; [first [assumption|reflexivity]|]); (split; [discriminate|]); intros sm Q; try discriminate Q; injection Q as <-; exact C. }
  destruct (Nat.eq_dec (stage s) 5) as [F|F].
  { destruct s; try discriminate F. cbn [receive_messages] in H. injection H as <- <- <- <- <-. do 6 (split; [first [assumption|reflexivity]|]). split; [discriminate|]. intros sm Q. injection Q as <-. exact C. }
  assert (G : (stage s < 5)%nat) by (destruct s; cbn [stage] in *; lia).
  assert (Eq : receive_messages (Datatypes.S fuel) P r se t s =
      let hash := get_hash P t in
      let '(x, r', n, ts) := receive_encrypted_message P r (se_server se) (se_enc se) (Some t) in
      let se' := {| se_client := se_client se; se_server := n; se_enc := se_enc se |} in
      let t' := match ts with Some t' => t' | None => t end in
      match x with
      | Wait => (Wait, r', se', t', s)
      | Done (Err e) => (Done (Err e), r', se', t', s)
      | Done Panic => (Done Panic, r', se', t', s)
      | Done (Ok None) => (Done (Err TUnexpectedEOF), r', se', t', s)
      | Done (Ok (Some (MHandshake h))) =>
        match on_handshake s hash h with
        | Ok s' => receive_messages fuel P r' se' t' s'
        | Err e => (Done (Err e), r', se', t', s)
        | Panic => (Done Panic, r', se', t', s)
        end
      | Done (Ok (Some _)) => (Done (Err TUnexpectedMessage), r', se', t', s)
      end) by (destruct s; try reflexivity; cbn [stage] in G; lia).
  rewrite Eq in H. clear Eq. cbv zeta in H.
  destruct (receive_encrypted_message P r (se_server se) (se_enc se) (Some t)) as [[[y r1] n] ts] eqn:E.
  destruct (receive_spec _ _ _ _ _ _ _ _ _ E) as (d & D & Sp).
  assert (O1 : bytes_ok (rr_in r1)) by (rewrite D in O; apply bytes_ok_app in O; apply O).
  assert (Keep : n < two64 /\ ts_alg (match ts with Some t' => t' | None => t end) = ts_alg t).
  { destruct y as [|[[m|]|e|]]; [destruct Sp as (-> & -> & _); auto| |destruct Sp as (-> & -> & _); auto ..]. destruct Sp as (raw & body & _ & _ & _ & Ln & ->). split; [exact Ln|reflexivity]. }
  destruct Keep as [Ln Lt].
  assert (Now : forall z, (z, r1, {| se_client := se_client se; se_server := n; se_enc := se_enc se |}, match ts with Some t' => t' | None => t end, s) = (x, r', se', t', s') -> (forall sm, z <> Done (Ok sm)) ->
    bytes_ok (rr_in r') /\ se_enc se' = se_enc se /\ se_client se' = se_client se /\ se_server se' < two64 /\ ts_alg t' = ts_alg t /\ certificates_ok (st_certificate s') /\
    (x = Wait -> (stage s < 5)%nat /\ (stage s' < 5)%nat) /\ (forall sm, x = Done (Ok sm) -> certificates_ok (sm_certificate sm))).
  { intros z Q Nz. assert (z = x /\ r1 = r' /\ se' = {| se_client := se_client se; se_server := n; se_enc := se_enc se |} /\ match ts with Some t' => t' | None => t end = t' /\ s = s') as (<- & <- & -> & <- & <-) by (repeat split; congruence).
    cbn [se_enc se_client se_server]. do 6 (split; [first [assumption|reflexivity]|]). split; [auto|]. intros sm Q'. exfalso. exact (Nz sm Q'). }
  destruct y as [|[[m|]|e|]]; try (apply (Now _ H); discriminate).
  destruct m as [| | |h| |]; try (apply (Now _ H); discriminate).
  destruct (on_handshake s (get_hash P t) h) as [s1|e|] eqn:Oh; try (apply (Now _ H); discriminate).
  destruct (received_ok P r (se_server se) (se_enc se) (Some t) _ r1 n ts K S E) as (raw & ty & f & content & ct & N & Op & M & En & Ln' & Ets).
  destruct (handshake_type _ _ _ M) as [-> Hin]. destruct (next_ok _ _ _ _ _ N O) as (_ & Or & _). pose proof (opens_bytes _ _ _ _ _ _ PO Or Op) as Oc.
  assert (C1 : certificates_ok (st_certificate s1)).
  { apply (certificate_step _ _ _ _ Oh C). intros c ->. exact (certificate_in_ok _ _ Oc Hin). }
  destruct (IH r1 {| se_client := se_client se; se_server := n; se_enc := se_enc se |} _ s1 K Ln O1 C1 _ _ _ _ _ H) as (X1 & X2 & X3 & X4 & X5 & X6 & X7 & X8). cbn [se_enc se_client] in X2, X3.
  split; [exact X1|]. split; [exact X2|]. split; [exact X3|]. split; [exact X4|]. split; [congruence|]. split; [exact X6|]. split; [|exact X8]. intros W. split; [exact G|apply X7, W].
Qed.

(** *** What stops the client between the server's hello and its own Finished *)
(** As [flight_stops], or Finished comes in its place, with a value that does not have the
    length [len]. *)
Inductive handshake_stops (P : primitives) (k : key) (len : nat) : nat -> bytes -> N -> Prop :=
| hstops_now g d n : (g < 5)%nat -> fatal P k d n -> handshake_stops P k len g d n
| hstops_finished g d n raw type fragment more content v : (0 < g < 5)%nat -> next_record d raw type fragment more ->
    opens P k n raw content 22 -> handshake_in content (HFinished v) -> n + 1 < two64 -> length v <> len -> handshake_stops P k len g d n
| hstops_later g d n raw type fragment more content h i : (g < 5)%nat -> next_record d raw type fragment more ->
    opens P k n raw content 22 -> handshake_in content h -> order_of h = Some i -> (g = 0%nat -> i = 0%nat) -> (g <= i)%nat -> n + 1 < two64 ->
    handshake_stops P k len (i + 1) more (n + 1) -> handshake_stops P k len g d n.
Definition bad_end (len : nat) (x : poll (tls server_messages)) : Prop :=
  x = Done Panic \/ exists sm, x = Done (Ok sm) /\ length (fst (sm_finished sm)) <> len.
Lemma not_past P k len d n : ~ handshake_stops P k len 5 d n.
Proof. intros H. inversion H; lia. Qed.
Lemma finished_state s hash h s' : (stage s < 5)%nat -> on_handshake s hash h = Ok s' -> stage s' = 5%nat ->
  (0 < stage s)%nat /\ exists v ee cr c cv, h = HFinished v /\ s' = StFinished ee cr c cv (v, hash).
Proof.
  intros G H F. destruct s, h; try discriminate H; cbn [on_handshake] in H; injection H as <-; try discriminate F; (split; [cbn [stage]; lia|]); do 5 eexists; (split; reflexivity).
Qed.
Lemma bad_exact P len fuel : plain_ok P -> forall r se t s, key_ok (t_server (e_secrets (se_enc se))) -> se_server se < two64 -> bytes_ok (rr_in r) -> (length (rr_in r) < fuel)%nat -> (stage s < 5)%nat ->
  (bad_end len (fst (fst (fst (fst (receive_messages fuel P r se t s))))) <-> handshake_stops P (t_server (e_secrets (se_enc se))) len (stage s) (rr_in r) (se_server se)).
Proof.
  intros PO. induction fuel as [|fuel IH]; intros r se t s K S O L G; [lia|].
  assert (Eq : receive_messages (Datatypes.S fuel) P r se t s =
      let hash := get_hash P t in
      let '(x, r', n, ts) := receive_encrypted_message P r (se_server se) (se_enc se) (Some t) in
      let se' := {| se_client := se_client se; se_server := n; se_enc := se_enc se |} in
      let t' := match ts with Some t' => t' | None => t end in
      match x with
      | Wait => (Wait, r', se', t', s)
      | Done (Err e) => (Done (Err e), r', se', t', s)
      | Done Panic => (Done Panic, r', se', t', s)
      | Done (Ok None) => (Done (Err TUnexpectedEOF), r', se', t', s)
      | Done (Ok (Some (MHandshake h))) =>
        match on_handshake s hash h with
        | Ok s' => receive_messages fuel P r' se' t' s'
        | Err e => (Done (Err e), r', se', t', s)
        | Panic => (Done Panic, r', se', t', s)
        end
      | Done (Ok (Some _)) => (Done (Err TUnexpectedMessage), r', se', t', s)
      end) by (destruct s; try reflexivity; cbn [stage] in G; lia).
  rewrite Eq. clear Eq. cbv zeta.
  pose proof (C148_protected_exact P r (se_server se) (se_enc se) (Some t) PO K S O) as X. fold (fatal P (t_server (e_secrets (se_enc se))) (rr_in r) (se_server se)) in X.
  destruct (receive_encrypted_message P r (se_server se) (se_enc se) (Some t)) as [[[x r'] n] ts] eqn:E. cbn [fst] in X.
  set (k := t_server (e_secrets (se_enc se))) in *.
  assert (Not : x <> Done Panic -> (forall h, x = Done (Ok (Some (MHandshake h))) -> exists e, on_handshake s (get_hash P t) h = Err e) -> ~ handshake_stops P k len (stage s) (rr_in r) (se_server se)).
  { intros N1 N2 H. inversion H as [g d m Hg Hf|g d m raw ty f more content v Hg Hn Ho Hh Hm Hv|g d m raw ty f more content h i Hg Hn Ho Hh Hr H0 Hle Hm Hs]; subst g d m; [exact (N1 (proj2 X Hf))| |].
    - pose proof (received_this P r (se_server se) (se_enc se) (Some t) raw ty f more content 22 (MHandshake (HFinished v)) K Hm Hn Ho Hh) as Q. rewrite E in Q.
      assert (x = Done (Ok (Some (MHandshake (HFinished v))))) as Qx by congruence. destruct (N2 _ Qx) as (e & Er).
      pose proof (stage_step s (get_hash P t) (HFinished v) G) as St. rewrite Er in St. destruct St as (_ & St). exact (St 4%nat eq_refl ltac:(lia) ltac:(lia)).
    - pose proof (received_this P r (se_server se) (se_enc se) (Some t) raw ty f more content 22 (MHandshake h) K Hm Hn Ho Hh) as Q. rewrite E in Q.
      assert (x = Done (Ok (Some (MHandshake h)))) as Qx by congruence. destruct (N2 h Qx) as (e & Er).
      pose proof (stage_step s (get_hash P t) h G) as St. rewrite Er in St. destruct St as (_ & St). exact (St i Hr H0 Hle). }
  assert (Fine : forall z : poll (tls server_messages), (z = Wait \/ exists e, z = Done (Err e)) -> ~ bad_end len z).
  { intros z [->|(e & ->)] [Q|(sm & Q & _)]; discriminate Q. }
  assert (Err1 : forall z : poll (tls server_messages), (z = Wait \/ exists e, z = Done (Err e)) -> x <> Done Panic -> (forall h, x <> Done (Ok (Some (MHandshake h)))) -> (bad_end len z <-> handshake_stops P k len (stage s) (rr_in r) (se_server se))).
  { intros z Z1 N1 N2. split; intros H; exfalso; [exact (Fine z Z1 H)|]. refine (Not N1 _ H). intros h Q. destruct (N2 h Q). }
  destruct x as [|[[m|]|e|]]; cbn [fst].
  - apply Err1; [auto|discriminate|discriminate].
  - destruct (received_ok P r (se_server se) (se_enc se) (Some t) m r' n ts K S E) as (raw & ty & f & content & ct & N & Op & M & En & Ln & Ets). fold k in Op.
    destruct m as [| | |h| |]; try (cbn [fst]; apply Err1; [eauto|discriminate|discriminate]).
    pose proof (stage_step s (get_hash P t) h G) as St. destruct (handshake_type _ _ _ M) as [-> Hin].
    destruct (on_handshake s (get_hash P t) h) as [s'|e|] eqn:Oh; [| |contradiction].
    2: { cbn [fst]. split; intros H; exfalso; [refine (Fine _ _ H); eauto|]. refine (Not _ _ H); [discriminate|]. intros h' Q. assert (h' = h) as -> by congruence. eauto. }
    destruct St as (i & Hr & H0 & Hle & Hs'). destruct (next_rest _ _ _ _ _ N) as (Lr & Or).
    assert (Same : forall raw' ty' f' more' content' h', next_record (rr_in r) raw' ty' f' more' -> opens P k (se_server se) raw' content' 22 -> handshake_in content' h' -> se_server se + 1 < two64 ->
      h' = h /\ rr_in r' = more').
    { intros raw' ty' f' more' content' h' Hn Ho Hh Hm. pose proof (received_this P r (se_server se) (se_enc se) (Some t) raw' ty' f' more' content' 22 (MHandshake h') K Hm Hn Ho Hh) as Q. rewrite E in Q.
      split; [congruence|]. assert (r' = {| rr_in := more'; rr_state := rr_state r |}) as -> by congruence. reflexivity. }
    destruct (Nat.eq_dec (stage s') 5) as [F|F].
    + destruct (finished_state _ _ _ _ G Oh F) as (G0 & v & ee & cr & c & cv & -> & ->).
      assert (Rm : forall se0 t0, receive_messages fuel P r' se0 t0 (StFinished ee cr c cv (v, get_hash P t)) = (Done (Ok {| sm_extensions := ee; sm_request := cr; sm_certificate := c; sm_verify := cv; sm_finished := (v, get_hash P t) |}), r', se0, t0, StFinished ee cr c cv (v, get_hash P t))).
      { intros se0 t0. destruct fuel; reflexivity. }
      rewrite Rm. cbn [fst]. split.
      * intros [Q|(sm & Q & Lv)]; [discriminate Q|]. assert (sm = {| sm_extensions := ee; sm_request := cr; sm_certificate := c; sm_verify := cv; sm_finished := (v, get_hash P t) |}) as -> by congruence.
        cbn [sm_finished fst] in Lv. exact (hstops_finished P k len (stage s) _ _ raw ty f _ content v (conj G0 G) N Op Hin Ln Lv).
      * intros H. right. eexists. split; [reflexivity|]. cbn [sm_finished fst].
        inversion H as [g d m Hg Hf|g d m raw' ty' f' more' content' v' Hg Hn Ho Hh Hm Hv|g d m raw' ty' f' more' content' h' i' Hg Hn Ho Hh Hr' H0' Hle' Hm Hs]; subst g d m; [apply X in Hf; discriminate Hf| |].
        -- destruct (Same _ _ _ _ _ _ Hn Ho Hh Hm) as [Q _]. assert (v' = v) as -> by congruence. exact Hv.
        -- destruct (Same _ _ _ _ _ _ Hn Ho Hh Hm) as [-> _]. assert (i' = 4%nat) as -> by (cbn [order_of] in Hr'; congruence). destruct (not_past _ _ _ _ _ Hs).
    + assert (G' : (stage s' < 5)%nat) by (destruct s'; cbn [stage] in *; lia).
      specialize (IH r' {| se_client := se_client se; se_server := n; se_enc := se_enc se |} (match ts with Some t' => t' | None => t end) s'). cbn [se_server se_enc] in IH. fold k in IH.
      rewrite (IH K ltac:(lia) (Or O) ltac:(lia) G'). rewrite Hs'. split.
      * intros H. rewrite En in H. exact (hstops_later P k len (stage s) _ _ raw ty f _ content h i G N Op Hin Hr H0 Hle Ln H).
      * intros H. inversion H as [g d m Hg Hf|g d m raw' ty' f' more' content' v' Hg Hn Ho Hh Hm Hv|g d m raw' ty' f' more' content' h' i' Hg Hn Ho Hh Hr' H0' Hle' Hm Hs]; subst g d m; [apply X in Hf; discriminate Hf| |].
        -- destruct (Same _ _ _ _ _ _ Hn Ho Hh Hm) as [<- _]. cbn [order_of] in Hr. injection Hr as <-. rewrite Hs' in F. lia.
        -- destruct (Same _ _ _ _ _ _ Hn Ho Hh Hm) as [-> <-]. assert (i' = i) as -> by congruence. rewrite En. exact Hs.
  - apply Err1; [eauto|discriminate|discriminate].
  - apply Err1; [eauto|discriminate|discriminate].
  - split; [|intros _; left; reflexivity]. intros _. apply hstops_now; [exact G|apply X; reflexivity].
Qed.

(** *** The client's own messages never stop it *)
Definition sign_ok (P : primitives) : Prop := (forall h k d, sign_rsa P h k d <> Panic) /\ (forall k d, sign_ed25519 P k d <> Panic).
Definition config_ok (cfg : config) : Prop :=
  (forall ca, cf_server cfg = SaAuthority ca -> bytes_ok ca) /\ (forall cert k, cf_client cfg = CaCertificate cert k -> bytes_ok cert).
Lemma encode_total h t b : handshake_ok h -> handshake_writable h -> handshake_parts h = Some (t, b) -> encode_handshake h <> Panic.
Proof. intros O W Pt. unfold encode_handshake. destruct (write_handshake_ok h t b [] O W Pt) as [[_ ->]|[_ ->]]; discriminate. Qed.
Lemma finished_total P t e : client_finished P t e <> Panic.
Proof.
  unfold client_finished. apply X509Props2.bind_total.
  - unfold internal, derive_secret, hkdf_expand_label, hkdf_expand. destruct (_ <? _)%nat; [discriminate|]. destruct (_ <? _)%nat; discriminate.
  - intros fk _. cbn [hmac_sign internal map_err bind]. eapply encode_total; [exact Logic.I|exact Logic.I|reflexivity].
Qed.
Lemma encrypt_total P d ct k seq : encrypt_record P d ct k seq <> Panic.
Proof.
  unfold encrypt_record. destruct (_ <? _); [discriminate|]. apply X509Props2.bind_total; [|discriminate]. unfold encrypt_traffic. intros Q. apply map_panic in Q. revert Q. unfold encrypt_in_place.
  destruct (negb _); [discriminate|]. destruct (negb _); [discriminate|]. destruct (seal _ _ _ _ _ _); discriminate.
Qed.
Lemma certificate_total cert : bytes_ok cert -> client_certificate cert <> Panic.
Proof.
  intros O. unfold client_certificate. apply X509Props2.bind_total; [intros Q; apply map_panic in Q; exact (proj2 C92_never_panics cert O Q)|].
  intros c Hc. assert (Ec : certificate_from_bytes cert = Ok c) by (destruct (certificate_from_bytes cert); cbn [map_err] in Hc; congruence).
  eapply encode_total; [cbn [handshake_ok ct_list]; constructor; [cbn [en_data en_certificate en_extensions]; split; [exact Ec|constructor]|constructor]|cbn [handshake_writable ct_list]; repeat constructor|reflexivity].
Qed.
Lemma verify_total P t k : sign_ok P -> client_verify P t k <> Panic.
Proof.
  intros (S1 & S2). unfold client_verify. cbv zeta. apply X509Props2.bind_total.
  - destruct k as [k|k]; (apply X509Props2.bind_total; [|discriminate]); [apply S1|apply S2].
  - intros cv Hc. eapply encode_total; [|exact Logic.I|reflexivity]. cbn [handshake_ok].
    assert (A : cv_algorithm cv = SsRsaPssRsaeSha256 \/ cv_algorithm cv = SsEd25519).
    { destruct k as [k|k]; apply bind_ok in Hc; destruct Hc as (s & _ & Hc); injection Hc as <-; auto. }
    destruct A as [-> | ->]; vm_compute; intuition.
Qed.

(** *** One step *)
(** What holds of every state of the establishing. *)
Definition state_ok (s : ec_state) : Prop :=
  match s with
  | EBegin cfg _ _ p | EHelloSent cfg _ _ p => config_ok cfg /\ bytes_ok (rr_in (ps_receiver p))
  | EHelloReceived cfg p se t prk st =>
    config_ok cfg /\ bytes_ok (rr_in (ps_receiver p)) /\ key_ok (t_server (e_secrets (se_enc se))) /\ se_server se < two64 /\ se_client se = 0 /\
    ts_alg t = c_hash (e_ciphers (se_enc se)) /\ (byte_len (c_hash (e_ciphers (se_enc se))) <= length prk)%nat /\
    (byte_len (c_hash (e_ciphers (se_enc se))) <= length (k_raw (t_server (e_secrets (se_enc se)))))%nat /\ (stage st < 5)%nat /\ certificates_ok (st_certificate st)
  | EMessagesReceived _ _ _ | EDone _ | EError _ => True
  | EPanic => False
  end.
(** The bytes at hand that stop it. *)
Definition stops_here (P : primitives) (s : ec_state) : Prop :=
  match s with
  | EHelloSent _ _ _ p => exists raw fragment more, next_record (rr_in (ps_receiver p)) raw 22 fragment more /\ key_update fragment
  | EHelloReceived _ p se t prk st =>
    handshake_stops P (t_server (e_secrets (se_enc se))) (byte_len (c_hash (e_ciphers (se_enc se)))) (stage st) (rr_in (ps_receiver p)) (se_server se)
  | _ => False
  end.
Lemma flush_total w : forall out ws, fst (fst (fst (fst (flush_out out ws w)))) <> Done Panic.
Proof.
  induction w as [|a w IH]; intros out ws; [destruct out; discriminate|]. destruct out as [|b out]; destruct a; cbn [flush_out]; try discriminate.
  match goal with |- context [flush_out ?o ?v w] => specialize (IH o v); destruct (flush_out o v w) as [[[[? ?] ?] ?] ?] end; exact IH.
Qed.
Lemma messages_total P cfg p se t prk sm : sizes_ok P -> sign_ok P -> config_ok cfg -> ts_alg t = c_hash (e_ciphers (se_enc se)) -> se_client se = 0 ->
  (byte_len (c_hash (e_ciphers (se_enc se))) <= length prk)%nat -> (byte_len (c_hash (e_ciphers (se_enc se))) <= length (k_raw (t_server (e_secrets (se_enc se)))))%nat -> certificates_ok (sm_certificate sm) ->
  (on_server_messages P cfg p se t prk sm = EPanic <-> length (fst (sm_finished sm)) <> byte_len (c_hash (e_ciphers (se_enc se)))).
Proof.
  intros Sz Sg (Ca & Cc) T Z Lp Lk C. pose proof (C148_finished_exact P t cfg prk sm (se_enc se) Sz T Lp Lk) as X.
  specialize (X ltac:(intros c first more Ec El; specialize (C c Ec); rewrite El in C; inversion C; assumption) Ca).
  unfold on_server_messages. destruct (application_secrets P t cfg prk sm (se_enc se)) as [secrets|e|]; cbn [ec_try].
  - split; [|intros H; apply X in H; discriminate H]. intros H. exfalso. revert H.
    match goal with |- ec_try ?x _ = _ -> _ => assert (N1 : x <> Panic) end.
    { destruct (cf_client cfg) as [|cert k] eqn:Ec; [discriminate|]. apply X509Props2.bind_total; [apply certificate_total; exact (Cc cert k eq_refl)|]. intros c _.
      apply X509Props2.bind_total; [apply verify_total, Sg|]. discriminate. }
    destruct (match cf_client cfg with CaNone => _ | CaCertificate _ _ => _ end) as [[out t']|e|]; cbn [ec_try]; [|discriminate|congruence].
    pose proof (finished_total P t' (se_enc se)) as N2. destruct (client_finished P t' (se_enc se)) as [fin|e|]; cbn [ec_try]; [|discriminate|congruence].
    pose proof (encrypt_total P (out ++ fin) CtHandshake (t_client (e_secrets (se_enc se))) (se_client se)) as N3.
    destruct (encrypt_record P (out ++ fin) CtHandshake (t_client (e_secrets (se_enc se))) (se_client se)) as [rec|e|]; cbn [ec_try]; [|discriminate|congruence].
    rewrite Z. cbn. discriminate.
  - split; [discriminate|]. intros H. apply X in H. discriminate H.
  - split; [intros _; apply X; reflexivity|reflexivity].
Qed.
(** In every state, a step of the establishing stops the client exactly when the bytes that
    have arrived are such. *)
Theorem C149_step_exact P s w : sizes_ok P -> plain_ok P -> sign_ok P -> state_ok s ->
  (snd (fst (fst (poll_step P s w))) = EPanic <-> stops_here P s).
Proof.
  intros Sz PO Sg St. destruct s as [cfg private ts p|cfg private ts p|cfg p se t prk st|p se secrets|c|e|]; cbn [state_ok] in St; cbn [poll_step stops_here].
  - unfold stream_flush. pose proof (flush_total w (ps_out p) (ps_write p)) as F. destruct (flush_out (ps_out p) (ps_write p) w) as [[[[r o] ws'] t'] sent]. cbn [fst] in F.
    destruct r as [|[u|e|]]; cbn [fst snd]; (split; [intros H; try discriminate H; contradiction|contradiction]).
  - destruct St as (_ & O). pose proof (C148_plaintext_exact (ps_receiver p) ts O) as X. destruct (receive_plaintext_message (ps_receiver p) ts) as [[x r] ts'] eqn:E. cbn [fst] in X.
    destruct x as [|[m|e|]]; cbn [fst snd]; rewrite <- X; (split; intros H; try discriminate H; try reflexivity). exfalso. exact (C148_hello_never P cfg private ts' _ m Sz H).
  - destruct St as (Cf & O & K & S & Z & T & Lp & Lk & G & C).
    pose proof (bad_exact P (byte_len (c_hash (e_ciphers (se_enc se)))) (Datatypes.S (length (rr_in (ps_receiver p)))) PO (ps_receiver p) se t st K S O ltac:(lia) G) as X.
    destruct (receive_messages (Datatypes.S (length (rr_in (ps_receiver p)))) P (ps_receiver p) se t st) as [[[[x r] se'] t'] st'] eqn:E. cbn [fst] in X. rewrite <- X. unfold bad_end.
    destruct (messages_keep P _ PO _ _ _ _ K S O C _ _ _ _ _ E) as (X1 & X2 & X3 & X4 & X5 & X6 & X7 & X8).
    destruct x as [|[sm|e|]]; cbn [fst snd].
    + split; [discriminate|]. intros [Q|(sm & Q & _)]; discriminate Q.
    + rewrite (messages_total P cfg _ se' t' prk sm Sz Sg Cf) by (rewrite ?X2; first [congruence | assumption | apply X8; reflexivity]). rewrite X2. split; [intros H; right; eauto|].
      intros [Q|(sm' & Q & H)]; [discriminate Q|]. assert (sm' = sm) as -> by congruence. exact H.
    + split; [discriminate|]. intros [Q|(sm & Q & _)]; discriminate Q.
    + split; [auto|reflexivity].
  - unfold stream_flush. pose proof (flush_total w (ps_out p) (ps_write p)) as F. destruct (flush_out (ps_out p) (ps_write p) w) as [[[[r o] ws'] t'] sent]. cbn [fst] in F.
    destruct r as [|[u|e|]]; cbn [fst snd]; (split; [intros H; try discriminate H; contradiction|contradiction]).
  - cbn [fst snd]. split; [discriminate|contradiction].
  - cbn [fst snd]. split; [discriminate|contradiction].
  - contradiction.
Qed.
Print Assumptions C149_step_exact.
Lemma traffic_raw P h a secret label messages : sizes_ok P -> length (k_raw (traffic_key P h a secret label messages)) = byte_len h.
Proof. intros (_ & _ & A). unfold traffic_key. cbn [k_raw]. unfold expand_label. apply A. Qed.
(** The states that follow are such states again. *)
Theorem C149_states P s w : sizes_ok P -> plain_ok P -> sign_ok P -> state_ok s -> stops_here P s \/ state_ok (snd (fst (fst (poll_step P s w)))).
Proof.
  intros Sz PO Sg St. pose proof (C149_step_exact P s w Sz PO Sg St) as X.
  assert (Np : snd (fst (fst (poll_step P s w))) <> EPanic -> stops_here P s \/ state_ok (snd (fst (fst (poll_step P s w))))); [|
    destruct (snd (fst (fst (poll_step P s w)))) eqn:Q; try (apply Np; discriminate); left; apply X; reflexivity].
  clear X. intros Np. right. revert Np.
  destruct s as [cfg private ts p|cfg private ts p|cfg p se t prk st|p se secrets|c|e|]; cbn [state_ok] in St; cbn [poll_step].
  - unfold stream_flush. destruct (flush_out (ps_out p) (ps_write p) w) as [[[[r o] ws'] t'] sent]. destruct r as [|[u|e|]]; cbn [fst snd state_ok ps_receiver]; intros Np; [exact St|exact St|exact Logic.I|exact (Np eq_refl)].
  - destruct St as (Cf & O). destruct (receive_plaintext_message (ps_receiver p) ts) as [[x r] ts'] eqn:E.
    assert (Or : bytes_ok (rr_in r)).
    { unfold receive_plaintext_message in E. destruct (receive_record_ignore_cc (ps_receiver p)) as [y r1] eqn:E1. unfold receive_record_ignore_cc in E1. apply ignore_raw in E1. destruct E1 as (d & D & _).
      assert (r1 = r) as <- by (destruct y as [|[[z|]|e|]]; congruence). rewrite D in O. apply bytes_ok_app in O. apply O. }
    destruct x as [|[m|e|]]; cbn [fst snd state_ok ps_receiver]; intros Np; [auto| |exact Logic.I|exact (Np eq_refl)].
    unfold on_server_hello in *. destruct m as [[| | |h| |]|]; try exact Logic.I. destruct h as [|h| | | | | | | | | ]; try exact Logic.I.
    destruct (ciphers_from h) as [c|e|]; cbn [ec_try] in *; [|exact Logic.I|exact (Np eq_refl)].
    unfold handshake_encryption in *. destruct (shared_secret P private h) as [secret|]; cbn [of_option bind ec_try] in *; [|exact Logic.I].
    assert (Lz : (length (get_zero_prk P (c_hash c)) >= byte_len (c_hash c))%nat) by (unfold get_zero_prk; destruct Sz as (_ & S2 & _); rewrite S2; apply Nat.le_refl).
    destruct (derived_total P (c_hash c) (get_zero_prk P (c_hash c)) secret Sz Lz) as [D1 D2]. rewrite D1 in *. cbn [internal map_err bind] in *.
    rewrite (derive_total P c {| ts_alg := c_hash c; ts_data := ts' |} (next_secret P (c_hash c) (get_zero_prk P (c_hash c)) secret) "hs" "c hs traffic" "s hs traffic" Sz eq_refl ltac:(rewrite D2; apply Nat.le_refl) eq_refl eq_refl ltac:(reflexivity)) in *.
    cbn [internal map_err bind ec_try state_ok ps_receiver se_enc se_server se_client e_secrets e_ciphers t_server ts_alg stage st_certificate].
    split; [exact Cf|]. split; [exact Or|]. split; [apply key_ok_of, Sz|]. split; [reflexivity|]. split; [reflexivity|]. split; [reflexivity|]. split; [rewrite D2; apply Nat.le_refl|].
    split; [rewrite traffic_raw by exact Sz; apply Nat.le_refl|]. split; [lia|]. intros cc Q. discriminate Q.
  - destruct St as (Cf & O & K & S & Z & T & Lp & Lk & G & C).
    destruct (receive_messages (Datatypes.S (length (rr_in (ps_receiver p)))) P (ps_receiver p) se t st) as [[[[x r] se'] t'] st'] eqn:E.
    destruct (messages_keep P _ PO _ _ _ _ K S O C _ _ _ _ _ E) as (X1 & X2 & X3 & X4 & X5 & X6 & X7 & X8).
    destruct x as [|[sm|e|]]; cbn [fst snd]; intros Np; [| |exact Logic.I|exact (Np eq_refl)].
    + cbn [state_ok ps_receiver]. rewrite X2. split; [exact Cf|]. split; [exact X1|]. split; [exact K|]. split; [exact X4|]. split; [congruence|]. split; [congruence|]. split; [exact Lp|]. split; [exact Lk|].
      split; [apply X7; reflexivity|exact X6].
    + unfold on_server_messages in *. destruct (application_secrets P t' cfg prk sm (se_enc se')) as [secrets|e|]; cbn [ec_try] in *; [|exact Logic.I|exact (Np eq_refl)].
      destruct (match cf_client cfg with CaNone => _ | CaCertificate _ _ => _ end) as [[out t2]|e|]; cbn [ec_try] in *; [|exact Logic.I|exact (Np eq_refl)].
      destruct (client_finished P t2 (se_enc se')) as [fin|e|]; cbn [ec_try] in *; [|exact Logic.I|exact (Np eq_refl)].
      destruct (encrypt_record P (out ++ fin) CtHandshake (t_client (e_secrets (se_enc se'))) (se_client se')) as [rec|e|]; cbn [ec_try] in *; [|exact Logic.I|exact (Np eq_refl)].
      destruct (incr (se_client se')) as [n|e|]; cbn [ec_try] in *; [exact Logic.I|exact Logic.I|exact (Np eq_refl)].
  - unfold stream_flush. destruct (flush_out (ps_out p) (ps_write p) w) as [[[[r o] ws'] t'] sent]. destruct r as [|[u|e|]]; cbn [fst snd state_ok on_finished_sent]; intros Np; try exact Logic.I. exact (Np eq_refl).
  - intros _. exact Logic.I.
  - intros _. exact Logic.I.
  - contradiction.
Qed.
Print Assumptions C149_states.

(** *** One poll, and all of them *)
(** The state after the transport has been asked, where it is, unless that fails. *)
Definition asked (s : ec_state) (answers : list answer) (s' : ec_state) (rest : list answer) : Prop :=
  match ec_recv s answers with
  | None => s' = s /\ rest = answers
  | Some (Done (Err _), _, _) => False
  | Some (_, s1, rest1) => s' = s1 /\ rest = rest1
  end.
Inductive poll_stops (P : primitives) : ec_state -> list answer -> list wanswer -> Prop :=
| pstops_now s answers w s1 rest : asked s answers s1 rest -> stops_here P s1 -> poll_stops P s answers w
| pstops_later s answers w s1 rest s2 w' sent : (0 < st_rank s)%nat -> asked s answers s1 rest -> poll_step P s1 w = (true, s2, w', sent) ->
    poll_stops P s2 rest w' -> poll_stops P s answers w.
Lemma recv_keeps s answers : state_ok s -> Forall answer_ok answers -> forall s1 rest, asked s answers s1 rest -> state_ok s1 /\ Forall answer_ok rest.
Proof.
  intros St A s1 rest. unfold asked.
  assert (R : forall p x r rest', poll_recv p answers = (x, r, rest') -> bytes_ok (rr_in p) -> bytes_ok (rr_in r) /\ Forall answer_ok rest').
  { intros p x r rest' E O. destruct answers as [|[|d|e] answers]; cbn [poll_recv] in E; [|inversion A; subst..].
    - assert (r = p /\ rest' = []) as [-> ->] by (split; congruence). auto.
    - assert (r = p /\ rest' = answers) as [-> ->] by (split; congruence). auto.
    - match goal with H : answer_ok (ARead d) |- _ => cbn [answer_ok] in H end.
      destruct d as [|b d]; [assert (r = close p /\ rest' = answers) as [-> ->] by (split; congruence)|assert (r = append_data p (b :: d) /\ rest' = answers) as [-> ->] by (split; congruence)];
        cbn [close append_data rr_in]; (split; [|assumption]); [exact O|apply bytes_ok_app; auto].
    - assert (r = {| rr_in := rr_in p; rr_state := RError (TIo e) |} /\ rest' = answers) as [-> ->] by (split; congruence). auto. }
  destruct s as [cfg private ts p|cfg private ts p|cfg p se t prk st|p se secrets|c|e|]; cbn [ec_recv]; try (intros [-> ->]; auto).
  - destruct (poll_recv (ps_receiver p) answers) as [[x r] rest'] eqn:E. destruct St as (Cf & O). destruct (R _ _ _ _ E O) as [O' A'].
    destruct x as [|[u|e|]]; try contradiction; intros [-> ->]; (split; [|exact A']); cbn [state_ok ps_receiver]; auto.
  - destruct (poll_recv (ps_receiver p) answers) as [[x r] rest'] eqn:E. destruct St as (Cf & O & St). destruct (R _ _ _ _ E O) as [O' A'].
    destruct x as [|[u|e|]]; try contradiction; intros [-> ->]; (split; [|exact A']); cbn [state_ok ps_receiver]; auto.
Qed.
Lemma asked_rank s answers s1 rest : asked s answers s1 rest -> st_rank s1 = st_rank s.
Proof.
  unfold asked. destruct (ec_recv s answers) as [[[x s'] r]|] eqn:E; [|intros [-> ->]; reflexivity]. pose proof (recv_rank _ _ _ _ _ E).
  destruct x as [|[u|e|]]; try contradiction; intros [-> ->]; assumption.
Qed.
Lemma here_rank P s : stops_here P s -> (0 < st_rank s)%nat.
Proof. destruct s; cbn [stops_here st_rank]; intros H; try contradiction; lia. Qed.
Lemma here_ready P s w : sizes_ok P -> plain_ok P -> sign_ok P -> state_ok s -> stops_here P s -> exists w' sent, poll_step P s w = (true, EPanic, w', sent).
Proof.
  intros Sz PO Sg St H. apply (C149_step_exact P s w Sz PO Sg St) in H. destruct (poll_step P s w) as [[[ready s1] w1] sent] eqn:E. cbn [fst snd] in H. subst s1. destruct ready; [eauto|].
  destruct s as [cfg private ts p|cfg private ts p|cfg p se t prk st|p se secrets|c|e|]; cbn [poll_step] in E; try discriminate E.
  - destruct (stream_flush p w) as [[[[|[[]|e|]] p1] w2] s1]; discriminate E.
  - destruct (receive_plaintext_message (ps_receiver p) ts) as [[[|[m|e|]] r1] t1]; discriminate E.
  - destruct (receive_messages _ P (ps_receiver p) se t st) as [[[[[|[m|e|]] r1] se1] t1] st1]; discriminate E.
  - destruct (stream_flush p w) as [[[[|[[]|e|]] p1] w2] s1]; discriminate E.
Qed.
Lemma poll_unfold fuel P s answers w : (0 < st_rank s)%nat ->
  ec_poll (Datatypes.S fuel) P s answers w =
  (let step s answers :=
     let '(ready, s, w, sent) := poll_step P s w in
     if ready then let '(x, s, answers, w, more) := ec_poll fuel P s answers w in (x, s, answers, w, sent ++ more)
     else (Wait, Some s, answers, w, sent) in
   match ec_recv s answers with
   | Some (Done (Err e), s, answers) => (Done (Err e), None, answers, w, [])
   | Some (_, s, answers) => step s answers
   | None => step s answers
   end).
Proof. intros L. destruct s; cbn [st_rank] in L; try lia; reflexivity. Qed.
Definition result_of (x : poll (tls connection) * option ec_state * list answer * list wanswer * bytes) : poll (tls connection) * option ec_state := fst (fst (fst x)).
Lemma poll_exact P fuel : sizes_ok P -> plain_ok P -> sign_ok P -> forall s answers w, (st_rank s < fuel)%nat -> state_ok s -> Forall answer_ok answers ->
  (fst (result_of (ec_poll fuel P s answers w)) = Done Panic <-> poll_stops P s answers w) /\
  (forall s', snd (result_of (ec_poll fuel P s answers w)) = Some s' -> fst (result_of (ec_poll fuel P s answers w)) = Wait /\ state_ok s') /\
  (fst (result_of (ec_poll fuel P s answers w)) = Wait -> snd (result_of (ec_poll fuel P s answers w)) <> None).
Proof.
  intros Sz PO Sg. induction fuel as [|fuel IH]; intros s answers w L St A; [lia|].
  destruct (Nat.eq_dec (st_rank s) 0) as [Z|Z].
  { assert (N : ~ poll_stops P s answers w).
    { intros H. inversion H; subst; [|lia]. match goal with Q : stops_here _ _ |- _ => apply here_rank in Q end. match goal with Q : asked _ _ _ _ |- _ => apply asked_rank in Q end. lia. }
    destruct s; cbn [st_rank] in Z; try lia; cbn [state_ok] in St; try contradiction; cbn [ec_poll result_of fst snd]; (split; [split; [discriminate|contradiction]|]); (split; [|discriminate]); intros ? Q; discriminate Q. }
  assert (Step : forall s1 rest, asked s answers s1 rest ->
    let y := (let '(ready, s, w, sent) := poll_step P s1 w in if ready then let '(x, s, answers, w, more) := ec_poll fuel P s rest w in (x, s, answers, w, sent ++ more) else (Wait, Some s, rest, w, sent)) in
    (fst (result_of y) = Done Panic <-> poll_stops P s answers w) /\ (forall s', snd (result_of y) = Some s' -> fst (result_of y) = Wait /\ state_ok s') /\ (fst (result_of y) = Wait -> snd (result_of y) <> None)).
  { intros s1 rest As. destruct (recv_keeps s answers St A s1 rest As) as [St1 A1]. pose proof (asked_rank _ _ _ _ As) as R1.
    assert (U : forall s2 rest2, asked s answers s2 rest2 -> s2 = s1 /\ rest2 = rest).
    { intros s2 rest2. revert As. unfold asked. destruct (ec_recv s answers) as [[[x s'] r]|]; [destruct x as [|[u|e|]]; try contradiction|]; intros [-> ->] [-> ->]; auto. }
    pose proof (C149_states P s1 w Sz PO Sg St1) as Nx. destruct (poll_step P s1 w) as [[[ready s2] w2] sent] eqn:E. cbn [fst snd] in Nx.
    destruct Nx as [Nx|Nx].
    - destruct (here_ready P s1 w Sz PO Sg St1 Nx) as (w' & sent' & E'). rewrite E in E'. assert (ready = true /\ s2 = EPanic) as [-> ->] by (split; congruence).
      assert (exists a b c d, ec_poll fuel P EPanic rest w2 = (Done Panic, None, a, b, c) /\ d = tt) as (a & b & c & _ & -> & _).
      { destruct fuel as [|fuel]; [exfalso; lia|]. exists rest, w2, [], tt. split; reflexivity. }
      cbn [result_of fst snd]. split; [split; [intros _; exact (pstops_now P s answers w s1 rest As Nx)|reflexivity]|]. split; [intros ? Q; discriminate Q|discriminate].
    - assert (Nh : ~ stops_here P s1).
      { intros H. destruct (here_ready P s1 w Sz PO Sg St1 H) as (w' & sent' & E'). rewrite E in E'. assert (s2 = EPanic) as -> by congruence. exact Nx. }
      destruct ready.
      + pose proof (step_rank P s1 w s2 w2 sent ltac:(lia) E) as R2. destruct (IH s2 rest w2 ltac:(lia) Nx A1) as (I1 & I2 & I3).
        destruct (ec_poll fuel P s2 rest w2) as [[[[x so] a] b] c]. cbn [result_of fst snd] in *. split; [|split; assumption].
        rewrite I1. split.
        * intros H. exact (pstops_later P s answers w s1 rest s2 w2 sent ltac:(lia) As E H).
        * intros H. inversion H as [? ? ? s3 rest3 As3 H3|? ? ? s3 rest3 s4 w4 sent4 _ As3 E3 H3]; subst; destruct (U _ _ As3) as [-> ->]; [contradiction|]. rewrite E in E3.
          assert (s4 = s2 /\ w4 = w2) as [-> ->] by (split; congruence). exact H3.
      + cbn [result_of fst snd]. split; [|split; [intros s' Q; assert (s' = s2) as -> by congruence; auto|discriminate]]. split; [discriminate|].
        intros H. inversion H as [? ? ? s3 rest3 As3 H3|? ? ? s3 rest3 s4 w4 sent4 _ As3 E3 H3]; subst; destruct (U _ _ As3) as [-> ->]; [contradiction|]. rewrite E in E3. discriminate E3. }
  rewrite poll_unfold by lia. cbv zeta. unfold asked in Step. destruct (ec_recv s answers) as [[[x s1] rest]|] eqn:E; [|exact (Step s answers (conj eq_refl eq_refl))].
  destruct x as [|[u|e|]]; try exact (Step s1 rest (conj eq_refl eq_refl)). cbn [result_of fst snd]. split; [|split; [intros ? Q; discriminate Q|discriminate]]. split; [discriminate|].
  intros H. inversion H as [? ? ? s3 rest3 As3 H3|? ? ? s3 rest3 s4 w4 sent4 _ As3 E3 H3]; subst; unfold asked in As3; rewrite E in As3; contradiction.
Qed.
Lemma poll_seven P s answers w : sizes_ok P -> plain_ok P -> sign_ok P -> state_ok s -> Forall answer_ok answers ->
  (fst (result_of (establish_poll P s answers w)) = Done Panic <-> poll_stops P s answers w) /\
  (forall s', snd (result_of (establish_poll P s answers w)) = Some s' -> fst (result_of (establish_poll P s answers w)) = Wait /\ state_ok s') /\
  (fst (result_of (establish_poll P s answers w)) = Wait -> snd (result_of (establish_poll P s answers w)) <> None).
Proof.
  intros Sz PO Sg St A. unfold establish_poll. assert (L : (4 < 7)%nat) by lia. revert L. generalize 7%nat. intros fuel L. apply poll_exact; try assumption. destruct s; cbn [st_rank]; lia.
Qed.
(** Polling the establishing stops the client exactly then; a state kept is such a state again. *)
Theorem C149_poll_exact P s answers w : sizes_ok P -> plain_ok P -> sign_ok P -> state_ok s -> Forall answer_ok answers ->
  (fst (result_of (establish_poll P s answers w)) = Done Panic <-> poll_stops P s answers w) /\
  (forall s', snd (result_of (establish_poll P s answers w)) = Some s' -> state_ok s').
Proof.
  intros Sz PO Sg St A. destruct (poll_seven P s answers w Sz PO Sg St A) as (X1 & X2 & _). split; [exact X1|]. intros s' H. apply (X2 s' H).
Qed.
Print Assumptions C149_poll_exact.
Inductive run_stops (P : primitives) : ec_state -> list (list answer * list wanswer) -> Prop :=
| rstops_now s answers w polls : poll_stops P s answers w -> run_stops P s ((answers, w) :: polls)
| rstops_later s answers w polls s' : result_of (establish_poll P s answers w) = (Wait, Some s') -> run_stops P s' polls -> run_stops P s ((answers, w) :: polls).
Theorem C149_run_exact P polls : sizes_ok P -> plain_ok P -> sign_ok P -> Forall (fun p => Forall answer_ok (fst p)) polls -> forall s, state_ok s ->
  (fst (fst (handshake_run P s polls)) = Some Panic <-> run_stops P s polls).
Proof.
  intros Sz PO Sg. induction polls as [|[answers w] polls IH]; intros A s St; [cbn [handshake_run fst]; split; [discriminate|intros H; inversion H]|].
  inversion A as [|? ? A1 A2]; subst. cbn [fst] in A1. cbn [handshake_run].
  destruct (poll_seven P s answers w Sz PO Sg St A1) as (X1 & X2 & X3).
  assert (D : forall H : run_stops P s ((answers, w) :: polls), poll_stops P s answers w \/ exists s', result_of (establish_poll P s answers w) = (Wait, Some s') /\ run_stops P s' polls).
  { intros H. inversion H; subst; eauto. }
  destruct (establish_poll P s answers w) as [[[[x s'] remain] w'] sent] eqn:E. cbn [result_of fst snd] in X1, X2, X3, D.
  destruct x as [|r].
  - destruct s' as [s'|]; [|exfalso; exact (X3 eq_refl eq_refl)]. specialize (IH A2 s' (proj2 (X2 s' eq_refl))). destruct (handshake_run P s' polls) as [[r rx] tx]. cbn [fst] in *. rewrite IH. split.
    + intros H. apply (rstops_later P s answers w polls s'); [rewrite E; reflexivity|exact H].
    + intros H. destruct (D H) as [Q|(s2 & Q & H2)]; [apply X1 in Q; discriminate Q|]. assert (s2 = s') as -> by congruence. exact H2.
  - cbn [fst]. split.
    + intros H. apply rstops_now. apply X1. injection H as ->. reflexivity.
    + intros H. destruct (D H) as [Q|(s2 & Q & H2)]; [apply (proj2 X1) in Q; injection Q as ->; reflexivity|discriminate Q].
Qed.
Print Assumptions C149_run_exact.
(** Every establishing starts in such a state. *)
Theorem C149_start P random session private cfg protocols : length random = 32%nat -> match cf_name cfg with Some n => utf8_valid n = true | None => True end -> config_ok cfg ->
  state_ok (establish P random session private cfg protocols).
Proof.
  intros L U C. destruct (client_hello_ok random session (public_of P private) (cf_name cfg) protocols L U) as [O W]. unfold establish.
  pose proof (encode_total _ _ _ O W eq_refl) as N. destruct (encode_handshake _) as [fragment|e|]; cbn [ec_try state_ok ps_receiver]; [|exact Logic.I|congruence].
  split; [exact C|constructor].
Qed.
Print Assumptions C149_start.
Lemma toy_sign_ok : sign_ok toy.
Proof. split; intros; discriminate. Qed.
Lemma outcome_panic x : outcome_of x = Some Panic <-> fst (fst x) = Some Panic.
Proof. unfold outcome_of. destruct (fst (fst x)) as [[c|e|]|]; split; intros Q; try reflexivity; discriminate Q. Qed.
Lemma polls_ok l : forallb (fun b => b <? 256) l = true -> Forall (fun p => Forall answer_ok (fst p)) (toy_polls l).
Proof.
  intros H. assert (O : bytes_ok l).
  { apply Forall_forall. intros b I. rewrite forallb_forall in H. apply N.ltb_lt. apply H, I. }
  assert (F : forall n x, bytes_ok x -> bytes_ok (firstn n x) /\ bytes_ok (skipn n x)) by (intros n x Q; apply bytes_ok_app; rewrite firstn_skipn; exact Q).
  unfold toy_polls. repeat (apply Forall_cons || apply Forall_nil); cbn [fst]; repeat (apply Forall_cons || apply Forall_nil); cbn [answer_ok]; try exact Logic.I; [apply F, O|apply F, F, O|apply F, O].
Qed.
Lemma toy_exact l s0 : state_ok s0 -> forallb (fun b => b <? 256) (toy_flight l) = true ->
  (outcome_of (handshake_run toy s0 (toy_polls (toy_flight l))) = Some Panic <-> run_stops toy s0 (toy_polls (toy_flight l))).
Proof. intros St H. rewrite outcome_panic. apply C149_run_exact; [exact toy_sizes_ok|exact toy_plain_ok|exact toy_sign_ok|apply polls_ok, H|exact St]. Qed.
(** With the toy primitives: a short Finished value and a KeyUpdate in the flight stop the run,
    as said above; a proper flight, and one with a KeyUpdate out of reach behind a wrong
    message, do not. *)
Example C149_sample :
  sizes_ok toy /\ plain_ok toy /\ sign_ok toy /\ state_ok (toy_start SaSelfSigned) /\
  run_stops toy (toy_start SaSelfSigned) (toy_polls (toy_flight [toy_m1; toy_m4 [1; 2; 3]])) /\
  run_stops toy (toy_start SaSelfSigned) (toy_polls (toy_flight [toy_m1; update])) /\
  ~ run_stops toy (toy_start SaSelfSigned) (toy_polls (toy_flight [toy_m2; update])) /\
  ~ run_stops toy (toy_start SaSelfSigned) (toy_polls (toy_flight [toy_m1; toy_m2; toy_m3; toy_m4 toy_finished])).
Proof.
  assert (St : state_ok (toy_start SaSelfSigned)).
  { unfold toy_start. apply C149_start; [vm_compute; reflexivity|vm_compute; reflexivity|]. split; cbn [toy_cfg cf_server cf_client]; intros; discriminate. }
  split; [exact toy_sizes_ok|]. split; [exact toy_plain_ok|]. split; [exact toy_sign_ok|]. split; [exact St|].
  split; [apply (toy_exact _ _ St); vm_compute; reflexivity|]. split; [apply (toy_exact _ _ St); vm_compute; reflexivity|].
  split; intros H; apply (toy_exact _ _ St) in H; try (vm_compute; reflexivity); revert H; vm_compute; discriminate.
Qed.
