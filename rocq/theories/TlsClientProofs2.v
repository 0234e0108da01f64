(** Proofs about the TLS client's handshake: the states. *)
From Verif Require Import Base BaseProofs MplexModel BinaryModel BinaryProofs MessageProofs MessageProofs2 ProtobufProofs Asn1Model X509Model TlsCodesModel TlsTypesModel
  TlsTypesProofs TlsTypesProofs2 TlsRecordModel TlsRecordSpec TlsRecordProofs TlsRecordProps TlsClientModel TlsClientSpec TlsClientProofs.
Local Open Scope string_scope. Local Open Scope list_scope. Local Open Scope N_scope.
Ltac Zify.zify_post_hook ::= Z.div_mod_to_equations.

(** *** Messages *)
Lemma receive_spec P r seq e ts x r' n ts' : receive_encrypted_message P r seq e ts = (x, r', n, ts') ->
  exists d, rr_in r = d ++ rr_in r' /\
  match x with
  | Done (Ok (Some m)) => exists raw body, adds d [raw] /\ decrypt_message P seq (t_server (e_secrets e)) raw = Ok (m, body) /\
      n = seq + 1 /\ n < two64 /\ ts' = option_map (fun t => transcript_update t body) ts
  | Wait | Done (Ok None) => n = seq /\ ts' = ts /\ adds d []
  | _ => n = seq /\ ts' = ts /\
      (adds d [] \/ exists raw, adds d [raw] /\ ((forall y, decrypt_message P seq (t_server (e_secrets e)) raw <> Ok y) \/ (x = Done Panic /\ two64 <= seq + 1)))
  end.
Proof.
  unfold receive_encrypted_message, receive_record_ignore_cc. destruct (pop_ignore_cc (S (length (rr_in r))) r) as [y r1] eqn:E. apply ignore_raw in E. destruct E as (d & D1 & D2).
  intros H. destruct y as [|[[y|]|z|]]; try (injection H as <- <- <- <-; exists d; split; [exact D1|]; split; [reflexivity|]; split; [reflexivity|first [exact D2|left; exact D2]]).
  destruct D2 as (t & A & _ & _ & _).
  destruct (decrypt_message P seq (t_server (e_secrets e)) (tr_raw y)) as [[m body]|z|] eqn:Dm; cbn [bind] in H.
  - unfold incr in H. destruct (two64 <=? seq + 1) eqn:O; cbn [bind] in H; injection H as <- <- <- <-; exists d; (split; [exact D1|]).
    + split; [reflexivity|]. split; [reflexivity|]. right. exists (tr_raw y). split; [exact A|]. right. split; [reflexivity|lia].
    + exists (tr_raw y), body. repeat (split; [first [assumption|reflexivity|lia]|]). reflexivity.
  - injection H as <- <- <- <-. exists d. split; [exact D1|]. split; [reflexivity|]. split; [reflexivity|]. right. exists (tr_raw y). split; [exact A|]. left. intros ? B. rewrite Dm in B. discriminate B.
  - injection H as <- <- <- <-. exists d. split; [exact D1|]. split; [reflexivity|]. split; [reflexivity|]. right. exists (tr_raw y). split; [exact A|]. left. intros ? B. rewrite Dm in B. discriminate B.
Qed.
Lemma handshake_type d t h : message_from_raw d (content_type_from t) = Ok (MHandshake h) -> t = 22 /\ handshake_in d h.
Proof.
  unfold handshake_in, content_type_from. intros H.
  repeat match type of H with context [if ?c then _ else _] => let X := fresh "X" in destruct c eqn:X end; try discriminate H; try (cbn in H; match type of H with (let? _ := ?a in _) = _ => destruct a; discriminate H end).
  split; [lia|exact H].
Qed.
Lemma opened P k seq raw h body : key_ok k -> seq < two64 -> decrypt_message P seq k raw = Ok (MHandshake h, body) -> opens P k seq raw body 22 /\ handshake_in body h.
Proof.
  intros K S H. destruct (C56_only_what_opens P k seq raw _ _ K S H) as (hd & c & t & pad & E1 & E2 & _ & _ & E3 & E4 & E5). apply handshake_type in E5. destruct E5 as [-> E5].
  split; [|exact E5]. exists hd, c, pad. auto.
Qed.
Lemma flight_snoc P k raws : forall seq bodies msgs raw body m, flight P k seq raws bodies msgs ->
  opens P k (seq + N.of_nat (length raws)) raw body 22 -> handshake_in body m -> flight P k seq (raws ++ [raw]) (bodies ++ [body]) (msgs ++ [m]).
Proof.
  induction raws as [|r raws IH]; intros seq bodies msgs raw body m F O H; destruct bodies as [|b bodies]; destruct msgs as [|x msgs]; try contradiction.
  - cbn [length N.of_nat] in O. rewrite N.add_0_r in O. cbn [app flight]. auto.
  - destruct F as (F1 & F2 & F3). cbn [app flight]. split; [exact F1|]. split; [exact F2|]. apply IH; [exact F3| |exact H].
    replace (seq + 1 + N.of_nat (length raws)) with (seq + N.of_nat (length (r :: raws))) by (cbn [length]; lia). exact O.
Qed.
Lemma flight_lengths P k raws : forall seq bodies msgs, flight P k seq raws bodies msgs -> length bodies = length raws /\ length msgs = length raws.
Proof.
  induction raws as [|r raws IH]; intros seq bodies msgs F; destruct bodies; destruct msgs; try contradiction; [auto|]. destruct F as (_ & _ & F). destruct (IH _ _ _ F). cbn [length]. lia.
Qed.

(** *** What a state of the receiving phase says *)
Definition opt_list {A B} (f : A -> B) (o : option A) : list B := match o with Some a => [f a] | None => [] end.
Definition hash_before (P : primitives) (h : hash_alg) (t0 hash : bytes) (bodies : list bytes) : Prop :=
  exists bs b, bodies = bs ++ [b] /\ hash = digest P h (t0 ++ concat bs).
Definition progress (P : primitives) (h : hash_alg) (t0 : bytes) (st : client_state) (bodies : list bytes) (msgs : list handshake) : Prop :=
  match st with
  | StServerHello => msgs = []
  | StExtensions ee => msgs = [HEncryptedExtensions ee]
  | StRequest ee cr => msgs = [HEncryptedExtensions ee; HCertificateRequest cr]
  | StCertificate ee cr c => msgs = HEncryptedExtensions ee :: opt_list HCertificateRequest cr ++ [HCertificate c]
  | StVerify ee cr c (v, hash) => msgs = HEncryptedExtensions ee :: opt_list HCertificateRequest cr ++ opt_list HCertificate c ++ [HCertificateVerify v] /\
      hash_before P h t0 hash bodies
  | StFinished ee cr c cv (fin, hash) => msgs = HEncryptedExtensions ee :: opt_list HCertificateRequest cr ++ opt_list HCertificate c ++
        opt_list (fun p => HCertificateVerify (fst p)) cv ++ [HFinished fin] /\
      exists bs b, bodies = bs ++ [b] /\ hash = digest P h (t0 ++ concat bs) /\
        match cv with Some (_, hash') => hash_before P h t0 hash' bs | None => True end
  end.
Lemma progress_step P h t0 st bodies msgs m st' b : progress P h t0 st bodies msgs ->
  on_handshake st (digest P h (t0 ++ concat bodies)) m = Ok st' -> progress P h t0 st' (bodies ++ [b]) (msgs ++ [m]).
Proof.
  intros G H.
  destruct st as [|ee|ee cr|ee cr c|ee cr c [v vh]|ee cr c cv [fin fh]]; destruct m; try discriminate H; cbn [on_handshake] in H; injection H as <-; cbn [progress] in G |- *;
    try (match type of G with _ /\ _ => destruct G as [G Gh] end); subst msgs; cbn [app opt_list]; rewrite <- ?app_assoc; cbn [app].
  all: try reflexivity.
  all: try (split; [reflexivity|]; first [exists bodies, b; split; [reflexivity|]; split; [reflexivity|exact I] | exists bodies, b; split; reflexivity]).
  split; [reflexivity|]. exists bodies, b. split; [reflexivity|]. split; [reflexivity|exact Gh].
Qed.
(** The invariant of the receiving phase. *)
Definition receiving (P : primitives) (h : hash_alg) (k : key) (t0 raw0 rx : bytes) (r : record_receiver) (se : sequence_encryption) (t : transcript) (st : client_state) : Prop :=
  exists d raws bodies msgs, rx = d ++ rr_in r /\ carries d (raw0 :: raws) /\ flight P k 0 raws bodies msgs /\
    se_server se = N.of_nat (length raws) /\ se_server se < two64 /\ ts_alg t = h /\ ts_data t = t0 ++ concat bodies /\
    t_server (e_secrets (se_enc se)) = k /\ progress P h t0 st bodies msgs.
Lemma receive_messages_spec fuel : forall P h k t0 raw0 rx r se t st x r' se' t' st', key_ok k ->
  receiving P h k t0 raw0 rx r se t st -> receive_messages fuel P r se t st = (x, r', se', t', st') ->
  se_enc se' = se_enc se /\ se_client se' = se_client se /\
  match x with
  | Wait => receiving P h k t0 raw0 rx r' se' t' st'
  | Done (Ok sm) => receiving P h k t0 raw0 rx r' se' t' (StFinished (sm_extensions sm) (sm_request sm) (sm_certificate sm) (sm_verify sm) (sm_finished sm))
  | _ => True
  end.
Proof.
  induction fuel as [|fuel IH]; intros P h k t0 raw0 rx r se t st x r' se' t' st' K R H.
  - destruct st; cbn [receive_messages] in H; injection H as <- <- <- <- <-; auto.
  - assert (Fin : (exists ee cr c cv fin, st = StFinished ee cr c cv fin) \/
      (exists y r1 n ts, receive_encrypted_message P r (se_server se) (se_enc se) (Some t) = (y, r1, n, ts) /\
        let se1 := {| se_client := se_client se; se_server := n; se_enc := se_enc se |} in
        let t1 := match ts with Some t' => t' | None => t end in
        match y with
        | Wait => (Wait, r1, se1, t1, st)
        | Done (Err e) => (Done (Err e), r1, se1, t1, st)
        | Done Panic => (Done Panic, r1, se1, t1, st)
        | Done (Ok None) => (Done (Err TUnexpectedEOF), r1, se1, t1, st)
        | Done (Ok (Some (MHandshake hh))) =>
          match on_handshake st (get_hash P t) hh with
          | Ok s' => receive_messages fuel P r1 se1 t1 s'
          | Err e => (Done (Err e), r1, se1, t1, st)
          | Panic => (Done Panic, r1, se1, t1, st)
          end
        | Done (Ok (Some _)) => (Done (Err TUnexpectedMessage), r1, se1, t1, st)
        end = (x, r', se', t', st'))).
    { destruct (receive_encrypted_message P r (se_server se) (se_enc se) (Some t)) as [[[y r1] n] ts] eqn:E.
      destruct st; cbn [receive_messages] in H; try (rewrite E in H; right; exists y, r1, n, ts; split; [reflexivity|exact H]). left. eauto 10. }
    destruct Fin as [(ee & cr & c & cv & fin & ->)|(y & r1 & n & ts & E & H1)].
    + cbn [receive_messages] in H. injection H as <- <- <- <- <-. cbn [sm_extensions sm_request sm_certificate sm_verify sm_finished]. auto.
    + clear H. destruct R as (d & raws & bodies & msgs & R1 & R2 & R3 & R4 & R5 & R6 & R7 & R8 & R9).
      apply receive_spec in E. destruct E as (d1 & D1 & D2). cbv zeta in H1.
      destruct y as [|[[y|]|e|]]; try (injection H1 as <- <- <- <- <-; cbn [se_enc se_client]; auto; fail).
      * destruct D2 as (-> & -> & A). injection H1 as <- <- <- <- <-. cbn [se_enc se_client]. split; [reflexivity|]. split; [reflexivity|].
        exists (d ++ d1), raws, bodies, msgs. cbn [se_server se_enc]. split; [rewrite R1, D1, app_assoc; reflexivity|]. split; [rewrite <- (app_nil_r (raw0 :: raws)); apply A; exact R2|].
        repeat (split; [assumption|]). exact R9.
      * destruct D2 as (raw & body & A & Dm & -> & Ln & ->). cbn [option_map] in H1.
        destruct y; try (injection H1 as <- <- <- <- <-; cbn [se_enc se_client]; auto; fail).
        destruct (on_handshake st (get_hash P t) h0) as [s'|e|] eqn:O; try (injection H1 as <- <- <- <- <-; cbn [se_enc se_client]; auto; fail).
        rewrite R8 in Dm. destruct (opened P k _ raw h0 body K R5 Dm) as [Op Hi].
        apply (IH P h k t0 raw0 rx) in H1; [exact H1|exact K|].
        exists (d ++ d1), (raws ++ [raw]), (bodies ++ [body]), (msgs ++ [h0]). cbn [se_server se_enc ts_alg ts_data transcript_update].
        split; [rewrite R1, D1, app_assoc; reflexivity|]. split; [apply (A d (raw0 :: raws)); exact R2|].
        split; [apply flight_snoc; [exact R3|rewrite N.add_0_l, <- R4; exact Op|exact Hi]|]. split; [rewrite R4, app_length; cbn [length]; lia|]. split; [exact Ln|]. split; [exact R6|].
        split; [rewrite R7, concat_app; cbn [concat]; rewrite app_nil_r, app_assoc; reflexivity|]. split; [exact R8|].
        apply progress_step with st; [exact R9|]. unfold get_hash in O. rewrite R6, R7 in O. exact O.
Qed.
