(** C148: exactly what stops the TLS client. *)
From Verif Require Import Base BaseProofs MplexModel BinaryModel BinaryProofs MessageProofs MessageProofs2 ProtobufProofs Asn1Model Asn1Spec Asn1Proofs Asn1Props X509Model X509Props2 TlsCodesModel TlsTypesModel
  TlsTypesSpec TlsTypesProofs TlsTypesProofs2 TlsTypesProofs3 TlsTypesProofs4 TlsTypesProps TlsRecordModel TlsRecordSpec TlsRecordProofs TlsRecordProps TlsClientModel TlsClientSpec TlsClientProofs TlsClientProofs2
  TlsClientProofs3 TlsClientProofs4 TlsClientProofs5 TlsClientProofs6 TlsClientProps TlsHonestProofs TlsHonestProofs2.
Local Open Scope string_scope. Local Open Scope list_scope. Local Open Scope N_scope.
Ltac Zify.zify_post_hook ::= Z.div_mod_to_equations.

(** *** What is said, independently of the model *)
(** A KeyUpdate message (RFC 8446 section 4.6.3), or anything else whose first byte is 24 and
    which has the three bytes of a length after it. *)
Definition key_update (content : bytes) : Prop := exists a b c rest, content = 24 :: a :: b :: c :: rest.
(** After ChangeCipherSpec records the bytes hold the record [raw], then [more]. *)
Definition next_record (d raw : bytes) (type : N) (fragment more : bytes) : Prop :=
  exists before, d = before ++ raw ++ more /\ carries before [] /\ is_record raw type fragment /\ type <> 20.
(** What an AEAD gives is bytes, and not more of them than the ciphertext has. *)
Definition plain_ok (P : primitives) : Prop :=
  forall a k n h c p, bytes_ok c -> unseal P a k n h c = Some p -> bytes_ok p /\ blen p <= blen c.

(** *** Messages *)
Lemma message_exact d ct : bytes_ok d -> fits d -> (message_from_raw d ct = Panic <-> ct = CtHandshake /\ key_update d).
Proof.
  intros O F. split.
  - intros H. destruct ct; try discriminate H.
    + exfalso. cbn [message_from_raw] in H. revert H. apply np_bind; [|discriminate]. rewrite new_at_pos. apply safe_fst; [|exact O].
      unfold read_alert, read_alert_level, read_alert_description. repeat safe1.
    + split; [reflexivity|]. cbn [message_from_raw] in H. apply C54_only_key_update_panics; [exact O|exact F|].
      destruct (fst (read_handshake (new_reader d))) as [x|e|]; [discriminate H|discriminate H|reflexivity].
  - intros [-> K]. cbn [message_from_raw]. apply C54_only_key_update_panics in K; [|exact O|exact F]. rewrite K. reflexivity.
Qed.
Lemma type_handshake t : content_type_from t = CtHandshake <-> t = 22.
Proof.
  unfold content_type_from. split; [|intros ->; reflexivity].
  repeat match goal with |- context [if ?c then _ else _] => destruct c eqn:? end; intros H; try discriminate H. lia.
Qed.
Theorem C148_message_exact type content : bytes_ok content -> fits content ->
  (message_from_raw content (content_type_from type) = Panic <-> type = 22 /\ key_update content).
Proof. intros O F. rewrite (message_exact _ _ O F), type_handshake. reflexivity. Qed.
Print Assumptions C148_message_exact.

(** *** The next record *)
Inductive skips : bytes -> Prop :=
| skips_none : skips []
| skips_one raw f d : is_record raw 20 f -> skips d -> skips (raw ++ d).
Lemma skips_snoc d raw f : skips d -> is_record raw 20 f -> skips (d ++ raw).
Proof.
  intros S R. induction S as [|raw' f' d R' S IH].
  - cbn [app]. rewrite <- (app_nil_r raw). apply (skips_one _ f); [exact R|constructor].
  - rewrite <- app_assoc. apply (skips_one _ f'); assumption.
Qed.
Lemma carries_skips d : carries d [] -> skips d.
Proof.
  intros C. remember [] as l eqn:L. induction C as [|d l raw f C IH R|d l raw t f C IH R T]; [constructor|apply (skips_snoc _ _ f); auto|].
  destruct l; discriminate L.
Qed.
Lemma carries_front raw f : is_record raw 20 f -> forall d l, carries d l -> carries (raw ++ d) l.
Proof.
  intros R d l C. induction C as [|d l raw' f' C IH R'|d l raw' t f' C IH R' T].
  - rewrite app_nil_r. apply (carries_ccs [] [] raw f); [constructor|exact R].
  - rewrite app_assoc. apply (carries_ccs _ _ _ f'); assumption.
  - rewrite app_assoc. apply (carries_one _ _ _ t f'); assumption.
Qed.
Lemma pop_is raw t f more s : is_record raw t f ->
  exists x, pop_record {| rr_in := raw ++ more; rr_state := s |} = (Done (Ok (Some x)), {| rr_in := more; rr_state := s |}) /\
    tr_raw x = raw /\ tr_fragment x = f /\ tr_type x = content_type_from t.
Proof.
  intros (v1 & v0 & l1 & l0 & -> & L1 & L2). unfold pop_record. cbn [rr_in rr_state app]. rewrite of_be2. unfold max_ciphertext.
  destruct (16640 <? 256 * l1 + l0) eqn:B1; [lia|]. destruct (blen (f ++ more) <? 256 * l1 + l0) eqn:B2; [rewrite blen_app in B2; lia|].
  assert (Ln : N.to_nat (256 * l1 + l0) = length f) by (unfold blen in *; lia). rewrite Ln.
  change (t :: v1 :: v0 :: l1 :: l0 :: f ++ more) with ((t :: v1 :: v0 :: l1 :: l0 :: f) ++ more).
  change (5 + length f)%nat with (length (t :: v1 :: v0 :: l1 :: l0 :: f)). rewrite firstn_app_length, firstn_app_length, skipn_app_length.
  eexists. split; [reflexivity|]. cbn [tr_raw tr_fragment tr_type]. auto.
Qed.
Lemma record_long raw t f : is_record raw t f -> (5 <= length raw)%nat.
Proof. intros (v1 & v0 & l1 & l0 & -> & _). cbn [app length]. lia. Qed.
Lemma ignore_next raw t f more s before : skips before -> is_record raw t f -> t <> 20 -> forall fuel, (length (before ++ raw ++ more) < fuel)%nat ->
  exists x, pop_ignore_cc fuel {| rr_in := before ++ raw ++ more; rr_state := s |} = (Done (Ok (Some x)), {| rr_in := more; rr_state := s |}) /\
    tr_raw x = raw /\ tr_fragment x = f /\ tr_type x = content_type_from t.
Proof.
  intros Sk R T. induction Sk as [|raw' f' d R' S IH]; intros fuel L; (destruct fuel as [|fuel]; [lia|]); cbn [pop_ignore_cc].
  - cbn [app]. destruct (pop_is raw t f more s R) as (x & E & X1 & X2 & X3). rewrite E, X3. exists x.
    destruct (content_type_from t) eqn:Ct; auto. apply type_ccs in Ct. contradiction.
  - rewrite <- app_assoc. destruct (pop_is raw' 20 f' (d ++ raw ++ more) s R') as (x & E & X1 & X2 & X3). rewrite E, X3. change (content_type_from 20) with CtChangeCipherSpec. cbn iota.
    apply IH. pose proof (record_long _ _ _ R'). rewrite <- app_assoc, app_length in L. lia.
Qed.
Lemma received_next r raw t f more : next_record (rr_in r) raw t f more ->
  exists x, receive_record_ignore_cc r = (Done (Ok (Some x)), {| rr_in := more; rr_state := rr_state r |}) /\
    tr_raw x = raw /\ tr_fragment x = f /\ tr_type x = content_type_from t.
Proof.
  destruct r as [d s]. cbn [rr_in rr_state]. intros (before & -> & C & R & T). unfold receive_record_ignore_cc. cbn [rr_in].
  apply ignore_next; [apply carries_skips; exact C|exact R|exact T|lia].
Qed.
Lemma ignored_inv fuel : forall r x r', pop_ignore_cc fuel r = (Done (Ok (Some x)), r') ->
  exists t, next_record (rr_in r) (tr_raw x) t (tr_fragment x) (rr_in r') /\ tr_type x = content_type_from t.
Proof.
  induction fuel as [|fuel IH]; intros r x r' H; [discriminate H|]. cbn [pop_ignore_cc] in H.
  destruct (pop_record r) as [[|[[y|]|e|]] r1] eqn:E; try discriminate H. destruct (pop_raw _ _ _ E) as (t & E1 & E2 & E3 & E4).
  destruct (tr_type y) eqn:Ty.
  2: { destruct (IH _ _ _ H) as (t' & (before & D & C & R & T) & Q). exists t'. split; [|exact Q]. symmetry in E4. apply type_ccs in E4. subst t.
       exists (tr_raw y ++ before). rewrite E1, D, <- app_assoc. split; [reflexivity|]. split; [apply (carries_front _ _ E3); exact C|]. auto. }
  all: assert (y = x /\ r1 = r') as [-> ->] by (split; congruence); exists t; rewrite Ty; (split; [|exact E4]); exists [];
    (split; [exact E1|]); (split; [constructor|]); (split; [exact E3|]); intros ->; discriminate E4.
Qed.
Lemma received_inv r x r' : receive_record_ignore_cc r = (Done (Ok (Some x)), r') ->
  exists t, next_record (rr_in r) (tr_raw x) t (tr_fragment x) (rr_in r') /\ tr_type x = content_type_from t.
Proof. apply ignored_inv. Qed.
Lemma map_panic {E F A} (f : E -> F) (x : outcome E A) : map_err f x = Panic <-> x = Panic.
Proof. destruct x; cbn [map_err]; split; intros H; congruence. Qed.
Lemma next_ok d raw t f more : next_record d raw t f more -> bytes_ok d -> bytes_ok f /\ bytes_ok raw /\ blen f <= 16640.
Proof.
  intros (before & -> & _ & (v1 & v0 & l1 & l0 & -> & L1 & L2) & _) O. unfold bytes_ok in *. rewrite !Forall_app in O. rewrite Forall_app. tauto.
Qed.

(** Before the keys are agreed, the client stops for an unencrypted handshake record of this
    kind and for nothing else. *)
Theorem C148_plaintext_exact r ts : bytes_ok (rr_in r) ->
  (fst (fst (receive_plaintext_message r ts)) = Done Panic <->
   exists raw fragment more, next_record (rr_in r) raw 22 fragment more /\ key_update fragment).
Proof.
  intros O. split.
  - unfold receive_plaintext_message. pose proof (C55_no_panic r) as NP. destruct (receive_record_ignore_cc r) as [[|[[x|]|e|]] r'] eqn:E; cbn [fst]; try discriminate; [|intros _; destruct (NP eq_refl)].
    destruct (received_inv _ _ _ E) as (t & N & T). destruct (next_ok _ _ _ _ _ N O) as (O1 & _ & L). intros H.
    assert (M : message_from_raw (tr_fragment x) (tr_type x) = Panic).
    { destruct (message_from_raw (tr_fragment x) (tr_type x)) as [m|e|]; [discriminate H|discriminate H|reflexivity]. }
    rewrite T in M. apply C148_message_exact in M; [|exact O1|unfold fits, two64; lia]. destruct M as [-> K]. eauto 6.
  - intros (raw & f & more & N & K). destruct (received_next _ _ _ _ _ N) as (x & E & _ & X2 & X3). destruct (next_ok _ _ _ _ _ N O) as (O1 & _ & L).
    unfold receive_plaintext_message. rewrite E, X2, X3. cbn [fst].
    assert (M : message_from_raw f (content_type_from 22) = Panic) by (apply C148_message_exact; [exact O1|unfold fits, two64; lia|auto]). rewrite M. reflexivity.
Qed.
Print Assumptions C148_plaintext_exact.

(** *** Protected records *)
Lemma decrypt_is P k seq raw t f : key_ok k -> seq < two64 -> is_record raw t f ->
  decrypt_message P seq k raw =
  match unseal P (k_alg k) (k_key k) (rfc_nonce (k_iv k) seq) (firstn 5 raw) f with
  | None => Err TDecryptionFailed
  | Some plain => match drop_zeros (rev plain) with
                  | [] => Err TInvalidPlaintextRecord
                  | t :: body => let? m := map_err (fun _ => TInvalidMessageRecord) (message_from_raw (rev body) (content_type_from t)) in Ok (m, rev body)
                  end
  end.
Proof.
  intros (K1 & K2 & K3) S (v1 & v0 & l1 & l0 & -> & L1 & L2).
  unfold decrypt_message, decrypt_traffic. cbn [app ciphertext_from_raw]. rewrite of_be2. unfold max_ciphertext.
  destruct (16640 <? 256 * l1 + l0) eqn:B1; [lia|]. destruct (blen f <? 256 * l1 + l0) eqn:B2; [lia|]. assert (Ln : N.to_nat (256 * l1 + l0) = length f) by (unfold blen in *; lia). rewrite Ln, firstn_all.
  change (length (t :: v1 :: v0 :: l1 :: l0 :: f)) with (5 + length f)%nat. rewrite Nat.eqb_refl. cbn [negb]. unfold decrypt_in_place. rewrite K1, Nat.eqb_refl. cbn [negb].
  rewrite (nonce_length _ _ K2). change (nonce_len (k_alg k)) with 12%nat. cbn [Nat.eqb negb]. rewrite (nonce_rfc _ _ K2 K3 S). cbn [firstn].
  destruct (unseal P (k_alg k) (k_key k) (rfc_nonce (k_iv k) seq) [t; v1; v0; l1; l0] f); reflexivity.
Qed.
Lemma inner_parts content t pad : bytes_ok (inner_plaintext content t pad) -> bytes_ok content.
Proof. unfold inner_plaintext, bytes_ok. rewrite Forall_app. tauto. Qed.
Lemma inner_long content t pad : blen content <= blen (inner_plaintext content t pad).
Proof. unfold inner_plaintext. rewrite blen_app. lia. Qed.
Lemma decrypt_exact P k seq raw t f : plain_ok P -> key_ok k -> seq < two64 -> is_record raw t f -> bytes_ok raw ->
  (decrypt_message P seq k raw = Panic <-> exists content, opens P k seq raw content 22 /\ key_update content).
Proof.
  intros PO K S R O. assert (Of : bytes_ok f) by (destruct R as (v1 & v0 & l1 & l0 & -> & _); unfold bytes_ok in *; rewrite Forall_app in O; tauto).
  assert (Lf : blen f <= 16640) by (destruct R as (? & ? & ? & ? & _ & _ & L); exact L).
  rewrite (decrypt_is P k seq raw t f K S R).
  assert (Er : raw = firstn 5 raw ++ f) by (destruct R as (v1 & v0 & l1 & l0 & -> & _); reflexivity).
  assert (Lr : length (firstn 5 raw) = 5%nat) by (destruct R as (v1 & v0 & l1 & l0 & -> & _); reflexivity).
  split.
  - destruct (unseal P (k_alg k) (k_key k) (rfc_nonce (k_iv k) seq) (firstn 5 raw) f) as [plain|] eqn:U; [|discriminate].
    destruct (PO _ _ _ _ _ _ Of U) as (O1 & L1).
    destruct (drop_zeros_form (rev plain)) as (pad & F1 & F2). destruct (drop_zeros (rev plain)) as [|t' body]; [discriminate|]. intros H.
    assert (Ep : plain = inner_plaintext (rev body) t' pad).
    { rewrite <- (rev_involutive plain), F1, rev_app_distr, rev_repeat. cbn [rev]. unfold inner_plaintext. rewrite <- app_assoc. reflexivity. }
    assert (M : message_from_raw (rev body) (content_type_from t') = Panic).
    { destruct (message_from_raw (rev body) (content_type_from t')) as [m|e|]; [discriminate H|discriminate H|reflexivity]. }
    apply C148_message_exact in M; [|rewrite Ep in O1; exact (inner_parts _ _ _ O1)|].
    2: { pose proof (inner_long (rev body) t' pad) as IL. rewrite <- Ep in IL. unfold fits, two64. lia. }
    destruct M as [-> Ku]. exists (rev body). split; [|exact Ku]. exists (firstn 5 raw), f, pad. rewrite U, Ep. split; [exact Er|]. split; [exact Lr|]. split; [reflexivity|discriminate].
  - intros (content & (hd & c & pad & E1 & E2 & E3 & _) & Ku).
    assert (hd = firstn 5 raw /\ c = f) as [-> ->].
    { assert (H5 : hd = firstn 5 raw) by (rewrite E1, <- E2, firstn_app_length; reflexivity). split; [exact H5|]. rewrite <- H5 in Er. rewrite E1 in Er. apply app_inv_head in Er. exact Er. }
    destruct (PO _ _ _ _ _ _ Of E3) as (O1 & L1).
    rewrite E3, strip_inner by discriminate. rewrite rev_involutive.
    assert (M : message_from_raw content (content_type_from 22) = Panic).
    { apply C148_message_exact; [exact (inner_parts _ _ _ O1)| |auto]. pose proof (inner_long content 22 pad) as IL. unfold fits, two64. lia. }
    rewrite M. reflexivity.
Qed.
(** With keys, the client stops for a record that opens under the server's key, at the place in
    the stream where it stands, and holds a KeyUpdate: only the server itself can cause it.
    The other cause is the end of the 64-bit counter. *)
Theorem C148_protected_exact P r seq e ts : plain_ok P -> key_ok (t_server (e_secrets e)) -> seq < two64 -> bytes_ok (rr_in r) ->
  (fst (fst (fst (receive_encrypted_message P r seq e ts))) = Done Panic <->
   exists raw type fragment more, next_record (rr_in r) raw type fragment more /\
     ((exists content, opens P (t_server (e_secrets e)) seq raw content 22 /\ key_update content) \/
      (seq = two64 - 1 /\ exists content t m, opens P (t_server (e_secrets e)) seq raw content t /\ message_from_raw content (content_type_from t) = Ok m))).
Proof.
  intros PO K S O. set (k := t_server (e_secrets e)) in *. split.
  - unfold receive_encrypted_message. pose proof (C55_no_panic r) as NP. destruct (receive_record_ignore_cc r) as [[|[[x|]|er|]] r'] eqn:E; cbn [fst]; try discriminate; [|intros _; destruct (NP eq_refl)].
    destruct (received_inv _ _ _ E) as (t & N & T). destruct (next_ok _ _ _ _ _ N O) as (O1 & O2 & L). fold k.
    destruct (decrypt_message P seq k (tr_raw x)) as [[m body]|er|] eqn:D; cbn [bind]; [|discriminate|].
    + unfold incr. destruct (two64 <=? seq + 1) eqn:B; cbn [bind fst]; [|discriminate]. intros _. exists (tr_raw x), t, (tr_fragment x), (rr_in r'). split; [exact N|]. right.
      split; [lia|]. destruct (opened_any P k seq _ _ _ K S D) as (t' & Op & M). eauto.
    + intros _. exists (tr_raw x), t, (tr_fragment x), (rr_in r'). split; [exact N|]. left. destruct N as (? & _ & _ & R & _). apply (decrypt_exact P k seq _ t _ PO K S R O2). exact D.
  - intros (raw & t & f & more & N & H). destruct (received_next _ _ _ _ _ N) as (x & E & X1 & X2 & X3). destruct (next_ok _ _ _ _ _ N O) as (O1 & O2 & L).
    unfold receive_encrypted_message. rewrite E, X1. fold k. destruct N as (? & _ & _ & R & _). destruct H as [H|(Sq & content & t' & m & (hd & c & pad & E1 & E2 & E3 & E4) & M)].
    + apply (decrypt_exact P k seq raw t f PO K S R O2) in H. rewrite H. reflexivity.
    + rewrite (decrypt_is P k seq raw t f K S R).
      assert (hd = firstn 5 raw /\ c = f) as [-> ->].
      { assert (H5 : hd = firstn 5 raw) by (rewrite E1, <- E2, firstn_app_length; reflexivity). split; [exact H5|]. destruct R as (v1 & v0 & l1 & l0 & Er & _). rewrite Er in H5. cbn [firstn app] in H5. rewrite H5 in E1. rewrite Er in E1.
        apply app_inv_head in E1. symmetry. exact E1. }
      rewrite E3, strip_inner by exact E4. rewrite rev_involutive, M. cbn [map_err bind]. unfold incr. destruct (two64 <=? seq + 1) eqn:B; [|lia]. reflexivity.
Qed.
Print Assumptions C148_protected_exact.

(** *** The server's messages *)
(** The next record stops the client, whose next number is [n]. *)
Definition fatal (P : primitives) (k : key) (d : bytes) (n : N) : Prop :=
  exists raw type fragment more, next_record d raw type fragment more /\
    ((exists content, opens P k n raw content 22 /\ key_update content) \/
     (n = two64 - 1 /\ exists content t m, opens P k n raw content t /\ message_from_raw content (content_type_from t) = Ok m)).
Lemma received_ok P r seq e ts m r' n ts' : key_ok (t_server (e_secrets e)) -> seq < two64 -> receive_encrypted_message P r seq e ts = (Done (Ok (Some m)), r', n, ts') ->
  exists raw t f content ty, next_record (rr_in r) raw t f (rr_in r') /\ opens P (t_server (e_secrets e)) seq raw content ty /\
    message_from_raw content (content_type_from ty) = Ok m /\ n = seq + 1 /\ seq + 1 < two64 /\ ts' = option_map (fun t => transcript_update t content) ts.
Proof.
  intros K S H. unfold receive_encrypted_message in H. destruct (receive_record_ignore_cc r) as [[|[[x|]|er|]] r1] eqn:E; try discriminate H.
  destruct (decrypt_message P seq (t_server (e_secrets e)) (tr_raw x)) as [[m' body]|er|] eqn:D; cbn [bind] in H; [|discriminate H|discriminate H].
  unfold incr in H. destruct (two64 <=? seq + 1) eqn:B; cbn [bind] in H; [discriminate H|].
  destruct (received_inv _ _ _ E) as (t & N & T). destruct (opened_any P _ seq _ _ _ K S D) as (ty & Op & M).
  assert (m' = m /\ r1 = r' /\ n = seq + 1 /\ ts' = option_map (fun t => transcript_update t body) ts) as (-> & -> & -> & ->) by (repeat split; congruence).
  exists (tr_raw x), t, (tr_fragment x), body, ty. split; [exact N|]. split; [exact Op|]. split; [exact M|]. split; [reflexivity|]. split; [lia|reflexivity].
Qed.
Lemma received_this P r seq e ts raw t f more content ty m : key_ok (t_server (e_secrets e)) -> seq + 1 < two64 ->
  next_record (rr_in r) raw t f more -> opens P (t_server (e_secrets e)) seq raw content ty -> message_from_raw content (content_type_from ty) = Ok m ->
  receive_encrypted_message P r seq e ts = (Done (Ok (Some m)), {| rr_in := more; rr_state := rr_state r |}, seq + 1, option_map (fun t => transcript_update t content) ts).
Proof.
  intros K S N (hd & c & pad & E1 & E2 & E3 & E4) M. destruct (received_next _ _ _ _ _ N) as (x & E & X1 & X2 & X3).
  unfold receive_encrypted_message. rewrite E, X1. destruct N as (? & _ & _ & R & _). rewrite (decrypt_is P _ seq raw t f K ltac:(lia) R).
  assert (hd = firstn 5 raw /\ c = f) as [-> ->].
  { assert (H5 : hd = firstn 5 raw) by (rewrite E1, <- E2, firstn_app_length; reflexivity). split; [exact H5|]. destruct R as (v1 & v0 & l1 & l0 & Er & _). rewrite Er in H5. cbn [firstn app] in H5. rewrite H5 in E1. rewrite Er in E1.
    apply app_inv_head in E1. symmetry. exact E1. }
  rewrite E3, strip_inner by exact E4. rewrite rev_involutive, M. cbn [map_err bind]. unfold incr. destruct (two64 <=? seq + 1) eqn:B; [lia|]. reflexivity.
Qed.
Lemma next_rest d raw t f more : next_record d raw t f more -> (length more < length d)%nat /\ (bytes_ok d -> bytes_ok more).
Proof.
  intros (before & -> & _ & R & _). pose proof (record_long _ _ _ R). split; [rewrite !app_length; lia|]. unfold bytes_ok. rewrite !Forall_app. tauto.
Qed.
(** The order of the messages, RFC 8446 section 4: EncryptedExtensions first; of the others
    each at most once. *)
Definition order_of (h : handshake) : option nat :=
  match h with
  | HEncryptedExtensions _ => Some 0%nat | HCertificateRequest _ => Some 1%nat | HCertificate _ => Some 2%nat
  | HCertificateVerify _ => Some 3%nat | HFinished _ => Some 4%nat | _ => None
  end.
(** After good messages in order, and before Finished, a record stops the client; [g] is the
    rank from which messages are still in order. *)
Inductive flight_stops (P : primitives) (k : key) : nat -> bytes -> N -> Prop :=
| stops_now g d n : (g < 5)%nat -> fatal P k d n -> flight_stops P k g d n
| stops_later g d n raw type fragment more content h i : (g < 5)%nat -> next_record d raw type fragment more ->
    opens P k n raw content 22 -> handshake_in content h -> order_of h = Some i -> (g = 0%nat -> i = 0%nat) -> (g <= i)%nat -> n + 1 < two64 ->
    flight_stops P k (i + 1) more (n + 1) -> flight_stops P k g d n.
Definition stage (s : client_state) : nat :=
  match s with StServerHello => 0 | StExtensions _ => 1 | StRequest _ _ => 2 | StCertificate _ _ _ => 3 | StVerify _ _ _ _ => 4 | StFinished _ _ _ _ _ => 5 end.
Lemma stage_step s hash h : (stage s < 5)%nat ->
  match on_handshake s hash h with
  | Ok s' => exists i, order_of h = Some i /\ (stage s = 0%nat -> i = 0%nat) /\ (stage s <= i)%nat /\ stage s' = (i + 1)%nat
  | Err e => e = TUnexpectedMessage /\ forall i, order_of h = Some i -> (stage s = 0%nat -> i = 0%nat) -> (stage s <= i)%nat -> False
  | Panic => False
  end.
Proof.
  intros G. destruct s, h; cbn [on_handshake order_of stage] in *; try lia;
    try (eexists; split; [reflexivity|]; split; [lia|]; split; [lia|reflexivity]);
    (split; [reflexivity|]; intros i E F L; try discriminate E; injection E as <-; first [lia | specialize (F eq_refl); lia]).
Qed.
Lemma rank_small h i : order_of h = Some i -> (i <= 4)%nat.
Proof. destruct h; intros H; try discriminate H; injection H as <-; lia. Qed.
Lemma messages_exact P fuel : plain_ok P -> forall r se t s, key_ok (t_server (e_secrets (se_enc se))) -> se_server se < two64 -> bytes_ok (rr_in r) -> (length (rr_in r) < fuel)%nat ->
  (fst (fst (fst (fst (receive_messages fuel P r se t s)))) = Done Panic <-> flight_stops P (t_server (e_secrets (se_enc se))) (stage s) (rr_in r) (se_server se)).
Proof.
  intros PO. induction fuel as [|fuel IH]; intros r se t s K S O L; [lia|].
  destruct (Nat.eq_dec (stage s) 5) as [F|F].
  { destruct s; try discriminate F. cbn [receive_messages fst]. split; [discriminate|]. intros H. inversion H; subst; cbn [stage] in *; lia. }
  assert (G : (stage s < 5)%nat) by (destruct s; cbn [stage] in *; lia).
  assert (Eq : receive_messages (Datatypes.S fuel) P r se t s =
      let hash := get_hash P t in
      let '(x, r', n, ts) := receive_encrypted_message P r (se_server se) (se_enc se) (Some t) in
      let se' := {| se_client := se_client se; se_server := n; se_enc := se_enc se |} in
      let t' := match ts with Some t' => t' | None => t end in
      match x with
      | Wait => (Wait, r', se', t', s)
      | Done (Err e) => (Done (Err e), r', se', t', s)
      | Done Panic => (Done Panic, r', se', t', s)
      | Done (Ok None) => (Done (Err TUnexpectedEOF), r', se', t', s)
      | Done (Ok (Some (MHandshake h))) =>
        match on_handshake s hash h with
        | Ok s' => receive_messages fuel P r' se' t' s'
        | Err e => (Done (Err e), r', se', t', s)
        | Panic => (Done Panic, r', se', t', s)
        end
      | Done (Ok (Some _)) => (Done (Err TUnexpectedMessage), r', se', t', s)
      end) by (destruct s; try reflexivity; cbn [stage] in G; lia).
  rewrite Eq. clear Eq. cbv zeta.
  pose proof (C148_protected_exact P r (se_server se) (se_enc se) (Some t) PO K S O) as X. fold (fatal P (t_server (e_secrets (se_enc se))) (rr_in r) (se_server se)) in X.
  destruct (receive_encrypted_message P r (se_server se) (se_enc se) (Some t)) as [[[x r'] n] ts] eqn:E. cbn [fst] in X.
  set (k := t_server (e_secrets (se_enc se))) in *.
  (* a message that is not in order, or no message: only [fatal] is left, and it is not so *)
  assert (Not : x <> Done Panic -> (forall h, x = Done (Ok (Some (MHandshake h))) -> exists e, on_handshake s (get_hash P t) h = Err e) -> ~ flight_stops P k (stage s) (rr_in r) (se_server se)).
  { intros N1 N2 H. inversion H as [g d m Hg Hf|g d m raw ty f more content h i Hg Hn Ho Hh Hr H0 Hle Hm Hs]; subst g d m; [exact (N1 (proj2 X Hf))|].
    pose proof (received_this P r (se_server se) (se_enc se) (Some t) raw ty f more content 22 (MHandshake h) K Hm Hn Ho Hh) as Q. rewrite E in Q.
    assert (x = Done (Ok (Some (MHandshake h)))) as Qx by congruence. destruct (N2 h Qx) as (e & Er).
    pose proof (stage_step s (get_hash P t) h G) as St. rewrite Er in St. destruct St as (_ & St). exact (St i Hr H0 Hle). }
  destruct x as [|[[m|]|e|]].
  - cbn [fst]. split; [discriminate|]. intros H. exfalso. refine (Not _ _ H); [discriminate|intros h Q; discriminate Q].
  - destruct (received_ok P r (se_server se) (se_enc se) (Some t) m r' n ts K S E) as (raw & ty & f & content & ct & N & Op & M & En & Ln & Ets). fold k in Op.
    destruct m as [| | |h| |]; try (cbn [fst]; split; [discriminate|]; intros H; exfalso; refine (Not _ _ H); [discriminate|intros h Q; discriminate Q]).
    pose proof (stage_step s (get_hash P t) h G) as St. destruct (handshake_type _ _ _ M) as [-> Hin].
    destruct (on_handshake s (get_hash P t) h) as [s'|e|] eqn:Oh; [| |contradiction].
    2: { cbn [fst]. split; [discriminate|]. intros H. exfalso. refine (Not _ _ H); [discriminate|]. intros h' Q. assert (h' = h) as -> by congruence. eauto. }
    destruct St as (i & Hr & H0 & Hle & Hs'). destruct (next_rest _ _ _ _ _ N) as (Lr & Or).
    specialize (IH r' {| se_client := se_client se; se_server := n; se_enc := se_enc se |} (match ts with Some t' => t' | None => t end) s'). cbn [se_server se_enc] in IH. fold k in IH.
    rewrite (IH K ltac:(lia) (Or O) ltac:(lia)). rewrite Hs'. split.
    + intros H. rewrite En in H. exact (stops_later P k (stage s) _ _ raw ty f _ content h i G N Op Hin Hr H0 Hle Ln H).
    + intros H. inversion H as [g d m Hg Hf|g d m raw' ty' f' more' content' h' i' Hg Hn Ho Hh Hr' H0' Hle' Hm Hs]; subst g d m; [apply X in Hf; discriminate Hf|].
      pose proof (received_this P r (se_server se) (se_enc se) (Some t) raw' ty' f' more' content' 22 (MHandshake h') K Hm Hn Ho Hh) as Q. rewrite E in Q.
      assert (h' = h) as -> by congruence. assert (i' = i) as -> by congruence. assert (r' = {| rr_in := more'; rr_state := rr_state r |}) as -> by congruence. cbn [rr_in]. rewrite En. exact Hs.
  - cbn [fst]. split; [discriminate|]. intros H. exfalso. refine (Not _ _ H); [discriminate|intros h Q; discriminate Q].
  - cbn [fst]. split; [discriminate|]. intros H. exfalso. refine (Not _ _ H); [discriminate|intros h Q; discriminate Q].
  - cbn [fst]. split; [|reflexivity]. intros _. apply stops_now; [exact G|apply X; reflexivity].
Qed.
(** While the client waits for the server's messages: exactly these bytes stop it. *)
Theorem C148_flight_exact P r se t s : plain_ok P -> key_ok (t_server (e_secrets (se_enc se))) -> se_server se < two64 -> bytes_ok (rr_in r) ->
  (fst (fst (fst (fst (receive_messages (S (length (rr_in r))) P r se t s)))) = Done Panic <->
   flight_stops P (t_server (e_secrets (se_enc se))) (stage s) (rr_in r) (se_server se)).
Proof. intros PO K S O. apply messages_exact; auto. Qed.
Print Assumptions C148_flight_exact.

(** *** An open connection *)
(** Reading from a connection asks the transport; what stops the reader is a fatal record,
    after any number of session tickets. *)
Inductive reading_stops (P : primitives) (k : key) : bytes -> N -> list answer -> Prop :=
| reading_now d n x answers : fatal P k (d ++ x) n -> reading_stops P k d n (ARead x :: answers)
| reading_later d n x answers raw type fragment more content ticket : next_record (d ++ x) raw type fragment more ->
    opens P k n raw content 22 -> handshake_in content (HNewSessionTicket ticket) -> n + 1 < two64 ->
    reading_stops P k more (n + 1) answers -> reading_stops P k d n (ARead x :: answers).
Definition answer_ok (a : answer) : Prop := match a with ARead d => bytes_ok d | _ => True end.
Lemma fill_exact P fuel : plain_ok P -> forall c answers, key_ok (t_server (e_secrets (se_enc (cn_seq c)))) -> se_server (cn_seq c) < two64 ->
  bytes_ok (rr_in (ps_receiver (cn_plain c))) -> Forall answer_ok answers -> (length answers < fuel)%nat ->
  (fst (fst (fill_loop fuel P c answers)) = Done Panic <->
   reading_stops P (t_server (e_secrets (se_enc (cn_seq c)))) (rr_in (ps_receiver (cn_plain c))) (se_server (cn_seq c)) answers).
Proof.
  intros PO. induction fuel as [|fuel IH]; intros c answers K S O Oa L; [lia|]. cbn [fill_loop].
  destruct answers as [|[|x|er] answers]; try (cbn [poll_recv fst]; split; [discriminate|intros H; inversion H]).
  set (k := t_server (e_secrets (se_enc (cn_seq c)))) in *. inversion Oa as [|? ? Ox Oa']; subst. cbn [answer_ok] in Ox.
  assert (exists r, poll_recv (ps_receiver (cn_plain c)) (ARead x :: answers) = (Done (Ok tt), r, answers) /\ rr_in r = rr_in (ps_receiver (cn_plain c)) ++ x) as (r & -> & Er).
  { cbn [poll_recv]. destruct x; eexists; (split; [reflexivity|]); cbn [close append_data rr_in]; rewrite ?app_nil_r; reflexivity. }
  cbn [with_receiver set_plain cn_seq]. set (c1 := with_receiver c r). 
  assert (O1 : bytes_ok (rr_in r)) by (rewrite Er; apply bytes_ok_app; auto).
  pose proof (C148_protected_exact P r (se_server (cn_seq c)) (se_enc (cn_seq c)) None PO K S O1) as X. fold k in X. fold (fatal P k (rr_in r) (se_server (cn_seq c))) in X.
  destruct (receive_encrypted_message P r (se_server (cn_seq c)) (se_enc (cn_seq c)) None) as [[[y r'] n] ts] eqn:E. cbn [fst] in X.
  assert (Not : y <> Done Panic -> (forall v, y <> Done (Ok (Some (MHandshake (HNewSessionTicket v))))) -> ~ reading_stops P k (rr_in (ps_receiver (cn_plain c))) (se_server (cn_seq c)) (ARead x :: answers)).
  { intros N1 N2 H. inversion H as [d m z a Hf|d m z a raw ty f more content v Hn Ho Hh Hm Hs]; subst; rewrite <- Er in *; [exact (N1 (proj2 X Hf))|].
    pose proof (received_this P r (se_server (cn_seq c)) (se_enc (cn_seq c)) None raw ty f more content 22 (MHandshake (HNewSessionTicket v)) K Hm Hn Ho Hh) as Q. rewrite E in Q.
    apply (N2 v). congruence. }
  destruct y as [|[[m|]|e|]]; cbn [fst].
  - split; [discriminate|]. intros H. exfalso. refine (Not _ _ H); [discriminate|intros v Q; discriminate Q].
  - destruct (received_ok P r _ _ None m r' n ts K S E) as (raw & ty & f & content & ct & N & Op & M & En & Ln & Ets). fold k in Op.
    assert (Bad : forall z, z <> Done Panic -> (forall v, m <> MHandshake (HNewSessionTicket v)) -> (z = (Done Panic : poll (tls unit)) <-> reading_stops P k (rr_in (ps_receiver (cn_plain c))) (se_server (cn_seq c)) (ARead x :: answers))).
    { intros z Nz Nm. split; [contradiction|]. intros H. exfalso. refine (Not _ _ H); [discriminate|]. intros v Q. apply (Nm v). congruence. }
    destruct m as [| |a|h|d|]; try (cbn [fst]; apply Bad; [discriminate|intros v Q; discriminate Q]).
    { destruct (a_description a); cbn [fst]; (apply Bad; [discriminate|intros v Q; discriminate Q]). }
    destruct h as [| | | | | | | |v| |]; try (cbn [fst]; apply Bad; [discriminate|intros w Q; discriminate Q]).
    destruct (handshake_type _ _ _ M) as [-> Hin]. destruct (next_rest _ _ _ _ _ N) as (Lr & Or).
    specialize (IH (with_server_seq (with_receiver c1 r') n) answers). cbn [with_server_seq with_receiver set_plain cn_seq cn_plain ps_receiver se_server se_enc] in IH. fold k in IH.
    cbn [length] in L. rewrite (IH K ltac:(lia) (Or O1) Oa' ltac:(lia)). split.
    + intros H. rewrite En in H. rewrite Er in N. exact (reading_later P k _ _ x answers raw ty f _ content v N Op Hin Ln H).
    + intros H. inversion H as [d m z a Hf|d m z a raw' ty' f' more' content' v' Hn Ho Hh Hm Hs]; subst d m z a; rewrite <- Er in *; [apply X in Hf; discriminate Hf|].
      pose proof (received_this P r (se_server (cn_seq c)) (se_enc (cn_seq c)) None raw' ty' f' more' content' 22 (MHandshake (HNewSessionTicket v')) K Hm Hn Ho Hh) as Q. rewrite E in Q.
      assert (r' = {| rr_in := more'; rr_state := rr_state r |}) as -> by congruence. cbn [rr_in]. rewrite En. exact Hs.
  - split; [discriminate|]. intros H. exfalso. refine (Not _ _ H); [discriminate|intros v Q; discriminate Q].
  - split; [discriminate|]. intros H. exfalso. refine (Not _ _ H); [discriminate|intros v Q; discriminate Q].
  - split; [|reflexivity]. intros _. apply reading_now. rewrite <- Er. apply X. reflexivity.
Qed.
Theorem C148_reading_exact P c room answers : plain_ok P -> key_ok (t_server (e_secrets (se_enc (cn_seq c)))) -> se_server (cn_seq c) < two64 ->
  bytes_ok (rr_in (ps_receiver (cn_plain c))) -> Forall answer_ok answers ->
  (fst (fst (conn_read P c room answers)) = Done Panic <->
   cn_read c = RActive /\ cn_in c = [] /\
   reading_stops P (t_server (e_secrets (se_enc (cn_seq c)))) (rr_in (ps_receiver (cn_plain c))) (se_server (cn_seq c)) answers).
Proof.
  intros PO K S O Oa. pose proof (fill_exact P (Datatypes.S (length answers)) PO c answers K S O Oa (Nat.lt_succ_diag_r _)) as X. unfold conn_read, fill_incoming.
  destruct (cn_read c); [|cbn [fst]; split; [discriminate|intros (Q & _); discriminate Q] ..].
  destruct (cn_in c) as [|b l] eqn:I0.
  - destruct (fill_loop (Datatypes.S (length answers)) P c answers) as [[y c'] a']. cbn [fst] in X.
    destruct y as [|[u|e|]]; cbn [fst]; (split; [intros H; try discriminate H; do 2 (split; [reflexivity|]); apply X; reflexivity|intros (_ & _ & H); apply X in H; first [discriminate H | reflexivity]]).
  - cbn [fst]. split; [discriminate|intros (_ & Q & _); discriminate Q].
Qed.
Print Assumptions C148_reading_exact.

(** *** What the client makes of the messages *)
Lemma bad_total {E A} (x : outcome E A) : x <> Panic -> bad_cert x <> Panic.
Proof. unfold bad_cert. intros H Q. apply map_panic in Q. contradiction. Qed.
Lemma bad_ok {E A} (x : outcome E A) a : bad_cert x = Ok a -> x = Ok a.
Proof. destruct x; cbn [bad_cert map_err]; congruence. Qed.
Lemma first_inside i l e0 : well_placed i -> item_value i = VSequence l -> nth_error l 0 = Some e0 ->
  (item_start e0 <= item_stop e0)%nat /\ (item_stop e0 <= item_stop i)%nat.
Proof.
  intros W V N. assert (D : descendant e0 i).
  { destruct i as [s e v]. cbn [item_value] in V. subst v. destruct l as [|k l]; [discriminate N|]. injection N as ->. left. left. reflexivity. }
  pose proof (C48_descendants_inside i e0 W D). lia.
Qed.
(** The check of a certificate never stops the client: the range of the signed part is inside
    the certificate. *)
Theorem C148_certificate_check P ca target : bytes_ok ca -> bytes_ok target -> verify_certificate P ca target <> Panic.
Proof.
  intros Oc Ot. unfold verify_certificate. apply X509Props2.bind_total; [apply bad_total; apply C92_never_panics; exact Oc|]. intros cc _.
  pose proof (C48_total_and_nested [] target Ot) as X. change (at_pos [] target) with (new_reader target) in X.
  destruct X as [(e & X)|(i & s & post & Ei & X & _ & St & W)]; [rewrite X; discriminate|]. rewrite X. cbn [fst bad_cert map_err bind].
  apply X509Props2.bind_total; [apply bad_total, X509Props2.exact_sequence_total|]. intros l L. apply bad_ok in L.
  apply X509Props2.bind_total; [apply bad_total; apply (X509Props2.elem_total _ _ _ _ L); lia|]. intros e0 E0. apply bad_ok in E0. apply X509Props2.bind_total; [apply bad_total, X509Props2.tbs_total|]. intros _ _.
  apply X509Props2.bind_total; [apply bad_total; apply (X509Props2.elem_total _ _ _ _ L); lia|]. intros e1 _. apply X509Props2.bind_total; [apply bad_total, X509Props2.algorithm_total|]. intros g _.
  apply X509Props2.bind_total; [apply bad_total; apply (X509Props2.elem_total _ _ _ _ L); lia|]. intros e2 _. apply X509Props2.bind_total; [apply bad_total, X509Props2.as_bits_total|]. intros sg _.
  destruct (certificate_alg (al_oid g)); [|discriminate]. apply X509Props2.bind_total; [|intros d _; match goal with |- (if ?c then _ else _) <> _ => destruct c; discriminate end].
  apply as_exact_sequence_iff in L. destruct L as (V & _). unfold elem in E0. destruct (nth_error l 0) as [z|] eqn:Nz; [|discriminate E0]. assert (z = e0) as -> by congruence.
  destruct (first_inside i l e0 W V Nz) as (A & B). unfold index_range, get_range.
  assert (((item_start e0 <=? item_stop e0) && (item_stop e0 <=? length target))%nat = true) as ->; [|discriminate].
  cbn [app] in St. rewrite Ei, app_length. lia.
Qed.
Print Assumptions C148_certificate_check.

(** Of the whole check of the server's messages, one thing stops the client: the value in
    Finished does not have the length of the hash. *)
Theorem C148_finished_exact P t cfg prk sm e : sizes_ok P -> ts_alg t = c_hash (e_ciphers e) ->
  (byte_len (c_hash (e_ciphers e)) <= length prk)%nat -> (byte_len (c_hash (e_ciphers e)) <= length (k_raw (t_server (e_secrets e))))%nat ->
  (forall c first more, sm_certificate sm = Some c -> ct_list c = first :: more -> bytes_ok (en_data first)) ->
  (forall ca, cf_server cfg = SaAuthority ca -> bytes_ok ca) ->
  (application_secrets P t cfg prk sm e = Panic <-> length (fst (sm_finished sm)) <> byte_len (c_hash (e_ciphers e))).
Proof.
  intros S T Lp Lk Oc Oa. unfold application_secrets. set (h := c_hash (e_ciphers e)) in *.
  destruct (derived_total P h prk (zeros (byte_len h)) S ltac:(lia)) as [D1 D2]. rewrite D1. cbn [internal map_err bind].
  rewrite (derive_total P (e_ciphers e) t (next_secret P h prk (zeros (byte_len h))) "ap" "c ap traffic" "s ap traffic" S T ltac:(fold h; lia) eq_refl eq_refl ltac:(reflexivity)). cbn [internal map_err bind].
  destruct (C62_when_it_panics_partial P h (t_server (e_secrets e)) (snd (sm_finished sm)) (fst (sm_finished sm)) Lk) as (fk & _ & F1 & F2).
  split.
  - intros H Q. rewrite (F1 Q) in H. destruct (bytes_eqb _ _); [|discriminate H]. cbn [bind] in H. revert H. apply X509Props2.bind_total.
    + destruct (sm_certificate sm) as [c|]; [|discriminate]. destruct (ct_list c); discriminate.
    + intros first Hf. assert (Of : bytes_ok (en_data first)).
      { destruct (sm_certificate sm) as [c|] eqn:Ec; [|discriminate Hf]. destruct (ct_list c) as [|v more] eqn:El; [discriminate Hf|]. assert (v = first) as -> by congruence. exact (Oc c first more eq_refl El). }
      apply X509Props2.bind_total; [destruct (cf_server cfg); discriminate|]. intros ca Hc.
      assert (Oca : bytes_ok ca).
      { destruct (cf_server cfg) as [|a|] eqn:Cs; [discriminate Hc| |]; [assert (a = ca) as <- by congruence; exact (Oa a eq_refl)|assert (en_data first = ca) as <- by congruence; exact Of]. }
      apply X509Props2.bind_total; [apply C148_certificate_check; assumption|]. intros _ _. apply X509Props2.bind_total; [|discriminate].
      destruct (sm_verify sm) as [[cv th]|]; [|discriminate]. unfold verify_transcript, rsa_verify. destruct (scheme_alg (cv_algorithm cv)); [|discriminate].
      match goal with |- (if ?c then _ else _) <> _ => destruct c; discriminate end.
  - intros Q. apply F2 in Q. rewrite Q. reflexivity.
Qed.
Print Assumptions C148_finished_exact.
(** The server's hello never does. *)
Theorem C148_hello_never P cfg private ts p m : sizes_ok P -> on_server_hello P cfg private ts p m <> EPanic.
Proof.
  intros S. unfold on_server_hello. destruct m as [[| | |h| |]|]; try discriminate. destruct h; try discriminate.
  unfold ec_try at 1. destruct (ciphers_from h) as [c|e|] eqn:C; [|discriminate|destruct (sh_suite h) eqn:Su; unfold ciphers_from in C; rewrite Su in C; discriminate C].
  unfold handshake_encryption. destruct (shared_secret P private h) as [secret|]; [|discriminate]. cbn [of_option bind].
  assert (Lz : (length (get_zero_prk P (c_hash c)) >= byte_len (c_hash c))%nat) by (unfold get_zero_prk; destruct S as (_ & S2 & _); rewrite S2; lia).
  destruct (derived_total P (c_hash c) (get_zero_prk P (c_hash c)) secret S Lz) as [D1 D2]. rewrite D1. cbn [internal map_err bind].
  rewrite (derive_total P c {| ts_alg := c_hash c; ts_data := ts |} (next_secret P (c_hash c) (get_zero_prk P (c_hash c)) secret) "hs" "c hs traffic" "s hs traffic" S eq_refl ltac:(rewrite D2; apply Nat.le_refl) eq_refl eq_refl ltac:(reflexivity)). cbn [internal map_err bind ec_try]. discriminate.
Qed.
Print Assumptions C148_hello_never.

(** *** The toy primitives *)
Lemma toy_plain_ok : plain_ok toy.
Proof.
  intros a k n h c p O H. cbn [unseal toy] in H. destruct (bytes_eqb c _) in H; [|discriminate H]. injection H as <-.
  split; [unfold bytes_ok in *; rewrite Forall_forall in *; intros b B; apply O; rewrite <- (firstn_skipn (length c - 16) c); apply in_or_app; left; exact B|].
  unfold blen. rewrite firstn_length. lia.
Qed.
Definition update : bytes := [24; 0; 0; 1; 0].
Definition toy_update (seq : N) : bytes := match protect toy toy_key seq (inner_plaintext update 22 2) with Some raw => raw | None => [] end.
(** A KeyUpdate in clear before the keys are agreed; a protected one on an open connection,
    after a ChangeCipherSpec, in two pieces; the same bytes with a wrong number, or changed,
    are only an error; a Finished of three bytes. *)
Example C148_sample :
  plain_ok toy /\ sizes_ok toy /\ key_ok toy_key /\ key_update update /\
  fst (fst (receive_plaintext_message {| rr_in := [20; 3; 3; 0; 1; 1; 22; 3; 3; 0; 5] ++ update; rr_state := RActive |} [])) = Done Panic /\
  fst (fst (receive_plaintext_message {| rr_in := [20; 3; 3; 0; 1; 1; 22; 3; 3; 0; 3; 24; 0; 0]; rr_state := RActive |} [])) = Done (Err TInvalidMessageRecord) /\
  (let c := toy_conn toy_key2 toy_key in let d := [20; 3; 3; 0; 1; 1] ++ toy_update 0 in
   fst (fst (conn_read toy c 9 [ARead d])) = Done Panic /\
   fst (fst (conn_read toy (snd (fst (conn_read toy c 9 [ARead (firstn 9 d)]))) 9 [ARead (skipn 9 d)])) = Done Panic /\
   fst (fst (conn_read toy c 9 [ARead (toy_update 1)])) = Done (Err TDecryptionFailed) /\
   fst (fst (conn_read toy c 9 [ARead (firstn 12 (toy_update 0) ++ [9] ++ skipn 13 (toy_update 0))])) = Done (Err TDecryptionFailed)) /\
  outcome_of (toy_run SaSelfSigned [toy_m1; toy_m4 [1; 2; 3]]) = Some Panic /\
  outcome_of (toy_run SaSelfSigned [toy_m1; update]) = Some Panic /\
  outcome_of (toy_run SaSelfSigned [toy_m2; update]) = Some (Err TUnexpectedMessage).
Proof.
  split; [exact toy_plain_ok|]. split; [exact toy_sizes_ok|]. split; [repeat split; repeat constructor; cbn; lia|]. split; [exists 0, 0, 1, [0]; reflexivity|].
  split; [vm_compute; reflexivity|]. split; [vm_compute; reflexivity|]. split; [repeat split; vm_compute; reflexivity|]. repeat split; vm_compute; reflexivity.
Qed.
