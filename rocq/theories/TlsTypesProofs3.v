(** Writing TLS messages. *)
From Verif Require Import Base BaseProofs BinaryModel BinarySpec BinaryProofs BinaryProofs2
  Asn1Model X509Model TlsCodesModel TlsTypesModel TlsTypesSpec TlsTypesProofs TlsTypesProofs2.
Local Open Scope N_scope.
Ltac Zify.zify_post_hook ::= Z.div_mod_to_equations.

(** The writer [w] appends [e] if [P], and otherwise finds a length too large. *)
Definition wspec (w : wr) (P : Prop) (e : bytes) : Prop :=
  forall d, (P /\ w d = (Ok tt, d ++ e)) \/ (~ P /\ exists z, w d = (Err BValueTooLarge, d ++ z)).
Lemma wspec_bind w1 w2 P1 P2 e1 e2 : wspec w1 P1 e1 -> wspec w2 P2 e2 -> wspec (w1;; w2) (P1 /\ P2) (e1 ++ e2).
Proof.
  intros H1 H2 d. unfold wbind. destruct (H1 d) as [[p ->]|(np & z & ->)].
  - destruct (H2 (d ++ e1)) as [[q ->]|(nq & z & ->)].
    + left. rewrite app_assoc. auto.
    + right. split; [tauto|]. exists (e1 ++ z). rewrite app_assoc. reflexivity.
  - right. split; [tauto|]. eauto.
Qed.
Lemma wspec_raw b : wspec (write_raw b) True b.
Proof. intros d. left. auto. Qed.
Lemma wspec_ret : wspec wret True [].
Proof. intros d. left. rewrite app_nil_r. auto. Qed.
Lemma wspec_u16 v : wspec (write_u16 v) True (be_bytes 2 v).
Proof. apply wspec_raw. Qed.
Lemma wspec_u8 v : v < 256 -> wspec (write_u8 v) True (be_bytes 1 v).
Proof. intros L. rewrite be_bytes_one by exact L. apply wspec_raw. Qed.
Lemma wspec_iff w P P' e e' : wspec w P e -> (P <-> P') -> e = e' -> wspec w P' e'.
Proof. intros H I <- d. destruct (H d) as [[? ?]|[? ?]]; [left|right]; split; tauto. Qed.
Lemma wspec_bytes w b : In w [1; 2; 3]%nat -> wspec (write_bytes w b) (fit w b) (vec w b).
Proof.
  intros I d. rewrite write_bytes_ok by exact I. unfold fit. destruct (N.ltb_spec (blen b) (256 ^ N.of_nat w)).
  - left. auto.
  - right. split; [lia|]. exists []. rewrite app_nil_r. reflexivity.
Qed.
Lemma wspec_items {A} (item : A -> wr) (P : A -> Prop) (en : A -> bytes) l :
  (forall x, In x l -> wspec (item x) (P x) (en x)) -> wspec (write_items item l) (Forall P l) (concat (map en l)).
Proof.
  induction l as [|x l IH]; intros H; cbn [write_items map concat].
  - eapply wspec_iff; [apply wspec_ret| |reflexivity]. split; auto.
  - eapply wspec_iff; [apply wspec_bind; [apply H; left; reflexivity|apply IH; intros y I; apply H; right; exact I]| |reflexivity].
    split; [intros [? ?]; auto|intros F; inversion F; auto].
Qed.
Lemma wspec_list {A} w (item : A -> wr) (P : A -> Prop) (en : A -> bytes) l : In w [1; 2; 3]%nat ->
  (forall x, In x l -> wspec (item x) (P x) (en x)) ->
  wspec (write_list w item l) (Forall P l /\ fit w (concat (map en l))) (vecs w (map en l)).
Proof.
  intros I H d. pose proof (wspec_items item P en l H (d ++ repeat 0 w)) as [[p E]|(np & z & E)].
  - rewrite (write_list_ok w item l d _ I E). unfold fit. destruct (N.ltb_spec (blen (concat (map en l))) (256 ^ N.of_nat w)).
    + left. auto.
    + right. split; [lia|]. exists []. rewrite app_nil_r. reflexivity.
  - right. split; [tauto|]. rewrite <- app_assoc in E. rewrite (write_list_err w item l d _ _ I E). exists []. rewrite app_nil_r. reflexivity.
Qed.
Lemma wspec_nested f P e : wspec f P e -> wspec (write_u16_nested f) P (vec 2 e).
Proof.
  intros H d. unfold write_u16_nested. destruct (H (d ++ [0; 0])) as [[p ->]|(np & z & ->)].
  - left. split; [exact p|]. f_equal. rewrite <- app_assoc. rewrite patch_ok by reflexivity. unfold vec. f_equal. f_equal.
    replace (blen (d ++ [0; 0] ++ e) - (N.of_nat (length d) + 2)) with (blen e)
      by (rewrite !blen_app; unfold blen; cbn [length]; lia).
    change two16 with (256 ^ N.of_nat 2). apply be_bytes_mod.
  - right. split; [exact np|]. exists []. rewrite app_nil_r, <- app_assoc, firstn_app_length. reflexivity.
Qed.

Lemma fit_True : True <-> True. Proof. tauto. Qed.
Ltac wdone := first [reflexivity | tauto | idtac].
Lemma wspec_server_name x : server_name_ok x -> wspec (write_server_name x)
  match x with HostName s => fit 2 s | OtherName _ d => fit 2 d end (server_name_bytes x).
Proof.
  intros O. destruct x as [s|c d]; cbn [write_server_name server_name_bytes server_name_ok] in *.
  - eapply wspec_iff; [apply wspec_bind; [apply wspec_u8|apply (wspec_bytes 2); apply in2]|tauto|reflexivity]. lia.
  - eapply wspec_iff; [apply wspec_bind; [apply wspec_u8|apply (wspec_bytes 2); apply in2]|tauto|rewrite <- be1_cons by lia; reflexivity]. lia.
Qed.
Lemma wspec_key_share k : wspec (write_key_share k) (fit 2 (ks_key k)) (key_share_bytes k).
Proof.
  eapply wspec_iff; [apply wspec_bind; [apply wspec_u16|apply (wspec_bytes 2); apply in2]|tauto|reflexivity].
Qed.
Lemma wspec_simple {A} w (item : A -> wr) (en : A -> bytes) l : In w [1; 2; 3]%nat ->
  (forall x, In x l -> wspec (item x) True (en x)) ->
  wspec (write_list w item l) (fit w (concat (map en l))) (vecs w (map en l)).
Proof.
  intros I H. eapply wspec_iff; [apply (wspec_list w item (fun _ => True)); eauto| |reflexivity].
  split; [tauto|]. intros F. split; [apply Forall_forall; auto|exact F].
Qed.
Lemma wspec_field c w P e : wspec w P e -> wspec (write_u16 c;; write_u16_nested w) P (be_bytes 2 c ++ vec 2 e).
Proof. intros H. eapply wspec_iff; [apply wspec_bind; [apply wspec_u16|apply wspec_nested; exact H]|tauto|reflexivity]. Qed.
Lemma wspec_extension ctx x : extension_ok ctx x -> extension_writable ctx x ->
  wspec (write_extension x) (parts_fit x) (extension_bytes ctx x).
Proof.
  intros O W. unfold extension_bytes. destruct x; cbn [write_extension extension_parts extension_ok extension_writable parts_fit] in *.
  - apply wspec_field, (wspec_list 2); [apply in2|]. intros x _. apply (wspec_bytes 1), in1.
  - apply wspec_field, (wspec_simple 2); [apply in2|]. intros x _. apply wspec_u16.
  - subst ctx. apply wspec_field, (wspec_list 2); [apply in2|]. intros x I. rewrite Forall_forall in O. apply wspec_server_name. auto.
  - apply wspec_field, (wspec_simple 2); [apply in2|]. intros x _. apply wspec_u16.
  - apply wspec_field, (wspec_simple 1); [apply in1|]. intros x I. rewrite Forall_forall in O. apply wspec_u8.
    eapply proper_lt; [apply point_format_codes|auto|reflexivity].
  - apply wspec_field, wspec_raw.
  - apply wspec_field, wspec_ret.
  - apply wspec_field, wspec_ret.
  - apply wspec_field, wspec_raw.
  - apply wspec_field, wspec_ret.
  - apply wspec_field, wspec_raw.
  - apply wspec_field, (wspec_simple 1); [apply in1|]. intros x I. rewrite Forall_forall in O. apply wspec_u8.
    eapply proper_lt; [apply psk_mode_codes|auto|reflexivity].
  - destruct W.
  - apply wspec_field, (wspec_list 2); [apply in2|]. intros x _. apply wspec_key_share.
  - apply wspec_field, wspec_key_share.
  - apply wspec_field, wspec_raw.
Qed.
Lemma wspec_extensions ctx l : Forall (extension_ok ctx) l -> Forall (extension_writable ctx) l ->
  wspec (write_len16_list write_extension l) (extensions_fit ctx l) (extensions_bytes ctx l).
Proof.
  intros O W. apply (wspec_list 2); [apply in2|]. intros x I. rewrite Forall_forall in O, W. apply wspec_extension; auto.
Qed.
Lemma wspec_handshake h t b c w : handshake_ok h -> handshake_writable h -> handshake_parts h = Some (t, b) ->
  handshake_writer h = Some (c, w) -> c = t /\ wspec w (handshake_fits h) b.
Proof.
  intros O W E1 E2. destruct h; try discriminate; cbn [handshake_parts handshake_writer handshake_ok handshake_writable handshake_fits] in *;
    apply some_pair in E1; apply some_pair in E2; destruct E1 as [<- <-]; destruct E2 as [<- <-]; split; try reflexivity.
  - destruct O as (_ & _ & O & X). unfold write_client_hello.
    eapply wspec_iff; [repeat apply wspec_bind; [apply wspec_u16|apply wspec_raw|apply (wspec_bytes 1); apply in1| |
      apply (wspec_bytes 1); apply in1|apply wspec_extensions; eassumption]| |reflexivity].
    + apply (wspec_simple 2 _ (fun c => be_bytes 2 (cipher_suite_to c))); [apply in2|]. intros x _. apply wspec_u16.
    + unfold suites_bytes. tauto.
  - destruct O as (_ & _ & _ & C & X). unfold write_server_hello.
    eapply wspec_iff; [repeat apply wspec_bind; [apply wspec_u16|apply wspec_raw|apply (wspec_bytes 1); apply in1|apply wspec_u16|
      apply wspec_u8; exact C|apply wspec_extensions; eassumption]| |reflexivity].
    tauto.
  - unfold write_certificates. eapply wspec_iff; [apply wspec_bind; [apply (wspec_bytes 1); apply in1|]| |reflexivity].
    + apply (wspec_list 3 _ (fun e => fit 3 (en_data e) /\ extensions_fit InCertificate (en_extensions e))); [apply in3'|].
      intros x I. rewrite Forall_forall in O, W. unfold write_certificate_entry, entry_bytes.
      apply wspec_bind; [apply (wspec_bytes 3); apply in3'|]. apply wspec_extensions; [apply O|apply W]; exact I.
    + tauto.
  - unfold write_certificate_verify. eapply wspec_iff; [apply wspec_bind; [apply wspec_u16|apply (wspec_bytes 2); apply in2]|tauto|reflexivity].
  - apply wspec_raw.
Qed.
Lemma handshake_writer_some h : handshake_writable h ->
  exists c w t b, handshake_writer h = Some (c, w) /\ handshake_parts h = Some (t, b).
Proof. destruct h; cbn [handshake_writable handshake_writer handshake_parts]; intros W; try (destruct W; fail); eauto 10. Qed.
Lemma write_handshake_ok h t b d : handshake_ok h -> handshake_writable h -> handshake_parts h = Some (t, b) ->
  (handshake_fits h /\ write_handshake h d = (Ok tt, d ++ handshake_bytes t b)) \/
  (~ handshake_fits h /\ write_handshake h d = (Err BValueTooLarge, d)).
Proof.
  intros O W E. destruct (handshake_writer_some h W) as (c & w & t' & b' & E1 & E2).
  rewrite E in E2. apply some_pair in E2. destruct E2 as [<- <-].
  destruct (wspec_handshake h t b c w O W E E1) as [-> S]. unfold write_handshake. rewrite E1.
  destruct (S []) as [[F ->]|(F & z & ->)]; [left|right]; (split; [exact F|]); [|reflexivity].
  cbn [app]. unfold wbind, write_u8, write_u24, write_raw. f_equal. unfold handshake_bytes, vec. rewrite <- !app_assoc. f_equal.
  cbn [app]. f_equal. f_equal. change two32 with (256 ^ N.of_nat 4). rewrite be_bytes_mod.
  apply (be_bytes_skip 1 3).
Qed.
