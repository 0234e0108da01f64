(** C117: the TLS command line client. *)
From Verif Require Import Base BaseProofs MplexModel LpioModel LpioSpec LpioProofs PemModel PemProps CaModel HexDumpModel ChatModel Asn1Model X509Model TlsCodesModel TlsTypesModel TlsTypesSpec
  TlsRecordModel TlsRecordSpec TlsClientModel TlsClientSpec TlsClientProofs TlsClientProps TlsToolModel.
Local Open Scope string_scope. Local Open Scope list_scope. Local Open Scope N_scope.

(** A file option names a readable PEM file with this label and content. *)
Definition gives (file : option bytes) (label data : bytes) : Prop := exists l, file = Some l /\ pem_text l label data.
(** What the options ask for. *)
Definition asked (o : tool_options) (c : config) : Prop :=
  cf_name c = None /\
  match to_ca o with
  | None => cf_server c = SaNone
  | Some f => exists d, gives f (ascii_bytes "CERTIFICATE") d /\ cf_server c = SaAuthority d
  end /\
  match to_cert o, to_key o with
  | None, None => cf_client c = CaNone
  | Some f, Some g => exists d k, gives f (ascii_bytes "CERTIFICATE") d /\
      (gives g (ascii_bytes "RSA PRIVATE KEY") k /\ cf_client c = CaCertificate d (CkRsa k) \/
       gives g (ascii_bytes "PRIVATE KEY") k /\ cf_client c = CaCertificate d (CkEc k))
  | _, _ => False
  end.
Lemma decoded l p r : decode_pem l = POk p r -> r = [] /\ pem_text l (fst p) (snd p).
Proof. destruct p as [a b]. intros H. apply C51_accepts_exactly in H. exact H. Qed.
Lemma decode_text l label d : pem_text l label d -> decode_pem l = POk (label, d) [].
Proof. intros H. apply C51_accepts_exactly. auto. Qed.
Lemma read_pem_spec file label d : read_pem file label = GOk d <-> gives file label d.
Proof.
  unfold read_pem, gives, decode_pem_with_label. destruct file as [l|]; cbn [some_or gbind].
  2: { split; [discriminate|]. intros (l & X & _). discriminate. }
  split.
  - destruct (decode_pem l) as [p r|e|] eqn:E; cbn [pbind]; [|discriminate..]. destruct (bytes_eqb (fst p) label) eqn:B; [|discriminate].
    apply bytes_eqb_eq in B. intros H. assert (snd p = d) as <- by congruence. subst label. exists l. split; [reflexivity|]. apply (decoded _ _ _ E).
  - intros (l' & X & T). assert (l' = l) as -> by congruence. rewrite (decode_text _ _ _ T). cbn [pbind fst snd]. rewrite bytes_eqb_refl. reflexivity.
Qed.
Lemma read_certificate_spec o x : read_certificate o = GOk x <-> match o with None => x = None | Some f => exists d, gives f (ascii_bytes "CERTIFICATE") d /\ x = Some d end.
Proof.
  unfold read_certificate. destruct o as [f|]; [|split; congruence]. pose proof (read_pem_spec f (ascii_bytes "CERTIFICATE")) as R.
  destruct (read_pem f (ascii_bytes "CERTIFICATE")) as [d| | |]; cbn [gbind]; split; try discriminate.
  - intros H. exists d. split; [apply R; reflexivity|congruence].
  - intros (d' & G & ->). apply R in G. congruence.
  - intros (d' & G & _). apply R in G. discriminate.
  - intros (d' & G & _). apply R in G. discriminate.
  - intros (d' & G & _). apply R in G. discriminate.
Qed.
Lemma read_key_spec o x : read_client_key o = GOk x <-> match o with None => x = None | Some f => exists d,
  gives f (ascii_bytes "RSA PRIVATE KEY") d /\ x = Some (CkRsa d) \/ gives f (ascii_bytes "PRIVATE KEY") d /\ x = Some (CkEc d) end.
Proof.
  unfold read_client_key, gives. destruct o as [f|]; [|split; congruence]. destruct f as [l|]; cbn [some_or gbind].
  2: { split; [discriminate|]. intros (d & [((l & X & _) & _)|((l & X & _) & _)]); discriminate. }
  split.
  - destruct (decode_pem l) as [p r|e|] eqn:E; [|discriminate..]. destruct p as [lab d]. apply decoded in E. cbn [fst snd] in E. destruct E as [_ E].
    destruct (bytes_eqb lab (ascii_bytes "RSA PRIVATE KEY")) eqn:B.
    + apply bytes_eqb_eq in B. intros H. exists d. left. split; [|congruence]. exists l. split; [reflexivity|congruence].
    + destruct (bytes_eqb lab (ascii_bytes "PRIVATE KEY")) eqn:B2; [|discriminate]. apply bytes_eqb_eq in B2. intros H. exists d. right. split; [|congruence]. exists l. split; [reflexivity|congruence].
  - intros (d & [((l' & X & T) & ->)|((l' & X & T) & ->)]); assert (l' = l) as -> by congruence; rewrite (decode_text _ _ _ T); reflexivity.
Qed.
(** C117: the configuration is the one the options ask for; anything missing, unreadable,
    mislabelled or half given is refused. *)
Theorem C117_options_exact o c : parse_args o = GOk c <-> asked o c.
Proof.
  unfold parse_args, asked. pose proof (read_certificate_spec (to_ca o)) as A. pose proof (read_certificate_spec (to_cert o)) as B. pose proof (read_key_spec (to_key o)) as K.
  destruct (read_certificate (to_ca o)) as [ca| | |] eqn:Ea; cbn [gbind].
  2,3,4: (split; [discriminate|]; intros (_ & H & _); exfalso; destruct (to_ca o) as [f|];
     [destruct H as (d & G & _); pose proof (proj2 (A (Some d)) (ex_intro _ d (conj G eq_refl))) as Q; discriminate Q
     |pose proof (proj2 (A None) eq_refl) as Q; discriminate Q]).
  destruct (read_certificate (to_cert o)) as [ce| | |] eqn:Eb; cbn [gbind].
  2,3,4: (split; [discriminate|]; intros (_ & _ & H); exfalso; destruct (to_cert o) as [f|];
     [destruct (to_key o) as [g|]; [|exact H]; destruct H as (d & k & G & _); pose proof (proj2 (B (Some d)) (ex_intro _ d (conj G eq_refl))) as Q; discriminate Q
     |pose proof (proj2 (B None) eq_refl) as Q; discriminate Q]).
  assert (SA : forall s, (match to_ca o with None => s = SaNone | Some f => exists d, gives f (ascii_bytes "CERTIFICATE") d /\ s = SaAuthority d end) <-> s = match ca with Some c => SaAuthority c | None => SaNone end).
  { intros s. pose proof (proj1 (A ca) eq_refl) as A1. destruct (to_ca o) as [f|].
    - destruct A1 as (d & G & ->). split; [|intros ->; eauto]. intros (d' & G' & ->). assert (Q : Some d = Some d') by (assert (GOk (Some d) = GOk (Some d')) by (apply A; eauto); congruence). congruence.
    - subst ca. reflexivity. }
  destruct (read_client_key (to_key o)) as [k| | |] eqn:Ek; cbn [gbind].
  2,3,4: (split; [discriminate|]; intros (_ & _ & H); exfalso; destruct (to_cert o) as [f|], (to_key o) as [g|]; try exact H;
     [destruct H as (d & k & _ & [[G _]|[G _]]); [pose proof (proj2 (K (Some (CkRsa k))) (ex_intro _ k (or_introl (conj G eq_refl)))) as Q|pose proof (proj2 (K (Some (CkEc k))) (ex_intro _ k (or_intror (conj G eq_refl)))) as Q]; discriminate Q
     |pose proof (proj2 (K None) eq_refl) as Q; discriminate Q]).
  assert (CL : forall cl, (match to_cert o, to_key o with
      | None, None => cl = CaNone
      | Some f, Some g => exists d k, gives f (ascii_bytes "CERTIFICATE") d /\ (gives g (ascii_bytes "RSA PRIVATE KEY") k /\ cl = CaCertificate d (CkRsa k) \/ gives g (ascii_bytes "PRIVATE KEY") k /\ cl = CaCertificate d (CkEc k))
      | _, _ => False end) <-> match ce, k with Some c, Some k => GOk (CaCertificate c k) | Some _, None => GErr | None, Some _ => GErr | None, None => GOk CaNone end = GOk cl).
  { intros cl. pose proof (proj1 (B ce) eq_refl) as B1. pose proof (proj1 (K k) eq_refl) as K1.
    destruct (to_cert o) as [f|], (to_key o) as [g|].
    - destruct B1 as (d & G & ->). destruct K1 as (kd & K1). split.
      + intros (d' & k' & G' & H). assert (D : GOk (Some d) = GOk (Some d')) by (apply B; eauto). assert (d' = d) as -> by congruence.
        destruct H as [[H ->]|[H ->]].
        * assert (Q : GOk k = GOk (Some (CkRsa k'))) by (apply K; eauto). assert (k = Some (CkRsa k')) as -> by congruence. reflexivity.
        * assert (Q : GOk k = GOk (Some (CkEc k'))) by (apply K; eauto). assert (k = Some (CkEc k')) as -> by congruence. reflexivity.
      + intros H. exists d, kd. split; [exact G|]. destruct K1 as [[H1 ->]|[H1 ->]]; [left|right]; (split; [exact H1|congruence]).
    - subst k. destruct B1 as (d & G & ->). split; [intros []|discriminate].
    - subst ce. destruct K1 as (kd & [[_ ->]|[_ ->]]); (split; [intros []|discriminate]).
    - subst ce k. split; congruence. }
  split.
  - intros H. destruct (match ce, k with Some c, Some k => GOk (CaCertificate c k) | Some _, None => GErr | None, Some _ => GErr | None, None => GOk CaNone end) as [cl| | |] eqn:E; cbn [gbind] in H; [|discriminate..].
    assert (c = {| cf_client := cl; cf_server := match ca with Some c => SaAuthority c | None => SaNone end; cf_name := None |}) as -> by congruence.
    cbn [cf_client cf_server cf_name]. split; [reflexivity|]. split; [apply SA; reflexivity|]. apply CL. reflexivity.
  - intros (H1 & H2 & H3). apply SA in H2. apply CL in H3. rewrite H3. cbn [gbind]. destruct c as [a b n]. cbn [cf_client cf_server cf_name] in *. congruence.
Qed.
Print Assumptions C117_options_exact.
(** C117: without [--ca-cert] no server is accepted at all: the tool never has a connection,
    whatever the peer sends and however the transport behaves. *)
Theorem C117_without_ca_never_connects P random session private o cfg address protocols polls c rx tx : sizes_ok P -> aead_ok P -> length random = 32%nat ->
  to_ca o = None -> tool_setup o = GOk (cfg, address, protocols) ->
  handshake_run P (establish P random session private cfg protocols) polls <> (Some (Ok c), rx, tx).
Proof.
  intros S A L N T H. unfold tool_setup in T. destruct (parse_args o) as [c0| | |] eqn:E; cbn [gbind] in T; [|discriminate..].
  apply C117_options_exact in E. destruct E as (_ & E & _). rewrite N in E.
  assert (cfg = {| cf_client := cf_client c0; cf_server := cf_server c0; cf_name := Some (ascii_bytes "localhost") |}) as -> by congruence.
  apply C58_only_authentic_servers in H; [|exact S|exact A|exact L|reflexivity].
  destruct H as (hello & h & client & whole & _ & Q & _). unfold authentic in Q.
  destruct Q as (consumed & raw0 & raws & b0 & sh & a & share & secret & bodies & bv & bf & messages & ee & cr & certs & leaf & more & cv & fin & ca & Q). cbv zeta in Q.
  destruct Q as (_ & _ & _ & _ & _ & _ & _ & _ & _ & _ & _ & [T1|[T1 _]] & _); cbn [cf_server] in T1; congruence.
Qed.
Print Assumptions C117_without_ca_never_connects.
(** C117: with [--ca-cert], a connection means that the peer proved the key of a certificate
    issued by the certificate in that file. *)
Theorem C117_with_ca_only_certified P random session private o f cfg address protocols polls c rx tx : sizes_ok P -> aead_ok P -> length random = 32%nat ->
  to_ca o = Some f -> tool_setup o = GOk (cfg, address, protocols) ->
  handshake_run P (establish P random session private cfg protocols) polls = (Some (Ok c), rx, tx) ->
  exists ca leaf thash cv, gives f (ascii_bytes "CERTIFICATE") ca /\ issued_by P ca (en_data leaf) /\
    signed_by P (bs_bytes (sp_key (tb_key (ce_tbs (en_certificate leaf))))) "TLS 1.3, server CertificateVerify" thash cv.
Proof.
  intros S A L N T H. unfold tool_setup in T. destruct (parse_args o) as [c0| | |] eqn:E; cbn [gbind] in T; [|discriminate..].
  apply C117_options_exact in E. destruct E as (_ & E & _). rewrite N in E. destruct E as (d & G & Es).
  assert (cfg = {| cf_client := cf_client c0; cf_server := cf_server c0; cf_name := Some (ascii_bytes "localhost") |}) as -> by congruence.
  apply C58_only_authentic_servers in H; [|exact S|exact A|exact L|reflexivity].
  destruct H as (hello & h & client & whole & _ & Q & _). unfold authentic in Q.
  destruct Q as (consumed & raw0 & raws & b0 & sh & a & share & secret & bodies & bv & bf & messages & ee & cr & certs & leaf & more & cv & fin & ca & Q). cbv zeta in Q.
  destruct Q as (_ & _ & _ & _ & _ & _ & _ & _ & _ & _ & _ & [T1|[T1 _]] & Q1 & Q2 & _); cbn [cf_server] in T1; [|congruence].
  assert (ca = d) as -> by congruence. exists d, leaf, (digest P h (hello ++ b0 ++ concat bodies)), cv. auto.
Qed.
Print Assumptions C117_with_ca_only_certified.
(** C117, refuted in part: the server name sent is "localhost" whatever address is connected
    to, and both protocols are offered although only HTTP/1.1 is spoken. *)
Theorem C117_name_is_fixed_refuted o a cfg address protocols : to_address o = Some a -> tool_setup o = GOk (cfg, address, protocols) ->
  address = a /\ cf_name cfg = Some (ascii_bytes "localhost") /\ protocols = [ascii_bytes "h2"; ascii_bytes "http/1.1"].
Proof.
  intros A T. unfold tool_setup in T. destruct (parse_args o) as [c0| | |]; cbn [gbind] in T; [|discriminate..]. rewrite A in T.
  assert (cfg = {| cf_client := cf_client c0; cf_server := cf_server c0; cf_name := Some (ascii_bytes "localhost") |}) as -> by congruence. split; [congruence|]. split; [reflexivity|congruence].
Qed.
Print Assumptions C117_name_is_fixed_refuted.
(** C117: the fixed request is sent, and everything the server sends back is printed, once and
    in order, in pieces of at most 65536 bytes; then the end.  However it arrives. *)
Theorem C117_response_is_printed src data : LpioSpec.carries src data ->
  exists chunks, test_http src = (http_request, Some (Ok tt), concat (map print_chunk chunks) ++ ascii_bytes "received EOF" ++ [10]) /\
    concat chunks = data /\ Forall (fun d => d <> [] /\ blen d <= 65536) chunks.
Proof.
  intros [C E]. unfold test_http.
  assert (L : forall fuel src data, (length src < fuel)%nat -> clean src -> bytes_of src = data ->
    exists chunks, http_loop fuel src = (Some (Ok tt), concat (map print_chunk chunks) ++ ascii_bytes "received EOF" ++ [10]) /\ concat chunks = data /\ Forall (fun d => d <> [] /\ blen d <= 65536) chunks).
  { clear src data C E. induction fuel as [|fuel IH]; intros src data L C E; [lia|]. cbn [http_loop].
    destruct (await_read (S (length src)) None (N.to_nat 65536) src) as [[r lim] s] eqn:R.
    apply await_read_spec in R; [|lia|exact C|lia]. destruct R as (d & -> & (M1 & M2 & M3 & M4 & M5) & Ld & Z).
    destruct d as [|b d].
    - exists []. split; [reflexivity|]. split; [|constructor]. specialize (Z eq_refl). cbn [effective] in Z. cbn [concat]. congruence.
    - destruct (IH s (bytes_of s) ltac:(cbn [length] in M5; lia) M4 eq_refl) as (chunks & -> & Ec & F). exists ((b :: d) :: chunks). cbn [map concat].
      split; [rewrite <- app_assoc; reflexivity|]. split; [rewrite Ec; congruence|]. constructor; [|exact F]. split; [discriminate|]. unfold blen. lia. }
  destruct (L (S (length src)) src data ltac:(lia) C E) as (chunks & -> & X). exists chunks. split; [reflexivity|exact X].
Qed.
Print Assumptions C117_response_is_printed.
Theorem C117_request : http_request = concat (map (fun l => ascii_bytes l ++ [13; 10]) ["GET / HTTP/1.1"; "Host: localhost"; "Connection: close"; ""]).
Proof. reflexivity. Qed.
Print Assumptions C117_request.
(** C117, refuted in part: the tool does not even return from reading its options for some
    files (the loop of C51); it never panics over them. *)
Theorem C117_options_hang_refuted : (exists o, parse_args o = GLoop) /\ forall o, parse_args o <> GPanic.
Proof.
  split.
  - destruct C51_terminates_refuted as (l & L). exists {| to_ca := Some (Some l); to_cert := None; to_key := None; to_address := None |}.
    unfold parse_args, read_certificate, read_pem, decode_pem_with_label. cbn [to_ca some_or gbind]. rewrite L. reflexivity.
  - assert (R : forall f label, read_pem f label <> GPanic).
    { intros [l|] label; cbn [read_pem some_or gbind]; [|discriminate]. destruct (decode_pem_with_label l label); discriminate. }
    assert (C : forall x, read_certificate x <> GPanic).
    { intros [f|]; [|discriminate]. cbn [read_certificate]. specialize (R f (ascii_bytes "CERTIFICATE")). destruct (read_pem f (ascii_bytes "CERTIFICATE")); cbn [gbind]; congruence. }
    intros o. unfold parse_args. pose proof (C (to_ca o)) as C1. pose proof (C (to_cert o)) as C2.
    destruct (read_certificate (to_ca o)); cbn [gbind]; try congruence. destruct (read_certificate (to_cert o)) as [ce| | |]; cbn [gbind]; try congruence.
    assert (K : read_client_key (to_key o) <> GPanic).
    { destruct (to_key o) as [[l|]|]; cbn [read_client_key some_or gbind]; try discriminate. destruct (decode_pem l) as [[lab d] r|e|]; try discriminate.
      destruct (bytes_eqb lab (ascii_bytes "RSA PRIVATE KEY")); [discriminate|]. destruct (bytes_eqb lab (ascii_bytes "PRIVATE KEY")); discriminate. }
    destruct (read_client_key (to_key o)) as [k| | |]; cbn [gbind]; try congruence. destruct ce, k; cbn [gbind]; discriminate.
Qed.
Print Assumptions C117_options_hang_refuted.
(** A configuration with all three files, and one with a certificate but no key. *)
Definition pem_file (label : string) (d : bytes) : option (option bytes) := Some (Some (encode_pem d (ascii_bytes label))).
Example C117_example :
  parse_args {| to_ca := pem_file "CERTIFICATE" [1; 2]; to_cert := pem_file "CERTIFICATE" [3]; to_key := pem_file "PRIVATE KEY" [4; 5]; to_address := None |} =
    GOk {| cf_client := CaCertificate [3] (CkEc [4; 5]); cf_server := SaAuthority [1; 2]; cf_name := None |} /\
  parse_args {| to_ca := None; to_cert := pem_file "CERTIFICATE" [3]; to_key := None; to_address := None |} = GErr /\
  parse_args {| to_ca := None; to_cert := pem_file "CERTIFICATE" [3]; to_key := pem_file "EC PRIVATE KEY" [4]; to_address := None |} = GErr /\
  parse_args {| to_ca := pem_file "PRIVATE KEY" [1]; to_cert := None; to_key := None; to_address := None |} = GErr /\
  print_chunk (ascii_bytes "HTTP/1.1 200 OK") = ascii_bytes "r = 15" ++ [10] ++ ascii_bytes "receive application data =" ++ [10] ++
    ascii_bytes "    00000000  48 54 54 50 2f 31 2e 31  20 32 30 30 20 4f 4b     |HTTP/1.1 200 OK|" ++ [10].
Proof. repeat split; vm_compute; reflexivity. Qed.
