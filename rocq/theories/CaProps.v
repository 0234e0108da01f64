(** The certificate generator of bin/x509.rs, C101. *)
From Verif Require Import Base BaseProofs UtilModel PemModel PemProps Asn1Model Asn1Spec Asn1Proofs Asn1Props X509Model X509Spec X509Proofs X509Props CaModel.
Local Open Scope string_scope. Local Open Scope list_scope. Local Open Scope N_scope.

(** X.690 8.1: an encoding with a one-byte tag and a definite length. *)
Definition der (tag : N) (content : bytes) : bytes := tag :: encode_length (blen content) ++ content.
(** rsaEncryption and sha256WithRSAEncryption with NULL parameters, RFC 4055. *)
Definition rsa_der : bytes := [48; 13; 6; 9; 42; 134; 72; 134; 247; 13; 1; 1; 1; 5; 0].
Definition sha256_rsa_der : bytes := [48; 13; 6; 9; 42; 134; 72; 134; 247; 13; 1; 1; 11; 5; 0].
(** One relative distinguished name under 2.5.4. *)
Definition part_der (arc tag : N) (s : string) : bytes := der 49 (der 48 ([6; 3; 85; 4; arc] ++ der tag (ascii_bytes s))).
Definition issuer_der : bytes := der 48 (part_der 6 19 "US" ++ part_der 10 12 "My Personal CA" ++ part_der 3 12 "my.personal.ca").
Definition subject_der : bytes := der 48 (part_der 3 12 "client").
Definition validity_der : bytes := der 48 (der 23 (ascii_bytes "210515162539Z") ++ der 23 (ascii_bytes "220312162539Z")).
(** A BIT STRING of whole bytes. *)
Definition bits_der (d : bytes) : bytes := der 3 (0 :: d).
Definition serial : bytes := [0; 254; 206; 10; 158; 170; 62; 221; 195].
(** authorityKeyIdentifier: the issuer as a directory name, and a serial number. *)
Definition authority : bytes := der 48 (der 161 (der 164 issuer_der) ++ der 130 [0; 215; 195; 216; 133; 250; 104; 117; 29]).
(** A non-critical extension under 2.5.29 (the flag is left out, X.690 11.5). *)
Definition extension_der (arc : N) (data : bytes) : bytes := der 48 ([6; 3; 85; 29; arc] ++ der 4 data).
(** RFC 5280 4.1: everything that is signed, for the subject's key. *)
Definition signed_der (key : bytes) : bytes :=
  der 48 (der 160 [2; 1; 2] ++ der 2 serial ++ sha256_rsa_der ++ issuer_der ++ validity_der ++ subject_der ++
          der 48 (rsa_der ++ bits_der key) ++
          der 163 (der 48 (extension_der 35 authority ++ extension_der 19 [48; 0] ++ extension_der 15 [3; 2; 4; 240]))).
Definition certificate_der (key signature : bytes) : bytes := der 48 (signed_der key ++ sha256_rsa_der ++ bits_der signature).

Lemma enc_seq s e l d : encode_list l = Ok d -> encode_item (Item s e (VSequence l)) = Ok (der 48 d).
Proof. intros H. change (encode_item (Item s e (VSequence l))) with (let? d := encode_list l in encode_raw CUniversal FConstructed 16 d). rewrite H. cbn [bind]. rewrite encode_raw_ok by lia. reflexivity. Qed.
Lemma enc_cons i l a b : encode_item i = Ok a -> encode_list l = Ok b -> encode_list (i :: l) = Ok (a ++ b).
Proof. intros H1 H2. change (encode_list (i :: l)) with (let? a := encode_item i in let? b := encode_list l in Ok (a ++ b)). rewrite H1, H2. reflexivity. Qed.
Lemma enc_one i a : encode_item i = Ok a -> encode_list [i] = Ok a.
Proof. intros H. rewrite (enc_cons i [] a []) by (exact H || reflexivity). rewrite app_nil_r. reflexivity. Qed.
Lemma enc_bits d : encode_item (bits_to {| bs_unused := 0; bs_bytes := d |}) = Ok (bits_der d).
Proof. change (encode_item (bits_to {| bs_unused := 0; bs_bytes := d |})) with (encode_raw CUniversal FPrimitive 3 (0 :: d)). rewrite encode_raw_ok by lia. reflexivity. Qed.
(** The unsigned certificate with its constants as bytes. *)
Definition plain_tbs (key : bytes) : tbs := ca_tbs serial authority [48; 0] [3; 2; 4; 240] key.
Lemma enc_tbs key : encode_item (tbs_to (plain_tbs key)) = Ok (signed_der key).
Proof.
  unfold tbs_to, plain_tbs, ca_tbs, signed_der. cbn [tb_version tb_serial tb_signature tb_issuer tb_validity tb_subject tb_key tb_extensions app].
  apply enc_seq. repeat match goal with
  | |- encode_list [_] = _ => apply enc_one
  | |- encode_list (_ :: _) = _ => apply enc_cons
  end; try (match goal with |- context [key] => fail 1 | _ => vm_compute; reflexivity end).
  unfold spki_to. cbn [sp_alg sp_key]. apply enc_seq, enc_cons; [vm_compute; reflexivity|]. apply enc_one, enc_bits.
Qed.
Lemma enc_certificate key sg : encode_item (item_of (VSequence [tbs_to (plain_tbs key); algorithm_to (with_null CRYPTO_SHA_256_WITH_RSA_ENCRYPTION); bits_to {| bs_unused := 0; bs_bytes := sg |}])) = Ok (certificate_der key sg).
Proof. unfold certificate_der, item_of. apply enc_seq, enc_cons; [apply enc_tbs|]. apply enc_cons; [vm_compute; reflexivity|]. apply enc_one, enc_bits. Qed.
Lemma read_pem_ok l label d : read_pem (Some l) label = GOk d <-> pem_text l label d.
Proof.
  unfold read_pem, decode_pem_with_label. cbn [some_or gbind]. split.
  - destruct (decode_pem l) as [[lb x] r|e|] eqn:E; cbn [pbind fst snd]; try discriminate. destruct (bytes_eqb lb label) eqn:Q; [|discriminate]. apply bytes_eqb_eq in Q. subst lb.
    intros H. injection H as <-. exact (proj2 (proj1 (C51_accepts_exactly _ _ _ _) E)).
  - intros H. rewrite (proj2 (C51_accepts_exactly l label d []) (conj eq_refl H)). cbn [pbind fst snd]. rewrite bytes_eqb_refl. reflexivity.
Qed.
Lemma read_pem_loop l label : read_pem (Some l) label = GLoop <-> stops l.
Proof.
  rewrite <- C51_loops_exactly. unfold read_pem, decode_pem_with_label. cbn [some_or gbind]. destruct (decode_pem l) as [[lb x] r|e|]; cbn [pbind fst snd]; [|split; discriminate|split; reflexivity].
  destruct (bytes_eqb lb label); split; discriminate.
Qed.
Lemma read_pem_panic l label : read_pem l label <> GPanic.
Proof. unfold read_pem. destruct l as [l|]; cbn [some_or gbind]; [|discriminate]. destruct (decode_pem_with_label l label); discriminate. Qed.
(** The program once its constants are decoded. *)
Lemma generate_eq from_der subject signer : generate from_der subject signer =
  gbind (read_pem subject (ascii_bytes "RSA PRIVATE KEY")) (fun sd =>
  gbind (some_or (from_der sd)) (fun sk =>
  gbind (read_pem signer (ascii_bytes "RSA PRIVATE KEY")) (fun cd =>
  gbind (some_or (from_der cd)) (fun ck =>
  gbind (some_or (rk_sign ck (signed_der (rk_public sk)))) (fun sg =>
  GOk (encode_pem (certificate_der (rk_public sk) sg) (ascii_bytes "CERTIFICATE"))))))).
Proof.
  unfold generate.
  replace (from_hex (ascii_bytes "00fece0a9eaa3eddc3")) with (Some serial) by (vm_compute; reflexivity).
  replace (from_hex (ascii_bytes "3050a143a441303f310b300906035504061302555331173015060355040a0c0e4d7920506572736f6e" ++
                     ascii_bytes "616c2043413117301506035504030c0e6d792e706572736f6e616c2e6361820900d7c3d885fa68751d")) with (Some authority) by (vm_compute; reflexivity).
  replace (from_hex (ascii_bytes "3000")) with (Some [48; 0]) by (vm_compute; reflexivity).
  replace (from_hex (ascii_bytes "030204f0")) with (Some [3; 2; 4; 240]) by (vm_compute; reflexivity).
  cbn [some_or gbind]. destruct (read_pem subject _) as [sd| | |]; cbn [gbind]; try reflexivity. destruct (from_der sd) as [sk|]; cbn [some_or gbind]; [|reflexivity].
  destruct (read_pem signer _) as [cd| | |]; cbn [gbind]; try reflexivity. destruct (from_der cd) as [ck|]; cbn [some_or gbind]; [|reflexivity].
  unfold ca_sign_tbs. change (ca_tbs serial authority [48; 0] [3; 2; 4; 240] (rk_public sk)) with (plain_tbs (rk_public sk)). rewrite enc_tbs. cbn [ok_or gbind].
  destruct (rk_sign ck (signed_der (rk_public sk))) as [sg|]; cbn [some_or gbind]; [|reflexivity]. unfold wrap_signature. rewrite enc_certificate. reflexivity.
Qed.

(** *** C101 *)
(** A certificate is written exactly when both files hold an RSA key and the signer can sign,
    and then its bytes are these: the signature is the signer's, over the first element. *)
Theorem C101_generates_exactly from_der s c out :
  generate from_der (Some s) (Some c) = GOk out <->
  exists sd cd sk ck sg,
    pem_text s (ascii_bytes "RSA PRIVATE KEY") sd /\ from_der sd = Some sk /\
    pem_text c (ascii_bytes "RSA PRIVATE KEY") cd /\ from_der cd = Some ck /\
    rk_sign ck (signed_der (rk_public sk)) = Some sg /\
    out = encode_pem (certificate_der (rk_public sk) sg) (ascii_bytes "CERTIFICATE").
Proof.
  rewrite generate_eq. split.
  - destruct (read_pem (Some s) _) as [sd| | |] eqn:E1; cbn [gbind]; try discriminate. destruct (from_der sd) as [sk|] eqn:E2; cbn [some_or gbind]; [|discriminate].
    destruct (read_pem (Some c) _) as [cd| | |] eqn:E3; cbn [gbind]; try discriminate. destruct (from_der cd) as [ck|] eqn:E4; cbn [some_or gbind]; [|discriminate].
    destruct (rk_sign ck _) as [sg|] eqn:E5; cbn [some_or gbind]; [|discriminate]. intros H. injection H as <-. apply read_pem_ok in E1. apply read_pem_ok in E3.
    exists sd, cd, sk, ck, sg. split; [exact E1|]. split; [exact E2|]. split; [exact E3|]. split; [exact E4|]. split; [exact E5|reflexivity].
  - intros (sd & cd & sk & ck & sg & E1 & E2 & E3 & E4 & E5 & ->). apply read_pem_ok in E1. apply read_pem_ok in E3. rewrite E1. cbn [gbind]. rewrite E2. cbn [some_or gbind].
    rewrite E3. cbn [gbind]. rewrite E4. cbn [some_or gbind]. rewrite E5. reflexivity.
Qed.
Print Assumptions C101_generates_exactly.
(** It never panics, and fails to end exactly when a key file it gets to stops inside a
    keyword. *)
Theorem C101_other_ends from_der s c :
  generate from_der (Some s) (Some c) <> GPanic /\
  (generate from_der (Some s) (Some c) = GLoop <->
   stops s \/ exists sd sk, pem_text s (ascii_bytes "RSA PRIVATE KEY") sd /\ from_der sd = Some sk /\ stops c).
Proof.
  rewrite generate_eq. pose proof (read_pem_panic (Some s) (ascii_bytes "RSA PRIVATE KEY")) as P1. pose proof (read_pem_panic (Some c) (ascii_bytes "RSA PRIVATE KEY")) as P2.
  pose proof (read_pem_loop s (ascii_bytes "RSA PRIVATE KEY")) as L1. pose proof (read_pem_loop c (ascii_bytes "RSA PRIVATE KEY")) as L2. pose proof (read_pem_ok s (ascii_bytes "RSA PRIVATE KEY")) as K.
  destruct (read_pem (Some s) (ascii_bytes "RSA PRIVATE KEY")) as [sd| | |]; cbn [gbind].
  2:{ split; [discriminate|]. split; [discriminate|]. intros [X|(sd & sk & X & _)]; [apply L1 in X; discriminate X|apply K in X; discriminate X]. }
  2:{ contradiction P1; reflexivity. }
  2:{ split; [discriminate|]. split; [intros _; left; apply L1; reflexivity|reflexivity]. }
  assert (N : ~ stops s) by (intros X; apply L1 in X; discriminate X).
  assert (U : forall sd', pem_text s (ascii_bytes "RSA PRIVATE KEY") sd' -> sd' = sd) by (intros sd' X; apply K in X; congruence).
  assert (T : pem_text s (ascii_bytes "RSA PRIVATE KEY") sd) by (apply K; reflexivity).
  destruct (from_der sd) as [sk|] eqn:E; cbn [some_or gbind].
  2:{ split; [discriminate|]. split; [discriminate|]. intros [X|(sd' & sk & X & Y & _)]; [contradiction|apply U in X; congruence]. }
  assert (Q : (stops s \/ exists sd sk, pem_text s (ascii_bytes "RSA PRIVATE KEY") sd /\ from_der sd = Some sk /\ stops c) <-> stops c).
  { split; [intros [X|(? & ? & _ & _ & X)]; [contradiction|exact X]|]. intros X. right. exists sd, sk. split; [exact T|]. split; [exact E|exact X]. }
  rewrite Q, <- L2. clear - P2. destruct (read_pem (Some c) (ascii_bytes "RSA PRIVATE KEY")) as [cd| | |]; cbn [gbind]; [|split; [discriminate|split; discriminate]|contradiction P2; reflexivity|split; [discriminate|split; reflexivity]].
  destruct (from_der cd) as [ck|]; cbn [some_or gbind]; [|split; [discriminate|split; discriminate]]. destruct (rk_sign ck _); cbn [some_or gbind]; (split; [discriminate|split; discriminate]).
Qed.
Print Assumptions C101_other_ends.
(** A file that cannot be read, or whose label is another, gives an error and no output. *)
Theorem C101_refusals from_der subject signer :
  (subject = None \/ (exists sd sk s, subject = Some s /\ pem_text s (ascii_bytes "RSA PRIVATE KEY") sd /\ from_der sd = Some sk /\ signer = None) \/
   exists s label d, subject = Some s /\ pem_text s label d /\ label <> ascii_bytes "RSA PRIVATE KEY") ->
  generate from_der subject signer = GErr.
Proof.
  rewrite generate_eq. intros [->|[(sd & sk & s & -> & T & E & ->)|(s & label & d & -> & T & N)]]; [reflexivity| |].
  - apply read_pem_ok in T. rewrite T. cbn [gbind]. rewrite E. reflexivity.
  - unfold read_pem. cbn [some_or gbind]. rewrite (C51_label_checked s label _ d T) by congruence. reflexivity.
Qed.
Print Assumptions C101_refusals.
Lemma der_ok tag d : tag < 256 -> bytes_ok d -> bytes_ok (der tag d).
Proof. intros T D. constructor; [exact T|]. apply bytes_ok_app. split; [apply encode_length_bytes|exact D]. Qed.
Lemma certificate_der_ok key sg : bytes_ok key -> bytes_ok sg -> bytes_ok (certificate_der key sg).
Proof.
  intros K S. assert (C : forall l, bytes_okb l = true -> bytes_ok l) by (intros l; apply bytes_okb_spec).
  unfold certificate_der, signed_der, bits_der. repeat match goal with
  | |- bytes_ok (_ ++ _) => apply bytes_ok_app; split
  | |- bytes_ok (der 48 (sha256_rsa_der)) => apply C; vm_compute; reflexivity
  | |- bytes_ok (der _ (_ :: ?k)) => apply der_ok; [reflexivity|apply bytes_ok_cons; split; [reflexivity|assumption]]
  | |- bytes_ok (der _ (_ ++ _)) => apply der_ok; [reflexivity|]
  | |- bytes_ok _ => apply C; vm_compute; reflexivity
  end.
Qed.
(** The certificate as data. *)
Definition issued (key sg : bytes) : certificate :=
  {| ce_tbs :=
       {| tb_version := V3; tb_serial := serial; tb_signature := {| al_oid := [1; 2; 840; 113549; 1; 1; 11]; al_params := Some (item_of VNull) |};
          tb_issuer := [{| rdn_id := [2; 5; 4; 6]; rdn_value := item_of (VPrintableString (ascii_bytes "US")) |};
                        {| rdn_id := [2; 5; 4; 10]; rdn_value := item_of (VUtf8String (ascii_bytes "My Personal CA")) |};
                        {| rdn_id := [2; 5; 4; 3]; rdn_value := item_of (VUtf8String (ascii_bytes "my.personal.ca")) |}];
          tb_validity := {| va_before := TUtc (ascii_bytes "210515162539Z"); va_after := TUtc (ascii_bytes "220312162539Z") |};
          tb_subject := [{| rdn_id := [2; 5; 4; 3]; rdn_value := item_of (VUtf8String (ascii_bytes "client")) |}];
          tb_key := {| sp_alg := {| al_oid := [1; 2; 840; 113549; 1; 1; 1]; al_params := Some (item_of VNull) |}; sp_key := {| bs_unused := 0; bs_bytes := key |} |};
          tb_issuer_id := None; tb_subject_id := None;
          tb_extensions := [{| ex_id := [2; 5; 29; 35]; ex_critical := false; ex_data := authority |};
                            {| ex_id := [2; 5; 29; 19]; ex_critical := false; ex_data := [48; 0] |};
                            {| ex_id := [2; 5; 29; 15]; ex_critical := false; ex_data := [3; 2; 4; 240] |}] |};
     ce_alg := {| al_oid := [1; 2; 840; 113549; 1; 1; 11]; al_params := Some (item_of VNull) |};
     ce_value := {| bs_unused := 0; bs_bytes := sg |} |}.
(** The printer, given what the generator wrote, reads the certificate that was meant: the
    subject's key, the signature, and every constant. *)
Theorem C101_print_reads_generated from_der s c out :
  generate from_der (Some s) (Some c) = GOk out ->
  (forall d k, from_der d = Some k -> bytes_ok (rk_public k) /\ forall m sg, rk_sign k m = Some sg -> bytes_ok sg) ->
  exists sd sk cd ck sg,
    pem_text s (ascii_bytes "RSA PRIVATE KEY") sd /\ from_der sd = Some sk /\
    pem_text c (ascii_bytes "RSA PRIVATE KEY") cd /\ from_der cd = Some ck /\
    rk_sign ck (signed_der (rk_public sk)) = Some sg /\
    decode_pem out = POk (ascii_bytes "CERTIFICATE", certificate_der (rk_public sk) sg) [] /\
    (blen (certificate_der (rk_public sk) sg) < two32 ->
     exists x, print_parsed (Some out) = GOk x /\ certificate_map erase id x = issued (rk_public sk) sg).
Proof.
  intros H B. apply C101_generates_exactly in H. destruct H as (sd & cd & sk & ck & sg & T1 & E1 & T2 & E2 & E3 & ->).
  assert (Bk : bytes_ok (rk_public sk)) by exact (proj1 (B _ _ E1)). assert (Bs : bytes_ok sg) by exact (proj2 (B _ _ E2) _ _ E3).
  assert (LO : label_ok (ascii_bytes "CERTIFICATE")).
  { unfold label_ok. apply Forall_forall. intros b Hb. cbn in Hb. repeat destruct Hb as [<-|Hb]; try (vm_compute; tauto). }
  destruct (C51_round_trip (ascii_bytes "CERTIFICATE") (certificate_der (rk_public sk) sg) LO (certificate_der_ok _ _ Bk Bs)) as (R1 & R2).
  exists sd, sk, cd, ck, sg. split; [exact T1|]. split; [exact E1|]. split; [exact T2|]. split; [exact E2|]. split; [exact E3|]. split; [exact R1|]. intros L.
  destruct (certificate_bytes (issued (rk_public sk) sg) (certificate_der (rk_public sk) sg) eq_refl eq_refl (enc_certificate _ _)) as (x & Rx & Mx).
  - clear - Bk Bs. generalize dependent (rk_public sk). intros key Bk.
    unfold issued. cbn [certificate_to every item_of node_ok tbs_to algorithm_to name_to validity_to spki_to bits_to extension_to version_to time_to rdn_to map
      ce_tbs ce_alg ce_value tb_version tb_serial tb_signature tb_issuer tb_validity tb_subject tb_key tb_extensions al_oid al_params rdn_id rdn_value va_before va_after sp_alg sp_key bs_unused bs_bytes ex_id ex_critical ex_data app].
    assert (A : bytes_ok authority) by (apply bytes_okb_spec; vm_compute; reflexivity).
    repeat (exact Logic.I || assumption || reflexivity || split || constructor).
  - exact L.
  - exists x. unfold print_parsed, read_pem. cbn [some_or gbind]. rewrite R2. cbn [gbind]. rewrite Rx. split; [reflexivity|]. rewrite Mx. reflexivity.
Qed.
Print Assumptions C101_print_reads_generated.
(** The authority key identifier names the certificate's own issuer. *)
Theorem C101_authority_names_issuer key sg : exists n pre post,
  encode_item (name_to (tb_issuer (ce_tbs (issued key sg)))) = Ok n /\
  nth_error (map ex_data (tb_extensions (ce_tbs (issued key sg)))) 0 = Some (pre ++ n ++ post) /\ pre = [48; 80; 161; 67; 164; 65] /\ firstn 2 post = [130; 9].
Proof. exists issuer_der, [48; 80; 161; 67; 164; 65], (der 130 [0; 215; 195; 216; 133; 250; 104; 117; 29]). split; [vm_compute; reflexivity|]. split; [vm_compute; reflexivity|]. split; reflexivity. Qed.
Print Assumptions C101_authority_names_issuer.
(** RFC 5280 4.1.2.2 wants a different serial number in every certificate an issuer signs; here
    any two certificates, for whatever subjects and signers, share serial number, issuer,
    subject, validity and authority key identifier. *)
Definition sample_from_der (d : bytes) : option rsa_keypair :=
  match d with [] => None | b :: _ => Some {| rk_public := d; rk_sign := fun m => if 100 <? blen m then Some [b; 1; 2] else None |} end.
Definition sample_file (d : bytes) : option bytes := Some (encode_pem d (ascii_bytes "RSA PRIVATE KEY")).
Theorem C101_distinct_serials_refuted :
  (forall k1 s1 k2 s2, tb_serial (ce_tbs (issued k1 s1)) = tb_serial (ce_tbs (issued k2 s2)) /\ tb_issuer (ce_tbs (issued k1 s1)) = tb_issuer (ce_tbs (issued k2 s2)) /\
     tb_subject (ce_tbs (issued k1 s1)) = tb_subject (ce_tbs (issued k2 s2)) /\ tb_validity (ce_tbs (issued k1 s1)) = tb_validity (ce_tbs (issued k2 s2)) /\
     tb_extensions (ce_tbs (issued k1 s1)) = tb_extensions (ce_tbs (issued k2 s2))) /\
  exists a b o1 o2 x1 x2, a <> b /\
    generate sample_from_der (sample_file a) (sample_file a) = GOk o1 /\ generate sample_from_der (sample_file b) (sample_file b) = GOk o2 /\
    print_parsed (Some o1) = GOk x1 /\ print_parsed (Some o2) = GOk x2 /\ tb_key (ce_tbs x1) <> tb_key (ce_tbs x2) /\ tb_serial (ce_tbs x1) = tb_serial (ce_tbs x2).
Proof.
  split; [intros; repeat split|]. exists [7; 1], [8; 1]. eexists. eexists. eexists. eexists. split; [discriminate|].
  split; [vm_compute; reflexivity|]. split; [vm_compute; reflexivity|]. split; [vm_compute; reflexivity|]. split; [vm_compute; reflexivity|]. split; [vm_compute; discriminate|reflexivity].
Qed.
Print Assumptions C101_distinct_serials_refuted.
Example C101_example :
  (exists out x, generate sample_from_der (sample_file [7; 1]) (sample_file [9]) = GOk out /\ print_parsed (Some out) = GOk x /\
     sp_key (tb_key (ce_tbs x)) = {| bs_unused := 0; bs_bytes := [7; 1] |} /\ ce_value x = {| bs_unused := 0; bs_bytes := [9; 1; 2] |}) /\
  generate sample_from_der (sample_file []) (sample_file [9]) = GErr /\
  generate sample_from_der (Some (ascii_bytes "-----BEG")) (sample_file [9]) = GLoop.
Proof. split; [eexists; eexists; split; [vm_compute; reflexivity|]; split; [vm_compute; reflexivity|]; split; reflexivity|]. split; vm_compute; reflexivity. Qed.
