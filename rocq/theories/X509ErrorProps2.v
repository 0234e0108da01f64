(** C135, continued: what the plain messages mean, and the texts. *)
From Coq Require Import String.
From Verif Require Import Base BaseProofs BinaryModel BinarySpec BinaryProofs Asn1Model Asn1Spec Asn1Proofs Asn1LocalProofs ChatModel NamesModel NamesProps X509Model X509ErrorModel X509ErrorProps.
Local Open Scope string_scope. Local Open Scope list_scope. Local Open Scope N_scope.

(** An algorithm is a sequence of one or two items. *)
Definition algorithm_fault (m : string) (a : item) : Prop :=
  exists l, item_value a = VSequence l /\ ((m = "Missing algorithm" /\ l = []) \/ (m = "Unexpected value" /\ (3 <= List.length l)%nat)).
Definition is_time (i : item) : Prop := exists s, item_value i = VUtcTime s \/ item_value i = VGeneralizedTime s.
(** An extension is an identifier, perhaps a boolean, and data. *)
Definition extension_fault (x : item) : Prop :=
  exists l, item_value x = VSequence l /\ (l = [] \/ (exists o, l = [o]) \/ (exists o b y, l = [o; y] /\ item_value y = VBoolean b)).
(** The first item of the body is the version if it is tagged [0]; the rest is serial number,
    signature algorithm, issuer, validity, subject, key and perhaps extensions. *)
Definition tagged (t : N) (c i : item) : Prop := item_value i = VContextSpecific t c.
Definition fields_fault (m : string) (f : list item) : Prop :=
  (m = "Missing signature" /\ List.length f = 1%nat) \/
  (m = "Missing issuer" /\ List.length f = 2%nat) \/
  (m = "Missing validity" /\ List.length f = 3%nat) \/
  (m = "Missing subject" /\ List.length f = 4%nat) \/
  (m = "Missing subject_public_key_info" /\ List.length f = 5%nat) \/
  (exists a, nth_error f 1 = Some a /\ algorithm_fault m a) \/
  (exists v x y, m = "Expected a UTCTime or GeneralizedTime" /\ nth_error f 3 = Some v /\ item_value v = VSequence [x; y] /\ (~ is_time x \/ ~ is_time y)) \/
  (exists k a b, nth_error f 5 = Some k /\ item_value k = VSequence [a; b] /\ algorithm_fault m a) \/
  (exists x, m = "Unexpected value for extension" /\ nth_error f 6 = Some x /\ forall c, ~ tagged 3 c x) \/
  (exists x c l y, m = "Missing element" /\ nth_error f 6 = Some x /\ tagged 3 c x /\ item_value c = VSequence l /\ In y l /\ extension_fault y) \/
  (m = "Unexpected value" /\ (8 <= List.length f)%nat).
Definition body_fault (m : string) (l : list item) : Prop :=
  (m = "Missing version" /\ l = []) \/
  (exists x c d r, m = "Invalid version" /\ l = x :: r /\ tagged 0 c x /\ item_value c = VInteger d /\ d <> [0] /\ d <> [1] /\ d <> [2]) \/
  (exists x c, m = "Missing serial_number" /\ l = [x] /\ tagged 0 c x) \/
  (exists x c r, l = x :: r /\ tagged 0 c x /\ fields_fault m r) \/
  ((forall x c r, l = x :: r -> ~ tagged 0 c x) /\ fields_fault m l).
Definition certificate_fault (m : string) (i : item) : Prop :=
  exists t g v, item_value i = VSequence [t; g; v] /\
    ((exists l, item_value t = VSequence l /\ body_fault m l) \/ algorithm_fault m g \/
     (m = "Certificate: Expected elements[2] to be a bit string" /\ forall u d, item_value v <> VBitString u d)).

Lemma typed_plain {A} (x : outcome type_error A) m : typed x <> Err (PePlain m).
Proof. destruct x; discriminate. Qed.
Lemma algorithm_plain i m : parse_algorithm i = Err (PePlain m) -> algorithm_fault m i.
Proof.
  intros H. unfold parse_algorithm in H. walk H; [|exfalso; exact (typed_plain _ _ K)]. apply sequence_inv in K. exists r. split; [exact K|].
  destruct r as [|x t]; [injection H as <-; left; split; reflexivity|]. right. cbn [next_item bind] in H. walk H; [|exfalso; exact (typed_plain _ _ K0)].
  destruct t as [|y [|z t]]; try discriminate H. injection H as <-. split; [reflexivity|]. cbn [List.length]. lia.
Qed.
Lemma time_plain i m : parse_time i = Err (PePlain m) -> m = "Expected a UTCTime or GeneralizedTime" /\ ~ is_time i.
Proof.
  unfold parse_time. intros H. destruct (item_value i) eqn:V; try discriminate H; injection H as <-; (split; [reflexivity|]); intros (z & [X|X]); rewrite V in X; discriminate X.
Qed.
Lemma rdn_plain i m : parse_rdn i <> Err (PePlain m).
Proof.
  intros H. unfold parse_rdn in H. walk H; [|exact (typed_plain _ _ K)]. walk H; [|exact (element_err _ _ _ K0)]. walk H; [|exact (typed_plain _ _ K1)].
  walk H; [|exact (element_err _ _ _ K2)]. walk H; [|exact (typed_plain _ _ K3)]. walk H; [discriminate H|exact (element_err _ _ _ K4)].
Qed.
Lemma each_plain {A} (f : item -> pex A) l m : parse_each f l = Err (PePlain m) -> exists x, In x l /\ f x = Err (PePlain m).
Proof.
  induction l as [|x l IH]; intros H; [discriminate H|]. cbn [parse_each] in H. walk H; [|exists x; split; [left; reflexivity|exact K]].
  walk H; [discriminate H|]. destruct (IH eq_refl) as (y & Y & E). exists y. split; [right; exact Y|exact E].
Qed.
Lemma name_plain i m : parse_name i <> Err (PePlain m).
Proof. intros H. unfold parse_name in H. walk H; [|exact (typed_plain _ _ K)]. destruct (each_plain _ _ _ H) as (x & _ & X). exact (rdn_plain _ _ X). Qed.
Lemma two {A} (l : list A) : List.length l = 2%nat -> exists x y, l = [x; y].
Proof. destruct l as [|x [|y [|]]]; try discriminate. exists x, y. reflexivity. Qed.
Lemma validity_plain i m : parse_validity i = Err (PePlain m) -> m = "Expected a UTCTime or GeneralizedTime" /\ exists x y, item_value i = VSequence [x; y] /\ (~ is_time x \/ ~ is_time y).
Proof.
  intros H. unfold parse_validity in H. walk H; [|exfalso; exact (typed_plain _ _ K)]. apply exact_sequence_inv in K as (K & L). apply two in L as (x & y & ->). cbn [element nth_error bind] in H.
  walk H; [walk H; [discriminate H|]|].
  - apply time_plain in K1 as (E & T). split; [exact E|]. exists x, y. split; [exact K|right; exact T].
  - apply time_plain in K0 as (E & T). split; [exact E|]. exists x, y. split; [exact K|left; exact T].
Qed.
Lemma spki_plain i m : parse_spki i = Err (PePlain m) -> exists a b, item_value i = VSequence [a; b] /\ algorithm_fault m a.
Proof.
  intros H. unfold parse_spki in H. walk H; [|exfalso; exact (typed_plain _ _ K)]. apply exact_sequence_inv in K as (K & L). apply two in L as (x & y & ->). cbn [element nth_error bind] in H.
  walk H; [walk H; [discriminate H|exfalso; exact (typed_plain _ _ K1)]|]. exists x, y. split; [exact K|]. exact (algorithm_plain _ _ K0).
Qed.
Lemma extension_plain i m : parse_extension i = Err (PePlain m) -> m = "Missing element" /\ extension_fault i.
Proof.
  intros H. unfold parse_extension in H. walk H; [|exfalso; exact (typed_plain _ _ K)]. apply sequence_inv in K.
  destruct r as [|x t]; [injection H as <-; split; [reflexivity|]; exists []; auto|]. cbn [next_item bind] in H. walk H; [|exfalso; exact (typed_plain _ _ K0)].
  destruct t as [|y t]; [injection H as <-; split; [reflexivity|]; exists [x]; split; [exact K|]; right; left; exists x; reflexivity|]. cbn [next_item bind] in H.
  destruct (item_value y) eqn:V; try (walk H; [discriminate H|exfalso; exact (typed_plain _ _ K1)]).
  destruct t as [|z t].
  - injection H as <-. split; [reflexivity|]. exists [x; y]. split; [exact K|]. right. right. exists x, b, y. split; [reflexivity|exact V].
  - cbn [next_item bind fst] in H. walk H; [discriminate H|exfalso; exact (typed_plain _ _ K1)].
Qed.
(** What follows the version. *)
Definition parse_fields (v : version) (e : item) (it : list item) : pex tbs :=
  let? serial := typed (acc_integer e) in
  let? p := next_item "Missing signature" it in let (e, it) := p in
  let? signature := parse_algorithm e in
  let? p := next_item "Missing issuer" it in let (e, it) := p in
  let? issuer := parse_name e in
  let? p := next_item "Missing validity" it in let (e, it) := p in
  let? vali := parse_validity e in
  let? p := next_item "Missing subject" it in let (e, it) := p in
  let? subject := parse_name e in
  let? p := next_item "Missing subject_public_key_info" it in let (e, it) := p in
  let? key := parse_spki e in
  let? exts := match it with
               | [] => Ok []
               | e :: _ =>
                 match item_value e with
                 | VContextSpecific 3 c => let? l := typed (acc_sequence c) in parse_each parse_extension l
                 | _ => Err (PePlain "Unexpected value for extension")
                 end
               end in
  match it with
  | _ :: _ :: _ => Err (PePlain "Unexpected value")
  | _ => Ok {| tb_version := v; tb_serial := serial; tb_signature := signature; tb_issuer := issuer; tb_validity := vali;
               tb_subject := subject; tb_key := key; tb_issuer_id := None; tb_subject_id := None; tb_extensions := exts |}
  end.
Ltac at_missing H := injection H as <-; unfold fields_fault; cbn [List.length]; tauto.
Lemma fields_plain v e it m : parse_fields v e it = Err (PePlain m) -> fields_fault m (e :: it).
Proof.
  intros H. unfold parse_fields in H. walk H; [|exfalso; exact (typed_plain _ _ K)]. unfold fields_fault.
  destruct it as [|x1 it]; [at_missing H|]. cbn [next_item bind] in H. walk H; [|do 5 right; left; exists x1; split; [reflexivity|exact (algorithm_plain _ _ K0)]].
  destruct it as [|x2 it]; [at_missing H|]. cbn [next_item bind] in H. walk H; [|exfalso; exact (name_plain _ _ K1)].
  destruct it as [|x3 it]; [at_missing H|]. cbn [next_item bind] in H. walk H; [|apply validity_plain in K2 as (E & x & y & V & T); do 6 right; left; exists x3, x, y; auto].
  destruct it as [|x4 it]; [at_missing H|]. cbn [next_item bind] in H. walk H; [|exfalso; exact (name_plain _ _ K3)].
  destruct it as [|x5 it]; [at_missing H|]. cbn [next_item bind] in H. walk H; [|apply spki_plain in K4 as (a & b & V & T); do 7 right; left; exists x5, a, b; auto].
  destruct it as [|x6 it]; [discriminate H|]. walk H.
  - do 10 right. destruct it as [|x7 it]; [discriminate H|]. injection H as <-. split; [reflexivity|]. cbn [List.length]. lia.
  - assert (NOT : m = "Unexpected value for extension" -> (forall c, item_value x6 <> VContextSpecific 3 c) -> fields_fault m (e :: x1 :: x2 :: x3 :: x4 :: x5 :: x6 :: it)).
    { intros E N. do 8 right. left. exists x6. auto. }
    fold (fields_fault m (e :: x1 :: x2 :: x3 :: x4 :: x5 :: x6 :: it)).
    destruct (item_value x6) eqn:V; try (injection K5 as <-; apply NOT; [reflexivity|intros c X; discriminate X]).
    destruct tag as [|[[]| |]]; try (injection K5 as <-; apply NOT; [reflexivity|intros c X; discriminate X]).
    walk K5; [|exfalso; exact (typed_plain _ _ K6)]. apply sequence_inv in K6. destruct (each_plain _ _ _ K5) as (y & Y & E). apply extension_plain in E as (-> & X).
    do 9 right. left. exists x6, i, r5, y. unfold tagged. auto 8.
Qed.
Lemma tbs_plain i m : parse_tbs i = Err (PePlain m) -> exists l, item_value i = VSequence l /\ body_fault m l.
Proof.
  intros H. unfold parse_tbs in H. walk H; [|exfalso; exact (typed_plain _ _ K)]. apply sequence_inv in K. exists r. split; [exact K|]. clear K.
  destruct r as [|x t]; [injection H as <-; left; auto|]. cbn [next_item bind] in H.
  assert (OLD : (forall c, item_value x <> VContextSpecific 0 c) -> parse_fields V1 x t = Err (PePlain m) -> body_fault m (x :: t)).
  { intros N F. do 4 right. split; [|exact (fields_plain _ _ _ _ F)]. intros y c r' E T. injection E as <- <-. exact (N c T). }
  destruct (item_value x) eqn:V; try (apply OLD; [discriminate|exact H]).
  destruct tag as [|p]; [|apply OLD; [discriminate|exact H]]. walk H.
  - walk K. walk K. destruct r1 as [y u]. apply next_inv in K1. subst t. injection K as <-.
    do 3 right. left. exists x, i0, (y :: u). split; [reflexivity|]. split; [exact V|]. exact (fields_plain r0 y u m H).
  - walk K; [walk K; [discriminate K|]|].
    + destruct t as [|y t]; [|discriminate K1]. injection K1 as <-. do 2 right. left. exists x, i0. auto.
    + right. left. unfold parse_version in K0. walk K0; [|exfalso; exact (typed_plain _ _ K)]. apply typed_ok in K. exists x, i0, r, t.
      assert (E : m = "Invalid version" /\ r <> [0] /\ r <> [1] /\ r <> [2]).
      { destruct (negb (List.length r =? 1)%nat) eqn:D; [injection K0 as <-; split; [reflexivity|]; split; [|split]; intros ->; discriminate D|].
        destruct r as [|[|[[|[]|]|[]|]] u]; try discriminate K0; injection K0 as <-; (split; [reflexivity|]); split; [|split| |split| |split| |split| |split| |split| |split]; try discriminate. }
      destruct i0 as [s0 e0 v0]. destruct v0; try discriminate K. cbn [acc_integer item_value] in K. injection K as ->. destruct E as (-> & E). unfold tagged. auto 8.
Qed.
(** Every plain message says what is wrong with the certificate. *)
Theorem C135_plain_meaning i m : parse_certificate i = Err (PePlain m) -> certificate_fault m i.
Proof.
  intros H. unfold parse_certificate in H. walk H; [|exfalso; exact (typed_plain _ _ K)]. apply exact_sequence_inv in K as (K & L). destruct r as [|t [|g [|v [|]]]]; try discriminate L.
  cbn [element nth_error bind] in H. exists t, g, v. split; [exact K|]. walk H; [|left; exact (tbs_plain _ _ K0)]. walk H; [|right; left; exact (algorithm_plain _ _ K1)].
  right. right. destruct (item_value v) eqn:V; try discriminate H; injection H as <-; (split; [reflexivity|]); discriminate.
Qed.
Print Assumptions C135_plain_meaning.
Lemma fault_messages m i : certificate_fault m i ->
  In m ["Missing version"; "Invalid version"; "Missing serial_number"; "Missing signature"; "Missing issuer"; "Missing validity"; "Missing subject"; "Missing subject_public_key_info";
        "Missing algorithm"; "Unexpected value"; "Expected a UTCTime or GeneralizedTime"; "Unexpected value for extension"; "Missing element"; "Certificate: Expected elements[2] to be a bit string"].
Proof.
  assert (AL : forall m a, algorithm_fault m a -> m = "Missing algorithm" \/ m = "Unexpected value") by (intros n a (l & _ & [(X & _)|(X & _)]); auto).
  assert (FI : forall m f, fields_fault m f -> In m ["Missing signature"; "Missing issuer"; "Missing validity"; "Missing subject"; "Missing subject_public_key_info";
        "Missing algorithm"; "Unexpected value"; "Expected a UTCTime or GeneralizedTime"; "Unexpected value for extension"; "Missing element"]).
  { intros n f [(X & _)|[(X & _)|[(X & _)|[(X & _)|[(X & _)|[(a & _ & X)|[(v & x & y & X & _)|[(k & a & b & _ & _ & X)|[(x & X & _)|[(x & c & l & y & X & _)|(X & _)]]]]]]]]]];
      try (apply AL in X as [X|X]); subst n; cbn [In]; tauto. }
  intros (t & g & v & _ & [(l & _ & B)|[X|(X & _)]]).
  - destruct B as [(X & _)|[(x & c & d & r & X & _)|[(x & c & X & _)|[(x & c & r & _ & _ & X)|(_ & X)]]]]; try (subst m; cbn [In]; tauto); apply FI in X; cbn [In] in *; tauto.
  - apply AL in X as [->| ->]; cbn [In]; tauto.
  - subst m. cbn [In]. tauto.
Qed.
Lemma ascii_inj a : forall b, ascii_bytes a = ascii_bytes b -> a = b.
Proof.
  induction a as [|c a IH]; intros [|c' b] H; try discriminate H; [reflexivity|]. cbn [ascii_bytes] in H. injection H as H1 H2. rewrite (IH b H2). f_equal.
  apply (f_equal Ascii.ascii_of_N) in H1. rewrite !Ascii.ascii_N_embedding in H1. exact H1.
Qed.
Lemma plain_not_type m i t : certificate_fault m i -> ascii_bytes m <> type_error_text t.
Proof.
  intros F H. apply fault_messages in F. cbn [In] in F. repeat destruct F as [<-|F]; try destruct F; destruct t; discriminate H.
Qed.
Lemma no_reader_error i b : parse_certificate i <> Err (PeReader b).
Proof.
  intros H.
  assert (AL : forall j, parse_algorithm j <> Err (PeReader b)).
  { intros j X. unfold parse_algorithm in X. walk X; [|destruct (acc_sequence j); discriminate K]. destruct r as [|x t]; [discriminate X|]. cbn [next_item bind] in X.
    walk X; [destruct t as [|? [|]]; discriminate X|destruct (acc_oid x); discriminate K0]. }
  assert (EL : forall l k, element l k <> Err (PeReader b)) by (intros l k; apply element_err).
  assert (TY : forall (A : Type) (x : outcome type_error A), typed x <> Err (PeReader b)) by (intros A x; destruct x; discriminate).
  assert (NX : forall m l, next_item m l <> Err (PeReader b)) by (intros m l; destruct l; discriminate).
  assert (EA : forall (A : Type) (f : item -> pex A), (forall j, f j <> Err (PeReader b)) -> forall l, parse_each f l <> Err (PeReader b)).
  { intros A f F. induction l as [|x l IH]; [discriminate|]. cbn [parse_each]. intros X. walk X; [|exact (F _ K)]. walk X; [discriminate X|]. exact (IH eq_refl). }
  assert (RD : forall j, parse_rdn j <> Err (PeReader b)).
  { intros j X. unfold parse_rdn in X. walk X; [|exact (TY _ _ K)]. walk X; [|exact (EL _ _ K0)]. walk X; [|exact (TY _ _ K1)]. walk X; [|exact (EL _ _ K2)]. walk X; [|exact (TY _ _ K3)]. walk X; [discriminate X|exact (EL _ _ K4)]. }
  assert (NM : forall j, parse_name j <> Err (PeReader b)).
  { intros j X. unfold parse_name in X. walk X; [|exact (TY _ _ K)]. exact (EA _ _ RD _ X). }
  assert (TI : forall j, parse_time j <> Err (PeReader b)) by (intros j X; unfold parse_time in X; destruct (item_value j); discriminate X).
  assert (VA : forall j, parse_validity j <> Err (PeReader b)).
  { intros j X. unfold parse_validity in X. walk X; [|exact (TY _ _ K)]. walk X; [|exact (EL _ _ K0)]. walk X; [|exact (TI _ K1)]. walk X; [|exact (EL _ _ K2)]. walk X; [discriminate X|exact (TI _ K3)]. }
  assert (SP : forall j, parse_spki j <> Err (PeReader b)).
  { intros j X. unfold parse_spki in X. walk X; [|exact (TY _ _ K)]. walk X; [|exact (EL _ _ K0)]. walk X; [|exact (AL _ K1)]. walk X; [|exact (EL _ _ K2)]. walk X; [discriminate X|exact (TY _ _ K3)]. }
  assert (VE : forall j, parse_version j <> Err (PeReader b)).
  { intros j X. unfold parse_version in X. walk X; [|exact (TY _ _ K)]. destruct (negb (List.length r =? 1)%nat); [discriminate X|]. destruct r as [|[|[[|[]|]|[]|]] u]; discriminate X. }
  assert (EX : forall j, parse_extension j <> Err (PeReader b)).
  { intros j X. unfold parse_extension in X. walk X; [|exact (TY _ _ K)]. walk X; [|exact (NX _ _ K0)]. destruct r0 as [x t]. walk X; [|exact (TY _ _ K1)]. walk X; [|exact (NX _ _ K2)]. destruct r1 as [y u].
    destruct (item_value y); try (walk X; [discriminate X|exact (TY _ _ K3)]). walk X; [|exact (NX _ _ K3)]. walk X; [discriminate X|exact (TY _ _ K4)]. }
  assert (FI : forall v e it, parse_fields v e it <> Err (PeReader b)).
  { intros v e it X. unfold parse_fields in X. walk X; [|exact (TY _ _ K)]. walk X; [|exact (NX _ _ K0)]. destruct r0 as [x1 t1]. walk X; [|exact (AL _ K1)].
    walk X; [|exact (NX _ _ K2)]. destruct r1 as [x2 t2]. walk X; [|exact (NM _ K3)]. walk X; [|exact (NX _ _ K4)]. destruct r2 as [x3 t3]. walk X; [|exact (VA _ K5)].
    walk X; [|exact (NX _ _ K6)]. destruct r3 as [x4 t4]. walk X; [|exact (NM _ K7)]. walk X; [|exact (NX _ _ K8)]. destruct r4 as [x5 t5]. walk X; [|exact (SP _ K9)].
    destruct t5 as [|x6 t6]; [discriminate X|]. walk X; [destruct t6; discriminate X|]. destruct (item_value x6); try discriminate K10. destruct tag as [|[[]| |]]; try discriminate K10.
    walk K10; [|exact (TY _ _ K11)]. exact (EA _ _ EX _ K10). }
  unfold parse_certificate in H. walk H; [|exact (TY _ _ K)]. walk H; [|exact (EL _ _ K0)]. walk H.
  - walk H; [|exact (EL _ _ K2)]. walk H; [|exact (AL _ K3)]. walk H; [|exact (EL _ _ K4)]. walk H; [discriminate H|]. destruct (item_value r4); discriminate K5.
  - unfold parse_tbs in K1. walk K1; [|exact (TY _ _ K2)]. walk K1; [|exact (NX _ _ K3)]. destruct r2 as [x t].
    destruct (item_value x) eqn:V; try exact (FI V1 x t K1). destruct tag; [|exact (FI V1 x t K1)]. walk K1.
    + destruct r2 as [v [y u]]. exact (FI v y u K1).
    + walk K4; [|match goal with X : parse_version _ = _ |- _ => exact (VE _ X) end]. walk K4; [discriminate K4|match goal with X : next_item _ _ = Err _ |- _ => exact (NX _ _ X) end].
Qed.
(** Exactly the errors of the ASN.1 reader are passed on as such. *)
Theorem C135_reader_errors d b : parse_certificate_bytes d = Err (PeReader b) <-> fst (read_der (new_reader d)) = Err b.
Proof.
  unfold parse_certificate_bytes. destruct (fst (read_der (new_reader d))) as [i|x|]; [|split; intros H; injection H as ->; reflexivity|split; discriminate].
  split; [|discriminate]. intros H. exfalso. exact (no_reader_error _ _ H).
Qed.
Print Assumptions C135_reader_errors.
(** The text of the error of a file that is well-formed ASN.1 determines the error: the
    message, or the expected type, the place and the counts. *)
Theorem C135_text_determines utf8 other i i' e e' : parse_certificate i = Err e -> parse_certificate i' = Err e' ->
  parse_error_text utf8 other e = parse_error_text utf8 other e' -> e = e'.
Proof.
  intros P P' H. destruct e as [m|t|b]; [| |exfalso; exact (no_reader_error _ _ P)]; (destruct e' as [m'|t'|b']; [| |exfalso; exact (no_reader_error _ _ P')]); cbn [parse_error_text] in H.
  - apply ascii_inj in H. rewrite H. reflexivity.
  - exfalso. exact (plain_not_type m i t' (C135_plain_meaning _ _ P) H).
  - exfalso. exact (plain_not_type m' i' t (C135_plain_meaning _ _ P') (eq_sym H)).
  - apply C123_type_error in H. rewrite H. reflexivity.
Qed.
Print Assumptions C135_text_determines.

(** A file with a null where the signature algorithm belongs; one without that field; one
    that stops early; and, at the third field of the first, a name part with a bad set. *)
Example C135_cases : let text d := match parse_certificate_bytes d with Err e => Some (parse_error_text [] [] e) | _ => None end in
  text [48; 11; 48; 5; 2; 1; 7; 5; 0; 5; 0; 5; 0] = Some (ascii_bytes "Expected a sequence at 7..9") /\
  text [48; 9; 48; 3; 2; 1; 7; 5; 0; 5; 0] = Some (ascii_bytes "Missing signature") /\
  text [48; 5; 48; 3; 2; 1; 7] = Some (ascii_bytes "Expected a sequence of 3 items, got 1 at 0..7") /\
  text [48; 9; 48; 3; 2] = Some (ascii_bytes "Unexpcted EOF at offset 2; expected 9 bytes") /\
  text [48; 20; 48; 14; 2; 1; 7; 48; 3; 6; 1; 42; 48; 4; 49; 2; 5; 0; 5; 0; 5; 0] = Some (ascii_bytes "Expected a sequence at 16..18") /\
  read_der (new_reader [5; 0]) = (Ok (Item 0 2 VNull), at_pos [5; 0] []).
Proof. repeat split; vm_compute; reflexivity. Qed.
