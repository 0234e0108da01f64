(** C135: why something is not a certificate. *)
From Coq Require Import String.
From Verif Require Import Base BaseProofs BinaryModel BinarySpec BinaryProofs Asn1Model Asn1Spec Asn1Proofs Asn1LocalProofs Asn1PartProps NamesModel NamesProps X509Model X509ErrorModel.
Local Open Scope string_scope. Local Open Scope list_scope. Local Open Scope N_scope.

(** *** The errors with places are those of X509Model.v *)
(** The kind of an error, without the place. *)
Definition kind_name (e : type_error) : string :=
  match e with
  | TSequence _ _ => "ExpectedSequence" | TExactSequence _ _ _ _ => "ExpectedExactSequence" | TSet _ _ => "ExpectedSet" | TExactSet _ _ _ _ => "ExpectedExactSet"
  | TOid _ _ => "ExpectedObjectIdentifier" | TBitString _ _ => "ExpectedBitString" | TOctetString _ _ => "ExpectedOctetString" | TInteger _ _ => "ExpectedInteger"
  | TString _ _ => "ExpectedString" | TBoolean _ _ => "ExpectedBoolean"
  end.
Definition without_place (e : parse_error) : perror := match e with PePlain s => XPlain s | PeType t => XType (kind_name t) | PeReader b => XReader b end.
Definition forget {A} (x : pex A) : px A := map_err without_place x.
Lemma forget_bind {A B} (x : pex A) (k : A -> pex B) : forget (bind x k) = bind (forget x) (fun a => forget (k a)).
Proof. destruct x; reflexivity. Qed.
Lemma bind_ext {E A B} (x : outcome E A) (k k' : A -> outcome E B) : (forall a, k a = k' a) -> bind x k = bind x k'.
Proof. intros H. destruct x; cbn [bind]; auto. Qed.
Lemma bind_both {E A B} (x y : outcome E A) (k k' : A -> outcome E B) : x = y -> (forall a, k a = k' a) -> bind x k = bind y k'.
Proof. intros -> H. apply bind_ext, H. Qed.
Lemma forget_sequence i : forget (typed (acc_sequence i)) = as_sequence i.
Proof. destruct i as [s e v]. destruct v; reflexivity. Qed.
Lemma forget_set i : forget (typed (acc_set i)) = as_set i.
Proof. destruct i as [s e v]. destruct v; reflexivity. Qed.
Lemma forget_oid i : forget (typed (acc_oid i)) = as_oid i.
Proof. destruct i as [s e v]. destruct v; reflexivity. Qed.
Lemma forget_octets i : forget (typed (acc_octet_string i)) = as_octet_string i.
Proof. destruct i as [s e v]. destruct v; reflexivity. Qed.
Lemma forget_integer i : forget (typed (acc_integer i)) = as_integer i.
Proof. destruct i as [s e v]. destruct v; reflexivity. Qed.
Lemma forget_exact_sequence n i : forget (typed (acc_exact_sequence n i)) = as_exact_sequence i n.
Proof. unfold acc_exact_sequence, as_exact_sequence. destruct i as [s e v]. destruct v; try reflexivity. cbn [acc_sequence as_sequence item_value bind]. destruct (Datatypes.length l =? n)%nat; reflexivity. Qed.
Lemma forget_exact_set n i : forget (typed (acc_exact_set n i)) = as_exact_set i n.
Proof. unfold acc_exact_set, as_exact_set. destruct i as [s e v]. destruct v; try reflexivity. cbn [acc_set as_set item_value bind]. destruct (Datatypes.length l =? n)%nat; reflexivity. Qed.
Lemma forget_next m l : forget (next_item m l) = next m l.
Proof. destruct l; reflexivity. Qed.
Lemma forget_element l k : forget (element l k) = elem l k.
Proof. unfold element, elem. destruct (nth_error l k); reflexivity. Qed.
Lemma forget_algorithm i : forget (parse_algorithm i) = algorithm_from i.
Proof.
  unfold parse_algorithm, algorithm_from. rewrite forget_bind, forget_sequence. apply bind_ext. intros it. rewrite forget_bind, forget_next. apply bind_ext. intros [e r].
  rewrite forget_bind, forget_oid. apply bind_ext. intros a. destruct r as [|x [|y r]]; reflexivity.
Qed.
Lemma forget_version i : forget (parse_version i) = version_from i.
Proof.
  unfold parse_version, version_from. rewrite forget_bind, forget_integer. apply bind_ext. intros d. destruct (negb (Datatypes.length d =? 1)%nat); [reflexivity|].
  destruct d as [|[|[[|[]|]|[]|]] t]; reflexivity.
Qed.
Lemma forget_rdn i : forget (parse_rdn i) = rdn_from i.
Proof.
  unfold parse_rdn, rdn_from. rewrite forget_bind, forget_exact_set. apply bind_ext. intros s. rewrite forget_bind, forget_element. apply bind_ext. intros e.
  rewrite forget_bind, forget_exact_sequence. apply bind_ext. intros l. rewrite forget_bind, forget_element. apply bind_ext. intros a.
  rewrite forget_bind, forget_oid. apply bind_ext. intros id. rewrite forget_bind, forget_element. reflexivity.
Qed.
Lemma forget_each {A} (f : item -> pex A) (g : item -> px A) l : (forall i, forget (f i) = g i) -> forget (parse_each f l) = each g l.
Proof. intros H. induction l as [|i l IH]; [reflexivity|]. cbn [parse_each each]. rewrite forget_bind, H. apply bind_ext. intros a. rewrite forget_bind, IH. reflexivity. Qed.
Lemma forget_name i : forget (parse_name i) = name_from i.
Proof. unfold parse_name, name_from. rewrite forget_bind, forget_sequence. apply bind_ext. intros l. apply forget_each, forget_rdn. Qed.
Lemma forget_time i : forget (parse_time i) = time_from i.
Proof. destruct i as [s e v]. destruct v; reflexivity. Qed.
Lemma forget_validity i : forget (parse_validity i) = validity_from i.
Proof.
  unfold parse_validity, validity_from. rewrite forget_bind, forget_exact_sequence. apply bind_ext. intros l. rewrite forget_bind, forget_element. apply bind_ext. intros a.
  rewrite forget_bind, forget_time. apply bind_ext. intros b. rewrite forget_bind, forget_element. apply bind_ext. intros c. rewrite forget_bind, forget_time. reflexivity.
Qed.
Lemma forget_spki i : forget (parse_spki i) = spki_from i.
Proof.
  unfold parse_spki, spki_from. rewrite forget_bind, forget_exact_sequence. apply bind_ext. intros l. rewrite forget_bind, forget_element. apply bind_ext. intros a.
  rewrite forget_bind, forget_algorithm. apply bind_ext. intros b. rewrite forget_bind, forget_element. apply bind_ext. intros [s e v]. destruct v; reflexivity.
Qed.
Lemma forget_extension i : forget (parse_extension i) = extension_from i.
Proof.
  unfold parse_extension, extension_from. rewrite forget_bind, forget_sequence. apply bind_ext. intros it. rewrite forget_bind, forget_next. apply bind_ext. intros [e r].
  rewrite forget_bind, forget_oid. apply bind_ext. intros a. rewrite forget_bind, forget_next. apply bind_ext. intros [x t]. destruct (item_value x); rewrite forget_bind; try (rewrite forget_octets; reflexivity).
  rewrite forget_next. apply bind_ext. intros p. rewrite forget_bind, forget_octets. reflexivity.
Qed.
Lemma forget_tbs i : forget (parse_tbs i) = tbs_from i.
Proof.
  unfold parse_tbs, tbs_from. rewrite forget_bind, forget_sequence. apply bind_ext. intros it. rewrite forget_bind, forget_next. apply bind_ext. intros [e r]. cbv beta iota.
  rewrite forget_bind.
  assert (V : forget match item_value e with
            | VContextSpecific 0 child => let? v := parse_version child in let? p := next_item "Missing serial_number" r in Ok (v, p)
            | _ => Ok (V1, (e, r)) end
            = match item_value e with
            | VContextSpecific 0 child => let? v := version_from child in let? p := next "Missing serial_number" r in Ok (v, p)
            | _ => Ok (V1, (e, r)) end).
  { destruct (item_value e); try reflexivity. destruct tag; [|reflexivity]. rewrite forget_bind, forget_version. apply bind_ext. intros v. rewrite forget_bind, forget_next. reflexivity. }
  apply bind_both; [exact V|]. clear V. intros [v [x r2]].
  rewrite forget_bind, forget_integer. apply bind_ext. intros serial.
  rewrite forget_bind, forget_next. apply bind_ext. intros [x3 r3]. rewrite forget_bind, forget_algorithm. apply bind_ext. intros signature.
  rewrite forget_bind, forget_next. apply bind_ext. intros [x4 r4]. rewrite forget_bind, forget_name. apply bind_ext. intros issuer.
  rewrite forget_bind, forget_next. apply bind_ext. intros [x5 r5]. rewrite forget_bind, forget_validity. apply bind_ext. intros vali.
  rewrite forget_bind, forget_next. apply bind_ext. intros [x6 r6]. rewrite forget_bind, forget_name. apply bind_ext. intros subject.
  rewrite forget_bind, forget_next. apply bind_ext. intros [x7 r7]. rewrite forget_bind, forget_spki. apply bind_ext. intros key.
  rewrite forget_bind. destruct r7 as [|x8 r8]; [reflexivity|].
  assert (V : forget match item_value x8 with
            | VContextSpecific 3 c => let? l := typed (acc_sequence c) in parse_each parse_extension l
            | _ => Err (PePlain "Unexpected value for extension") end
            = match item_value x8 with
            | VContextSpecific 3 c => let? l := as_sequence c in each extension_from l
            | _ => Err (XPlain "Unexpected value for extension") end).
  { destruct (item_value x8); try reflexivity. destruct tag as [|[[]| |]]; try reflexivity. rewrite forget_bind, forget_sequence. apply bind_ext. intros l. apply forget_each, forget_extension. }
  apply bind_both; [exact V|]. clear V. intros exts. destruct r8; reflexivity.
Qed.
Lemma forget_certificate i : forget (parse_certificate i) = certificate_from i.
Proof.
  unfold parse_certificate, certificate_from. rewrite forget_bind, forget_exact_sequence. apply bind_ext. intros l. rewrite forget_bind, forget_element. apply bind_ext. intros a.
  rewrite forget_bind, forget_tbs. apply bind_ext. intros t. rewrite forget_bind, forget_element. apply bind_ext. intros b. rewrite forget_bind, forget_algorithm. apply bind_ext. intros g.
  rewrite forget_bind, forget_element. apply bind_ext. intros [s e v]. destruct v; reflexivity.
Qed.
(** The parser with places accepts the same certificates, with the same result, and refuses
    with the same kind of error as the one of X509Model.v. *)
Theorem C135_same_decision d : forget (parse_certificate_bytes d) = certificate_from_bytes d.
Proof. unfold parse_certificate_bytes, certificate_from_bytes. destruct (fst (read_der (new_reader d))) as [i|e|]; [|reflexivity|reflexivity]. apply forget_certificate. Qed.
Print Assumptions C135_same_decision.

(** *** A type error names the bytes that have the wrong type *)
(** The value is not of the type that the error says was expected. *)
Definition wrong_kind (e : type_error) (v : value) : Prop :=
  match e with
  | TSequence _ _ => forall l, v <> VSequence l
  | TExactSequence _ _ n a => exists l, v = VSequence l /\ List.length l = a /\ a <> n
  | TSet _ _ => forall l, v <> VSet l
  | TExactSet _ _ n a => exists l, v = VSet l /\ List.length l = a /\ a <> n
  | TOid _ _ => forall l, v <> VOid l
  | TBitString _ _ => forall u d, v <> VBitString u d
  | TOctetString _ _ => forall d, v <> VOctetString d
  | TInteger _ _ => forall d, v <> VInteger d
  | TString _ _ => forall d, v <> VPrintableString d /\ v <> VUtf8String d
  | TBoolean _ _ => forall b, v <> VBoolean b
  end.
(** [e] is about [j]. *)
Definition about (e : type_error) (j : item) : Prop := place e = (item_start j, item_stop j) /\ wrong_kind e (item_value j).
Definition blames {A} (f : item -> pex A) : Prop := forall i e, f i = Err (PeType e) -> exists j, part_of j i /\ about e j.

Lemma typed_err {A} (x : outcome type_error A) e : typed x = Err (PeType e) -> x = Err e.
Proof. destruct x; cbn [typed map_err]; intros H; try discriminate H. injection H as ->. reflexivity. Qed.
Lemma typed_ok {A} (x : outcome type_error A) a : typed x = Ok a -> x = Ok a.
Proof. destruct x; cbn [typed map_err]; intros H; try discriminate H. injection H as ->. reflexivity. Qed.
Lemma sequence_inv i l : typed (acc_sequence i) = Ok l -> item_value i = VSequence l.
Proof. intros H. apply typed_ok in H. destruct i as [s e v]. destruct v; try discriminate H. injection H as ->. reflexivity. Qed.
Lemma exact_sequence_inv n i l : typed (acc_exact_sequence n i) = Ok l -> item_value i = VSequence l /\ List.length l = n.
Proof.
  intros H. apply typed_ok in H. destruct i as [s e v]. unfold acc_exact_sequence in H. destruct v; try discriminate H. cbn [acc_sequence item_value bind] in H.
  destruct (Nat.eqb_spec (List.length l0) n) as [K|K]; [|discriminate H]. injection H as ->. split; [reflexivity|exact K].
Qed.
Lemma exact_set_inv n i l : typed (acc_exact_set n i) = Ok l -> item_value i = VSet l /\ List.length l = n.
Proof.
  intros H. apply typed_ok in H. destruct i as [s e v]. unfold acc_exact_set in H. destruct v; try discriminate H. cbn [acc_set item_value bind] in H.
  destruct (Nat.eqb_spec (List.length l0) n) as [K|K]; [|discriminate H]. injection H as ->. split; [reflexivity|exact K].
Qed.
Lemma about_sequence i e : typed (acc_sequence i) = Err (PeType e) -> about e i.
Proof. intros H. apply typed_err in H. destruct i as [s f v]. destruct v; try discriminate H; injection H as <-; split; try reflexivity; cbn [wrong_kind item_value]; discriminate. Qed.
Lemma about_oid i e : typed (acc_oid i) = Err (PeType e) -> about e i.
Proof. intros H. apply typed_err in H. destruct i as [s f v]. destruct v; try discriminate H; injection H as <-; split; try reflexivity; cbn [wrong_kind item_value]; discriminate. Qed.
Lemma about_integer i e : typed (acc_integer i) = Err (PeType e) -> about e i.
Proof. intros H. apply typed_err in H. destruct i as [s f v]. destruct v; try discriminate H; injection H as <-; split; try reflexivity; cbn [wrong_kind item_value]; discriminate. Qed.
Lemma about_bits i e : typed (acc_bit_string i) = Err (PeType e) -> about e i.
Proof. intros H. apply typed_err in H. destruct i as [s f v]. destruct v; try discriminate H; injection H as <-; split; try reflexivity; cbn [wrong_kind item_value]; discriminate. Qed.
Lemma about_octets i e : typed (acc_octet_string i) = Err (PeType e) -> about e i.
Proof. intros H. apply typed_err in H. destruct i as [s f v]. destruct v; try discriminate H; injection H as <-; split; try reflexivity; cbn [wrong_kind item_value]; discriminate. Qed.
Lemma about_exact_sequence n i e : typed (acc_exact_sequence n i) = Err (PeType e) -> about e i.
Proof.
  intros H. apply typed_err in H. destruct i as [s f v]. unfold acc_exact_sequence in H. destruct v; cbn [acc_sequence item_value bind item_start item_stop] in H;
    try (injection H as <-; split; [reflexivity|cbn [wrong_kind item_value]; discriminate]).
  destruct (Nat.eqb_spec (List.length l) n) as [K|K]; [discriminate H|]. injection H as <-. split; [reflexivity|]. exists l. auto.
Qed.
Lemma about_exact_set n i e : typed (acc_exact_set n i) = Err (PeType e) -> about e i.
Proof.
  intros H. apply typed_err in H. destruct i as [s f v]. unfold acc_exact_set in H. destruct v; cbn [acc_set item_value bind item_start item_stop] in H;
    try (injection H as <-; split; [reflexivity|cbn [wrong_kind item_value]; discriminate]).
  destruct (Nat.eqb_spec (List.length l) n) as [K|K]; [discriminate H|]. injection H as <-. split; [reflexivity|]. exists l. auto.
Qed.
Lemma in_part i l j k : item_value i = VSequence l \/ item_value i = VSet l -> In j l -> part_of k j -> part_of k i.
Proof. intros H K P. apply (part_child i j k); [|exact P]. unfold child. destruct H as [-> | ->]; exact K. Qed.
Lemma element_in l k e : element l k = Ok e -> In e l.
Proof. unfold element. destruct (nth_error l k) as [x|] eqn:E; intros H; [|discriminate H]. injection H as ->. exact (nth_error_In _ _ E). Qed.
Lemma element_err l k e : element l k <> Err e.
Proof. unfold element. destruct (nth_error l k); discriminate. Qed.
Lemma next_inv m l x t : next_item m l = Ok (x, t) -> l = x :: t.
Proof. destruct l as [|a l]; intros H; [discriminate H|]. injection H as -> ->. reflexivity. Qed.
Lemma next_err m l e : next_item m l <> Err (PeType e).
Proof. destruct l; discriminate. Qed.

(** Work through a chain of [let?]s. *)
Ltac walk H :=
  match type of H with
  | bind ?x _ = _ => let r := fresh "r" in let K := fresh "K" in destruct x as [r|r|] eqn:K; cbn [bind] in H; [|first [discriminate H|injection H as H; subst r]|discriminate H]
  end.
Lemma blames_algorithm : blames parse_algorithm.
Proof.
  intros i e H. unfold parse_algorithm in H. walk H; [|exists i; split; [constructor|apply about_sequence; exact K]]. apply sequence_inv in K.
  walk H; [|exfalso; exact (next_err _ _ _ K0)]. destruct r0 as [x t]. apply next_inv in K0. subst r.
  walk H; [destruct t as [|? [|]]; discriminate H|]. exists x. split; [|apply about_oid; exact K0]. apply (in_part i (x :: t) x); [left; exact K|left; reflexivity|constructor].
Qed.
Lemma blames_version : blames parse_version.
Proof.
  intros i e H. unfold parse_version in H. walk H; [|exists i; split; [constructor|apply about_integer; exact K]]. exfalso. destruct (negb (List.length r =? 1)%nat); [discriminate H|].
  destruct r as [|[|[[|[]|]|[]|]] t]; discriminate H.
Qed.
Lemma blames_rdn : blames parse_rdn.
Proof.
  intros i e H. unfold parse_rdn in H. walk H; [|exists i; split; [constructor|exact (about_exact_set _ _ _ K)]]. apply exact_set_inv in K as (K & _).
  walk H; [|exfalso; exact (element_err _ _ _ K0)]. apply element_in in K0. walk H.
  - apply exact_sequence_inv in K1 as (K1 & _). walk H; [|exfalso; exact (element_err _ _ _ K2)]. apply element_in in K2. walk H; [walk H; [discriminate H|exfalso; exact (element_err _ _ _ K4)]|].
    exists r2. split; [|apply about_oid; exact K3]. apply (in_part i r r0); [right; exact K|exact K0|]. apply (in_part r0 r1 r2); [left; exact K1|exact K2|constructor].
  - exists r0. split; [|exact (about_exact_sequence _ _ _ K1)]. apply (in_part i r r0); [right; exact K|exact K0|constructor].
Qed.
Lemma blames_each {A} (f : item -> pex A) : blames f -> forall l e, parse_each f l = Err (PeType e) -> exists x j, In x l /\ part_of j x /\ about e j.
Proof.
  intros F. induction l as [|x l IH]; intros e H; [discriminate H|]. cbn [parse_each] in H. walk H.
  - walk H; [discriminate H|]. destruct (IH e eq_refl) as (y & j & Y & J). exists y, j. split; [right; exact Y|exact J].
  - destruct (F x e K) as (j & J). exists x, j. split; [left; reflexivity|exact J].
Qed.
Lemma blames_name : blames parse_name.
Proof.
  intros i e H. unfold parse_name in H. walk H; [|exists i; split; [constructor|apply about_sequence; exact K]]. apply sequence_inv in K.
  destruct (blames_each parse_rdn blames_rdn _ _ H) as (x & j & X & J & B). exists j. split; [|exact B]. apply (in_part i r x); [left; exact K|exact X|exact J].
Qed.
Lemma blames_time : blames parse_time.
Proof. intros i e H. unfold parse_time in H. destruct (item_value i); discriminate H. Qed.
Lemma blames_validity : blames parse_validity.
Proof.
  intros i e H. unfold parse_validity in H. walk H; [|exists i; split; [constructor|exact (about_exact_sequence _ _ _ K)]].
  walk H; [|exfalso; exact (element_err _ _ _ K0)]. walk H; [|destruct (blames_time _ _ K1) as (j & _ & B); exfalso; unfold parse_time in K1; destruct (item_value r0); discriminate K1].
  walk H; [|exfalso; exact (element_err _ _ _ K2)]. walk H; [discriminate H|]. exfalso. unfold parse_time in K3. destruct (item_value r2); discriminate K3.
Qed.
Lemma blames_spki : blames parse_spki.
Proof.
  intros i e H. unfold parse_spki in H. walk H; [|exists i; split; [constructor|exact (about_exact_sequence _ _ _ K)]]. apply exact_sequence_inv in K as (K & _).
  walk H; [|exfalso; exact (element_err _ _ _ K0)]. apply element_in in K0. walk H.
  - walk H; [|exfalso; exact (element_err _ _ _ K2)]. apply element_in in K2. walk H; [discriminate H|]. exists r2. split; [|apply about_bits; exact K3].
    apply (in_part i r r2); [left; exact K|exact K2|constructor].
  - destruct (blames_algorithm _ _ K1) as (j & J & B). exists j. split; [|exact B]. apply (in_part i r r0); [left; exact K|exact K0|exact J].
Qed.
Lemma blames_extension : blames parse_extension.
Proof.
  intros i e H. unfold parse_extension in H. walk H; [|exists i; split; [constructor|apply about_sequence; exact K]]. apply sequence_inv in K.
  walk H; [|exfalso; exact (next_err _ _ _ K0)]. destruct r0 as [x t]. apply next_inv in K0. subst r. walk H.
  - walk H; [|exfalso; exact (next_err _ _ _ K1)]. destruct r0 as [y u]. apply next_inv in K1. subst t.
    assert (OTHER : (let? d := typed (acc_octet_string y) in Ok {| ex_id := r; ex_critical := false; ex_data := d |}) = Err (PeType e) -> exists j, part_of j i /\ about e j).
    { intros O. walk O; [discriminate O|]. exists y. split; [|apply about_octets; exact K1]. apply (in_part i (x :: y :: u) y); [left; exact K|right; left; reflexivity|constructor]. }
    destruct (item_value y); try exact (OTHER H).
    walk H; [|exfalso; exact (next_err _ _ _ K1)]. destruct r0 as [z w]. apply next_inv in K1. subst u. walk H; [discriminate H|]. exists z. split; [|apply about_octets; exact K1].
    apply (in_part i (x :: y :: z :: w) z); [left; exact K|right; right; left; reflexivity|constructor].
  - exists x. split; [|apply about_oid; exact K0]. apply (in_part i (x :: t) x); [left; exact K|left; reflexivity|constructor].
Qed.
Lemma blames_tbs : blames parse_tbs.
Proof.
  intros i e H. unfold parse_tbs in H. walk H; [|exists i; split; [constructor|apply about_sequence; exact K]]. apply sequence_inv in K.
  assert (IN : forall x j, In x r -> part_of j x -> about e j -> exists j, part_of j i /\ about e j).
  { intros x j X J B. exists j. split; [|exact B]. exact (in_part i r x j (or_introl K) X J). }
  walk H; [|exfalso; exact (next_err _ _ _ K0)]. destruct r0 as [x t]. apply next_inv in K0. walk H.
  - destruct r0 as [v [y u]].
    assert (SUB : In y r /\ incl u r).
    { subst r. destruct (item_value x); try (injection K1 as _ <- <-; split; [left; reflexivity|intros z Z; right; exact Z]).
      destruct tag; [|injection K1 as _ <- <-; split; [left; reflexivity|intros z Z; right; exact Z]].
      walk K1. walk K1. destruct r0 as [y0 u0]. injection K1 as _ <- <-. apply next_inv in K2. subst t.
      split; [right; left; reflexivity|intros z Z; right; right; exact Z]. }
    clear K1 K0 x t. destruct SUB as (Y & U). walk H; [|apply (IN y y Y (part_self _)); apply about_integer; exact K0].
    walk H; [|exfalso; exact (next_err _ _ _ K1)]. destruct r1 as [x1 u1]. apply next_inv in K1. subst u. walk H; [|destruct (blames_algorithm _ _ K1) as (j & J & B); apply (IN x1 j (U x1 (or_introl eq_refl)) J B)].
    apply incl_cons_inv in U as (_ & U). walk H; [|exfalso; exact (next_err _ _ _ K2)]. destruct r2 as [x2 u2]. apply next_inv in K2. subst u1.
    walk H; [|destruct (blames_name _ _ K2) as (j & J & B); apply (IN x2 j (U x2 (or_introl eq_refl)) J B)].
    apply incl_cons_inv in U as (_ & U). walk H; [|exfalso; exact (next_err _ _ _ K3)]. destruct r3 as [x3 u3]. apply next_inv in K3. subst u2.
    walk H; [|destruct (blames_validity _ _ K3) as (j & J & B); apply (IN x3 j (U x3 (or_introl eq_refl)) J B)].
    apply incl_cons_inv in U as (_ & U). walk H; [|exfalso; exact (next_err _ _ _ K4)]. destruct r4 as [x4 u4]. apply next_inv in K4. subst u3.
    walk H; [|destruct (blames_name _ _ K4) as (j & J & B); apply (IN x4 j (U x4 (or_introl eq_refl)) J B)].
    apply incl_cons_inv in U as (_ & U). walk H; [|exfalso; exact (next_err _ _ _ K5)]. destruct r5 as [x5 u5]. apply next_inv in K5. subst u4.
    walk H; [|destruct (blames_spki _ _ K5) as (j & J & B); apply (IN x5 j (U x5 (or_introl eq_refl)) J B)].
    apply incl_cons_inv in U as (_ & U). destruct u5 as [|x6 u6]; [discriminate H|]. walk H; [destruct u6; discriminate H|].
    destruct (item_value x6) eqn:V; try discriminate K6. destruct tag as [|[[]| |]]; try discriminate K6.
    assert (C : child i0 x6) by (unfold child; rewrite V; reflexivity). walk K6.
    + destruct (blames_each _ blames_extension _ _ K6) as (z & j & Z & J & B). apply sequence_inv in K7.
      apply (IN x6 j (U x6 (or_introl eq_refl))); [|exact B]. apply (part_child x6 i0 j C). exact (in_part i0 _ z j (or_introl K7) Z J).
    + apply (IN x6 i0 (U x6 (or_introl eq_refl))); [|apply about_sequence; exact K7]. apply (part_child x6 i0 i0 C). constructor.
  - destruct (item_value x) eqn:V; try discriminate K1. destruct tag; [|discriminate K1]. walk K1.
    + walk K1; [discriminate K1|]. exfalso. exact (next_err _ _ _ K3).
    + destruct (blames_version _ _ K2) as (j & J & B). subst r. apply (IN x j (or_introl eq_refl)); [|exact B]. apply (part_child x i0 j); [unfold child; rewrite V; reflexivity|exact J].
Qed.
(** A type error is about a part of the certificate, at its place, that has another type. *)
Theorem C135_blames_a_part i e : parse_certificate i = Err (PeType e) -> exists j, part_of j i /\ about e j.
Proof.
  intros H. unfold parse_certificate in H. walk H; [|exists i; split; [constructor|exact (about_exact_sequence _ _ _ K)]]. apply exact_sequence_inv in K as (K & _).
  walk H; [|exfalso; exact (element_err _ _ _ K0)]. apply element_in in K0. walk H.
  - walk H; [|exfalso; exact (element_err _ _ _ K2)]. apply element_in in K2. walk H.
    + walk H; [|exfalso; exact (element_err _ _ _ K4)]. walk H; [discriminate H|]. exfalso. destruct (item_value r4); discriminate K5.
    + destruct (blames_algorithm _ _ K3) as (j & J & B). exists j. split; [|exact B]. exact (in_part i r _ j (or_introl K) K2 J).
  - destruct (blames_tbs _ _ K1) as (j & J & B). exists j. split; [|exact B]. exact (in_part i r _ j (or_introl K) K0 J).
Qed.
Print Assumptions C135_blames_a_part.
Lemma wrong_alike e i j : erase i = erase j -> wrong_kind e (item_value i) -> wrong_kind e (item_value j).
Proof.
  destruct i as [s f v], j as [s' f' w]. cbn [erase item_value]. intros H. injection H as H.
  assert (LEN : forall l l' : list item, map erase l = map erase l' -> List.length l = List.length l') by (intros l l' X; rewrite <- (map_length erase l), X; apply map_length).
  destruct e; cbn [wrong_kind]; intros W; try (intros; intros ->; destruct v; try discriminate H; eapply W; reflexivity).
  - destruct W as (l & -> & L & N). destruct w; try discriminate H. injection H as H. exists l0. rewrite <- (LEN _ _ H). auto.
  - destruct W as (l & -> & L & N). destruct w; try discriminate H. injection H as H. exists l0. rewrite <- (LEN _ _ H). auto.
  - intros d. destruct (W d) as (W1 & W2). split; intros ->; destruct v; try discriminate H; injection H as ->; [apply W1|apply W2]; reflexivity.
Qed.
(** So the place in the error cuts from the file bytes which, read alone, are one item that
    is not of the expected type. *)
Theorem C135_blamed_bytes d e : fits d -> parse_certificate_bytes d = Err (PeType e) ->
  exists before s after j, d = before ++ s ++ after /\ place e = (List.length before, List.length (before ++ s)) /\
    read_der (new_reader s) = (Ok j, at_pos s []) /\ wrong_kind e (item_value j).
Proof.
  intros F H. unfold parse_certificate_bytes in H. destruct (read_der (new_reader d)) as [y r'] eqn:E. cbn [fst] in H. destruct y as [i|x|]; [|discriminate H|discriminate H].
  destruct (C135_blames_a_part i e H) as (j & J & P & W). destruct (C48_parts_alone d i r' j F E J) as (p & s & q & j2 & D & S1 & S2 & R & A).
  exists p, s, q, j2. split; [exact D|]. split; [rewrite P, S1, S2; reflexivity|]. split; [exact R|]. exact (wrong_alike e j j2 (eq_sym A) W).
Qed.
Print Assumptions C135_blamed_bytes.
