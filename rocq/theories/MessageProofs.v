(** Generic lemmas for the message proofs: field values, slots, writers. *)
From Verif Require Import Base BaseProofs VarintModel VarintSpec VarintProofs.
From Verif Require Import ProtobufModel ProtobufSpec ProtobufProofs CidModel CidSpec CidProofs.
From Verif Require Import DagPbModel IdentifyModel BitswapModel UnixfsModel MessageSpec.
Ltac Zify.zify_post_hook ::= Z.div_mod_to_equations.

Definition fd_payload (d : field_data) : bytes :=
  match d with FVarInt b | FBits32 b | FBits64 b | FBytes b => b end.
Definition fd_good (d : field_data) : Prop := bytes_ok (fd_payload d) /\ fits (fd_payload d).

Lemma fits_app a b : fits (a ++ b) -> fits a /\ fits b.
Proof. unfold fits. rewrite blen_app. lia. Qed.

Lemma wire_field_good f n d : bytes_ok f -> fits f -> wire_field f n d -> fd_good d.
Proof.
  intros Hb Hf (t & body & -> & _ & P). apply bytes_ok_app in Hb as [_ Hb]. apply fits_app in Hf as [_ Hf].
  destruct d as [l|l|l|l]; cbn [wire_payload] in P; unfold fd_good; cbn [fd_payload].
  - destruct P as [-> _]. auto.
  - destruct P as [-> _]. auto.
  - destruct P as [-> _]. auto.
  - destruct P as (lb & -> & _). apply bytes_ok_app in Hb as [_ Hb]. apply fits_app in Hf as [_ Hf]. auto.
Qed.
Lemma wire_message_good b fs : bytes_ok b -> fits b -> wire_message b fs -> Forall (fun f => fd_good (snd f)) fs.
Proof.
  intros Hb Hf M. induction M as [|f n d rest fs W M IH]; constructor.
  - apply bytes_ok_app in Hb as [Hb _]. apply fits_app in Hf as [Hf _]. eapply wire_field_good; eauto.
  - apply bytes_ok_app in Hb as [_ Hb]. apply fits_app in Hf as [_ Hf]. auto.
Qed.

(** ** Field values *)
Definition reads {A} (dec : field_data -> outcome from_pb_error A) (val : field_data -> A -> Prop) : Prop :=
  forall d a, fd_good d -> (dec d = Ok a <-> val d a).

Lemma map_err_ok {E F A} (g : E -> F) (x : outcome E A) a : map_err g x = Ok a <-> x = Ok a.
Proof. destruct x; cbn; split; congruence. Qed.
Lemma of_option_ok {E A} (e : E) (o : option A) a : of_option e o = Ok a <-> o = Some a.
Proof. destruct o; cbn; split; congruence. Qed.

Lemma reads_u64 : reads (fun d => access (fd_to_uint64 d)) v_u64.
Proof.
  intros d a [Hb _]. unfold access. rewrite map_err_ok. unfold v_u64. split.
  - destruct d as [l|l|l|l]; cbn; try discriminate. rewrite map_err_ok. intros H.
    exists l. split; [reflexivity|]. apply is_varint_decode; assumption.
  - intros (l & -> & V). cbn. apply map_err_ok. apply is_varint_decode; assumption.
Qed.
Lemma reads_u32 : reads (fun d => access (fd_to_uint32 d)) v_u32.
Proof.
  intros d a [Hb Hf]. pose proof (reads_u64 d) as R. unfold v_u32.
  unfold access in *. rewrite map_err_ok. split.
  - destruct d as [l|l|l|l]; cbn [fd_to_uint32]; try discriminate. rewrite map_err_ok.
    unfold vi_to_u32. rewrite bind_ok. intros (v & H1 & H2).
    destruct (N.ltb_spec 4294967295 v); [discriminate|]. injection H2 as <-.
    split; [|change (2 ^ 32) with 4294967296; lia].
    apply R; [split; assumption|]. cbn. unfold vi_to_u64. rewrite H1. reflexivity.
  - intros [V L]. change (2 ^ 32) with 4294967296 in L. apply R in V; [|split; assumption].
    apply map_err_ok in V. destruct d as [l|l|l|l]; cbn [fd_to_uint64 fd_to_uint32] in *; try discriminate.
    apply map_err_ok in V. apply map_err_ok. unfold vi_to_u64 in V. unfold vi_to_u32. rewrite V. cbn [bind].
    destruct (N.ltb_spec 4294967295 a); [lia|reflexivity].
Qed.
Lemma u64_of d v : fd_good d -> (v_u64 d v <-> fd_to_uint64 d = Ok v).
Proof. intros H. rewrite <- (reads_u64 d v H). unfold access. apply map_err_ok. Qed.
Lemma v_u64_lt d v : v_u64 d v -> v < 18446744073709551616.
Proof. intros (l & _ & V). apply V. Qed.

Lemma reads_i32 : reads (fun d => access (fd_to_int32 d)) v_i32.
Proof.
  intros d a G. unfold access. rewrite map_err_ok. unfold v_i32.
  assert (K : forall v, ((- 2 ^ 31 <= a < 2 ^ 31)%Z /\ (exists k, Z.of_N v = a + k * 2 ^ 32)%Z) <-> u64_as_i32 v = a).
  { intros v. unfold u64_as_i32, two32. change (2 ^ 31)%Z with 2147483648%Z. change (2 ^ 32)%Z with 4294967296%Z.
    split.
    - intros (B & k & E). destruct (N.ltb_spec (v mod 4294967296) 2147483648); lia.
    - intros <-. destruct (N.ltb_spec (v mod 4294967296) 2147483648) as [L|L].
      + split; [lia|]. exists (Z.of_N (v / 4294967296)). lia.
      + split; [lia|]. exists (Z.of_N (v / 4294967296) + 1)%Z. lia. }
  split.
  - destruct d as [l|l|l|l]; cbn [fd_to_int32]; try discriminate. rewrite map_err_ok.
    unfold vi_to_i32. rewrite bind_ok. intros (v & H1 & H2). injection H2 as <-.
    exists v. split; [apply u64_of; [exact G|]; cbn; unfold vi_to_u64; rewrite H1; reflexivity|].
    apply K. reflexivity.
  - intros (v & V & KK). apply K in KK. apply u64_of in V; [|exact G].
    destruct d as [l|l|l|l]; cbn [fd_to_uint64 fd_to_int32] in *; try discriminate.
    apply map_err_ok in V. apply map_err_ok. unfold vi_to_u64 in V. unfold vi_to_i32. rewrite V. cbn [bind].
    congruence.
Qed.
Lemma reads_i64 : reads (fun d => access (fd_to_int64 d)) v_i64.
Proof.
  intros d a G. unfold access. rewrite map_err_ok. unfold v_i64.
  assert (K : forall v, v < 18446744073709551616 ->
     (((- 2 ^ 63 <= a < 2 ^ 63)%Z /\ (exists k, Z.of_N v = a + k * 2 ^ 64)%Z) <-> u64_as_i64 v = a)).
  { intros v B0. unfold u64_as_i64, two63. change (2 ^ 63)%Z with 9223372036854775808%Z.
    change (2 ^ 64)%Z with 18446744073709551616%Z.
    split.
    - intros (B & k & E). destruct (N.ltb_spec v 9223372036854775808); lia.
    - intros <-. destruct (N.ltb_spec v 9223372036854775808) as [L|L].
      + split; [lia|]. exists 0%Z. lia.
      + split; [lia|]. exists 1%Z. lia. }
  split.
  - destruct d as [l|l|l|l]; cbn [fd_to_int64]; try discriminate. rewrite map_err_ok.
    unfold vi_to_i64. rewrite bind_ok. intros (v & H1 & H2). injection H2 as <-.
    assert (V : v_u64 (FVarInt l) v).
    { apply u64_of; [exact G|]; cbn; unfold vi_to_u64; rewrite H1; reflexivity. }
    exists v. split; [exact V|]. apply K; [eapply v_u64_lt; eauto|reflexivity].
  - intros (v & V & KK). apply K in KK; [|eapply v_u64_lt; eauto]. apply u64_of in V; [|exact G].
    destruct d as [l|l|l|l]; cbn [fd_to_uint64 fd_to_int64] in *; try discriminate.
    apply map_err_ok in V. apply map_err_ok. unfold vi_to_u64 in V. unfold vi_to_i64. rewrite V. cbn [bind].
    congruence.
Qed.
Lemma reads_bool : reads (fun d => access (fd_to_bool d)) v_bool.
Proof.
  intros d a G. unfold access. rewrite map_err_ok. unfold v_bool.
  assert (K : forall v, (a = true <-> v <> 0) <-> negb (v =? 0) = a).
  { intros v. destruct (N.eqb_spec v 0), a; cbn; intuition congruence. }
  split.
  - destruct d as [l|l|l|l]; cbn [fd_to_bool]; try discriminate. rewrite map_err_ok.
    unfold vi_to_bool. rewrite bind_ok. intros (v & H1 & H2). injection H2 as H2.
    exists v. split; [apply u64_of; [exact G|]; cbn; unfold vi_to_u64 in *; rewrite H1; reflexivity|].
    apply K, H2.
  - intros (v & V & KK). apply K in KK. apply u64_of in V; [|exact G].
    destruct d as [l|l|l|l]; cbn [fd_to_uint64 fd_to_bool] in *; try discriminate.
    apply map_err_ok in V. apply map_err_ok. unfold vi_to_bool. rewrite V. cbn [bind]. congruence.
Qed.
Lemma reads_bytes : reads (fun d => access (fd_to_bytes d)) v_bytes.
Proof.
  intros d a G. unfold access, v_bytes. rewrite map_err_ok.
  destruct d; cbn; split; unfold not_bytes; congruence.
Qed.
Lemma reads_string : reads (fun d => access (fd_to_string d)) v_string.
Proof.
  intros d a G. unfold access, v_string. rewrite map_err_ok.
  destruct d as [l|l|l|l]; cbn; try (split; [discriminate|intros [H _]; discriminate]).
  split.
  - destruct (utf8_valid l) eqn:U; [|discriminate]. intros H. injection H as <-. auto.
  - intros [H U]. injection H as ->. rewrite U. reflexivity.
Qed.
Lemma reads_fixed32 : reads (fun d => access (fd_to_fixed32 d)) v_fixed32.
Proof.
  intros d a G. unfold access, v_fixed32. rewrite map_err_ok.
  destruct d as [l|l|l|l]; cbn; try (split; [discriminate|intros (b & H & _); discriminate]).
  split.
  - intros H. injection H as <-. eauto.
  - intros (b & H & ->). injection H as ->. reflexivity.
Qed.
Lemma reads_nested {A} (msg : bytes -> A -> Prop) (parse : bytes -> outcome from_pb_error A) :
  (forall b a, bytes_ok b -> fits b -> (parse b = Ok a <-> msg b a)) ->
  reads (fun d => let? b := access (fd_to_bytes d) in parse b) (v_nested msg).
Proof.
  intros H d a G. unfold v_nested. rewrite bind_ok. split.
  - intros (b & H1 & H2). apply reads_bytes in H1; [|exact G]. unfold v_bytes in H1. subst d.
    destruct G as [G1 G2]. cbn [fd_payload] in *. exists b. split; [reflexivity|]. apply H; assumption.
  - intros (b & -> & M). pose proof G as [G1 G2]. cbn [fd_payload] in *. exists b. split; [reflexivity|].
    apply H; assumption.
Qed.
Lemma reads_then {A B} (dec : field_data -> outcome from_pb_error A) val (f : A -> outcome from_pb_error B)
    (val' : field_data -> B -> Prop) :
  reads dec val -> (forall d b, val' d b <-> exists a, val d a /\ f a = Ok b) ->
  reads (fun d => let? a := dec d in f a) val'.
Proof.
  intros R H d b G. rewrite bind_ok, H. split; intros (a & H1 & H2); exists a; split; auto; apply R; assumption.
Qed.

(** ** Slots *)
Definition up_one {A} (val : field_data -> A -> Prop) n fs (o o' : option A) : Prop :=
  match o with None => at_most_one val n fs o' | Some _ => occ n fs = [] /\ o' = o end.
Definition up_rep {A} (val : field_data -> A -> Prop) n fs (l l' : list A) : Prop :=
  exists k, Forall2 val (occ n fs) k /\ l' = l ++ k.
Definition up_last {A} (val : field_data -> A -> Prop) n fs (a a' : A) : Prop :=
  last_counts val n fs a a'.

Lemma occ_cons n m d fs : occ n ((m, d) :: fs) = if m =? n then d :: occ n fs else occ n fs.
Proof. unfold occ. cbn [filter fst]. destruct (m =? n); reflexivity. Qed.

Lemma up_one_nil {A} val n (o o' : option A) : up_one val n [] o o' <-> o' = o.
Proof.
  unfold up_one, at_most_one. destruct o; cbn; [tauto|]. destruct o'; cbn; split; try congruence.
  intros (d & H & _). discriminate.
Qed.
Lemma up_one_skip {A} val n m d fs (o o' : option A) :
  (m =? n) = false -> up_one val n ((m, d) :: fs) o o' <-> up_one val n fs o o'.
Proof. intros H. unfold up_one, at_most_one. rewrite occ_cons, H. reflexivity. Qed.
Lemma up_one_hit {A} val n d fs (o o' : option A) :
  up_one val n ((n, d) :: fs) o o' <-> (o = None /\ exists a, val d a /\ up_one val n fs (Some a) o').
Proof.
  unfold up_one, at_most_one. rewrite occ_cons, N.eqb_refl. destruct o as [a|].
  - split; [intros [H _]; discriminate|intros [H _]; discriminate].
  - destruct o' as [a'|].
    + split.
      * intros (d0 & H1 & H2). injection H1 as -> H1. split; [reflexivity|]. exists a'. auto.
      * intros (_ & a & H1 & H2 & H3). injection H3 as ->. exists d. rewrite H2. auto.
    + split; [discriminate|]. intros (_ & a & H1 & H2 & H3). discriminate.
Qed.
Lemma up_rep_nil {A} val n (l l' : list A) : up_rep val n [] l l' <-> l' = l.
Proof.
  unfold up_rep. cbn. split.
  - intros (k & H & ->). inversion H. apply app_nil_r.
  - intros ->. exists []. split; [constructor|]. symmetry. apply app_nil_r.
Qed.
Lemma up_rep_skip {A} val n m d fs (o o' : list A) :
  (m =? n) = false -> up_rep val n ((m, d) :: fs) o o' <-> up_rep val n fs o o'.
Proof. intros H. unfold up_rep. rewrite occ_cons, H. reflexivity. Qed.
Lemma up_rep_hit {A} val n d fs (l l' : list A) :
  up_rep val n ((n, d) :: fs) l l' <-> (exists a, val d a /\ up_rep val n fs (l ++ [a]) l').
Proof.
  unfold up_rep. rewrite occ_cons, N.eqb_refl. split.
  - intros (k & H & ->). inversion H as [|x a y k' H1 H2]; subst. exists a. split; [exact H1|].
    exists k'. rewrite <- app_assoc. auto.
  - intros (a & H & k & H1 & ->). exists (a :: k). rewrite <- app_assoc. auto.
Qed.
Lemma up_last_nil {A} val n (a a' : A) : up_last val n [] a a' <-> a' = a.
Proof.
  unfold up_last, last_counts. cbn. split.
  - intros (k & H & ->). inversion H. reflexivity.
  - intros ->. exists []. split; [constructor|]. reflexivity.
Qed.
Lemma up_last_skip {A} val n m d fs (o o' : A) :
  (m =? n) = false -> up_last val n ((m, d) :: fs) o o' <-> up_last val n fs o o'.
Proof. intros H. unfold up_last, last_counts. rewrite occ_cons, H. reflexivity. Qed.
Lemma last_cons {A} (a : A) l d : last (a :: l) d = last l a.
Proof.
  revert a d; induction l as [|b l IH]; intros a d; [reflexivity|].
  change (last (a :: b :: l) d) with (last (b :: l) d). rewrite !IH. reflexivity.
Qed.
Lemma up_last_hit {A} val n d fs (l l' : A) :
  up_last val n ((n, d) :: fs) l l' <-> (exists a, val d a /\ up_last val n fs a l').
Proof.
  unfold up_last, last_counts. rewrite occ_cons, N.eqb_refl. split.
  - intros (k & H & ->). inversion H as [|x a y k' H1 H2]; subst. exists a. split; [exact H1|].
    exists k'. split; [assumption|]. apply last_cons.
  - intros (a & H & k & H1 & ->). exists (a :: k). split; [constructor; assumption|].
    symmetry. apply last_cons.
Qed.
(** A "last one counts" slot of option type that starts empty. *)
Definition some_val {A} (val : field_data -> A -> Prop) (d : field_data) (o : option A) : Prop :=
  exists a, val d a /\ o = Some a.
Lemma Forall2_some {A} (val : field_data -> A -> Prop) ds k :
  Forall2 (some_val val) ds k <-> exists l, k = map Some l /\ Forall2 val ds l.
Proof.
  split.
  - induction 1 as [|d o ds k (a & V & ->) F (l & -> & IH)].
    + exists []. split; constructor.
    + exists (a :: l). split; [reflexivity|constructor; assumption].
  - intros (l & -> & F). induction F; constructor; auto. eexists; eauto.
Qed.
Lemma up_last_some {A} val n fs (a : A) :
  up_last (some_val val) n fs None (Some a) <-> last_required val n fs a.
Proof.
  unfold up_last, last_counts, last_required. split.
  - intros (k & F & E). apply Forall2_some in F as (l & -> & F).
    destruct l as [|x l] using rev_ind; [discriminate|].
    rewrite map_app in E. cbn [map] in E. rewrite last_last in E. injection E as ->. eauto.
  - intros (l & F). exists (map Some (l ++ [a])). split; [apply Forall2_some; eauto|].
    rewrite map_app. cbn [map]. rewrite last_last. reflexivity.
Qed.
Lemma up_one_some {A} val n fs (a : A) : up_one val n fs None (Some a) <-> exactly_one val n fs a.
Proof. reflexivity. Qed.
Lemma up_one_none {A} val n fs (o : option A) : up_one val n fs None o <-> at_most_one val n fs o.
Proof. reflexivity. Qed.
Lemma up_rep_none {A} val n fs (o : list A) : up_rep val n fs [] o <-> repeated val n fs o.
Proof. unfold up_rep, repeated. split; [intros (k & H & ->); exact H|intros H; exists o; auto]. Qed.

(** ** Writers *)
Lemma wm_one f n d : wire_field f n d -> wire_message f [(n, d)].
Proof. intros W. rewrite <- (app_nil_r f). constructor; [exact W|constructor]. Qed.
Lemma write_int32_eq w n z : n < two32 -> write_int32 w n z = w ++ f_uint64 n (int_as_u64 z).
Proof. intros H. unfold write_int32. apply write_uint64_eq, H. Qed.
Lemma write_bool_eq w n (b : bool) : n < two32 -> write_bool w n b = w ++ f_uint64 n (if b then 1 else 0).
Proof. intros H. unfold write_bool. apply write_uint64_eq, H. Qed.
Lemma write_string_eq w n b : n < two32 -> write_string w n b = w ++ f_bytes n b.
Proof. intros H. unfold write_string. apply write_bytes_eq, H. Qed.
Lemma fold_write {A} (g : A -> bytes) n l w :
  n < two32 ->
  fold_left (fun w x => write_bytes w n (g x)) l w = w ++ concat (map (fun x => f_bytes n (g x)) l).
Proof.
  intros H. revert w. induction l as [|x l IH]; intros w; cbn [fold_left map concat].
  - symmetry. apply app_nil_r.
  - rewrite IH, write_bytes_eq by exact H. rewrite <- app_assoc. reflexivity.
Qed.
Lemma wm_list {A} (g : A -> bytes) n l :
  n < two32 -> fits (concat (map (fun x => f_bytes n (g x)) l)) ->
  wire_message (concat (map (fun x => f_bytes n (g x)) l)) (map (fun x => (n, FBytes (g x))) l).
Proof.
  intros H. induction l as [|x l IH]; cbn [map concat]; intros F; [constructor|].
  apply fits_app in F as [F1 F2]. constructor; [|auto]. apply f_bytes_wire; [exact H|].
  eapply f_bytes_fits; eauto.
Qed.
Lemma list_ok {A} (g : A -> bytes) n l :
  Forall (fun x => bytes_ok (g x)) l -> bytes_ok (concat (map (fun x => f_bytes n (g x)) l)).
Proof.
  induction 1; cbn [map concat]; [apply bytes_ok_nil|]. apply bytes_ok_app. split; [apply f_bytes_ok|]; auto.
Qed.
Lemma list_fits {A} (g : A -> bytes) n l :
  fits (concat (map (fun x => f_bytes n (g x)) l)) -> Forall (fun x => fits (g x)) l.
Proof.
  induction l as [|x l IH]; cbn [map concat]; intros F; constructor.
  - apply fits_app in F as [F _]. eapply f_bytes_fits; eauto.
  - apply fits_app in F as [_ F]. auto.
Qed.
Lemma occ_app n a b : occ n (a ++ b) = occ n a ++ occ n b.
Proof. unfold occ. rewrite filter_app, map_app. reflexivity. Qed.
Lemma occ_list_same {A} (g : A -> bytes) n l : occ n (map (fun x => (n, FBytes (g x))) l) = map (fun x => FBytes (g x)) l.
Proof. induction l as [|x l IH]; [reflexivity|]. cbn [map]. rewrite occ_cons, N.eqb_refl, IH. reflexivity. Qed.
Lemma occ_list_diff {A} (g : A -> bytes) n m l :
  (m =? n) = false -> occ n (map (fun x => (m, FBytes (g x))) l) = [].
Proof. intros H. induction l as [|x l IH]; [reflexivity|]. cbn [map]. rewrite occ_cons, H, IH. reflexivity. Qed.
Lemma Forall2_map_l {A B C} (f : A -> B) (R : B -> C -> Prop) l m :
  Forall2 R (map f l) m <-> Forall2 (fun a c => R (f a) c) l m.
Proof.
  split.
  - revert m; induction l as [|a l IH]; intros m H; inversion H; subst; constructor; auto.
  - induction 1; cbn [map]; constructor; auto.
Qed.
Lemma Forall2_refl_on {A} (R : A -> A -> Prop) l : Forall (fun a => R a a) l -> Forall2 R l l.
Proof. induction 1; constructor; auto. Qed.
Lemma Forall_and2 {A} (P Q R : A -> Prop) l :
  Forall P l -> Forall Q l -> (forall a, P a -> Q a -> R a) -> Forall R l.
Proof. intros H1 H2 H. induction H1; inversion H2; constructor; auto. Qed.
Lemma v_u64_encode v : u64_ok v -> v_u64 (FVarInt (encode_u64 v)) v.
Proof. intros H. exists (encode_u64 v). split; [reflexivity|]. apply is_varint_encode, H. Qed.
Lemma v_i32_encode z : i32_ok z -> v_i32 (FVarInt (encode_u64 (int_as_u64 z))) z.
Proof.
  intros H. exists (int_as_u64 z). split; [apply v_u64_encode, int_as_u64_ok|].
  unfold i32_ok in H. change (2 ^ 31)%Z with 2147483648%Z. change (2 ^ 32)%Z with 4294967296%Z.
  split; [exact H|]. unfold int_as_u64. exists (if (z <? 0)%Z then 4294967296 else 0)%Z.
  destruct (Z.ltb_spec z 0); lia.
Qed.
Lemma v_bool_encode (b : bool) : v_bool (FVarInt (encode_u64 (if b then 1 else 0))) b.
Proof.
  exists (if b then 1 else 0). split; [apply v_u64_encode; destruct b; reflexivity|].
  destruct b; split; intros; congruence.
Qed.

(** ** One loop step *)
Lemma hit1 {S A} (run : S -> Prop) (Q : A -> Prop) dec (val : field_data -> A -> Prop) d (set : A -> S) :
  reads dec val -> fd_good d -> (forall a, run (set a) <-> Q a) ->
  ((exists s1, (let? a := dec d in @Ok from_pb_error _ (set a)) = Ok s1 /\ run s1) <-> exists a, val d a /\ Q a).
Proof.
  intros R G H. split.
  - intros (s1 & H1 & H2). rewrite bind_ok in H1. destruct H1 as (a & H1 & H3). injection H3 as <-.
    exists a. split; [apply R; assumption|apply H; assumption].
  - intros (a & H1 & H2). exists (set a). split; [|apply H; exact H2].
    rewrite bind_ok. exists a. split; [apply R; assumption|reflexivity].
Qed.
Lemma hit2 {S A B} (run : S -> Prop) (Q : B -> Prop) (acc : field_data -> outcome from_pb_error A)
    (f : A -> outcome from_pb_error B) (val : field_data -> B -> Prop) d (set : B -> S) :
  reads (fun d => let? v := acc d in f v) val -> fd_good d -> (forall a, run (set a) <-> Q a) ->
  ((exists s1, (let? v := acc d in let? a := f v in Ok (set a)) = Ok s1 /\ run s1) <->
   exists a, val d a /\ Q a).
Proof.
  intros R G H. rewrite <- (hit1 run Q _ val d set R G H).
  assert (E : (let? v := acc d in let? a := f v in Ok (set a)) =
              (let? a := (let? v := acc d in f v) in @Ok from_pb_error _ (set a))).
  { destruct (acc d); reflexivity. }
  rewrite E. reflexivity.
Qed.
Lemma miss {S} (run : S -> Prop) (s : S) (Q : Prop) :
  (run s <-> Q) -> ((exists s1, @Ok from_pb_error _ s = Ok s1 /\ run s1) <-> Q).
Proof. intros H. rewrite <- H. split; [intros (s1 & E & R); injection E as <-; exact R|eauto]. Qed.
Lemma err_step {S} (run : S -> Prop) (e : from_pb_error) (Q : Prop) :
  ~ Q -> ((exists s1, Err e = Ok s1 /\ run s1) <-> Q).
Proof. intros H. split; [intros (s1 & E & _); discriminate|tauto]. Qed.

Ltac skip_slots :=
  repeat (rewrite up_one_skip by (reflexivity || assumption));
  repeat (rewrite up_rep_skip by (reflexivity || assumption));
  repeat (rewrite up_last_skip by (reflexivity || assumption)).
Ltac hit_slots :=
  repeat first [ rewrite up_one_hit | rewrite up_rep_hit | rewrite up_last_hit ].
Ltac do_hit1 R G IH :=
  etransitivity; [eapply (hit1 (fun s1 => run_fields _ _ s1 = Ok _) _ _ _ _ _ R G); intros ?a; apply IH|].
Ltac do_hit2 R G IH :=
  etransitivity; [eapply (hit2 (fun s1 => run_fields _ _ s1 = Ok _) _ _ _ _ _ _ R G); intros ?a; apply IH|].
Ltac do_miss IH :=
  etransitivity; [eapply (miss (fun s1 => run_fields _ _ s1 = Ok _)); apply IH|].
Ltac slot_fin :=
  cbv beta;
  split; intros ?H;
  repeat match goal with
  | H : _ /\ _ |- _ => destruct H
  | H : exists _, _ |- _ => destruct H
  end;
  repeat match goal with
  | |- _ /\ _ => split
  | |- exists _, _ => eexists
  end; first [eassumption|reflexivity|idtac].
