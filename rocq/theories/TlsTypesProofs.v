(** Lemmas about TLS code points and messages. *)
From Verif Require Import Base BaseProofs BinaryModel BinarySpec BinaryProofs BinaryProofs2
  Asn1Model X509Model TlsCodesModel TlsTypesModel TlsTypesSpec.
Local Open Scope N_scope.
Ltac Zify.zify_post_hook ::= Z.div_mod_to_equations.

(** *** Code points *)
Lemma codes_agree_intro {X} (table : list (N * X)) unknown (from : N -> X) (to : X -> N) :
  Forall (fun p => from (fst p) = snd p /\ to (snd p) = fst p) table ->
  (forall c, from c = unknown c \/ (In c (map fst table))) ->
  (forall c, to (unknown c) = c) ->
  (forall x, In x (map snd table) \/ exists c, x = unknown c) ->
  codes_agree table unknown from to.
Proof.
  intros T U V A.
  assert (T' : forall c x, In (c, x) table -> from c = x /\ to x = c).
  { intros c x H. rewrite Forall_forall in T. apply T in H. exact H. }
  assert (R : forall c, to (from c) = c).
  { intros c. destruct (U c) as [E|I].
    - rewrite E. apply V.
    - apply in_map_iff in I. destruct I as [[c' x] [Ec I]]. cbn [fst] in Ec. subst c'.
      destruct (T' _ _ I) as [-> ->]. reflexivity. }
  repeat split.
  - apply (T' c x H).
  - apply (T' c x H).
  - destruct (U c); [auto|contradiction].
  - apply V.
  - exact A.
  - exact R.
  - intros c d E. rewrite <- (R c), <- (R d), E. reflexivity.
  - assert (P : forall limit x, proper table unknown limit x -> from (to x) = x).
    { intros limit x [I|(c & -> & _ & NI)].
      - apply in_map_iff in I. destruct I as [[c x'] [Ex I]]. cbn [snd] in Ex. subst x'.
        destruct (T' _ _ I) as [E1 ->]. exact E1.
      - rewrite V. destruct (U c); [auto|contradiction]. }
    intros limit x y Px Py E. rewrite <- (P _ _ Px), <- (P _ _ Py), E. reflexivity.
Qed.
Ltac code_table :=
  apply codes_agree_intro;
  [ match goal with |- Forall _ ?t => unfold t end; repeat (apply Forall_cons; [split; reflexivity|]); apply Forall_nil
  | let c := fresh "c" in intros c; match goal with |- _ \/ In _ (map _ ?t) => unfold t end; cbn [map fst];
    match goal with |- ?f c = _ \/ _ => unfold f end;
    repeat match goal with |- context [if ?a =? ?b then _ else _] => destruct (N.eqb_spec a b) as [->|?]; [right; cbn [In]; tauto|] end;
    left; reflexivity
  | reflexivity
  | let x := fresh "x" in intros x; match goal with |- In _ (map _ ?t) \/ _ => unfold t end; destruct x; cbn [map snd In]; (right; eexists; reflexivity) || (left; tauto) ].

(** *** Reading *)
(** The reader [m] takes exactly [e] and returns [a]. *)
Definition reads {A} (m : rd A) (e : bytes) (a : A) : Prop :=
  forall pre post, fits (pre ++ e ++ post) -> m (at_pos pre (e ++ post)) = (Ok a, at_pos (pre ++ e) post).
(** It returns [a] when [e] is all there is. *)
Definition ends {A} (m : rd A) (e : bytes) (a : A) : Prop :=
  forall pre, fits (pre ++ e) -> fst (m (at_pos pre e)) = Ok a.
Lemma reads_ends {A} (m : rd A) e a : reads m e a -> ends m e a.
Proof. intros H pre F. specialize (H pre []). rewrite !app_nil_r in H. rewrite (H F). reflexivity. Qed.
Lemma reads_ret {A} (a : A) : reads (rret a) [] a.
Proof. intros pre post _. rewrite app_nil_r. reflexivity. Qed.
Lemma reads_bind {A B} (m : rd A) (k : A -> rd B) e1 e2 a b :
  reads m e1 a -> reads (k a) e2 b -> reads (do x <- m; k x) (e1 ++ e2) b.
Proof.
  intros H1 H2 pre post F. unfold rbind. rewrite <- app_assoc in *. rewrite (H1 pre (e2 ++ post) F).
  rewrite (H2 (pre ++ e1) post); [rewrite app_assoc; reflexivity|rewrite <- app_assoc; exact F].
Qed.
Lemma reads_map {A B} (m : rd A) (f : A -> B) e a : reads m e a -> reads (do x <- m; rret (f x)) e (f a).
Proof. intros H. rewrite <- (app_nil_r e). apply (reads_bind m (fun x => rret (f x)) e [] a _ H). apply reads_ret. Qed.
Lemma ends_bind {A B} (m : rd A) (k : A -> rd B) e1 e2 a b :
  reads m e1 a -> ends (k a) e2 b -> ends (do x <- m; k x) (e1 ++ e2) b.
Proof.
  intros H1 H2 pre F. unfold rbind. rewrite (H1 pre e2 F). apply H2. rewrite <- app_assoc. exact F.
Qed.
Lemma reads_num w v : In w [1; 2; 3; 4; 8]%nat -> v < 256 ^ N.of_nat w -> reads (read_num w) (be_bytes w v) v.
Proof. intros I L pre post F. apply read_num_ok; auto. Qed.
Lemma reads_u8 v : v < 256 -> reads read_u8 (be_bytes 1 v) v.
Proof. intros L. apply (reads_num 1); [cbn; auto|exact L]. Qed.
Lemma reads_u16 v : v < 65536 -> reads read_u16 (be_bytes 2 v) v.
Proof. intros L. apply (reads_num 2); [cbn; auto|exact L]. Qed.
Lemma reads_u32 v : v < two32 -> reads read_u32 (be_bytes 4 v) v.
Proof. intros L. apply (reads_num 4); [cbn; auto|exact L]. Qed.
Lemma reads_fixed b : reads (read_fixed (blen b)) b b.
Proof. intros pre post F. unfold read_fixed. rewrite take_ok by exact F. reflexivity. Qed.
Lemma reads_bytes w b : In w [1; 2; 3]%nat -> fit w b -> reads (read_bytes w) (vec w b) b.
Proof.
  intros I L. rewrite (read_bytes_num w I). apply (reads_bind _ _ _ _ (blen b)).
  - apply reads_num; [apply in3; exact I|exact L].
  - apply reads_fixed.
Qed.
Lemma reads_list {A} w (item : rd A) (en : A -> bytes) l :
  In w [1; 2; 3]%nat -> fit w (concat (map en l)) ->
  (forall x, In x l -> reads item (en x) x) -> (forall x, In x l -> en x <> []) ->
  reads (read_list w item) (vecs w (map en l)) l.
Proof.
  intros I L R NE. rewrite (read_list_num w item I). apply (reads_bind _ _ _ _ (blen (concat (map en l)))).
  - apply reads_num; [apply in3; exact I|exact L].
  - intros pre post F. apply fixed_list_ok; auto. intros x p q Hx Fx. apply R; auto.
Qed.
Lemma reads_nested {A} (f : reader -> outcome berr A) e a :
  (forall pre, fits (pre ++ e) -> f (at_pos pre e) = Ok a) ->
  reads (do inner <- read_nested (blen e); rlift (f inner)) e a.
Proof.
  intros H pre post F. unfold rbind. rewrite nested_ok by exact F. unfold rlift. rewrite H; [reflexivity|].
  rewrite app_assoc in F. apply fits_app_l in F. exact F.
Qed.
Lemma ends_remaining e : ends remaining_data e e.
Proof.
  intros pre _. unfold remaining_data, at_pos. cbn [r_buf r_off fst].
  pose proof (index_range_at (E := berr) pre e []) as H. rewrite !app_nil_r in H. exact H.
Qed.
Lemma ends_map {A B} (m : rd A) (f : A -> B) e a : ends m e a -> ends (do x <- m; rret (f x)) e (f a).
Proof.
  intros H pre F. specialize (H pre F). unfold rbind. destruct (m (at_pos pre e)) as [o r]. cbn [fst] in H. rewrite H. reflexivity.
Qed.
Lemma ends_eof {A} (a : A) : ends (do _ <- expect_eof; rret a) [] a.
Proof. intros pre _. unfold rbind, expect_eof. rewrite remaining_at. reflexivity. Qed.

Lemma reads_eq {A} (m : rd A) e e' a a' : reads m e a -> e = e' -> a = a' -> reads m e' a'.
Proof. intros H <- <-. exact H. Qed.
Lemma proper_from {X} (table : list (N * X)) unknown from to limit x :
  codes_agree table unknown from to -> proper table unknown limit x -> from (to x) = x.
Proof.
  intros (T & U & _) [I|(c & -> & _ & NI)].
  - apply in_map_iff in I. destruct I as [[c x'] [Ex I]]. cbn [snd] in Ex. subst x'. destruct (T _ _ I) as [E1 ->]. exact E1.
  - destruct (U c NI) as [E ->]. exact E.
Qed.
Lemma proper_lt {X} (table : list (N * X)) unknown from to limit x :
  codes_agree table unknown from to -> proper table unknown limit x ->
  forallb (fun p => fst p <? limit) table = true -> to x < limit.
Proof.
  intros (T & U & _) [I|(c & -> & L & NI)] B.
  - apply in_map_iff in I. destruct I as [[c x'] [Ex I]]. cbn [snd] in Ex. subst x'. destruct (T _ _ I) as [_ ->].
    rewrite forallb_forall in B. apply B in I. cbn [fst] in I. lia.
  - destruct (U c NI) as [_ ->]. exact L.
Qed.
