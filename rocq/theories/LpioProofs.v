(** Lemmas about length-prefixed messages. *)
From Verif Require Import Base BaseProofs VarintModel VarintSpec VarintProofs VarintProofs2 MplexModel MplexProofs MplexProofs2 LpioModel LpioSpec.

Definition effective (lim : option N) (d : bytes) : bytes := match lim with None => d | Some n => firstn (N.to_nat n) d end.
Definition moved (lim : option N) (src : list item) (lim' : option N) (src' : list item) (u : bytes) : Prop :=
  bytes_of src = u ++ bytes_of src' /\ lim' = after lim (blen u) /\ (forall m, lim = Some m -> blen u <= m) /\ clean src' /\
  (length src' + length u <= length src)%nat.

Lemma after_0 lim : after lim 0 = lim.
Proof. destruct lim; cbn; [rewrite N.sub_0_r|]; reflexivity. Qed.
Lemma after_after lim a b : after (after lim a) b = after lim (a + b).
Proof. destruct lim; cbn; [|reflexivity]. f_equal. lia. Qed.
Lemma moved_refl lim src : clean src -> moved lim src lim src [].
Proof. intros C. split; [reflexivity|]. split; [symmetry; apply after_0|]. split; [intros; cbn; lia|]. split; [exact C|cbn; lia]. Qed.
Lemma moved_trans l1 s1 l2 s2 l3 s3 u v : moved l1 s1 l2 s2 u -> moved l2 s2 l3 s3 v -> moved l1 s1 l3 s3 (u ++ v).
Proof.
  intros (A1 & A2 & A3 & A4 & A5) (B1 & B2 & B3 & B4 & B5). split; [rewrite A1, B1, app_assoc; reflexivity|].
  split; [rewrite B2, A2, after_after, blen_app; reflexivity|]. split; [|split; [exact B4|rewrite app_length; lia]].
  intros m E. rewrite blen_app. specialize (A3 m E). rewrite E in A2. cbn [after] in A2. specialize (B3 _ A2). lia.
Qed.
Lemma moved_effective lim src lim' src' u : moved lim src lim' src' u ->
  effective lim (bytes_of src) = u ++ effective lim' (bytes_of src').
Proof.
  intros (A1 & A2 & A3 & _). rewrite A1, A2. destruct lim as [n|]; [|reflexivity]. cbn [effective after].
  specialize (A3 n eq_refl). unfold blen in A3. rewrite firstn_app. rewrite firstn_all2 by lia. f_equal. f_equal. unfold blen. lia.
Qed.
Lemma clean_cons i src : clean (i :: src) -> clean src.
Proof. intros H. inversion H. assumption. Qed.

Lemma take_bytes_spec room : forall src d t, take_bytes room src = (d, t) -> clean src ->
  bytes_of src = d ++ bytes_of t /\ clean t /\ (length t + length d = length src)%nat /\ (length d <= room)%nat.
Proof.
  induction room as [|room IH]; intros src d t; cbn [take_bytes].
  - destruct src; intros H C; injection H as <- <-; (split; [reflexivity|]; split; [exact C|]; split; cbn; lia).
  - destruct src as [|[b| | |e] src]; intros H C; try (injection H as <- <-; (split; [reflexivity|]; split; [exact C|]; split; cbn; lia)).
    destruct (take_bytes room src) as [d1 t1] eqn:E. injection H as <- <-. destruct (IH _ _ _ E (clean_cons _ _ C)) as (H1 & H2 & H3 & H4).
    unfold bytes_of in *. cbn [flat_map app]. rewrite H1. split; [reflexivity|]. split; [exact H2|]. cbn [length]. split; lia.
Qed.
Lemma poll_read_src_spec room src : forall r t, (1 <= room)%nat -> clean src -> poll_read_src room src = (r, t) ->
  clean t /\
  match r with
  | Wait => bytes_of t = bytes_of src /\ (length t < length src)%nat
  | Done (Ok d) => bytes_of src = d ++ bytes_of t /\ (length t + length d <= length src)%nat /\ (length d <= room)%nat /\ (d = [] -> bytes_of src = [])
  | _ => False
  end.
Proof.
  induction src as [|i src IH]; intros r t R C; cbn [poll_read_src].
  - intros H. injection H as <- <-. split; [exact C|]. cbn. repeat split; lia.
  - pose proof (clean_cons _ _ C) as C'. destruct i as [b| | |e].
    + destruct (take_bytes room (Byte b :: src)) as [d t1] eqn:E. intros H. injection H as <- <-.
      destruct (take_bytes_spec _ _ _ _ E C) as (H1 & H2 & H3 & H4). split; [exact H2|]. split; [exact H1|]. split; [lia|]. split; [exact H4|].
      intros ->. exfalso. destruct room; [lia|]. cbn [take_bytes] in E. destruct (take_bytes room src). discriminate.
    + intros H. destruct (IH _ _ R C' H) as (H1 & H2). split; [exact H1|]. destruct r as [|[d|?|]]; auto.
      * destruct H2. split; [assumption|cbn; lia].
      * destruct H2 as (H2 & H3 & H4 & H5). split; [exact H2|]. split; [cbn; lia|]. split; [exact H4|exact H5].
    + intros H. injection H as <- <-. split; [exact C'|]. split; [reflexivity|cbn; lia].
    + inversion C. contradiction.
Qed.
Lemma poll_read_lim_spec lim room src r lim' src' : (1 <= room)%nat -> clean src -> poll_read_lim lim room src = (r, lim', src') ->
  match r with
  | Wait => moved lim src lim' src' [] /\ (length src' < length src)%nat
  | Done (Ok d) => moved lim src lim' src' d /\ (length d <= room)%nat /\ (d = [] -> effective lim (bytes_of src) = [])
  | _ => False
  end.
Proof.
  intros R C. unfold poll_read_lim. destruct lim as [[|p]|].
  - intros H. injection H as <- <- <-. split; [apply moved_refl; exact C|]. split; [cbn; lia|reflexivity].
  - destruct (poll_read_src (Nat.min room (N.to_nat (N.pos p))) src) as [r1 t] eqn:E.
    apply poll_read_src_spec in E; [|lia|exact C]. destruct E as (C1 & E). intros H.
    assert (r1 = r /\ lim' = match r with Done (Ok d) => Some (N.pos p - blen d) | _ => Some (N.pos p) end /\ src' = t) as (-> & -> & ->).
    { injection H as <- <- <-. auto. }
    destruct r as [|[d|x|]]; [| |destruct E|destruct E].
    + destruct E as [E1 E2]. split; [|exact E2]. split; [symmetry; exact E1|]. split; [symmetry; apply after_0|]. split; [intros; cbn; lia|]. split; [exact C1|cbn; lia].
    + destruct E as (E1 & E2 & E3 & E4). split; [|split; [lia|intros ->; rewrite (E4 eq_refl); apply firstn_nil]].
      split; [exact E1|]. split; [reflexivity|]. split; [intros m X; injection X as <-; unfold blen; lia|]. split; [exact C1|exact E2].
  - destruct (poll_read_src room src) as [r1 t] eqn:E. apply poll_read_src_spec in E; [|lia|exact C]. destruct E as (C1 & E).
    intros H. injection H as <- <- <-. destruct r1 as [|[d|x|]]; [| |destruct E|destruct E].
    + destruct E as [E1 E2]. split; [|exact E2]. split; [symmetry; exact E1|]. split; [reflexivity|]. split; [discriminate|]. split; [exact C1|cbn; lia].
    + destruct E as (E1 & E2 & E3 & E4). split; [|split; [exact E3|exact E4]].
      split; [exact E1|]. split; [reflexivity|]. split; [discriminate|]. split; [exact C1|exact E2].
Qed.

(** *** Reading a varint *)
Definition fed (d : u64_decoder) (num : nat) (data : bytes) : outcome ioerr (option N) * nat :=
  match feed d data with
  | (Finished v, n) => (Ok (Some v), n)
  | (DOverflow, n) => (Err InvalidData, n)
  | (Pending, _) => (if (num + length data =? 0)%nat then Ok None else Err UnexpectedEof, length data)
  end.
Lemma fed_pending d b d' num data : decoder_input d b = (d', Pending) ->
  fed d num (b :: data) = let (r, n) := fed d' (S num) data in (r, S n).
Proof.
  intros H. unfold fed. cbn [feed]. rewrite H. destruct (feed d' data) as [[v| |] n]; try reflexivity.
  cbn [length]. rewrite !Nat.add_succ_r. reflexivity.
Qed.
Lemma opt_varint_poll_spec fuel : forall d num lim src r d' num' lim' src', clean src -> (length src < fuel)%nat ->
  opt_varint_poll fuel d num lim src = (r, d', num', lim', src') ->
  exists u, moved lim src lim' src' u /\
    match r with
    | None => False
    | Some Wait => (length src' < length src)%nat /\ forall data, fed d num (u ++ data) = let (r, n) := fed d' num' data in (r, (length u + n)%nat)
    | Some (Done r) => fed d num (effective lim (bytes_of src)) = (r, length u)
    end.
Proof.
  induction fuel as [|fuel IH]; intros d num lim src r d' num' lim' src' C L; [lia|]. cbn [opt_varint_poll].
  destruct (poll_read_lim lim 1 src) as [[r1 l1] s1] eqn:E. apply poll_read_lim_spec in E; [|lia|exact C].
  destruct r1 as [|[[|b dd]|x|]]; [| | |destruct E|destruct E].
  - destruct E as [M Ls]. intros H. injection H as <- <- <- <- <-. exists []. split; [exact M|]. split; [exact Ls|].
    intros data. cbn [app length Nat.add]. destruct (fed d num data). reflexivity.
  - destruct E as (M & _ & Z). specialize (Z eq_refl). intros H.
    assert (r = Some (Done (if (num =? 0)%nat then Ok None else Err UnexpectedEof)) /\ l1 = lim' /\ s1 = src') as (-> & <- & <-) by (injection H as <- <- <- <- <-; auto).
    exists []. split; [exact M|]. rewrite Z. unfold fed. cbn [feed length]. rewrite Nat.add_0_r. reflexivity.
  - destruct E as (M & Ld & _). destruct dd; [|cbn [length] in Ld; lia].
    pose proof (moved_effective _ _ _ _ _ M) as ME. cbn [app] in ME.
    destruct (decoder_input d b) as [d1 [v| |]] eqn:Ed.
    + intros H. injection H as <- <- <- <- <-. exists [b]. split; [exact M|]. rewrite ME. unfold fed. cbn [feed]. rewrite Ed. reflexivity.
    + intros H. injection H as <- <- <- <- <-. exists [b]. split; [exact M|]. rewrite ME. unfold fed. cbn [feed]. rewrite Ed. reflexivity.
    + destruct M as (M1 & M2 & M3 & M4 & M5). cbn [length] in M5. intros H. apply IH in H; [|exact M4|lia]. destruct H as (u & Mu & R).
      exists ([b] ++ u). split; [eapply moved_trans; [|exact Mu]; split; [exact M1|]; split; [exact M2|]; split; [exact M3|]; split; [exact M4|cbn; lia]|].
      destruct r as [[|r]|]; [| |destruct R].
      * destruct R as [R1 R2]. split; [lia|]. intros data. cbn [app]. rewrite (fed_pending _ _ _ _ _ Ed), R2. destruct (fed d' num' data). cbn [length]. reflexivity.
      * rewrite ME, (fed_pending _ _ _ _ _ Ed), R. reflexivity.
Qed.
Lemma opt_varint_await_spec fuel : forall d num lim src r lim' src', clean src -> (length src < fuel)%nat ->
  opt_varint_await fuel d num lim src = (r, lim', src') ->
  exists u r0, moved lim src lim' src' u /\ r = Some r0 /\ fed d num (effective lim (bytes_of src)) = (r0, length u).
Proof.
  induction fuel as [|fuel IH]; intros d num lim src r lim' src' C L; [lia|]. cbn [opt_varint_await].
  destruct (opt_varint_poll (S (length src)) d num lim src) as [[[[r1 d1] n1] l1] s1] eqn:E.
  apply opt_varint_poll_spec in E; [|exact C|lia]. destruct E as (u & M & R). destruct r1 as [[|r0]|]; [| |destruct R].
  - destruct R as [R1 R2]. intros H. apply IH in H; [|apply M|lia]. destruct H as (v & r0 & Mv & -> & F).
    exists (u ++ v), r0. split; [eapply moved_trans; eauto|]. split; [reflexivity|].
    rewrite (moved_effective _ _ _ _ _ M), R2, F, app_length. reflexivity.
  - intros H. injection H as <- <- <-. exists u, r0. auto.
Qed.
Lemma fed_flat data : fed decoder_new 0 data = flat_varint data.
Proof.
  unfold fed, flat_varint. destruct (feed decoder_new data) as [[v| |] n]; try reflexivity. destruct data; reflexivity.
Qed.
Lemma read_opt_varint_spec lim src r lim' src' : clean src -> read_opt_varint lim src = (r, lim', src') ->
  exists u r0, moved lim src lim' src' u /\ r = Some r0 /\ flat_varint (effective lim (bytes_of src)) = (r0, length u).
Proof.
  intros C H. unfold read_opt_varint in H. apply opt_varint_await_spec in H; [|exact C|lia]. rewrite fed_flat in H. exact H.
Qed.

(** *** Reading a message *)
Lemma await_read_spec fuel : forall lim room src r lim' src', (1 <= room)%nat -> clean src -> (length src < fuel)%nat ->
  await_read fuel lim room src = (r, lim', src') ->
  exists d, r = Some (Ok d) /\ moved lim src lim' src' d /\ (length d <= room)%nat /\ (d = [] -> effective lim (bytes_of src) = []).
Proof.
  induction fuel as [|fuel IH]; intros lim room src r lim' src' R C L; [lia|]. cbn [await_read].
  destruct (poll_read_lim lim room src) as [[r1 l1] s1] eqn:E. apply poll_read_lim_spec in E; [|lia|exact C].
  destruct r1 as [|[d|x|]]; [| |destruct E|destruct E].
  - destruct E as [M Ls]. intros H. apply IH in H; [|exact R|apply M|lia]. destruct H as (d & -> & Md & Ld & Z).
    exists d. split; [reflexivity|]. split; [exact (moved_trans _ _ _ _ _ _ [] d M Md)|]. split; [exact Ld|].
    intros X. rewrite (moved_effective _ _ _ _ _ M). cbn [app]. apply Z. exact X.
  - intros H. injection H as <- <- <-. exists d. split; [reflexivity|exact E].
Qed.
Lemma body_loop_spec fuel : forall expected got lim src r got' src', clean src -> (length src < fuel)%nat ->
  (exists m, lim = Some m /\ m <= expected - blen got) -> blen got <= expected ->
  body_loop fuel expected got lim src = (r, got', src') ->
  exists u lim', got' = got ++ u /\ moved lim src lim' src' u /\
    (if expected - blen got <=? blen (effective lim (bytes_of src)) then r = Some (Ok got') /\ blen u = expected - blen got
     else r = Some (Err UnexpectedEof) /\ u = effective lim (bytes_of src)).
Proof.
  induction fuel as [|fuel IH]; intros expected got lim src r got' src' C L (m & Em & Hm) Hg; [lia|]. cbn [body_loop].
  destruct (blen got <? expected) eqn:El.
  - destruct (await_read (S (length src)) lim 1024 src) as [[r1 l1] s1] eqn:E.
    apply await_read_spec in E; [|lia|exact C|lia]. destruct E as (d & -> & M & _ & Z). destruct d as [|b d].
    + specialize (Z eq_refl). intros H. injection H as <- <- <-. exists [], l1. split; [rewrite app_nil_r; reflexivity|]. split; [exact M|].
      rewrite Z. cbn [blen length N.of_nat]. replace (expected - blen got <=? 0) with false by lia. split; reflexivity.
    + pose proof (moved_effective _ _ _ _ _ M) as ME. destruct M as (M1 & M2 & M3 & M4 & M5). set (bd := b :: d) in *.
      assert (Lbd : (1 <= length bd)%nat) by (cbn; lia). specialize (M3 m Em).
      intros H. apply IH in H; [|exact M4|lia| |].
      * destruct H as (u & l' & -> & Mu & R). exists (bd ++ u), l'. split; [apply app_assoc_reverse|].
        split; [eapply moved_trans; [|exact Mu]; split; [exact M1|]; split; [exact M2|]; split; [intros m' X; replace m' with m by congruence; exact M3|]; split; [exact M4|exact M5]|].
        rewrite ME. rewrite !blen_app in *.
        replace (expected - blen got <=? blen bd + blen (effective l1 (bytes_of s1))) with (expected - (blen got + blen bd) <=? blen (effective l1 (bytes_of s1))).
        -- destruct (expected - (blen got + blen bd) <=? blen (effective l1 (bytes_of s1))).
           ++ destruct R as [R1 R2]. split; [rewrite R1; reflexivity|lia].
           ++ destruct R as [R1 R2]. split; [exact R1|rewrite R2; reflexivity].
        -- apply eq_true_iff_eq. rewrite !N.leb_le. lia.
      * exists (m - blen bd). split; [rewrite M2, Em; reflexivity|]. rewrite blen_app. lia.
      * rewrite blen_app. lia.
  - intros H. injection H as <- <- <-. exists [], lim. split; [rewrite app_nil_r; reflexivity|]. split; [apply moved_refl; exact C|].
    replace (expected - blen got) with 0 by lia. cbn [N.leb]. replace (0 <=? _) with true by lia. split; reflexivity.
Qed.

Lemma effective_limited lim n d : effective (limited lim n) d = firstn (N.to_nat n) (effective lim d).
Proof.
  destruct lim as [m|]; [|reflexivity]. cbn [limited effective]. rewrite firstn_firstn. f_equal. lia.
Qed.
Lemma read_opt_message_spec lim src r lim' src' : clean src -> read_opt_message lim src = (r, lim', src') ->
  exists u r0, moved lim src lim' src' u /\ r = Some r0 /\
    flat_message (effective lim (bytes_of src)) = (r0, effective lim' (bytes_of src')).
Proof.
  intros C. unfold read_opt_message. destruct (read_opt_varint lim src) as [[r1 l1] s1] eqn:E.
  apply read_opt_varint_spec in E; [|exact C]. destruct E as (u & r0 & M & -> & F).
  pose proof (moved_effective _ _ _ _ _ M) as ME. unfold flat_message. rewrite F, ME, skipn_app_length.
  destruct r0 as [[len|]|e|].
  - destruct (body_loop (S (length s1)) len [] (limited l1 len) s1) as [[rb got] s2] eqn:Eb.
    pose proof (proj1 (proj2 (proj2 (proj2 M)))) as C1.
    apply body_loop_spec in Eb; [|exact C1|lia| |cbn; lia].
    2: { eexists. split; [reflexivity|]. cbn. destruct l1; lia. }
    destruct Eb as (v & l2 & Eg & Mv & R). cbn [app] in Eg. subst got. cbn [blen length N.of_nat] in R. rewrite N.sub_0_r in R.
    rewrite effective_limited in R.
    assert (M2 : moved l1 s1 (after l1 (blen v)) s2 v).
    { destruct Mv as (V1 & V2 & V3 & V4 & V5). split; [exact V1|]. split; [reflexivity|]. split; [|split; assumption].
      intros m X. subst l1. cbn [limited] in V3. specialize (V3 _ eq_refl). lia. }
    pose proof (moved_effective _ _ _ _ _ M2) as ME2.
    intros H. exists (u ++ v).
    assert (X : (len <=? blen (firstn (N.to_nat len) (effective l1 (bytes_of s1)))) = (len <=? blen (effective l1 (bytes_of s1)))).
    { apply eq_true_iff_eq. rewrite !N.leb_le. unfold blen. rewrite firstn_length. lia. }
    rewrite X in R. destruct (len <=? blen (effective l1 (bytes_of s1))) eqn:El.
    + destruct R as [-> Lv]. injection H as <- <- <-. eexists. split; [eapply moved_trans; [exact M|exact M2]|]. split; [reflexivity|].
      rewrite ME2. assert (Lv' : N.to_nat len = length v) by (unfold blen in Lv; lia). rewrite Lv', firstn_app_length, skipn_app_length. reflexivity.
    + destruct R as [-> Ev]. injection H as <- <- <-. eexists. split; [eapply moved_trans; [exact M|exact M2]|]. split; [reflexivity|].
      assert (Y : firstn (N.to_nat len) (effective l1 (bytes_of s1)) = effective l1 (bytes_of s1)) by (apply firstn_all2; unfold blen in El; lia).
      rewrite Y in Ev. rewrite <- Ev in ME2. rewrite <- (app_nil_r v) in ME2 at 1. apply app_inv_head in ME2. rewrite <- ME2. reflexivity.
  - intros H. injection H as <- <- <-. exists u, (Ok None). auto.
  - intros H. injection H as <- <- <-. exists u, (Err e). auto.
  - intros H. injection H as <- <- <-. exists u, Panic. auto.
Qed.
