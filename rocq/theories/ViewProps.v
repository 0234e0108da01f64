(** The torrent viewer, C108. *)
From Verif Require Import Base BaseProofs BencodeModel BencodeSpec BencodeProofs BencodeProofs2 BencodeProps TorrentModel TorrentProps UtilModel ChatModel Asn1PrintProps BencodePathModel.
Local Open Scope string_scope. Local Open Scope list_scope. Local Open Scope N_scope.
Notation decimal_text := ChatModel.decimal.

(** *** Specification *)
(** The value at some steps, with the depth at which it is shown: an item is one level below
    its list, the value of an entry two below its dictionary (the key is between). *)
Inductive within : value -> nat -> value -> Prop :=
| within_here v : within v 0 v
| within_item l items v n w : In v items -> within v n w -> within (VList l items) (1 + n) w
| within_entry l m k v n w : In (k, v) m -> within v n w -> within (VDict l m) (2 + n) w.
(** A line at a depth. *)
Definition at_depth (n : nat) (s : bytes) : bytes := repeat 32 (4 * n) ++ s ++ [10].
(** What is shown of a value itself. *)
Definition heading (v : value) : bytes :=
  match v with
  | VBytes _ d => if utf8_valid d then d else if (length d <=? 20)%nat then to_hex d else ascii_bytes "<" ++ decimal_text (blen d) ++ ascii_bytes " bytes of binary data>"
  | VInt _ n => decimal_text n
  | VList _ _ => ascii_bytes "list"
  | VDict _ _ => ascii_bytes "dict"
  end.
(** The commands. *)
Definition commands : list string := ["trackers"; "files"; "info"; "hash"; "raw"; "full"].
(** A name can be printed on a line of its own. *)
Definition one_line (s : bytes) : Prop := ~ In 10 s.

(** *** The dump *)
Lemma indentation_eq n : indentation n = repeat 32 (4 * n).
Proof. induction n as [|n IH]; [reflexivity|]. unfold indentation in *. cbn [repeat concat]. rewrite IH. replace (4 * S n)%nat with (4 + 4 * n)%nat by lia. reflexivity. Qed.
Lemma flat_map_same {A B} (f g : A -> list B) l : (forall x, f x = g x) -> flat_map f l = flat_map g l.
Proof. intros H. induction l as [|x l IH]; [reflexivity|]. cbn [flat_map]. rewrite H, IH. reflexivity. Qed.
(** C108: the dump of a value is its heading on a line at its depth, followed by its parts: the
    items of a list one level down, and for every entry of a dictionary a line with the key one
    level down and the value two levels down. *)
Theorem C108_dump : forall v i, dump v i = at_depth i (heading v) ++
  match v with
  | VList _ l => concat (map (fun e => dump e (S i)) l)
  | VDict _ m => concat (map (fun e => at_depth (S i) (fst e ++ ascii_bytes " =") ++ dump (snd e) (S (S i))) m)
  | _ => []
  end.
Proof.
  intros v i. unfold at_depth. rewrite <- !app_assoc. destruct v as [l d|l n|l items|l m]; cbn [dump heading]; rewrite indentation_eq, ?app_nil_r, <- ?app_assoc; try reflexivity.
  - rewrite <- flat_map_concat_map. reflexivity.
  - rewrite <- flat_map_concat_map. do 3 f_equal. apply flat_map_same. intros [k w]. cbn [fst snd]. rewrite indentation_eq, <- !app_assoc. reflexivity.
Qed.
Print Assumptions C108_dump.
Lemma in_concat_map {A} (f : A -> bytes) l x : In x l -> exists before after, concat (map f l) = before ++ f x ++ after.
Proof.
  intros H. apply in_split in H. destruct H as (l1 & l2 & ->). exists (concat (map f l1)), (concat (map f l2)). rewrite map_app, concat_app. reflexivity.
Qed.
(** C108: the dump shows every value that occurs within, at its depth. *)
Theorem C108_shows_everything : forall v n w, within v n w -> forall i, exists before after, dump v i = before ++ dump w (i + n) ++ after.
Proof.
  induction 1 as [v|l items v n w H W IH|l m k v n w H W IH]; intros i.
  - exists [], []. rewrite Nat.add_0_r, app_nil_r. reflexivity.
  - destruct (IH (S i)) as (b & a & E). destruct (in_concat_map (fun e => dump e (S i)) items v H) as (b' & a' & E'). rewrite C108_dump, E', E. exists (at_depth i (heading (VList l items)) ++ b' ++ b), (a ++ a'). replace (i + (1 + n))%nat with (S i + n)%nat by lia. rewrite <- !app_assoc. reflexivity.
  - destruct (IH (S (S i))) as (b & a & E). destruct (in_concat_map (fun e : bytes * value => at_depth (S i) (fst e ++ ascii_bytes " =") ++ dump (snd e) (S (S i))) m (k, v) H) as (b' & a' & E'). cbn [fst snd] in E'. rewrite C108_dump. unfold bytes in *. rewrite E', E.
    exists (at_depth i (heading (VDict l m)) ++ b' ++ at_depth (S i) (k ++ ascii_bytes " =") ++ b), (a ++ a'). replace (i + (2 + n))%nat with (S (S i) + n)%nat by lia. rewrite <- !app_assoc. reflexivity.
Qed.
Print Assumptions C108_shows_everything.
(** The dump does not determine the value: a string can look like a list, a number like its
    digits, and a string with line breaks like several values. *)
Theorem C108_dump_determines_refuted :
  (exists d1 d2 v1 v2, parse d1 = Ok v1 /\ parse d2 = Ok v2 /\ strip v1 <> strip v2 /\ dump v1 0 = dump v2 0) /\
  (exists d v1 v2, forall l1 l2, dump (VList l1 [VBytes l2 d]) 0 = dump (VList l1 [v1; v2]) 0).
Proof.
  split.
  - exists (ascii_bytes "4:list"), (ascii_bytes "le"). eexists. eexists. split; [vm_compute; reflexivity|]. split; [vm_compute; reflexivity|]. split; [discriminate|reflexivity].
  - exists (ascii_bytes "a" ++ [10] ++ ascii_bytes "    b"), (VBytes (mkloc 0 0) (ascii_bytes "a")), (VBytes (mkloc 0 0) (ascii_bytes "b")). intros l1 l2. vm_compute. reflexivity.
Qed.
Print Assumptions C108_dump_determines_refuted.

(** *** The commands *)
Lemma existsb_commands c : existsb (bytes_eqb c) command_names = true <-> exists s, In s commands /\ c = ascii_bytes s.
Proof.
  change command_names with (map ascii_bytes commands). rewrite existsb_exists. split.
  - intros (x & H & E). apply in_map_iff in H. destruct H as (s & <- & H). apply bytes_eqb_eq in E. eauto.
  - intros (s & H & ->). exists (ascii_bytes s). split; [apply in_map; exact H|apply bytes_eqb_refl].
Qed.
(** What a command prints for a torrent. *)
Definition prints (sha1 : bytes -> bytes) (c filename data out : bytes) : Prop :=
  (exists t, from_bytes sha1 data = Ok t /\
     ((c = ascii_bytes "trackers" /\ out = trackers_text (t_tracker_groups t)) \/ (c = ascii_bytes "files" /\ out = files_text t) \/
      (c = ascii_bytes "info" /\ out = info_text t) \/ (c = ascii_bytes "hash" /\ out = hash_text filename t) \/
      (c = ascii_bytes "full" /\ exists v, parse data = Ok v /\ out = dump v 0 ++ ascii_bytes "-----------" ++ [10] ++ torrent_text t))) \/
  (c = ascii_bytes "raw" /\ exists v, parse data = Ok v /\ out = dump v 0).
(** C108: the program succeeds exactly when it is given a command, the name of a file that can be
    read, and the file is a torrent (for [raw], a bencoded value); then it prints what the
    command asks for.  Further arguments are ignored. *)
Theorem C108_succeeds : forall sha1 read args out,
  view sha1 read args = (out, Succeeds) <->
  exists c filename more data, args = c :: filename :: more /\ read filename = Some data /\ prints sha1 c filename data out.
Proof.
  intros sha1 read args out. unfold view, with_torrent, view_bencoding. split.
  - destruct args as [|c rest]; [discriminate|]. destruct (existsb (bytes_eqb c) command_names) eqn:X; cbn [negb]; [|discriminate]. destruct rest as [|filename more]; [discriminate|]. destruct (read filename) as [data|] eqn:R; [|discriminate].
    intros H. exists c, filename, more, data. split; [reflexivity|]. split; [exact R|]. unfold prints.
    apply existsb_commands in X. destruct X as (s & I & ->). cbn [commands In] in I.
    destruct I as [<-|[<-|[<-|[<-|[<-|[<-|[]]]]]]];
      repeat match type of H with context [if bytes_eqb ?x ?y then _ else _] => let b := eval vm_compute in (bytes_eqb x y) in change (bytes_eqb x y) with b in H; cbv iota in H end.
    + left. destruct (from_bytes sha1 data) as [t| |]; try discriminate. injection H as <-. eauto 6.
    + left. destruct (from_bytes sha1 data) as [t| |]; try discriminate. injection H as <-. eauto 6.
    + left. destruct (from_bytes sha1 data) as [t| |]; try discriminate. injection H as <-. eauto 7.
    + left. destruct (from_bytes sha1 data) as [t| |]; try discriminate. injection H as <-. exists t. split; [reflexivity|]. do 3 right. left. auto.
    + right. destruct (parse data) as [v| |]; try discriminate. injection H as <-. eauto.
    + left. destruct (parse data) as [v| |]; try discriminate. destruct (from_bytes sha1 data) as [t| |]; try discriminate. injection H as <-. exists t. split; [reflexivity|]. do 4 right. split; [reflexivity|]. exists v. split; [reflexivity|]. unfold line. rewrite <- !app_assoc. reflexivity.
  - intros (c & filename & more & data & -> & R & P). rewrite R.
    destruct P as [(t & E & [(-> & ->)|[(-> & ->)|[(-> & ->)|[(-> & ->)|(-> & v & Pv & ->)]]]])|(-> & v & Pv & ->)];
      match goal with |- context [existsb ?f ?l] => let b := eval vm_compute in (existsb f l) in change (existsb f l) with b; cbn [negb]; cbv iota end;
      repeat match goal with |- context [if bytes_eqb ?x ?y then _ else _] => let b := eval vm_compute in (bytes_eqb x y) in change (bytes_eqb x y) with b; cbv iota end.
    + rewrite E. reflexivity.
    + rewrite E. reflexivity.
    + rewrite E. reflexivity.
    + rewrite E. reflexivity.
    + rewrite Pv, E. unfold line. rewrite <- !app_assoc. reflexivity.
    + rewrite Pv. reflexivity.
Qed.
Print Assumptions C108_succeeds.
(** C108: when it does not succeed, it prints nothing, or the list of commands when no command was
    recognised, or, for [full], the dump of a value that is not a torrent. *)
Theorem C108_fails : forall sha1 read args out how, view sha1 read args = (out, how) -> how <> Succeeds ->
  out = [] \/
  (out = ascii_bytes "Commands:" ++ [10] ++ concat (map (fun s => ascii_bytes "  " ++ ascii_bytes s ++ [10]) commands) /\ ~ exists s more, In s commands /\ args = ascii_bytes s :: more) \/
  (exists filename more data v, args = ascii_bytes "full" :: filename :: more /\ read filename = Some data /\ parse data = Ok v /\ (forall t, from_bytes sha1 data <> Ok t) /\ out = dump v 0 ++ ascii_bytes "-----------" ++ [10]).
Proof.
  intros sha1 read args out how H N. unfold view, with_torrent, view_bencoding in H. destruct args as [|c rest].
  { right. left. injection H as <- _. split; [vm_compute; reflexivity|]. intros (s & more & _ & X). discriminate. }
  destruct (existsb (bytes_eqb c) command_names) eqn:X; cbn [negb] in H.
  2:{ right. left. injection H as <- _. split; [vm_compute; reflexivity|]. intros (s & more & I & Q). injection Q as -> _. assert (existsb (bytes_eqb (ascii_bytes s)) command_names = true) by (apply existsb_commands; eauto). congruence. }
  destruct rest as [|filename more]; [injection H as <- _; auto|]. destruct (read filename) as [data|] eqn:R; [|injection H as <- _; auto].
  apply existsb_commands in X. destruct X as (s & I & ->). cbn [commands In] in I.
  destruct I as [<-|[<-|[<-|[<-|[<-|[<-|[]]]]]]];
    repeat match type of H with context [if bytes_eqb ?x ?y then _ else _] => let b := eval vm_compute in (bytes_eqb x y) in change (bytes_eqb x y) with b in H; cbv iota in H end.
  1-4: destruct (from_bytes sha1 data) as [t| |]; injection H as <- <-; [congruence|auto|auto].
  - destruct (parse data) as [v| |]; injection H as <- <-; [congruence|auto|auto].
  - destruct (parse data) as [v| |] eqn:Pv; [|injection H as <- <-; auto|injection H as <- <-; auto]. right. right. exists filename, more, data, v. split; [reflexivity|]. split; [exact R|]. split; [exact Pv|].
    destruct (from_bytes sha1 data) as [t| |]; injection H as <- <-; [congruence| |]; (split; [intros; discriminate|]; reflexivity).
Qed.
Print Assumptions C108_fails.

(** *** What can be read off the output *)
Lemma lines_inj l l' : Forall one_line l -> Forall one_line l' -> flat_map line l = flat_map line l' -> l = l'.
Proof.
  intros F. revert l'. induction F as [|x l N F IH]; intros l' F' H; destruct F' as [|y l' N' F'].
  - reflexivity.
  - exfalso. cbn [flat_map] in H. unfold line in H at 1. destruct y; discriminate.
  - exfalso. cbn [flat_map] in H. unfold line in H at 1. destruct x; discriminate.
  - cbn [flat_map] in H. unfold line in H at 1 3. rewrite <- !app_assoc in H. cbn [app] in H. apply split_at in H; [|assumption..]. destruct H as (-> & H). f_equal. apply IH; assumption.
Qed.
(** C108: the list of files gives back the paths when no path has a line break. *)
Theorem C108_files : forall t t', Forall one_line (map tf_path (t_files t)) -> Forall one_line (map tf_path (t_files t')) ->
  files_text t = files_text t' -> map tf_path (t_files t) = map tf_path (t_files t').
Proof.
  intros t t' F F' H. apply lines_inj; [assumption..|]. unfold files_text in H. rewrite !flat_map_concat_map in *. rewrite !map_map. exact H.
Qed.
Print Assumptions C108_files.
(** C108: the list of trackers gives back the groups when every group has a tracker and no address
    is empty or has a line break. *)
Definition plain_group (g : list bytes) : Prop := g <> [] /\ Forall (fun u => u <> [] /\ one_line u) g.
Lemma trackers_inj gs : forall gs', Forall plain_group gs -> Forall plain_group gs' -> trackers_text gs = trackers_text gs' -> gs = gs'.
Proof.
  assert (ST : forall u x, u <> [] -> one_line u -> exists c t, line u ++ x = c :: t /\ c <> 10) by (intros [|c u] x A B; [congruence|]; exists c, (u ++ [10] ++ x); split; [unfold line; rewrite <- app_assoc; reflexivity|intros ->; apply B; left; reflexivity]).
  assert (NG : forall g gs, plain_group g -> exists c t, trackers_text (g :: gs) = c :: t /\ c <> 10).
  { intros [|u g] gs0 (A & B); [congruence|]. inversion B as [|? ? (B1 & B2) B3]; subst. cbn [trackers_text flat_map]. rewrite <- !app_assoc. apply ST; assumption. }
  assert (G : forall g g' x x', Forall (fun u => u <> [] /\ one_line u) g -> Forall (fun u => u <> [] /\ one_line u) g' -> (x = [] \/ exists t, x = 10 :: t) -> (x' = [] \/ exists t, x' = 10 :: t) -> flat_map line g ++ x = flat_map line g' ++ x' -> g = g' /\ x = x').
  { induction g as [|u g IH]; intros g' x x' F F' X X' H; destruct g' as [|u' g'].
    - auto.
    - exfalso. inversion F' as [|? ? (B1 & B2) B3]; subst. cbn [flat_map] in H. rewrite <- !app_assoc in H. destruct (ST u' (flat_map line g' ++ x') B1 B2) as (c & t & E & C). cbn [app] in H. rewrite E in H. destruct X as [->|(t' & ->)]; [discriminate|]. injection H as H _. congruence.
    - exfalso. inversion F as [|? ? (B1 & B2) B3]; subst. cbn [flat_map] in H. rewrite <- !app_assoc in H. destruct (ST u (flat_map line g ++ x) B1 B2) as (c & t & E & C). cbn [app] in H. rewrite E in H. destruct X' as [->|(t' & ->)]; [discriminate|]. injection H as H _. congruence.
    - inversion F as [|? ? (B1 & B2) B3]; subst. inversion F' as [|? ? (C1 & C2) C3]; subst. cbn [flat_map] in H. unfold line in H at 1 3. rewrite <- !app_assoc in H. cbn [app] in H. apply split_at in H; [|assumption..]. destruct H as (-> & H). apply IH in H; [|assumption..]. destruct H as (-> & ->). auto. }
  induction gs as [|g gs IH]; intros gs' F F' H; destruct gs' as [|g' gs'].
  - reflexivity.
  - exfalso. inversion F'; subst. destruct (NG g' gs' ltac:(assumption)) as (c & t & E & _). rewrite E in H. discriminate.
  - exfalso. inversion F; subst. destruct (NG g gs ltac:(assumption)) as (c & t & E & _). rewrite E in H. discriminate.
  - inversion F as [|? ? (P1 & P2) F1]; subst. inversion F' as [|? ? (Q1 & Q2) F2]; subst. cbn [trackers_text] in H. apply G in H; [|assumption|assumption|destruct gs; [left; reflexivity|right; eexists; reflexivity]|destruct gs'; [left; reflexivity|right; eexists; reflexivity]].
    destruct H as (-> & H). destruct gs as [|h gs], gs' as [|h' gs']; [reflexivity|discriminate|discriminate|]. cbn [app] in H. injection H as H. f_equal. apply IH; assumption.
Qed.
Theorem C108_trackers_partial : forall t t', Forall plain_group (t_tracker_groups t) -> Forall plain_group (t_tracker_groups t') ->
  trackers_text (t_tracker_groups t) = trackers_text (t_tracker_groups t') -> t_tracker_groups t = t_tracker_groups t'.
Proof. intros t t'. apply trackers_inj. Qed.
Print Assumptions C108_trackers_partial.
(** C108: the hash shown is that of the info dictionary within the file. *)
Theorem C108_hash : forall sha1 read filename more out, view sha1 read (ascii_bytes "hash" :: filename :: more) = (out, Succeeds) ->
  exists data before info after m, read filename = Some data /\ data = before ++ info ++ after /\ ben info (BDict m) /\ out = filename ++ [32] ++ to_hex (sha1 info) ++ [10].
Proof.
  intros sha1 read filename more out H. apply C108_succeeds in H. destruct H as (c & f & m & data & E & R & P). injection E as <- <- <-.
  destruct P as [(t & T & [(X & _)|[(X & _)|[(X & _)|[(_ & ->)|(X & _)]]]])|(X & _)]; try discriminate X.
  apply C31_accepted_torrents_are_consistent in T. destruct T as (s & post & root & info & ib & before & after & fv & g & -> & _ & _ & -> & B & Hh & _).
  exists ((before ++ ib ++ after) ++ post), before, ib, (after ++ post), info. split; [exact R|]. split; [rewrite <- !app_assoc; reflexivity|]. split; [exact B|]. unfold hash_text, line. rewrite Hh, <- !app_assoc. reflexivity.
Qed.
Print Assumptions C108_hash.
(** C108: the trackers of different torrents can look the same: an empty group shows as nothing
    but a blank line, and so does an empty address. *)
Definition small (announce : string) : bytes := ascii_bytes "d13:announce-list" ++ ascii_bytes announce ++ ascii_bytes "4:infod5:filesle4:name1:n12:piece lengthi1e6:pieces0:ee".
Theorem C108_trackers_refuted : exists d d' t t', from_bytes (fun b => b) d = Ok t /\ from_bytes (fun b => b) d' = Ok t' /\
  t_tracker_groups t <> t_tracker_groups t' /\ trackers_text (t_tracker_groups t) = trackers_text (t_tracker_groups t').
Proof.
  exists (small "llelee"), (small "ll0:ee"). eexists. eexists. split; [vm_compute; reflexivity|]. split; [vm_compute; reflexivity|]. split; [discriminate|reflexivity].
Qed.
Print Assumptions C108_trackers_refuted.
(** C108: the dump does not depend on where values lie in the file, and what follows the value
    in the file is ignored. *)
Fixpoint dump_strip (v : value) : forall w i, strip v = strip w -> dump v i = dump w i.
Proof.
  destruct v as [l d|l n|l items|l m]; intros [l' d'|l' n'|l' items'|l' m'] i H; cbn [strip] in H; try discriminate H; injection H as H.
  - cbn [dump]. rewrite H. reflexivity.
  - cbn [dump]. rewrite H. reflexivity.
  - cbn [dump]. do 3 f_equal. revert items' H. induction items as [|x items IHi]; intros [|y items'] H; try discriminate H; [reflexivity|]. cbn [map] in H. injection H as H1 H2. cbn [flat_map]. f_equal; [apply dump_strip; exact H1|apply IHi; exact H2].
  - cbn [dump]. do 3 f_equal. revert m' H. induction m as [|[k x] m IHm]; intros [|[k' y] m'] H; try discriminate H; [reflexivity|]. cbn [map fst snd] in H. injection H as H0 H1 H2. cbn [flat_map fst snd]. f_equal; [|apply IHm; exact H2]. rewrite H0. do 4 f_equal. apply dump_strip. exact H1.
Qed.
Theorem C108_rest_is_ignored : forall sha1 read f g d more b, read f = Some d -> read g = Some (d ++ more) -> fits (d ++ more) -> ben d b ->
  exists out, view sha1 read [ascii_bytes "raw"; f] = (out, Succeeds) /\ view sha1 read [ascii_bytes "raw"; g] = (out, Succeeds).
Proof.
  intros sha1 read f g d more b Rf Rg F B.
  assert (X : forall x, fits (d ++ x) -> exists v, parse (d ++ x) = Ok v /\ strip v = b).
  { intros x Fx. destruct (proj1 parse_complete d b B (fuel_for (d ++ x)) [] x) as (v & P & S); [unfold fuel_for; rewrite app_length; lia|exact Fx|]. exists v. split; [unfold parse, parse_prefix; cbn [app length] in P; rewrite P; reflexivity|exact S]. }
  destruct (X more F) as (v & Pv & Sv). destruct (X []) as (w & Pw & Sw); [unfold fits in *; rewrite blen_app in *; rewrite blen_nil; lia|]. rewrite app_nil_r in Pw.
  exists (dump v 0). split; apply C108_succeeds; [exists (ascii_bytes "raw"), f, [], d|exists (ascii_bytes "raw"), g, [], (d ++ more)]; (split; [reflexivity|]); (split; [assumption|]); right; (split; [reflexivity|]); [exists w; split; [exact Pw|apply dump_strip; congruence]|exists v; split; [exact Pv|reflexivity]].
Qed.
Print Assumptions C108_rest_is_ignored.
(** A torrent with two groups. *)
Example C108_example :
  let read := fun f => if bytes_eqb f (ascii_bytes "f") then Some (ascii_bytes "d13:announce-listll3:a:1el3:b:23:c:3ee4:infod5:filesld6:lengthi3e4:pathl1:x1:yeee4:name1:n12:piece lengthi4e6:pieces20:aaaaaaaaaaaaaaaaaaaaee") else if bytes_eqb f (ascii_bytes "g") then Some (ascii_bytes "li7e3:xyzd1:ai1eee...") else None in
  let sha := fun _ => repeat 171 20 in
  view sha read (map ascii_bytes ["trackers"; "f"]) = (flat_map line (map ascii_bytes ["a:1"; ""; "b:2"; "c:3"]), Succeeds) /\
  view sha read (map ascii_bytes ["files"; "f"; "h"]) = (ascii_bytes "x/y" ++ [10], Succeeds) /\
  view sha read (map ascii_bytes ["files"; "g"]) = ([], Fails) /\
  view sha read (map ascii_bytes ["raw"; "g"]) = (flat_map line (map ascii_bytes ["list"; "    7"; "    xyz"; "    dict"; "        a ="; "            1"]), Succeeds) /\
  view sha read (map ascii_bytes ["full"; "g"]) = (flat_map line (map ascii_bytes ["list"; "    7"; "    xyz"; "    dict"; "        a ="; "            1"; "-----------"]), Fails) /\
  view sha read (map ascii_bytes ["show"; "f"]) = (flat_map line (map ascii_bytes ["Commands:"; "  trackers"; "  files"; "  info"; "  hash"; "  raw"; "  full"]), Fails).
Proof. vm_compute. auto 8. Qed.
