(** Additions to C13, C118 and C121: data types, the whole program of tracker.rs, and the
    arguments of select_test.rs. *)
From Verif Require Import Base BaseProofs ProtobufModel UnixfsModel TorrentModel BencodePathModel TrackerModel AnnounceModel AnnounceProps DemoModel DemoProps.
Local Open Scope string_scope. Local Open Scope list_scope. Local Open Scope N_scope.

(** C13: the six types have the codes of the UnixFS specification; everything else is refused. *)
Definition unixfs_types : list (N * data_type) := [(0, TRaw); (1, TDirectory); (2, TFile); (3, TMetadata); (4, TSymlink); (5, THAMTShard)].
Theorem C13_data_types :
  (forall n t, data_type_of n = Ok t <-> In (n, t) unixfs_types) /\ (forall n t, data_type_num t = n <-> In (n, t) unixfs_types) /\
  (forall n, (exists t, data_type_of n = Ok t) \/ exists e, data_type_of n = Err e).
Proof.
  assert (D : forall n, In n (map fst unixfs_types) \/ (data_type_of n = Err (PPlain "unknown data type") /\ ~ In n (map fst unixfs_types))).
  { intros n. cbn [map fst unixfs_types In]. unfold data_type_of.
    destruct (N.eqb_spec n 0) as [->|]; [auto|]. destruct (N.eqb_spec n 1) as [->|]; [auto|]. destruct (N.eqb_spec n 2) as [->|]; [auto 6|]. destruct (N.eqb_spec n 3) as [->|]; [auto 7|].
    destruct (N.eqb_spec n 4) as [->|]; [auto 8|]. destruct (N.eqb_spec n 5) as [->|]; [auto 9|]. right. split; [reflexivity|]. intuition congruence. }
  split; [|split].
  - intros n t. destruct (D n) as [I1|(E & I1)].
    + cbn [map fst unixfs_types In] in I1. destruct I1 as [<-|[<-|[<-|[<-|[<-|[<-|[]]]]]]]; (split; [intros H; injection H as <-; cbn [In unixfs_types]; auto 9|]);
        cbn [In unixfs_types]; intros H; repeat (destruct H as [H|H]; [try discriminate H; injection H as <-; reflexivity|]); destruct H.
    + rewrite E. split; [discriminate|]. intros H. destruct I1. apply (in_map fst) in H. exact H.
  - intros n t. split.
    + intros <-. destruct t; cbn [data_type_num unixfs_types In]; auto 8.
    + cbn [In unixfs_types]. intros H. repeat (destruct H as [H|H]; [injection H as <- <-; reflexivity|]). destruct H.
  - intros n. destruct (D n) as [I1|(E & _)]; [left|right; eauto]. cbn [map fst unixfs_types In] in I1. destruct I1 as [<-|[<-|[<-|[<-|[<-|[<-|[]]]]]]]; eexists; reflexivity.
Qed.
Print Assumptions C13_data_types.

(** C118: [tracker] exchanges datagrams exactly when it has both arguments, the file is a
    torrent and the tracker has an address; then with the first address and the torrent's
    info hash.  Otherwise it ends without a datagram and without success: it panics if the
    lookup of the tracker gives no address (or reading the torrent panics), else it reports an
    error. *)
Definition ready (sha1 : bytes -> bytes) (read : bytes -> option bytes) (lookup : bytes -> option (list addr)) (args : list bytes) (T : addr) (info_hash : bytes) : Prop :=
  exists tracker file more data t others, args = tracker :: file :: more /\ read file = Some data /\ from_bytes sha1 data = Ok t /\ lookup tracker = Some (T :: others) /\ info_hash = t_info_hash t.
Definition crashes (sha1 : bytes -> bytes) (read : bytes -> option bytes) (lookup : bytes -> option (list addr)) (args : list bytes) : Prop :=
  exists tracker file more data, args = tracker :: file :: more /\ read file = Some data /\
    (from_bytes sha1 data = Panic \/ (exists t, from_bytes sha1 data = Ok t) /\ lookup tracker = Some []).
Theorem C118_tool_main sha1 read lookup tid args tr how :
  plays (tracker_main sha1 read lookup tid args) tr how <->
  (exists T info_hash, ready sha1 read lookup args T info_hash /\ plays (tool_exchange T tid info_hash) tr how) \/
  ((forall T info_hash, ~ ready sha1 read lookup args T info_hash) /\ tr = [] /\
   (how = Fails /\ ~ crashes sha1 read lookup args \/ how = Panics /\ crashes sha1 read lookup args)).
Proof.
  assert (Q : forall e t h, plays (DEnd e) t h <-> t = [] /\ h = e) by (intros e t h; split; [intros P; inversion P; auto|intros [-> ->]; constructor]).
  destruct args as [|tracker [|file more]]; unfold tracker_main; cbn [nth_error].
  1,2: rewrite Q; split;
    [intros [-> ->]; right; split; [intros T h (a & b & c & d & t & o & X & _); discriminate X|]; split; [reflexivity|]; left; split; [reflexivity|]; intros (a & b & c & d & X & _); discriminate X
    |intros [(T & h & (a & b & c & d & t & o & X & _) & _)|(_ & -> & [(-> & _)|(_ & (a & b & c & d & X & _))])]; [discriminate X|auto|discriminate X]].
  assert (RD : forall T h, ready sha1 read lookup (tracker :: file :: more) T h <-> exists data t others, read file = Some data /\ from_bytes sha1 data = Ok t /\ lookup tracker = Some (T :: others) /\ h = t_info_hash t).
  { intros T h. split; [intros (a & b & c & d & t & o & X & R & E & L & K); injection X as <- <- <-; exists d, t, o; auto|intros (d & t & o & R & E & L & K); exists tracker, file, more, d, t, o; auto]. }
  assert (CR : crashes sha1 read lookup (tracker :: file :: more) <-> exists data, read file = Some data /\ (from_bytes sha1 data = Panic \/ (exists t, from_bytes sha1 data = Ok t) /\ lookup tracker = Some [])).
  { split; [intros (a & b & c & d & X & R & E); injection X as <- <- <-; exists d; auto|intros (d & R & E); exists tracker, file, more, d; auto]. }
  rewrite CR. setoid_rewrite RD. clear RD CR.
  destruct (read file) as [data|]; [destruct (from_bytes sha1 data) as [t|e|] eqn:E; [destruct (lookup tracker) as [[|A others]|] eqn:L|..]|]; rewrite ?Q.
  2: { split.
    - intros P. left. exists A, (t_info_hash t). split; [|exact P]. exists data, t, others. auto.
    - intros [(T & h & (d & u & o & R & E2 & L2 & ->) & P)|(H & _)]; [injection R as <-; rewrite E in E2; injection E2 as <-; injection L2 as <- <-; exact P|].
      exfalso. apply (H A (t_info_hash t)). exists data, t, others. auto. }
  all: split; [intros [-> ->]; right; split; [intros T h (d & u & o & R & E2 & L2 & _); congruence|]; split; [reflexivity|]
    |intros [(T & h & (d & u & o & R & E2 & L2 & _) & P)|(_ & -> & [(-> & H)|(-> & (d & R & H))])]; try congruence; split; try reflexivity].
  all: try (left; split; [reflexivity|]; intros (d & R & [H|[[u H] H2]]); congruence).
  all: try (right; split; [reflexivity|]; exists data; split; [reflexivity|]; eauto).
  all: try (exfalso; apply H; exists data; split; [reflexivity|]; eauto).
  all: destruct H as [H|[[u H] H2]]; congruence.
Qed.
Print Assumptions C118_tool_main.

(** C121: the modes of select_test, and what its writers and udptest's client send. *)
Theorem C121_programs :
  (forall arg, select_mode arg = Some Heap <-> arg = Some (ascii_bytes "heap")) /\ (forall arg, select_mode arg = Some Stack <-> arg = Some (ascii_bytes "stack")) /\
  (forall s, thruns (threads_init words_one words_two) s -> th_over s = true -> exists l, shuffle (map ascii_bytes ["hi"; "from"; "the"; "thread"]) (map ascii_bytes ["more"; "messages"; "for"; "you"]) l /\ th_out s = flat_map got l) /\
  udp_server (fun d => d) [udp_client] = ascii_bytes "Server: Created socket" ++ [10] ++ ascii_bytes "Server: Received " ++ [34] ++ ascii_bytes "hello" ++ [34; 10].
Proof.
  assert (M : forall arg m, select_mode arg = Some m <-> arg = Some (ascii_bytes (match m with Heap => "heap" | Stack => "stack" end))).
  { intros [a|] m; [|split; discriminate]. unfold select_mode. destruct (bytes_eqb a (ascii_bytes "heap")) eqn:E1.
    - apply bytes_eqb_eq in E1. subst a. split; intros H; [injection H as <-; reflexivity|destruct m; [reflexivity|discriminate H]].
    - destruct (bytes_eqb a (ascii_bytes "stack")) eqn:E2.
      + apply bytes_eqb_eq in E2. subst a. split; intros H; [injection H as <-; reflexivity|destruct m; [discriminate H|reflexivity]].
      + split; [discriminate|]. intros H. injection H as ->. destruct m; discriminate. }
  split; [intros arg; apply (M arg Heap)|]. split; [intros arg; apply (M arg Stack)|]. split.
  - intros s R O. destruct (C121_threads words_one words_two s R) as (p & rest & E & Sh & V). rewrite (V O), app_nil_r in Sh. exists p. auto.
  - unfold udp_server, udp_text. cbn [flat_map]. rewrite firstn_all2 by (apply Nat.leb_le; reflexivity). reflexivity.
Qed.
Print Assumptions C121_programs.
Example C13_types_case : data_type_of 5 = Ok THAMTShard /\ data_type_of 6 = Err (PPlain "unknown data type"). Proof. split; reflexivity. Qed.
