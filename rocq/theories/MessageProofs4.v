(** Directory theorems on the block bytes; summaries. *)
From Verif Require Import Base BaseProofs VarintModel VarintSpec VarintProofs.
From Verif Require Import ProtobufModel ProtobufSpec ProtobufProofs CidModel CidSpec CidProofs.
From Verif Require Import DagPbModel IdentifyModel BitswapModel UnixfsModel MessageSpec MessageProofs MultiaddrProofs MessageProofs2 MessageProofs3.
Local Open Scope string_scope. Local Open Scope list_scope. Local Open Scope N_scope.

Lemma node_bytes_good b node data : bytes_ok b -> fits b -> node_msg b node -> nd_bytes node = Some data ->
  bytes_ok data /\ fits data.
Proof.
  intros Hb Hf (fs & M & _ & A) E. rewrite E in A. destruct A as (d & O & ->).
  eapply occ_good in O; [exact O|]. eapply wire_message_good; eauto.
Qed.
Lemma directory_from_node b node data u : bytes_ok b -> fits b ->
  node_msg b node -> nd_bytes node = Some data -> fs_data_msg data u -> fd_type u = TDirectory ->
  fs_node_from_dagpb b = dir_loop 0 [] (nd_links node).
Proof.
  intros Hb Hf N D U T. destruct (node_bytes_good b node data Hb Hf N D) as [B1 B2].
  apply node_from_pb_ok in N; [|assumption..]. apply fs_data_from_pb_ok in U; [|assumption..].
  unfold fs_node_from_dagpb. rewrite N. cbn [map_err bind]. rewrite D. cbn [of_option bind].
  rewrite U. cbn [map_err bind]. rewrite T. reflexivity.
Qed.
Theorem directory_exact b es : bytes_ok b -> fits b ->
    (fs_node_from_dagpb b = Ok es <->
     exists node data u, node_msg b node /\ nd_bytes node = Some data /\ fs_data_msg data u /\
       fd_type u = TDirectory /\ Forall2 dir_entry_of (nd_links node) es /\
       Forall (fun e => de_name e <> []) es /\ NoDup (map de_name es)).
Proof.
  intros Hb Hf. split.
  - intros H. unfold fs_node_from_dagpb in H. rewrite bind_ok in H. destruct H as (node & H1 & H).
    rewrite bind_ok in H. destruct H as (data & H2 & H). rewrite bind_ok in H. destruct H as (u & H3 & H).
    apply map_err_ok, node_from_pb_ok in H1; [|assumption..]. apply of_option_ok in H2.
    destruct (node_bytes_good b node data Hb Hf H1 H2) as [B1 B2].
    apply map_err_ok, fs_data_from_pb_ok in H3; [|assumption..].
    destruct (fd_type u) eqn:T; try discriminate. apply dir_loop_ok in H as (F & A & ND).
    exists node, data, u. repeat split; auto. eapply Forall_impl; [|exact A]. cbn. tauto.
  - intros (node & data & u & N & D & U & T & F & A & ND).
    rewrite (directory_from_node b node data u) by assumption. apply dir_loop_ok. repeat split; auto.
    eapply Forall_impl; [|exact A]. cbn. tauto.
Qed.
Theorem directory_first_offence b node data u : bytes_ok b -> fits b ->
    node_msg b node -> nd_bytes node = Some data -> fs_data_msg data u -> fd_type u = TDirectory ->
    (exists es, fs_node_from_dagpb b = Ok es) \/
    (exists i e, fs_node_from_dagpb b = Err e /\ dir_offence (nd_links node) i e /\
       forall j, (j < i)%nat -> ~ exists e', dir_offence (nd_links node) j e').
Proof.
  intros Hb Hf N D U T. rewrite (directory_from_node b node data u) by assumption.
  destruct (dir_loop 0 [] (nd_links node)) as [es|e|] eqn:E; [left; eauto| |].
  - right. destruct (dir_loop_err (nd_links node) [] [] e) as (i & O & F).
    + cbn. intros n. split; [contradiction|intros (l & [] & _)].
    + cbn. intros j J. lia.
    + exact E.
    + exists i, e. auto.
  - apply dir_loop_not_panic in E. contradiction.
Qed.
Theorem directory_total b : bytes_ok b -> fits b -> fs_node_from_dagpb b <> Panic.
Proof.
  intros Hb Hf. unfold fs_node_from_dagpb.
  apply bind_not_panic; [apply map_err_not_panic, node_total; assumption|]. intros node N.
  apply map_err_ok, node_from_pb_ok in N; [|assumption..].
  apply bind_not_panic; [destruct (nd_bytes node); discriminate|]. intros data D. apply of_option_ok in D.
  destruct (node_bytes_good b node data Hb Hf N D) as [B1 B2].
  apply bind_not_panic; [apply map_err_not_panic, fs_data_total; assumption|]. intros u _.
  destruct (fd_type u); try discriminate. apply dir_loop_not_panic.
Qed.
Lemma at_most_one_length {A} (val : field_data -> A -> Prop) n fs o :
  at_most_one val n fs o -> (length (occ n fs) <= 1)%nat.
Proof. unfold at_most_one. destruct o; [intros (d & -> & _)|intros ->]; cbn; lia. Qed.
Theorem fs_data_rejects b fs : bytes_ok b -> fits b -> wire_message b fs ->
    (occ 1 fs = [] \/ exists n, In n [1; 2; 3; 5; 6; 7; 8] /\ (2 <= length (occ n fs))%nat) ->
    exists e, fs_data_from_pb b = Err e.
Proof.
  intros Hb Hf M H. pose proof (fs_data_total b Hb Hf) as [NP _].
  destruct (fs_data_from_pb b) as [x|e|] eqn:E; [|eauto|congruence].
  exfalso. apply fs_data_from_pb_ok in E as (fs' & M' & S1 & S2 & S3 & S4 & S5 & S6 & S7 & S8); [|assumption..].
  rewrite (wire_message_unique b fs' fs Hb Hf M' M) in *. clear M' fs'.
  destruct S1 as (d & O & _). apply at_most_one_length in S2, S3, S5, S6, S7, S8.
  destruct H as [H|(n & I & L)]; [congruence|].
  cbn [In] in I. repeat (destruct I as [<-|I]; [try rewrite O in L; cbn [length] in L; lia|]). contradiction.
Qed.
Lemma all_ignore_unknown :
  ignores_unknown link_from_pb [1; 2; 3] /\
  ignores_unknown node_from_pb [1; 2] /\
  ignores_unknown key_from_pb [1; 2] /\
  ignores_unknown private_key_from_pb [1; 2] /\
  ignores_unknown identify_from_pb [1; 2; 3; 4; 5; 6; 8] /\
  ignores_unknown entry_from_pb [1; 2; 3; 4; 5] /\
  ignores_unknown wantlist_from_pb [1; 2] /\
  ignores_unknown block_from_pb [1; 2] /\
  ignores_unknown bs_message_from_pb [1; 3] /\
  ignores_unknown unix_time_from_pb [1; 2] /\
  ignores_unknown fs_data_from_pb [1; 2; 3; 4; 5; 6; 7; 8].
Proof.
  exact (conj link_unknown (conj node_unknown (conj key_unknown (conj private_key_unknown (conj identify_unknown
    (conj entry_unknown (conj wantlist_unknown (conj block_unknown (conj bs_message_unknown
    (conj unix_time_unknown fs_data_unknown)))))))))).
Qed.
Lemma c14_case :
  wire_message [8; 1] [(1, FVarInt [1])] /\ wire_field [122; 1; 0] 15 (FBytes [0]) /\
  key_from_pb ([8; 1] ++ [122; 1; 0] ++ [18; 1; 9]) = Ok {| pk_type := KEd25519; pk_data := [9] |} /\
  key_from_pb ([8; 1] ++ [18; 1; 9]) = Ok {| pk_type := KEd25519; pk_data := [9] |}.
Proof.
  split; [exact (ser_wire [EU 1 1] ltac:(repeat constructor) eq_refl)|].
  split; [exact (f_bytes_wire 15 [0] eq_refl eq_refl)|]. split; vm_compute; reflexivity.
Qed.
Lemma all_total :
  total link_from_pb /\ total node_from_pb /\ total key_from_pb /\ total private_key_from_pb /\
  total identify_from_pb /\ total entry_from_pb /\ total wantlist_from_pb /\ total block_from_pb /\
  total bs_message_from_pb /\ total unix_time_from_pb /\ total fs_data_from_pb.
Proof.
  exact (conj link_total (conj node_total (conj key_total (conj private_key_total (conj identify_total
    (conj entry_total (conj wantlist_total (conj block_total (conj bs_message_total
    (conj unix_time_total fs_data_total)))))))))).
Qed.
