(** Round trips of the message types, and unknown fields. *)
From Verif Require Import Base BaseProofs VarintModel VarintSpec VarintProofs.
From Verif Require Import ProtobufModel ProtobufSpec ProtobufProofs CidModel CidSpec CidProofs.
From Verif Require Import DagPbModel IdentifyModel BitswapModel UnixfsModel MessageSpec MessageProofs MultiaddrProofs MessageProofs2.
Local Open Scope string_scope. Local Open Scope list_scope. Local Open Scope N_scope.
Ltac Zify.zify_post_hook ::= Z.div_mod_to_equations.

(** What a writer appends, as a list. *)
Inductive ef := EU (n v : N) | EB (n : N) (b : bytes).
Definition ef_ser (e : ef) : bytes := match e with EU n v => f_uint64 n v | EB n b => f_bytes n b end.
Definition ef_field (e : ef) : N * field_data :=
  match e with EU n v => (n, FVarInt (encode_u64 v)) | EB n b => (n, FBytes b) end.
Definition ef_wf (e : ef) : Prop :=
  match e with EU n v => n < two32 /\ u64_ok v | EB n b => n < two32 /\ bytes_ok b end.
Definition ser (es : list ef) : bytes := concat (map ef_ser es).
Definition fields (es : list ef) := map ef_field es.

Lemma ser_app a b : ser (a ++ b) = ser a ++ ser b.
Proof. unfold ser. rewrite map_app, concat_app. reflexivity. Qed.
Lemma fields_app a b : fields (a ++ b) = fields a ++ fields b.
Proof. apply map_app. Qed.
Lemma ser_wire es : Forall ef_wf es -> fits (ser es) -> wire_message (ser es) (fields es).
Proof.
  unfold ser, fields. induction 1 as [|e es W _ IH]; cbn [map concat]; intros F; [constructor|].
  apply fits_app in F as [F1 F2]. destruct e as [n v|n b]; cbn [ef_ser ef_field ef_wf] in *.
  - constructor; [apply f_uint64_wire; tauto|auto].
  - constructor; [|auto]. apply f_bytes_wire; [tauto|]. eapply f_bytes_fits; eauto.
Qed.
Lemma ser_ok es : Forall ef_wf es -> bytes_ok (ser es).
Proof.
  unfold ser. induction 1 as [|e es W _ IH]; cbn [map concat]; [apply bytes_ok_nil|].
  apply bytes_ok_app. split; [|exact IH]. destruct e; cbn in *; [apply f_uint64_ok|apply f_bytes_ok; tauto].
Qed.
Lemma ser_fits es n b : fits (ser es) -> In (EB n b) es -> fits b.
Proof.
  unfold ser. induction es as [|e es IH]; cbn [map concat]; intros F I; [contradiction|].
  apply fits_app in F as [F1 F2]. destruct I as [->|I]; [|auto]. eapply f_bytes_fits; eauto.
Qed.

Definition opt_e {A} (f : A -> ef) (o : option A) : list ef := match o with Some a => [f a] | None => [] end.

Lemma fold_write_ser {A} (g : A -> bytes) n l w : n < two32 ->
  fold_left (fun w x => write_bytes w n (g x)) l w = w ++ ser (map (fun x => EB n (g x)) l).
Proof. intros H. rewrite fold_write by exact H. unfold ser. rewrite map_map. reflexivity. Qed.
Lemma fold_string_ser l n w : n < two32 ->
  fold_left (fun w x => write_string w n x) l w = w ++ ser (map (fun x => EB n x) l).
Proof. intros H. unfold write_string. apply (fold_write_ser (fun x => x)), H. Qed.
Lemma occ_same_map {A} (g : A -> bytes) n l :
  occ n (fields (map (fun x => EB n (g x)) l)) = map (fun x => FBytes (g x)) l.
Proof. unfold fields. rewrite map_map. cbn [ef_field]. apply occ_list_same. Qed.
Lemma occ_diff_map {A} (g : A -> bytes) n m l : (m =? n) = false ->
  occ n (fields (map (fun x => EB m (g x)) l)) = [].
Proof. intros H. unfold fields. rewrite map_map. cbn [ef_field]. apply occ_list_diff, H. Qed.
Lemma rep_nested {A} (msg : bytes -> A -> Prop) (g : A -> bytes) l :
  Forall (fun x => msg (g x) x) l -> Forall2 (v_nested msg) (map (fun x => FBytes (g x)) l) l.
Proof.
  intros H. apply Forall2_map_l, Forall2_refl_on. eapply Forall_impl; [|exact H]. cbn. intros a Ha.
  exists (g a). auto.
Qed.
Lemma all_fits {A} (g : A -> bytes) n es l :
  fits (ser es) -> incl (map (fun x => EB n (g x)) l) es -> Forall (fun x => fits (g x)) l.
Proof.
  intros F I. apply Forall_forall. intros x Hx. eapply ser_fits; [exact F|]. apply I.
  apply (in_map (fun x => EB n (g x))) in Hx. exact Hx.
Qed.
Ltac to_ser :=
  repeat first [ rewrite write_uint64_eq by reflexivity | rewrite write_bytes_eq by reflexivity
               | rewrite write_string_eq by reflexivity | rewrite write_int32_eq by reflexivity
               | rewrite write_bool_eq by reflexivity ].

(** ** DAG-PB *)
Definition link_es (l : pb_link) : list ef :=
  [EB 1 (cid_to_bytes (lk_hash l))] ++ opt_e (EB 2) (lk_name l) ++ opt_e (EU 3) (lk_tsize l).
Lemma link_ser l : link_to_pb l = ser (link_es l).
Proof.
  unfold link_to_pb, link_es. destruct (lk_name l), (lk_tsize l); to_ser; unfold ser; cbn [opt_e app map concat ef_ser];
    rewrite ?app_nil_r, <- ?app_assoc; reflexivity.
Qed.
Lemma link_es_wf l : link_ok l -> Forall ef_wf (link_es l).
Proof.
  intros (H1 & H2 & H3). unfold link_es. apply Forall_app. split.
  - constructor; [|constructor]. split; [reflexivity|apply cid_to_bytes_ok, H1].
  - apply Forall_app. split.
    + destruct (lk_name l); [|constructor]. constructor; [|constructor]. split; [reflexivity|apply H2].
    + destruct (lk_tsize l); [|constructor]. constructor; [|constructor]. split; [reflexivity|apply H3].
Qed.
Lemma link_ok_bytes l : link_ok l -> bytes_ok (link_to_pb l).
Proof. intros H. rewrite link_ser. apply ser_ok, link_es_wf, H. Qed.
Lemma link_msg_rt l : link_ok l -> fits (link_to_pb l) -> link_msg (link_to_pb l) l.
Proof.
  intros H F. rewrite link_ser in *. pose proof (link_es_wf l H) as W.
  exists (fields (link_es l)). split; [apply ser_wire; assumption|].
  destruct H as (H1 & H2 & H3). unfold link_es. split; [|split].
  - exists (FBytes (cid_to_bytes (lk_hash l))). split; [destruct (lk_name l), (lk_tsize l); reflexivity|].
    eexists. split; [reflexivity|]. apply cid_to_bytes_wire; [exact H1|].
    assert (F2 : fits (cid_to_bytes (lk_hash l))) by (eapply ser_fits; [exact F|]; left; reflexivity).
    clear - F2. unfold cid_to_bytes, cid_to_bytes_v1, fits in *. generalize dependent (lk_hash l). intros c F2.
    destruct (cid_ver c), (cid_codec c), (cid_hash_type c), (length (cid_hash c) =? 32)%nat;
      rewrite ?blen_app in *; lia.
  - unfold at_most_one. destruct (lk_name l) as [x|]; [|destruct (lk_tsize l); reflexivity].
    exists (FBytes x). split; [destruct (lk_tsize l); reflexivity|]. split; [reflexivity|apply H2].
  - unfold at_most_one. destruct (lk_tsize l) as [x|]; [|destruct (lk_name l); reflexivity].
    exists (FVarInt (encode_u64 x)). split; [destruct (lk_name l); reflexivity|]. apply v_u64_encode, H3.
Qed.
Theorem link_round_trip l : link_ok l -> fits (link_to_pb l) -> link_from_pb (link_to_pb l) = Ok l.
Proof. intros H F. apply link_from_pb_ok; [apply link_ok_bytes, H|exact F|apply link_msg_rt; assumption]. Qed.

Definition node_es (n : pb_node) : list ef :=
  map (fun l => EB 2 (link_to_pb l)) (nd_links n) ++ opt_e (EB 1) (nd_bytes n).
Lemma node_ser n : node_to_pb n = ser (node_es n).
Proof.
  unfold node_to_pb, node_es. rewrite fold_write_ser by reflexivity. rewrite ser_app.
  destruct (nd_bytes n); to_ser; unfold ser at 3; cbn [opt_e app map concat ef_ser]; rewrite ?app_nil_r; reflexivity.
Qed.
Lemma node_es_wf n : node_ok n -> Forall ef_wf (node_es n).
Proof.
  intros [H1 H2]. apply Forall_app. split.
  - apply Forall_map. eapply Forall_impl; [|exact H1]. intros l Hl. split; [reflexivity|apply link_ok_bytes, Hl].
  - destruct (nd_bytes n); [|constructor]. constructor; [|constructor]. split; [reflexivity|exact H2].
Qed.
Theorem node_round_trip n : node_ok n -> fits (node_to_pb n) -> node_from_pb (node_to_pb n) = Ok n.
Proof.
  intros H F. pose proof (node_es_wf n H) as W. rewrite node_ser in *.
  apply node_from_pb_ok; [apply ser_ok, W|exact F|].
  exists (fields (node_es n)). split; [apply ser_wire; assumption|].
  destruct H as [H1 H2]. unfold node_es. rewrite fields_app. split.
  - unfold repeated. rewrite occ_app, occ_same_map.
    assert (E : occ 2 (fields (opt_e (EB 1) (nd_bytes n))) = []) by (destruct (nd_bytes n); reflexivity).
    rewrite E, app_nil_r. apply rep_nested.
    assert (FF : Forall (fun l => fits (link_to_pb l)) (nd_links n)).
    { eapply all_fits; [exact F|]. apply incl_appl. intros x Hx. exact Hx. }
    eapply Forall_and2; [exact H1|exact FF|]. apply link_msg_rt.
  - unfold at_most_one. rewrite occ_app, occ_diff_map by reflexivity.
    destruct (nd_bytes n) as [x|]; [exists (FBytes x); split; reflexivity|reflexivity].
Qed.

(** ** Keys and Identify *)
Definition key_es (k : public_key) : list ef := [EU 1 (key_type_num (pk_type k)); EB 2 (pk_data k)].
Lemma key_ser k : key_to_pb k = ser (key_es k).
Proof. unfold key_to_pb, key_es. to_ser. unfold ser. cbn [map concat ef_ser app]. rewrite app_nil_r. reflexivity. Qed.
Lemma key_es_wf k : key_ok k -> Forall ef_wf (key_es k).
Proof.
  intros H. constructor; [split; [reflexivity|destruct (pk_type k); reflexivity]|].
  constructor; [split; [reflexivity|exact H]|constructor].
Qed.
Lemma key_msg_rt k : key_ok k -> fits (key_to_pb k) -> key_msg (key_to_pb k) k.
Proof.
  intros H F. pose proof (key_es_wf k H) as W. rewrite key_ser in *.
  exists (fields (key_es k)). split; [apply ser_wire; assumption|]. split.
  - exists []. constructor; [|constructor]. apply (v_u64_encode (key_type_num (pk_type k))). destruct (pk_type k); reflexivity.
  - exists []. constructor; [reflexivity|constructor].
Qed.
Theorem key_round_trip k : key_ok k -> fits (key_to_pb k) -> key_from_pb (key_to_pb k) = Ok k.
Proof.
  intros H F. apply key_from_pb_ok; [rewrite key_ser; apply ser_ok, key_es_wf, H|exact F|apply key_msg_rt; assumption].
Qed.

Definition id_es (i : identify) : list ef :=
  [EB 1 (key_to_pb (id_public_key i))] ++
  map (fun a => EB 2 (multiaddr_to_bytes a)) (id_listen_addrs i) ++
  map (fun p => EB 3 p) (id_protocols i) ++
  [EB 4 (multiaddr_to_bytes (id_observed_addr i)); EB 5 (id_protocol_version i); EB 6 (id_agent_version i)] ++
  opt_e (EB 8) (id_signed_peer_record i).
Lemma id_ser i : identify_to_pb i = ser (id_es i).
Proof.
  unfold identify_to_pb, id_es. rewrite fold_string_ser, fold_write_ser by reflexivity.
  rewrite !ser_app. generalize (ser (map (fun a : multiaddr => EB 2 (multiaddr_to_bytes a)) (id_listen_addrs i))).
  generalize (ser (map (fun p : bytes => EB 3 p) (id_protocols i))). intros p a.
  destruct (id_signed_peer_record i); to_ser; unfold ser; cbn [opt_e app map concat ef_ser];
    rewrite ?app_nil_r, <- ?app_assoc; reflexivity.
Qed.
Lemma id_es_wf i : identify_ok i -> Forall ef_wf (id_es i).
Proof.
  intros (H1 & H2 & H3 & H4 & H5 & H6 & H7). unfold id_es.
  apply Forall_app. split.
  { constructor; [|constructor]. split; [reflexivity|]. rewrite key_ser. apply ser_ok, key_es_wf, H3. }
  apply Forall_app. split.
  { apply Forall_map. eapply Forall_impl; [|exact H4]. intros l Hl. split; [reflexivity|apply multiaddr_encode_ok, Hl]. }
  apply Forall_app. split.
  { apply Forall_map. eapply Forall_impl; [|exact H6]. intros l Hl. split; [reflexivity|apply Hl]. }
  apply Forall_app. split.
  { constructor; [split; [reflexivity|apply multiaddr_encode_ok, H5]|].
    constructor; [split; [reflexivity|apply H1]|]. constructor; [split; [reflexivity|apply H2]|constructor]. }
  destruct (id_signed_peer_record i); [|constructor]. constructor; [|constructor]. split; [reflexivity|exact H7].
Qed.
Theorem identify_round_trip i : identify_ok i -> fits (identify_to_pb i) -> identify_from_pb (identify_to_pb i) = Ok i.
Proof.
  intros H F. pose proof (id_es_wf i H) as W. rewrite id_ser in *.
  apply identify_from_pb_ok; [apply ser_ok, W|exact F|].
  exists (fields (id_es i)). split; [apply ser_wire; assumption|].
  assert (FK : fits (key_to_pb (id_public_key i))).
  { eapply ser_fits; [exact F|]. unfold id_es. apply in_or_app. left. left. reflexivity. }
  destruct H as (H1 & H2 & H3 & H4 & H5 & H6 & H7). unfold id_es. rewrite !fields_app.
  assert (O8 : forall n, (8 =? n) = false -> occ n (fields (opt_e (EB 8) (id_signed_peer_record i))) = []).
  { intros n Hn. destruct (id_signed_peer_record i); [|reflexivity]. unfold fields. cbn [opt_e map ef_field].
    rewrite occ_cons, Hn. reflexivity. }
  pose proof (fun n H => occ_diff_map multiaddr_to_bytes n 2 (id_listen_addrs i) H) as O2.
  pose proof (fun n H => occ_diff_map (fun x => x) n 3 (id_protocols i) H) as O3. cbv beta in O3.
  unfold exactly_one, repeated, at_most_one.
  repeat split.
  - rewrite !occ_app, O2, O3, O8 by reflexivity.
    eexists. split; [reflexivity|]. eexists. split; [reflexivity|]. apply key_msg_rt; assumption.
  - rewrite !occ_app, O3, O8, occ_same_map by reflexivity. cbn [app occ fields map filter fst snd ef_field N.eqb Pos.eqb].
    rewrite app_nil_r. apply rep_nested. eapply Forall_impl; [|exact H4]. apply multiaddr_encode_wire.
  - rewrite !occ_app, O2, O8 by reflexivity. rewrite (occ_same_map (fun x => x)).
    cbn [app occ fields map filter fst snd ef_field N.eqb Pos.eqb]. rewrite app_nil_r.
    apply Forall2_map_l, Forall2_refl_on. eapply Forall_impl; [|exact H6]. intros s [_ U]. split; [reflexivity|exact U].
  - rewrite !occ_app, O2, O3, O8 by reflexivity.
    eexists. split; [reflexivity|]. eexists. split; [reflexivity|]. apply multiaddr_encode_wire, H5.
  - rewrite !occ_app, O2, O3, O8 by reflexivity.
    eexists. split; [reflexivity|]. split; [reflexivity|apply H1].
  - rewrite !occ_app, O2, O3, O8 by reflexivity.
    eexists. split; [reflexivity|]. split; [reflexivity|apply H2].
  - rewrite !occ_app, O2, O3 by reflexivity. destruct (id_signed_peer_record i); [|reflexivity].
    eexists. split; reflexivity.
Qed.

(** ** Bitswap *)
Definition entry_es (e : entry) : list ef :=
  [EB 1 (en_block e); EU 2 (int_as_u64 (en_priority e))] ++
  (if en_cancel e then [EU 3 1] else []) ++
  [EU 4 (match en_want_type e with WBlock => 0 | WHave => 1 end)] ++
  (if en_send_dont_have e then [EU 5 1] else []).
Lemma entry_ser e : entry_to_pb e = ser (entry_es e).
Proof.
  unfold entry_to_pb, entry_es. destruct (en_cancel e), (en_want_type e), (en_send_dont_have e); to_ser;
    unfold ser; cbn [opt_e app map concat ef_ser]; rewrite ?app_nil_r, <- ?app_assoc; reflexivity.
Qed.
Lemma entry_es_wf e : entry_ok e -> Forall ef_wf (entry_es e).
Proof.
  intros [H1 H2]. unfold entry_es. apply Forall_app. split.
  { constructor; [split; [reflexivity|exact H1]|]. constructor; [split; [reflexivity|apply int_as_u64_ok]|constructor]. }
  destruct (en_cancel e), (en_want_type e), (en_send_dont_have e); repeat constructor.
Qed.
Lemma entry_msg_rt e : entry_ok e -> fits (entry_to_pb e) -> entry_msg (entry_to_pb e) e.
Proof.
  intros H F. pose proof (entry_es_wf e H) as W. rewrite entry_ser in *.
  exists (fields (entry_es e)). split; [apply ser_wire; assumption|]. destruct H as [H1 H2]. unfold entry_es.
  split; [|split; [|split; [|split]]].
  - exists []. destruct (en_cancel e), (en_send_dont_have e); (constructor; [reflexivity|constructor]).
  - exists [en_priority e]. split; [|reflexivity].
    destruct (en_cancel e), (en_send_dont_have e); (constructor; [apply v_i32_encode, H2|constructor]).
  - destruct (en_cancel e).
    + exists [true]. split; [|reflexivity]. destruct (en_send_dont_have e); (constructor; [apply (v_bool_encode true)|constructor]).
    + exists []. split; [|reflexivity]. destruct (en_send_dont_have e); constructor.
  - exists [en_want_type e]. split; [|reflexivity].
    destruct (en_cancel e), (en_send_dont_have e); (constructor; [|constructor]);
      destruct (en_want_type e); apply v_u64_encode; reflexivity.
  - destruct (en_send_dont_have e).
    + exists [true]. split; [|reflexivity]. destruct (en_cancel e); (constructor; [apply (v_bool_encode true)|constructor]).
    + exists []. split; [|reflexivity]. destruct (en_cancel e); constructor.
Qed.
Lemma entry_bytes_ok e : entry_ok e -> bytes_ok (entry_to_pb e).
Proof. intros H. rewrite entry_ser. apply ser_ok, entry_es_wf, H. Qed.
Theorem entry_round_trip e : entry_ok e -> fits (entry_to_pb e) -> entry_from_pb (entry_to_pb e) = Ok e.
Proof. intros H F. apply entry_from_pb_ok; [apply entry_bytes_ok, H|exact F|apply entry_msg_rt; assumption]. Qed.

Definition wantlist_es (w : want_list) : list ef :=
  map (fun e => EB 1 (entry_to_pb e)) (wl_entries w) ++ (if wl_full w then [EU 2 1] else []).
Lemma wantlist_ser w : wantlist_to_pb w = ser (wantlist_es w).
Proof.
  unfold wantlist_to_pb, wantlist_es. rewrite fold_write_ser by reflexivity. rewrite ser_app.
  destruct (wl_full w); to_ser; unfold ser at 3; cbn [opt_e app map concat ef_ser]; rewrite ?app_nil_r; reflexivity.
Qed.
Lemma wantlist_es_wf w : Forall entry_ok (wl_entries w) -> Forall ef_wf (wantlist_es w).
Proof.
  intros H. apply Forall_app. split.
  - apply Forall_map. eapply Forall_impl; [|exact H]. intros l Hl. split; [reflexivity|apply entry_bytes_ok, Hl].
  - destruct (wl_full w); repeat constructor.
Qed.
Lemma wantlist_msg_rt w : Forall entry_ok (wl_entries w) -> fits (wantlist_to_pb w) -> wantlist_msg (wantlist_to_pb w) w.
Proof.
  intros H F. pose proof (wantlist_es_wf w H) as W. rewrite wantlist_ser in *.
  exists (fields (wantlist_es w)). split; [apply ser_wire; assumption|]. unfold wantlist_es. rewrite fields_app. split.
  - unfold repeated. rewrite occ_app, occ_same_map.
    assert (E : occ 1 (fields (if wl_full w then [EU 2 1] else [])) = []) by (destruct (wl_full w); reflexivity).
    rewrite E, app_nil_r. apply rep_nested.
    assert (FF : Forall (fun l => fits (entry_to_pb l)) (wl_entries w)).
    { eapply all_fits; [exact F|]. apply incl_appl. intros x Hx. exact Hx. }
    eapply Forall_and2; [exact H|exact FF|]. apply entry_msg_rt.
  - unfold last_counts. rewrite occ_app, occ_diff_map by reflexivity. destruct (wl_full w).
    + exists [true]. split; [|reflexivity]. constructor; [apply (v_bool_encode true)|constructor].
    + exists []. split; [constructor|reflexivity].
Qed.
Theorem wantlist_round_trip w : Forall entry_ok (wl_entries w) -> fits (wantlist_to_pb w) ->
  wantlist_from_pb (wantlist_to_pb w) = Ok w.
Proof.
  intros H F. apply wantlist_from_pb_ok; [rewrite wantlist_ser; apply ser_ok, wantlist_es_wf, H|exact F|apply wantlist_msg_rt; assumption].
Qed.

Definition block_es (b : block) : list ef := [EB 1 (bl_prefix b); EB 2 (bl_data b)].
Lemma block_ser b : block_to_pb b = ser (block_es b).
Proof. unfold block_to_pb, block_es. to_ser. unfold ser. cbn [map concat ef_ser app]. rewrite app_nil_r. reflexivity. Qed.
Lemma block_es_wf b : block_ok b -> Forall ef_wf (block_es b).
Proof. intros [H1 H2]. repeat constructor; assumption. Qed.
Lemma block_msg_rt b : block_ok b -> fits (block_to_pb b) -> block_msg (block_to_pb b) b.
Proof.
  intros H F. pose proof (block_es_wf b H) as W. rewrite block_ser in *.
  exists (fields (block_es b)). split; [apply ser_wire; assumption|].
  split; eexists; split; reflexivity.
Qed.
Theorem block_round_trip b : block_ok b -> fits (block_to_pb b) -> block_from_pb (block_to_pb b) = Ok b.
Proof.
  intros H F. apply block_from_pb_ok; [rewrite block_ser; apply ser_ok, block_es_wf, H|exact F|apply block_msg_rt; assumption].
Qed.

Definition bs_es (m : bs_message) : list ef :=
  opt_e (fun w => EB 1 (wantlist_to_pb w)) (bm_wantlist m) ++ map (fun b => EB 3 (block_to_pb b)) (bm_blocks m).
Lemma bs_ser m : bs_message_to_pb m = ser (bs_es m).
Proof.
  unfold bs_message_to_pb, bs_es. rewrite fold_write_ser by reflexivity. rewrite ser_app.
  destruct (bm_wantlist m); to_ser; unfold ser at 2; cbn [opt_e app map concat ef_ser]; rewrite ?app_nil_r; reflexivity.
Qed.
Theorem bs_message_round_trip m : bs_message_ok m -> fits (bs_message_to_pb m) ->
  bs_message_from_pb (bs_message_to_pb m) =
    Ok {| bm_wantlist := bm_wantlist m; bm_blocks := bm_blocks m; bm_payload := [];
          bm_block_presence := []; bm_pending_bytes := None |}.
Proof.
  intros [H1 H2] F. rewrite bs_ser in *.
  assert (W : Forall ef_wf (bs_es m)).
  { apply Forall_app. split.
    - destruct (bm_wantlist m) as [w|]; [|constructor]. constructor; [|constructor]. split; [reflexivity|].
      rewrite wantlist_ser. apply ser_ok, wantlist_es_wf, H1.
    - apply Forall_map. eapply Forall_impl; [|exact H2]. intros b Hb. split; [reflexivity|].
      rewrite block_ser. apply ser_ok, block_es_wf, Hb. }
  apply bs_message_from_pb_ok; [apply ser_ok, W|exact F|].
  exists (fields (bs_es m)). split; [apply ser_wire; assumption|]. cbn [bm_wantlist bm_blocks bm_payload bm_block_presence bm_pending_bytes].
  assert (FW : opt_ok (fun w => fits (wantlist_to_pb w)) (bm_wantlist m)).
  { unfold bs_es in F. destruct (bm_wantlist m) as [w|]; [|exact I]. eapply ser_fits; [exact F|]. left. reflexivity. }
  unfold bs_es. rewrite fields_app. split; [|split; [|auto]].
  - unfold at_most_one. rewrite occ_app, occ_diff_map by reflexivity. rewrite app_nil_r.
    destruct (bm_wantlist m) as [w|]; [|reflexivity]. eexists. split; [reflexivity|].
    eexists. split; [reflexivity|]. apply wantlist_msg_rt; assumption.
  - unfold repeated. rewrite occ_app, occ_same_map.
    assert (E : occ 3 (fields (opt_e (fun w => EB 1 (wantlist_to_pb w)) (bm_wantlist m))) = []) by (destruct (bm_wantlist m); reflexivity).
    rewrite E. cbn [app]. apply rep_nested.
    assert (FF : Forall (fun l => fits (block_to_pb l)) (bm_blocks m)).
    { eapply all_fits; [exact F|]. apply incl_appr. intros x Hx. exact Hx. }
    eapply Forall_and2; [exact H2|exact FF|]. apply block_msg_rt.
Qed.

(** ** Unknown fields *)
Ltac unknown_body := intros; match goal with |- ?b _ ?n _ = _ => unfold b end;
  repeat match goal with H : ?n <> ?k |- context [?n =? ?k] => rewrite (proj2 (N.eqb_neq n k) H) end; reflexivity.
Lemma unknown_then {S A} (body : S -> N -> field_data -> outcome from_pb_error S)
    (k : S -> outcome from_pb_error A) s0 n a fa f d b :
  (forall s d, body s n d = Ok s) ->
  bytes_ok (a ++ f ++ b) -> fits (a ++ f ++ b) -> wire_message a fa -> wire_field f n d ->
  forall x, (let? s := pb_parse body (a ++ f ++ b) s0 in k s) = Ok x <->
            (let? s := pb_parse body (a ++ b) s0 in k s) = Ok x.
Proof.
  intros B H1 H2 M W x. rewrite !bind_ok. split; intros (s & P & K); exists s; (split; [|exact K]).
  - eapply insert_unknown; eauto.
  - eapply insert_unknown in P; eauto.
Qed.

(** ** Directories *)
Lemma existsb_bytes name names : existsb (bytes_eqb name) names = true <-> In name names.
Proof.
  rewrite existsb_exists. split.
  - intros (x & I & E). apply bytes_eqb_eq in E. subst. exact I.
  - intros I. exists name. split; [exact I|apply bytes_eqb_refl].
Qed.
Lemma dir_loop_ok links : forall i names es,
  dir_loop i names links = Ok es <->
  Forall2 dir_entry_of links es /\ Forall (fun e => de_name e <> [] /\ ~ In (de_name e) names) es /\
  NoDup (map de_name es).
Proof.
  induction links as [|link links IH]; intros i names es; cbn [dir_loop].
  - split.
    + intros H. injection H as <-. repeat constructor.
    + intros (H & _). inversion H. reflexivity.
  - rewrite bind_ok. split.
    + intros (name & H1 & H). rewrite bind_ok in H. destruct H as (size & H2 & H). rewrite bind_ok in H.
      destruct H as (es' & H3 & H). apply ok_inj in H. subst es.
      destruct (lk_name link) as [nm|] eqn:EN; [|discriminate].
      destruct (Nat.eqb_spec (length nm) 0) as [|NE]; [discriminate|].
      destruct (existsb (bytes_eqb nm) names) eqn:EX; [discriminate|]. injection H1 as ->.
      destruct (lk_tsize link) as [sz|] eqn:ES; [|discriminate]. injection H2 as ->.
      apply IH in H3 as (F & A & ND). split; [|split].
      * constructor; [|exact F]. unfold dir_entry_of. cbn. auto.
      * constructor.
        -- cbn [de_name]. split; [intros ->; apply NE; reflexivity|]. intros I. apply existsb_bytes in I. congruence.
        -- eapply Forall_impl; [|exact A]. cbn. intros e [N1 N2]. split; [exact N1|]. tauto.
      * cbn [map]. constructor; [|exact ND]. cbn [de_name]. intros I. apply in_map_iff in I as (e & E & I).
        rewrite Forall_forall in A. apply A in I. destruct I as [_ I]. apply I. left. symmetry. exact E.
    + intros (F & A & ND). inversion F as [|x e y es' D F']; subst. destruct D as (D1 & D2 & D3).
      inversion A as [|x y [A1 A2] A']; subst. inversion ND as [|x y N1 ND']; subst. cbn [de_name] in *.
      exists (de_name e). split.
      { rewrite D2. destruct (Nat.eqb_spec (length (de_name e)) 0) as [L|L];
          [apply length_zero_iff_nil in L; congruence|].
        destruct (existsb (bytes_eqb (de_name e)) names) eqn:EX; [apply existsb_bytes in EX; contradiction|reflexivity]. }
      rewrite bind_ok. exists (de_tsize e). split; [rewrite D3; reflexivity|]. rewrite bind_ok.
      exists es'. split; [|destruct e; cbn in *; subst; reflexivity].
      apply IH. split; [exact F'|]. split; [|exact ND'].
      rewrite Forall_forall in A' |- *. intros x Ix. destruct (A' x Ix) as [B1 B2]. split; [exact B1|].
      intros [E|I]; [|contradiction]. apply N1. cbn. rewrite E. apply in_map, Ix.
Qed.
Lemma dir_loop_not_panic links : forall i names, dir_loop i names links <> Panic.
Proof.
  induction links as [|link links IH]; intros i names; cbn [dir_loop]; [discriminate|].
  apply bind_not_panic.
  - destruct (lk_name link); [|discriminate]. destruct (_ =? _)%nat; [discriminate|]. destruct (existsb _ _); discriminate.
  - intros nm _. apply bind_not_panic; [destruct (lk_tsize link); discriminate|]. intros sz _.
    apply bind_not_panic; [apply IH|]. discriminate.
Qed.
(** [all] is the whole link list, [seen] the part already processed. *)
Lemma dir_loop_err links : forall seen names e,
  (forall n, In n names <-> exists l, In l seen /\ lk_name l = Some n) ->
  (forall j, (j < length seen)%nat -> ~ exists e, dir_offence (seen ++ links) j e) ->
  dir_loop (length seen) names links = Err e ->
  exists i, dir_offence (seen ++ links) i e /\ forall j, (j < i)%nat -> ~ exists e, dir_offence (seen ++ links) j e.
Proof.
  induction links as [|link links IH]; intros seen names e N P H; cbn [dir_loop] in H; [discriminate|].
  assert (NTH : nth_error (seen ++ link :: links) (length seen) = Some link).
  { rewrite nth_error_app2, Nat.sub_diag by lia. reflexivity. }
  assert (SEEN : forall n, In n names <-> exists j o, (j < length seen)%nat /\
      nth_error (seen ++ link :: links) j = Some o /\ lk_name o = Some n).
  { intros n. rewrite N. split.
    - intros (l & I & E). apply In_nth_error in I as (j & J). exists j, l.
      assert (j < length seen)%nat by (apply nth_error_Some; congruence).
      rewrite nth_error_app1 by assumption. auto.
    - intros (j & o & L & J & E). rewrite nth_error_app1 in J by exact L. apply nth_error_In in J. eauto. }
  assert (FIN : dir_offence (seen ++ link :: links) (length seen) e ->
      exists i, dir_offence (seen ++ link :: links) i e /\ forall j, (j < i)%nat -> ~ exists e, dir_offence (seen ++ link :: links) j e).
  { intros O. exists (length seen). auto. }
  destruct (lk_name link) as [nm|] eqn:EN; cycle 1.
  { cbn in H. injection H as <-. apply FIN. exists link. split; [exact NTH|]. left. auto. }
  destruct (Nat.eqb_spec (length nm) 0) as [L|L].
  { cbn in H. injection H as <-. apply FIN. exists link. split; [exact NTH|]. left.
    apply length_zero_iff_nil in L. subst. auto. }
  assert (NE : nm <> []) by (intros ->; apply L; reflexivity).
  destruct (existsb (bytes_eqb nm) names) eqn:EX.
  { cbn in H. injection H as <-. apply FIN. exists link. split; [exact NTH|]. right. left.
    apply existsb_bytes, SEEN in EX as (j & o & J1 & J2 & J3). exists nm. split; [exact EN|]. split; [exact NE|]. split; [|reflexivity]. exists j, o. auto. }
  assert (FRESH : forall j o, (j < length seen)%nat -> nth_error (seen ++ link :: links) j = Some o -> lk_name o <> Some nm).
  { intros j o J1 J2 J3. assert (I : In nm names) by (apply SEEN; eauto). apply existsb_bytes in I. congruence. }
  cbn [bind] in H. destruct (lk_tsize link) as [sz|] eqn:ES; cycle 1.
  { cbn in H. injection H as <-. apply FIN. exists link. split; [exact NTH|]. right. right. exists nm. auto. }
  cbn [bind] in H. destruct (dir_loop (S (length seen)) (nm :: names) links) as [es|e'|] eqn:D; [discriminate| |discriminate].
  cbn in H. injection H as <-.
  replace (seen ++ link :: links) with ((seen ++ [link]) ++ links) in * by (rewrite <- app_assoc; reflexivity).
  apply (IH (seen ++ [link]) (nm :: names)).
  - intros n. cbn [In]. rewrite N. split.
    + intros [<-|(l & I & E)]; [exists link; split; [apply in_or_app; right; left; reflexivity|exact EN]|].
      exists l. split; [apply in_or_app; auto|exact E].
    + intros (l & I & E). apply in_app_or in I as [I|[<-|[]]]; [right; eauto|left; congruence].
  - intros j. rewrite app_length. cbn [length]. intros J.
    destruct (Nat.eq_dec j (length seen)) as [->|NJ]; [|apply P; lia].
    intros (x & lk & X1 & X). rewrite NTH in X1. injection X1 as <-.
    destruct X as [([X|X] & _)|[(n & X1 & _ & (i & o & O1 & O2 & O3) & _)|(n & _ & _ & _ & X & _)]]; try congruence.
    assert (n = nm) by congruence. subst n. exact (FRESH i o O1 O2 O3).
  - rewrite app_length. cbn [length]. rewrite Nat.add_1_r. exact D.
Qed.

Ltac split_unknown H :=
  cbn [In] in H;
  repeat match type of H with ~ (?x \/ _) =>
     let H1 := fresh in assert (H1 : x) || (apply Decidable.not_or in H; destruct H as [H1 H]) end.
Lemma not_in_neqb n k l : ~ In n (k :: l) -> (n =? k) = false /\ ~ In n l.
Proof. intros H. split; [apply N.eqb_neq; intros ->; apply H; left; reflexivity|intros I; apply H; right; exact I]. Qed.
Ltac unknown_fin U :=
  repeat match type of U with ~ In _ (_ :: _) => let E := fresh "E" in apply not_in_neqb in U; destruct U as [E U]; try rewrite E end.
Ltac unknown body := intros a f b fa n d x U H1 H2 M W;
  eapply unknown_then; eauto; intros; unfold body; unknown_fin U; reflexivity.
Lemma link_unknown : ignores_unknown link_from_pb [1; 2; 3].
Proof. unknown link_body. Qed.
Lemma node_unknown : ignores_unknown node_from_pb [1; 2].
Proof.
  assert (E : forall b, node_from_pb b = (let? s := pb_parse node_body b {| nd_links := []; nd_bytes := None |} in Ok s)).
  { intros b. destruct b; [reflexivity|]. unfold node_from_pb. destruct (pb_parse _ _ _); reflexivity. }
  intros a f b fa n d x U H1 H2 M W. rewrite !E. eapply unknown_then; eauto.
  intros s d0. unfold node_body. unknown_fin U. reflexivity.
Qed.
Lemma key_unknown : ignores_unknown key_from_pb [1; 2].
Proof. unknown key_body. Qed.
Lemma private_key_unknown : ignores_unknown private_key_from_pb [1; 2].
Proof.
  intros a f b fa n d x U H1 H2 M W. unfold private_key_from_pb. rewrite !bind_ok.
  split; intros (k & P & K); exists k; (split; [|exact K]); eapply key_unknown; eauto.
Qed.
Lemma identify_unknown : ignores_unknown identify_from_pb [1; 2; 3; 4; 5; 6; 8].
Proof. unknown id_body. Qed.
Lemma entry_unknown : ignores_unknown entry_from_pb [1; 2; 3; 4; 5].
Proof. unknown entry_body. Qed.
Lemma wantlist_unknown : ignores_unknown wantlist_from_pb [1; 2].
Proof.
  assert (E : forall b, wantlist_from_pb b = (let? s := pb_parse wantlist_body b {| wl_entries := []; wl_full := false |} in Ok s)).
  { intros b. unfold wantlist_from_pb. destruct (pb_parse _ _ _); reflexivity. }
  intros a f b fa n d x U H1 H2 M W. rewrite !E. eapply unknown_then; eauto.
  intros s d0. unfold wantlist_body. unknown_fin U. reflexivity.
Qed.
Lemma block_unknown : ignores_unknown block_from_pb [1; 2].
Proof. unknown block_body. Qed.
Lemma bs_message_unknown : ignores_unknown bs_message_from_pb [1; 3].
Proof. unknown bs_body. Qed.
Lemma unix_time_unknown : ignores_unknown unix_time_from_pb [1; 2].
Proof. unknown ut_body. Qed.
Lemma fs_data_unknown : ignores_unknown fs_data_from_pb [1; 2; 3; 4; 5; 6; 7; 8].
Proof. unknown fs_body. Qed.

(** ** No parser panics or runs out of fuel *)
Lemma fine_bind {A B} (x : outcome from_pb_error A) (f : A -> outcome from_pb_error B) :
  fine x -> (forall a, x = Ok a -> fine (f a)) -> fine (bind x f).
Proof. intros [H1 H2] H. destruct x; cbn [bind]; [apply H; reflexivity|split; congruence|congruence]. Qed.
Lemma fine_ok {A} (a : A) : fine (Ok a).
Proof. split; discriminate. Qed.
Lemma fine_err {A} e : e <> POutOfFuel -> @fine A (Err e).
Proof. split; congruence. Qed.
Lemma fine_option {A} e (o : option A) : e <> POutOfFuel -> fine (of_option e o).
Proof. intros H. destruct o; split; cbn; congruence. Qed.
Lemma fine_access {A} (x : outcome field_data_error A) : x <> Panic -> fine (access x).
Proof.
  intros H. unfold access. destruct x as [a|e|]; cbn; [apply fine_ok| |congruence].
  apply fine_err. destruct e; discriminate.
Qed.
Lemma rest_good r : good r -> bytes_ok (rd_rest r) /\ fits (rd_rest r).
Proof.
  intros (G1 & G2 & G3). unfold rd_rest. split; [apply bytes_ok_skipn, G2|].
  unfold fits, blen in *. rewrite skipn_length. lia.
Qed.
Lemma pb_loop_fine {S} (body : S -> N -> field_data -> outcome from_pb_error S) fuel : forall r s,
  (forall s n d, fd_good d -> fine (body s n d)) -> good r -> (length (rd_rest r) < fuel)%nat ->
  fine (pb_loop body fuel r s).
Proof.
  induction fuel as [|fuel IH]; intros r s B G F; [lia|].
  cbn [pb_loop]. pose proof (rd_field_not_panic r G) as NP.
  destruct (rd_field r) as [[[fr r']|]| |] eqn:E; cbn [map_err bind]; try congruence;
    [|apply fine_ok|apply fine_err; discriminate].
  apply rd_field_ok in E as (f & n & d & rest & E & W & -> & ->); [|exact G].
  destruct (rest_good r G) as [R1 R2]. rewrite E in R1, R2. apply bytes_ok_app in R1 as [R1 _]. apply fits_app in R2 as [R2 _].
  cbn [mk_ref fr_number fr_data]. apply fine_bind; [apply B; eapply wire_field_good; eauto|].
  intros s' _. apply IH; [exact B| |].
  - apply good_advance; [exact G|]. eauto using rest_le.
  - rewrite (advance_rest_app r f rest E). rewrite E, app_length in F. apply wire_field_length in W. lia.
Qed.
Lemma pb_parse_fine {S} (body : S -> N -> field_data -> outcome from_pb_error S) data s :
  (forall s n d, fd_good d -> fine (body s n d)) -> bytes_ok data -> fits data -> fine (pb_parse body data s).
Proof.
  intros B H1 H2. apply pb_loop_fine; [exact B|apply reader_new_good; assumption|].
  unfold rd_rest, reader_new. cbn. lia.
Qed.
Ltac fd_fine d := apply fine_access; destruct d as [l|l|l|l]; cbn; try discriminate;
    unfold vi_to_u64, vi_to_i32, vi_to_i64, vi_to_bool, vi_to_u32, vi_to_u64;
    pose proof (decode_not_panic l) as D; destruct (decode_u64 l); cbn; congruence || discriminate.
Lemma fine_u64 d : fine (access (fd_to_uint64 d)). Proof. fd_fine d. Qed.
Lemma fine_i32 d : fine (access (fd_to_int32 d)). Proof. fd_fine d. Qed.
Lemma fine_i64 d : fine (access (fd_to_int64 d)). Proof. fd_fine d. Qed.
Lemma fine_bool d : fine (access (fd_to_bool d)). Proof. fd_fine d. Qed.
Lemma fine_u32 d : fine (access (fd_to_uint32 d)).
Proof.
  apply fine_access. destruct d as [l|l|l|l]; cbn; try discriminate. unfold vi_to_u32.
  pose proof (decode_not_panic l) as D. destruct (decode_u64 l); cbn; try congruence. destruct (_ <? _); discriminate.
Qed.
Lemma fine_fixed32 d : fine (access (fd_to_fixed32 d)).
Proof. apply fine_access. destruct d; discriminate. Qed.
Lemma fine_bytes d : fine (access (fd_to_bytes d)).
Proof. apply fine_access. destruct d; discriminate. Qed.
Lemma fine_string d : fine (access (fd_to_string d)).
Proof. apply fine_access. destruct d; cbn; try discriminate. destruct (utf8_valid _); discriminate. Qed.
Lemma fine_nested {A B} (parse : bytes -> outcome from_pb_error A) (k : A -> outcome from_pb_error B) d :
  total parse -> fd_good d -> (forall a, fine (k a)) ->
  fine (let? b := access (fd_to_bytes d) in let? a := parse b in k a).
Proof.
  intros T G K. apply fine_bind; [apply fine_bytes|]. intros b E.
  apply reads_bytes in E; [|exact G]. unfold v_bytes in E. subst d. destruct G as [G1 G2]. cbn in *.
  apply fine_bind; [apply T; assumption|]. auto.
Qed.
Lemma fine_if {A} (c : bool) (x y : outcome from_pb_error A) : fine x -> fine y -> fine (if c then x else y).
Proof. destruct c; auto. Qed.
Ltac fine_step :=
  match goal with
  | |- fine (if _ then _ else _) => apply fine_if
  | |- fine (match ?o with Some _ => _ | None => _ end) => destruct o
  | |- fine (Err _) => apply fine_err; discriminate
  | |- fine (Ok _) => apply fine_ok
  | |- fine (of_option _ _) => apply fine_option; discriminate
  | |- fine (access _) => first [apply fine_u64|apply fine_i32|apply fine_i64|apply fine_bool|apply fine_u32|apply fine_fixed32|apply fine_bytes|apply fine_string]
  | |- fine (let? b := access (fd_to_bytes _) in let? a := _ in _) => apply fine_nested; [assumption|assumption|intros ?a]
  | |- fine (let? b := _ in _) => apply fine_bind; [|intros ?a _]
  end.
Lemma link_total : total link_from_pb.
Proof.
  intros b H1 H2. unfold link_from_pb.
  assert (P : fine (pb_parse link_body b {| lv_hash := None; lv_name := None; lv_tsize := None |})).
  { apply pb_parse_fine; [|assumption..]. intros s n d G. unfold link_body. repeat fine_step. }
  apply fine_bind; [exact P|]. intros s E. apply fine_bind; [fine_step|]. intros h Hh. apply of_option_ok in Hh.
  apply pb_parse_ok in E as (fs & M & R); [|assumption..].
  pose proof (wire_message_good b fs H1 H2 M) as G. apply (link_run fs G) in R as (R & _). cbn [lv_hash] in R.
  rewrite Hh in R. destruct R as (d & O & ->). eapply occ_good in O; [|exact G]. destruct O as [O1 O2]. cbn in O1, O2.
  apply fine_bind; [|intros; apply fine_ok].
  pose proof (cid_from_bytes_not_panic h O1 O2). destruct (cid_from_bytes h); cbn; [apply fine_ok|apply fine_err; discriminate|congruence].
Qed.
Lemma node_total : total node_from_pb.
Proof.
  intros b H1 H2. unfold node_from_pb. destruct b as [|x b]; [apply fine_ok|].
  apply pb_parse_fine; [|assumption..]. pose proof link_total. intros s n d G. unfold node_body. repeat fine_step.
Qed.
Lemma fine_key_type v : fine (key_type_of v).
Proof. unfold key_type_of. repeat fine_step. Qed.
Lemma key_total : total key_from_pb.
Proof.
  intros b H1 H2. unfold key_from_pb. apply fine_bind; [|intros; repeat fine_step].
  apply pb_parse_fine; [|assumption..]. intros s n d G. unfold key_body. 
  fine_step. { fine_step; [fine_step|]. fine_step; [apply fine_key_type|fine_step]. } repeat fine_step.
Qed.
Lemma private_key_total : total private_key_from_pb.
Proof. intros b H1 H2. apply fine_bind; [apply key_total; assumption|intros; apply fine_ok]. Qed.
Lemma id_multiaddr_total : total id_multiaddr.
Proof.
  intros b H1 H2. unfold id_multiaddr. destruct (multiaddr_total b H1) as (m & ->). apply fine_ok.
Qed.
Lemma identify_total : total identify_from_pb.
Proof.
  intros b H1 H2. unfold identify_from_pb. apply fine_bind; [|intros; repeat fine_step].
  apply pb_parse_fine; [|assumption..]. pose proof key_total. pose proof id_multiaddr_total.
  intros s n d G. unfold id_body. repeat fine_step.
Qed.
Lemma entry_total : total entry_from_pb.
Proof.
  intros b H1 H2. unfold entry_from_pb. apply fine_bind; [|intros; repeat fine_step].
  apply pb_parse_fine; [|assumption..]. intros s n d G. unfold entry_body. repeat fine_step.
Qed.
Lemma wantlist_total : total wantlist_from_pb.
Proof.
  intros b H1 H2. apply pb_parse_fine; [|assumption..]. pose proof entry_total.
  intros s n d G. unfold wantlist_body. repeat fine_step.
Qed.
Lemma block_total : total block_from_pb.
Proof.
  intros b H1 H2. unfold block_from_pb. apply fine_bind; [|intros; repeat fine_step].
  apply pb_parse_fine; [|assumption..]. intros s n d G. unfold block_body. repeat fine_step.
Qed.
Lemma bs_message_total : total bs_message_from_pb.
Proof.
  intros b H1 H2. unfold bs_message_from_pb. apply fine_bind; [|intros; repeat fine_step].
  apply pb_parse_fine; [|assumption..]. pose proof wantlist_total. pose proof block_total.
  intros s n d G. unfold bs_body. repeat fine_step.
Qed.
Lemma unix_time_total : total unix_time_from_pb.
Proof.
  intros b H1 H2. unfold unix_time_from_pb. apply fine_bind; [|intros; repeat fine_step].
  apply pb_parse_fine; [|assumption..]. intros s n d G. unfold ut_body. repeat fine_step.
Qed.
Lemma fine_data_type v : fine (data_type_of v).
Proof. unfold data_type_of. repeat fine_step. Qed.
Lemma fs_data_total : total fs_data_from_pb.
Proof.
  intros b H1 H2. unfold fs_data_from_pb. apply fine_bind; [|intros; repeat fine_step].
  apply pb_parse_fine; [|assumption..]. pose proof unix_time_total. pose proof fine_data_type.
  intros s n d G. unfold fs_body. repeat (fine_step || auto).
Qed.
