(** Each message parser accepts exactly the messages of MessageSpec.v. *)
From Verif Require Import Base BaseProofs VarintModel VarintSpec VarintProofs.
From Verif Require Import ProtobufModel ProtobufSpec ProtobufProofs CidModel CidSpec CidProofs.
From Verif Require Import DagPbModel IdentifyModel BitswapModel UnixfsModel MessageSpec MessageProofs MultiaddrProofs.
Local Open Scope string_scope. Local Open Scope list_scope. Local Open Scope N_scope.
Ltac Zify.zify_post_hook ::= Z.div_mod_to_equations.

Lemma ok_inj {E A} (a b : A) : @Ok E A a = Ok b -> a = b.
Proof. congruence. Qed.
Lemma occ_good n fs d : Forall (fun f => fd_good (snd f)) fs -> occ n fs = [d] -> fd_good d.
Proof.
  intros G O. assert (I : In d (occ n fs)) by (rewrite O; left; reflexivity).
  unfold occ in I. apply in_map_iff in I as (f & <- & I). apply filter_In in I as [I _].
  rewrite Forall_forall in G. apply G, I.
Qed.
Lemma ex_and_iff {A} (P Q R : A -> Prop) :
  (forall a, P a -> (Q a <-> R a)) -> ((exists a, P a /\ Q a) <-> (exists a, P a /\ R a)).
Proof. intros H. split; intros (a & H1 & H2); exists a; split; auto; apply H; assumption. Qed.
Lemma parse_then {S A} (body : S -> N -> field_data -> outcome from_pb_error S) b s0 (k : S -> outcome from_pb_error A) a :
  bytes_ok b -> fits b ->
  ((let? s := pb_parse body b s0 in k s) = Ok a <->
   exists fs, wire_message b fs /\ exists s, run_fields body fs s0 = Ok s /\ k s = Ok a).
Proof.
  intros Hb Hf. rewrite bind_ok. split.
  - intros (s & P & K). apply pb_parse_ok in P as (fs & M & P); [|assumption..]. eauto 6.
  - intros (fs & M & s & P & K). exists s. split; [|exact K]. apply pb_parse_ok; eauto.
Qed.
Lemma up_last_some_hit {A} (val : field_data -> A -> Prop) n d fs o o' :
  up_last (some_val val) n ((n, d) :: fs) o o' <->
  exists a, val d a /\ up_last (some_val val) n fs (Some a) o'.
Proof.
  rewrite up_last_hit. split.
  - intros (x & (a & V & ->) & U). eauto.
  - intros (a & V & U). exists (Some a). split; [exists a; auto|exact U].
Qed.
Ltac inv_fin H :=
  repeat match type of H with
  | (let? _ := of_option _ _ in _) = Ok _ =>
      rewrite bind_ok in H; let x := fresh "x" in let Hx := fresh "Hx" in
      destruct H as (x & Hx & H); apply of_option_ok in Hx
  end; apply ok_inj in H; subst.
Ltac congr_slots := repeat match goal with H : ?f ?s = Some _, P : context [?f ?s] |- _ =>
   lazymatch type of P with _ = Some _ => fail | _ => rewrite H in P end end.
Ltac step_case E := apply N.eqb_eq in E; subst; skip_slots;
  repeat first [rewrite up_last_some_hit | rewrite up_one_hit | rewrite up_rep_hit | rewrite up_last_hit ].
Ltac slots_nil s s' :=
  cbn [run_fields]; rewrite ?up_one_nil, ?up_rep_nil, ?up_last_nil; destruct s, s'; cbn; split;
  [intros HH; injection HH; intros; subst; repeat split; reflexivity
  |intros HH; repeat match goal with H : _ /\ _ |- _ => destruct H end; subst; reflexivity].

Lemma link_run fs : Forall (fun f => fd_good (snd f)) fs -> forall s s',
  run_fields link_body fs s = Ok s' <->
  up_one v_bytes 1 fs (lv_hash s) (lv_hash s') /\
  up_one v_string 2 fs (lv_name s) (lv_name s') /\
  up_one v_u64 3 fs (lv_tsize s) (lv_tsize s').
Proof.
  induction 1 as [|[n d] fs G _ IH]; intros s s'; [slots_nil s s'|].
  cbn [run_fields snd] in *. rewrite bind_ok. unfold link_body at 1.
  destruct (n =? 1) eqn:E1.
  { step_case E1. destruct (lv_hash s); [apply err_step; intuition congruence|]. do_hit1 reads_bytes G IH. cbn [lv_hash lv_name lv_tsize]. slot_fin. }
  destruct (n =? 2) eqn:E2.
  { step_case E2. destruct (lv_name s); [apply err_step; intuition congruence|]. do_hit1 reads_string G IH. cbn [lv_hash lv_name lv_tsize]. slot_fin. }
  destruct (n =? 3) eqn:E3.
  { step_case E3. destruct (lv_tsize s); [apply err_step; intuition congruence|]. do_hit1 reads_u64 G IH. cbn [lv_hash lv_name lv_tsize]. slot_fin. }
  skip_slots. do_miss IH. reflexivity.
Qed.
Lemma link_from_pb_ok b l : bytes_ok b -> fits b -> (link_from_pb b = Ok l <-> link_msg b l).
Proof.
  intros Hb Hf. unfold link_from_pb, link_msg. rewrite bind_ok.
  split.
  - intros (s & P & H). apply pb_parse_ok in P as (fs & M & P); [|assumption..].
    pose proof (wire_message_good b fs Hb Hf M) as G. apply (link_run fs G) in P. cbn [lv_hash lv_name lv_tsize] in P.
    rewrite bind_ok in H. destruct H as (h & H1 & H2). apply of_option_ok in H1. rewrite bind_ok in H2.
    destruct H2 as (c & H2 & H3). apply map_err_ok in H2. apply ok_inj in H3. subst l. cbn [lk_hash lk_name lk_tsize].
    exists fs. split; [exact M|]. destruct P as (P1 & P2 & P3). rewrite H1 in P1. split; [|split; assumption].
    destruct P1 as (d & O & ->). exists (FBytes h). split; [exact O|]. exists h. split; [reflexivity|].
    eapply occ_good in O; [|exact G]. destruct O as [O1 O2]. apply cid_from_bytes_ok; assumption.
  - intros (fs & M & (d & O & h & -> & C) & P2 & P3). exists {| lv_hash := Some h; lv_name := lk_name l; lv_tsize := lk_tsize l |}.
    pose proof (wire_message_good b fs Hb Hf M) as G. split.
    + apply pb_parse_ok; [assumption..|]. exists fs. split; [exact M|]. apply (link_run fs G). cbn [lv_hash lv_name lv_tsize].
      split; [|split; assumption]. exists (FBytes h). split; [exact O|reflexivity].
    + cbn [lv_hash lv_name lv_tsize of_option bind].
      eapply occ_good in O; [|exact G]. destruct O as [O1 O2]. apply cid_from_bytes_ok in C; [|assumption..].
      rewrite C. cbn. destruct l; reflexivity.
Qed.

Lemma node_run fs : Forall (fun f => fd_good (snd f)) fs -> forall s s',
  run_fields node_body fs s = Ok s' <->
  up_rep (v_nested link_msg) 2 fs (nd_links s) (nd_links s') /\
  up_one v_bytes 1 fs (nd_bytes s) (nd_bytes s').
Proof.
  induction 1 as [|[n d] fs G _ IH]; intros s s'; [slots_nil s s'|].
  cbn [run_fields snd] in *. rewrite bind_ok. unfold node_body at 1.
  destruct (n =? 2) eqn:E2.
  { step_case E2. do_hit2 (reads_nested _ _ link_from_pb_ok) G IH. cbn [nd_links nd_bytes]. slot_fin. }
  destruct (n =? 1) eqn:E1.
  { step_case E1. destruct (nd_bytes s); [apply err_step; intuition congruence|]. do_hit1 reads_bytes G IH. cbn [nd_links nd_bytes]. slot_fin. }
  skip_slots. do_miss IH. reflexivity.
Qed.
Lemma node_from_pb_ok b l : bytes_ok b -> fits b -> (node_from_pb b = Ok l <-> node_msg b l).
Proof.
  intros Hb Hf. assert (E : node_from_pb b = pb_parse node_body b {| nd_links := []; nd_bytes := None |}).
  { destruct b; reflexivity. }
  rewrite E. etransitivity; [apply pb_parse_ok; assumption|]. unfold node_msg. apply ex_and_iff. intros fs M.
  pose proof (wire_message_good b fs Hb Hf M) as G. rewrite (node_run fs G). cbn [nd_links nd_bytes].
  rewrite up_rep_none, up_one_none. reflexivity.
Qed.

Lemma reads_key_type : reads (fun d => let? v := access (fd_to_uint64 d) in key_type_of v) v_key_type.
Proof.
  apply (reads_then _ _ _ _ reads_u64). intros d k. unfold v_key_type. split.
  - intros V. eexists. split; [exact V|]. destruct k; reflexivity.
  - intros (v & V & H). unfold key_type_of in H.
    repeat (match type of H with (if ?c then _ else _) = _ => let C := fresh "C" in destruct c eqn:C; [apply N.eqb_eq in C; subst v; injection H as <-; exact V|] end).
    discriminate H.
Qed.
Lemma key_run fs : Forall (fun f => fd_good (snd f)) fs -> forall s s',
  run_fields key_body fs s = Ok s' <->
  up_last (some_val v_key_type) 1 fs (kv_type s) (kv_type s') /\
  up_last (some_val v_bytes) 2 fs (kv_data s) (kv_data s').
Proof.
  induction 1 as [|[n d] fs G _ IH]; intros s s'; [slots_nil s s'|].
  cbn [run_fields snd] in *. rewrite bind_ok. unfold key_body at 1.
  destruct (n =? 1) eqn:E1.
  { step_case E1. do_hit2 reads_key_type G IH. cbn [kv_type kv_data]. slot_fin. }
  destruct (n =? 2) eqn:E2.
  { step_case E2. do_hit1 reads_bytes G IH. cbn [kv_type kv_data]. slot_fin. }
  skip_slots. do_miss IH. reflexivity.
Qed.
Lemma key_from_pb_ok b k : bytes_ok b -> fits b -> (key_from_pb b = Ok k <-> key_msg b k).
Proof.
  intros Hb Hf. unfold key_from_pb, key_msg. etransitivity; [apply parse_then; assumption|].
  apply ex_and_iff. intros fs M. pose proof (wire_message_good b fs Hb Hf M) as G.
  rewrite <- !up_last_some. split.
  - intros (s & P & H). apply (key_run fs G) in P. cbn [kv_type kv_data] in P. inv_fin H.
    cbn [pk_type pk_data]. congr_slots. exact P.
  - intros P. exists {| kv_type := Some (pk_type k); kv_data := Some (pk_data k) |}.
    split; [apply (key_run fs G); exact P|]. destruct k; reflexivity.
Qed.

Lemma id_multiaddr_ok b m : bytes_ok b -> fits b -> (id_multiaddr b = Ok m <-> multiaddr_wire b m).
Proof. intros Hb _. unfold id_multiaddr. rewrite map_err_ok. apply multiaddr_from_bytes_ok, Hb. Qed.
Lemma id_run fs : Forall (fun f => fd_good (snd f)) fs -> forall s s',
  run_fields id_body fs s = Ok s' <->
  up_one v_string 5 fs (iv_pv s) (iv_pv s') /\
  up_one v_string 6 fs (iv_av s) (iv_av s') /\
  up_rep v_string 3 fs (iv_protos s) (iv_protos s') /\
  up_one (v_nested key_msg) 1 fs (iv_pk s) (iv_pk s') /\
  up_rep (v_nested multiaddr_wire) 2 fs (iv_addrs s) (iv_addrs s') /\
  up_one (v_nested multiaddr_wire) 4 fs (iv_obs s) (iv_obs s') /\
  up_one v_bytes 8 fs (iv_spr s) (iv_spr s').
Proof.
  induction 1 as [|[n d] fs G _ IH]; intros s s'; [slots_nil s s'|].
  cbn [run_fields snd] in *. rewrite bind_ok. unfold id_body at 1.
  destruct (n =? 5) eqn:E5.
  { step_case E5. destruct (iv_pv s); [apply err_step; intuition congruence|]. do_hit1 reads_string G IH. cbn [iv_pv iv_av iv_protos iv_pk iv_addrs iv_obs iv_spr]. slot_fin. }
  destruct (n =? 6) eqn:E6.
  { step_case E6. destruct (iv_av s); [apply err_step; intuition congruence|]. do_hit1 reads_string G IH. cbn [iv_pv iv_av iv_protos iv_pk iv_addrs iv_obs iv_spr]. slot_fin. }
  destruct (n =? 3) eqn:E3.
  { step_case E3. do_hit1 reads_string G IH. cbn [iv_pv iv_av iv_protos iv_pk iv_addrs iv_obs iv_spr]. slot_fin. }
  destruct (n =? 1) eqn:E1.
  { step_case E1. destruct (iv_pk s); [apply err_step; intuition congruence|]. do_hit2 (reads_nested _ _ key_from_pb_ok) G IH. cbn [iv_pv iv_av iv_protos iv_pk iv_addrs iv_obs iv_spr]. slot_fin. }
  destruct (n =? 2) eqn:E2.
  { step_case E2. do_hit2 (reads_nested _ _ id_multiaddr_ok) G IH. cbn [iv_pv iv_av iv_protos iv_pk iv_addrs iv_obs iv_spr]. slot_fin. }
  destruct (n =? 4) eqn:E4.
  { step_case E4. destruct (iv_obs s); [apply err_step; intuition congruence|]. do_hit2 (reads_nested _ _ id_multiaddr_ok) G IH. cbn [iv_pv iv_av iv_protos iv_pk iv_addrs iv_obs iv_spr]. slot_fin. }
  destruct (n =? 8) eqn:E8.
  { step_case E8. destruct (iv_spr s); [apply err_step; intuition congruence|]. do_hit1 reads_bytes G IH. cbn [iv_pv iv_av iv_protos iv_pk iv_addrs iv_obs iv_spr]. slot_fin. }
  skip_slots. do_miss IH. reflexivity.
Qed.
Lemma identify_from_pb_ok b i : bytes_ok b -> fits b -> (identify_from_pb b = Ok i <-> identify_msg b i).
Proof.
  intros Hb Hf. unfold identify_from_pb, identify_msg. etransitivity; [apply parse_then; assumption|].
  apply ex_and_iff. intros fs M. pose proof (wire_message_good b fs Hb Hf M) as G.
  rewrite <- !up_one_some, <- !up_rep_none, <- !up_one_none. split.
  - intros (s & P & H). apply (id_run fs G) in P. unfold id_vars0 in P. cbn [iv_pv iv_av iv_pk iv_obs iv_addrs iv_protos iv_spr] in P. inv_fin H.
    cbn [id_protocol_version id_agent_version id_public_key id_listen_addrs id_observed_addr id_protocols id_signed_peer_record].
    congr_slots. tauto.
  - intros P. exists {| iv_pv := Some (id_protocol_version i); iv_av := Some (id_agent_version i);
        iv_pk := Some (id_public_key i); iv_obs := Some (id_observed_addr i); iv_addrs := id_listen_addrs i;
        iv_protos := id_protocols i; iv_spr := id_signed_peer_record i |}.
    split; [apply (id_run fs G); unfold id_vars0; cbn [iv_pv iv_av iv_pk iv_obs iv_addrs iv_protos iv_spr]; tauto|]. destruct i; reflexivity.
Qed.

Lemma reads_want_type : reads (fun d => let? v := access (fd_to_uint64 d) in
   (if v =? 0 then Ok WBlock else if v =? 1 then Ok WHave else Err (PPlain "Invalid want_type"))) v_want_type.
Proof.
  apply (reads_then _ _ _ _ reads_u64). intros d k. unfold v_want_type. split.
  - intros V. eexists. split; [exact V|]. destruct k; reflexivity.
  - intros (v & V & H).
    repeat (match type of H with (if ?c then _ else _) = _ => let C := fresh "C" in destruct c eqn:C; [apply N.eqb_eq in C; subst v; injection H as <-; exact V|] end).
    discriminate H.
Qed.
Lemma entry_run fs : Forall (fun f => fd_good (snd f)) fs -> forall s s',
  run_fields entry_body fs s = Ok s' <->
  up_last (some_val v_bytes) 1 fs (ev_block s) (ev_block s') /\
  up_last v_i32 2 fs (ev_priority s) (ev_priority s') /\
  up_last v_bool 3 fs (ev_cancel s) (ev_cancel s') /\
  up_last v_want_type 4 fs (ev_want_type s) (ev_want_type s') /\
  up_last v_bool 5 fs (ev_send_dont_have s) (ev_send_dont_have s').
Proof.
  induction 1 as [|[n d] fs G _ IH]; intros s s'; [slots_nil s s'|].
  cbn [run_fields snd] in *. rewrite bind_ok. unfold entry_body at 1.
  destruct (n =? 1) eqn:E1.
  { step_case E1. do_hit1 reads_bytes G IH. cbn [ev_block ev_priority ev_cancel ev_want_type ev_send_dont_have]. slot_fin. }
  destruct (n =? 2) eqn:E2.
  { step_case E2. do_hit1 reads_i32 G IH. cbn [ev_block ev_priority ev_cancel ev_want_type ev_send_dont_have]. slot_fin. }
  destruct (n =? 3) eqn:E3.
  { step_case E3. do_hit1 reads_bool G IH. cbn [ev_block ev_priority ev_cancel ev_want_type ev_send_dont_have]. slot_fin. }
  destruct (n =? 4) eqn:E4.
  { step_case E4. do_hit2 reads_want_type G IH. cbn [ev_block ev_priority ev_cancel ev_want_type ev_send_dont_have]. slot_fin. }
  destruct (n =? 5) eqn:E5.
  { step_case E5. do_hit1 reads_bool G IH. cbn [ev_block ev_priority ev_cancel ev_want_type ev_send_dont_have]. slot_fin. }
  skip_slots. do_miss IH. reflexivity.
Qed.
Lemma entry_from_pb_ok b e : bytes_ok b -> fits b -> (entry_from_pb b = Ok e <-> entry_msg b e).
Proof.
  intros Hb Hf. unfold entry_from_pb, entry_msg. etransitivity; [apply parse_then; assumption|].
  apply ex_and_iff. intros fs M. pose proof (wire_message_good b fs Hb Hf M) as G.
  rewrite <- !up_last_some. split.
  - intros (s & P & H). apply (entry_run fs G) in P. unfold entry_vars0 in P. cbn [ev_block ev_priority ev_cancel ev_want_type ev_send_dont_have] in P. inv_fin H.
    cbn [en_block en_priority en_cancel en_want_type en_send_dont_have]. congr_slots. exact P.
  - intros P. exists {| ev_block := Some (en_block e); ev_priority := en_priority e; ev_cancel := en_cancel e;
       ev_want_type := en_want_type e; ev_send_dont_have := en_send_dont_have e |}.
    split; [apply (entry_run fs G); exact P|]. destruct e; reflexivity.
Qed.

Lemma wantlist_run fs : Forall (fun f => fd_good (snd f)) fs -> forall s s',
  run_fields wantlist_body fs s = Ok s' <->
  up_rep (v_nested entry_msg) 1 fs (wl_entries s) (wl_entries s') /\
  up_last v_bool 2 fs (wl_full s) (wl_full s').
Proof.
  induction 1 as [|[n d] fs G _ IH]; intros s s'; [slots_nil s s'|].
  cbn [run_fields snd] in *. rewrite bind_ok. unfold wantlist_body at 1.
  destruct (n =? 1) eqn:E1.
  { step_case E1. do_hit2 (reads_nested _ _ entry_from_pb_ok) G IH. cbn [wl_entries wl_full]. slot_fin. }
  destruct (n =? 2) eqn:E2.
  { step_case E2. do_hit1 reads_bool G IH. cbn [wl_entries wl_full]. slot_fin. }
  skip_slots. do_miss IH. reflexivity.
Qed.
Lemma wantlist_from_pb_ok b w : bytes_ok b -> fits b -> (wantlist_from_pb b = Ok w <-> wantlist_msg b w).
Proof.
  intros Hb Hf. unfold wantlist_from_pb. etransitivity; [apply pb_parse_ok; assumption|].
  unfold wantlist_msg. apply ex_and_iff. intros fs M. pose proof (wire_message_good b fs Hb Hf M) as G.
  rewrite (wantlist_run fs G). cbn [wl_entries wl_full]. rewrite up_rep_none. reflexivity.
Qed.

Lemma block_run fs : Forall (fun f => fd_good (snd f)) fs -> forall s s',
  run_fields block_body fs s = Ok s' <->
  up_one v_bytes 1 fs (bv_prefix s) (bv_prefix s') /\
  up_one v_bytes 2 fs (bv_data s) (bv_data s').
Proof.
  induction 1 as [|[n d] fs G _ IH]; intros s s'; [slots_nil s s'|].
  cbn [run_fields snd] in *. rewrite bind_ok. unfold block_body at 1.
  destruct (n =? 1) eqn:E1.
  { step_case E1. destruct (bv_prefix s); [apply err_step; intuition congruence|]. do_hit1 reads_bytes G IH. cbn [bv_prefix bv_data]. slot_fin. }
  destruct (n =? 2) eqn:E2.
  { step_case E2. destruct (bv_data s); [apply err_step; intuition congruence|]. do_hit1 reads_bytes G IH. cbn [bv_prefix bv_data]. slot_fin. }
  skip_slots. do_miss IH. reflexivity.
Qed.
Lemma block_from_pb_ok b e : bytes_ok b -> fits b -> (block_from_pb b = Ok e <-> block_msg b e).
Proof.
  intros Hb Hf. unfold block_from_pb, block_msg. etransitivity; [apply parse_then; assumption|].
  apply ex_and_iff. intros fs M. pose proof (wire_message_good b fs Hb Hf M) as G.
  rewrite <- !up_one_some. split.
  - intros (s & P & H). apply (block_run fs G) in P. cbn [bv_prefix bv_data] in P. inv_fin H.
    cbn [bl_prefix bl_data]. congr_slots. exact P.
  - intros P. exists {| bv_prefix := Some (bl_prefix e); bv_data := Some (bl_data e) |}.
    split; [apply (block_run fs G); exact P|]. destruct e; reflexivity.
Qed.

Lemma bs_run fs : Forall (fun f => fd_good (snd f)) fs -> forall s s',
  run_fields bs_body fs s = Ok s' <->
  up_one (v_nested wantlist_msg) 1 fs (mv_wantlist s) (mv_wantlist s') /\
  up_rep (v_nested block_msg) 3 fs (mv_blocks s) (mv_blocks s').
Proof.
  induction 1 as [|[n d] fs G _ IH]; intros s s'; [slots_nil s s'|].
  cbn [run_fields snd] in *. rewrite bind_ok. unfold bs_body at 1.
  destruct (n =? 1) eqn:E1.
  { step_case E1. destruct (mv_wantlist s); [apply err_step; intuition congruence|]. do_hit2 (reads_nested _ _ wantlist_from_pb_ok) G IH. cbn [mv_wantlist mv_blocks]. slot_fin. }
  destruct (n =? 3) eqn:E3.
  { step_case E3. do_hit2 (reads_nested _ _ block_from_pb_ok) G IH. cbn [mv_wantlist mv_blocks]. slot_fin. }
  skip_slots. do_miss IH. reflexivity.
Qed.
Lemma bs_message_from_pb_ok b m : bytes_ok b -> fits b -> (bs_message_from_pb b = Ok m <-> bs_message_msg b m).
Proof.
  intros Hb Hf. unfold bs_message_from_pb, bs_message_msg. etransitivity; [apply parse_then; assumption|].
  apply ex_and_iff. intros fs M. pose proof (wire_message_good b fs Hb Hf M) as G.
  rewrite <- !up_rep_none, <- !up_one_none. split.
  - intros (s & P & H). apply (bs_run fs G) in P. cbn [mv_wantlist mv_blocks] in P. inv_fin H.
    cbn [bm_wantlist bm_blocks bm_payload bm_block_presence bm_pending_bytes]. tauto.
  - intros (P1 & P2 & P3 & P4 & P5). exists {| mv_wantlist := bm_wantlist m; mv_blocks := bm_blocks m |}.
    split; [apply (bs_run fs G); split; assumption|]. destruct m; cbn in *; subst; reflexivity.
Qed.

Lemma ut_run fs : Forall (fun f => fd_good (snd f)) fs -> forall s s',
  run_fields ut_body fs s = Ok s' <->
  up_one v_i64 1 fs (uv_seconds s) (uv_seconds s') /\
  up_one v_fixed32 2 fs (uv_nanos s) (uv_nanos s').
Proof.
  induction 1 as [|[n d] fs G _ IH]; intros s s'; [slots_nil s s'|].
  cbn [run_fields snd] in *. rewrite bind_ok. unfold ut_body at 1.
  destruct (n =? 1) eqn:E1.
  { step_case E1. destruct (uv_seconds s); [apply err_step; intuition congruence|]. do_hit1 reads_i64 G IH. cbn [uv_seconds uv_nanos]. slot_fin. }
  destruct (n =? 2) eqn:E2.
  { step_case E2. destruct (uv_nanos s); [apply err_step; intuition congruence|]. do_hit1 reads_fixed32 G IH. cbn [uv_seconds uv_nanos]. slot_fin. }
  skip_slots. do_miss IH. reflexivity.
Qed.
Lemma unix_time_from_pb_ok b e : bytes_ok b -> fits b -> (unix_time_from_pb b = Ok e <-> unix_time_msg b e).
Proof.
  intros Hb Hf. unfold unix_time_from_pb, unix_time_msg. etransitivity; [apply parse_then; assumption|].
  apply ex_and_iff. intros fs M. pose proof (wire_message_good b fs Hb Hf M) as G.
  rewrite <- !up_one_some, <- !up_one_none. split.
  - intros (s & P & H). apply (ut_run fs G) in P. cbn [uv_seconds uv_nanos] in P. inv_fin H.
    cbn [ut_seconds ut_nanos]. congr_slots. exact P.
  - intros P. exists {| uv_seconds := Some (ut_seconds e); uv_nanos := ut_nanos e |}.
    split; [apply (ut_run fs G); exact P|]. destruct e; reflexivity.
Qed.

Lemma reads_data_type : reads (fun d => let? v := access (fd_to_uint64 d) in data_type_of v) v_data_type.
Proof.
  apply (reads_then _ _ _ _ reads_u64). intros d k. unfold v_data_type. split.
  - intros V. eexists. split; [exact V|]. destruct k; reflexivity.
  - intros (v & V & H). unfold data_type_of in H.
    repeat (match type of H with (if ?c then _ else _) = _ => let C := fresh "C" in destruct c eqn:C; [apply N.eqb_eq in C; subst v; injection H as <-; exact V|] end).
    discriminate H.
Qed.
Lemma fs_run fs : Forall (fun f => fd_good (snd f)) fs -> forall s s',
  run_fields fs_body fs s = Ok s' <->
  up_one v_data_type 1 fs (fv_type s) (fv_type s') /\
  up_one v_bytes 2 fs (fv_bytes s) (fv_bytes s') /\
  up_one v_u64 3 fs (fv_filesize s) (fv_filesize s') /\
  up_rep v_u64 4 fs (fv_blocksizes s) (fv_blocksizes s') /\
  up_one v_u64 5 fs (fv_hash_type s) (fv_hash_type s') /\
  up_one v_u64 6 fs (fv_fanout s) (fv_fanout s') /\
  up_one v_u32 7 fs (fv_mode s) (fv_mode s') /\
  up_one (v_nested unix_time_msg) 8 fs (fv_mtime s) (fv_mtime s').
Proof.
  induction 1 as [|[n d] fs G _ IH]; intros s s'; [slots_nil s s'|].
  cbn [run_fields snd] in *. rewrite bind_ok. unfold fs_body at 1.
  destruct (n =? 1) eqn:E1.
  { step_case E1. destruct (fv_type s); [apply err_step; intuition congruence|]. do_hit2 reads_data_type G IH. cbn [fv_type fv_bytes fv_filesize fv_blocksizes fv_hash_type fv_fanout fv_mode fv_mtime]. slot_fin. }
  destruct (n =? 2) eqn:E2.
  { step_case E2. destruct (fv_bytes s); [apply err_step; intuition congruence|]. do_hit1 reads_bytes G IH. cbn [fv_type fv_bytes fv_filesize fv_blocksizes fv_hash_type fv_fanout fv_mode fv_mtime]. slot_fin. }
  destruct (n =? 3) eqn:E3.
  { step_case E3. destruct (fv_filesize s); [apply err_step; intuition congruence|]. do_hit1 reads_u64 G IH. cbn [fv_type fv_bytes fv_filesize fv_blocksizes fv_hash_type fv_fanout fv_mode fv_mtime]. slot_fin. }
  destruct (n =? 4) eqn:E4.
  { step_case E4. do_hit1 reads_u64 G IH. cbn [fv_type fv_bytes fv_filesize fv_blocksizes fv_hash_type fv_fanout fv_mode fv_mtime]. slot_fin. }
  destruct (n =? 5) eqn:E5.
  { step_case E5. destruct (fv_hash_type s); [apply err_step; intuition congruence|]. do_hit1 reads_u64 G IH. cbn [fv_type fv_bytes fv_filesize fv_blocksizes fv_hash_type fv_fanout fv_mode fv_mtime]. slot_fin. }
  destruct (n =? 6) eqn:E6.
  { step_case E6. destruct (fv_fanout s); [apply err_step; intuition congruence|]. do_hit1 reads_u64 G IH. cbn [fv_type fv_bytes fv_filesize fv_blocksizes fv_hash_type fv_fanout fv_mode fv_mtime]. slot_fin. }
  destruct (n =? 7) eqn:E7.
  { step_case E7. destruct (fv_mode s); [apply err_step; intuition congruence|]. do_hit1 reads_u32 G IH. cbn [fv_type fv_bytes fv_filesize fv_blocksizes fv_hash_type fv_fanout fv_mode fv_mtime]. slot_fin. }
  destruct (n =? 8) eqn:E8.
  { step_case E8. destruct (fv_mtime s); [apply err_step; intuition congruence|]. do_hit2 (reads_nested _ _ unix_time_from_pb_ok) G IH. cbn [fv_type fv_bytes fv_filesize fv_blocksizes fv_hash_type fv_fanout fv_mode fv_mtime]. slot_fin. }
  skip_slots. do_miss IH. reflexivity.
Qed.
Lemma fs_data_from_pb_ok b e : bytes_ok b -> fits b -> (fs_data_from_pb b = Ok e <-> fs_data_msg b e).
Proof.
  intros Hb Hf. unfold fs_data_from_pb, fs_data_msg. etransitivity; [apply parse_then; assumption|].
  apply ex_and_iff. intros fs M. pose proof (wire_message_good b fs Hb Hf M) as G.
  rewrite <- !up_rep_none, <- !up_one_some, <- !up_one_none. split.
  - intros (s & P & H). apply (fs_run fs G) in P. unfold fs_vars0 in P.
    cbn [fv_type fv_bytes fv_filesize fv_blocksizes fv_hash_type fv_fanout fv_mode fv_mtime] in P. inv_fin H.
    cbn [fd_type fd_bytes fd_filesize fd_blocksizes fd_hash_type fd_fanout fd_mode fd_mtime]. congr_slots. exact P.
  - intros P. exists {| fv_type := Some (fd_type e); fv_bytes := fd_bytes e; fv_filesize := fd_filesize e;
      fv_blocksizes := fd_blocksizes e; fv_hash_type := fd_hash_type e; fv_fanout := fd_fanout e;
      fv_mode := fd_mode e; fv_mtime := fd_mtime e |}.
    split; [apply (fs_run fs G); exact P|]. destruct e; reflexivity.
Qed.

