(** C99 and C100: the identify and bitswap handlers. *)
From Verif Require Import Base BaseProofs VarintModel VarintSpec VarintProofs MplexModel ProtobufModel ProtobufSpec ProtobufProofs CidModel CidSpec CidProofs CidTextModel CidTextSpec CidTextProofs CidProps MultibaseModel MultibaseProofs MultibaseProofs2 MultibaseProofs3 MultibaseProofs4.
From Verif Require Import IdentifyModel BitswapModel BlockModel DagPbModel UnixfsModel MessageSpec MessageProofs MessageProofs2 MessageProofs3 MessageProofs4 MessageProps.
From Verif Require Import LpioModel LpioSpec LpioProofs LpioProps HandlerModel.
Local Open Scope string_scope. Local Open Scope list_scope. Local Open Scope N_scope.

(** ** C99 *)
Lemma str_ok_ascii s : bytes_ok (ascii_bytes s) -> utf8_valid (ascii_bytes s) = true -> str_ok (ascii_bytes s).
Proof. intros H K. split; assumption. Qed.
Lemma handler_identify_ok key : bytes_ok key -> identify_ok (handler_identify key).
Proof.
  intros K. unfold identify_ok, handler_identify.
  cbn [id_protocol_version id_agent_version id_public_key id_listen_addrs id_observed_addr id_protocols id_signed_peer_record].
  assert (S : forall s, forallb (fun b => b <? 256) (ascii_bytes s) = true -> utf8_valid (ascii_bytes s) = true -> str_ok (ascii_bytes s)).
  { intros s H U. split; [|exact U]. apply Forall_forall. intros x X. rewrite forallb_forall in H. apply H in X. apply N.ltb_lt, X. }
  split; [apply S; vm_compute; reflexivity|]. split; [apply S; vm_compute; reflexivity|]. split; [exact K|].
  assert (Ip : addr_ok (AIP4 [127; 0; 0; 1])) by (split; [repeat constructor|reflexivity]).
  split; [repeat constructor; exact Ip || (cbn; lia)|]. split; [repeat constructor; exact Ip || (cbn; lia)|].
  split; [|exact Logic.I]. constructor; [apply S; vm_compute; reflexivity|]. constructor; [apply S; vm_compute; reflexivity|constructor].
Qed.
Lemma handler_identify_fits key : length key = 32%nat -> fits (identify_to_pb (handler_identify key)).
Proof.
  intros L. do 32 (destruct key as [|? key]; [discriminate|]). destruct key; [|discriminate].
  assert (X : forall b : bytes, (length b <=? 200)%nat = true -> fits b) by (intros b H; unfold fits, blen, two64; apply Nat.leb_le in H; lia).
  apply X. vm_compute. reflexivity.
Qed.
(** C99: whoever reads the reply of the identify handler, in any pieces, finds one message
    and then the end, and the message says the node's key and the node's protocols. *)
Theorem C99_identify_reply key src : bytes_ok key -> length key = 32%nat -> carries src (identify_handler key) ->
  exists m i, read_all 2 src = ([m], Some (Ok tt)) /\ identify_from_pb m = Ok i /\
    id_public_key i = {| pk_type := KEd25519; pk_data := key |} /\
    id_protocols i = [ascii_bytes "/ipfs/id/1.0.0"; ascii_bytes "/ipfs/bitswap/1.2.0"] /\
    id_protocol_version i = ascii_bytes "ipfs/0.1.0" /\ id_agent_version i = ascii_bytes "test/0.0.0" /\ id_signed_peer_record i = None.
Proof.
  intros K L C. exists (identify_to_pb (handler_identify key)), (handler_identify key).
  pose proof (handler_identify_fits key L) as F. split.
  - apply C42_messages_round_trip; [constructor; [exact F|constructor]| |cbn; lia].
    unfold identify_handler in C. unfold frames. cbn [map concat]. rewrite app_nil_r. exact C.
  - split; [apply C10_identify_round_trip; [apply handler_identify_ok, K|exact F]|]. repeat split.
Qed.
Print Assumptions C99_identify_reply.
(** C99: two nodes with different keys do not give the same reply. *)
Theorem C99_key_is_told k1 k2 : bytes_ok k1 -> bytes_ok k2 -> length k1 = 32%nat -> length k2 = 32%nat ->
  identify_handler k1 = identify_handler k2 -> k1 = k2.
Proof.
  intros B1 B2 L1 L2 E.
  assert (A : forall k, carries (map Byte k) k).
  { intros k. split; [apply Forall_forall; intros x X; apply in_map_iff in X; destruct X as (? & <- & _); exact Logic.I|].
    unfold bytes_of. induction k as [|x k IH]; [reflexivity|]. cbn [map flat_map app]. rewrite IH. reflexivity. }
  destruct (C99_identify_reply k1 (map Byte (identify_handler k1)) B1 L1 (A _)) as (m1 & i1 & R1 & P1 & K1 & _).
  pose proof (A (identify_handler k1)) as C2. rewrite E in C2 at 2.
  destruct (C99_identify_reply k2 (map Byte (identify_handler k1)) B2 L2 C2) as (m2 & i2 & R2 & P2 & K2 & _).
  assert (m2 = m1) as -> by congruence. assert (i2 = i1) as -> by congruence. congruence.
Qed.
Print Assumptions C99_key_is_told.
(** C99: the protocols in the reply are exactly those the node serves. *)
Theorem C99_protocols_are_served key p :
  In p (id_protocols (handler_identify key)) <-> exists h, registry_lookup node_services (p ++ [10]) = Some h.
Proof.
  cbn [handler_identify id_protocols]. unfold node_services, registry_add. cbn [app registry_lookup svc_bname svc_handler In].
  split.
  - intros [<-|[<-|[]]]; eexists; vm_compute; reflexivity.
  - intros (h & H).
    destruct (bytes_eqb (ascii_bytes "/ipfs/id/1.0.0" ++ [10]) (p ++ [10])) eqn:E1.
    { apply bytes_eqb_eq, app_inj_tail in E1. left. apply E1. }
    destruct (bytes_eqb (ascii_bytes "/ipfs/bitswap/1.2.0" ++ [10]) (p ++ [10])) eqn:E2; [|discriminate].
    apply bytes_eqb_eq, app_inj_tail in E2. right. left. apply E2.
Qed.
Print Assumptions C99_protocols_are_served.
(** C99, refuted in part: the observed address is not the address of the peer and the listen
    address is not where the node listens; both are fixed. *)
Theorem C99_addresses_refuted (peer listening : list addr) :
  peer <> [AIP4 [127; 0; 0; 1]; ATCP 4004] -> listening <> [AIP4 [127; 0; 0; 1]; ATCP 4001] ->
  forall key src, bytes_ok key -> length key = 32%nat -> carries src (identify_handler key) ->
  exists m i, read_all 2 src = ([m], Some (Ok tt)) /\ identify_from_pb m = Ok i /\
    id_observed_addr i <> peer /\ ~ In listening (id_listen_addrs i).
Proof.
  intros P Q key src K L C. pose proof (handler_identify_fits key L) as F.
  exists (identify_to_pb (handler_identify key)), (handler_identify key). split.
  - apply C42_messages_round_trip; [constructor; [exact F|constructor]| |cbn; lia].
    unfold identify_handler in C. unfold frames. cbn [map concat]. rewrite app_nil_r. exact C.
  - split; [apply C10_identify_round_trip; [apply handler_identify_ok, K|exact F]|].
    split; [cbn; congruence|]. cbn [handler_identify id_listen_addrs In]. intros [X|[]]. apply Q. symmetry. exact X.
Qed.
Print Assumptions C99_addresses_refuted.
Example C99_example : exists m, read_all 2 (map Byte (identify_handler (repeat 7 32))) = ([m], Some (Ok tt)) /\
  identify_from_pb m = Ok (handler_identify (repeat 7 32)) /\ length m = 119%nat.
Proof. eexists. split; [vm_compute; reflexivity|]. split; vm_compute; reflexivity. Qed.

(** ** The bitswap handler *)
Definition dir_msg (data : bytes) (es : list dir_entry) : Prop :=
  exists node inner u, node_msg data node /\ nd_bytes node = Some inner /\ fs_data_msg inner u /\
    fd_type u = TDirectory /\ Forall2 dir_entry_of (nd_links node) es /\
    Forall (fun e => de_name e <> []) es /\ NoDup (map de_name es).
Definition good_block (b : block) : Prop := bytes_ok (bl_prefix b) /\ bytes_ok (bl_data b) /\ fits (bl_prefix b) /\ fits (bl_data b).
Lemma message_blocks m x : bytes_ok m -> fits m -> bs_message_msg m x -> Forall good_block (bm_blocks x).
Proof.
  intros B F (fs & M & _ & R & _). pose proof (wire_message_good m fs B F M) as G. unfold repeated in R.
  assert (O : Forall fd_good (occ 3 fs)).
  { unfold occ. apply Forall_forall. intros d X. apply in_map_iff in X. destruct X as (f & <- & X). apply filter_In in X.
    rewrite Forall_forall in G. apply G, X. }
  induction R as [|d b ds bs V R IH]; [constructor|]. inversion O as [|? ? O1 O2]; subst. constructor; [|apply IH, O2].
  destruct V as (y & -> & (fs' & M' & (d1 & E1 & V1) & (d2 & E2 & V2))). destruct O1 as [O1 O1']. cbn [fd_payload] in O1, O1'.
  pose proof (wire_message_good y fs' O1 O1' M') as G'. pose proof (occ_good _ _ _ G' E1) as H1. pose proof (occ_good _ _ _ G' E2) as H2.
  unfold v_bytes in *. subst d1 d2. split; [apply H1|]. split; [apply H2|]. split; [apply H1|apply H2].
Qed.
Lemma starts_parts data m rest : bytes_ok data -> fits data -> starts_with data m rest ->
  bytes_ok m /\ fits m /\ bytes_ok rest /\ fits rest /\ (length rest < length data)%nat.
Proof.
  intros B F (l & -> & W & _). apply bytes_ok_app in B. destruct B as [_ B]. apply bytes_ok_app in B. destruct B as [B1 B2].
  apply fits_app in F. destruct F as [_ F]. pose proof (fits_app _ _ F) as [F1 F2]. split; [exact B1|]. split; [exact F1|]. split; [exact B2|]. split; [exact F2|].
  destruct W as (i & y & -> & _). rewrite !app_length. cbn [length]. lia.
Qed.
Lemma inner_good b node data : bytes_ok b -> fits b -> node_from_pb b = Ok node -> nd_bytes node = Some data -> bytes_ok data /\ fits data.
Proof.
  intros B F N E. apply node_from_pb_ok in N; [|assumption..]. destruct N as (fs & M & _ & A). unfold at_most_one in A. rewrite E in A.
  destruct A as (d & O & V). pose proof (occ_good 1 fs d (wire_message_good b fs B F M) O) as G. unfold v_bytes in V. subst d. exact G.
Qed.
Section Spec.
Context (sha256 blake2b256 : bytes -> bytes).
(** The CID of a received block: version, codec and hash function from the prefix that came
    with it, and the hash of the data. *)
Definition block_cid (b : block) (c : cid) : Prop :=
  exists size lc lh ls rest,
    bl_prefix b = (match cid_ver c with CIDv0 => 0 | CIDv1 => 1 end) :: lc ++ lh ++ ls ++ rest /\
    is_varint lc (codec_num (cid_codec c)) /\ is_varint lh (hash_num (cid_hash_type c)) /\ is_varint ls size /\
    codec_ok (cid_codec c) /\
    ((cid_hash_type c = HSha2256 /\ cid_hash c = sha256 (bl_data b)) \/
     (cid_hash_type c = HBlake2b256 /\ cid_hash c = blake2b256 (bl_data b))).
(** What some blocks show: each one its CID and its entries, up to the first one that is not
    a directory with a CID; [true] when there is none. *)
Inductive shows : list block -> list bs_line -> bool -> Prop :=
| sh_end : shows [] [] true
| sh_good b bs c es l r : block_cid b c -> dir_msg (bl_data b) es -> shows bs l r -> shows (b :: bs) (LCid c :: LDirectory es :: l) r
| sh_not_dir b bs c : block_cid b c -> (forall es, ~ dir_msg (bl_data b) es) -> shows (b :: bs) [LCid c] false
| sh_no_cid b bs : (forall c, ~ block_cid b c) -> shows (b :: bs) [] false.
(** What a stream of bytes shows; [true] when the handler ends without an error; and the
    bytes that are left unread. *)
Inductive session : bytes -> list bs_line -> bool -> bytes -> Prop :=
| se_end : session [] [LClosed] true []
| se_broken data rest : data <> [] -> (forall m rest, ~ starts_with data m rest) -> session data [] false rest
| se_undecodable data m rest e : starts_with data m rest -> (forall x, ~ bs_message_msg m x) -> session data [LBadMessage e] true rest
| se_message data m rest x same l l' r left_over : starts_with data m rest -> bs_message_msg m x -> (same = true <-> bs_message_to_pb x = m) ->
    shows (bm_blocks x) l true -> session rest l' r left_over -> session data (LSame same :: l ++ l') r left_over
| se_stop data m rest x same l : starts_with data m rest -> bs_message_msg m x -> (same = true <-> bs_message_to_pb x = m) ->
    shows (bm_blocks x) l false -> session data (LSame same :: l) false rest.

Lemma block_cid_iff b c : bytes_ok (bl_prefix b) ->
  (block_cid b c <-> exists p, cid_prefix_from_bytes (bl_prefix b) = Ok p /\ get_block_cid sha256 blake2b256 p (bl_data b) = Ok c).
Proof.
  intros B. split.
  - intros (size & lc & lh & ls & rest & E & V1 & V2 & V3 & K & H).
    exists {| cp_ver := cid_ver c; cp_codec := cid_codec c; cp_hash_type := cid_hash_type c; cp_hash_size := size |}. split.
    + apply cid_prefix_ok; [exact B|]. exists (match cid_ver c with CIDv0 => 0 | CIDv1 => 1 end), lc, lh, ls, rest.
      cbn [cp_ver cp_codec cp_hash_type cp_hash_size]. split; [exact E|]. split; [reflexivity|]. split; [exact V1|]. split; [exact V2|].
      split; [exact V3|]. split; [exact K|]. destruct H as [[-> _]|[-> _]]; exact Logic.I.
    + apply C27_block_cid. cbn [cp_ver cp_codec cp_hash_type]. split; [reflexivity|]. split; [reflexivity|]. split; [reflexivity|exact H].
  - intros (p & P & G). apply cid_prefix_ok in P; [|exact B]. destruct P as (v & lc & lh & ls & rest & E & Ev & V1 & V2 & V3 & K1 & K2).
    apply C27_block_cid in G. destruct G as (G1 & G2 & G3 & G4). exists (cp_hash_size p), lc, lh, ls, rest.
    rewrite G1, G2, G3, <- Ev. split; [exact E|]. split; [exact V1|]. split; [exact V2|]. split; [exact V3|]. split; [exact K1|exact G4].
Qed.
Lemma get_block_cid_not_panic p d : get_block_cid sha256 blake2b256 p d <> Panic.
Proof. unfold get_block_cid. destruct (cp_hash_type p); discriminate. Qed.
Definition dir_part (data : bytes) : outcome bs_error (list dir_entry) :=
  let? node := map_err BPb (node_from_pb data) in
  let? _ := (match nd_bytes node with
             | None => Ok tt
             | Some data => let? _ := map_err BPb (fs_data_from_pb data) in Ok tt
             end) in
  map_err BFs (fs_node_from_dagpb data).
Lemma dir_part_iff data es : bytes_ok data -> fits data -> (dir_part data = Ok es <-> dir_msg data es).
Proof.
  intros B F. unfold dir_msg. rewrite <- C12_directory_exact by assumption. unfold dir_part, fs_node_from_dagpb.
  destruct (node_from_pb data) as [node|e|]; cbn [bind map_err]; [|split; discriminate..].
  destruct (nd_bytes node) as [inner|]; cbn [bind map_err of_option]; [|split; discriminate].
  destruct (fs_data_from_pb inner) as [u|e|]; cbn [bind map_err]; [|split; discriminate..].
  rewrite map_err_ok. reflexivity.
Qed.
Lemma dir_part_not_panic data : bytes_ok data -> fits data -> dir_part data <> Panic.
Proof.
  intros B F. pose proof (C12_directory_total data B F) as T. unfold dir_part, fs_node_from_dagpb in *.
  destruct (node_from_pb data) as [node|e|] eqn:N; cbn [bind map_err] in *; try discriminate; [|congruence].
  destruct (nd_bytes node) as [inner|] eqn:E; cbn [bind map_err of_option] in *; [|discriminate].
  destruct (fs_data_from_pb inner) as [u|e|]; cbn [bind map_err] in *; try discriminate; [|congruence].
  destruct (fd_type u); cbn [map_err]; try discriminate. destruct (dir_from_dagpb node); cbn [map_err]; congruence.
Qed.
Lemma handle_block_cases b : good_block b ->
  (exists c es, handle_block sha256 blake2b256 b = ([LCid c; LDirectory es], Ok tt) /\ block_cid b c /\ dir_msg (bl_data b) es) \/
  (exists c e, handle_block sha256 blake2b256 b = ([LCid c], Err e) /\ block_cid b c /\ forall es, ~ dir_msg (bl_data b) es) \/
  (exists e, handle_block sha256 blake2b256 b = ([], Err e) /\ forall c, ~ block_cid b c).
Proof.
  intros (B1 & B2 & F1 & F2). unfold handle_block. fold (dir_part (bl_data b)).
  pose proof (proj2 (proj2 (C26_cid_parse_total _ B1 F1))) as T.
  destruct (cid_prefix_from_bytes (bl_prefix b)) as [p|e|] eqn:P; cbn [map_err]; [| |congruence].
  2:{ right. right. eexists. split; [reflexivity|]. intros c X. apply block_cid_iff in X; [|exact B1]. destruct X as (p & X & _). congruence. }
  pose proof (get_block_cid_not_panic p (bl_data b)) as G.
  destruct (get_block_cid sha256 blake2b256 p (bl_data b)) as [c|e|] eqn:Q; cbn [map_err]; [| |congruence].
  2:{ right. right. eexists. split; [reflexivity|]. intros c X. apply block_cid_iff in X; [|exact B1]. destruct X as (q & X & Y). congruence. }
  assert (C : block_cid b c) by (apply block_cid_iff; [exact B1|eauto]).
  pose proof (dir_part_not_panic _ B2 F2) as D. destruct (dir_part (bl_data b)) as [es|e|] eqn:W; [| |congruence].
  - left. exists c, es. split; [reflexivity|]. split; [exact C|]. apply dir_part_iff; assumption.
  - right. left. exists c, e. split; [reflexivity|]. split; [exact C|]. intros es X. apply dir_part_iff in X; [congruence|assumption..].
Qed.
Lemma handle_blocks_spec bs : Forall good_block bs ->
  exists l r, handle_blocks sha256 blake2b256 bs = (l, r) /\ r <> Panic /\ shows bs l (match r with Ok _ => true | _ => false end).
Proof.
  induction 1 as [|b bs G _ IH]; cbn [handle_blocks]; [exists [], (Ok tt); split; [reflexivity|]; split; [discriminate|constructor]|].
  destruct (handle_block_cases b G) as [(c & es & -> & C & D)|[(c & e & -> & C & D)|(e & -> & C)]].
  - destruct IH as (l & r & -> & P & S). eexists _, _. split; [reflexivity|]. split; [exact P|]. cbn [app]. apply sh_good; assumption.
  - eexists _, _. split; [reflexivity|]. split; [discriminate|]. apply sh_not_dir; assumption.
  - eexists _, _. split; [reflexivity|]. split; [discriminate|]. apply sh_no_cid; assumption.
Qed.
Lemma loop_spec : forall fuel src, clean src -> bytes_ok (bytes_of src) -> fits (bytes_of src) -> (length (bytes_of src) < fuel)%nat ->
  exists l r src', bitswap_loop sha256 blake2b256 fuel src = (l, Some r, src') /\ r <> Panic /\
    session (bytes_of src) l (match r with Ok _ => true | _ => false end) (bytes_of src').
Proof.
  induction fuel as [|fuel IH]; intros src C B F L; [lia|]. cbn [bitswap_loop].
  destruct (C42_read_exact src C B) as (r & src' & Rd & C' & A1 & A2 & A3 & A4 & A5 & A6). pose proof (none_spec _ _ _ _ C Rd) as Fl. rewrite Rd.
  destruct r as [[m|]|e|]; [| | |congruence].
  - pose proof (proj1 (A1 m (bytes_of src')) (conj eq_refl eq_refl)) as S.
    destruct (starts_parts _ _ _ B F S) as (Bm & Fm & Br & Fr & Lr).
    pose proof (proj1 (proj2 (proj2 (proj2 (proj2 (proj2 (proj2 (proj2 (proj2 C72_message_parsers_total)))))))) m Bm Fm) as T.
    destruct (bs_message_from_pb m) as [x|e|] eqn:P; [| |exfalso; unfold fine in T; first [exact T|tauto|congruence]].
    + pose proof (proj1 (bs_message_from_pb_ok m x Bm Fm) P) as X.
      destruct (handle_blocks_spec _ (message_blocks m x Bm Fm X)) as (l & r & -> & NP & Sh).
      assert (E : bytes_eqb (bs_message_to_pb x) m = true <-> bs_message_to_pb x = m) by (split; [apply bytes_eqb_eq|intros ->; apply bytes_eqb_refl]).
      destruct r as [[]|e|]; [| |congruence].
      * destruct (IH src' C' Br Fr ltac:(lia)) as (l' & r & src2 & -> & NP' & Se). eexists _, _, _. split; [reflexivity|]. split; [exact NP'|].
        eapply se_message; eassumption.
      * eexists _, _, _. split; [reflexivity|]. split; [discriminate|]. eapply se_stop; eassumption.
    + eexists _, _, _. split; [reflexivity|]. split; [discriminate|]. eapply se_undecodable; [exact S|].
      intros x X. apply bs_message_from_pb_ok in X; [congruence|assumption..].
  - eexists _, _, _. split; [reflexivity|]. split; [discriminate|]. pose proof (proj1 A2 eq_refl) as E. rewrite E.
    destruct Fl as (r0 & Q & _ & _ & _ & Fl). rewrite E, flat_nil in Fl. apply (f_equal snd) in Fl. cbn [snd] in Fl. rewrite <- Fl. constructor.
  - eexists _, _, _. split; [reflexivity|]. split; [discriminate|]. apply se_broken.
    + intros X. pose proof (proj2 A2 X) as Y. discriminate Y.
    + intros m rest X. pose proof (proj2 (A1 m rest) X) as [Y _]. discriminate.
Qed.
End Spec.

(** C100: whatever a peer sends, in whatever pieces, the handler shows what the session says,
    ends with an error exactly when the session does, and does not panic. *)
Theorem C100_session sha256 blake2b256 src : clean src -> bytes_ok (bytes_of src) -> fits (bytes_of src) ->
  exists l r src', bitswap_handler sha256 blake2b256 None src = ([], l, Some r, src') /\ r <> Panic /\
    session sha256 blake2b256 (bytes_of src) l (match r with Ok _ => true | _ => false end) (bytes_of src').
Proof.
  intros C B F. unfold bitswap_handler. pose proof (bytes_of_length src).
  destruct (loop_spec sha256 blake2b256 (S (length src)) src C B F ltac:(lia)) as (l & r & src' & -> & P & S). exists l, r, src'. auto.
Qed.
Print Assumptions C100_session.

(** The sessions of a byte string do not differ, except in the reason given for an undecodable
    message (and in what is left unread after a broken length prefix). *)
Definition line_same (a b : bs_line) : Prop := match a, b with LBadMessage _, LBadMessage _ => True | _, _ => a = b end.
Lemma starts_det data m rest m' rest' : bytes_ok data -> starts_with data m rest -> starts_with data m' rest' -> m = m' /\ rest = rest'.
Proof. intros B H H'. apply starts_flat in H; [|exact B]. apply starts_flat in H'; [|exact B]. rewrite H in H'. split; congruence. Qed.
Lemma message_det m x y : bytes_ok m -> fits m -> bs_message_msg m x -> bs_message_msg m y -> x = y.
Proof. intros B F H K. apply bs_message_from_pb_ok in H; [|assumption..]. apply bs_message_from_pb_ok in K; [|assumption..]. congruence. Qed.
Lemma cid_det sha256 blake2b256 b c c' : bytes_ok (bl_prefix b) -> block_cid sha256 blake2b256 b c -> block_cid sha256 blake2b256 b c' -> c = c'.
Proof.
  intros B H K. apply block_cid_iff in H; [|exact B]. apply block_cid_iff in K; [|exact B]. destruct H as (p & P1 & P2). destruct K as (q & Q1 & Q2). congruence.
Qed.
Lemma dir_det d es es' : bytes_ok d -> fits d -> dir_msg d es -> dir_msg d es' -> es = es'.
Proof. intros B F H K. apply C12_directory_exact in H; [|assumption..]. apply C12_directory_exact in K; [|assumption..]. congruence. Qed.
Lemma shows_det sha256 blake2b256 bs l r : shows sha256 blake2b256 bs l r -> Forall good_block bs -> forall l' r', shows sha256 blake2b256 bs l' r' -> l = l' /\ r = r'.
Proof.
  induction 1 as [|b bs c es l r C D S IH|b bs c C D|b bs C]; intros G l' r' S'; inversion S'; subst; try (split; reflexivity);
    inversion G as [|? ? (G1 & G2 & G3 & G4) Gs]; subst;
    try (exfalso; match goal with H : forall _, ~ block_cid _ _ _ _, K : block_cid _ _ _ _ |- _ => exact (H _ K) end);
    try (exfalso; match goal with H : forall _, ~ dir_msg _ _, K : dir_msg _ _ |- _ => exact (H _ K) end).
  - destruct (IH Gs _ _ H5) as [-> ->]. rewrite (cid_det _ _ _ _ _ G1 C H1), (dir_det _ _ _ G2 G4 D H2). split; reflexivity.
  - match goal with K : block_cid _ _ _ ?d |- _ => rewrite (cid_det _ _ _ _ _ G1 C K) end. split; reflexivity.
Qed.
Lemma line_same_refl k : Forall2 line_same k k.
Proof. induction k as [|a k IH]; constructor; [destruct a; cbn; auto|exact IH]. Qed.
(** C100: a byte string has one session. *)
Theorem C100_session_unique sha256 blake2b256 data l r rest l' r' rest' : bytes_ok data -> fits data ->
  session sha256 blake2b256 data l r rest -> session sha256 blake2b256 data l' r' rest' -> Forall2 line_same l l' /\ r = r'.
Proof.
  intros B F H. revert B F l' r' rest'. 
  pose proof line_same_refl as R.
  assert (SW : forall m rest, ~ starts_with [] m rest).
  { intros m rs (q & E & (i & y & -> & _) & _). destruct i; discriminate. }
  induction H as [|data rest N0 NS|data m rest e S NX|data m rest x same l l' r left_over S X Sm Sh Se IH|data m rest x same l S X Sm Sh];
    intros B F l2 r2 rest2 K; inversion K; subst;
    try (split; [apply R|reflexivity]);
    try (exfalso; match goal with H : starts_with [] _ _ |- _ => exact (SW _ _ H) end);
    try (exfalso; match goal with H : ?a <> ?a |- _ => exact (H eq_refl) end);
    try (exfalso; match goal with H : forall _ _, ~ starts_with _ _ _, K : starts_with _ _ _ |- _ => exact (H _ _ K) end).
  all: try (match goal with H1 : starts_with _ ?m1 ?r1, H2 : starts_with _ ?m2 ?r2 |- _ =>
      first [constr_eq m1 m2; fail 1|destruct (starts_det _ _ _ _ _ B H1 H2); subst] end).
  all: match goal with H1 : starts_with _ _ _ |- _ => destruct (starts_parts _ _ _ B F H1) as (Bm & Fm & Br & Fr & _) end.
  all: try (exfalso; match goal with H : forall _, ~ bs_message_msg _ _, K : bs_message_msg _ _ |- _ => exact (H _ K) end).
  all: try (match goal with H1 : bs_message_msg _ ?m1, H2 : bs_message_msg _ ?m2 |- _ =>
      first [constr_eq m1 m2; fail 1|pose proof (message_det _ _ _ Bm Fm H1 H2); subst] end).
  all: try match goal with H1 : bs_message_msg _ _ |- _ => pose proof (message_blocks _ _ Bm Fm H1) as Gb end.
  all: try match goal with H1 : shows _ _ _ _ _, H2 : shows _ _ _ _ _ |- _ => destruct (shows_det _ _ _ _ _ H1 Gb _ _ H2); subst end.
  - split; [|reflexivity]. constructor; [exact Logic.I|constructor].
  - match goal with H : session _ _ _ _ r2 _ |- _ => destruct (IH Br Fr _ _ _ H) as [I1 ->] end. split; [|reflexivity].
    match goal with H : ?s0 = true <-> bs_message_to_pb _ = _ |- Forall2 _ (LSame same :: _) (LSame ?s0 :: _) => assert (same = s0) as -> by (destruct same, s0; tauto || (symmetry; tauto) || auto) end.
    constructor; [reflexivity|]. apply Forall2_app; [apply R|exact I1].
  - discriminate.
  - discriminate.
  - split; [|reflexivity].
    match goal with |- Forall2 _ (LSame same :: _) (LSame ?s0 :: _) => assert (same = s0) as -> by (destruct same, s0; tauto || (symmetry; tauto) || auto) end. apply R.
Qed.
Print Assumptions C100_session_unique.

Lemma cid_text_ok s c : cid_text s c -> cid_ok c.
Proof.
  unfold cid_text. destruct (cid_ver c).
  - intros (data & D & W). apply denotes_iff_encode in D as [_ Hb]. exact (cid_wire_ok _ _ Hb W).
  - intros (b & t & data & _ & R & W). destruct (reads_as_length _ _ _ R) as [_ Hb]. exact (cid_wire_ok _ _ Hb W).
Qed.
(** C100: given the text of a CID, the handler first sends exactly one message, which asks for
    the block of that CID and nothing else, and then does what it does without one. *)
Theorem C100_request sha256 blake2b256 text c src out l r src' : fits text -> cid_text text c ->
  bitswap_handler sha256 blake2b256 (Some text) src = (out, l, r, src') -> fits out ->
  bitswap_handler sha256 blake2b256 None src = ([], l, r, src') /\
  forall peer, carries peer out -> exists m e, read_all 2 peer = ([m], Some (Ok tt)) /\
    bs_message_from_pb m = Ok {| bm_wantlist := Some {| wl_entries := [e]; wl_full := false |}; bm_blocks := [];
                                 bm_payload := []; bm_block_presence := []; bm_pending_bytes := None |} /\
    cid_from_bytes (en_block e) = Ok c /\ en_cancel e = false /\ en_want_type e = WBlock /\ en_send_dont_have e = true /\ en_priority e = 1%Z.
Proof.
  intros Ft T H Fo. pose proof (cid_text_ok _ _ T) as K. apply C26_cid_text_exact in T; [|exact Ft]. unfold bitswap_handler in *. rewrite T in H.
  destruct (bitswap_loop sha256 blake2b256 (S (length src)) src) as [[l0 r0] s0] eqn:E. injection H as <- <- <- <-. split; [reflexivity|].
  intros peer C. assert (F : fits (bs_message_to_pb (request_message c))) by (unfold write_message in Fo; apply fits_app in Fo; apply Fo).
  set (e := {| en_block := cid_to_bytes c; en_priority := 1; en_cancel := false; en_want_type := WBlock; en_send_dont_have := true |}).
  exists (bs_message_to_pb (request_message c)), e. split.
  { apply C42_messages_round_trip; [constructor; [exact F|constructor]| |cbn; lia]. unfold frames. cbn [map concat]. rewrite app_nil_r. exact C. }
  assert (O : entry_ok e) by (split; [apply cid_to_bytes_ok, K|split; [discriminate|reflexivity]]). split.
  { rewrite C11_message_round_trip; [reflexivity| |exact F]. split; [cbn; constructor; [exact O|constructor]|constructor]. }
  split; [|repeat split]. apply cid_round_trip; [exact K|].
  rewrite bs_ser in F. assert (F1 : fits (wantlist_to_pb {| wl_entries := [e]; wl_full := false |})) by (eapply ser_fits; [exact F|left; reflexivity]).
  rewrite wantlist_ser in F1. assert (F2 : fits (entry_to_pb e)) by (eapply ser_fits; [exact F1|left; reflexivity]).
  rewrite entry_ser in F2. eapply ser_fits; [exact F2|left; reflexivity].
Qed.
Print Assumptions C100_request.
(** C100: given anything else, it sends nothing, reads nothing and fails. *)
Theorem C100_no_request sha256 blake2b256 text src : fits text -> (forall c, ~ cid_text text c) ->
  exists e, bitswap_handler sha256 blake2b256 (Some text) src = ([], [], Some (Err (BCid e)), src).
Proof.
  intros Ft N. unfold bitswap_handler. pose proof (cid_from_string_not_panic text Ft) as P.
  destruct (cid_from_string text) as [c|e|] eqn:E; [|eauto|congruence]. exfalso. apply (N c). apply C26_cid_text_exact; assumption.
Qed.
Print Assumptions C100_no_request.

(** Messages in whole frames. *)
Lemma loop_frame sha256 blake2b256 fuel m rest src : fits m -> carries src (write_message m ++ rest) ->
  exists src', clean src' /\ bytes_of src' = rest /\
    bitswap_loop sha256 blake2b256 (S fuel) src =
      match bs_message_from_pb m with
      | Err e => ([LBadMessage e], Some (Ok tt), src')
      | Panic => ([], Some Panic, src')
      | Ok x =>
        match handle_blocks sha256 blake2b256 (bm_blocks x) with
        | (l, Ok _) => let '(l', r, s) := bitswap_loop sha256 blake2b256 fuel src' in (LSame (bytes_eqb (bs_message_to_pb x) m) :: l ++ l', r, s)
        | (l, r) => (LSame (bytes_eqb (bs_message_to_pb x) m) :: l, Some r, src')
        end
      end.
Proof.
  intros F [C E]. cbn [bitswap_loop]. destruct (read_opt_message None src) as [[r lim] src'] eqn:R. apply none_spec in R; [|exact C].
  destruct R as (r0 & -> & -> & C' & _ & R). rewrite E, flat_write in R by exact F. exists src'. split; [exact C'|].
  assert (r0 = Ok (Some m)) as -> by congruence. split; [congruence|]. reflexivity.
Qed.
(** C100: blocks that are directories, in any number of messages, are all shown, each with
    the CID of its data, in order; and the handler ends well. *)
Theorem C100_directories_shown sha256 blake2b256 (ms : list (list (block * cid * list dir_entry))) src :
  Forall (Forall (fun '(b, c, es) => block_ok b /\ block_cid sha256 blake2b256 b c /\ dir_msg (bl_data b) es)) ms ->
  let message bs := bs_message_to_pb {| bm_wantlist := None; bm_blocks := map (fun x => fst (fst x)) bs; bm_payload := [];
                                        bm_block_presence := []; bm_pending_bytes := None |} in
  Forall (fun bs => fits (message bs)) ms -> carries src (frames (map message ms)) ->
  exists src', bitswap_handler sha256 blake2b256 None src =
    ([], concat (map (fun bs => LSame true :: concat (map (fun '(_, c, es) => [LCid c; LDirectory es]) bs)) ms) ++ [LClosed], Some (Ok tt), src').
Proof.
  intros G message F C. unfold bitswap_handler.
  assert (L : forall fuel src, (length ms < fuel)%nat -> carries src (frames (map message ms)) ->
    exists src', bitswap_loop sha256 blake2b256 fuel src =
      (concat (map (fun bs => LSame true :: concat (map (fun '(_, c, es) => [LCid c; LDirectory es]) bs)) ms) ++ [LClosed], Some (Ok tt), src')).
  { clear src C. induction ms as [|bs ms IH]; intros fuel src L C.
    - destruct fuel as [|fuel]; [cbn in L; lia|]. destruct C as [C E]. cbn [bitswap_loop].
      destruct (read_opt_message None src) as [[r lim] src'] eqn:R. apply none_spec in R; [|exact C].
      destruct R as (r0 & -> & -> & C' & _ & R). rewrite E in R. change (frames (map message [])) with (@nil N) in R. rewrite flat_nil in R.
      assert (r0 = Ok None) as -> by congruence. exists src'. reflexivity.
    - destruct fuel as [|fuel]; [lia|]. inversion G as [|? ? G1 G2]; subst. inversion F as [|? ? F1 F2]; subst.
      unfold frames in C. cbn [map concat] in C. destruct (loop_frame sha256 blake2b256 fuel _ _ _ F1 C) as (src' & C' & E' & ->).
      unfold message at 1. rewrite C11_message_round_trip.
      2:{ split; [exact Logic.I|]. cbn [bm_blocks]. apply Forall_map. eapply Forall_impl; [|exact G1]. intros [[b c] es] (X & _). exact X. }
      2:{ exact F1. }
      cbn [bm_wantlist bm_blocks].
      assert (Gb : Forall good_block (map (fun x => fst (fst x)) bs)).
      { apply Forall_map. rewrite Forall_forall in G1 |- *. intros [[b c] es] X. pose proof (G1 _ X) as ((B1 & B2) & _). cbn [fst].
        unfold message in F1. rewrite bs_ser in F1. assert (Fb : fits (block_to_pb b)).
        { eapply ser_fits; [exact F1|]. unfold bs_es. cbn [bm_wantlist bm_blocks opt_e app]. apply in_map_iff. exists b. split; [reflexivity|].
          apply in_map_iff. exists (b, c, es). split; [reflexivity|exact X]. }
        rewrite block_ser in Fb. split; [exact B1|]. split; [exact B2|].
        split; (eapply ser_fits; [exact Fb|]); [left; reflexivity|right; left; reflexivity]. }
      destruct (handle_blocks_spec sha256 blake2b256 _ Gb) as (lb & rb & -> & NP & Sh).
      assert (Sw : shows sha256 blake2b256 (map (fun x => fst (fst x)) bs) (concat (map (fun '(_, c, es) => [LCid c; LDirectory es]) bs)) true).
      { clear - G1. induction G1 as [|[[b c] es] bs (H1 & H2 & H3) G1 IHb]; cbn [map concat app fst]; [constructor|]. apply sh_good; assumption. }
      destruct (shows_det _ _ _ _ _ Sh Gb _ _ Sw) as [-> Er]. destruct rb as [[]|e|]; try discriminate Er.
      destruct (IH G2 F2 fuel src' ltac:(cbn in L; lia)) as (s2 & ->); [split; [exact C'|exact E']|]. exists s2.
      fold (message bs). rewrite bytes_eqb_refl. cbn [map concat app]. rewrite <- app_assoc. reflexivity. }
  destruct (L (S (length src)) src) as (src' & ->); [|exact C|exists src'; reflexivity].
  destruct C as [_ E]. pose proof (bytes_of_length src) as Lb. rewrite E in Lb. pose proof (frames_length (map message ms)) as Lf. rewrite map_length in Lf. lia.
Qed.
Print Assumptions C100_directories_shown.

(** C100, refuted in part: a message that cannot be decoded ends the handler, but as if all
    were well, whatever follows it. *)
Theorem C100_undecodable_refuted sha256 blake2b256 m rest src : bytes_ok m -> fits m -> (forall x, ~ bs_message_msg m x) ->
  carries src (write_message m ++ rest) ->
  exists e src', bitswap_handler sha256 blake2b256 None src = ([], [LBadMessage e], Some (Ok tt), src') /\ bytes_of src' = rest.
Proof.
  intros B F N C. unfold bitswap_handler. destruct (loop_frame sha256 blake2b256 (length src) m rest src F C) as (src' & _ & E & ->).
  pose proof (proj1 (bs_message_total m B F)) as T. destruct (bs_message_from_pb m) as [x|e|] eqn:P; [|eauto|congruence].
  exfalso. apply (N x). apply bs_message_from_pb_ok; assumption.
Qed.
Print Assumptions C100_undecodable_refuted.
(** C100, refuted in part: a block that is a file (or anything other than a directory) is an
    error; the blocks and messages after it are not looked at. *)
Theorem C100_files_refuted sha256 blake2b256 b bs c node data u rest src : Forall block_ok (b :: bs) -> block_cid sha256 blake2b256 b c ->
  node_msg (bl_data b) node -> nd_bytes node = Some data -> fs_data_msg data u -> fd_type u <> TDirectory ->
  let m := bs_message_to_pb {| bm_wantlist := None; bm_blocks := b :: bs; bm_payload := []; bm_block_presence := []; bm_pending_bytes := None |} in
  fits m -> carries src (write_message m ++ rest) ->
  exists what src', bitswap_handler sha256 blake2b256 None src = ([], [LSame true; LCid c], Some (Err (BFs (DUnimplemented what))), src') /\
    bytes_of src' = rest.
Proof.
  intros O Ci Nm Nb Fm Ty m F C. unfold bitswap_handler. destruct (loop_frame sha256 blake2b256 (length src) m rest src F C) as (src' & _ & E & ->).
  unfold m at 1. rewrite C11_message_round_trip; [|split; [exact Logic.I|exact O]|exact F]. cbn [bm_wantlist bm_blocks]. fold m. rewrite bytes_eqb_refl.
  inversion O as [|? ? (B1 & B2) _]; subst. assert (Fb : fits (block_to_pb b)).
  { unfold m in F. rewrite bs_ser in F. eapply ser_fits; [exact F|]. unfold bs_es. cbn [bm_wantlist bm_blocks opt_e app map]. left. reflexivity. }
  rewrite block_ser in Fb. assert (F2 : fits (bl_data b)) by (eapply ser_fits; [exact Fb|right; left; reflexivity]).
  cbn [handle_blocks]. unfold handle_block. apply block_cid_iff in Ci; [|exact B1]. destruct Ci as (p & -> & Gc). cbn [map_err]. rewrite Gc. cbn [map_err].
  unfold fs_node_from_dagpb. apply node_from_pb_ok in Nm; [|assumption..]. rewrite Nm. cbn [bind map_err]. rewrite Nb. cbn [bind of_option].
  destruct (inner_good _ _ _ B2 F2 Nm Nb) as [Bi Fi]. apply fs_data_from_pb_ok in Fm; [|assumption..]. rewrite Fm. cbn [bind map_err].
  destruct (fd_type u); try congruence; cbn [map_err]; eexists _, src'; split; try reflexivity; exact E.
Qed.
Print Assumptions C100_files_refuted.
(** C100, refuted in part: what is shown need not be what was asked for. *)
Theorem C100_unrequested_refuted sha256 blake2b256 : exists text c src out l src',
  cid_text text c /\ bitswap_handler sha256 blake2b256 (Some text) src = (out, l, Some (Ok tt), src') /\
  (exists c' es, In (LCid c') l /\ In (LDirectory es) l) /\ ~ In (LCid c) l.
Proof.
  set (c := {| cid_ver := CIDv1; cid_codec := CRaw; cid_hash_type := HSha2256; cid_hash := repeat 9 32 |}).
  set (b := {| bl_prefix := [1; 0x70; 0x12; 32]; bl_data := [10; 2; 8; 1] |}).
  set (m := bs_message_to_pb {| bm_wantlist := None; bm_blocks := [b]; bm_payload := []; bm_block_presence := []; bm_pending_bytes := None |}).
  assert (K : cid_ok c) by (split; [repeat constructor|split; [exact Logic.I|split; [exact Logic.I|discriminate]]]).
  exists (cid_to_string c), c, (map Byte (write_message m)).
  assert (T : cid_text (cid_to_string c) c) by (apply cid_string_text; [exact K|reflexivity]).
  assert (H : cid_from_string (cid_to_string c) = Ok c) by (vm_compute; reflexivity).
  eexists _, _, _. split; [exact T|]. unfold bitswap_handler. rewrite H.
  split; [vm_compute; reflexivity|]. split.
  - eexists _, _. split; [right; left; reflexivity|right; right; left; reflexivity].
  - intros [X|[X|[X|[X|[]]]]]; discriminate X.
Qed.
Print Assumptions C100_unrequested_refuted.
(** A directory block, a file block and an empty one. *)
Example C100_example :
  let sha x := firstn 32 (x ++ repeat 0 32) in
  let dir := {| bl_prefix := [1; 0x70; 0x12; 32]; bl_data := node_to_pb {| nd_links := [C12_link "a"]; nd_bytes := Some [8; 1] |} |} in
  let file := {| bl_prefix := [1; 0x70; 0x12; 32]; bl_data := [10; 2; 8; 2] |} in
  let msg bs := bs_message_to_pb {| bm_wantlist := None; bm_blocks := bs; bm_payload := []; bm_block_presence := []; bm_pending_bytes := None |} in
  let cid_of d := {| cid_ver := CIDv1; cid_codec := CDagPB; cid_hash_type := HSha2256; cid_hash := sha d |} in
  let entries := [{| de_cid := lk_hash (C12_link "a"); de_name := [97]; de_tsize := 5 |}] in
  bitswap_handler sha sha None (map Byte (frames [msg [dir; dir]; msg []])) =
    ([], [LSame true; LCid (cid_of (bl_data dir)); LDirectory entries; LCid (cid_of (bl_data dir)); LDirectory entries; LSame true; LClosed], Some (Ok tt), []) /\
  bitswap_handler sha sha None (map Byte (frames [msg [file; dir]; msg [dir]])) =
    ([], [LSame true; LCid (cid_of (bl_data file))], Some (Err (BFs (DUnimplemented "File"))), map Byte (frames [msg [dir]])) /\
  fst (fst (fst (bitswap_handler sha sha (Some (cid_to_string (cid_of [1]))) []))) = write_message (msg [] ++ [10; 46; 10; 44; 10; 36] ++ cid_to_bytes (cid_of [1]) ++ [16; 1; 32; 0; 40; 1]).
Proof. vm_compute. auto. Qed.
