(** Everything the Bitswap handler prints, C129. *)
From Coq Require Import String Ascii.
From Verif Require Import Base BaseProofs UtilModel ChatModel Asn1PrintProps HexDumpModel VarintModel VarintSpec VarintProofs MplexModel ProtobufModel ProtobufSpec ProtobufProofs
  CidModel CidSpec CidProofs CidTextModel CidTextSpec CidProps MultibaseModel MultibaseSpec MultibaseProofs4 IdentifyModel BitswapModel BlockModel DagPbModel UnixfsModel MessageSpec MessageProofs MessageProofs2 MessageProofs3 MessageProofs4 MessageProps
  LpioModel LpioSpec LpioProofs LpioProps HandlerModel HandlerProps NamesModel DebugModel DebugProofs IpfsTextModel IpfsTextProps BitswapLogModel.
Local Open Scope string_scope. Local Open Scope list_scope. Local Open Scope N_scope.

(** *** The results are those of BitswapModel.v and HandlerModel.v *)
Lemma snd_andthen {E A B} (x : said E A) (k : A -> said E B) : snd (andthen x k) = bind (snd x) (fun a => snd (k a)).
Proof. destruct x as [t [a|e|]]; cbn [andthen snd bind]; [destruct (k a)|..]; reflexivity. Qed.
Lemma bind_ext {E A B} (x : outcome E A) (f g : A -> outcome E B) : (forall a, f a = g a) -> bind x f = bind x g.
Proof. intros H. destruct x; cbn [bind]; auto. Qed.
Lemma loop_result {S} name (body : S -> N -> field_data -> said from_pb_error S) body' : (forall s n d, snd (body s n d) = body' s n d) ->
  forall fuel r s, snd (pb_loop_said name body fuel r s) = pb_loop body' fuel r s.
Proof.
  intros H. induction fuel as [|fuel IH]; intros r s; cbn [pb_loop_said pb_loop]; [reflexivity|].
  rewrite snd_andthen. cbn [silent snd]. apply bind_ext. intros [[fr r']|]; [|reflexivity].
  pose proof (snd_andthen (body s (fr_number fr) (fr_data fr)) (pb_loop_said name body fuel r')) as X.
  destruct (andthen (body s (fr_number fr) (fr_data fr)) (pb_loop_said name body fuel r')) as [t x]. cbn [snd] in *. rewrite X, H.
  apply bind_ext. intros s'. apply IH.
Qed.
Lemma entry_result b : snd (entry_said b) = entry_from_pb b.
Proof.
  unfold entry_said, entry_from_pb. rewrite snd_andthen. unfold pb_parse_said, pb_parse. rewrite (loop_result _ _ entry_body) by reflexivity.
  apply bind_ext. intros s. destruct (ev_block s); reflexivity.
Qed.
Lemma wantlist_result b : snd (wantlist_said b) = wantlist_from_pb b.
Proof.
  unfold wantlist_said, wantlist_from_pb, pb_parse_said, pb_parse. apply loop_result. intros s n d. unfold wantlist_body_said, wantlist_body.
  destruct (n =? 1); [|reflexivity]. rewrite snd_andthen. apply bind_ext. intros x. rewrite snd_andthen, entry_result. reflexivity.
Qed.
Lemma block_result b : snd (block_said b) = block_from_pb b.
Proof.
  unfold block_said, block_from_pb. rewrite snd_andthen. unfold pb_parse_said, pb_parse. rewrite (loop_result _ _ block_body) by reflexivity. reflexivity.
Qed.
Lemma message_result b : snd (message_said b) = bs_message_from_pb b.
Proof.
  unfold message_said, bs_message_from_pb. rewrite snd_andthen. unfold pb_parse_said, pb_parse. rewrite (loop_result _ _ bs_body); [reflexivity|].
  intros s n d. unfold message_body_said, bs_body. destruct (n =? 1).
  - destruct (mv_wantlist s); [reflexivity|]. rewrite snd_andthen. apply bind_ext. intros x. rewrite snd_andthen, wantlist_result. reflexivity.
  - destruct (n =? 3); [|reflexivity]. rewrite snd_andthen. apply bind_ext. intros x. rewrite snd_andthen, block_result. reflexivity.
Qed.
Section Results.
Context (sha256 blake2b256 : bytes -> bytes) (quote : bytes -> bytes) (utf8 : bytes) (io : ioerr -> bytes).
Lemma handle_block_result size i b : snd (handle_block_said sha256 blake2b256 quote size i b) = snd (handle_block sha256 blake2b256 b).
Proof.
  unfold handle_block_said, handle_block. rewrite snd_andthen. cbn [snd].
  destruct (map_err BPrefix (cid_prefix_from_bytes (bl_prefix b))) as [p|e|]; cbn [bind]; [|reflexivity..]. rewrite snd_andthen. cbn [snd].
  destruct (map_err BBlock (get_block_cid sha256 blake2b256 p (bl_data b))) as [c|e|]; cbn [bind]; [|reflexivity..]. rewrite snd_andthen. cbn [snd].
  destruct (map_err BPb (node_from_pb (bl_data b))) as [node|e|]; cbn [bind]; [|reflexivity..]. rewrite snd_andthen. cbn [snd bind]. rewrite snd_andthen.
  unfold data_said. destruct (nd_bytes node) as [x|]; [|cbn [snd bind]; rewrite snd_andthen; cbn [silent snd]; destruct (map_err BFs (fs_node_from_dagpb (bl_data b))); reflexivity].
  destruct (map_err BPb (fs_data_from_pb x)); cbn [silent snd bind]; [|reflexivity..]. rewrite snd_andthen; cbn [silent snd].
  destruct (map_err BFs (fs_node_from_dagpb (bl_data b))); reflexivity.
Qed.
Lemma handle_blocks_result size bs : forall i, snd (handle_blocks_said sha256 blake2b256 quote size i bs) = snd (handle_blocks sha256 blake2b256 bs).
Proof.
  induction bs as [|b bs IH]; intros i; cbn [handle_blocks_said handle_blocks]; [reflexivity|]. rewrite snd_andthen, handle_block_result.
  destruct (handle_block sha256 blake2b256 b) as [l [u|e|]]; cbn [snd bind]; [|reflexivity..]. rewrite IH. destruct (handle_blocks sha256 blake2b256 bs). reflexivity.
Qed.
Lemma loop_results fuel : forall src, let '(t, r, src') := loop_said sha256 blake2b256 quote utf8 fuel src in
  let '(l, r', src'') := bitswap_loop sha256 blake2b256 fuel src in r = r' /\ src' = src''.
Proof.
  induction fuel as [|fuel IH]; intros src; cbn [loop_said bitswap_loop]; [auto|].
  destruct (read_opt_message None src) as [[[[[m|]|e|]|] lim] src']; auto.
  pose proof (message_result m) as M. destruct (message_said m) as [t [x|e|]]; cbn [snd] in M; rewrite <- M; auto.
  pose proof (handle_blocks_result (blen m) (bm_blocks x) 0) as H.
  destruct (handle_blocks_said sha256 blake2b256 quote (blen m) 0 (bm_blocks x)) as [l [u|e|]], (handle_blocks sha256 blake2b256 (bm_blocks x)) as [l2 r2]; cbn [snd] in H; subst r2; auto.
  specialize (IH src'). destruct (loop_said sha256 blake2b256 quote utf8 fuel src') as [[t2 r2] s2], (bitswap_loop sha256 blake2b256 fuel src') as [[t3 r3] s3]. exact IH.
Qed.
End Results.
(** C129: the handler that prints ends as the handler of C100 does: with the same result, and
    with the same part of the stream unread. *)
Theorem C129_same_results sha256 blake2b256 quote utf8 io show src : forall out l r rest, bitswap_handler sha256 blake2b256 show src = (out, l, r, rest) ->
  snd (handler_said sha256 blake2b256 quote utf8 io show src) = r /\ snd (inner_said sha256 blake2b256 quote utf8 show src) = rest.
Proof.
  intros out l r rest H. unfold handler_said, inner_said. unfold bitswap_handler in H.
  pose proof (loop_results sha256 blake2b256 quote utf8 (S (length src)) src) as L.
  destruct (loop_said sha256 blake2b256 quote utf8 (S (length src)) src) as [[t2 r2] s2], (bitswap_loop sha256 blake2b256 (S (length src)) src) as [[t3 r3] s3].
  destruct L as [-> ->]. destruct show as [text|].
  - destruct (cid_from_string text); cbn [snd]; injection H as <- <- <- <-; auto.
  - cbn [snd]. injection H as <- <- <- <-. auto.
Qed.
Print Assumptions C129_same_results.

(** *** Vocabulary *)
(** Lines of text. *)
Definition lines (ls : list bytes) : bytes := flat_map (fun l => l ++ [10]) ls.
(** The line for field [n] of wire type [w]. *)
Definition a_field (name : string) (n w : N) : bytes := ascii_bytes name ++ ascii_bytes ": field " ++ decimal n ++ ascii_bytes " wire_type " ++ decimal w.
(** The lines for a want list entry, a want list and a block. *)
Definition entry_lines (e : entry) : list bytes :=
  [a_field "        Entry" 1 2; a_field "        Entry" 2 0] ++ (if en_cancel e then [a_field "        Entry" 3 0] else []) ++
  [a_field "        Entry" 4 0] ++ (if en_send_dont_have e then [a_field "        Entry" 5 0] else []) ++
  match cid_from_bytes (en_block e) with
  | Ok c => [ascii_bytes "Parsed CID: " ++ pretty (dcid c); ascii_bytes "CID = " ++ cid_to_string c]
  | Err x => [ascii_bytes "Parsing CID failed: " ++ ascii_bytes (cid_error_text x)]
  | Panic => []
  end.
Definition message_lines (m : bs_message) : list bytes :=
  match bm_wantlist m with
  | None => []
  | Some w => a_field "Message" 1 2 :: flat_map (fun e => a_field "    WantList" 1 2 :: entry_lines e) (wl_entries w) ++
              (if wl_full w then [a_field "    WantList" 2 0] else [])
  end ++
  flat_map (fun _ => [a_field "Message" 3 2; a_field "    Block" 1 2; a_field "    Block" 2 2]) (bm_blocks m).
(** A block that is a directory, and what is in it. *)
Record shown := { sw_block : block; sw_prefix : cid_prefix; sw_cid : cid; sw_node : pb_node; sw_data : fs_data; sw_entries : list dir_entry }.
Definition shown_ok (sha256 blake2b256 : bytes -> bytes) (x : shown) : Prop :=
  cid_prefix_from_bytes (bl_prefix (sw_block x)) = Ok (sw_prefix x) /\
  get_block_cid sha256 blake2b256 (sw_prefix x) (bl_data (sw_block x)) = Ok (sw_cid x) /\
  node_from_pb (bl_data (sw_block x)) = Ok (sw_node x) /\
  (exists inner, nd_bytes (sw_node x) = Some inner /\ fs_data_from_pb inner = Ok (sw_data x)) /\
  fs_node_from_dagpb (bl_data (sw_block x)) = Ok (sw_entries x).
(** The line for an entry of a directory: the CID and the size, padded with spaces, and the
    name. *)
Definition row (e : dir_entry) : bytes :=
  cid_to_string (de_cid e) ++ repeat 32 (64 - length (cid_to_string (de_cid e))) ++ [32] ++
  decimal (de_tsize e) ++ repeat 32 (12 - length (decimal (de_tsize e))) ++ [32] ++ de_name e.
Definition block_lines (quote : bytes -> bytes) (size : N) (i : nat) (x : shown) : list bytes :=
  [ascii_bytes "Block " ++ decimal (N.of_nat i) ++ ascii_bytes ":";
   ascii_bytes "cid_prefix = " ++ plain (dprefix (sw_prefix x));
   ascii_bytes "cid = " ++ plain (dcid (sw_cid x));
   ascii_bytes "    = " ++ cid_to_string (sw_cid x);
   ascii_bytes "data.len() = " ++ decimal size;
   ascii_bytes "node ="; pretty (dnode quote (sw_node x));
   ascii_bytes "data ="; pretty (dfs_data (sw_data x));
   ascii_bytes "directory fs node"] ++ map row (sw_entries x).
Fixpoint blocks_lines quote (size : N) (i : nat) (xs : list shown) : list bytes :=
  match xs with [] => [] | x :: xs => block_lines quote size i x ++ blocks_lines quote size (S i) xs end.
(** The lines for a message with these blocks. *)
Definition received_lines quote (m : bs_message) (xs : list shown) : list bytes :=
  let size := blen (bs_message_to_pb m) in
  [ascii_bytes "[bitswap] received " ++ decimal size ++ ascii_bytes " bytes:"] ++ message_lines m ++
  [ascii_bytes "**************** Encoded message matches? true"] ++ blocks_lines quote size 0 xs.

(** *** The text of a parse *)
Fixpoint run_said {S} (name : bytes) (body : S -> N -> field_data -> said from_pb_error S) (fs : list (N * field_data)) (s : S) : said from_pb_error S :=
  match fs with
  | [] => silent (Ok s)
  | (n, d) :: fs => let (t, x) := andthen (body s n d) (run_said name body fs) in
                    (say (name ++ ascii_bytes ": field " ++ decimal n ++ ascii_bytes " wire_type " ++ decimal (wire_type d)) ++ t, x)
  end.
Lemma loop_run {S} name (body : S -> N -> field_data -> said from_pb_error S) fuel : forall r s fs, good r -> (length (rd_rest r) < fuel)%nat -> wire_message (rd_rest r) fs ->
  pb_loop_said name body fuel r s = run_said name body fs s.
Proof.
  induction fuel as [|fuel IH]; intros r s fs G F M; [lia|].
  cbn [pb_loop_said]. inversion M as [E|f n d rest fs' W M' E]; subst.
  - replace (rd_field r) with (@Ok read_error (option (field_ref * pb_reader)) None); [reflexivity|].
    symmetry. apply rd_field_none. pose proof (rd_rest_length r) as RL. rewrite <- E in RL. cbn in RL. lia.
  - symmetry in E. assert (RF : rd_field r = Ok (Some (mk_ref (rd_offset r) n d, advance r (length f)))).
    { apply rd_field_ok; [exact G|]. exists f, n, d, rest. auto. }
    rewrite RF. cbn [map_err andthen silent mk_ref fr_number fr_data fr_wire_type field_line run_said]. cbn [app].
    assert (X : andthen (body s n d) (pb_loop_said name body fuel (advance r (length f))) = andthen (body s n d) (run_said name body fs')).
    { destruct (body s n d) as [t [s'|e|]]; cbn [andthen]; [|reflexivity..]. rewrite (IH _ _ fs'); [reflexivity|..].
      - apply good_advance; [exact G|]. eauto using rest_le.
      - rewrite (advance_rest_app r f rest E). rewrite E, app_length in F. apply wire_field_length in W. lia.
      - rewrite (advance_rest_app r f rest E). exact M'. }
    rewrite X. destruct (andthen (body s n d) (run_said name body fs')). reflexivity.
Qed.
Lemma parse_run {S} name (body : S -> N -> field_data -> said from_pb_error S) es s : Forall ef_wf es -> fits (ser es) ->
  pb_parse_said name body (ser es) s = run_said name body (fields es) s.
Proof.
  intros W F. unfold pb_parse_said. apply loop_run.
  - split; [apply Nat.le_0_l|]. split; [apply ser_ok, W|exact F].
  - change (rd_rest (reader_new (ser es))) with (ser es). apply Nat.lt_succ_diag_r.
  - apply ser_wire; assumption.
Qed.
Lemma parse_plain {S} (body : S -> N -> field_data -> outcome from_pb_error S) es s : Forall ef_wf es -> fits (ser es) ->
  pb_parse body (ser es) s = run_fields body (fields es) s.
Proof.
  intros W F. unfold pb_parse. apply pb_loop_message.
  - split; [apply Nat.le_0_l|]. split; [apply ser_ok, W|exact F].
  - change (rd_rest (reader_new (ser es))) with (ser es). apply Nat.lt_succ_diag_r.
  - apply ser_wire; assumption.
Qed.
Lemma run_silent {S} (name : string) (body : S -> N -> field_data -> outcome from_pb_error S) fs : forall s s', run_fields body fs s = Ok s' ->
  run_said (ascii_bytes name) (fun s n d => silent (body s n d)) fs s = (lines (map (fun f => a_field name (fst f) (wire_type (snd f))) fs), Ok s').
Proof.
  induction fs as [|[n d] fs IH]; intros s s' H; cbn [run_fields run_said map lines flat_map] in *; [rewrite <- H; reflexivity|].
  apply bind_ok in H. destruct H as (s1 & H1 & H2). rewrite H1. cbn [silent andthen]. rewrite (IH _ _ H2). unfold say, a_field, lines. cbn [fst snd app].
  rewrite <- !app_assoc. reflexivity.
Qed.
Lemma lines_app a b : lines (a ++ b) = lines a ++ lines b.
Proof. apply flat_map_app. Qed.
Lemma lines_cons a b : lines (a :: b) = say a ++ lines b.
Proof. reflexivity. Qed.
Lemma entry_text e : entry_ok e -> fits (entry_to_pb e) -> entry_said (entry_to_pb e) = (lines (entry_lines e), Ok e).
Proof.
  intros H F. pose proof (entry_round_trip e H F) as R. pose proof (entry_es_wf e H) as W. unfold entry_said, entry_from_pb in *.
  rewrite entry_ser in *. rewrite parse_run by assumption. rewrite parse_plain in R by assumption.
  apply bind_ok in R. destruct R as (s & R1 & R2). rewrite (run_silent _ _ _ _ _ R1). cbn [andthen].
  apply bind_ok in R2. destruct R2 as (b & R2 & R3). destruct (ev_block s) as [b'|]; [|discriminate]. cbn [of_option] in R2. injection R2 as ->. injection R3 as <-.
  f_equal. unfold entry_lines, entry_es. cbn [en_block en_cancel en_send_dont_have en_want_type en_priority]. 
  unfold block_line. rewrite !fields_app. unfold fields. rewrite !map_app, !lines_app, <- !app_assoc.
  destruct (ev_cancel s), (ev_send_dont_have s), (cid_from_bytes b); cbn [map ef_field fst snd wire_type]; reflexivity || (cbn [lines flat_map]; rewrite ?app_nil_r; reflexivity).
Qed.
Lemma wantlist_text w : Forall entry_ok (wl_entries w) -> fits (wantlist_to_pb w) ->
  wantlist_said (wantlist_to_pb w) =
    (lines (flat_map (fun e => a_field "    WantList" 1 2 :: entry_lines e) (wl_entries w) ++ (if wl_full w then [a_field "    WantList" 2 0] else [])), Ok w).
Proof.
  intros H F. pose proof (wantlist_es_wf w H) as W. unfold wantlist_said. rewrite wantlist_ser in *. rewrite parse_run by assumption.
  assert (FF : Forall (fun l => fits (entry_to_pb l)) (wl_entries w)).
  { eapply all_fits; [exact F|]. apply incl_appl. intros x Hx. exact Hx. }
  clear W F. unfold wantlist_es. rewrite fields_app. 
  assert (G : forall es acc, Forall entry_ok es -> Forall (fun l => fits (entry_to_pb l)) es ->
    run_said (ascii_bytes "    WantList") wantlist_body_said (fields (map (fun e => EB 1 (entry_to_pb e)) es) ++ fields (if wl_full w then [EU 2 1] else [])) {| wl_entries := acc; wl_full := false |} =
    (lines (flat_map (fun e => a_field "    WantList" 1 2 :: entry_lines e) es ++ (if wl_full w then [a_field "    WantList" 2 0] else [])), Ok {| wl_entries := acc ++ es; wl_full := wl_full w |})).
  { induction es as [|e es IH]; intros acc H1 H2.
    - cbn [map fields app flat_map]. rewrite app_nil_r. destruct (wl_full w); reflexivity.
    - inversion H1 as [|? ? H1a H1b]; subst. inversion H2 as [|? ? H2a H2b]; subst.
      change (fields (map (fun e0 => EB 1 (entry_to_pb e0)) (e :: es))) with ((1, FBytes (entry_to_pb e)) :: fields (map (fun e0 => EB 1 (entry_to_pb e0)) es)).
      cbn [app run_said flat_map]. unfold wantlist_body_said at 1. cbn [N.eqb Pos.eqb fd_to_bytes access map_err silent andthen].
      rewrite (entry_text e H1a H2a). cbn [andthen silent wl_entries wl_full]. 
      rewrite (IH (acc ++ [e]) H1b H2b). cbn [wire_type snd]. rewrite <- (app_assoc acc). cbn [app]. f_equal. rewrite lines_cons, app_nil_r. f_equal. 
      rewrite <- app_assoc, !lines_app. reflexivity. }
  rewrite (G _ [] H FF). destruct w. reflexivity.
Qed.
Lemma block_text b : block_ok b -> fits (block_to_pb b) -> block_said (block_to_pb b) = (lines [a_field "    Block" 1 2; a_field "    Block" 2 2], Ok b).
Proof.
  intros H F. pose proof (block_round_trip b H F) as R. pose proof (block_es_wf b H) as W. unfold block_said, block_from_pb in *.
  rewrite block_ser in *. rewrite parse_run by assumption. rewrite parse_plain in R by assumption.
  apply bind_ok in R. destruct R as (s & R1 & R2). rewrite (run_silent _ _ _ _ _ R1). cbn [andthen silent]. rewrite R2. rewrite app_nil_r. reflexivity.
Qed.
Lemma bs_es_wf m : bs_message_ok m -> Forall ef_wf (bs_es m).
Proof.
  intros [H1 H2]. apply Forall_app. split.
  - destruct (bm_wantlist m) as [w|]; [|constructor]. constructor; [|constructor]. split; [reflexivity|].
    rewrite wantlist_ser. apply ser_ok, wantlist_es_wf, H1.
  - apply Forall_map. eapply Forall_impl; [|exact H2]. intros b Hb. split; [reflexivity|].
    rewrite block_ser. apply ser_ok, block_es_wf, Hb.
Qed.
Definition plain_message (m : bs_message) : bs_message :=
  {| bm_wantlist := bm_wantlist m; bm_blocks := bm_blocks m; bm_payload := []; bm_block_presence := []; bm_pending_bytes := None |}.
Lemma message_text m : bs_message_ok m -> fits (bs_message_to_pb m) -> message_said (bs_message_to_pb m) = (lines (message_lines m), Ok (plain_message m)).
Proof.
  intros H F. pose proof (bs_es_wf m H) as W. unfold message_said. rewrite bs_ser in *. rewrite parse_run by assumption. destruct H as [H1 H2].
  assert (FW : opt_ok (fun w => fits (wantlist_to_pb w)) (bm_wantlist m)).
  { unfold bs_es in F. destruct (bm_wantlist m) as [w|]; [|exact I]. eapply ser_fits; [exact F|]. left. reflexivity. }
  assert (FF : Forall (fun l => fits (block_to_pb l)) (bm_blocks m)).
  { eapply all_fits; [exact F|]. apply incl_appr. intros x Hx. exact Hx. }
  unfold bs_es. rewrite fields_app. clear W F.
  assert (G : forall bs wl acc, Forall block_ok bs -> Forall (fun l => fits (block_to_pb l)) bs ->
    run_said (ascii_bytes "Message") message_body_said (fields (map (fun b => EB 3 (block_to_pb b)) bs)) {| mv_wantlist := wl; mv_blocks := acc |} =
    (lines (flat_map (fun _ => [a_field "Message" 3 2; a_field "    Block" 1 2; a_field "    Block" 2 2]) bs), Ok {| mv_wantlist := wl; mv_blocks := acc ++ bs |})).
  { clear. induction bs as [|b bs IH]; intros wl acc H1 H2.
    - cbn [map fields run_said flat_map]. rewrite app_nil_r. reflexivity.
    - inversion H1 as [|? ? H1a H1b]; subst. inversion H2 as [|? ? H2a H2b]; subst.
      cbn [map fields ef_field app run_said flat_map]. unfold message_body_said at 1. cbn [N.eqb Pos.eqb fd_to_bytes access map_err silent andthen].
      rewrite (block_text b H1a H2a). cbn [andthen silent mv_wantlist mv_blocks].
      change (map ef_field (map (fun e0 => EB 3 (block_to_pb e0)) bs)) with (fields (map (fun e0 => EB 3 (block_to_pb e0)) bs)).
      rewrite (IH wl (acc ++ [b]) H1b H2b). cbn [wire_type]. rewrite <- (app_assoc acc). cbn [app]. f_equal. }
  unfold message_lines, plain_message. destruct (bm_wantlist m) as [w|]; cbn [opt_e fields map app ef_field run_said].
  - unfold message_body_said at 1. cbn [N.eqb Pos.eqb fd_to_bytes access map_err silent andthen mv_wantlist].
    rewrite (wantlist_text w H1 FW). cbn [andthen silent mv_blocks].
    change (map ef_field (map (fun e0 => EB 3 (block_to_pb e0)) (bm_blocks m))) with (fields (map (fun e0 => EB 3 (block_to_pb e0)) (bm_blocks m))).
    rewrite (G _ (Some w) [] H2 FF). cbn [andthen silent app mv_wantlist mv_blocks wire_type]. f_equal.
    rewrite !app_nil_r, lines_cons. f_equal. rewrite !lines_app, <- !app_assoc. reflexivity.
  - change (map ef_field (map (fun e0 => EB 3 (block_to_pb e0)) (bm_blocks m))) with (fields (map (fun e0 => EB 3 (block_to_pb e0)) (bm_blocks m))).
    rewrite (G _ None [] H2 FF). cbn [andthen silent app mv_wantlist mv_blocks]. rewrite app_nil_r. reflexivity.
Qed.

(** *** The blocks and the loop *)
Lemma rows_text es : flat_map entry_row es = lines (map row es).
Proof.
  induction es as [|e es IH]; [reflexivity|]. cbn [flat_map map]. rewrite lines_cons, IH. unfold entry_row, row, pad_right.
  change (ascii_bytes " ") with [32]. rewrite <- !app_assoc. reflexivity.
Qed.
Section Text.
Context (sha256 blake2b256 : bytes -> bytes) (quote : bytes -> bytes) (utf8 : bytes) (io : ioerr -> bytes).
Lemma handle_block_text size i x : shown_ok sha256 blake2b256 x ->
  handle_block_said sha256 blake2b256 quote size i (sw_block x) = (lines (block_lines quote size i x), Ok tt).
Proof.
  intros (H1 & H2 & H3 & (inner & H4 & H5) & H6). unfold handle_block_said. rewrite H1. cbn [map_err andthen]. rewrite H2. cbn [map_err andthen].
  rewrite H3. cbn [map_err andthen]. unfold data_said. rewrite H4, H5, H6. cbn [map_err andthen silent]. cbn [app]. f_equal. unfold block_lines. rewrite lines_app, rows_text.
  rewrite !lines_cons. cbn [lines flat_map]. unfold say. repeat rewrite <- app_assoc. cbn [app]. reflexivity.
Qed.
Lemma handle_blocks_text size xs : forall i, Forall (shown_ok sha256 blake2b256) xs ->
  handle_blocks_said sha256 blake2b256 quote size i (map sw_block xs) = (lines (blocks_lines quote size i xs), Ok tt).
Proof.
  induction xs as [|x xs IH]; intros i H; cbn [map handle_blocks_said blocks_lines]; [reflexivity|]. inversion H as [|? ? H1 H2]; subst.
  rewrite (handle_block_text size i x H1). cbn [andthen]. rewrite (IH _ H2), lines_app. reflexivity.
Qed.
(** A message that is printed whole. *)
Definition whole (p : bs_message * list shown) : Prop :=
  bs_message_ok (fst p) /\ fits (bs_message_to_pb (fst p)) /\ bm_blocks (fst p) = map sw_block (snd p) /\ Forall (shown_ok sha256 blake2b256) (snd p).
Lemma loop_text fuel p rest src : whole p -> carries src (write_message (bs_message_to_pb (fst p)) ++ rest) ->
  exists src', carries src' rest /\ loop_said sha256 blake2b256 quote utf8 (S fuel) src =
    (let '(t, r, s) := loop_said sha256 blake2b256 quote utf8 fuel src' in (lines (received_lines quote (fst p) (snd p)) ++ t, r, s)).
Proof.
  intros (H1 & F & B & H2) [C E]. cbn [loop_said]. destruct (read_opt_message None src) as [[r lim] src'] eqn:R. apply none_spec in R; [|exact C].
  destruct R as (r0 & -> & -> & C' & _ & R). rewrite E, flat_write in R by exact F. exists src'.
  assert (r0 = Ok (Some (bs_message_to_pb (fst p)))) as -> by congruence. split; [split; [exact C'|congruence]|].
  rewrite (message_text _ H1 F). change (bm_blocks (plain_message (fst p))) with (bm_blocks (fst p)). rewrite B, (handle_blocks_text _ _ _ H2).
  assert (P : bs_message_to_pb (plain_message (fst p)) = bs_message_to_pb (fst p)) by reflexivity.
  rewrite P. unfold compare_text. rewrite bytes_eqb_refl. unfold received_lines. cbn [app]. rewrite lines_cons, lines_app, lines_cons.
  destruct (loop_said sha256 blake2b256 quote utf8 fuel src') as [[t r] s]. rewrite <- !app_assoc. reflexivity.
Qed.
Lemma loop_texts ps : forall fuel rest src, Forall whole ps -> (length ps <= fuel)%nat -> carries src (frames (map (fun p => bs_message_to_pb (fst p)) ps) ++ rest) ->
  exists src', carries src' rest /\ loop_said sha256 blake2b256 quote utf8 fuel src =
    (let '(t, r, s) := loop_said sha256 blake2b256 quote utf8 (fuel - length ps) src' in (lines (flat_map (fun p => received_lines quote (fst p) (snd p)) ps) ++ t, r, s)).
Proof.
  induction ps as [|p ps IH]; intros fuel rest src W L C.
  - exists src. split; [exact C|]. cbn [length]. rewrite Nat.sub_0_r. destruct (loop_said sha256 blake2b256 quote utf8 fuel src) as [[t r] s]. reflexivity.
  - destruct fuel as [|fuel]; [cbn in L; lia|]. inversion W as [|? ? W1 W2]; subst. unfold frames in C. cbn [map concat] in C. rewrite <- app_assoc in C.
    destruct (loop_text fuel p _ src W1 C) as (s1 & C1 & ->). destruct (IH fuel rest s1 W2 ltac:(cbn in L; lia) C1) as (s2 & C2 & ->).
    exists s2. split; [exact C2|]. cbn [length Nat.sub flat_map]. destruct (loop_said sha256 blake2b256 quote utf8 (fuel - length ps) s2) as [[t r] s].
    rewrite lines_app, <- app_assoc. reflexivity.
Qed.
End Text.
(** The first lines. *)
Definition opening (show : option bytes) : list bytes :=
  ascii_bytes "[bitswap] starting" :: match show with None => [] | Some _ => [ascii_bytes "Before sending request"; ascii_bytes "After sending request"] end.
(** C129: whatever messages with directories arrive, in any pieces: all that is printed, line
    by line.  What is wanted, the fields of each message, and of each block its prefix, CID,
    node, data and entries. *)
Theorem C129_exact sha256 blake2b256 quote utf8 io show ps src :
  (forall text, show = Some text -> exists c, cid_from_string text = Ok c) ->
  Forall (whole sha256 blake2b256) ps -> carries src (frames (map (fun p => bs_message_to_pb (fst p)) ps)) ->
  handler_said sha256 blake2b256 quote utf8 io show src =
    (lines (opening show ++ flat_map (fun p => received_lines quote (fst p) (snd p)) ps ++
            [ascii_bytes "[bitswap] peer closed connection"; ascii_bytes "[bitswap] finished"]), Some (Ok tt)).
Proof.
  intros Sh W C. rewrite <- (app_nil_r (frames _)) in C.
  assert (X : exists src', loop_said sha256 blake2b256 quote utf8 (S (length src)) src =
    (lines (flat_map (fun p => received_lines quote (fst p) (snd p)) ps) ++ say (ascii_bytes "[bitswap] peer closed connection"), Some (Ok tt), src')).
  { assert (L : (length ps <= length src)%nat).
    { destruct C as [_ E]. rewrite app_nil_r in E. pose proof (bytes_of_length src) as Lb. rewrite E in Lb.
      pose proof (frames_length (map (fun p => bs_message_to_pb (fst p)) ps)) as Lf. rewrite map_length in Lf. lia. }
    destruct (loop_texts sha256 blake2b256 quote utf8 ps (S (length src)) [] src W ltac:(lia) C) as (s1 & [C1 E1] & ->).
    replace (S (length src) - length ps)%nat with (S (length src - length ps)) by lia. cbn [loop_said].
    destruct (read_opt_message None s1) as [[r lim] src'] eqn:R. apply none_spec in R; [|exact C1].
    destruct R as (r0 & -> & -> & C' & _ & R). rewrite E1, flat_nil in R. assert (r0 = Ok None) as -> by congruence. exists src'. reflexivity. }
  destruct X as (src' & X). unfold handler_said, inner_said. rewrite X. destruct show as [text|].
  - destruct (Sh text eq_refl) as (c & ->). f_equal. unfold opening. cbn [app]. rewrite !lines_cons, lines_app, !lines_cons. cbn [lines flat_map].
    rewrite <- !app_assoc, app_nil_r. reflexivity.
  - f_equal. unfold opening. cbn [app]. rewrite !lines_cons, lines_app, !lines_cons. cbn [lines flat_map]. rewrite <- !app_assoc, app_nil_r. reflexivity.
Qed.
Print Assumptions C129_exact.
(** C129: whatever follows such messages, their lines come first; and the last line says
    how the handler ended. *)
Theorem C129_first_and_last sha256 blake2b256 quote utf8 io ps src rest : Forall (whole sha256 blake2b256) ps ->
  carries src (frames (map (fun p => bs_message_to_pb (fst p)) ps) ++ rest) ->
  exists more, let (text, result) := handler_said sha256 blake2b256 quote utf8 io None src in
  text = lines (opening None ++ flat_map (fun p => received_lines quote (fst p) (snd p)) ps) ++ more ++
    match result with
    | Some (Ok _) => lines [ascii_bytes "[bitswap] finished"]
    | Some (Err e) => lines [ascii_bytes "[bitswap] error: " ++ bs_error_text quote utf8 io [] e]
    | _ => []
    end.
Proof.
  intros W C.
  assert (L : (length ps <= length src)%nat).
  { destruct C as [_ E]. pose proof (bytes_of_length src) as Lb. rewrite E, app_length in Lb.
    pose proof (frames_length (map (fun p => bs_message_to_pb (fst p)) ps)) as Lf. rewrite map_length in Lf. lia. }
  destruct (loop_texts sha256 blake2b256 quote utf8 ps (S (length src)) rest src W ltac:(lia) C) as (s1 & _ & X).
  unfold handler_said, inner_said. rewrite X. destruct (loop_said sha256 blake2b256 quote utf8 (S (length src) - length ps) s1) as [[t r] s]. exists t.
  unfold opening. rewrite lines_app, lines_cons, <- !app_assoc. cbn [lines flat_map app]. f_equal. f_equal. f_equal. destruct r as [[u|e|]|]; cbn [lines flat_map]; rewrite ?app_nil_r; reflexivity.
Qed.
Print Assumptions C129_first_and_last.

(** C129: the line of a directory entry determines the entry. *)
Theorem C129_row_determines e e' : cid_shown (de_cid e) -> cid_shown (de_cid e') -> row e = row e' -> e = e'.
Proof.
  intros C C' H. unfold row in H.
  assert (P : forall k (t : bytes), exists m, repeat 32 k ++ [32] ++ t = 32 :: repeat 32 m ++ t /\ m = k).
  { intros k t. exists k. split; [|reflexivity]. rewrite app_comm_cons, app_assoc. f_equal. change (32 :: repeat 32 k) with (repeat 32 (S k)).
    rewrite <- (repeat_cons k 32). reflexivity. }
  assert (Fr : forall c, cid_shown c -> ~ In 32 (cid_to_string c)).
  { intros c (K & _) X. pose proof (cid_words c K) as W. rewrite Forall_forall in W. apply W in X. unfold word in X. lia. }
  destruct (P (64 - length (cid_to_string (de_cid e)))%nat (decimal (de_tsize e) ++ repeat 32 (12 - length (decimal (de_tsize e))) ++ [32] ++ de_name e)) as (m & X & Em).
  destruct (P (64 - length (cid_to_string (de_cid e')))%nat (decimal (de_tsize e') ++ repeat 32 (12 - length (decimal (de_tsize e'))) ++ [32] ++ de_name e')) as (m' & X' & Em').
  rewrite X, X' in H. apply split_at in H; [|apply Fr; assumption..]. destruct H as (H1 & H).
  rewrite Em, Em', H1 in H. apply app_inv_head in H.
  destruct (P (12 - length (decimal (de_tsize e)))%nat (de_name e)) as (n & Y & En). destruct (P (12 - length (decimal (de_tsize e')))%nat (de_name e')) as (n' & Y' & En').
  rewrite Y, Y' in H. apply split_at in H; [|apply decimal_free; lia..]. destruct H as (H2 & H). rewrite En, En', H2 in H. apply app_inv_head in H.
  apply decimal_inj in H2. apply cid_string_inj in H1; [|assumption..]. clear - H H1 H2. destruct e as [x1 x2 x3], e' as [y1 y2 y3]. cbn in H, H1, H2. congruence.
Qed.
Print Assumptions C129_row_determines.

(** C129, refuted in part: the number after [data.len() =] is never the length of the data of
    the block; it is the length of the whole message. *)
Lemma in_ser_longer es n b : In (EB n b) es -> (length b < length (ser es))%nat.
Proof.
  unfold ser. induction es as [|e es IH]; intros H; [destruct H|]. cbn [map concat]. rewrite app_length. destruct H as [->|H].
  - cbn [ef_ser]. unfold f_bytes. rewrite !app_length. destruct (encode_well_terminated (8 * n + 2)) as (x & y & E & _). rewrite E, app_length. cbn [length]. lia.
  - apply IH in H. lia.
Qed.

Theorem C129_data_size_refuted quote m xs x i : bm_blocks m = map sw_block xs -> nth_error xs i = Some x ->
  exists before after size, received_lines quote m xs = before ++ block_lines quote size i x ++ after /\ size <> blen (bl_data (sw_block x)).
Proof.
  intros B X. set (size := blen (bs_message_to_pb m)).
  assert (G : forall xs i k, nth_error xs i = Some x -> exists before after, blocks_lines quote size k xs = before ++ block_lines quote size (k + i) x ++ after).
  { clear. induction xs as [|a xs IH]; intros [|i] k H; try discriminate; cbn [nth_error blocks_lines] in *.
    - injection H as ->. rewrite Nat.add_0_r. exists [], (blocks_lines quote size (S k) xs). reflexivity.
    - destruct (IH i (S k) H) as (u & v & ->). exists (block_lines quote size k a ++ u), v. rewrite <- Nat.add_succ_comm, <- app_assoc. reflexivity. }
  destruct (G xs i O X) as (u & v & E). unfold received_lines. fold size. rewrite E. cbn [Nat.add].
  eexists (_ :: message_lines m ++ _ :: u), v, size. split; [cbn [app]; rewrite <- !app_assoc; reflexivity|].
  unfold size. rewrite bs_ser. assert (L : In (EB 3 (block_to_pb (sw_block x))) (bs_es m)).
  { unfold bs_es. apply in_or_app. right. apply in_map_iff. exists (sw_block x). split; [reflexivity|]. rewrite B. apply in_map. eapply nth_error_In. exact X. }
  apply in_ser_longer in L. rewrite block_ser in L. assert (M : In (EB 2 (bl_data (sw_block x))) (block_es (sw_block x))) by (right; left; reflexivity).
  apply in_ser_longer in M. unfold blen. lia.
Qed.
Print Assumptions C129_data_size_refuted.

(** C129, refuted in part: the lines need not be the handler's own.  Whatever line a peer
    chooses, there is a message that makes the handler print it as a line of its own. *)
Definition forged_cid : cid := {| cid_ver := CIDv1; cid_codec := CRaw; cid_hash_type := HSha2256; cid_hash := repeat 9 32 |}.
Definition forged_node (line : bytes) : pb_node :=
  {| nd_links := [{| lk_hash := forged_cid; lk_name := Some (10 :: line); lk_tsize := Some 0 |}]; nd_bytes := Some [8; 1] |}.
Definition forged_message (line : bytes) : bs_message :=
  {| bm_wantlist := None; bm_blocks := [{| bl_prefix := [1; 0x70; 0x12; 32]; bl_data := node_to_pb (forged_node line) |}];
     bm_payload := []; bm_block_presence := []; bm_pending_bytes := None |}.
Lemma f_bytes_length n b : n < 100 -> blen b < two64 -> blen (f_bytes n b) <= blen b + 20.
Proof.
  intros Hn Hb. unfold f_bytes. rewrite !blen_app. pose proof (encode_length_u64 (8 * n + 2)) as X. pose proof (encode_length_u64 (blen b)) as Y.
  unfold u64_ok, two64, blen in *. lia.
Qed.
Lemma f_uint64_length n b : n < 100 -> b < two64 -> blen (f_uint64 n b) <= 20.
Proof.
  intros Hn Hb. unfold f_uint64. rewrite !blen_app. pose proof (encode_length_u64 (8 * n)) as X. pose proof (encode_length_u64 b) as Y.
  unfold u64_ok, two64, blen in *. lia.
Qed.
Theorem C129_forged_refuted sha256 blake2b256 quote utf8 io line : str_ok line -> blen line < two32 ->
  exists before after, fst (handler_said sha256 blake2b256 quote utf8 io None (map Byte (write_message (bs_message_to_pb (forged_message line))))) =
    before ++ [10] ++ line ++ [10] ++ after.
Proof.
  intros [B U] L.
  assert (K : cid_ok forged_cid).
  { split; [|split; [exact Logic.I|split; [exact Logic.I|discriminate]]]. apply bytes_okb_spec. vm_compute. reflexivity. }
  assert (Kl : Forall link_ok (nd_links (forged_node line))).
  { constructor; [|constructor]. split; [exact K|]. split; [|reflexivity]. split; [apply bytes_ok_cons; split; [reflexivity|exact B]|exact U]. }
  assert (Kn : node_ok (forged_node line)) by (split; [exact Kl|repeat constructor]).
  assert (Lc : blen (cid_to_bytes forged_cid) = 36) by (vm_compute; reflexivity).
  assert (F1 : blen (link_to_pb {| lk_hash := forged_cid; lk_name := Some (10 :: line); lk_tsize := Some 0 |}) < two32 + 200).
  { rewrite link_ser. unfold ser, link_es. cbn [lk_hash lk_name lk_tsize opt_e app map concat ef_ser]. rewrite !blen_app.
    assert (Ln : blen (10 :: line) = blen line + 1) by (unfold blen; cbn [length]; lia).
    pose proof (f_bytes_length 1 (cid_to_bytes forged_cid) ltac:(lia)) as X1. pose proof (f_bytes_length 2 (10 :: line) ltac:(lia)) as X2.
    pose proof (f_uint64_length 3 0 ltac:(lia)) as X3. rewrite Lc in X1. rewrite Ln in X2. change (blen []) with 0. unfold two64, two32 in *. lia. }
  assert (F2 : blen (node_to_pb (forged_node line)) < two32 + 300).
  { rewrite node_ser. unfold ser, node_es, forged_node. cbn [nd_links nd_bytes opt_e app map concat ef_ser]. rewrite !blen_app.
    set (l := link_to_pb _) in *. clearbody l. pose proof (f_bytes_length 2 l ltac:(lia)) as X1. pose proof (f_bytes_length 1 [8; 1] ltac:(lia)) as X2.
    change (blen [8; 1]) with 2 in X2. change (blen []) with 0. unfold two64, two32 in *. lia. }
  assert (Fn : fits (node_to_pb (forged_node line))) by (unfold fits; unfold two64, two32 in *; lia).
  pose proof (node_round_trip _ Kn Fn) as R. set (data := node_to_pb (forged_node line)) in *.
  assert (Bd : bytes_ok data) by (unfold data; rewrite node_ser; apply ser_ok, node_es_wf, Kn).
  assert (F3 : fits (bs_message_to_pb (forged_message line))).
  { rewrite bs_ser. unfold ser, bs_es, forged_message. cbn [bm_wantlist bm_blocks opt_e app map concat ef_ser]. fold data.
    assert (F4 : blen (block_to_pb {| bl_prefix := [1; 112; 18; 32]; bl_data := data |}) < two32 + 400).
    { rewrite block_ser. unfold ser, block_es. cbn [bl_prefix bl_data map concat ef_ser]. rewrite !blen_app. clearbody data.
      pose proof (f_bytes_length 1 [1; 112; 18; 32] ltac:(lia)) as X1. pose proof (f_bytes_length 2 data ltac:(lia)) as X2.
      change (blen [1; 112; 18; 32]) with 4 in X1. change (blen []) with 0. unfold two64, two32 in *. lia. }
    set (b := block_to_pb _) in *. clearbody b. unfold fits. rewrite blen_app. pose proof (f_bytes_length 3 b ltac:(lia)) as X1.
    change (blen []) with 0. unfold two64, two32 in *. lia. }
  assert (U1 : exists u, fs_data_from_pb [8; 1] = Ok u /\ fd_type u = TDirectory) by (eexists; split; [vm_compute; reflexivity|reflexivity]).
  destruct U1 as (u & U1 & U2).
  set (e := {| de_cid := forged_cid; de_name := 10 :: line; de_tsize := 0 |}).
  set (x := {| sw_block := {| bl_prefix := [1; 0x70; 0x12; 32]; bl_data := data |};
               sw_prefix := {| cp_ver := CIDv1; cp_codec := CDagPB; cp_hash_type := HSha2256; cp_hash_size := 32 |};
               sw_cid := {| cid_ver := CIDv1; cid_codec := CDagPB; cid_hash_type := HSha2256; cid_hash := sha256 data |};
               sw_node := forged_node line; sw_data := u; sw_entries := [e] |}).
  assert (W : whole sha256 blake2b256 (forged_message line, [x])).
  { split; [split; [exact Logic.I|constructor; [|constructor]; split; [repeat constructor|exact Bd]]|]. split; [exact F3|]. split; [reflexivity|].
    constructor; [|constructor]. split; [vm_compute; reflexivity|]. split; [reflexivity|]. split; [exact R|]. split; [exists [8; 1]; split; [reflexivity|exact U1]|].
    cbn [sw_block bl_data x]. unfold fs_node_from_dagpb. rewrite R. cbn [map_err bind of_option forged_node nd_bytes]. rewrite U1. cbn [map_err bind]. rewrite U2. reflexivity. }
  assert (C : carries (map Byte (write_message (bs_message_to_pb (forged_message line)))) (frames (map (fun p => bs_message_to_pb (fst p)) [(forged_message line, [x])]))).
  { unfold frames. cbn [map concat fst]. rewrite app_nil_r. set (w := write_message _). clearbody w. split.
    - unfold clean. apply Forall_map, Forall_forall. intros ? _. exact Logic.I.
    - unfold bytes_of. clear. induction w as [|a w IH]; [reflexivity|]. cbn [map flat_map app]. rewrite IH. reflexivity. }
  rewrite (C129_exact sha256 blake2b256 quote utf8 io None _ _ (fun t H => match H in _ = y return match y with Some _ => _ | None => True end with eq_refl => Logic.I end) (Forall_cons _ W (Forall_nil _)) C).
  assert (Rw : exists r, row e = r ++ [10] ++ line).
  { unfold row. cbn [de_name e de_cid de_tsize]. eexists. rewrite !app_assoc. rewrite <- (app_assoc _ [10] line). reflexivity. }
  destruct Rw as (r & Rw).
  assert (Rin : In (row e) (opening None ++ flat_map (fun p => received_lines quote (fst p) (snd p)) [(forged_message line, [x])] ++
    [ascii_bytes "[bitswap] peer closed connection"; ascii_bytes "[bitswap] finished"])).
  { apply in_or_app. right. apply in_or_app. left. cbn [flat_map fst snd]. rewrite app_nil_r. unfold received_lines.
    apply in_or_app. right. apply in_or_app. right. apply in_or_app. right. cbn [blocks_lines]. rewrite app_nil_r. unfold block_lines. apply in_or_app. right. left. reflexivity. }
  cbn [fst]. set (ls := opening None ++ _) in *. clearbody ls. apply in_split in Rin. destruct Rin as (a & b & ->).
  exists (lines a ++ r), (lines b). rewrite lines_app, lines_cons. unfold say. rewrite Rw, <- !app_assoc. reflexivity.
Qed.
Print Assumptions C129_forged_refuted.

(** Examples: a peer that says the handler failed; the rows of a directory. *)
Example C129_example_forged : exists before,
  fst (handler_said (fun _ => repeat 5 32) (fun _ => repeat 6 32) (fun s => s) [] (fun _ => []) None
    (map Byte (write_message (bs_message_to_pb (forged_message (ascii_bytes "[bitswap] error: disk full")))))) =
  before ++ lines (map ascii_bytes [""; "[bitswap] error: disk full"; "[bitswap] peer closed connection"; "[bitswap] finished"]).
Proof. set (t := fst _). vm_compute in t. exists (firstn (length t - 80) t). vm_compute. reflexivity. Qed.
Example C129_example_row :
  row {| de_cid := forged_cid; de_name := ascii_bytes "a b"; de_tsize := 1234 |} =
  ascii_bytes "bafkreiajbeeqscijbeeqscijbeeqscijbeeqscijbeeqscijbeeqscijbe" ++ repeat 32 6 ++ ascii_bytes "1234         a b".
Proof. vm_compute. reflexivity. Qed.
Definition wanting : bs_message :=
  {| bm_wantlist := Some {| wl_entries := [{| en_block := cid_to_bytes forged_cid; en_priority := 1; en_cancel := false; en_want_type := WBlock; en_send_dont_have := true |}]; wl_full := false |};
     bm_blocks := []; bm_payload := []; bm_block_presence := []; bm_pending_bytes := None |}.
Example C129_example_wanting : forall sha256 blake2b256 quote utf8 io,
  handler_said sha256 blake2b256 quote utf8 io None (map Byte (write_message (bs_message_to_pb wanting))) =
  (lines (map ascii_bytes
    ["[bitswap] starting"; "[bitswap] received 48 bytes:"; "Message: field 1 wire_type 2"; "    WantList: field 1 wire_type 2";
     "        Entry: field 1 wire_type 2"; "        Entry: field 2 wire_type 0"; "        Entry: field 4 wire_type 0"; "        Entry: field 5 wire_type 0";
     "Parsed CID: CID {"; "    version: CIDv1,"; "    codec: Raw,"; "    hash_type: Sha2256,"; "    hash: 0909090909090909090909090909090909090909090909090909090909090909,"; "}";
     "CID = bafkreiajbeeqscijbeeqscijbeeqscijbeeqscijbeeqscijbeeqscijbe"; "**************** Encoded message matches? true";
     "[bitswap] peer closed connection"; "[bitswap] finished"]), Some (Ok tt)).
Proof. intros. vm_compute. reflexivity. Qed.
