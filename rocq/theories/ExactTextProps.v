(** Exact texts, where the other theorems of a claim leave them open: C103, C105, C107, C109,
    C119, C121, C123 and C124. *)
From Coq Require Import String Ascii.
From Verif Require Import Base BaseProofs UtilModel UtilProps ChatModel HexDumpModel BencodeModel BencodePathModel Asn1Model Asn1ToolModel CidModel UnixfsModel VarintModel NamesModel
  TlsRecordModel CheckProgModel QuicToolModel RelayModel RelayProps DemoModel DemoProps.
From Verif Require ToolsModel.
Local Open Scope string_scope. Local Open Scope list_scope. Local Open Scope N_scope.

(** Pieces with a separator between them. *)
Fixpoint between (sep : bytes) (l : list bytes) : bytes :=
  match l with [] => [] | [x] => x | x :: l => x ++ sep ++ between sep l end.

(** ** C107: how a byte is shown: between quotes if it is a printable ASCII character, else as
    two hexadecimal digits. *)
Definition printable_text : string := " !""#$%&'()*+,-./0123456789:;<=>?@ABCDEFGHIJKLMNOPQRSTUVWXYZ[\]^_`abcdefghijklmnopqrstuvwxyz{|}~".
Definition shown_byte (b : N) : bytes := if existsb (N.eqb b) (ascii_bytes printable_text) then [39; b; 39] else ascii_bytes "0x" ++ to_hex [b].
Theorem C107_byte_text b : byte_ok b -> byte_repr b = shown_byte b.
Proof.
  intros H. assert (E : forall c, c < 256 -> bytes_eqb (byte_repr c) (shown_byte c) = true); [|apply bytes_eqb_eq, E, H].
  apply byte_sweep. vm_compute. reflexivity.
Qed.
Print Assumptions C107_byte_text.
Example C107_byte_text_case : byte_repr 101 = ascii_bytes "'e'" /\ byte_repr 10 = ascii_bytes "0x0a" /\ byte_repr 255 = ascii_bytes "0xff".
Proof. repeat split; vm_compute; reflexivity. Qed.

(** ** C103: the strokes of the tree, and the text of a bit string: the numbers of its bytes,
    not the bytes. *)
Definition utf8 (c : N) : bytes := [224 + c / 4096; 128 + c / 64 mod 64; 128 + c mod 64].
Theorem C103_strokes :
  branch = utf8 0x251c ++ utf8 0x2500 ++ utf8 0x2500 ++ ascii_bytes " " /\ corner = utf8 0x2514 ++ utf8 0x2500 ++ utf8 0x2500 ++ ascii_bytes " " /\
  bar = utf8 0x2502 ++ ascii_bytes "   " /\ blank = ascii_bytes "    ".
Proof. repeat split; vm_compute; reflexivity. Qed.
Print Assumptions C103_strokes.
Theorem C103_bits_debug u d : (length d <= N.to_nat 256)%nat ->
  bit_string_debug u d = to_hex (map N.of_nat (seq 0 (length d))) ++ ascii_bytes " (unused " ++ decimal u ++ ascii_bytes ")".
Proof.
  intros L. unfold bit_string_debug. f_equal. unfold to_hex. rewrite flat_map_concat_map, (flat_map_concat_map _ (map _ _)), map_map. f_equal. apply map_ext_in.
  intros i H. apply in_seq in H. assert (B : N.of_nat i < 256) by lia. generalize dependent (N.of_nat i). clear. intros c B.
  assert (E : forall c, c < 256 -> bytes_eqb ((if c <? 16 then ascii_bytes "0" else []) ++ hex_number c) [lower_hex_digit (c / 16); lower_hex_digit (c mod 16)] = true); [|apply bytes_eqb_eq, E, B].
  apply byte_sweep. vm_compute. reflexivity.
Qed.
Print Assumptions C103_bits_debug.
Example C103_bits_debug_case : bit_string_debug 3 [200; 100; 50] = ascii_bytes "000102 (unused 3)".
Proof. vm_compute. reflexivity. Qed.

(** ** C119: a buffer: the bytes in hexadecimal, blanks between, in angle brackets. *)
Theorem C119_buffer d : buffer_text d = ascii_bytes "<" ++ between (ascii_bytes " ") (map (fun b => to_hex [b]) d) ++ ascii_bytes ">".
Proof.
  unfold buffer_text. f_equal. f_equal.
  assert (E : forall d, spaced false d = flat_map (fun b => ascii_bytes " " ++ to_hex [b]) d).
  { intros l. induction l as [|b l IH]; [reflexivity|]. cbn [spaced flat_map]. rewrite IH, <- app_assoc. reflexivity. }
  destruct d as [|b d]; [reflexivity|]. cbn [spaced map]. rewrite E. clear E. revert b. induction d as [|c d IH]; intros b; [cbn [flat_map map between app]; apply app_nil_r|].
  cbn [flat_map map between app] in *. rewrite <- IH. cbn [app]. reflexivity.
Qed.
Print Assumptions C119_buffer.
Example C119_buffer_case : buffer_text [1; 171] = ascii_bytes "<01 ab>".
Proof. vm_compute. reflexivity. Qed.

(** ** C109: the complaints of the self test about its arguments. *)
Theorem C109_self_test_usage quoted read :
  ToolsModel.test_main quoted read [] = ToolsModel.fail [] (ascii_bytes "Please specify numbers filename") /\
  (forall file, ToolsModel.test_main quoted read [file] = ToolsModel.fail [] (ascii_bytes "Please specify base")) /\
  (forall file name more, ToolsModel.for_name_text name = None -> ToolsModel.test_main quoted read (file :: name :: more) = ToolsModel.fail [] (ascii_bytes "Unknown base: " ++ name)) /\
  (forall out err, ToolsModel.fail out err = {| ToolsModel.r_out := out; ToolsModel.r_err := err ++ [10]; ToolsModel.r_ok := false |}).
Proof. split; [reflexivity|]. split; [reflexivity|]. split; [|reflexivity]. intros file name more H. cbn [ToolsModel.test_main]. rewrite H. reflexivity. Qed.
Print Assumptions C109_self_test_usage.

(** ** C123: the texts of the errors of varints and CIDs. *)
Theorem C123_texts :
  map varint_error_text [Overflow; MissingFinalByte; MisplacedFinalByte] = ["Overflow"; "MissingFinalByte"; "MisplacedFinalByte"] /\
  map cid_error_text [CEmpty; CUnsupportedVersion; CInvalidCodec; CInvalidHashType; CInvalidHashSize; CHashSizeMismatch] =
    ["Empty CID"; "Unsupported version"; "Missing or invalid codec"; "Missing or invalid hash type"; "Missing or invalid hash size"; "Hash size mismatch"] /\
  (forall debug other, fs_error_text debug other DMissingData = ascii_bytes "DAG-PB bytes field is None" /\
     fs_error_text debug other DFileDataAndLinks = ascii_bytes "Node marked as type File, but has data and links present" /\
     (forall n, fs_error_text debug other (DEntryMissingFilename n) = ascii_bytes "Directory entry " ++ decimal (N.of_nat n) ++ ascii_bytes " has no filename") /\
     (forall n, fs_error_text debug other (DEntryMissingSize n) = ascii_bytes "Directory entry " ++ decimal (N.of_nat n) ++ ascii_bytes " has no size") /\
     (forall s, fs_error_text debug other (DEntryDuplicateFilename s) = ascii_bytes "Directory has duplicate filename: " ++ debug s) /\
     (forall op, fs_error_text debug other (DUnimplemented op) = ascii_bytes "Unimplemented: " ++ ascii_bytes op) /\
     (forall e, fs_error_text debug other (DOther e) = other e)).
Proof. repeat split. Qed.
Print Assumptions C123_texts.

(** ** C124: what the check of AES prints when it succeeds. *)
Definition titled (title : string) (d : bytes) : bytes :=
  ascii_bytes title ++ ascii_bytes " (" ++ decimal (blen d) ++ ascii_bytes " bytes) =" ++ [10] ++ indent (dump_alternate d) ++ [10].
Theorem C124_aes_text P rest key w : (forall w, length (rest w) = 16%nat) -> to_hex key = aes_key_text -> bytes_ok key ->
  seal P AES_256_GCM key (repeat 1 12) (ascii_bytes "hello") aes_sample = Some w ->
  unseal P AES_256_GCM key (repeat 1 12) (ascii_bytes "hello") w = Some aes_sample ->
  test_aes P rest = (titled "input_plaintext" aes_sample ++ titled "ciphertext" w ++ titled "output_plaintext" aes_sample ++ ascii_bytes "output == input ? true" ++ [10], Succeeds).
Proof.
  intros R Hk Bk Se Un. assert (K : from_hex aes_key_text = Some key) by (rewrite <- Hk; apply C19_hex_round_trip; exact Bk).
  assert (KL : length key = 32%nat). { vm_compute in K. injection K as <-. reflexivity. }
  unfold test_aes. rewrite K, KL. cbn [Nat.eqb negb]. cbv zeta. rewrite Se, Un, app_length, R. unfold tag_len.
  replace (length aes_sample + 16 <? 16)%nat with false by (symmetry; apply Nat.ltb_ge; lia).
  replace (length aes_sample + 16 - 16)%nat with (length aes_sample) by lia. rewrite firstn_app_length, bytes_eqb_refl. f_equal.
  unfold section_text, titled, line. rewrite <- !app_assoc. reflexivity.
Qed.
Print Assumptions C124_aes_text.
Example C124_aes_text_case : titled "x" [1] = ascii_bytes "x (1 bytes) =" ++ [10] ++ indent (dump_alternate [1]) ++ [10].
Proof. reflexivity. Qed.

(** ** C105: the proxy starts running and can take any connections. *)
Theorem C105_accepts_any o ins : exists x, proxy_run o ins x /\ x_running x = true /\
  x_conns x = map (fun i => {| c_up := pipe_new (fst i); c_down := pipe_new (snd i) |}) ins.
Proof.
  induction ins as [|[a b] ins (x & H & R & E)] using rev_ind; [exists proxy_new; split; [constructor|split; reflexivity]|].
  eexists. split; [apply (proxy_then o ins x (Some (a, b)) _ H); apply (proxy_accept o x a b R)|]. split; [reflexivity|]. cbn [x_conns]. rewrite map_app, E. reflexivity.
Qed.
Print Assumptions C105_accepts_any.
Example C105_accepts_any_case : exists x, proxy_run {| o_read_size := None; o_read_delay := None; o_write_size := None; o_write_delay := None |} [([1], [2]); ([], [3])] x /\ length (x_conns x) = 2%nat.
Proof. destruct (C105_accepts_any {| o_read_size := None; o_read_delay := None; o_write_size := None; o_write_delay := None |} [([1], [2]); ([], [3])]) as (x & H & _ & E). exists x. split; [exact H|]. rewrite E. reflexivity. Qed.

(** ** C121: all that manual_futures prints.  [n] ticks had passed before a poll, [m] have
    after it. *)
Definition ticks_after (n : nat) (polls : list nat) : nat := Nat.min 10 (list_sum (firstn n polls)).
Definition says (what : string) (n : nat) : bytes := ascii_bytes what ++ decimal (N.of_nat n) ++ [10].
Definition poll_says (n m : nat) : bytes :=
  flat_map (says "producer: count = ") (seq (n + 1) (m - n)) ++
  (if (n <? 5)%nat then says "ConsumerFuture::poll: count = " m else []) ++
  (if (n <? 5)%nat && (5 <=? m)%nat then says "consumer: res = " m else []).
Definition program_says (polls : list nat) : bytes :=
  flat_map (fun i => poll_says (ticks_after i polls) (ticks_after (i + 1) polls)) (seq 0 (length polls)).
Lemma producer_says k : forall j, j_produced j = (10 <=? j_count j) -> j_count j <= 10 ->
  j_out (poll_producer k j) = j_out j ++ flat_map (says "producer: count = ") (seq (N.to_nat (j_count j) + 1) (Nat.min 10 (N.to_nat (j_count j) + k) - N.to_nat (j_count j))).
Proof.
  induction k as [|k IH]; intros j Pj L.
  - assert (Z0 : poll_producer 0 j = j) by (cbn [poll_producer]; destruct (j_produced j); reflexivity). rewrite Z0. replace (Nat.min 10 (N.to_nat (j_count j) + 0) - N.to_nat (j_count j))%nat with 0%nat by lia. cbn. rewrite app_nil_r. reflexivity.
  - cbn [poll_producer]. destruct (j_produced j) eqn:Q; symmetry in Pj.
    + replace (Nat.min 10 (N.to_nat (j_count j) + Datatypes.S k) - N.to_nat (j_count j))%nat with 0%nat by (apply N.leb_le in Pj; lia). cbn. rewrite app_nil_r. reflexivity.
    + apply N.leb_gt in Pj. rewrite IH; cbn [j_count j_produced j_out]; [|reflexivity|lia].
      replace (Nat.min 10 (N.to_nat (j_count j) + Datatypes.S k) - N.to_nat (j_count j))%nat with (Datatypes.S (Nat.min 10 (N.to_nat (j_count j + 1) + k) - N.to_nat (j_count j + 1))) by lia.
      cbn [seq flat_map]. replace (Datatypes.S (N.to_nat (j_count j) + 1)) with (N.to_nat (j_count j + 1) + 1)%nat by lia.
      unfold says at 2. replace (N.of_nat (N.to_nat (j_count j) + 1)) with (j_count j + 1) by lia. rewrite <- !app_assoc. reflexivity.
Qed.
Theorem C121_join_output polls : j_out (joined_runs polls) = program_says polls.
Proof.
  induction polls as [|k polls IH] using rev_ind; [reflexivity|].
  unfold program_says. rewrite app_length. cbn [length]. rewrite seq_app, flat_map_app. cbn [seq flat_map plus]. rewrite app_nil_r.
  assert (E : flat_map (fun i => poll_says (ticks_after i (polls ++ [k])) (ticks_after (i + 1) (polls ++ [k]))) (seq 0 (length polls)) = program_says polls).
  { unfold program_says. rewrite !flat_map_concat_map. f_equal. apply map_ext_in. intros i H. apply in_seq in H. unfold ticks_after. rewrite !firstn_app.
    replace (i - length polls)%nat with 0%nat by lia. replace (i + 1 - length polls)%nat with 0%nat by lia. cbn [firstn]. rewrite !app_nil_r. reflexivity. }
  rewrite E, <- IH. clear E IH.
  assert (T1 : ticks_after (length polls) (polls ++ [k]) = Nat.min 10 (list_sum polls)) by (unfold ticks_after; rewrite firstn_app_length; reflexivity).
  assert (T2 : ticks_after (length polls + 1) (polls ++ [k]) = Nat.min 10 (list_sum polls + k)) by (unfold ticks_after; rewrite firstn_all2 by (rewrite app_length; cbn; lia); rewrite list_sum_app; cbn; rewrite Nat.add_0_r; reflexivity).
  rewrite T1, T2. clear T1 T2. destruct (joined_inv polls) as (A & B & C). 
  assert (Rn : j_result (joined_runs polls) = None <-> (list_sum polls < 5)%nat).
  { rewrite C. clear. induction polls as [|k polls IH] using rev_ind; [cbn; split; [lia|reflexivity]|]. rewrite counts_snoc, find_snoc, list_sum_app. cbn [list_sum fold_right].
    destruct (find _ (counts polls)) as [y|]; [split; [discriminate|intros H; destruct IH as [_ IH]; discriminate (IH ltac:(lia))]|]. destruct (5 <=? _) eqn:G; [apply N.leb_le in G; split; [discriminate|lia]|apply N.leb_gt in G; split; [lia|reflexivity]]. }
  unfold joined_runs in *. rewrite fold_left_app. cbn [fold_left]. set (j := fold_left poll_join polls joined_init) in *. clearbody j. cbn zeta in *.
  destruct (producer_count k j) as (D & E & F); [lia|exact B|]. unfold poll_join, poll_consumer. rewrite F. 
  assert (O : j_out (poll_producer k j) = j_out j ++ flat_map (says "producer: count = ") (seq (Nat.min 10 (list_sum polls) + 1) (Nat.min 10 (list_sum polls + k) - Nat.min 10 (list_sum polls)))).
  { rewrite producer_says by (lia || exact B). rewrite A. do 2 f_equal. f_equal; lia. }
  assert (Cn : N.of_nat (Nat.min 10 (list_sum polls + k)) = j_count (poll_producer k j)) by lia.
  unfold poll_says. unfold says at 2 3. rewrite Cn.
  destruct (j_result j) as [r|].
  - replace (Nat.min 10 (list_sum polls) <? 5)%nat with false by (symmetry; apply Nat.ltb_ge; destruct (le_lt_dec 5 (list_sum polls)) as [|G]; [lia|]; discriminate (proj2 Rn G)). cbn [andb app]. rewrite app_nil_r. exact O.
  - pose proof (proj1 Rn eq_refl) as G. replace (Nat.min 10 (list_sum polls) <? 5)%nat with true by (symmetry; apply Nat.ltb_lt; lia). cbn [andb].
    replace (5 <=? Nat.min 10 (list_sum polls + k))%nat with (5 <=? j_count (poll_producer k j)) by (rewrite D; destruct (5 <=? N.min 10 (j_count j + N.of_nat k)) eqn:X; symmetry; [apply N.leb_le in X; apply Nat.leb_le; lia|apply N.leb_gt in X; apply Nat.leb_gt; lia]).
    destruct (5 <=? j_count (poll_producer k j)); cbn [j_out]; rewrite O, <- !app_assoc; [|rewrite app_nil_r]; reflexivity.
Qed.
Print Assumptions C121_join_output.
Example C121_join_output_case : j_out (joined_runs [0; 4; 2; 9]%nat) = program_says [0; 4; 2; 9]%nat /\
  firstn 32 (program_says [0; 4; 2; 9]%nat) = says "ConsumerFuture::poll: count = " 0 /\ skipn (length (program_says [0; 4; 2; 9]%nat) - 41) (program_says [0; 4; 2; 9]%nat) = says "producer: count = " 9 ++ says "producer: count = " 10.
Proof. split; [apply C121_join_output|]. split; vm_compute; reflexivity. Qed.
