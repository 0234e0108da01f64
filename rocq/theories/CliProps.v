(** C111: the command line tool cli.  C112: the texts of addresses. *)
From Verif Require Import Base BaseProofs VarintModel VarintSpec VarintProofs ProtobufModel ProtobufSpec ProtobufProofs ProtobufOps UtilModel UtilProps CidModel CidSpec CidTextModel CidTextSpec CidTextProofs CidProps IdentifyModel MessageSpec MessageProofs2 MessageProofs3 MessageProps ChatModel ChatProps2 Asn1ToolModel Asn1PrintProps HexDumpModel HexDumpProps ToolsModel ToolsProps CliModel.
Local Open Scope string_scope. Local Open Scope list_scope. Local Open Scope N_scope.

(** C111: [cid] prints a CID exactly when the argument is the text of one, and nothing
    otherwise. *)
Definition cid_report (c : cid) : bytes :=
  ascii_bytes "Plain: " ++ cid_to_string c ++ [10] ++ ascii_bytes "Debug: " ++ cid_debug c ++ [10].
Theorem C111_cid : forall s more out, fits s ->
  (cid_command (s :: more) = (out, Done) <-> exists c, cid_text s c /\ out = cid_report c) /\
  (cid_command (s :: more) = ([], Failed) <-> ~ exists c, cid_text s c) /\
  snd (cid_command (s :: more)) <> Panicked.
Proof.
  intros s more out F. unfold cid_command, get_argument. cbn [nth_error].
  pose proof (fun c => C26_cid_text_exact s c F) as X. pose proof (cid_from_string_not_panic s F) as NP.
  destruct (cid_from_string s) as [c|e|]; [| |congruence].
  - split; [|split; [|discriminate]].
    + split.
      * intros H. injection H as <-. exists c. split; [apply X; reflexivity|reflexivity].
      * intros (d & D & ->). apply X in D. injection D as ->. reflexivity.
    + split; [discriminate|]. intros N. destruct N. exists c. apply X. reflexivity.
  - split; [|split; [|discriminate]].
    + split; [discriminate|]. intros (d & D & _). apply X in D. discriminate.
    + split; [|reflexivity]. intros _ (d & D). apply X in D. discriminate.
Qed.
Print Assumptions C111_cid.
(** C111: the plain text it prints stands for the same CID: asked again about it, the
    tool gives the same answer. *)
Theorem C111_cid_again : forall s c more more', fits s -> cid_text s c -> cid_ok c -> fits (cid_to_string c) -> fits (cid_hash c) ->
  cid_text (cid_to_string c) c /\
  cid_command (cid_to_string c :: more) = cid_command (s :: more').
Proof.
  intros s c more more' F T O F' Fh. pose proof (proj1 (C25_cid_text_round_trip c O F' Fh)) as R.
  split; [apply C26_cid_text_exact; assumption|]. apply C26_cid_text_exact in T; [|exact F].
  unfold cid_command, get_argument. cbn [nth_error]. rewrite R, T. reflexivity.
Qed.
Print Assumptions C111_cid_again.
Lemma unknown_inj v w a b : unknown_text v ++ 44 :: a = unknown_text w ++ 44 :: b -> v = w /\ a = b.
Proof.
  unfold unknown_text. intros H. rewrite <- !app_assoc in H. do 3 apply app_inv_head in H.
  change (ascii_bytes "," ++ [10] ++ ascii_bytes "    )" ++ 44 :: a) with (44 :: [10; 32; 32; 32; 32; 41; 44] ++ a) in H.
  change (ascii_bytes "," ++ [10] ++ ascii_bytes "    )" ++ 44 :: b) with (44 :: [10; 32; 32; 32; 32; 41; 44] ++ b) in H.
  apply split_at in H as (E & H); [|apply decimal_free; lia..]. apply decimal_inj in E. apply app_inv_head in H. auto.
Qed.
Lemma codec_inj c d a b : codec_text c ++ 44 :: a = codec_text d ++ 44 :: b -> c = d /\ a = b.
Proof.
  intros H. destruct c, d; try (apply unknown_inj in H as (-> & ->); auto);
    try (split; [reflexivity|]; apply app_inv_head in H; injection H as H; exact H); discriminate H.
Qed.
Lemma hash_inj c d a b : hash_text c ++ 44 :: a = hash_text d ++ 44 :: b -> c = d /\ a = b.
Proof.
  intros H. destruct c, d; try (apply unknown_inj in H as (-> & ->); auto);
    try (split; [reflexivity|]; apply app_inv_head in H; injection H as H; exact H); discriminate H.
Qed.
Lemma version_inj c d a b : version_text c ++ 44 :: a = version_text d ++ 44 :: b -> c = d /\ a = b.
Proof. intros H. destruct c, d; try discriminate H; (split; [reflexivity|]; apply app_inv_head in H; injection H as H; exact H). Qed.
(** C111: the debug text tells everything about the CID. *)
Theorem C111_debug_determines : forall c d, bytes_ok (cid_hash c) -> bytes_ok (cid_hash d) -> cid_debug c = cid_debug d -> c = d.
Proof.
  intros [v k t h] [v' k' t' h'] B B' H. cbn [cid_hash] in *. unfold cid_debug in H. cbn [cid_ver cid_codec cid_hash_type cid_hash] in H.
  do 3 apply app_inv_head in H. change (ascii_bytes ",") with [44] in H. cbn [app] in H. apply version_inj in H as (-> & H). injection H as H.
  apply codec_inj in H as (-> & H). injection H as H. apply hash_inj in H as (-> & H). injection H as H.
  apply split_at in H as (H & _); [|apply to_hex_free; [assumption|apply not_hex; lia]..].
  apply to_hex_inj in H; [|assumption..]. subst. reflexivity.
Qed.
Print Assumptions C111_debug_determines.

(** C111: the varint self test never fails, whatever numbers are drawn. *)
Definition varint_line (gen : nat -> N) (i : nat) : bytes :=
  right10 (decimal (N.of_nat i)) ++ ascii_bytes " 0x" ++
  hex_padded 16 (gen (2 * i)%nat / 2 ^ (gen (2 * i + 1)%nat mod 64)) ++ ascii_bytes " OK" ++ [10].
Theorem C111_varint : forall gen rounds, (forall k, gen k < 2 ^ 64) ->
  varint_command gen rounds = (flat_map (varint_line gen) (seq 0 rounds), Done).
Proof.
  intros gen rounds G. unfold varint_command. generalize 0%nat as i. induction rounds as [|n IH]; intros i; [reflexivity|].
  cbn [varint_rounds seq flat_map]. set (v := N.shiftr (gen (2 * i)%nat) (gen (2 * i + 1)%nat mod 64)).
  assert (V : v = gen (2 * i)%nat / 2 ^ (gen (2 * i + 1)%nat mod 64)) by apply N.shiftr_div_pow2.
  assert (L : v < 2 ^ 64) by (rewrite V; eapply N.le_lt_trans; [apply N.div_le_upper_bound with (q := gen (2 * i)%nat); [apply N.pow_nonzero; discriminate|]|apply G];
    rewrite <- (N.mul_1_l (gen (2 * i)%nat)) at 1; apply N.mul_le_mono_r; assert (2 ^ (gen (2 * i + 1)%nat mod 64) <> 0) by (apply N.pow_nonzero; discriminate); lia).
  pose proof (read_from_encode [] v []) as R. cbn [app length] in R. rewrite app_nil_r in R. rewrite R. unfold vi_to_u64. rewrite decode_encode by exact L.
  rewrite N.eqb_refl, IH. unfold varint_line at 2. rewrite <- V, <- !app_assoc. reflexivity.
Qed.
Print Assumptions C111_varint.

(** C111: the protobuf demonstration shows the one field that was written, at offset 0,
    with the number and the value it was given. *)
Theorem C111_write_pbuf : forall n z, n < 2 ^ 32 -> (- 2 ^ 63 <= z < 2 ^ 63)%Z ->
  exists l, is_varint l (Z.to_N (z mod 2 ^ 64)) /\
  write_pbuf n z =
    (to_hex (write_int64 [] n z) ++ [10] ++
     ascii_bytes "offset 0x0000, field_number " ++ right2 (decimal n) ++ ascii_bytes ", data VarInt(" ++ spaced true l ++ ascii_bytes ")" ++ [10] ++
     ascii_bytes "value = " ++ signed_decimal z ++ [10], Done).
Proof.
  intros n z Hn Hz. exists (encode_u64 (int_as_u64 z)). split; [apply is_varint_encode, int_as_u64_ok|].
  unfold write_pbuf, write_int64. rewrite write_uint64_eq by exact Hn. cbn [app].
  pose proof (f_uint64_wire n (int_as_u64 z) Hn (int_as_u64_ok z)) as W. pose proof (f_uint64_ok n (int_as_u64 z)) as B.
  assert (Lt : forall v, u64_ok v -> (1 <= length (encode_u64 v) <= 10)%nat) by (intros v Hv; apply encode_length_u64, Hv).
  assert (L : (2 <= length (f_uint64 n (int_as_u64 z)) <= 20)%nat).
  { unfold f_uint64. rewrite app_length. pose proof (Lt (int_as_u64 z) (int_as_u64_ok z)). pose proof (Lt (8 * n) ltac:(unfold u64_ok, two64; lia)). lia. }
  set (d := f_uint64 n (int_as_u64 z)) in *. clearbody d.
  assert (G : good (reader_new d)) by (split; [cbn; lia|split; [exact B|unfold fits, blen, two64; cbn [reader_new rd_data]; lia]]).
  assert (E1 : rd_field (reader_new d) = Ok (Some (mk_ref 0 n (FVarInt (encode_u64 (int_as_u64 z))), advance (reader_new d) (length d)))).
  { apply rd_field_ok; [exact G|]. exists d, n, (FVarInt (encode_u64 (int_as_u64 z))), []. split; [cbn; rewrite app_nil_r; reflexivity|]. split; [exact W|]. split; reflexivity. }
  assert (E2 : rd_field (advance (reader_new d) (length d)) = Ok None) by (apply rd_field_none; cbn; lia).
  destruct (length d) as [|[|k]] eqn:K; [lia|lia|]. rewrite <- K in *. cbn [show_fields]. rewrite E1. cbn [mk_ref fr_data fr_offset fr_number].
  rewrite fd_int64 by (unfold i64_ok; exact Hz). rewrite K. cbn [show_fields]. rewrite <- K, E2. cbn [field_debug]. unfold bytes_spaces.
  rewrite app_nil_r, <- !app_assoc. reflexivity.
Qed.
Print Assumptions C111_write_pbuf.
Theorem C111_write_pbuf_command :
  write_pbuf_command =
    (ascii_bytes "18ebfdd990b8e1fbeeee01" ++ [10] ++
     ascii_bytes "offset 0x0000, field_number  3, data VarInt(eb fd d9 90 b8 e1 fb ee ee 01)" ++ [10] ++
     ascii_bytes "value = -1234567890123456789" ++ [10], Done).
Proof. vm_compute. reflexivity. Qed.
Print Assumptions C111_write_pbuf_command.

(** C111: the debug text of a field tells its kind and its bytes. *)
Definition field_ok (d : field_data) : Prop :=
  match d with
  | FVarInt b | FBytes b => bytes_ok b
  | FBits32 b => bytes_ok b /\ length b = 4%nat
  | FBits64 b => bytes_ok b /\ length b = 8%nat
  end.
Lemma padded_hex b : b < 256 -> hex_padded 2 b = [lower_hex_digit (b / 16); lower_hex_digit (b mod 16)].
Proof.
  intros V. assert (K : bytes_eqb (hex_padded 2 b) [lower_hex_digit (b / 16); lower_hex_digit (b mod 16)] = true)
    by (revert V; apply (byte_sweep (fun v => bytes_eqb (hex_padded 2 v) [lower_hex_digit (v / 16); lower_hex_digit (v mod 16)])); vm_compute; reflexivity).
  apply bytes_eqb_eq, K.
Qed.
Lemma flat_hex d : bytes_ok d -> flat_map (hex_padded 2) d = to_hex d.
Proof. induction d as [|b d IH]; intros B; [reflexivity|]. apply bytes_ok_cons in B as (B & D). cbn [flat_map]. rewrite padded_hex, IH by assumption. reflexivity. Qed.
Lemma digits_inj a b : a < 256 -> b < 256 -> hex_padded 2 a = hex_padded 2 b -> a = b.
Proof.
  intros A B H. assert (E : to_hex [a] = to_hex [b]) by (rewrite <- !flat_hex by (repeat constructor; assumption); cbn [flat_map]; rewrite H; reflexivity).
  apply to_hex_inj in E; [congruence|repeat constructor; assumption..].
Qed.
Lemma spaced_inj d : forall d' first a b, bytes_ok d -> bytes_ok d' -> spaced first d ++ 41 :: a = spaced first d' ++ 41 :: b -> d = d'.
Proof.
  induction d as [|x d IH]; intros [|y d'] first a b B B' H; [reflexivity| | |].
  - apply bytes_ok_cons in B' as (Y & _). exfalso. cbn [spaced] in H. rewrite padded_hex in H by exact Y. pose proof (hex_digit_char (y / 16) ltac:(apply N.div_lt_upper_bound; [discriminate|exact Y])) as C.
    destruct first; cbn [app] in H; [|discriminate H]. injection H as H _. rewrite <- H in C. revert C. unfold hex_char. lia.
  - apply bytes_ok_cons in B as (X & _). exfalso. cbn [spaced] in H. rewrite padded_hex in H by exact X. pose proof (hex_digit_char (x / 16) ltac:(apply N.div_lt_upper_bound; [discriminate|exact X])) as C.
    destruct first; cbn [app] in H; [|discriminate H]. injection H as H _. rewrite H in C. revert C. unfold hex_char. lia.
  - apply bytes_ok_cons in B as (X & B). apply bytes_ok_cons in B' as (Y & B'). cbn [spaced] in H. rewrite <- !app_assoc in H. apply app_inv_head in H.
    assert (E : hex_padded 2 x = hex_padded 2 y /\ spaced false d ++ 41 :: a = spaced false d' ++ 41 :: b).
    { rewrite !padded_hex in * by assumption. cbn [app] in H. injection H as H1 H2 H3. rewrite H1, H2. auto. }
    destruct E as (E & E'). apply digits_inj in E; [|assumption..]. subst y. f_equal. exact (IH d' false a b B B' E').
Qed.
Theorem C111_field_debug : forall d e, field_ok d -> field_ok e -> field_debug d = field_debug e -> d = e.
Proof.
  assert (S : forall label b b', bytes_ok b -> bytes_ok b' -> bytes_spaces label b = bytes_spaces label b' -> b = b').
  { intros label b b' B B' H. unfold bytes_spaces in H. do 2 apply app_inv_head in H. exact (spaced_inj b b' true [] [] B B' H). }
  assert (X : forall b b', bytes_ok b -> bytes_ok b' -> bytes_hex b = bytes_hex b' -> b = b').
  { intros b b' B B' H. unfold bytes_hex in H. apply app_inv_head in H. rewrite !flat_hex in H by assumption. apply to_hex_inj; assumption. }
  intros [b|b|b|b] [b'|b'|b'|b'] O O' H; cbn [field_ok field_debug] in *; try discriminate H; try (apply S in H; [congruence|assumption..]);
    destruct O as (B & L), O' as (B' & L'); apply X in H; try assumption; subst; congruence.
Qed.
Print Assumptions C111_field_debug.

(** C111: [getkey] shows the type and size of a private key exactly when the file holds
    one, and ends well exactly when OpenSSL reads it as an RSA key. *)
Theorem C111_getkey : forall read rsa file more data, read file = Some data -> bytes_ok data -> fits data ->
  let r := getkey_command read rsa (file :: more) in
  let head := ascii_bytes "data.len = " ++ decimal (blen data) ++ [10] in
  (forall k, key_msg data {| pk_type := sk_type k; pk_data := sk_data k |} ->
     let shown := head ++ ascii_bytes "Got private key (type " ++ key_type_text (sk_type k) ++ ascii_bytes ", " ++ decimal (blen (sk_data k)) ++ ascii_bytes " bytes)" ++ [10] in
     (forall t, rsa (sk_data k) = Some t -> r = (shown ++ ascii_bytes "pkey = " ++ t ++ [10], Done)) /\
     (rsa (sk_data k) = None -> r = (shown, Failed))) /\
  ((forall k, ~ key_msg data k) -> r = (head, Failed)).
Proof.
  intros read rsa file more data R B F. cbv zeta. unfold getkey_command, get_argument. cbn [nth_error]. rewrite R.
  assert (K : forall k, key_from_pb data = Ok k <-> key_msg data k) by (intros k; apply MessageProofs2.key_from_pb_ok; assumption).
  destruct (private_key_total data B F) as (NP & _).
  split.
  - intros [ty kd] M. apply K in M. cbn [sk_type sk_data] in *. unfold private_key_from_pb. rewrite M. cbn [bind pk_type pk_data sk_type sk_data]. split.
    + intros t ->. rewrite <- !app_assoc. reflexivity.
    + intros ->. rewrite <- !app_assoc. reflexivity.
  - intros N. unfold private_key_from_pb in *. destruct (key_from_pb data) as [k|e|] eqn:E; [destruct (N k); apply K; reflexivity|reflexivity|destruct NP; reflexivity].
Qed.
Print Assumptions C111_getkey.

(** C111: the commands; anything else, or no command, prints nothing and fails.  No
    command panics. *)
Theorem C111_commands : forall gen rounds read rsa name args,
  let r := cli_main gen rounds read rsa in
  r [] = ([], Failed) /\ r [name] = ([], Failed) /\
  r (name :: ascii_bytes "cid" :: args) = cid_command args /\
  r (name :: ascii_bytes "varint" :: args) = varint_command gen rounds /\
  r (name :: ascii_bytes "getkey" :: args) = getkey_command read rsa args /\
  r (name :: ascii_bytes "write-pbuf" :: args) = write_pbuf_command /\
  (forall c, ~ In c [ascii_bytes "cid"; ascii_bytes "varint"; ascii_bytes "getkey"; ascii_bytes "write-pbuf"] -> r (name :: c :: args) = ([], Failed)) /\
  cid_command [] = ([], Failed) /\ getkey_command read rsa [] = ([], Failed).
Proof.
  intros gen rounds read rsa name args. cbv zeta. repeat (split; [reflexivity|]). split; [|split; reflexivity].
  intros c N. unfold cli_main, get_argument. cbn [nth_error]. 
  assert (Q : forall t, In t [ascii_bytes "cid"; ascii_bytes "varint"; ascii_bytes "getkey"; ascii_bytes "write-pbuf"] -> bytes_eqb c t = false).
  { intros t I. destruct (bytes_eqb c t) eqn:E; [|reflexivity]. apply bytes_eqb_eq in E. subst t. contradiction. }
  rewrite !Q by (cbn [In]; tauto). reflexivity.
Qed.
Print Assumptions C111_commands.
Theorem C111_never_panics : forall gen rounds read rsa args, (forall k, gen k < 2 ^ 64) ->
  Forall fits args -> (forall f d, read f = Some d -> bytes_ok d /\ fits d) ->
  snd (cli_main gen rounds read rsa args) <> Panicked.
Proof.
  intros gen rounds read rsa args G F R. unfold cli_main, get_argument. destruct args as [|name [|c args]]; cbn [nth_error skipn]; try discriminate.
  assert (F' : Forall fits args) by (inversion F; subst; inversion H2; assumption).
  destruct (bytes_eqb c (ascii_bytes "cid")).
  { destruct args as [|s more]; [discriminate|]. destruct (C111_cid s more [] ltac:(inversion F'; assumption)) as (_ & _ & X). exact X. }
  destruct (bytes_eqb c (ascii_bytes "varint")); [rewrite C111_varint by exact G; discriminate|].
  destruct (bytes_eqb c (ascii_bytes "getkey")).
  { unfold getkey_command, get_argument. destruct args as [|file more]; [discriminate|]. cbn [nth_error]. destruct (read file) as [d|] eqn:E; [|discriminate].
    destruct (R _ _ E) as (B & Fd). destruct (private_key_total d B Fd) as (NP & _).
    destruct (private_key_from_pb d); [destruct (rsa _)| |congruence]; discriminate. }
  destruct (bytes_eqb c (ascii_bytes "write-pbuf")); [rewrite C111_write_pbuf_command|]; discriminate.
Qed.
Print Assumptions C111_never_panics.
Example C111_example :
  cid_debug {| cid_ver := CIDv1; cid_codec := CUnknown 300; cid_hash_type := HSha2256; cid_hash := [1; 171] |} =
    ascii_bytes "CID {" ++ [10] ++ ascii_bytes "    version: CIDv1," ++ [10] ++ ascii_bytes "    codec: Unknown(" ++ [10] ++
    ascii_bytes "        300," ++ [10] ++ ascii_bytes "    )," ++ [10] ++ ascii_bytes "    hash_type: Sha2256," ++ [10] ++
    ascii_bytes "    hash: 01ab," ++ [10] ++ ascii_bytes "}" /\
  fst (varint_command (fun k => N.of_nat k * 1000 + 7) 2) =
    ascii_bytes "         0 0x0000000000000000 OK" ++ [10] ++ ascii_bytes "         1 0x0000000000000000 OK" ++ [10] /\
  snd (cid_command [ascii_bytes "zzz"]) = Failed.
Proof. vm_compute. repeat split. Qed.

(** ** C112 *)
(** Addresses of their Rust types. *)
Definition shown_ok (a : addr) : Prop :=
  match a with
  | AIP4 o => bytes_ok o /\ length o = 4%nat
  | AIP6 o => bytes_ok o /\ length o = 16%nat
  | AUnknown _ d | AInvalid d => bytes_ok d
  | _ => True
  end.
(** What is assumed of the standard library's IPv6 texts: different addresses have
    different texts, made of hexadecimal digits, colons and dots. *)
Definition ip6_laws (ip6 : bytes -> bytes) : Prop :=
  (forall o, bytes_ok o -> length o = 16%nat -> Forall (fun c => hex_char c \/ c = 58 \/ c = 46) (ip6 o)) /\
  (forall o o', bytes_ok o -> bytes_ok o' -> length o = 16%nat -> length o' = 16%nat -> ip6 o = ip6 o' -> o = o').
(** The parts between the slashes. *)
Definition parts (ip6 : bytes -> bytes) (a : addr) : list bytes :=
  match a with
  | AIP4 o => [ascii_bytes "ipv4"; ip4_text o]
  | AIP6 o => [ascii_bytes "ipv6"; ip6 o]
  | ATCP p => [ascii_bytes "tcp"; decimal p]
  | AUDP p => [ascii_bytes "udp"; decimal p]
  | AQUIC => [ascii_bytes "quic"]
  | AUnknown proto d => [ascii_bytes "unknown"; decimal proto; to_hex d]
  | AInvalid d => [ascii_bytes "invalid"; to_hex d]
  end.
Definition slashed (l : list bytes) : bytes := flat_map (fun t => 47 :: t) l.
Lemma addr_text_parts ip6 a : addr_text ip6 a = slashed (parts ip6 a).
Proof. destruct a; unfold slashed; cbn [addr_text parts flat_map]; rewrite ?app_nil_r; reflexivity. Qed.
Lemma ip4_oid o : ip4_text o = oid_text o.
Proof.
  destruct o as [|b o]; [reflexivity|]. unfold ip4_text, oid_text. cbn [oid_text_from app]. f_equal.
  induction o as [|c o IH]; [reflexivity|]. cbn [flat_map oid_text_from]. rewrite IH, <- app_assoc. reflexivity.
Qed.
Lemma parts_free ip6 a : ip6_laws ip6 -> shown_ok a -> Forall (fun t => ~ In 47 t) (parts ip6 a).
Proof.
  intros (L & _) O.
  assert (W : forall t : string, ascii_bytes t = ascii_bytes t) by reflexivity.
  destruct a; cbn [parts shown_ok] in *; repeat constructor; try (cbn; lia); try (apply decimal_free; lia); try (apply to_hex_free; [exact O|apply not_hex; lia]).
  - rewrite ip4_oid. apply oid_free. lia.
  - intros X. destruct O as (B & K). specialize (L _ B K). rewrite Forall_forall in L. apply L in X. unfold hex_char in X. lia.
Qed.
Lemma slashed_inj l : forall l', Forall (fun t => ~ In 47 t) l -> Forall (fun t => ~ In 47 t) l' -> slashed l = slashed l' -> l = l'.
Proof.
  induction l as [|t l IH]; intros [|t' l'] F F' H; try reflexivity; try discriminate H.
  inversion F as [|? ? F1 F2]. inversion F' as [|? ? F1' F2']. subst. unfold slashed in H. cbn [flat_map] in H. injection H as H.
  assert (E : t = t' /\ slashed l = slashed l').
  { unfold slashed. destruct l as [|u l], l' as [|u' l']; cbn [flat_map app] in *; rewrite ?app_nil_r in H.
    - auto.
    - destruct F1. rewrite H. apply in_or_app. right. left. reflexivity.
    - destruct F1'. rewrite <- H. apply in_or_app. right. left. reflexivity.
    - apply split_at in H as (-> & H); [|assumption..]. rewrite H. auto. }
  destruct E as (-> & E). f_equal. apply IH; assumption.
Qed.
Lemma parts_inj ip6 m : forall m', ip6_laws ip6 -> Forall shown_ok m -> Forall shown_ok m' ->
  flat_map (parts ip6) m = flat_map (parts ip6) m' -> m = m'.
Proof.
  induction m as [|a m IH]; intros [|a' m'] L F F' H; [reflexivity|destruct a'; discriminate H|destruct a; discriminate H|].
  inversion F as [|? ? O F2]. inversion F' as [|? ? O' F2']. subst.
  assert (E : a = a' /\ flat_map (parts ip6) m = flat_map (parts ip6) m').
  { destruct L as (_ & L). pose proof (f_equal (@hd bytes []) H) as N. destruct a, a'; cbn [flat_map parts app hd shown_ok] in *; try discriminate N; clear N.
    - injection H as E H. rewrite !ip4_oid in E. apply oid_from_inj in E. subst. auto.
    - injection H as E H. destruct O, O'. apply L in E; try assumption. subst. auto.
    - injection H as E H. apply decimal_inj in E. subst. auto.
    - injection H as E H. apply decimal_inj in E. subst. auto.
    - injection H as H. auto.
    - injection H as E E' H. apply decimal_inj in E. apply to_hex_inj in E'; try assumption. subst. auto.
    - injection H as E H. apply to_hex_inj in E; try assumption. subst. auto. }
  destruct E as (-> & E). f_equal. apply IH; assumption.
Qed.
Lemma text_parts ip6 m : multiaddr_text ip6 m = slashed (flat_map (parts ip6) m).
Proof.
  unfold multiaddr_text, slashed. induction m as [|a m IH]; [reflexivity|]. cbn [flat_map]. rewrite IH, addr_text_parts. unfold slashed. rewrite flat_map_app. reflexivity.
Qed.
(** C112: the text of an address list tells its addresses. *)
Theorem C112_text_determines : forall ip6 m m', ip6_laws ip6 -> Forall shown_ok m -> Forall shown_ok m' ->
  multiaddr_text ip6 m = multiaddr_text ip6 m' -> m = m'.
Proof.
  intros ip6 m m' L F F' H. rewrite !text_parts in H.
  assert (P : forall m, Forall shown_ok m -> Forall (fun t => ~ In 47 t) (flat_map (parts ip6) m)).
  { intros n G. induction G as [|a n O G IH]; [constructor|]. cbn [flat_map]. apply Forall_app. split; [apply parts_free; assumption|exact IH]. }
  apply slashed_inj in H; [|apply P; assumption..]. exact (parts_inj ip6 m m' L F F' H).
Qed.
Print Assumptions C112_text_determines.
Lemma wire_shown b m : bytes_ok b -> multiaddr_wire b m -> Forall shown_ok m.
Proof.
  intros B W. induction W as [|l code payload a rest m V A W IH|d D N]; [constructor| |repeat constructor; exact B].
  apply bytes_ok_app in B as (_ & B). apply bytes_ok_app in B as (Bp & Br). constructor; [|apply IH, Br].
  destruct a; cbn [addr_wire shown_ok] in *; try exact Logic.I; try (destruct A as (_ & -> & L); auto); contradiction.
Qed.
(** C112: so two byte strings have the same text exactly when they hold the same
    addresses, and when their codes are minimal, exactly when they are the same. *)
Theorem C112_text_of_bytes : forall ip6 b b' m m', ip6_laws ip6 -> bytes_ok b -> bytes_ok b' ->
  multiaddr_wire b m -> multiaddr_wire b' m' -> 
  (multiaddr_text ip6 m = multiaddr_text ip6 m' <-> m = m') /\
  (multiaddr_minimal b -> multiaddr_minimal b' -> (multiaddr_text ip6 m = multiaddr_text ip6 m' <-> b = b')).
Proof.
  intros ip6 b b' m m' L B B' W W'.
  assert (X : multiaddr_text ip6 m = multiaddr_text ip6 m' <-> m = m').
  { split; [|intros ->; reflexivity]. apply C112_text_determines; [exact L|apply (wire_shown b); assumption|apply (wire_shown b'); assumption]. }
  split; [exact X|]. intros M M'. apply C45_multiaddr_exact in W; [|exact B]. apply C45_multiaddr_exact in W'; [|exact B'].
  rewrite X. split; [|intros ->; congruence].
  intros ->. rewrite <- (C45_multiaddr_reserialise b m' B M W). exact (C45_multiaddr_reserialise b' m' B' M' W').
Qed.
Print Assumptions C112_text_of_bytes.
(** C112: bytes that are no address end the text as one [/invalid/] part in hexadecimal;
    nothing of the input is dropped. *)
Theorem C112_invalid_tail : forall ip6 b m, bytes_ok b -> multiaddr_wire b m ->
  forall pre d post, m = pre ++ AInvalid d :: post ->
  post = [] /\ (exists front, b = front ++ d) /\
  multiaddr_text ip6 m = multiaddr_text ip6 pre ++ ascii_bytes "/invalid/" ++ to_hex d.
Proof.
  intros ip6 b m B W. induction W as [|l code payload a rest m V A W IH|d0 D N]; intros pre d post E.
  - destruct pre; discriminate E.
  - destruct pre as [|x pre]; cbn [app] in E; injection E as Ea Em; [subst a; destruct A|].
    subst x. apply bytes_ok_app in B as (_ & B). apply bytes_ok_app in B as (_ & B). destruct (IH B pre d post Em) as (P & (front & F) & T).
    split; [exact P|]. split; [exists (l ++ payload ++ front); rewrite F, <- !app_assoc; reflexivity|].
    change (multiaddr_text ip6 (a :: m)) with (addr_text ip6 a ++ multiaddr_text ip6 m). change (multiaddr_text ip6 (a :: pre)) with (addr_text ip6 a ++ multiaddr_text ip6 pre).
    rewrite T, <- app_assoc. reflexivity.
  - destruct pre as [|x pre]; cbn [app] in E; [|injection E as _ E; destruct pre; discriminate E]. injection E as -> <-.
    split; [reflexivity|]. split; [exists []; reflexivity|]. cbn [multiaddr_text flat_map addr_text app]. rewrite app_nil_r. reflexivity.
Qed.
Print Assumptions C112_invalid_tail.
(** C112: the text needs no escaping, so the debug form is the text in quotes. *)
Theorem C112_plain_text : forall ip6 m, ip6_laws ip6 -> Forall shown_ok m ->
  Forall (fun c => 32 < c < 127 /\ c <> 34 /\ c <> 39 /\ c <> 92) (multiaddr_text ip6 m) /\
  multiaddr_debug ip6 m = [34] ++ multiaddr_text ip6 m ++ [34].
Proof.
  intros ip6 m L F. split; [|reflexivity]. rewrite text_parts.
  set (P := fun c => 32 < c < 127 /\ c <> 34 /\ c <> 39 /\ c <> 92).
  assert (D : forall n, Forall P (decimal n)) by (intros n; eapply Forall_impl; [|apply decimal_digits]; unfold P; cbv beta; intros c; lia).
  assert (H : forall d, bytes_ok d -> Forall P (to_hex d)) by (intros d B; eapply Forall_impl; [|apply to_hex_chars, B]; unfold P, hex_char; cbv beta; intros c; lia).
  assert (I4 : forall o, Forall P (ip4_text o)) by (intros o; rewrite ip4_oid; eapply Forall_impl; [|apply oid_chars]; unfold P; cbv beta; intros c; lia).
  assert (W : forall t, forallb (fun c => (32 <? c) && (c <? 127) && negb (c =? 34) && negb (c =? 39) && negb (c =? 92)) t = true -> Forall P t).
  { intros t X. rewrite forallb_forall in X. apply Forall_forall. intros c I. specialize (X c I). unfold P. lia. }
  assert (T : forall a, shown_ok a -> Forall (Forall P) (parts ip6 a)).
  { intros a O. destruct a; cbn [parts shown_ok] in *; (constructor; [apply W; vm_compute; reflexivity|]); repeat constructor; try apply D; try apply I4; try (apply H; exact O).
    destruct L as (L & _), O as (B & K). eapply Forall_impl; [|apply (L _ B K)]. unfold P, hex_char. cbv beta. intros c. lia. }
  induction F as [|a m O F IH]; [constructor|]. unfold slashed in *. cbn [flat_map]. rewrite flat_map_app. apply Forall_app. split; [|exact IH].
  specialize (T a O). clear - T. induction T as [|t l X T IH]; [constructor|]. cbn [flat_map]. constructor; [unfold P; lia|]. apply Forall_app. split; assumption.
Qed.
Print Assumptions C112_plain_text.
(** C112: the text does not tell the bytes when a code is padded, and it does not use the
    protocol names of the multiaddr registry ([/ip4/], [/ip6/]). *)
Theorem C112_text_is_canonical_refuted : forall ip6,
  ~ (forall b b' m m', bytes_ok b -> bytes_ok b' -> multiaddr_from_bytes b = Ok m -> multiaddr_from_bytes b' = Ok m' ->
       multiaddr_text ip6 m = multiaddr_text ip6 m' -> b = b') /\
  ~ (forall b o rest, multiaddr_from_bytes b = Ok (AIP4 o :: rest) -> exists t, multiaddr_text ip6 (AIP4 o :: rest) = ascii_bytes "/ip4/" ++ t).
Proof.
  intros ip6. split.
  - intros H. specialize (H [0x86; 0; 0; 80] [6; 0; 80] [ATCP 80] [ATCP 80] ltac:(apply bytes_okb_spec; reflexivity) ltac:(apply bytes_okb_spec; reflexivity) ltac:(vm_compute; reflexivity) ltac:(vm_compute; reflexivity) eq_refl). discriminate H.
  - intros H. destruct (H [4; 127; 0; 0; 1] [127; 0; 0; 1] [] ltac:(vm_compute; reflexivity)) as (t & E). discriminate E.
Qed.
Print Assumptions C112_text_is_canonical_refuted.
Example C112_example :
  multiaddr_text (fun _ => []) [AIP4 [127; 0; 0; 1]; AUDP 4001; AQUIC; AInvalid [6; 1]] = ascii_bytes "/ipv4/127.0.0.1/udp/4001/quic/invalid/0601" /\
  multiaddr_from_bytes [4; 127; 0; 0; 1; 145; 2; 15; 161; 204; 3; 6; 1] = Ok [AIP4 [127; 0; 0; 1]; AUDP 4001; AQUIC; AInvalid [6; 1]] /\
  ip6_laws to_hex.
Proof.
  split; [vm_compute; reflexivity|]. split; [vm_compute; reflexivity|]. split.
  - intros o B _. eapply Forall_impl; [|apply to_hex_chars, B]. cbv beta. tauto.
  - intros o o' B B' _ _. apply to_hex_inj; assumption.
Qed.
