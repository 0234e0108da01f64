(** Lemmas about frames, secrets and initial packets. *)
From Verif Require Import Base BaseProofs BinaryModel BinarySpec BinaryProofs BinaryProofs2 MessageProofs MessageProofs2 TlsCodesModel TlsTypesModel TlsTypesSpec TlsTypesProofs TlsTypesProofs2 TlsTypesProofs3
  TlsRecordModel TlsRecordSpec TlsRecordProofs TlsClientSpec QuicModel QuicSpec QuicProofs QuicProofs2 QuicProofs4.
From Coq Require Import Lia ZArith ZifyBool ZifyNat ZifyN.
Ltac Zify.zify_post_hook ::= Z.div_mod_to_equations.
Local Open Scope string_scope. Local Open Scope list_scope. Local Open Scope N_scope.

(** *** Secrets *)
Lemma expand_label_computes P h prk label ctx len : (byte_len h <= length prk)%nat -> (len <= 255 * byte_len h)%nat -> N.of_nat len < two16 ->
  blen (ascii_bytes "tls13 " ++ ascii_bytes label) < 256 -> blen ctx < 256 ->
  hkdf_expand_label P h prk (ascii_bytes label) ctx len = Ok (expand_label P h prk label ctx len).
Proof.
  intros L1 L2 L3 L4 L5. unfold hkdf_expand_label, hkdf_expand, expand_label. cbv zeta.
  replace (length prk <? byte_len h)%nat with false by (symmetry; apply Nat.ltb_ge; exact L1).
  replace (255 * byte_len h <? len)%nat with false by (symmetry; apply Nat.ltb_ge; exact L2).
  rewrite (N.mod_small (N.of_nat len)) by exact L3. rewrite (N.mod_small (blen (_ ++ _))) by exact L4. rewrite (N.mod_small (blen ctx)) by exact L5. reflexivity.
Qed.
Lemma initial_salt_rfc : initial_salt = be_bytes 20 rfc_salt.
Proof. vm_compute. reflexivity. Qed.
Lemma endpoint_rfc P secret : (32 <= length secret)%nat -> endpoint_from_initial P SHA256 secret = Ok (rfc_keys P secret).
Proof.
  intros L. unfold endpoint_from_initial. rewrite !expand_label_computes; try (cbn [byte_len]; lia); try reflexivity.
Qed.
Lemma from_id_rfc P id : sizes_ok P -> from_connection_id P SHA256 id = Ok (rfc_secrets P id).
Proof.
  intros (_ & S1 & S2). unfold from_connection_id, connection_from_initial. pose proof (S1 SHA256 initial_salt id) as L.
  rewrite !expand_label_computes; try (cbn [byte_len] in *; lia); try reflexivity. cbn [bind].
  rewrite endpoint_rfc by (unfold expand_label; rewrite (proj1 (S2 _ _ _ _)); cbn; lia). cbn [bind].
  rewrite endpoint_rfc by (unfold expand_label; rewrite (proj1 (S2 _ _ _ _)); cbn; lia). cbn [bind].
  unfold rfc_secrets. rewrite <- initial_salt_rfc. reflexivity.
Qed.
Lemma rfc_keys_ok P secret : sizes_ok P -> secrets_ok (rfc_keys P secret).
Proof. intros (_ & _ & S2). unfold secrets_ok, rfc_keys, expand_label. cbn [q_key q_iv]. split; [apply S2|apply S2]. Qed.

(** *** Frames *)
Lemma reads_form w v : form_ok w v -> reads read_quic_varint (quic_form w v) v.
Proof. intros F pre post L. apply read_form; assumption. Qed.
Lemma reads_enc v : v < two62 -> reads read_quic_varint (quic_enc v) v.
Proof. intros H. rewrite quic_enc_form. apply reads_form, width_ok, H. Qed.
Lemma reads_eq {A} (p : rd A) b b' x : reads p b x -> b = b' -> reads p b' x.
Proof. intros H <-. exact H. Qed.
Lemma reads_item x : item_ok x -> reads read_frame (item_bytes x) x.
Proof.
  intros H. unfold read_frame. destruct x as [f|]; cbn [item_bytes item_ok] in *.
  - destruct f as [|c|code t reason]; cbn [frame_bytes frame_ok] in *.
    + rewrite <- (app_nil_r [2]). apply (reads_bind _ _ _ _ 2); [apply (reads_u8 2); reflexivity|]. apply reads_ret.
    + destruct H as [H1 H2]. unfold crypto_bytes. apply (reads_bind _ _ _ _ 6); [apply (reads_u8 6); reflexivity|]. cbn [N.eqb Pos.eqb].
      apply (reads_bind _ _ _ _ (cf_start c)); [apply reads_enc, H1|]. apply (reads_bind _ _ _ _ (blen (cf_data c))); [apply reads_enc, H2|].
      eapply reads_eq; [apply (reads_bind _ _ (cf_data c) [] (cf_data c)); [apply reads_fixed|destruct c; apply reads_ret]|apply app_nil_r].
    + destruct H as (H1 & H2 & H3). unfold close_bytes. apply (reads_bind _ _ _ _ 0x1c); [apply (reads_u8 0x1c); reflexivity|]. cbn [N.eqb Pos.eqb].
      apply (reads_bind _ _ _ _ code); [apply reads_enc, H1|]. apply (reads_bind _ _ _ _ t); [apply reads_enc, H2|].
      apply (reads_bind _ _ _ _ (blen reason)); [apply reads_enc, H3|].
      eapply reads_eq; [apply (reads_bind _ _ reason [] reason); [apply reads_fixed|apply reads_ret]|apply app_nil_r].
  - rewrite <- (app_nil_r [0]). apply (reads_bind _ _ _ _ 0); [apply (reads_u8 0); reflexivity|]. apply reads_ret.
Qed.
Lemma item_nonempty x : (1 <= length (item_bytes x))%nat.
Proof. destruct x as [[|c|a b c]|]; cbn [item_bytes frame_bytes crypto_bytes close_bytes length app]; lia. Qed.
Lemma frames_loop_ok l : forall fuel pre, Forall item_ok l -> fits (pre ++ concat (map item_bytes l)) -> (length (concat (map item_bytes l)) < fuel)%nat ->
  frames_loop fuel (at_pos pre (concat (map item_bytes l))) = Ok (frames_of l).
Proof.
  induction l as [|x l IH]; intros fuel pre O F L; (destruct fuel as [|fuel]; [lia|]); cbn [map concat] in *; cbn [frames_loop]; rewrite remaining_at; [reflexivity|].
  inversion O as [|? ? O1 O2]; subst. pose proof (item_nonempty x) as NE. rewrite app_length in *. replace (0 <? _)%nat with true by (symmetry; apply Nat.ltb_lt; lia).
  rewrite (reads_item x O1 pre _ F). unfold frames_of. cbn [flat_map]. specialize (IH fuel (pre ++ item_bytes x) O2). rewrite <- app_assoc in IH. specialize (IH F ltac:(lia)).
  rewrite IH. destruct x; reflexivity.
Qed.
Lemma wb_read_frame : well_behaved read_frame.
Proof.
  unfold read_frame. apply wb_bind; [apply wb_u8|]. intros t. repeat match goal with |- context [if ?c then _ else _] => destruct c end.
  - apply wb_ret.
  - apply wb_ret.
  - apply wb_bind; [apply wb_quic|]. intros o. apply wb_bind; [apply wb_quic|]. intros n. apply wb_bind; [apply wb_fixed|]. intros d. apply wb_ret.
  - apply wb_bind; [apply wb_quic|]. intros o. apply wb_bind; [apply wb_quic|]. intros n. apply wb_bind; [apply wb_quic|]. intros k. apply wb_bind; [apply wb_fixed|]. intros d. apply wb_ret.
  - apply wb_fail.
Qed.
Lemma read_frame_consumes pre rest x r : read_frame (at_pos pre rest) = (Ok x, r) -> exists s post, rest = s ++ post /\ (1 <= length s)%nat /\ r = at_pos (pre ++ s) post.
Proof.
  intros E. unfold read_frame, rbind in E. destruct (read_u8 (at_pos pre rest)) as [y r1] eqn:R.
  apply u8_inv in R. destruct R as [(e & -> & ->)|(b & post & -> & -> & ->)]; [discriminate|]. cbv beta iota in E.
  match type of E with ?m = _ => match m with context [if ?c then _ else _] => idtac end end.
  assert (W : well_behaved (fun r => if b =? 0 then rret None r else if b =? 2 then rret (Some FPing) r
    else if b =? 6 then (do offset <- read_quic_varint; do len <- read_quic_varint; do d <- read_fixed len; rret (Some (FCrypto {| cf_start := offset; cf_data := d |}))) r
    else if b =? 28 then (do code <- read_quic_varint; do ft <- read_quic_varint; do len <- read_quic_varint; do reason <- read_fixed len; rret (Some (FClose code ft reason))) r
    else rfail (BPlain "Unknown frame type") r)).
  { repeat match goal with |- context [if ?c then _ else _] => destruct c end.
    - apply wb_ret.
    - apply wb_ret.
    - apply wb_bind; [apply wb_quic|]. intros o. apply wb_bind; [apply wb_quic|]. intros n. apply wb_bind; [apply wb_fixed|]. intros d. apply wb_ret.
    - apply wb_bind; [apply wb_quic|]. intros o. apply wb_bind; [apply wb_quic|]. intros n. apply wb_bind; [apply wb_quic|]. intros k. apply wb_bind; [apply wb_fixed|]. intros d. apply wb_ret.
    - apply wb_fail. }
  destruct (proj1 (wb_at _) W (pre ++ [b]) post) as (y & s & post' & E' & -> & _).
  assert (X : (Ok x, r) = (y, at_pos ((pre ++ [b]) ++ s) post')).
  { rewrite <- E, <- E'. repeat match goal with |- context [if ?c then _ else _] => destruct c end; reflexivity. }
  exists (b :: s), post'. split; [reflexivity|]. split; [cbn; lia|]. rewrite <- app_assoc in X. cbn [app] in X. congruence.
Qed.
Lemma frames_loop_total fuel : forall pre rest, (length rest < fuel)%nat -> frames_loop fuel (at_pos pre rest) <> Panic.
Proof.
  induction fuel as [|fuel IH]; intros pre rest L; [lia|]. cbn [frames_loop]. rewrite remaining_at. destruct (Nat.ltb_spec 0 (length rest)); [|discriminate].
  destruct (read_frame (at_pos pre rest)) as [x r] eqn:E. destruct x as [x|e|]; [|discriminate|].
  - apply read_frame_consumes in E. destruct E as (s & post & -> & Ls & ->). rewrite app_length in L. specialize (IH (pre ++ s) post ltac:(lia)).
    destruct x; [|exact IH]. destruct (frames_loop fuel _); [discriminate|discriminate|contradiction].
  - exfalso. destruct (wb_read_frame (at_pos pre rest) (at_in_bounds _ _)) as [NP _]. rewrite E in NP. apply NP. reflexivity.
Qed.
Lemma padding_items n : concat (map item_bytes (repeat None n)) = repeat 0 n.
Proof. induction n as [|n IH]; cbn [repeat map concat item_bytes app]; [reflexivity|]. rewrite IH. reflexivity. Qed.
Lemma frames_of_app a b : frames_of (a ++ b) = frames_of a ++ frames_of b.
Proof. unfold frames_of. apply flat_map_app. Qed.
Lemma frames_of_padding n : frames_of (repeat None n) = [].
Proof. induction n as [|n IH]; [reflexivity|]. exact IH. Qed.

(** *** Initial packets *)
Lemma length_field len : len < 16384 -> [N.lor (N.shiftr len 8 mod two8) 0x40; len mod two8] = quic_form 2 len.
Proof.
  intros H. unfold quic_form. change (quic_tag 2) with 1. change (2 ^ (8 * N.of_nat 2 - 2)) with 16384. rewrite be2. rewrite shiftr_pow. change (2 ^ 8) with 256. change two8 with 256.
  destruct (or_tag (len / 256 mod 256)) as [-> _]; [lia|]. f_equal; [lia|]. f_equal. lia.
Qed.
Definition before_pn (dst src token : bytes) (len : N) : bytes :=
  [0; 0; 0; 1] ++ [blen dst] ++ dst ++ [blen src] ++ src ++ quic_enc (blen token) ++ token ++ quic_form 2 len.
Lemma rfc_header_parts dst src token len pn : rfc_header dst src token len pn = 0xc3 :: before_pn dst src token len ++ be_bytes 4 pn.
Proof. unfold rfc_header, before_pn. rewrite <- !app_assoc. reflexivity. Qed.
Lemma header_patched dst src token len pn : blen dst <= 20 -> blen src <= 20 -> blen token < two62 -> pn < two32 -> len < 16384 ->
  length (initial_header dst src pn token) = length (rfc_header dst src token len pn) /\
  patch (initial_header dst src pn token) (length (initial_header dst src pn token) - 4 - 2) [N.lor (N.shiftr len 8 mod two8) 0x40; len mod two8] = rfc_header dst src token len pn.
Proof.
  intros H1 H2 H3 H4 H5. unfold initial_header. rewrite write_quic_ok by exact H3. cbn [snd]. rewrite !app_nil_l.
  rewrite (N.mod_small pn) by exact H4. rewrite !N.mod_small by (change two8 with 256; lia). rewrite length_field by exact H5.
  set (h := [195] ++ [0; 0; 0; 1] ++ [blen dst] ++ dst ++ [blen src] ++ src ++ quic_enc (blen token) ++ token).
  assert (E : [195] ++ [0; 0; 0; 1] ++ [blen dst] ++ dst ++ [blen src] ++ src ++ quic_enc (blen token) ++ token ++ [0; 0] ++ be_bytes 4 pn = h ++ [0; 0] ++ be_bytes 4 pn).
  { unfold h. rewrite <- !app_assoc. reflexivity. }
  assert (E' : rfc_header dst src token len pn = h ++ quic_form 2 len ++ be_bytes 4 pn) by (unfold rfc_header, h; rewrite <- !app_assoc; reflexivity).
  rewrite E, E'. split; [rewrite !app_length, quic_form_length; reflexivity|].
  replace (length (h ++ [0; 0]%N ++ be_bytes 4 pn) - 4 - 2)%nat with (length h) by (rewrite !app_length, be_bytes_length; cbn [length]; lia).
  apply patch_ok. rewrite quic_form_length. reflexivity.
Qed.
Lemma rfc_header_of dst src token len pn : pn < two32 -> header_of (rfc_header dst src token len pn) (1 + length (before_pn dst src token len)) pn.
Proof. intros H. exists 0xc3, (before_pn dst src token len), 4%nat. split; [apply rfc_header_parts|]. split; [reflexivity|]. split; [reflexivity|exact H]. Qed.
Lemma bytes_ok_form w v : bytes_ok (quic_form w v).
Proof. apply be_bytes_ok. Qed.
Lemma rfc_header_ok dst src token len pn : bytes_ok dst -> bytes_ok src -> bytes_ok token -> blen dst <= 20 -> blen src <= 20 -> bytes_ok (rfc_header dst src token len pn).
Proof.
  intros O1 O2 O3 L1 L2. unfold rfc_header. rewrite bytes_ok_cons, !bytes_ok_app. split; [reflexivity|]. split; [repeat constructor|].
  split; [constructor; [change (blen dst < 256); lia|constructor]|]. split; [exact O1|]. split; [constructor; [change (blen src < 256); lia|constructor]|]. split; [exact O2|].
  split; [apply bytes_ok_form|]. split; [exact O3|]. split; [apply bytes_ok_form|apply be_bytes_ok].
Qed.
Lemma first_byte_kept m0 : let b := N.lxor 0xc3 (if 128 <=? 0xc3 then m0 mod 16 else m0 mod 32) in
  b < 256 /\ N.land b 0x40 <> 0 /\ N.land b 0x80 = 0x80 /\ N.shiftr (N.land b 0x30) 4 = 0.
Proof.
  cbn zeta. change (128 <=? 0xc3) with true. cbv iota. assert (H : m0 mod 16 < 256) by lia.
  assert (H' : m0 mod 16 < 16) by lia. set (m := m0 mod 16) in *. clearbody m.
  pose proof (byte_sweep (fun m => (16 <=? m) || ((N.lxor 195 m <? 256) && negb (N.land (N.lxor 195 m) 64 =? 0) && (N.land (N.lxor 195 m) 128 =? 128) && (N.shiftr (N.land (N.lxor 195 m) 48) 4 =? 0)))
    eq_refl m H) as X. cbv beta in X. destruct (N.leb_spec 16 m); [lia|]. cbn [orb] in X.
  rewrite !andb_true_iff, negb_true_iff, N.ltb_lt, !N.eqb_eq, N.eqb_neq in X. tauto.
Qed.

Definition long_reader : rd (N * bytes * bytes * nat) :=
  do b <- read_u8;
  do version <- read_u32;
  if negb (version =? 1) then rfail (BPlain "Unsupported version") else
  do n <- read_u8;
  if 20 <? n then rfail (BPlain "Invalid dst_connection_id length") else
  do dst <- read_fixed n;
  do n <- read_u8;
  if 20 <? n then rfail (BPlain "Invalid src_connection_id length") else
  do src <- read_fixed n;
  fun r => (Ok (b, dst, src, r_off r), r).
Definition initial_reader : rd (bytes * N * nat) :=
  do token_len <- read_quic_varint;
  do token <- read_fixed token_len;
  do len <- read_quic_varint;
  fun r => (Ok (token, len, r_off r), r).
Lemma single_be1 v : v < 256 -> [v] = be_bytes 1 v.
Proof. intros H. symmetry. apply be_bytes_one. exact H. Qed.
Lemma long_reader_ok b dst src rest : b < 256 -> blen dst <= 20 -> blen src <= 20 -> fits (b :: [0; 0; 0; 1] ++ [blen dst] ++ dst ++ [blen src] ++ src ++ rest) ->
  long_reader (new_reader (b :: [0; 0; 0; 1] ++ [blen dst] ++ dst ++ [blen src] ++ src ++ rest)) =
  (Ok (b, dst, src, length (b :: [0; 0; 0; 1] ++ [blen dst] ++ dst ++ [blen src] ++ src)), at_pos (b :: [0; 0; 0; 1] ++ [blen dst] ++ dst ++ [blen src] ++ src) rest).
Proof.
  intros Hb L1 L2 F. rewrite new_at_pos. unfold long_reader.
  change (b :: [0; 0; 0; 1] ++ [blen dst] ++ dst ++ [blen src] ++ src ++ rest) with ([b] ++ [0; 0; 0; 1] ++ [blen dst] ++ dst ++ [blen src] ++ src ++ rest) in *.
  unfold rbind at 1. rewrite (single_be1 b Hb) in *. rewrite (reads_u8 b Hb [] _ F).
  change [0; 0; 0; 1] with (be_bytes 4 1) in *. rewrite (single_be1 (blen dst)) in * by lia. rewrite (single_be1 (blen src)) in * by lia.
  unfold rbind at 1. rewrite (reads_u32 1 eq_refl (be_bytes 1 b)) by exact F. cbn [N.eqb Pos.eqb negb].
  unfold rbind at 1. rewrite (reads_u8 (blen dst)) by (lia || (rewrite <- !app_assoc; exact F)). replace (20 <? blen dst) with false by (symmetry; apply N.ltb_ge; exact L1).
  unfold rbind at 1. rewrite (reads_fixed dst) by (rewrite <- !app_assoc; exact F).
  unfold rbind at 1. rewrite (reads_u8 (blen src)) by (lia || (rewrite <- !app_assoc; exact F)). replace (20 <? blen src) with false by (symmetry; apply N.ltb_ge; exact L2).
  unfold rbind at 1. rewrite (reads_fixed src) by (rewrite <- !app_assoc; exact F).
  rewrite <- !app_assoc. rewrite <- (single_be1 b Hb). unfold at_pos at 1. cbn [r_off]. reflexivity.
Qed.
Lemma initial_reader_ok pre token len rest : blen token < two62 -> len < 16384 -> fits (pre ++ quic_enc (blen token) ++ token ++ quic_form 2 len ++ rest) ->
  initial_reader (new_reader_at (pre ++ quic_enc (blen token) ++ token ++ quic_form 2 len ++ rest) (length pre)) =
  (Ok (token, len, length (pre ++ quic_enc (blen token) ++ token ++ quic_form 2 len)), at_pos (pre ++ quic_enc (blen token) ++ token ++ quic_form 2 len) rest).
Proof.
  intros L1 L2 F. change (new_reader_at (pre ++ quic_enc (blen token) ++ token ++ quic_form 2 len ++ rest) (length pre)) with (at_pos pre (quic_enc (blen token) ++ token ++ quic_form 2 len ++ rest)).
  unfold initial_reader. unfold rbind at 1. rewrite (reads_enc _ L1) by exact F.
  unfold rbind at 1. rewrite (reads_fixed token) by (rewrite <- !app_assoc; exact F).
  unfold rbind at 1. rewrite (reads_form 2 len) by (first [split; [cbn; auto|exact L2]|rewrite <- !app_assoc; exact F]).
  rewrite <- !app_assoc. unfold at_pos at 1. cbn [r_off]. reflexivity.
Qed.
Section Initial.
Context (P : primitives) (B : bytes -> bytes -> bytes).
Lemma initial_packet_ok s dst src pn token payload c : aead_ok P -> block_ok B -> secrets_ok s -> bytes_ok dst -> bytes_ok src -> bytes_ok token ->
  blen dst <= 20 -> blen src <= 20 -> blen token < two62 - 1000000 -> pn < two32 ->
  let h0 := rfc_header dst src token 0 pn in
  let padded := payload ++ repeat 0 (1200 - (length h0 + length payload + 16)) in
  let len := blen padded + 20 in
  let h := rfc_header dst src token len pn in
  let off := (length h - 4)%nat in
  len < 16384 -> seal P AES_128_GCM (q_key s) (rfc_nonce (q_iv s) pn) h padded = Some c ->
  exists packet, encode_initial_packet P B dst src pn token payload s = Ok packet /\ masked B (q_hp s) off (h ++ c) packet /\ blen c = blen padded + 16 /\
    forall extra, fits (packet ++ extra) -> decrypt_payload P B (packet ++ extra) (N.of_nat off) len s AES_128_GCM = Ok (pn, padded).
Proof.
  intros A BK SK O1 O2 O3 L1 L2 L3 Hp h0 padded len h off Ll E.
  destruct (header_patched dst src token len pn L1 L2 ltac:(change two62 with 4611686018427387904 in *; lia) Hp Ll) as [HL HP].
  assert (L0 : length h0 = length h) by (unfold h0, h; rewrite !rfc_header_parts; cbn [length]; rewrite !app_length; unfold before_pn; rewrite !app_length, !quic_form_length; reflexivity).
  assert (Hof : header_of h off pn).
  { replace off with (1 + length (before_pn dst src token len))%nat; [apply rfc_header_of, Hp|]. unfold off, h. rewrite rfc_header_parts. cbn [length]. rewrite app_length, be_bytes_length. lia. }
  assert (Lh : (4 <= length h)%nat) by (unfold h; rewrite rfc_header_parts; cbn [length]; rewrite app_length, be_bytes_length; lia).
  assert (Lh2 : blen h < two62). { unfold h, rfc_header. unfold blen in *. cbn [length]. rewrite !app_length, quic_form_length, be_bytes_length. cbn [length].
    assert (length (quic_enc (N.of_nat (length token))) <= 8)%nat. { rewrite quic_enc_form, quic_form_length. unfold quic_width. repeat match goal with |- context [?a <? ?b] => destruct (N.ltb_spec a b) end; lia. }
    change two62 with 4611686018427387904 in *. unfold bytes in *. lia. }
  assert (OH : bytes_ok h) by (apply rfc_header_ok; assumption).
  assert (EE : encode_initial_packet P B dst src pn token payload s = encrypt_payload P B pn h (N.of_nat off) padded (blen padded + 16) s AES_128_GCM).
  { unfold encode_initial_packet. cbv zeta.
    assert (EP : payload ++ repeat 0 (1200 - (length (initial_header dst src pn token) + length payload + 16)) = padded) by (unfold padded; do 5 f_equal; rewrite L0; exact HL).
    rewrite EP. replace (4 + blen padded + 16) with len by (unfold len; lia). rewrite HP, HL. fold h off. f_equal. unfold len. lia. }
  rewrite EE.
  destruct (decrypt_encrypted P B AES_128_GCM s A BK SK eq_refl h off pn padded c [] Hof OH) as (packet & EN & M & D).
  { change two64 with 18446744073709551616. change two62 with 4611686018427387904 in *. change (blen []) with 0. lia. }
  { lia. } { exact E. }
  assert (H64 : pn < two64) by (change two64 with 18446744073709551616; change two32 with 4294967296 in Hp; lia).
  destruct (A AES_128_GCM (q_key s) (rfc_nonce (q_iv s) pn) h padded c) as [_ Lc]; [apply SK|apply (rfc_nonce_length s SK pn H64)|exact E|].
  exists packet. split; [exact EN|]. split; [exact M|]. split; [exact Lc|]. intros extra F.
  assert (LP : blen packet = blen h + blen c).
  { destruct M as (b & mid & pnb & rest & m0 & m & more & Ep & Eo & E4 & Em & Lm & ->). assert (X : blen (h ++ c) = blen (b :: mid ++ pnb ++ rest)) by (rewrite Ep; reflexivity).
    rewrite blen_app in X. rewrite X. unfold blen. cbn [length]. rewrite !app_length, xor_length by lia. reflexivity. }
  unfold fits in F. rewrite blen_app in F.
  destruct (decrypt_encrypted P B AES_128_GCM s A BK SK eq_refl h off pn padded c extra Hof OH) as (packet' & EN' & _ & D').
  { lia. } { lia. } { exact E. }
  assert (packet' = packet) by congruence. subst packet'.
  replace len with (blen h - N.of_nat off + blen padded + 16) by (unfold len, off, blen; lia). exact D'.
Qed.
(** What the endpoint makes of such a packet. *)
Lemma parse_initial_packet cs s new dst src pn token payload c extra items ms : aead_ok P -> block_ok B -> sizes_ok P -> secrets_ok s -> bytes_ok dst -> bytes_ok src -> bytes_ok token ->
  blen dst <= 20 -> blen src <= 20 -> blen token < two62 - 1000000 -> pn < two32 ->
  let h0 := rfc_header dst src token 0 pn in
  let padded := payload ++ repeat 0 (1200 - (length h0 + length payload + 16)) in
  let len := blen padded + 20 in
  let h := rfc_header dst src token len pn in
  len < 16384 -> seal P AES_128_GCM (q_key s) (rfc_nonce (q_iv s) pn) h padded = Some c ->
  match lookup dst cs with Some k => s = q_server k /\ new = cs | None => s = q_client (rfc_secrets P dst) /\ new = insert src (rfc_secrets P dst) cs end ->
  payload = concat (map item_bytes items) -> Forall item_ok items -> handle_packet P dst (frames_of items) = Ok ms ->
  exists packet, encode_initial_packet P B dst src pn token payload s = Ok packet /\
    (fits (packet ++ extra) -> parse_packet P B cs (packet ++ extra) =
      Ok ({| rc_frames := frames_of items; rc_src := src; rc_dst := dst; rc_number := pn; rc_token := token; rc_messages := ms |}, new)).
Proof.
  intros A BK SZ SK O1 O2 O3 L1 L2 L3 Hp h0 padded len h Ll E LK EP IO HM.
  destruct (initial_packet_ok s dst src pn token payload c A BK SK O1 O2 O3 L1 L2 L3 Hp Ll E) as (packet & EN & M & Lc & D).
  fold h0 padded len h in M, D. exists packet. split; [exact EN|]. intros F. specialize (D extra F).
  destruct M as (b & mid & pnb & rest & m0 & m & more & Ep & Eo & E4 & Em & Lm & Epk).
  set (bp := before_pn dst src token len) in *.
  assert (Off : (length h - 4)%nat = (1 + length bp)%nat). { unfold h. rewrite rfc_header_parts. fold bp. cbn [length]. rewrite app_length, be_bytes_length. lia. }
  assert (X : b = 0xc3 /\ mid = bp).
  { unfold h in Ep. rewrite rfc_header_parts in Ep. fold bp in Ep. cbn [app] in Ep. assert (b = 0xc3) by congruence. split; [assumption|].
    assert (Ep' : (bp ++ be_bytes 4 pn) ++ c = mid ++ pnb ++ rest) by congruence. rewrite <- app_assoc in Ep'.
    apply (f_equal (firstn (length bp))) in Ep'. rewrite firstn_app_length in Ep'. replace (length bp) with (length mid) in Ep' by lia. rewrite firstn_app_length in Ep'. auto. }
  destruct X as [-> ->]. destruct (first_byte_kept m0) as (Hb & Hb40 & Hb80 & Hk). set (b' := N.lxor 0xc3 (if 128 <=? 0xc3 then m0 mod 16 else m0 mod 32)) in *.
  set (tail := xor_bytes pnb m ++ rest ++ extra).
  assert (EQ : packet ++ extra = (b' :: [0; 0; 0; 1] ++ [blen dst] ++ dst ++ [blen src] ++ src) ++ quic_enc (blen token) ++ token ++ quic_form 2 len ++ tail).
  { rewrite Epk. unfold bp, before_pn, tail. repeat progress (cbn [app]; rewrite <- ?app_assoc). reflexivity. }
  assert (EQ2 : packet ++ extra = b' :: [0; 0; 0; 1] ++ [blen dst] ++ dst ++ [blen src] ++ src ++ quic_enc (blen token) ++ token ++ quic_form 2 len ++ tail).
  { rewrite EQ. repeat progress (cbn [app]; rewrite <- ?app_assoc). reflexivity. }
  unfold parse_packet. destruct (packet ++ extra) as [|b0 t] eqn:PE; [discriminate EQ2|]. assert (b0 = b') by congruence. subst b0.
  destruct (N.eqb_spec (N.land b' 64) 0) as [|_]; [contradiction|]. rewrite Hb80. cbn [N.eqb Pos.eqb].
  unfold parse_long. fold long_reader.
  pose proof (long_reader_ok b' dst src (quic_enc (blen token) ++ token ++ quic_form 2 len ++ tail) Hb L1 L2) as R. rewrite <- EQ2 in R. rewrite (R F).
  cbn [fst from_binary map_err bind]. cbv zeta. rewrite Hk. cbn [N.eqb]. unfold parse_initial. fold initial_reader.
  assert (L3' : blen token < two62) by (change two62 with 4611686018427387904 in *; lia).
  pose proof (initial_reader_ok (b' :: [0; 0; 0; 1] ++ [blen dst] ++ dst ++ [blen src] ++ src) token len tail L3' Ll) as R2. rewrite <- EQ in R2. rewrite (R2 F).
  cbn [fst from_binary map_err bind].
  replace (length ((b' :: [0; 0; 0; 1] ++ [blen dst] ++ dst ++ [blen src] ++ src) ++ quic_enc (blen token) ++ token ++ quic_form 2 len)) with (length h - 4)%nat.
  2:{ rewrite Off. unfold bp, before_pn. cbn [length app]. rewrite !app_length. cbn [length]. rewrite !app_length. cbn [length]. lia. }
  assert (PF : parse_frames padded = Ok (frames_of items)).
  { unfold parse_frames. rewrite new_at_pos. set (n := (1200 - (length h0 + length payload + 16))%nat) in padded.
    assert (EI : padded = concat (map item_bytes (items ++ repeat None n))) by (unfold padded; rewrite map_app, concat_app, padding_items, <- EP; reflexivity).
    rewrite EI. rewrite frames_loop_ok.
    - rewrite frames_of_app, frames_of_padding, app_nil_r. reflexivity.
    - apply Forall_app. split; [exact IO|]. clear. induction n; constructor; auto. exact Logic.I.
    - cbn [app]. rewrite <- EI. unfold fits. change two64 with 18446744073709551616. unfold len in Ll. lia.
    - lia. }
  destruct (lookup dst cs) as [k|]; destruct LK as [-> ->].
  - cbn [bind]. rewrite D. cbn [bind fst snd]. rewrite PF. cbn [from_binary map_err bind]. rewrite HM. reflexivity.
  - rewrite from_id_rfc by exact SZ. cbn [from_crypt map_err bind]. rewrite D. cbn [bind fst snd]. rewrite PF. cbn [from_binary map_err bind]. rewrite HM. reflexivity.
Qed.
End Initial.
