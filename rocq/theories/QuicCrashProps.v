(** Property C147: exactly which packets stop the QUIC endpoint. *)
From Verif Require Import Base BaseProofs BinaryModel BinarySpec BinaryProofs BinaryProofs2 MessageProofs MessageProofs2 TlsCodesModel TlsTypesModel TlsTypesSpec TlsTypesProofs TlsTypesProofs2 TlsTypesProofs3 TlsTypesProofs4 TlsTypesProps
  TlsRecordModel TlsRecordSpec TlsRecordProofs TlsRecordProps TlsClientSpec TlsClientProps QuicModel QuicSpec QuicProofs QuicProofs2 QuicProofs3 QuicProofs4 QuicProofs5 QuicProofs6 QuicProps QuicProps2.
From Coq Require Import Lia ZArith ZifyBool ZifyNat ZifyN Permutation.
Ltac Zify.zify_post_hook ::= Z.div_mod_to_equations.
Local Open Scope string_scope. Local Open Scope list_scope. Local Open Scope N_scope.

(** *** The header of an initial packet as RFC 9000, 17.2.2 draws it *)
Record head := { hd_first : N; hd_dst : bytes; hd_src : bytes; hd_token_width : nat; hd_token : bytes; hd_length_width : nat; hd_length : N }.
Definition head_bytes (h : head) : bytes :=
  hd_first h :: [0; 0; 0; 1] ++ [blen (hd_dst h)] ++ hd_dst h ++ [blen (hd_src h)] ++ hd_src h ++
  quic_form (hd_token_width h) (blen (hd_token h)) ++ hd_token h ++ quic_form (hd_length_width h) (hd_length h).
(** The first byte is 1100xxxx. *)
Definition head_ok (h : head) : Prop :=
  hd_first h / 16 = 12 /\ blen (hd_dst h) <= 20 /\ blen (hd_src h) <= 20 /\
  form_ok (hd_token_width h) (blen (hd_token h)) /\ form_ok (hd_length_width h) (hd_length h).
(** Whose keys: those of the server of a known connection, otherwise the client's of RFC 9001. *)
Definition theirs (P : primitives) (cs : connections) (dst : bytes) : endpoint_secrets :=
  match lookup dst cs with Some s => q_server s | None => q_client (rfc_secrets P dst) end.
(** How long the packet number is, under its protection: the two low bits of the first byte and
    of the first byte of the mask. *)
Definition number_width (B : bytes -> bytes -> bytes) (s : endpoint_secrets) (b : N) (body : bytes) : N :=
  N.lxor (b mod 4) (hd 0 (B (q_hp s) (firstn 16 (skipn 4 body))) mod 4) + 1.

Lemma first_bits : forall b, b < 256 -> (N.land b 0x40 <> 0 /\ N.land b 0x80 = 0x80 /\ N.shiftr (N.land b 0x30) 4 = 0) <-> b / 16 = 12.
Proof.
  intros b H. pose proof (byte_sweep (fun b => Bool.eqb (negb (N.land b 64 =? 0) && (N.land b 128 =? 128) && (N.shiftr (N.land b 48) 4 =? 0)) (b / 16 =? 12)) eq_refl b H) as X.
  cbv beta in X. apply Bool.eqb_prop in X. rewrite <- (N.eqb_eq (b / 16) 12), <- X, !andb_true_iff, negb_true_iff, !N.eqb_eq, N.eqb_neq. tauto.
Qed.
Lemma land3_first b m : N.land (mask_first b m) 3 = N.lxor (b mod 4) (m mod 4).
Proof.
  change 4 with (2 ^ 2). rewrite <- !N.land_ones. change (N.ones 2) with 3. unfold mask_first.
  apply N.bits_inj. intros i. rewrite N.lxor_spec, !N.land_spec, N.lxor_spec.
  destruct (N.testbit 3 i) eqn:T3; [|rewrite !andb_false_r; reflexivity]. rewrite !andb_true_r. f_equal.
  assert (i = 0 \/ i = 1) as [-> | ->].
  { destruct (N.lt_ge_cases i 2) as [L|L]; [lia|]. exfalso. rewrite N.bits_above_log2 in T3; [discriminate|]. change (N.log2 3) with 1. lia. }
  - destruct (_ =? _); rewrite N.land_spec; cbn; apply andb_true_r.
  - destruct (_ =? _); rewrite N.land_spec; cbn; apply andb_true_r.
Qed.
Lemma num_inv w pre rest v r' : In w [1; 2; 3; 4; 8]%nat -> bytes_ok rest -> read_num w (at_pos pre rest) = (Ok v, r') ->
  exists s post, rest = s ++ post /\ r' = at_pos (pre ++ s) post /\ length s = w /\ v = of_be_bytes s.
Proof.
  intros W O E. destruct (run_rop_value (RNum w) pre rest (inl v) r' W O) as (s & post & ? & ? & V).
  { cbn [run_rop]. unfold rbind. rewrite E. reflexivity. }
  exists s, post. cbn [rop_value] in V. tauto.
Qed.
Lemma fixed_inv n pre rest v r' : n < two64 -> bytes_ok rest -> read_fixed n (at_pos pre rest) = (Ok v, r') ->
  exists post, rest = v ++ post /\ r' = at_pos (pre ++ v) post /\ blen v = n.
Proof.
  intros W O E. destruct (run_rop_value (RFixed n) pre rest (inr v) r' W O) as (s & post & ? & ? & V).
  { cbn [run_rop]. unfold rbind. rewrite E. reflexivity. }
  cbn [rop_value] in V. destruct V as [-> <-]. exists post. tauto.
Qed.
Lemma one_byte s v : bytes_ok s -> length s = 1%nat -> v = of_be_bytes s -> s = [v].
Proof. intros O L ->. destruct s as [|x [|]]; try discriminate. rewrite of_be_single. reflexivity. Qed.
Lemma rbind_inv {A C} (m : rd A) (k : A -> rd C) r c r' : rbind m k r = (Ok c, r') -> exists a r1, m r = (Ok a, r1) /\ k a r1 = (Ok c, r').
Proof. unfold rbind. destruct (m r) as [[a|e|] r1]; intros H; try discriminate. eauto. Qed.
Definition long_head (b : N) (dst src : bytes) : bytes := b :: [0; 0; 0; 1] ++ [blen dst] ++ dst ++ [blen src] ++ src.
Lemma long_inv packet b dst src off r : bytes_ok packet -> long_reader (new_reader packet) = (Ok (b, dst, src, off), r) ->
  exists rest, packet = long_head b dst src ++ rest /\ blen dst <= 20 /\ blen src <= 20 /\ off = length (long_head b dst src).
Proof.
  intros O E. rewrite new_at_pos in E. unfold long_reader in E.
  apply rbind_inv in E. destruct E as (b' & r1 & E1 & E). change read_u8 with (read_num 1) in E1.
  destruct (num_inv 1 [] packet b' r1 ltac:(cbn; auto) O E1) as (s1 & p1 & -> & -> & L1 & V1). clear E1. apply bytes_ok_app in O. destruct O as [O1 O].
  apply one_byte in V1; [|assumption|assumption]. subst s1. cbn [app] in E.
  apply rbind_inv in E. destruct E as (v & r2 & E2 & E). change read_u32 with (read_num 4) in E2.
  destruct (num_inv 4 _ _ _ _ ltac:(cbn; auto) O E2) as (s2 & p2 & -> & -> & L2 & V2). clear E2. apply bytes_ok_app in O. destruct O as [O2 O].
  destruct (N.eqb_spec v 1) as [Hv|]; [|discriminate]. cbn [negb] in E. subst v.
  assert (s2 = [0; 0; 0; 1]) as ->. { rewrite <- (be_of_be_bytes s2 O2), L2, Hv. reflexivity. }
  apply rbind_inv in E. destruct E as (n & r3 & E3 & E). change read_u8 with (read_num 1) in E3.
  destruct (num_inv 1 _ _ _ _ ltac:(cbn; auto) O E3) as (s3 & p3 & -> & -> & L3 & V3). clear E3. apply bytes_ok_app in O. destruct O as [O3 O].
  apply one_byte in V3; [|assumption|assumption]. subst s3. destruct (N.ltb_spec 20 n) as [|Hn]; [discriminate|].
  apply rbind_inv in E. destruct E as (d & r4 & E4 & E).
  destruct (fixed_inv n _ _ _ _ ltac:(change two64 with 18446744073709551616; lia) O E4) as (p4 & -> & -> & Ld). clear E4. apply bytes_ok_app in O. destruct O as [O4 O]. subst n.
  apply rbind_inv in E. destruct E as (n & r5 & E5 & E). change read_u8 with (read_num 1) in E5.
  destruct (num_inv 1 _ _ _ _ ltac:(cbn; auto) O E5) as (s5 & p5 & -> & -> & L5 & V5). clear E5. apply bytes_ok_app in O. destruct O as [O5 O].
  apply one_byte in V5; [|assumption|assumption]. subst s5. destruct (N.ltb_spec 20 n) as [|Hn']; [discriminate|].
  apply rbind_inv in E. destruct E as (d' & r6 & E6 & E).
  destruct (fixed_inv n _ _ _ _ ltac:(change two64 with 18446744073709551616; lia) O E6) as (p6 & -> & -> & Ls). clear E6. subst n.
  unfold at_pos in E. cbn [r_off] in E. assert (b' = b /\ d = dst /\ d' = src) as (-> & -> & ->) by (repeat split; congruence).
  exists p6. unfold long_head. split; [cbn [app]; rewrite <- !app_assoc; reflexivity|]. split; [exact Hn|]. split; [exact Hn'|].
  assert (off = length (((([b] ++ [0; 0; 0; 1]) ++ [blen dst]) ++ dst) ++ [blen src] ++ src)) as ->. { rewrite app_assoc. congruence. }
  rewrite <- !app_assoc. reflexivity.
Qed.
Lemma form_lt w v : form_ok w v -> v < two62.
Proof. intros [I H]. cbn [In] in I. change two62 with (2 ^ 62). destruct I as [<-|[<-|[<-|[<-|[]]]]]; cbn in H |- *; lia. Qed.
Lemma initial_inv pre rest token len off r : bytes_ok rest -> initial_reader (at_pos pre rest) = (Ok (token, len, off), r) ->
  exists wt wl body, rest = quic_form wt (blen token) ++ token ++ quic_form wl len ++ body /\ form_ok wt (blen token) /\ form_ok wl len /\
    off = length (pre ++ quic_form wt (blen token) ++ token ++ quic_form wl len).
Proof.
  intros O E. unfold initial_reader in E.
  apply rbind_inv in E. destruct E as (n & r1 & E1 & E). destruct (read_quic_inv _ _ _ _ O E1) as [[e X]|(wt & v & p1 & F1 & -> & X & ->)]; [discriminate|].
  assert (v = n) as -> by congruence. clear X E1. apply bytes_ok_app in O. destruct O as [_ O].
  apply rbind_inv in E. destruct E as (d & r2 & E2 & E). pose proof (form_lt _ _ F1) as L1.
  destruct (fixed_inv n _ _ _ _ ltac:(change two64 with 18446744073709551616; change two62 with 4611686018427387904 in L1; lia) O E2) as (p2 & -> & -> & Ld). clear E2. apply bytes_ok_app in O. destruct O as [_ O]. subst n.
  apply rbind_inv in E. destruct E as (l & r3 & E3 & E). destruct (read_quic_inv _ _ _ _ O E3) as [[e X]|(wl & v & p3 & F2 & -> & X & ->)]; [discriminate|].
  assert (v = l) as -> by congruence. clear X E3. unfold at_pos in E. cbn [r_off] in E. assert (d = token /\ l = len) as (-> & ->) by (split; congruence).
  exists wt, wl, p3. split; [reflexivity|]. split; [exact F1|]. split; [exact F2|]. rewrite <- !app_assoc in E. congruence.
Qed.
Lemma initial_known pre wt wl token len body : form_ok wt (blen token) -> form_ok wl len -> fits (pre ++ quic_form wt (blen token) ++ token ++ quic_form wl len ++ body) ->
  fst (initial_reader (at_pos pre (quic_form wt (blen token) ++ token ++ quic_form wl len ++ body))) = Ok (token, len, length (pre ++ quic_form wt (blen token) ++ token ++ quic_form wl len)).
Proof.
  intros F1 F2 F. unfold initial_reader. unfold rbind at 1. rewrite (reads_form wt _ F1) by exact F.
  unfold rbind at 1. rewrite (reads_fixed token) by (rewrite <- !app_assoc; exact F).
  unfold rbind at 1. rewrite (reads_form wl len F2) by (rewrite <- !app_assoc; exact F).
  rewrite <- !app_assoc. reflexivity.
Qed.
Definition after (P : primitives) (cs new : connections) (src dst token : bytes) (z : quic (N * bytes)) : quic (received * connections) :=
  let? z := z in
  let? frames := from_binary (parse_frames (snd z)) in
  let? messages := handle_packet P dst frames in
  Ok ({| rc_frames := frames; rc_src := src; rc_dst := dst; rc_number := fst z; rc_token := token; rc_messages := messages |}, new).
Lemma head_long h : head_bytes h = long_head (hd_first h) (hd_dst h) (hd_src h) ++ quic_form (hd_token_width h) (blen (hd_token h)) ++ hd_token h ++ quic_form (hd_length_width h) (hd_length h).
Proof. unfold head_bytes, long_head. repeat progress (cbn [app]; rewrite <- ?app_assoc). reflexivity. Qed.
Lemma parse_known P B cs h body : sizes_ok P -> head_ok h -> hd_first h < 256 -> fits (head_bytes h ++ body) ->
  exists new, parse_packet P B cs (head_bytes h ++ body) =
    after P cs new (hd_src h) (hd_dst h) (hd_token h)
      (decrypt_payload P B (head_bytes h ++ body) (N.of_nat (length (head_bytes h))) (hd_length h) (theirs P cs (hd_dst h)) AES_128_GCM).
Proof.
  intros SZ (Hb & L1 & L2 & F1 & F2) B256 F. destruct (proj2 (first_bits _ B256) Hb) as (X1 & X2 & X3).
  set (tail := quic_form (hd_token_width h) (blen (hd_token h)) ++ hd_token h ++ quic_form (hd_length_width h) (hd_length h) ++ body).
  assert (E : head_bytes h ++ body = long_head (hd_first h) (hd_dst h) (hd_src h) ++ tail) by (rewrite head_long; unfold tail; rewrite <- !app_assoc; reflexivity).
  assert (HP : parse_packet P B cs (head_bytes h ++ body) = parse_long P B cs (head_bytes h ++ body)).
  { rewrite E. unfold long_head at 1. cbn [app parse_packet]. apply N.eqb_neq in X1. rewrite X1, X2. reflexivity. }
  rewrite HP. clear HP. unfold parse_long. fold long_reader.
  pose proof (long_reader_ok (hd_first h) (hd_dst h) (hd_src h) tail B256 L1 L2) as R.
  assert (E' : hd_first h :: [0; 0; 0; 1] ++ [blen (hd_dst h)] ++ hd_dst h ++ [blen (hd_src h)] ++ hd_src h ++ tail = head_bytes h ++ body).
  { rewrite E. unfold long_head. repeat progress (cbn [app]; rewrite <- ?app_assoc). reflexivity. }
  rewrite E' in R. rewrite (R F). cbn [fst from_binary map_err bind]. cbv zeta. rewrite X3. change (0 =? 0) with true. cbv iota.
  unfold parse_initial. fold initial_reader. fold (long_head (hd_first h) (hd_dst h) (hd_src h)).
  rewrite E in F |- *. change (new_reader_at (long_head (hd_first h) (hd_dst h) (hd_src h) ++ tail) (length (long_head (hd_first h) (hd_dst h) (hd_src h))))
    with (at_pos (long_head (hd_first h) (hd_dst h) (hd_src h)) tail).
  unfold tail. rewrite initial_known by assumption. fold tail. rewrite <- head_long. cbn [from_binary map_err bind]. unfold theirs.
  destruct (lookup (hd_dst h) cs) as [s|].
  - exists cs. cbn [bind]. reflexivity.
  - exists (insert (hd_src h) (rfc_secrets P (hd_dst h)) cs). rewrite from_id_rfc by exact SZ. cbn [from_crypt map_err bind]. reflexivity.
Qed.
Lemma after_panic P cs new src dst token z : after P cs new src dst token z = Panic <->
  z = Panic \/ exists n payload frames, z = Ok (n, payload) /\ parse_frames payload = Ok frames /\ handle_packet P dst frames = Panic.
Proof.
  unfold after. destruct z as [[n payload]|e|]; cbn [bind fst snd].
  - destruct (parse_frames payload) as [frames|e|] eqn:PF; [|split; [discriminate|intros [|(? & ? & ? & H & H' & _)]; [discriminate|]; congruence]|destruct (parse_frames_total payload PF)].
    cbn [from_binary map_err bind]. destruct (handle_packet P dst frames) as [ms|e|] eqn:HP; cbn [bind].
    + split; [discriminate|]. intros [|(? & ? & ? & H & H' & X)]; [discriminate|]. congruence.
    + split; [discriminate|]. intros [|(? & ? & ? & H & H' & X)]; [discriminate|]. congruence.
    + split; [|reflexivity]. intros _. right. exists n, payload, frames. auto.
  - split; [discriminate|]. intros [|(? & ? & ? & H & _)]; discriminate.
  - split; auto.
Qed.
Lemma head_found P B cs packet : bytes_ok packet -> fits packet -> parse_packet P B cs packet = Panic ->
  (exists b t, packet = b :: t /\ b / 64 = 1) \/ exists h body, packet = head_bytes h ++ body /\ head_ok h.
Proof.
  intros O F E. unfold parse_packet in E. destruct packet as [|b t]; [discriminate|].
  assert (Hb : b < 256) by (apply bytes_ok_cons in O; apply O).
  destruct (N.eqb_spec (N.land b 64) 0) as [|H1]; [discriminate|].
  destruct (N.eqb_spec (N.land b 128) 128) as [H2|H2].
  2:{ left. exists b, t. split; [reflexivity|]. pose proof (byte_sweep (fun b => (N.land b 64 =? 0) || (N.land b 128 =? 128) || (b / 64 =? 1)) eq_refl b Hb) as X. cbv beta in X.
      apply N.eqb_neq in H1, H2. rewrite H1, H2 in X. cbn [orb] in X. apply N.eqb_eq, X. }
  right. assert (Hd : hd 0 (b :: t) = b) by reflexivity. set (packet := b :: t) in *. clearbody packet. unfold parse_long in E. fold long_reader in E.
  destruct (long_reader (new_reader packet)) as [x r] eqn:E1. cbn [fst] in E.
  destruct x as [[[[b' dst] src] off]|e|]; [|discriminate|].
  2:{ destruct (wb_long (new_reader packet)) as (N1 & _); [unfold in_bounds, new_reader; cbn [r_off r_buf]; lia|]. rewrite E1 in N1. destruct N1. reflexivity. }
  cbn [from_binary map_err bind] in E. cbv zeta in E. destruct (long_inv _ _ _ _ _ _ O E1) as (rest & -> & L1 & L2 & ->).
  destruct (N.eqb_spec (N.shiftr (N.land b' 48) 4) 0) as [K|]; [|repeat (destruct (_ =? _); [discriminate|]); discriminate].
  assert (b' = b) as -> by exact Hd. unfold parse_initial in E. fold initial_reader in E.
  change (new_reader_at (long_head b dst src ++ rest) (length (long_head b dst src))) with (at_pos (long_head b dst src) rest) in E.
  apply bytes_ok_app in O. destruct O as [_ O].
  destruct (initial_reader (at_pos (long_head b dst src) rest)) as [x r2] eqn:E2. cbn [fst] in E.
  destruct x as [[[token len] off]|e|]; [|discriminate|].
  2:{ destruct (wb_initial (at_pos (long_head b dst src) rest) (at_in_bounds _ _)) as (N1 & _). rewrite E2 in N1. destruct N1. reflexivity. }
  destruct (initial_inv _ _ _ _ _ _ O E2) as (wt & wl & body & -> & F1 & F2 & ->).
  exists {| hd_first := b; hd_dst := dst; hd_src := src; hd_token_width := wt; hd_token := token; hd_length_width := wl; hd_length := len |}, body.
  split; [rewrite head_long; cbn [hd_first hd_dst hd_src hd_token hd_token_width hd_length hd_length_width]; rewrite <- !app_assoc; reflexivity|].
  split; [apply first_bits; auto|]. cbn [hd_first hd_dst hd_src hd_token hd_token_width hd_length hd_length_width]. auto.
Qed.
Lemma same_halves {A} (a b c d : list A) : a ++ c = b ++ d -> length a = length b -> a = b /\ c = d.
Proof.
  revert b. induction a as [|x a IH]; intros [|y b] E L; try discriminate; [split; [reflexivity|exact E]|].
  cbn [app] in E. injection E as -> E. injection L as L. destruct (IH b E L) as [-> ->]. split; reflexivity.
Qed.
Lemma decrypt_exact P B a s h body : block_ok B -> secrets_ok s -> key_len a = 16%nat -> let packet := head_bytes h ++ body in bytes_ok packet -> blen packet < two63 -> hd_length h < two62 ->
  decrypt_payload P B packet (N.of_nat (length (head_bytes h))) (hd_length h) s a = Panic <->
  20 <= blen body /\ (hd_length h < number_width B s (hd_first h) body \/ blen body < hd_length h).
Proof.
  intros BK SK AL packet O F L62. change two63 with 9223372036854775808 in F. change two62 with 4611686018427387904 in L62.
  assert (LP : blen packet = blen (head_bytes h) + blen body) by (unfold packet; apply blen_app).
  destruct (N.lt_ge_cases (blen body) 20) as [S20|S20].
  { split; [|lia]. unfold decrypt_payload, remove_header_protection, get_sample. destruct (N.leb_spec two64 (N.of_nat (length (head_bytes h)) + 20)) as [X|_]; [change two64 with 18446744073709551616 in X; unfold blen in *; lia|].
    replace (blen packet <? _) with true by (symmetry; apply N.ltb_lt; unfold blen in *; lia). discriminate. }
  assert (L1 : (1 <= length (head_bytes h))%nat) by (unfold head_bytes; cbn [length]; lia).
  assert (LB : blen (head_bytes h) = N.of_nat (length (head_bytes h))) by reflexivity.
  destruct (remove_total B s packet (N.of_nat (length (head_bytes h))) BK O ltac:(change two64 with 18446744073709551616; lia) ltac:(lia) ltac:(lia)) as (b & mid & pnb & rest & m0 & m & more & EP & Eo & Lp & Lb & Lm & Lr & EB & El & R).
  assert (Lx : length (xor_bytes pnb m) = length pnb) by (apply xor_length; lia).
  assert (Off : length (head_bytes h) = (1 + length mid)%nat) by lia.
  assert (X : head_bytes h = b :: mid /\ body = pnb ++ rest).
  { apply (same_halves (head_bytes h) (b :: mid)); [exact EP|exact Off]. }
  destruct X as [Xh Xb].
  assert (On : bytes_ok (xor_bytes pnb m)).
  { apply xor_ok. - rewrite EP in O. rewrite bytes_ok_cons, !bytes_ok_app in O. tauto.
    - destruct (BK (q_hp s) (the_sample (length pnb) rest)) as [_ OB]; [apply sample_length; unfold bytes in *; lia|]. rewrite EB, bytes_ok_cons, bytes_ok_app in OB. tauto. }
  destruct (decrypt_known P B a s SK AL _ (length (head_bytes h)) (hd_length h) _ _ _ _ R Off) as [D1 D2]; [rewrite Lx; exact Lp|exact On|change two64 with 18446744073709551616; lia|].
  assert (LX : blen (xor_bytes pnb m) = blen pnb) by (unfold blen; rewrite Lx; reflexivity).
  assert (W : number_width B s (hd_first h) body = blen pnb).
  { unfold number_width. assert (hd_first h = b) as -> by (unfold head_bytes in Xh; congruence). rewrite <- land3_first.
    assert (firstn 16 (skipn 4 body) = the_sample (length pnb) rest) as ->. { unfold the_sample. rewrite Xb, skipn_app, skipn_all2 by lia. reflexivity. }
    rewrite EB. cbn [hd]. change 3 with (N.ones 2). rewrite N.land_ones. change (2 ^ 2) with 4. unfold blen. lia. }
  rewrite W. assert (LBd : blen body = blen pnb + blen rest) by (rewrite Xb; apply blen_app). rewrite LX in *. split.
  - intros E. split; [exact S20|]. destruct (N.lt_ge_cases (hd_length h) (blen pnb)) as [X|X1]; [auto|]. right.
    destruct (N.lt_ge_cases (blen body) (hd_length h)) as [X|X2]; [exact X|]. exfalso.
    set (n := N.to_nat (hd_length h - blen pnb)). assert (Ln : length (firstn n rest) = n) by (apply firstn_length_le; unfold n, blen in *; lia).
    specialize (D2 (firstn n rest) (skipn n rest) (eq_sym (firstn_skipn _ _))). rewrite D2 in E by (unfold blen at 2; rewrite Ln; unfold n; lia).
    destruct (unseal P a (q_key s) _ _ _); discriminate.
  - intros [_ [X|X]]; apply D1; lia.
Qed.

(** A packet stops the endpoint exactly when its header is short, or when it is an initial packet
    with twenty bytes at least after its header and a length that is smaller than the packet
    number or leads past the packet, or whose messages stop it. *)
Theorem C147_crash_exact P B cs packet : sizes_ok P -> block_ok B -> (forall id k, lookup id cs = Some k -> secrets_ok (q_server k)) -> bytes_ok packet -> blen packet < two63 ->
  parse_packet P B cs packet = Panic <->
  (exists b t, packet = b :: t /\ b / 64 = 1) \/
  (exists h body, packet = head_bytes h ++ body /\ head_ok h /\ let s := theirs P cs (hd_dst h) in
     (20 <= blen body /\ (hd_length h < number_width B s (hd_first h) body \/ blen body < hd_length h)) \/
     (exists n payload frames, decrypt_payload P B packet (blen (head_bytes h)) (hd_length h) s AES_128_GCM = Ok (n, payload) /\
        parse_frames payload = Ok frames /\ handle_packet P (hd_dst h) frames = Panic)).
Proof.
  intros SZ BK SK O F. assert (F64 : fits packet) by (unfold fits; change two63 with 9223372036854775808 in F; change two64 with 18446744073709551616; lia).
  assert (TK : forall id, secrets_ok (theirs P cs id)) by (intros id; unfold theirs; destruct (lookup id cs) eqn:L; [eapply SK, L|apply rfc_keys_ok, SZ]).
  assert (K : forall h body, packet = head_bytes h ++ body -> head_ok h -> parse_packet P B cs packet = Panic <->
    ((20 <= blen body /\ (hd_length h < number_width B (theirs P cs (hd_dst h)) (hd_first h) body \/ blen body < hd_length h)) \/
     (exists n payload frames, decrypt_payload P B packet (blen (head_bytes h)) (hd_length h) (theirs P cs (hd_dst h)) AES_128_GCM = Ok (n, payload) /\
        parse_frames payload = Ok frames /\ handle_packet P (hd_dst h) frames = Panic))).
  { intros h body -> HO. assert (Hb : hd_first h < 256) by (unfold head_bytes in O; cbn [app] in O; apply bytes_ok_cons in O; apply O).
    destruct (parse_known P B cs h body SZ HO Hb F64) as (new & E). rewrite E, after_panic.
    rewrite decrypt_exact; [reflexivity|exact BK|apply TK|reflexivity|exact O|exact F|]. eapply form_lt, HO. }
  split.
  - intros E. destruct (head_found P B cs packet O F64 E) as [X|(h & body & EP & HO)]; [left; exact X|right].
    exists h, body. split; [exact EP|]. split; [exact HO|]. apply (K h body EP HO), E.
  - intros [(b & t & -> & Hb)|(h & body & EP & HO & X)].
    + apply C82_short_header_refuted.
      * intros E. assert (b < 256) as H by lia. pose proof (byte_sweep (fun b => negb (b / 64 =? 1) || negb (N.land b 64 =? 0)) eq_refl b H) as X. cbv beta in X. apply N.eqb_eq in Hb, E. rewrite Hb, E in X. discriminate.
      * assert (b < 256) as H by lia. pose proof (byte_sweep (fun b => negb (b / 64 =? 1) || (N.land b 128 =? 0)) eq_refl b H) as X. cbv beta in X. apply N.eqb_eq in Hb. rewrite Hb in X. apply N.eqb_eq, X.
    + apply (K h body EP HO), X.
Qed.
Print Assumptions C147_crash_exact.

(** The messages: the first one stops it exactly when it is there as a whole and is a key update,
    or is read as something that is not written again as all the bytes that arrived. *)
Definition stopping (d : bytes) : Prop :=
  exists t len rest, d = t :: be_bytes 3 len ++ rest /\ len < 16777216 /\ len <= blen rest /\
    (t = 24 \/ exists h r, read_handshake (new_reader d) = (Ok h, r) /\ (fst (write_handshake h []) = Panic \/ exists d', write_handshake h [] = (Ok tt, d') /\ d' <> d)).
Theorem C147_message_exact d : bytes_ok d -> fits d -> try_pop_handshake d = Panic <-> stopping d.
Proof.
  intros O F. unfold try_pop_handshake.
  destruct (Nat.ltb_spec (length d) 4) as [L4|L4].
  { split; [discriminate|]. intros (t & len & rest & -> & _). cbn [length] in L4. rewrite app_length, be_bytes_length in L4. lia. }
  destruct d as [|t [|x1 [|x2 [|x3 rest]]]]; try (cbn [length] in L4; lia).
  set (len := of_be_bytes [x1; x2; x3]). assert (O' := O). rewrite !bytes_ok_cons in O'. destruct O' as (Ht & H1 & H2 & H3 & Or).
  assert (O3 : bytes_ok [x1; x2; x3]) by (rewrite !bytes_ok_cons; do 3 (split; [assumption|]); constructor).
  assert (E3 : be_bytes 3 len = [x1; x2; x3]) by (exact (be_of_be_bytes [x1; x2; x3] O3)).
  assert (Ll : len < 16777216) by (pose proof (of_be_bytes_lt [x1; x2; x3] O3) as X; exact X).
  assert (Ed : t :: x1 :: x2 :: x3 :: rest = be_bytes 1 t ++ be_bytes 3 len ++ rest) by (rewrite E3, <- single_be1 by exact Ht; reflexivity).
  assert (R : fst ((do _ <- read_u8; read_u24) (new_reader (t :: x1 :: x2 :: x3 :: rest))) = Ok len).
  { rewrite Ed in F |- *. rewrite new_at_pos. unfold rbind. rewrite (reads_u8 t Ht [] _ F). rewrite (reads_u24 len Ll) by exact F. reflexivity. }
  rewrite R. cbn [from_binary map_err bind].
  assert (LD : blen (t :: x1 :: x2 :: x3 :: rest) - 4 = blen rest) by (unfold blen; cbn [length]; lia). rewrite LD.
  assert (Only : forall t' len' rest', t :: x1 :: x2 :: x3 :: rest = t' :: be_bytes 3 len' ++ rest' -> len' < 16777216 -> t' = t /\ len' = len /\ rest' = rest).
  { intros t' len' rest' E L'. destruct (same_halves [t; x1; x2; x3] (t' :: be_bytes 3 len') rest rest') as [A1 A2]; [exact E|cbn [length]; rewrite be_bytes_length; reflexivity|].
    assert (A3 : t' = t) by congruence. assert (A4 : [x1; x2; x3] = be_bytes 3 len') by congruence. split; [exact A3|]. split; [|congruence]. unfold len. rewrite A4. symmetry. apply of_be_be_bytes. exact L'. }
  destruct (N.ltb_spec (blen rest) len) as [Ls|Ls].
  { split; [discriminate|]. intros (t' & len' & rest' & E & L' & L'' & _). destruct (Only _ _ _ E L') as (-> & -> & ->). lia. }
  assert (RB : read_handshake (new_reader (t :: x1 :: x2 :: x3 :: rest)) = read_handshake_body t (at_pos [t] (x1 :: x2 :: x3 :: rest))).
  { rewrite Ed in F |- *. rewrite new_at_pos. unfold read_handshake. unfold rbind at 1. rewrite (reads_u8 t Ht [] _ F). rewrite app_nil_l, <- single_be1, E3 by exact Ht. reflexivity. }
  unfold stopping. set (d := t :: x1 :: x2 :: x3 :: rest) in *.
  assert (Ed' : d = t :: be_bytes 3 len ++ rest) by (unfold d; rewrite E3; reflexivity).
  destruct (read_handshake (new_reader d)) as [[h|e|] r] eqn:RH.
  - destruct (write_handshake h []) as [[[]|e|] d'] eqn:WH.
    + destruct (bytes_eqb d d') eqn:BE.
      * split; [discriminate|]. intros (t' & len' & rest' & E & L' & _ & [X|(h' & r' & X & Y)]).
        -- exfalso. destruct (Only _ _ _ E L') as (-> & _). subst t. change (read_handshake_body 24) with (do _ <- read_u24; rpanic : rd handshake) in RB. unfold rbind in RB.
           destruct (read_u24 _) as [[?|?|] ?]; discriminate.
        -- apply bytes_eqb_eq in BE. assert (h' = h) as -> by congruence. rewrite WH in Y. destruct Y as [Y|(d'' & Y & NE)]; [discriminate|]. assert (d'' = d') as -> by congruence. congruence.
      * split; [|reflexivity]. intros _. exists t, len, rest. do 3 (split; [assumption|]). right. exists h, r. split; [reflexivity|]. right. exists d'. split; [exact WH|].
        intros ->. rewrite bytes_eqb_refl in BE. discriminate.
    + split; [discriminate|]. intros (t' & len' & rest' & E & L' & _ & [X|(h' & r' & X & Y)]).
      * exfalso. destruct (Only _ _ _ E L') as (-> & _). subst t. change (read_handshake_body 24) with (do _ <- read_u24; rpanic : rd handshake) in RB. unfold rbind in RB.
        destruct (read_u24 _) as [[?|?|] ?]; discriminate.
      * assert (h' = h) as -> by congruence. rewrite WH in Y. destruct Y as [Y|(d'' & Y & NE)]; discriminate.
    + split; [|reflexivity]. intros _. exists t, len, rest. do 3 (split; [assumption|]). right. exists h, r. split; [reflexivity|]. left. rewrite WH. reflexivity.
  - split; [discriminate|]. intros (t' & len' & rest' & E & L' & _ & [X|(h' & r' & X & Y)]); [|congruence].
    exfalso. destruct (Only _ _ _ E L') as (-> & _). subst t. unfold read_handshake_body in RB. unfold rbind at 1 in RB.
    change (x1 :: x2 :: x3 :: rest) with ([x1; x2; x3] ++ rest) in RB. rewrite <- E3 in RB. rewrite (reads_u24 len Ll) in RB by (rewrite E3; exact F). cbn in RB. discriminate.
  - split; [|reflexivity]. intros _. exists t, len, rest. do 3 (split; [assumption|]). left. destruct (N.eq_dec t 24) as [X|X]; [exact X|]. exfalso.
    destruct (safe_body t X [t] (x1 :: x2 :: x3 :: rest) O) as (x & s & post & E & _ & NP). rewrite E in RB. apply NP. congruence.
Qed.
Print Assumptions C147_message_exact.
(** So any whole message of a type that the endpoint does not know stops it, whatever follows. *)
Definition known_types : list N := [1; 2; 4; 5; 8; 11; 13; 15; 20].
Theorem C147_unknown_message P dst t body more frames : bytes_ok (t :: body ++ more) -> blen body < 16777216 -> let d := t :: be_bytes 3 (blen body) ++ body ++ more in fits d ->
  ~ In t known_types -> crypto_data frames = d -> handle_packet P dst frames = Panic.
Proof.
  intros O Lb d F NI E. unfold handle_packet. rewrite E. unfold d at 1. cbn [length process_handshakes].
  apply bytes_ok_cons in O. destruct O as [Ht O]. assert (OD : bytes_ok d) by (unfold d; apply bytes_ok_cons; split; [exact Ht|]; apply bytes_ok_app; split; [apply be_bytes_ok|exact O]).
  assert (X : try_pop_handshake d = Panic).
  { apply C147_message_exact; [exact OD|exact F|]. exists t, (blen body), (body ++ more). split; [reflexivity|]. split; [exact Lb|]. split; [rewrite blen_app; lia|].
    destruct (N.eq_dec t 24) as [->|NE]; [left; reflexivity|right].
    assert (R : exists r, read_handshake (new_reader d) = (Ok (HUnknown t body), r)).
    { assert (Ed : d = be_bytes 1 t ++ be_bytes 3 (blen body) ++ body ++ more) by (unfold d; rewrite <- single_be1 by exact Ht; reflexivity).
      rewrite Ed in F |- *. rewrite new_at_pos. eexists. unfold read_handshake, read_handshake_body. unfold rbind at 1. rewrite (reads_u8 t Ht [] _ F).
      unfold rbind at 1. rewrite (reads_u24 _ Lb) by exact F.
      repeat match goal with |- context [if t =? ?k then _ else _] => destruct (N.eqb_spec t k) as [->|]; [exfalso; first [apply NE; reflexivity|apply NI; vm_compute; tauto]|] end.
      unfold rbind at 1. rewrite (reads_fixed body) by (rewrite <- !app_assoc; exact F). reflexivity. }
    destruct R as (r & R). exists (HUnknown t body), r. split; [exact R|]. left. reflexivity. }
  rewrite X. reflexivity.
Qed.
Print Assumptions C147_unknown_message.
Example C147_sample : head_ok {| hd_first := 0xc3; hd_dst := fst plain_ids; hd_src := snd plain_ids; hd_token_width := 1; hd_token := [42]; hd_length_width := 2; hd_length := 3 |} /\
  (exists packet, packet = head_bytes {| hd_first := 0xc3; hd_dst := fst plain_ids; hd_src := snd plain_ids; hd_token_width := 1; hd_token := [42]; hd_length_width := 2; hd_length := 100 |} ++ repeat 0 30 /\
     parse_packet toy toy_block [] packet = Panic) /\
  handle_packet toy [] [FCrypto {| cf_start := 0; cf_data := [77; 0; 0] |}; FPing; FCrypto {| cf_start := 3; cf_data := [2; 7; 8; 9] |}] = Panic /\
  handle_packet toy [] [FCrypto {| cf_start := 0; cf_data := [77; 0; 0; 2; 7] |}] = Ok [].
Proof.
  split; [repeat split; vm_compute; auto; discriminate|]. split; [eexists; split; [reflexivity|vm_compute; reflexivity]|]. split; reflexivity.
Qed.
