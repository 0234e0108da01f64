(** Lemmas about the handshake messages in initial packets. *)
From Verif Require Import Base BaseProofs BinaryModel BinarySpec BinaryProofs BinaryProofs2 MessageProofs MessageProofs2 TlsCodesModel TlsTypesModel TlsTypesSpec TlsTypesProofs TlsTypesProofs2 TlsTypesProofs3
  TlsRecordModel TlsRecordSpec TlsRecordProofs TlsClientSpec QuicModel QuicSpec QuicProofs QuicProofs2 QuicProofs4 QuicProofs5.
From Coq Require Import Lia ZArith ZifyBool ZifyNat ZifyN.
Ltac Zify.zify_post_hook ::= Z.div_mod_to_equations.
Local Open Scope string_scope. Local Open Scope list_scope. Local Open Scope N_scope.

Lemma minimal_again d xs : d = concat (map wire_param_bytes xs) -> Forall wire_param_ok xs -> bytes_ok d -> fits d ->
  exists l, decode_list d = Ok l /\ (encode_list l = d <-> Forall minimal xs).
Proof.
  intros -> W O F. pose proof (values_ok _ O) as V. exists (map (fun x => decoded (wp_id x) (wp_value x)) xs). split.
  - unfold decode_list. rewrite new_at_pos. apply decode_loop_ok; [exact W|exact V|exact F|lia].
  - destruct (encode_again xs _ W (proj2 (decoded_forall2 xs _ V) eq_refl)) as (ys & -> & FF). apply concat_minimal, FF.
Qed.
Lemma check_params_ok h l : params_minimal h -> incl l (ch_extensions h) -> check_params l = Ok tt.
Proof.
  intros M. induction l as [|x l IH]; intros I; [reflexivity|]. specialize (IH (fun y H => I y (or_intror H))).
  destruct x; try exact IH. cbn [check_params]. destruct (M data) as (xs & E & W & MM & O & F); [apply I; left; reflexivity|].
  destruct (minimal_again data xs E W O F) as (ps & -> & H). cbn [from_binary map_err bind]. rewrite (proj2 H MM), bytes_eqb_refl. exact IH.
Qed.
Lemma reads_u24 v : v < 16777216 -> reads read_u24 (be_bytes 3 v) v.
Proof. intros L. apply (reads_num 3); [cbn; auto|exact L]. Qed.
Lemma pop_written h t b : handshake_ok h -> handshake_writable h -> handshake_fits h -> handshake_parts h = Some (t, b) -> delimits_itself h ->
  fits (handshake_bytes t b) -> try_pop_handshake (handshake_bytes t b) = Ok (Some (h, [])).
Proof.
  intros O W HF E D F. unfold try_pop_handshake. pose proof (handshake_type_lt h t b O E) as Lt.
  assert (Len : length (handshake_bytes t b) = (4 + length b)%nat) by (unfold handshake_bytes, vec; cbn [length]; rewrite app_length, be_bytes_length; reflexivity).
  replace (length (handshake_bytes t b) <? 4)%nat with false by (symmetry; apply Nat.ltb_ge; lia).
  assert (R : fst ((do _ <- read_u8; read_u24) (new_reader (handshake_bytes t b))) = Ok (blen b mod 16777216)).
  { rewrite new_at_pos. unfold handshake_bytes, vec in *. rewrite <- (be_bytes_mod 3 (blen b)) in *. change (256 ^ N.of_nat 3) with 16777216 in *.
    change (t :: be_bytes 3 (blen b mod 16777216) ++ b) with ([t] ++ be_bytes 3 (blen b mod 16777216) ++ b) in *. rewrite (single_be1 t) in * by lia.
    unfold rbind. rewrite (reads_u8 t Lt [] _ F). rewrite (reads_u24 (blen b mod 16777216)) by (lia || exact F). reflexivity. }
  rewrite R. cbn [from_binary map_err bind]. replace (_ <? _) with false by (symmetry; apply N.ltb_ge; unfold blen; rewrite Len; unfold blen; lia).
  pose proof (reads_handshake h t b (blen b) O HF E D [] []) as RH. rewrite !app_nil_r, app_nil_l in RH. rewrite new_at_pos.
  change ([t] ++ be_bytes 3 (blen b) ++ b) with (handshake_bytes t b) in RH. rewrite (RH F).
  destruct (write_handshake_ok h t b [] O W E) as [[_ H]|[H _]]; [|contradiction]. rewrite H. rewrite app_nil_l, bytes_eqb_refl. unfold at_pos. cbn [r_off].
  rewrite skipn_all. reflexivity.
Qed.
Lemma process_written P dst h t b fuel : sizes_ok P -> handshake_ok h -> handshake_writable h -> handshake_fits h -> handshake_parts h = Some (t, b) -> delimits_itself h ->
  fits (handshake_bytes t b) -> match h with HClientHello c => params_minimal c | _ => True end ->
  process_handshakes (S (S fuel)) P dst (handshake_bytes t b) true = Ok [h].
Proof.
  intros SZ O W HF E D F M. cbn [process_handshakes]. rewrite (pop_written h t b O W HF E D F). cbn [bind].
  destruct h; cbn [bind]; try (rewrite from_id_rfc by exact SZ; reflexivity).
  rewrite (check_params_ok _ _ M (incl_refl _)). cbn [bind]. rewrite from_id_rfc by exact SZ. reflexivity.
Qed.

(** *** What can stop the endpoint *)
Lemma decode_list_total d : bytes_ok d -> decode_list d <> Panic.
Proof. intros O. unfold decode_list. rewrite new_at_pos. apply decode_loop_total; [exact O|lia]. Qed.
Lemma parse_frames_total d : parse_frames d <> Panic.
Proof. unfold parse_frames. rewrite new_at_pos. apply frames_loop_total. lia. Qed.
