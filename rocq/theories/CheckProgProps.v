(** C124: the small checking programs. *)
From Verif Require Import Base BaseProofs UtilModel UtilProps MultibaseModel MultibaseSpec MultibaseProps BencodeModel BencodeSpec BencodeProofs HexDumpModel HexDumpProps ChatModel BencodePathModel Asn1PrintProps TlsRecordModel TlsRecordSpec ToolsProps CheckProgModel.
Ltac Zify.zify_post_hook ::= Z.div_mod_to_equations.
Local Open Scope string_scope. Local Open Scope list_scope. Local Open Scope N_scope.

(** *** The generator's low bits *)
(** From every seed, bit [b] (0 the lowest) is the opposite after 2^b steps, and the bits
    below it are the same; so the low bits repeat after very few steps. *)
Theorem C124_low_bits : forall s b, s < two32 -> b < 32 ->
  N.testbit (N.iter (2 ^ b) next_u32 s) b = negb (N.testbit s b) /\
  (forall a, a < b -> N.testbit (N.iter (2 ^ b) next_u32 s) a = N.testbit s a).
Proof.
  intros s b S B. rewrite iter_formula by exact S.
  assert (O : (214012 * s + lcg_c) mod 2 = 1) by (unfold lcg_c; lia).
  set (o := 214012 * s + lcg_c) in *. clearbody o.
  assert (P : 2 ^ b <> 0) by (apply N.pow_nonzero; lia).
  assert (D : N.divide (2 ^ b) (geo (2 ^ b))) by (apply geo_div; exists 1; lia).
  assert (ND : ~ N.divide (2 ^ N.succ b) (geo (2 ^ b))).
  { intros H. apply (proj1 (geo_div _ _)) in H. destruct H as [q Q]. rewrite N.pow_succ_r' in Q. revert Q P. generalize (2 ^ b). intros p Q P.
    assert (Z : q = 0 \/ 1 <= q) by (clear; lia). destruct Z as [->|Z]; [lia|].
    pose proof (N.mul_le_mono_r 1 q (2 * p) Z). lia. }
  destruct D as [q Q]. rewrite Q in *.
  assert (QO : q mod 2 = 1).
  { destruct (N.eq_dec (q mod 2) 1) as [E|E]; [exact E|]. exfalso. apply ND. exists (q / 2). rewrite N.pow_succ_r'.
    assert (H : q = 2 * (q / 2)) by lia. rewrite H at 1. lia. }
  assert (MO : (q * o) mod 2 = 1) by (rewrite N.mul_mod, QO, O by lia; reflexivity).
  replace (q * 2 ^ b * o) with (q * o * 2 ^ b) by lia. set (m := q * o) in *. clearbody m.
  change two32 with (2 ^ 32). split.
  - rewrite N.mod_pow2_bits_low by exact B. rewrite !N.testbit_eqb, N.div_add by exact P.
    set (x := s / 2 ^ b). clearbody x. destruct (N.eqb_spec ((x + m) mod 2) 1), (N.eqb_spec (x mod 2) 1); cbn [negb]; try reflexivity; exfalso; lia.
  - intros a A. rewrite N.mod_pow2_bits_low by lia.
    rewrite <- (N.mod_pow2_bits_low (s + m * 2 ^ b) b a) by exact A. rewrite N.mod_add by exact P. apply N.mod_pow2_bits_low. exact A.
Qed.
Print Assumptions C124_low_bits.
(** The lowest bit alternates, for the program's seed as for every other. *)
Example C124_low_bits_case : map (fun v => v mod 2) (outputs 6 12345) = [0; 1; 0; 1; 0; 1] /\
  N.testbit (N.iter 8 next_u32 12345) 3 = negb (N.testbit 12345 3).
Proof. split; vm_compute; reflexivity. Qed.

(** How many numbers of a list have bit [b]. *)
Fixpoint ones (b : N) (l : list N) : N := match l with [] => 0 | v :: l => (if N.testbit v b then 1 else 0) + ones b l end.
Lemma ones_app b l l' : ones b (l ++ l') = ones b l + ones b l'.
Proof. induction l as [|v l IH]; cbn [ones app]; lia. Qed.
Lemma outputs_len n s : length (outputs n s) = n.
Proof. revert s. induction n as [|n IH]; intros s; cbn [outputs length]; [|rewrite IH]; reflexivity. Qed.
Lemma next_range s : next_u32 s < two32.
Proof. unfold next_u32. apply N.mod_lt. unfold two32; lia. Qed.
Lemma outputs_range n s : Forall (fun v => v < two32) (outputs n s).
Proof. revert s. induction n as [|n IH]; intros s; cbn [outputs]; constructor; [apply next_range | apply IH]. Qed.
Lemma iter_shift n s : N.iter n next_u32 (next_u32 s) = next_u32 (N.iter n next_u32 s).
Proof. rewrite <- N.iter_succ_r. apply N.iter_succ. Qed.
Lemma outputs_app n m s : outputs (n + m) s = outputs n s ++ outputs m (N.iter (N.of_nat n) next_u32 s).
Proof.
  revert s. induction n as [|n IH]; intros s; [reflexivity|].
  cbn [Nat.add outputs app]. rewrite IH. rewrite Nat2N.inj_succ, N.iter_succ_r. reflexivity.
Qed.
Lemma outputs_later k n s : outputs n (N.iter k next_u32 s) = map (N.iter k next_u32) (outputs n s).
Proof. revert s. induction n as [|n IH]; intros s; [reflexivity|]. cbn [outputs map]. rewrite <- iter_shift, IH. reflexivity. Qed.
Lemma ones_flipped b l : b < 32 -> Forall (fun v => v < two32) l -> ones b l + ones b (map (N.iter (2 ^ b) next_u32) l) = blen l.
Proof.
  intros B. induction 1 as [|v l V F IH]; [reflexivity|]. cbn [ones map]. rewrite (proj1 (C124_low_bits v b V B)).
  unfold blen in *. cbn [length]. destruct (N.testbit v b); cbn [negb]; lia.
Qed.
Lemma iter_range n s : s < two32 -> N.iter n next_u32 s < two32.
Proof. intros S. rewrite iter_formula by exact S. apply N.mod_lt. unfold two32; lia. Qed.
(** So bit [b] is set in exactly half of the outputs, whenever their number is a multiple of
    2^(b+1). *)
Theorem C124_balanced : forall s b k, s < two32 -> b < 32 ->
  ones b (outputs (N.to_nat (k * 2 ^ (b + 1))) s) = k * 2 ^ b.
Proof.
  intros s b k S B. revert s S. induction k as [|k IH] using N.peano_ind; intros s S; [reflexivity|].
  replace (N.to_nat (N.succ k * 2 ^ (b + 1))) with ((N.to_nat (2 ^ b) + N.to_nat (2 ^ b)) + N.to_nat (k * 2 ^ (b + 1)))%nat
    by (rewrite N.add_1_r, N.pow_succ_r'; lia).
  rewrite outputs_app, ones_app, IH by (apply iter_range, S).
  rewrite outputs_app, ones_app, N2Nat.id, outputs_later, ones_flipped by (auto; apply outputs_range).
  unfold blen. rewrite outputs_len, N2Nat.id. lia.
Qed.
Print Assumptions C124_balanced.
Example C124_balanced_case : ones 2 (outputs (N.to_nat (3 * 2 ^ (2 + 1))) 12345) = 12.
Proof. vm_compute. reflexivity. Qed.

(** *** What the program prints *)
Lemma left_bit_ok v i : (i < 32)%nat -> left_bit v i = N.testbit v (31 - N.of_nat i).
Proof.
  intros I. unfold left_bit. rewrite N.testbit_eqb, N.shiftr_div_pow2. change 1 with (N.ones 1) at 1. rewrite N.land_ones. reflexivity.
Qed.
Lemma frequency_from l i f : (i < 32)%nat -> fold_left (fun f v => if left_bit v i then f + 1 else f) l f = f + ones (31 - N.of_nat i) l.
Proof.
  intros I. revert f. induction l as [|v l IH]; intros f; cbn [fold_left ones]; [lia|]. rewrite IH, left_bit_ok by exact I.
  destruct (N.testbit v (31 - N.of_nat i)); lia.
Qed.
(** The counters are the numbers of outputs with that bit, the bits counted from the left. *)
Theorem C124_frequency : forall l i, (i < 32)%nat -> frequency l i = ones (31 - N.of_nat i) l.
Proof. intros l i I. unfold frequency. rewrite frequency_from by exact I. lia. Qed.
Print Assumptions C124_frequency.
(** The line of an output is its number in eight hexadecimal digits, a blank and its 32
    binary digits, highest first; different outputs have different lines. *)
Definition binary_value (t : bytes) : N := fold_left (fun a c => 2 * a + (c - 48)) t 0.
Lemma binary_prefix v n : (n <= 32)%nat -> v < two32 ->
  binary_value (map (fun i => if left_bit v i then 49 else 48) (seq 0 n)) = v / 2 ^ (32 - N.of_nat n).
Proof.
  intros L V. induction n as [|n IH].
  - cbn. symmetry. apply N.div_small. exact V.
  - rewrite seq_S, map_app. unfold binary_value in *. rewrite fold_left_app, IH by lia. cbn [Nat.add map fold_left].
    rewrite left_bit_ok by lia. rewrite N.testbit_eqb.
    replace (32 - N.of_nat n) with (N.succ (31 - N.of_nat n)) by lia. replace (32 - N.of_nat (Datatypes.S n)) with (31 - N.of_nat n) by lia.
    assert (E : v / 2 ^ N.succ (31 - N.of_nat n) = v / 2 ^ (31 - N.of_nat n) / 2).
    { rewrite N.div_div; [|apply N.pow_nonzero; discriminate|discriminate]. rewrite N.pow_succ_r', N.mul_comm. reflexivity. }
    rewrite E. clear E. set (x := v / 2 ^ (31 - N.of_nat n)). clearbody x. destruct (N.eqb_spec (x mod 2) 1); lia.
Qed.
Theorem C124_line : forall v, v < two32 ->
  exists hex bin, detrand_line v = hex ++ [32] ++ bin ++ [10] /\
    length hex = 8%nat /\ Forall hex_char hex /\ hex_value hex = v /\
    length bin = 32%nat /\ Forall (fun c => c = 48 \/ c = 49) bin /\ binary_value bin = v.
Proof.
  intros v V. exists (hex_padded 8 v), (map (fun i => if left_bit v i then 49 else 48) (seq 0 32)).
  destruct (offset_ok v) as (A & B & _).
  split; [reflexivity|]. split; [apply offset_short, V|]. split; [exact A|]. split; [exact B|].
  split; [rewrite map_length, seq_length; reflexivity|]. split.
  - apply Forall_forall. intros c H. apply in_map_iff in H as (i & <- & _). destruct (left_bit v i); auto.
  - rewrite binary_prefix by (auto; lia). change (32 - N.of_nat 32) with 0. rewrite N.pow_0_r, N.div_1_r. reflexivity.
Qed.
Print Assumptions C124_line.
Example C124_line_case : detrand_line (next_u32 12345) = ascii_bytes "9da03218 10011101101000000011001000011000" ++ [10].
Proof. vm_compute. reflexivity. Qed.

(** What the program itself prints: a line for each of the 100000 outputs, then 32 lines of
    counters; the last five counters, those of the lowest five bits, are exactly 50000, as
    they would be for every seed.  So the printed frequencies of the low bits say nothing
    about the quality of the generator. *)
Lemma low_frequency s i : s < two32 -> (27 <= i < 32)%nat -> frequency (outputs (N.to_nat 100000) s) i = 50000.
Proof.
  intros S I. rewrite C124_frequency by lia. set (b := 31 - N.of_nat i).
  assert (B : b <= 4) by (subst b; lia). clearbody b.
  assert (E : b = 0 \/ b = 1 \/ b = 2 \/ b = 3 \/ b = 4) by lia.
  destruct E as [-> | [-> | [-> | [-> | ->]]]].
  - replace 100000 with (50000 * 2 ^ (0 + 1)) by reflexivity. rewrite C124_balanced by (exact S || reflexivity). reflexivity.
  - replace 100000 with (25000 * 2 ^ (1 + 1)) by reflexivity. rewrite C124_balanced by (exact S || reflexivity). reflexivity.
  - replace 100000 with (12500 * 2 ^ (2 + 1)) by reflexivity. rewrite C124_balanced by (exact S || reflexivity). reflexivity.
  - replace 100000 with (6250 * 2 ^ (3 + 1)) by reflexivity. rewrite C124_balanced by (exact S || reflexivity). reflexivity.
  - replace 100000 with (3125 * 2 ^ (4 + 1)) by reflexivity. rewrite C124_balanced by (exact S || reflexivity). reflexivity.
Qed.
Definition low_lines : bytes :=
  flat_map (fun i => ascii_bytes i ++ [10])
    ["frequency[27] = 50000"; "frequency[28] = 50000"; "frequency[29] = 50000"; "frequency[30] = 50000"; "frequency[31] = 50000"].
Theorem C124_detrand : forall s, s < two32 ->
  exists l high, length l = N.to_nat 100000 /\ Forall (fun v => v < two32) l /\
    (forall i, (i < N.to_nat 100000)%nat -> nth i l 0 = N.iter (N.succ (N.of_nat i)) next_u32 s) /\
    high = flat_map (fun i => ascii_bytes "frequency[" ++ (if (i <? 10)%nat then [48] else []) ++ decimal (N.of_nat i) ++ ascii_bytes "] = " ++ decimal (ones (31 - N.of_nat i) l) ++ [10]) (seq 0 27) /\
    detrand_text (N.to_nat 100000) s = flat_map detrand_line l ++ high ++ low_lines.
Proof.
  intros s S. remember (N.to_nat 100000) as n eqn:En. exists (outputs n s). eexists. split; [apply outputs_len|]. split; [apply outputs_range|].
  split.
  { clear En. intros i I. revert s S i I. induction n as [|n IH]; intros s S i I; [lia|]. cbn [outputs]. destruct i as [|i]; [reflexivity|].
    cbn [nth]. rewrite IH by (try apply next_range; lia). rewrite Nat2N.inj_succ, (N.iter_succ_r (N.succ (N.of_nat i))). reflexivity. }
  split; [reflexivity|].
  unfold detrand_text. cbv zeta. f_equal. change 32%nat with (27 + 5)%nat. rewrite seq_app, flat_map_app'. f_equal.
  - rewrite !flat_map_concat_map. f_equal. apply map_ext_in. intros i I. apply in_seq in I. unfold frequency_line, BencodePathModel.line.
    rewrite C124_frequency by lia. rewrite <- !app_assoc. f_equal.
    assert (T : two_places (N.of_nat i) = (if (i <? 10)%nat then [48] else []) ++ decimal (N.of_nat i)).
    { assert (G : forallb (fun i => bytes_eqb (two_places (N.of_nat i)) ((if (i <? 10)%nat then [48] else []) ++ decimal (N.of_nat i))) (seq 0 27) = true) by (vm_compute; reflexivity).
      rewrite forallb_forall in G. apply bytes_eqb_eq, G, in_seq. lia. }
    rewrite T, <- !app_assoc. reflexivity.
  - cbn [seq Nat.add flat_map]. unfold frequency_line. subst n. rewrite !low_frequency by (auto; lia). reflexivity.
Qed.
Print Assumptions C124_detrand.
Example C124_detrand_case : (12345 < two32) /\ detrand_main = detrand_text (N.to_nat 100000) 12345 /\
  firstn 42 (detrand_text 2 12345) = ascii_bytes "9da03218 10011101101000000011001000011000" ++ [10].
Proof. split; [reflexivity|]. split; [reflexivity|]. vm_compute. reflexivity. Qed.

(** *** Texts of packets *)
Definition hex_lower (c : N) : Prop := 48 <= c <= 57 \/ 97 <= c <= 102.
Definition blank (c : N) : bool := (c =? 32) || (c =? 10).
Definition digits_of (s : bytes) : bytes := filter (fun c => negb (blank c)) s.
Lemma plain_digits_ok s t : plain_digits s = Some t <-> Forall (fun c => hex_lower c \/ blank c = true) s /\ t = digits_of s.
Proof.
  revert t. induction s as [|c s IH]; intros t; cbn [plain_digits digits_of filter].
  - split; [intros H; injection H as <-; auto | intros [_ ->]; reflexivity].
  - destruct (((48 <=? c) && (c <=? 57)) || ((97 <=? c) && (c <=? 102))) eqn:D.
    + assert (B : blank c = false) by (unfold blank; lia). rewrite B. cbn [negb].
      destruct (plain_digits s) as [t'|] eqn:E.
      * destruct (proj1 (IH t') eq_refl) as [F ->]. split.
        -- intros H. injection H as <-. split; [|reflexivity]. constructor; [left; unfold hex_lower; lia | exact F].
        -- intros [_ ->]. reflexivity.
      * split; [discriminate|]. intros [F _]. exfalso. inversion F as [|? ? _ F']; subst.
        pose proof (proj2 (IH _) (conj F' eq_refl)). discriminate.
    + fold (blank c). destruct (blank c) eqn:B; cbn [negb].
      * rewrite IH. split; intros [F ->]; (split; [|reflexivity]); [constructor; auto | inversion F; auto].
      * split; [discriminate|]. intros [F _]. exfalso. inversion F as [|? ? H F']; subst. unfold hex_lower in H. destruct H as [H|H]; [lia|congruence].
Qed.
Lemma even_pairs n : forall ds, (length ds <= n)%nat -> Forall (fun d => d < 16) ds ->
  exists data left, bit_string 4 ds = bit_string 8 data ++ left /\ (length left < 8)%nat /\ bytes_ok data /\ length data = (length ds / 2)%nat.
Proof.
  induction n as [|n IH]; intros ds L F.
  - destruct ds; [|cbn in L; lia]. exists [], []. repeat split; try (cbn; lia). constructor.
  - destruct ds as [|a [|b ds]].
    + exists [], []. repeat split; try (cbn; lia). constructor.
    + exists [], (bits 4 a). split; [cbn [bit_string flat_map]; rewrite app_nil_r; reflexivity|]. repeat split; try (cbn; lia). constructor.
    + inversion F as [|? ? A F1]; subst. inversion F1 as [|? ? B F2]; subst. cbv beta in A, B.
      destruct (IH ds) as (data & left & E & LL & O & LD); [cbn [length] in L; lia | exact F2|].
      exists (16 * a + b :: data), left. split; [|split; [exact LL|split; [apply bytes_ok_cons; split; [cbv beta in *; assert (H : 16 * a + b < 256) by (clear - A B; lia); exact H|exact O]|]]].
      * cbn [bit_string flat_map]. fold (bit_string 4 ds) (bit_string 8 data). rewrite E, !app_assoc. do 2 f_equal.
        assert (G : forallb (fun x => forallb (fun y => if list_eq_dec Bool.bool_dec (bits 4 (N.of_nat x) ++ bits 4 (N.of_nat y)) (bits 8 (16 * N.of_nat x + N.of_nat y)) then true else false) (seq 0 16)) (seq 0 16) = true) by (vm_compute; reflexivity).
        assert (IA : In (N.to_nat a) (seq 0 16)) by (apply in_seq; lia). assert (IB : In (N.to_nat b) (seq 0 16)) by (apply in_seq; lia).
        apply (proj1 (forallb_forall _ _)) with (x := N.to_nat a) in G; [|exact IA]. cbv beta in G.
        apply (proj1 (forallb_forall _ _)) with (x := N.to_nat b) in G; [|exact IB]. cbv beta in G. rewrite !N2Nat.id in G.
        destruct (list_eq_dec Bool.bool_dec (bits 4 a ++ bits 4 b) (bits 8 (16 * a + b))) as [Q|Q]; [exact Q|discriminate].
      * cbn [length]. rewrite LD. change (Datatypes.S (Datatypes.S (length ds))) with (2 + length ds)%nat. lia.
Qed.
Lemma lower_stands c : hex_lower c -> exists d, stands_for Base16 c d /\ d < 16.
Proof.
  intros H. exists (if c <? 58 then c - 48 else c - 87). 
  assert (G : forallb (fun c => if ((48 <=? c) && (c <=? 57)) || ((97 <=? c) && (c <=? 102)) then
     match nth_error (ascii_bytes (MultibaseSpec.letters Base16)) (N.to_nat (if c <? 58 then c - 48 else c - 87)) with Some c' => c' =? c | None => false end else true) (map N.of_nat (seq 0 256)) = true) by (vm_compute; reflexivity).
  rewrite forallb_forall in G. specialize (G c ltac:(apply in_map_iff; exists (N.to_nat c); rewrite N2Nat.id, in_seq; unfold hex_lower in H; split; [reflexivity|lia])). cbv beta in G.
  assert (T : ((48 <=? c) && (c <=? 57)) || ((97 <=? c) && (c <=? 102)) = true) by (unfold hex_lower in H; lia). rewrite T in G.
  split; [|unfold hex_lower in H; destruct (N.ltb_spec c 58); lia].
  unfold stands_for. destruct (nth_error (ascii_bytes (MultibaseSpec.letters Base16)) (N.to_nat (if c <? 58 then c - 48 else c - 87))) as [c'|]; [|discriminate]. apply N.eqb_eq in G. congruence.
Qed.
Lemma lower_all l : Forall hex_lower l -> exists ds, Forall2 (stands_for Base16) l ds /\ Forall (fun d => d < 16) ds /\ length ds = length l.
Proof.
  induction 1 as [|c l C DF IH]; [exists []; auto|]. destruct IH as (ds & A & B & L). destruct (lower_stands c C) as (d & D & R).
  exists (d :: ds). split; [constructor; auto|]. split; [constructor; auto|]. cbn [length]. congruence.
Qed.
(** Exactly the texts of lower case digits, blanks and line ends are read; blanks and line
    ends may be anywhere, even within a byte; the bytes are what the digits denote, and a
    last single digit is dropped. *)
Theorem C124_packet_text : forall s,
  (forall d, bytes_from_str s = Some d <->
     Forall (fun c => hex_lower c \/ c = 32 \/ c = 10) s /\ loosely_denotes Base16 (digits_of s) d) /\
  (Forall (fun c => hex_lower c \/ c = 32 \/ c = 10) s -> exists d, bytes_from_str s = Some d /\ length d = (length (digits_of s) / 2)%nat) /\
  (forall d, bytes_ok d -> digits_of s = to_hex d -> bytes_from_str s = Some d).
Proof.
  intros s.
  assert (FB : Forall (fun c => hex_lower c \/ c = 32 \/ c = 10) s <-> Forall (fun c => hex_lower c \/ blank c = true) s).
  { split; apply Forall_impl; intros c; unfold blank; intros [H|H]; auto; right; lia. }
  assert (E : forall d, bytes_from_str s = Some d <-> Forall (fun c => hex_lower c \/ c = 32 \/ c = 10) s /\ loosely_denotes Base16 (digits_of s) d).
  { intros d. rewrite FB, <- (C22_basen_exact Base16 (digits_of s) d) by exact I. unfold bytes_from_str. split.
    - destruct (plain_digits s) as [t|] eqn:P; [|discriminate]. apply plain_digits_ok in P as [F ->].
      intros H. split; [exact F|]. destruct (decode_noprefix (digits_of s) Base16); [injection H as <-; reflexivity|discriminate|discriminate].
    - intros [F H]. rewrite (proj2 (plain_digits_ok s _) (conj F eq_refl)), H. reflexivity. }
  split; [exact E|]. split.
  - intros F.
    assert (DF : Forall hex_lower (digits_of s)).
    { apply Forall_forall. intros c H. apply filter_In in H as [H B]. rewrite Forall_forall in F. apply F in H. unfold blank in B. destruct H as [H|H]; [exact H|lia]. }
    pose proof (lower_all _ DF) as DS.
    destruct DS as (ds & A & B & L). destruct (even_pairs (length ds) ds (le_n _) B) as (data & left & Q & LL & O & LD).
    exists data. split; [|rewrite LD, L; reflexivity]. apply E. split; [exact F|]. exists ds, left. repeat split; assumption.
  - intros d O H. apply E. split.
    + apply Forall_forall. intros c C. destruct (blank c) eqn:B; [right; unfold blank in B; lia|].
      left. assert (X : In c (to_hex d)) by (rewrite <- H; apply filter_In; rewrite B; auto).
      clear - X O. unfold to_hex in X. apply in_flat_map in X as (y & Y & X). unfold bytes_ok in O. rewrite Forall_forall in O. apply O in Y. cbv beta in Y.
      unfold byte_ok in Y. unfold hex_lower. cbn [In] in X. unfold lower_hex_digit in X. destruct (N.ltb_spec (y / 16) 10), (N.ltb_spec (y mod 16) 10); lia.
    + rewrite H, <- encode_hex by exact O. apply C22_basen_exact; [exact I|]. apply C20_multibase_round_trip. exact O.
Qed.
Print Assumptions C124_packet_text.
Example C124_packet_text_case :
  bytes_from_str (ascii_bytes "18 29 5" ++ [10] ++ ascii_bytes "7 3") = Some [24; 41; 87] /\
  bytes_from_str (ascii_bytes "18 2A") = None.
Proof. split; vm_compute; reflexivity. Qed.

(** *** The comparison of packets *)
Definition err_line (e : bytes) : bytes := ascii_bytes "make_initial: error: " ++ e ++ [10].
(** The comparison is reported, both files hold what was compared and the program says "ok"
    exactly if the packet was made, the expected text can be read and both files can be
    written; otherwise the last line is the error, and at most the expected packet is written. *)
Theorem C124_make_initial : forall debug packet raw bad writes,
  let n1 := ascii_bytes "packet-expected.bin" in let n2 := ascii_bytes "packet-actual.bin" in
  let r := make_initial debug packet raw bad writes in
  (forall p e, packet = inl p -> bytes_from_str raw = Some e -> writes n1 e = None -> writes n2 p = None ->
     snd r = [(n1, e); (n2, p)] /\
     exists verdict, fst r = ascii_bytes "make_initial: handshake = " ++ debug ++ [10] ++ ascii_bytes "Wrote " ++ n1 ++ [10] ++ ascii_bytes "Wrote " ++ n2 ++ [10] ++
       ascii_bytes "expected == actual ? " ++ verdict ++ [10] ++ ascii_bytes "make_initial: ok" ++ [10] /\
       (e = p /\ verdict = ascii_bytes "true" \/ e <> p /\ verdict = ascii_bytes "false")) /\
  ((forall p e, packet = inl p -> bytes_from_str raw = Some e -> writes n1 e = None -> writes n2 p = None -> False) ->
     exists before e, fst r = before ++ err_line e /\
       (snd r = [] \/ exists x, bytes_from_str raw = Some x /\ writes n1 x = None /\ snd r = [(n1, x)])).
Proof.
  intros debug packet raw bad writes n1 n2 r. split.
  - intros p e -> R W1 W2. subst r. unfold make_initial. rewrite R. fold n1 n2. rewrite W1, W2. cbn [fst snd]. split; [reflexivity|].
    exists (ascii_bytes (if bytes_eqb e p then "true" else "false")). split.
    + unfold BencodePathModel.line. rewrite <- !app_assoc. reflexivity.
    + destruct (bytes_eqb e p) eqn:Q; [left; apply bytes_eqb_eq in Q; auto|right].
      split; [|reflexivity]. intros ->. rewrite bytes_eqb_refl in Q. discriminate.
  - intros H. subst r. unfold make_initial. fold n1 n2. unfold BencodePathModel.line.
    assert (L : forall a e, a ++ (ascii_bytes "make_initial: error: " ++ e) ++ [10] = a ++ err_line e) by (intros a e; unfold err_line; rewrite <- !app_assoc; reflexivity).
    destruct packet as [p|e].
    2: { eexists _, e. split; [cbn [fst]; apply L|left; reflexivity]. }
    destruct (bytes_from_str raw) as [x|] eqn:R.
    2: { eexists _, bad. split; [cbn [fst]; apply L|left; reflexivity]. }
    destruct (writes n1 x) as [e|] eqn:W1.
    { eexists _, e. split; [cbn [fst]; apply L|left; reflexivity]. }
    destruct (writes n2 p) as [e|] eqn:W2.
    { eexists _, e. split; [cbn [fst]; rewrite app_assoc; apply L|right; exists x; auto]. }
    exfalso. exact (H p x eq_refl eq_refl W1 W2).
Qed.
Print Assumptions C124_make_initial.
Example C124_make_initial_case :
  make_initial (ascii_bytes "H") (inl [1; 2]) (ascii_bytes "01 03") [] (fun _ _ => None) =
  (ascii_bytes "make_initial: handshake = H" ++ [10] ++ ascii_bytes "Wrote packet-expected.bin" ++ [10] ++ ascii_bytes "Wrote packet-actual.bin" ++ [10] ++
   ascii_bytes "expected == actual ? false" ++ [10] ++ ascii_bytes "make_initial: ok" ++ [10],
   [(ascii_bytes "packet-expected.bin", [1; 3]); (ascii_bytes "packet-actual.bin", [1; 2])]).
Proof. vm_compute. reflexivity. Qed.

(** *** The cryptographic checks *)
(** The key is the 32 bytes written in the program and the check never panics.  Whatever the
    library opens the sealed text to, the last line says truthfully whether it is the input;
    with a library whose opening undoes its sealing it says "true". *)
Theorem C124_aes : forall P rest, (forall w, length (rest w) = 16%nat) ->
  exists key, bytes_ok key /\ length key = 32%nat /\ to_hex key = aes_key_text /\
  let sealed := seal P AES_256_GCM key (repeat 1 12) (ascii_bytes "hello") aes_sample in
  let opened w := unseal P AES_256_GCM key (repeat 1 12) (ascii_bytes "hello") w in
  snd (test_aes P rest) <> Panics /\
  (snd (test_aes P rest) = Succeeds <-> exists w p, sealed = Some w /\ opened w = Some p) /\
  (forall w p, sealed = Some w -> opened w = Some p ->
     exists before verdict, fst (test_aes P rest) = before ++ ascii_bytes "output == input ? " ++ verdict ++ [10] /\
       (p = aes_sample /\ verdict = ascii_bytes "true" \/ p <> aes_sample /\ verdict = ascii_bytes "false")).
Proof.
  intros P rest R.
  destruct (from_hex aes_key_text) as [key|] eqn:K; [|vm_compute in K; discriminate].
  exists key.
  assert (KO : bytes_okb key = true /\ length key = 32%nat /\ to_hex key = aes_key_text).
  { vm_compute in K. injection K as <-. vm_compute. repeat split. }
  destruct KO as (KB & KL & KT).
  split. { apply Forall_forall. intros x X. unfold bytes_okb in KB. rewrite forallb_forall in KB. apply KB in X. unfold byte_ok. lia. }
  split; [exact KL|]. split; [exact KT|]. intros sealed opened.
  assert (cut : forall w p, (length (p ++ rest w) <? tag_len AES_256_GCM)%nat = false /\
            firstn (length (p ++ rest w) - tag_len AES_256_GCM) (p ++ rest w) = p).
  { intros w p. rewrite app_length, R. unfold tag_len. split; [apply Nat.ltb_ge; lia|].
    replace (length p + 16 - 16)%nat with (length p) by lia. apply firstn_app_length. }
  unfold test_aes. rewrite K, KL. cbn [Nat.eqb negb]. cbv zeta. fold sealed.
  destruct sealed as [w|] eqn:S.
  2: { cbn [fst snd]. split; [discriminate|]. split; [split; [discriminate|intros (w & p & A & _); discriminate]|intros w p A; discriminate]. }
  fold (opened w). destruct (opened w) as [p|] eqn:O.
  2: { cbn [fst snd]. split; [discriminate|]. split; [split; [discriminate|intros (w' & p & A & B); injection A as <-; congruence]|intros w' p A B; injection A as <-; congruence]. }
  destruct (cut w p) as [C1 C2]. rewrite C1, C2. cbn [fst snd]. split; [discriminate|].
  split; [split; [intros _; exists w, p; auto|reflexivity]|].
  intros w' p' A B. injection A as <-. assert (p' = p) as -> by congruence.
  eexists _, (ascii_bytes (if bytes_eqb p aes_sample then "true" else "false")). split.
  - unfold BencodePathModel.line. rewrite <- (app_assoc (ascii_bytes "output == input ? ")). rewrite !app_assoc. reflexivity.
  - destruct (bytes_eqb p aes_sample) eqn:Q; [left; apply bytes_eqb_eq in Q; auto|right].
    split; [|reflexivity]. intros ->. rewrite bytes_eqb_refl in Q. discriminate.
Qed.
Print Assumptions C124_aes.
Example C124_aes_case : snd (test_aes toy (fun w => skipn (length w - 16) w)) = Succeeds /\
  skipn (length (fst (test_aes toy (fun w => skipn (length w - 16) w))) - 23) (fst (test_aes toy (fun w => skipn (length w - 16) w))) = ascii_bytes "output == input ? true" ++ [10].
Proof. split; vm_compute; reflexivity. Qed.

(** The key agreement check prints the secrets of both sides, but it never succeeds: it ends by expanding an empty key, which is shorter
    than a hash, so the program always ends with an error. *)
Theorem C124_dh_succeeds_refuted : forall P mine theirs,
  snd (test_dh P mine theirs) = Fails /\
  (forall k1 k2, agree P mine (public_of P theirs) = Some k1 -> agree P theirs (public_of P mine) = Some k2 ->
     fst (test_dh P mine theirs) =
       ascii_bytes "my_public_key_bytes    = " ++ to_hex (public_of P mine) ++ [10] ++
       ascii_bytes "their_public_key_bytes = " ++ to_hex (public_of P theirs) ++ [10] ++
       ascii_bytes "key_material1 = " ++ to_hex k1 ++ [10] ++ ascii_bytes "key_material2 = " ++ to_hex k2 ++ [10]).
Proof.
  intros P mine theirs. unfold test_dh. split.
  - destruct (agree P mine (public_of P theirs)); [|reflexivity]. destruct (agree P theirs (public_of P mine)); reflexivity.
  - intros k1 k2 A B. rewrite A, B. cbn [hkdf_expand byte_len length Nat.ltb Nat.leb fst]. unfold BencodePathModel.line. rewrite <- !app_assoc. reflexivity.
Qed.
Print Assumptions C124_dh_succeeds_refuted.

(** *** The hex dump check *)
(** Exactly the decimal numbers below 2^64, with or without a plus, are taken as lengths. *)
Theorem C124_length : forall s n, parse_len s = Some n <->
  exists t, (s = t \/ s = 43 :: t) /\ BencodeSpec.decimal t n.
Proof.
  intros s n. unfold parse_len, BencodeSpec.decimal.
  assert (D : forall t, forallb (fun c => (48 <=? c) && (c <=? 57)) t = true <-> Forall (fun c => 48 <= c <= 57) t).
  { intros t. rewrite forallb_forall, Forall_forall. split; intros H c C; specialize (H c C); lia. }
  assert (W : forall t, match t with [] => None | _ => if forallb (fun c => (48 <=? c) && (c <=? 57)) t then parse_decimal t else None end = Some n <->
     t <> [] /\ Forall (fun c => 48 <= c <= 57) t /\ dec_value t = n /\ n < two64).
  { intros t. rewrite <- D, parse_decimal_spec. destruct t as [|c t]; [split; [discriminate|intros (H & _); contradiction]|].
    destruct (forallb _ (c :: t)); [|split; [discriminate|intros (_ & H & _); discriminate]].
    destruct (N.ltb_spec (dec_value (c :: t)) two64).
    - split; [intros H'; injection H' as <-; repeat split; [discriminate|assumption]|intros (_ & _ & -> & _); reflexivity].
    - split; [discriminate|intros (_ & _ & <- & H'); lia]. }
  assert (NP : forall t, Forall (fun c => 48 <= c <= 57) (43 :: t) -> False) by (intros t F; inversion F; lia).
  assert (C : (exists t, s = 43 :: t) \/ (forall t, s <> 43 :: t) /\ match s with 43 :: t => t | _ => s end = s).
  { destruct s as [|c s]; [right; split; [discriminate|reflexivity]|]. destruct (N.eq_dec c 43) as [->|E]; [left; eexists; reflexivity|right].
    split; [congruence|]. destruct c as [|p]; [reflexivity|]. do 6 (destruct p as [p|p|]; try reflexivity). exfalso; apply E; reflexivity. }
  destruct C as [[t ->]|[N1 N2]].
  - rewrite W. split; [intros H; exists t; auto|]. intros (t' & [E|E] & H); [subst t'; exfalso; destruct H as (_ & F & _); exact (NP _ F)|injection E as <-; exact H].
  - rewrite N2, W. split; [intros H; exists s; auto|]. intros (t' & [E|E] & H); [subst t'; exact H|exfalso; exact (N1 _ E)].
Qed.
Print Assumptions C124_length.
(** The commands: what each prints and how it ends; the dump is of the bytes 0, 1, 2, ...
    counted modulo 256. *)
Theorem C124_tls_test : forall P rest mine theirs args,
  let r := tls_test_main P rest mine theirs args in
  (forall more, args = ascii_bytes "dh" :: more -> r = test_dh P mine theirs) /\
  (forall more, args = ascii_bytes "aes" :: more -> r = test_aes P rest) /\
  (forall s more n, args = ascii_bytes "hexdump" :: s :: more -> parse_len s = Some n ->
     exists d, r = (dump_alternate d ++ ascii_bytes "--" ++ [10], Succeeds) /\ blen d = n /\
       forall i, i < n -> nth (N.to_nat i) d 0 = i mod 256) /\
  (forall s more, args = ascii_bytes "hexdump" :: s :: more -> parse_len s = None -> r = ([], Fails)) /\
  ((forall c more, args = c :: more -> c <> ascii_bytes "dh" /\ c <> ascii_bytes "aes" /\ (c = ascii_bytes "hexdump" -> more = [])) -> r = ([], Fails)).
Proof.
  intros P rest mine theirs args r. subst r. repeat split.
  - intros more ->. reflexivity.
  - intros more ->. reflexivity.
  - intros s more n -> L. exists (counted (N.to_nat n)). split; [|split].
    + cbn [tls_test_main nth_error]. change (bytes_eqb (ascii_bytes "hexdump") (ascii_bytes "dh")) with false. change (bytes_eqb (ascii_bytes "hexdump") (ascii_bytes "aes")) with false.
      change (bytes_eqb (ascii_bytes "hexdump") (ascii_bytes "hexdump")) with true. cbv iota. unfold test_hexdump. rewrite L. unfold BencodePathModel.line. rewrite <- app_assoc. reflexivity.
    + unfold blen, counted. rewrite map_length, seq_length. apply N2Nat.id.
    + intros i H. unfold counted. rewrite (nth_indep _ 0 (N.of_nat 0 mod 256)) by (rewrite map_length, seq_length; lia).
      pose proof (map_nth (fun i => N.of_nat i mod 256) (seq 0 (N.to_nat n)) 0%nat (N.to_nat i)) as M. cbv beta in M. rewrite M, seq_nth by lia. cbn [Nat.add]. rewrite N2Nat.id. reflexivity.
  - intros s more -> L. cbn [tls_test_main nth_error]. unfold test_hexdump. rewrite L. reflexivity.
  - intros H. destruct args as [|c more]; [reflexivity|]. destruct (H c more eq_refl) as (A & B & C). cbn [tls_test_main].
    destruct (bytes_eqb c (ascii_bytes "dh")) eqn:E1; [apply bytes_eqb_eq in E1; contradiction|].
    destruct (bytes_eqb c (ascii_bytes "aes")) eqn:E2; [apply bytes_eqb_eq in E2; contradiction|].
    destruct (bytes_eqb c (ascii_bytes "hexdump")) eqn:E3; [|reflexivity]. apply bytes_eqb_eq in E3. rewrite (C E3). reflexivity.
Qed.
Print Assumptions C124_tls_test.
Example C124_tls_test_case P rest mine theirs :
  tls_test_main P rest mine theirs [ascii_bytes "hexdump"; ascii_bytes "+3"] =
  (ascii_bytes "00000000  00 01 02                                          |...|--" ++ [10], Succeeds) /\
  snd (tls_test_main P rest mine theirs [ascii_bytes "dh"]) = Fails.
Proof. split; [vm_compute; reflexivity|]. exact (proj1 (C124_dh_succeeds_refuted P mine theirs)). Qed.
