(** C109: the multibase tool and its self test.  C110: the generated inverse tables. *)
From Verif Require Import Base BaseProofs UtilModel UtilProps MultibaseModel MultibaseSpec MultibaseProofs4 MultibaseProps CidTextProofs ChatModel HexDumpModel Asn1PrintProps HexDumpProps ToolsModel.
Local Open Scope string_scope. Local Open Scope list_scope. Local Open Scope N_scope.

(** The rows of the multibase registry that the tool knows. *)
Definition registry : list (ascii * string) := [
  ("f"%char, "base16"); ("F"%char, "base16upper"); ("b"%char, "base32"); ("B"%char, "base32upper");
  ("c"%char, "base32pad"); ("C"%char, "base32padupper"); ("Z"%char, "base58flickr"); ("z"%char, "base58btc");
  ("m"%char, "base64"); ("M"%char, "base64pad"); ("u"%char, "base64url"); ("U"%char, "base64urlpad")].
Definition row (c : N) (name : bytes) : Prop := exists a n, In (a, n) registry /\ c = N_of_ascii a /\ name = ascii_bytes n.

Lemma row_base c name : row c name <-> exists b, c = base_code b /\ name = ascii_bytes (base_name b).
Proof.
  split.
  - intros (a & n & I & -> & ->). cbn [registry In] in I.
    repeat (destruct I as [E|I]; [injection E as <- <-|]); [exists Base16|exists Base16Upper|exists Base32|exists Base32Upper|exists Base32Pad|exists Base32PadUpper|exists Base58Flickr|exists Base58BTC|exists Base64|exists Base64Pad|exists Base64URL|exists Base64URLPad|destruct I]; split; reflexivity.
  - intros (b & -> & ->). destruct b; eexists _, _; (split; [|split; reflexivity]); cbn [registry In]; tauto.
Qed.
Lemma ascii_bytes_map n : ascii_bytes n = map N_of_ascii (list_ascii_of_string n).
Proof. induction n as [|c n IH]; [reflexivity|]. cbn [ascii_bytes list_ascii_of_string map]. rewrite IH. reflexivity. Qed.
Lemma text_string s n : bytes_ok s -> (string_of_list_ascii (map ascii_of_N s) = n <-> s = ascii_bytes n).
Proof.
  intros B. rewrite ascii_bytes_map. split.
  - intros <-. rewrite list_ascii_of_string_of_list_ascii, map_map. rewrite (map_ext_in _ (fun x => x)); [symmetry; apply map_id|].
    intros x I. apply N_ascii_embedding. unfold bytes_ok in B. rewrite Forall_forall in B. exact (B x I).
  - intros ->. rewrite map_map. rewrite (map_ext _ (fun x => x)) by (intros x; apply ascii_N_embedding). rewrite map_id. apply string_of_list_ascii_of_string.
Qed.
Lemma for_name_iff s b : for_name s = Some b <-> s = base_name b.
Proof.
  split; [|intros ->; destruct b; reflexivity]. unfold for_name.
  repeat match goal with |- context [if String.eqb ?x ?y then _ else _] => destruct (String.eqb_spec x y) as [->|?] end;
  intros H; try discriminate; injection H as <-; reflexivity.
Qed.
Lemma for_name_text_iff s b : bytes_ok s -> (for_name_text s = Some b <-> s = ascii_bytes (base_name b)).
Proof. intros B. unfold for_name_text. rewrite for_name_iff. apply text_string, B. Qed.
Lemma encode_hex data : bytes_ok data -> encode_noprefix data Base16 = to_hex data.
Proof.
  intros B. cbn [encode_noprefix]. unfold encode_base16, to_hex. induction data as [|b d IH]; [reflexivity|]. apply bytes_ok_cons in B as (B & D).
  cbn [flat_map]. f_equal; [|apply IH, D].
  assert (K : bytes_eqb [alpha base16_lower (N.shiftr b 4); alpha base16_lower (N.land b 15)] [lower_hex_digit (b / 16); lower_hex_digit (b mod 16)] = true)
    by (revert B; apply (byte_sweep (fun b => bytes_eqb [alpha base16_lower (N.shiftr b 4); alpha base16_lower (N.land b 15)] [lower_hex_digit (b / 16); lower_hex_digit (b mod 16)])); vm_compute; reflexivity).
  apply bytes_eqb_eq in K. exact K.
Qed.
Lemma decode_iff s data : decode s = Ok data <-> exists b t, s = base_code b :: t /\ reads_as b t data.
Proof.
  split.
  - intros H. destruct s as [|c t]; [discriminate|]. destruct (for_code c) as [b|] eqn:E.
    + apply for_code_iff in E as ->. rewrite decode_prefix in H. exists b, t. split; [reflexivity|apply reads_as_iff, H].
    + unfold decode in H. rewrite E in H. discriminate.
  - intros (b & t & -> & R). rewrite decode_prefix. apply reads_as_iff, R.
Qed.
Lemma decode_bytes s data : decode s = Ok data -> bytes_ok data.
Proof. intros H. apply decode_iff in H as (b & t & _ & R). apply (reads_as_length _ _ _ R). Qed.
Lemma succeed_inj a b : succeed a = succeed b -> a = b.
Proof. intros H. injection H as H. exact H. Qed.

(** C109: [list] prints the registry, one line per base. *)
Theorem C109_list :
  r_ok (mb_main MList) = true /\ r_err (mb_main MList) = [] /\
  text_lines (r_out (mb_main MList)) = map (fun e => [N_of_ascii (fst e); 32] ++ ascii_bytes (snd e)) registry /\
  NoDup (map fst registry) /\ NoDup (map snd registry).
Proof.
  split; [reflexivity|]. split; [reflexivity|]. split; [vm_compute; reflexivity|].
  split; cbn [registry map fst snd]; repeat constructor; cbn [In]; intuition discriminate.
Qed.
Print Assumptions C109_list.

(** C109: [detect] names the base whose code begins the value, whatever follows. *)
Theorem C109_detect : forall value name,
  mb_main (MDetect value) = succeed (name ++ [10]) <-> exists c t, value = c :: t /\ row c name.
Proof.
  intros value name. cbn [mb_main mb_detect]. split.
  - intros H. unfold mb_detect in H. destruct value as [|c t]; [discriminate H|]. destruct (for_code c) as [b|] eqn:E; [|discriminate H].
    apply succeed_inj, app_inv_tail in H. apply for_code_iff in E. exists c, t. split; [reflexivity|]. apply row_base. exists b. split; [exact E|symmetry; exact H].
  - intros (c & t & -> & R). apply row_base in R as (b & -> & ->). unfold mb_detect. rewrite for_code_base. reflexivity.
Qed.
Print Assumptions C109_detect.

(** C109: [decode] prints, in hexadecimal, what the value stands for in the base of its
    first character. *)
Theorem C109_decode : forall value out,
  mb_main (MDecode value) = succeed out <->
  exists b t data, value = base_code b :: t /\ reads_as b t data /\ out = to_hex data ++ [10].
Proof.
  intros value out. cbn [mb_main]. unfold mb_decode. split.
  - intros H. destruct (decode value) as [data|e|] eqn:E; try discriminate H. apply succeed_inj in H. rewrite encode_hex in H by (apply (decode_bytes _ _ E)).
    apply decode_iff in E as (b & t & -> & R). exists b, t, data. auto.
  - intros (b & t & data & -> & R & ->). assert (E : decode (base_code b :: t) = Ok data) by (apply decode_iff; eauto). rewrite E.
    rewrite encode_hex by (apply (decode_bytes _ _ E)). reflexivity.
Qed.
Print Assumptions C109_decode.

(** C109: [convert] needs a known base name and a readable value, and prints the value's
    bytes in that base, in the standard form. *)
Theorem C109_convert : forall target value out, bytes_ok target ->
  (mb_main (MConvert target value) = succeed out <->
   exists to b t data enc, target = ascii_bytes (base_name to) /\ value = base_code b :: t /\ reads_as b t data /\
     denotes to enc data /\ out = base_code to :: enc ++ [10]).
Proof.
  intros target value out B. cbn [mb_main]. unfold mb_convert. split.
  - intros H. destruct (for_name_text target) as [to|] eqn:F; [|discriminate H]. apply for_name_text_iff in F; [|exact B].
    destruct (decode value) as [data|e|] eqn:E; try discriminate H. apply succeed_inj in H. pose proof (decode_bytes _ _ E) as D.
    apply decode_iff in E as (b & t & -> & R). exists to, b, t, data, (encode_noprefix data to). split; [exact F|]. split; [reflexivity|]. split; [exact R|].
    split; [apply denotes_iff_encode; auto|symmetry; exact H].
  - intros (to & b & t & data & enc & F & -> & R & D & ->). apply denotes_iff_encode in D as (-> & D).
    apply for_name_text_iff in F; [|exact B]. rewrite F. assert (E : decode (base_code b :: t) = Ok data) by (apply decode_iff; eauto). rewrite E. reflexivity.
Qed.
Print Assumptions C109_convert.

(** C109: a converted value is as good as the original: any further command but [detect]
    does the same with it. *)
Theorem C109_conversions_compose : forall target value value', bytes_ok target ->
  mb_main (MConvert target value) = succeed (value' ++ [10]) ->
  mb_main (MDecode value') = mb_main (MDecode value) /\
  (forall target', mb_main (MConvert target' value') = mb_main (MConvert target' value)) /\
  mb_main (MConvert target value') = succeed (value' ++ [10]) /\
  mb_main (MDetect value') = succeed (target ++ [10]).
Proof.
  intros target value value' B H. cbn [mb_main] in *. unfold mb_convert in H.
  destruct (for_name_text target) as [to|] eqn:F; [|discriminate H]. destruct (decode value) as [data|e|] eqn:E; try discriminate H.
  apply succeed_inj, app_inv_tail in H. pose proof (decode_bytes _ _ E) as D.
  assert (E' : decode value' = Ok data) by (rewrite <- H; apply round_trip, D).
  split; [unfold mb_decode; rewrite E, E'; reflexivity|]. split; [intros target'; unfold mb_convert; rewrite E, E'; reflexivity|].
  split; [unfold mb_convert; rewrite F, E', H; reflexivity|].
  rewrite <- H. unfold mb_detect, encode. rewrite for_code_base. apply for_name_text_iff in F; [|exact B]. rewrite F. reflexivity.
Qed.
Print Assumptions C109_conversions_compose.

(** C109: what goes wrong, and what is then said; nothing is printed on standard output. *)
Theorem C109_failures : forall value,
  match value with
  | [] => mb_main (MDetect value) = fail [] (ascii_bytes "Empty string") /\ mb_main (MDecode value) = fail [] (ascii_bytes "Empty string")
  | c :: t =>
    ((forall name, ~ row c name) /\
    (exists hint, mb_main (MDetect value) = fail [] (ascii_bytes "Unknown encoding format: " ++ first_char value ++ hint)) /\
    mb_main (MDecode value) = mb_main (MDetect value)) \/
    (exists b data, c = base_code b /\ reads_as b t data) \/
    (exists b k x, c = base_code b /\ first_foreign b t k x /\ nth_error value (S k) = Some x /\
      mb_main (MDecode value) = fail [] (ascii_bytes "Invalid character at offset " ++ decimal (N.of_nat k) ++ ascii_bytes ": '" ++ decimal x ++ ascii_bytes "'"))
  end.
Proof.
  intros [|c t]; [split; reflexivity|]. destruct (for_code c) as [b|] eqn:E.
  - right. apply for_code_iff in E as ->. destruct (decode_noprefix_cases b t) as [(data & H)|(k & x & H & F)].
    + left. exists b, data. split; [reflexivity|]. apply reads_as_iff, H.
    + right. exists b, k, x. split; [reflexivity|]. split; [exact F|]. split; [exact (proj1 F)|]. cbn [mb_main]. unfold mb_decode. rewrite decode_prefix, H. reflexivity.
  - left. split; [|split].
    + intros name R. apply row_base in R as (b & -> & _). rewrite for_code_base in E. discriminate.
    + cbn [mb_main]. unfold mb_detect. rewrite E. eexists. reflexivity.
    + cbn [mb_main]. unfold mb_detect, mb_decode, decode. rewrite E. reflexivity.
Qed.
Print Assumptions C109_failures.
(** C109: the offset and the character in the message are not those of the argument as it
    was typed: the offset does not count the base's code, the character is its number. *)
Theorem C109_message_offset_refuted :
  ~ (forall value k x,
       r_err (mb_main (MDecode value)) = ascii_bytes "Invalid character at offset " ++ decimal (N.of_nat k) ++ ascii_bytes ": '" ++ [x] ++ ascii_bytes "'" ++ [10] ->
       nth_error value k = Some x) /\
  r_err (mb_main (MDecode (ascii_bytes "f0g"))) = ascii_bytes "Invalid character at offset 1: '103'" ++ [10].
Proof.
  split; [|vm_compute; reflexivity]. intros H. specialize (H (ascii_bytes "f0" ++ [9]) 1%nat 57 ltac:(vm_compute; reflexivity)). discriminate H.
Qed.
Print Assumptions C109_message_offset_refuted.

(** The self test. *)
Definition test_row (b : base) (line out : bytes) : Prop :=
  exists data enc, hex_text line data /\ denotes b enc data /\
    out = line ++ repeat 32 (40 - length line) ++ [32] ++ [base_code b] ++ enc ++ [10].
Definition not_hex_line (line : bytes) : Prop := forall data, ~ hex_text line data.
Lemma test_lines_ok quoted b lines : forall n out,
  (exists rows, Forall2 (test_row b) lines rows /\ test_lines quoted b n lines out = succeed (out ++ concat rows)) \/
  (exists good bad rest rows, lines = good ++ bad :: rest /\ Forall2 (test_row b) good rows /\ not_hex_line bad /\
     test_lines quoted b n lines out =
     fail (out ++ concat rows) (ascii_bytes "Line " ++ decimal (N.of_nat (n + length good)) ++ ascii_bytes ": Invalid hex string: " ++ quoted bad)).
Proof.
  induction lines as [|line lines IH]; intros n out.
  - left. exists []. split; [constructor|]. cbn. rewrite app_nil_r. reflexivity.
  - cbn [test_lines]. destruct (from_hex line) as [data|] eqn:E.
    + pose proof (proj1 (C19_hex_normalises line data E)) as B. rewrite round_trip by exact B. rewrite bytes_eqb_refl.
      apply C19_hex_parse_exact in E.
      set (r := left40 line ++ [32] ++ encode data b ++ [10]).
      assert (R : test_row b line r).
      { exists data, (encode_noprefix data b). split; [exact E|]. split; [apply denotes_iff_encode; auto|]. subst r. unfold left40, encode. rewrite <- !app_assoc. reflexivity. }
      destruct (IH (S n) (out ++ r)) as [(rows & F & H)|(good & bad & rest & rows & -> & F & N & H)].
      * left. exists (r :: rows). split; [constructor; auto|]. rewrite H. cbn [concat]. rewrite app_assoc. reflexivity.
      * right. exists (line :: good), bad, rest, (r :: rows). split; [reflexivity|]. split; [constructor; auto|]. split; [exact N|].
        rewrite H. cbn [concat length]. rewrite <- plus_n_Sm, (app_assoc out r). reflexivity.
    + right. exists [], line, lines, []. split; [reflexivity|]. split; [constructor|]. split.
      * intros data H. apply C19_hex_parse_exact in H. congruence.
      * cbn [concat length]. rewrite Nat.add_0_r, app_nil_r. reflexivity.
Qed.
(** C109: the self test ends well exactly when every line is hexadecimal; it prints each
    line with its encoding, never finds a wrong decoding, and stops at the first line that
    is not hexadecimal, whose number (from 0) it gives. *)
Theorem C109_self_test : forall quoted read file b more text,
  read file = inl text ->
  let r := test_main quoted read (file :: ascii_bytes (base_name b) :: more) in
  (exists rows, Forall2 (test_row b) (text_lines text) rows /\ r = succeed (concat rows)) \/
  (exists good bad rest rows, text_lines text = good ++ bad :: rest /\ Forall2 (test_row b) good rows /\ not_hex_line bad /\
     r = fail (concat rows) (ascii_bytes "Line " ++ decimal (N.of_nat (length good)) ++ ascii_bytes ": Invalid hex string: " ++ quoted bad)).
Proof.
  intros quoted read file b more text H. cbn [test_main].
  assert (F : for_name_text (ascii_bytes (base_name b)) = Some b) by (destruct b; vm_compute; reflexivity).
  rewrite F, H. exact (test_lines_ok quoted b (text_lines text) 0 []).
Qed.
Print Assumptions C109_self_test.
Theorem C109_self_test_passes : forall quoted read file b more text,
  read file = inl text ->
  (r_ok (test_main quoted read (file :: ascii_bytes (base_name b) :: more)) = true <->
   Forall (fun line => exists data, hex_text line data) (text_lines text)).
Proof.
  intros quoted read file b more text H. pose proof (C109_self_test quoted read file b more text H) as K. cbv zeta in K. split.
  - intros E. destruct K as [(rows & F & _)|(good & bad & rest & rows & _ & _ & _ & K)]; [|rewrite K in E; discriminate E].
    clear - F. induction F as [|x y l l' (data & enc & X & _) F IH]; constructor; eauto.
  - intros A. destruct K as [(rows & _ & ->)|(good & bad & rest & rows & L & _ & N & _)]; [reflexivity|].
    rewrite L in A. apply Forall_app in A as (_ & A). inversion A as [|x l (data & X) _]. destruct (N data X).
Qed.
Print Assumptions C109_self_test_passes.
Example C109_example :
  mb_main (MConvert (ascii_bytes "base58btc") (ascii_bytes "f0000287fb4cd")) = succeed (ascii_bytes "z11233QC4" ++ [10]) /\
  mb_main (MDecode (ascii_bytes "z11233QC4")) = succeed (ascii_bytes "0000287fb4cd" ++ [10]) /\
  mb_main (MDetect (ascii_bytes "QmX")) = fail [] (ascii_bytes "Unknown encoding format: Q (looks like a base58-encoded sha2-256 multihash from a peer id or CIDv0)") /\
  r_err (test_main (fun s => s) (fun _ => inl (ascii_bytes "00ff" ++ [10] ++ ascii_bytes "0g")) [[]; ascii_bytes "base64"]) =
    ascii_bytes "Line 1: Invalid hex string: 0g" ++ [10].
Proof. vm_compute. repeat split. Qed.

(** ** C110 *)
Lemma set_nth_length l k v : length (set_nth l k v) = length l.
Proof.
  unfold set_nth. rewrite app_length, firstn_length. pose proof (skipn_length k l) as S. destruct (skipn k l) as [|x t]; cbn [length] in *; lia.
Qed.
Lemma set_nth_nth l k v i : (k < length l)%nat -> nth i (set_nth l k v) 0 = if (i =? k)%nat then v else nth i l 0.
Proof.
  unfold set_nth. revert l i. induction k as [|k IH]; intros [|x l] i H; cbn [length] in H; try lia.
  - destruct i; reflexivity.
  - destruct i; cbn [firstn skipn app nth Nat.eqb]; [reflexivity|]. apply IH. lia.
Qed.
Lemma gen_mapping_length a : forall k m, length (gen_mapping a k m) = length m.
Proof. induction a as [|c a IH]; intros k m; [reflexivity|]. cbn [gen_mapping]. rewrite IH. apply set_nth_length. Qed.
Lemma mod_lt_nat c : (N.to_nat (c mod 256) < 256)%nat.
Proof. pose proof (N.mod_lt c 256 ltac:(discriminate)). lia. Qed.
Lemma gen_mapping_none a i : forall k m, length m = 256%nat -> (forall c, In c a -> N.to_nat (c mod 256) <> i) -> nth i (gen_mapping a k m) 0 = nth i m 0.
Proof.
  induction a as [|c a IH]; intros k m L H; [reflexivity|]. cbn [gen_mapping]. rewrite IH; [|rewrite set_nth_length; exact L|intros c' I; apply H; right; exact I].
  rewrite set_nth_nth by (rewrite L; apply mod_lt_nat). destruct (Nat.eqb_spec i (N.to_nat (c mod 256))) as [->|_]; [|reflexivity]. destruct (H c (or_introl eq_refl) eq_refl).
Qed.
Lemma gen_mapping_some a i : forall j k m c, length m = 256%nat -> nth_error a j = Some c -> N.to_nat (c mod 256) = i ->
  (forall j' c', (j < j')%nat -> nth_error a j' = Some c' -> N.to_nat (c' mod 256) <> i) ->
  nth i (gen_mapping a k m) 0 = N.of_nat (k + j) mod 256.
Proof.
  induction a as [|x a IH]; intros [|j] k m c L E M H; try discriminate E; cbn [gen_mapping].
  - injection E as ->. rewrite gen_mapping_none; [|rewrite set_nth_length; exact L|].
    + rewrite set_nth_nth by (rewrite L; apply mod_lt_nat). rewrite M, Nat.eqb_refl, Nat.add_0_r. reflexivity.
    + intros c' I. destruct (In_nth_error _ _ I) as (j' & J). exact (H (S j') c' ltac:(lia) J).
  - rewrite (IH j (S k) _ c); [f_equal; f_equal; lia|rewrite set_nth_length; exact L|exact E|exact M|].
    intros j' c' J K. exact (H (S j') c' ltac:(lia) K).
Qed.
(** C110: in any table made from an alphabet, a position holds the last index (as a byte)
    of a character whose low byte it is, and 255 if there is none. *)
Theorem C110_table : forall (alphabet : list N) (i : nat), (i < 256)%nat ->
  length (gen_table alphabet) = 256%nat /\
  ((forall c, In c alphabet -> N.to_nat (c mod 256) <> i) -> nth i (gen_table alphabet) 0 = 255) /\
  (forall j c, nth_error alphabet j = Some c -> N.to_nat (c mod 256) = i ->
     (forall j' c', (j < j')%nat -> nth_error alphabet j' = Some c' -> N.to_nat (c' mod 256) <> i) ->
     nth i (gen_table alphabet) 0 = N.of_nat j mod 256).
Proof.
  intros a i H. unfold gen_table. split; [rewrite gen_mapping_length, repeat_length; reflexivity|]. split.
  - intros N. rewrite gen_mapping_none by (auto; rewrite repeat_length; reflexivity).
    destruct (nth_in_or_default i (repeat 255 256) 0) as [I|D]; [apply repeat_spec in I; exact I|].
    exfalso. revert D. assert (In (nth i (repeat 255 256) 0) (repeat 255 256)) as I by (apply nth_In; rewrite repeat_length; exact H). apply repeat_spec in I. rewrite I. discriminate.
  - intros j c E M L. apply (gen_mapping_some a i j 0 _ c); auto.
Qed.
Print Assumptions C110_table.
(** C110: for distinct one-byte characters, fewer than 256 of them, the table is the
    inverse of the alphabet: an entry other than 255 is the index of its character. *)
Theorem C110_inverse : forall (alphabet : list N) (c j : N),
  NoDup alphabet -> bytes_ok alphabet -> (length alphabet <= 255)%nat -> c < 256 ->
  (nth (N.to_nat c) (gen_table alphabet) 0 = j /\ j <> 255 <-> nth_error alphabet (N.to_nat j) = Some c) /\
  (nth (N.to_nat c) (gen_table alphabet) 0 = 255 <-> ~ In c alphabet).
Proof.
  intros a c j N B L C. unfold bytes_ok in B. rewrite Forall_forall in B.
  assert (Sm : forall x, In x a -> x mod 256 = x) by (intros x I; apply N.mod_small, B, I).
  assert (P : forall k, nth_error a k = Some c -> nth (N.to_nat c) (gen_table a) 0 = N.of_nat k /\ N.of_nat k < 255).
  { intros k E. pose proof (proj1 (nth_error_Some a k) ltac:(congruence)) as K. split; [|lia].
    destruct (C110_table a (N.to_nat c) ltac:(lia)) as (_ & _ & T). rewrite (T k c E); [apply N.mod_small; lia|rewrite Sm by (eapply nth_error_In; exact E); reflexivity|].
    intros k' c' K' E'. rewrite Sm by (eapply nth_error_In; exact E'). intros X. apply N2Nat.inj in X. subst c'.
    rewrite NoDup_nth_error in N. specialize (N k k' K ltac:(congruence)). lia. }
  assert (Q : ~ In c a -> nth (N.to_nat c) (gen_table a) 0 = 255).
  { intros I. destruct (C110_table a (N.to_nat c) ltac:(lia)) as (_ & T & _). apply T. intros x X. rewrite Sm by exact X. intros E. apply N2Nat.inj in E. subst x. contradiction. }
  split; split.
  - intros (E & J). destruct (in_dec N.eq_dec c a) as [I|I]; [|rewrite (Q I) in E; congruence].
    destruct (In_nth_error _ _ I) as (k & K). destruct (P k K) as (P1 & _). rewrite E in P1. rewrite P1, Nat2N.id. exact K.
  - intros E. destruct (P _ E) as (P1 & P2). rewrite N2Nat.id in P1, P2. split; [exact P1|lia].
  - intros E I. destruct (In_nth_error _ _ I) as (k & K). destruct (P k K) as (P1 & P2). lia.
  - exact Q.
Qed.
Print Assumptions C110_inverse.

(** The numbers written as [0x..] with two digits in a text. *)
Fixpoint literals (s : bytes) : list N :=
  match s with
  | [] => []
  | c :: t => if (c =? ch "0") && (hd 0 t =? ch "x") then hex_value (firstn 2 (tl t)) :: literals t else literals t
  end.
Lemma literals_skip a b : ~ In 120 a -> hd 0 b <> 120 -> literals (a ++ b) = literals b.
Proof.
  intros F H. induction a as [|c a IH]; [reflexivity|]. cbn [app literals]. change (ch "x") with 120.
  assert (X : (hd 0 (a ++ b) =? 120) = false).
  { apply N.eqb_neq. destruct a as [|y a]; [exact H|]. cbn. intros ->. apply F. right. left. reflexivity. }
  rewrite X, Bool.andb_false_r. apply IH. intros I. apply F. right. exact I.
Qed.
Lemma literals_hex v r : v < 256 -> hd 0 r <> 120 -> literals (ascii_bytes "0x" ++ hex_padded 2 v ++ r) = v :: literals r.
Proof.
  intros V H.
  assert (K : bytes_eqb (hex_padded 2 v) [lower_hex_digit (v / 16); lower_hex_digit (v mod 16)] = true)
    by (revert V; apply (byte_sweep (fun v => bytes_eqb (hex_padded 2 v) [lower_hex_digit (v / 16); lower_hex_digit (v mod 16)])); vm_compute; reflexivity).
  apply bytes_eqb_eq in K. rewrite K. clear K.
  set (h := lower_hex_digit (v / 16)). set (l := lower_hex_digit (v mod 16)).
  assert (Hh : hex_char h) by (apply hex_digit_char, N.div_lt_upper_bound; [discriminate|exact V]).
  assert (Hl : hex_char l) by (apply hex_digit_char, N.mod_lt; discriminate).
  change (ascii_bytes "0x") with [48; 120]. cbn [app]. cbn [literals hd tl firstn]. change (48 =? ch "0") with true. change (120 =? ch "x") with true.
  change (120 =? ch "0") with false. cbn [andb]. f_equal.
  - unfold hex_value. cbn [fold_left]. subst h l. rewrite !hex_digit_ok; [rewrite N.mul_0_r, N.add_0_l; symmetry; apply N.div_mod; discriminate|apply N.mod_lt; discriminate|apply N.div_lt_upper_bound; [discriminate|exact V]].
  - change ([h; l] ++ r) with ([h; l] ++ r). apply (literals_skip [h; l] r); [|exact H]. unfold hex_char in *. cbn [In]. lia.
Qed.
Lemma literals_cells (f : nat -> N) (sep : nat -> bytes) l r : (forall i, f i < 256) -> (forall i, ~ In 120 (sep i)) -> hd 0 r <> 120 ->
  literals (flat_map (fun i => ascii_bytes "0x" ++ hex_padded 2 (f i) ++ sep i) l ++ r) = map f l ++ literals r.
Proof.
  intros F S R. induction l as [|i l IH]; [reflexivity|]. cbn [flat_map map]. rewrite <- !app_assoc.
  set (rest := flat_map (fun i => ascii_bytes "0x" ++ hex_padded 2 (f i) ++ sep i) l ++ r) in *.
  assert (H : hd 0 rest <> 120) by (subst rest; destruct l as [|x l]; [exact R|cbn; discriminate]).
  rewrite literals_hex; [|apply F|destruct (sep i) as [|y s] eqn:E; [exact H|cbn; intros ->; apply (S i); rewrite E; left; reflexivity]].
  cbn [app]. f_equal. rewrite literals_skip by (auto). exact IH.
Qed.
Lemma table_bytes a i : nth i (gen_table a) 0 < 256.
Proof.
  assert (G : forall a k m, bytes_ok m -> bytes_ok (gen_mapping a k m)).
  { clear. induction a as [|c a IH]; intros k m B; [exact B|]. cbn [gen_mapping]. apply IH. unfold set_nth. apply bytes_ok_app. split; [apply bytes_ok_firstn, B|].
    pose proof (bytes_ok_skipn (N.to_nat (c mod 256)) m B) as S. destruct (skipn _ m); [constructor|]. apply bytes_ok_cons in S as (_ & S). apply bytes_ok_cons. split; [apply N.mod_lt; discriminate|exact S]. }
  assert (B : bytes_ok (gen_table a)) by (apply G; apply bytes_okb_spec; vm_compute; reflexivity).
  destruct (nth_in_or_default i (gen_table a) 0) as [I|D]; [|rewrite D; reflexivity]. unfold bytes_ok in B. rewrite Forall_forall in B. apply B, I.
Qed.
Lemma literals_rows m rows r : (forall i, nth i m 0 < 256) -> hd 0 r <> 120 ->
  literals (flat_map (gen_row m) rows ++ r) = flat_map (fun hi => map (fun lo => nth (16 * hi + lo) m 0) (seq 0 16)) rows ++ literals r.
Proof.
  intros F R. induction rows as [|hi rows IH]; [reflexivity|]. cbn [flat_map]. rewrite <- !app_assoc. unfold gen_row at 1. rewrite <- !app_assoc.
  set (rest := flat_map (gen_row m) rows ++ r) in *.
  assert (H : hd 0 rest <> 120) by (subst rest; destruct rows; [exact R|cbn; discriminate]).
  rewrite (literals_skip (ascii_bytes "    ")); [|cbn; lia|cbn; discriminate].
  rewrite literals_cells; [f_equal|intros i; apply F|intros i; destruct (i + 1 <? 16)%nat; cbn; lia|destruct (hi + 1 <? 8)%nat; cbn; discriminate].
  rewrite app_assoc, literals_skip; [exact IH| |exact H]. destruct (hi + 1 <? 8)%nat; cbn; lia.
Qed.
(** C110: the printed text lists the first 128 entries in order. *)
Theorem C110_printed : forall name alphabet rest, ~ In (ch "x") name -> hd 0 rest <> ch "x" ->
  literals (gen_inverse name alphabet ++ rest) = firstn 128 (gen_table alphabet) ++ literals rest.
Proof.
  intros name a rest N R. change (ch "x") with 120 in *. unfold gen_inverse. rewrite <- !app_assoc.
  rewrite (literals_skip (ascii_bytes "const ")); [|cbn; lia|destruct name as [|y s]; [cbn; discriminate|cbn; intros ->; apply N; left; reflexivity]].
  rewrite (literals_skip name); [|exact N|cbn; discriminate].
  rewrite (literals_skip (ascii_bytes "_INV: [u8; 128] = [")); [|cbn; lia|cbn; discriminate].
  rewrite (literals_skip [10]); [|cbn; lia|cbn; discriminate].
  rewrite literals_rows; [|apply table_bytes|cbn; discriminate].
  rewrite (literals_skip [10]); [|cbn; lia|exact R]. f_equal.
  destruct (C110_table a 0%nat ltac:(lia)) as (L & _). rewrite <- (map_id (firstn 128 (gen_table a))). rewrite <- (map_nth_seq (fun x => x)) by (rewrite L; lia). reflexivity.
Qed.
Print Assumptions C110_printed.
(** C110: the tables in the source file are those generated, and nothing is lost by
    keeping only 128 entries; the whole printed text is theirs. *)
Definition source_tables : list bytes :=
  [base16_lower_inv; base16_upper_inv; base32_upper_inv; base32_lower_inv;
   base58_btc_inv; base58_flickr_inv; base64_alphabet_inv; base64_url_alphabet_inv].
Theorem C110_source_tables :
  map (fun e => gen_table (snd e)) generated = map (fun t => t ++ repeat 255 128) source_tables /\
  literals gen_inverse_all = concat source_tables /\
  Forall (fun e => NoDup (snd e) /\ bytes_ok (snd e) /\ (length (snd e) <= 255)%nat) generated.
Proof.
  assert (T : map (fun e => gen_table (snd e)) generated = map (fun t => t ++ repeat 255 128) source_tables) by (vm_compute; reflexivity).
  split; [exact T|]. split; [vm_compute; reflexivity|].
  assert (D : forall l : bytes, NoDup (nodup N.eq_dec l) -> nodup N.eq_dec l = l -> NoDup l) by (intros l X <-; exact X).
  unfold generated. repeat (constructor; [cbn [snd]; split; [apply D; [apply NoDup_nodup|vm_compute; reflexivity]|split; [apply bytes_okb_spec; vm_compute; reflexivity|vm_compute; repeat constructor]]|]). constructor.
Qed.
Print Assumptions C110_source_tables.
Example C110_example :
  nth 66 (gen_table [65; 66; 67]) 0 = 1 /\ nth 68 (gen_table [65; 66; 67]) 0 = 255 /\
  nth 65 (gen_table [0x141; 0x142]) 0 = 0 /\
  firstn 40 (gen_inverse (ascii_bytes "AB") [0; 2]) = ascii_bytes "const AB_INV: [u8; 128] = [" ++ [10] ++ ascii_bytes "    0x00, 0x".
Proof. vm_compute. repeat split. Qed.
