(** C20-C23: multibase text. *)
From Verif Require Import BaseProofs MultibaseModel MultibaseSpec MultibaseProofs MultibaseProofs4.
Local Open Scope string_scope. Local Open Scope list_scope. Local Open Scope N_scope.

(** C20. Decoding the encoded text returns the bytes, in every base, with and without
    the prefix character; the text is the one the base's definition prescribes. *)
Theorem C20_multibase_round_trip : forall (b : base) (data : bytes),
  bytes_ok data ->
  decode (encode data b) = Ok data /\
  decode_noprefix (encode_noprefix data b) b = Ok data.
Proof. intros b data H. split; [apply round_trip, H|apply round_trip_noprefix, H]. Qed.
Print Assumptions C20_multibase_round_trip.
Example C20_case :
  decode (encode [0; 0; 1; 2; 255] Base58BTC) = Ok [0; 0; 1; 2; 255] /\
  encode [0; 0; 1; 2; 255] Base58BTC = ascii_bytes "z11LiA" /\
  encode [102; 111; 111; 98] Base32Pad = ascii_bytes "cmzxw6yq=" /\
  encode [255; 239; 1] Base64URL = ascii_bytes "u_-8B".
Proof. repeat split; vm_compute; reflexivity. Qed.

Theorem C20_text_as_specified : forall (b : base) (data : bytes),
  bytes_ok data -> denotes b (encode_noprefix data b) data /\
  encode data b = base_code b :: encode_noprefix data b /\
  for_code (base_code b) = Some b /\ for_name (base_name b) = Some b /\ In b available_bases.
Proof.
  intros b data H. split; [apply encode_denotes, H|]. split; [reflexivity|].
  split; [apply for_code_base|]. split; destruct b; try reflexivity; cbn; tauto.
Qed.
Print Assumptions C20_text_as_specified.
Example C20_spec_case : denotes Base32 (ascii_bytes "mzxw6") [102; 111; 111].
Proof. exact (proj1 (C20_text_as_specified Base32 [102; 111; 111] ltac:(repeat constructor))). Qed.

(** C21. Base 58: the decoder accepts exactly the encoder's output, so text and bytes
    correspond one to one. *)
Theorem C21_base58_canonical : forall (b : base) (s data : bytes),
  b = Base58BTC \/ b = Base58Flickr ->
  (decode_noprefix s b = Ok data <-> s = encode_noprefix data b /\ bytes_ok data).
Proof. intros b s data [->| ->]; apply base58_canonical; exact (fun x => x). Qed.
Print Assumptions C21_base58_canonical.
Theorem C21_base58_distinct : forall (b : base) (s s' data : bytes),
  b = Base58BTC \/ b = Base58Flickr ->
  decode_noprefix s b = Ok data -> decode_noprefix s' b = Ok data -> s = s'.
Proof.
  intros b s s' data Hb H H'. apply C21_base58_canonical in H as [-> _]; [|exact Hb].
  apply C21_base58_canonical in H' as [-> _]; [|exact Hb]. reflexivity.
Qed.
Print Assumptions C21_base58_distinct.
Example C21_case : decode_noprefix (ascii_bytes "11LiA") Base58BTC = Ok [0; 0; 1; 2; 255].
Proof. vm_compute. reflexivity. Qed.

(** C22. In the power-of-two bases two different texts can decode to the same bytes. *)
Theorem C22_basen_canonical_refuted :
  ~ (forall (b : base) (s s' data : bytes),
       decode_noprefix s b = Ok data -> decode_noprefix s' b = Ok data -> s = s').
Proof.
  intros H.
  specialize (H Base32 (ascii_bytes "mzxw6") (ascii_bytes "mzxw7") [102; 111; 111]
    ltac:(vm_compute; reflexivity) ltac:(vm_compute; reflexivity)).
  discriminate.
Qed.
Print Assumptions C22_basen_canonical_refuted.
(** Exactly what is accepted, and what it decodes to: the alphabet characters (up to the
    first '=' if the base is padded) give a bit string; its whole octets are the result
    and up to seven bits are dropped unchecked. *)
Theorem C22_basen_exact : forall (b : base) (s data : bytes),
  pow2_base b -> (decode_noprefix s b = Ok data <-> loosely_denotes b s data).
Proof. exact loose_iff. Qed.
Print Assumptions C22_basen_exact.
(** Among the accepted texts for some bytes, exactly one is the strict RFC 4648 form
    (zero dropped bits, no superfluous character, exact padding): the encoder's. *)
Theorem C22_basen_strict_partial : forall (b : base) (s data : bytes),
  pow2_base b ->
  (decode_noprefix s b = Ok data /\ strictly_denotes b s data <->
   s = encode_noprefix data b /\ bytes_ok data).
Proof.
  intros b s data P. rewrite <- denotes_iff_encode.
  assert (E : denotes b s data <-> strictly_denotes b s data)
    by (destruct b; try reflexivity; contradiction).
  rewrite E. split; [tauto|]. intros H. split; [|exact H]. apply decode_denotes, E, H.
Qed.
Print Assumptions C22_basen_strict_partial.
(** The four sloppy forms accepted: non-zero dropped bits, an odd hex digit, missing
    padding, anything after the padding. *)
Example C22_case :
  decode_noprefix (ascii_bytes "mzxw7") Base32 = Ok [102; 111; 111] /\
  decode_noprefix (ascii_bytes "666f6") Base16 = Ok [102; 111] /\
  decode_noprefix (ascii_bytes "Zm8") Base64Pad = Ok [102; 111] /\
  decode_noprefix (ascii_bytes "Zm8=!?") Base64Pad = Ok [102; 111].
Proof. repeat split; vm_compute; reflexivity. Qed.

(** C23. Decoding never panics; without the prefix it either succeeds or reports the
    first character outside the alphabet. *)
Theorem C23_multibase_total : forall (b : base) (s : bytes),
  decode s <> Panic /\
  ((exists data, decode_noprefix s b = Ok data) \/
   (exists k c, decode_noprefix s b = Err (EInvalidChar k c) /\ first_foreign b s k c)).
Proof. intros b s. split; [apply decode_not_panic|apply decode_noprefix_cases]. Qed.
Print Assumptions C23_multibase_total.
Theorem C23_foreign_rejected : forall (b : base) (s : bytes) (k : nat) (c : N),
  first_foreign b s k c ->
  decode_noprefix s b = Err (EInvalidChar k c) /\
  decode (base_code b :: s) = Err (EInvalidChar k c).
Proof.
  intros b s k c H. rewrite decode_prefix. split; apply first_foreign_rejected, H.
Qed.
Print Assumptions C23_foreign_rejected.
Theorem C23_unknown_prefix_rejected : forall (c : N) (s : bytes),
  (forall b, c <> base_code b) ->
  decode (c :: s) = Err (EUnsupportedEncoding c) /\ decode [] = Err EEmptyString.
Proof. intros c s H. split; [apply decode_unknown, H|reflexivity]. Qed.
Print Assumptions C23_unknown_prefix_rejected.
Example C23_case :
  decode (ascii_bytes "z11l0") = Err (EInvalidChar 2 (ch "l")) /\
  first_foreign Base58BTC (ascii_bytes "11l0") 2 (ch "l") /\
  decode (ascii_bytes "Qmxyz") = Err (EUnsupportedEncoding (ch "Q")).
Proof.
  split; [vm_compute; reflexivity|]. split; [|vm_compute; reflexivity].
  repeat split.
  - apply foreign_inv. vm_compute. reflexivity.
  - discriminate.
  - repeat constructor; exists 0; reflexivity.
Qed.
