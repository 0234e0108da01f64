(** What multibase text means, independently of the code (RFC 4648 and the base-58
    draft). *)
From Verif Require Import Base MultibaseModel.
Local Open Scope string_scope. Local Open Scope list_scope. Local Open Scope N_scope.

(** The alphabets, by position. *)
Definition letters (b : base) : string :=
  match b with
  | Base16 => "0123456789abcdef" | Base16Upper => "0123456789ABCDEF"
  | Base32 | Base32Pad => "abcdefghijklmnopqrstuvwxyz234567"
  | Base32Upper | Base32PadUpper => "ABCDEFGHIJKLMNOPQRSTUVWXYZ234567"
  | Base58BTC => "123456789ABCDEFGHJKLMNPQRSTUVWXYZabcdefghijkmnopqrstuvwxyz"
  | Base58Flickr => "123456789abcdefghijkmnopqrstuvwxyzABCDEFGHJKLMNPQRSTUVWXYZ"
  | Base64 | Base64Pad => "ABCDEFGHIJKLMNOPQRSTUVWXYZabcdefghijklmnopqrstuvwxyz0123456789+/"
  | Base64URL | Base64URLPad => "ABCDEFGHIJKLMNOPQRSTUVWXYZabcdefghijklmnopqrstuvwxyz0123456789-_"
  end.
(** Character [c] stands for digit [d] in base [b]. *)
Definition stands_for (b : base) (c d : N) : Prop :=
  nth_error (ascii_bytes (letters b)) (N.to_nat d) = Some c.

(** The [k] low bits of a number, most significant first. *)
Fixpoint bits (k : nat) (v : N) : list bool :=
  match k with O => [] | S k => N.testbit v (N.of_nat k) :: bits k v end.
Definition bit_string (k : nat) (l : list N) : list bool := flat_map (bits k) l.

(** Bits per character of the bases whose size is a power of two. *)
Definition char_bits (b : base) : nat :=
  match b with
  | Base16 | Base16Upper => 4
  | Base32 | Base32Upper | Base32Pad | Base32PadUpper => 5
  | Base64 | Base64Pad | Base64URL | Base64URLPad => 6
  | Base58BTC | Base58Flickr => 0
  end%nat.
Definition pow2_base (b : base) : Prop :=
  match b with Base58BTC | Base58Flickr => False | _ => True end.
Definition padded (b : base) : bool :=
  match b with Base32Pad | Base32PadUpper | Base64Pad | Base64URLPad => true | _ => false end.
(** Characters are padded to a whole number of groups of this size. *)
Definition group (b : base) : nat :=
  match b with
  | Base32Pad | Base32PadUpper => 8 | Base64Pad | Base64URLPad => 4 | _ => 1
  end%nat.

(** The part of a text before its first '=' in the padded bases; all of it otherwise. *)
Fixpoint until_pad (s : bytes) : bytes :=
  match s with
  | [] => []
  | c :: t => if c =? ch "=" then [] else c :: until_pad t
  end.
Definition body (b : base) (s : bytes) : bytes := if padded b then until_pad s else s.

(** What the decoder does: the characters give a bit string, the bytes are its whole
    octets and the last 0 to 7 bits are dropped. *)
Definition loosely_denotes (b : base) (s : bytes) (data : bytes) : Prop :=
  exists ds left,
    Forall2 (stands_for b) (body b s) ds /\
    bit_string (char_bits b) ds = bit_string 8 data ++ left /\
    (length left < 8)%nat /\ bytes_ok data.
(** What RFC 4648 says: moreover the dropped bits are zero and fewer than one
    character's worth, and the padding is exactly to the group size. *)
Definition strictly_denotes (b : base) (s : bytes) (data : bytes) : Prop :=
  exists cs ds zeros pad,
    s = cs ++ repeat (ch "=") pad /\
    Forall2 (stands_for b) cs ds /\
    bit_string (char_bits b) ds = bit_string 8 data ++ repeat false zeros /\
    (zeros < char_bits b)%nat /\ bytes_ok data /\
    (if padded b then (pad < group b /\ (length cs + pad) mod group b = 0) else pad = 0)%nat.

(** Base 58: big-endian positional notation. *)
Definition be_value (radix : N) (l : list N) : N := fold_left (fun a d => a * radix + d) l 0.
Definition no_leading_zero (l : list N) : Prop := match l with 0 :: _ => False | _ => True end.
(** Each leading zero byte is a leading first letter; the rest is the same number
    written without leading zeros in both radices. *)
Definition denotes58 (b : base) (s : bytes) (data : bytes) : Prop :=
  exists z one num ds cs,
    data = repeat 0 z ++ num /\ stands_for b one 0 /\
    s = repeat one z ++ cs /\ Forall2 (stands_for b) cs ds /\
    no_leading_zero num /\ no_leading_zero ds /\ bytes_ok num /\
    be_value 58 ds = be_value 256 num.

(** What each base means. *)
Definition denotes (b : base) (s data : bytes) : Prop :=
  match b with
  | Base58BTC | Base58Flickr => denotes58 b s data
  | _ => strictly_denotes b s data
  end.
(** A character outside the alphabet. *)
Definition foreign (b : base) (c : N) : Prop := forall d, ~ stands_for b c d.
(** [s] goes wrong first at offset [off], with character [c]. *)
Definition first_foreign (b : base) (s : bytes) (off : nat) (c : N) : Prop :=
  nth_error s off = Some c /\ foreign b c /\ (padded b = true -> c <> ch "=") /\
  Forall (fun x => exists d, stands_for b x d) (firstn off s).

(** What the decoder accepts without the prefix character. *)
Definition reads_as (b : base) (s data : bytes) : Prop :=
  match b with
  | Base58BTC | Base58Flickr => denotes58 b s data
  | _ => loosely_denotes b s data
  end.
