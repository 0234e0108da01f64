(** Model of src/ipfs/types/multibase.rs.  Text (Rust [str]) is the list of its UTF-8
    bytes. *)
From Verif Require Import Base.
Local Open Scope string_scope. Local Open Scope list_scope. Local Open Scope N_scope.

(** multibase.rs:6-12 [DecodeError].  Simplification: [UnsupportedEncoding] carries the
    first byte of the text instead of its first character. *)
Inductive mb_error :=
| EEmptyString | EInvalidLength (n : nat) | EInvalidChar (offset : nat) (c : N)
| EUnsupportedEncoding (c : N).

(** multibase.rs:51-52 [BASE16_LOWER]. *)
Definition base16_lower : bytes := ascii_bytes "0123456789abcdef".
(** multibase.rs:54-55 [BASE16_UPPER]. *)
Definition base16_upper : bytes := ascii_bytes "0123456789ABCDEF".
(** multibase.rs:57-59 [BASE32_UPPER]. *)
Definition base32_upper : bytes := ascii_bytes "ABCDEFGHIJKLMNOPQRSTUVWXYZ234567".
(** multibase.rs:61-63 [BASE32_LOWER]. *)
Definition base32_lower : bytes := ascii_bytes "abcdefghijklmnopqrstuvwxyz234567".
(** multibase.rs:65-69 [BASE58_BTC]. *)
Definition base58_btc : bytes := ascii_bytes "123456789ABCDEFGHJKLMNPQRSTUVWXYZabcdefghijkmnopqrstuvwxyz".
(** multibase.rs:71-75 [BASE58_FLICKR]. *)
Definition base58_flickr : bytes := ascii_bytes "123456789abcdefghijkmnopqrstuvwxyzABCDEFGHJKLMNPQRSTUVWXYZ".
(** multibase.rs:77-81 [BASE64_ALPHABET]. *)
Definition base64_alphabet : bytes := ascii_bytes "ABCDEFGHIJKLMNOPQRSTUVWXYZabcdefghijklmnopqrstuvwxyz0123456789+/".
(** multibase.rs:83-87 [BASE64_URL_ALPHABET]. *)
Definition base64_url_alphabet : bytes := ascii_bytes "ABCDEFGHIJKLMNOPQRSTUVWXYZabcdefghijklmnopqrstuvwxyz0123456789-_".
(** multibase.rs:518-526 [BASE16_LOWER_INV]. *)
Definition base16_lower_inv : bytes := [
  0xff; 0xff; 0xff; 0xff; 0xff; 0xff; 0xff; 0xff; 0xff; 0xff; 0xff; 0xff; 0xff; 0xff; 0xff; 0xff;
  0xff; 0xff; 0xff; 0xff; 0xff; 0xff; 0xff; 0xff; 0xff; 0xff; 0xff; 0xff; 0xff; 0xff; 0xff; 0xff;
  0xff; 0xff; 0xff; 0xff; 0xff; 0xff; 0xff; 0xff; 0xff; 0xff; 0xff; 0xff; 0xff; 0xff; 0xff; 0xff;
  0x00; 0x01; 0x02; 0x03; 0x04; 0x05; 0x06; 0x07; 0x08; 0x09; 0xff; 0xff; 0xff; 0xff; 0xff; 0xff;
  0xff; 0xff; 0xff; 0xff; 0xff; 0xff; 0xff; 0xff; 0xff; 0xff; 0xff; 0xff; 0xff; 0xff; 0xff; 0xff;
  0xff; 0xff; 0xff; 0xff; 0xff; 0xff; 0xff; 0xff; 0xff; 0xff; 0xff; 0xff; 0xff; 0xff; 0xff; 0xff;
  0xff; 0x0a; 0x0b; 0x0c; 0x0d; 0x0e; 0x0f; 0xff; 0xff; 0xff; 0xff; 0xff; 0xff; 0xff; 0xff; 0xff;
  0xff; 0xff; 0xff; 0xff; 0xff; 0xff; 0xff; 0xff; 0xff; 0xff; 0xff; 0xff; 0xff; 0xff; 0xff; 0xff].
(** multibase.rs:528-536 [BASE16_UPPER_INV]. *)
Definition base16_upper_inv : bytes := [
  0xff; 0xff; 0xff; 0xff; 0xff; 0xff; 0xff; 0xff; 0xff; 0xff; 0xff; 0xff; 0xff; 0xff; 0xff; 0xff;
  0xff; 0xff; 0xff; 0xff; 0xff; 0xff; 0xff; 0xff; 0xff; 0xff; 0xff; 0xff; 0xff; 0xff; 0xff; 0xff;
  0xff; 0xff; 0xff; 0xff; 0xff; 0xff; 0xff; 0xff; 0xff; 0xff; 0xff; 0xff; 0xff; 0xff; 0xff; 0xff;
  0x00; 0x01; 0x02; 0x03; 0x04; 0x05; 0x06; 0x07; 0x08; 0x09; 0xff; 0xff; 0xff; 0xff; 0xff; 0xff;
  0xff; 0x0a; 0x0b; 0x0c; 0x0d; 0x0e; 0x0f; 0xff; 0xff; 0xff; 0xff; 0xff; 0xff; 0xff; 0xff; 0xff;
  0xff; 0xff; 0xff; 0xff; 0xff; 0xff; 0xff; 0xff; 0xff; 0xff; 0xff; 0xff; 0xff; 0xff; 0xff; 0xff;
  0xff; 0xff; 0xff; 0xff; 0xff; 0xff; 0xff; 0xff; 0xff; 0xff; 0xff; 0xff; 0xff; 0xff; 0xff; 0xff;
  0xff; 0xff; 0xff; 0xff; 0xff; 0xff; 0xff; 0xff; 0xff; 0xff; 0xff; 0xff; 0xff; 0xff; 0xff; 0xff].
(** multibase.rs:538-546 [BASE32_UPPER_INV]. *)
Definition base32_upper_inv : bytes := [
  0xff; 0xff; 0xff; 0xff; 0xff; 0xff; 0xff; 0xff; 0xff; 0xff; 0xff; 0xff; 0xff; 0xff; 0xff; 0xff;
  0xff; 0xff; 0xff; 0xff; 0xff; 0xff; 0xff; 0xff; 0xff; 0xff; 0xff; 0xff; 0xff; 0xff; 0xff; 0xff;
  0xff; 0xff; 0xff; 0xff; 0xff; 0xff; 0xff; 0xff; 0xff; 0xff; 0xff; 0xff; 0xff; 0xff; 0xff; 0xff;
  0xff; 0xff; 0x1a; 0x1b; 0x1c; 0x1d; 0x1e; 0x1f; 0xff; 0xff; 0xff; 0xff; 0xff; 0xff; 0xff; 0xff;
  0xff; 0x00; 0x01; 0x02; 0x03; 0x04; 0x05; 0x06; 0x07; 0x08; 0x09; 0x0a; 0x0b; 0x0c; 0x0d; 0x0e;
  0x0f; 0x10; 0x11; 0x12; 0x13; 0x14; 0x15; 0x16; 0x17; 0x18; 0x19; 0xff; 0xff; 0xff; 0xff; 0xff;
  0xff; 0xff; 0xff; 0xff; 0xff; 0xff; 0xff; 0xff; 0xff; 0xff; 0xff; 0xff; 0xff; 0xff; 0xff; 0xff;
  0xff; 0xff; 0xff; 0xff; 0xff; 0xff; 0xff; 0xff; 0xff; 0xff; 0xff; 0xff; 0xff; 0xff; 0xff; 0xff].
(** multibase.rs:548-556 [BASE32_LOWER_INV]. *)
Definition base32_lower_inv : bytes := [
  0xff; 0xff; 0xff; 0xff; 0xff; 0xff; 0xff; 0xff; 0xff; 0xff; 0xff; 0xff; 0xff; 0xff; 0xff; 0xff;
  0xff; 0xff; 0xff; 0xff; 0xff; 0xff; 0xff; 0xff; 0xff; 0xff; 0xff; 0xff; 0xff; 0xff; 0xff; 0xff;
  0xff; 0xff; 0xff; 0xff; 0xff; 0xff; 0xff; 0xff; 0xff; 0xff; 0xff; 0xff; 0xff; 0xff; 0xff; 0xff;
  0xff; 0xff; 0x1a; 0x1b; 0x1c; 0x1d; 0x1e; 0x1f; 0xff; 0xff; 0xff; 0xff; 0xff; 0xff; 0xff; 0xff;
  0xff; 0xff; 0xff; 0xff; 0xff; 0xff; 0xff; 0xff; 0xff; 0xff; 0xff; 0xff; 0xff; 0xff; 0xff; 0xff;
  0xff; 0xff; 0xff; 0xff; 0xff; 0xff; 0xff; 0xff; 0xff; 0xff; 0xff; 0xff; 0xff; 0xff; 0xff; 0xff;
  0xff; 0x00; 0x01; 0x02; 0x03; 0x04; 0x05; 0x06; 0x07; 0x08; 0x09; 0x0a; 0x0b; 0x0c; 0x0d; 0x0e;
  0x0f; 0x10; 0x11; 0x12; 0x13; 0x14; 0x15; 0x16; 0x17; 0x18; 0x19; 0xff; 0xff; 0xff; 0xff; 0xff].
(** multibase.rs:558-566 [BASE58_BTC_INV]. *)
Definition base58_btc_inv : bytes := [
  0xff; 0xff; 0xff; 0xff; 0xff; 0xff; 0xff; 0xff; 0xff; 0xff; 0xff; 0xff; 0xff; 0xff; 0xff; 0xff;
  0xff; 0xff; 0xff; 0xff; 0xff; 0xff; 0xff; 0xff; 0xff; 0xff; 0xff; 0xff; 0xff; 0xff; 0xff; 0xff;
  0xff; 0xff; 0xff; 0xff; 0xff; 0xff; 0xff; 0xff; 0xff; 0xff; 0xff; 0xff; 0xff; 0xff; 0xff; 0xff;
  0xff; 0x00; 0x01; 0x02; 0x03; 0x04; 0x05; 0x06; 0x07; 0x08; 0xff; 0xff; 0xff; 0xff; 0xff; 0xff;
  0xff; 0x09; 0x0a; 0x0b; 0x0c; 0x0d; 0x0e; 0x0f; 0x10; 0xff; 0x11; 0x12; 0x13; 0x14; 0x15; 0xff;
  0x16; 0x17; 0x18; 0x19; 0x1a; 0x1b; 0x1c; 0x1d; 0x1e; 0x1f; 0x20; 0xff; 0xff; 0xff; 0xff; 0xff;
  0xff; 0x21; 0x22; 0x23; 0x24; 0x25; 0x26; 0x27; 0x28; 0x29; 0x2a; 0x2b; 0xff; 0x2c; 0x2d; 0x2e;
  0x2f; 0x30; 0x31; 0x32; 0x33; 0x34; 0x35; 0x36; 0x37; 0x38; 0x39; 0xff; 0xff; 0xff; 0xff; 0xff].
(** multibase.rs:568-576 [BASE58_FLICKR_INV]. *)
Definition base58_flickr_inv : bytes := [
  0xff; 0xff; 0xff; 0xff; 0xff; 0xff; 0xff; 0xff; 0xff; 0xff; 0xff; 0xff; 0xff; 0xff; 0xff; 0xff;
  0xff; 0xff; 0xff; 0xff; 0xff; 0xff; 0xff; 0xff; 0xff; 0xff; 0xff; 0xff; 0xff; 0xff; 0xff; 0xff;
  0xff; 0xff; 0xff; 0xff; 0xff; 0xff; 0xff; 0xff; 0xff; 0xff; 0xff; 0xff; 0xff; 0xff; 0xff; 0xff;
  0xff; 0x00; 0x01; 0x02; 0x03; 0x04; 0x05; 0x06; 0x07; 0x08; 0xff; 0xff; 0xff; 0xff; 0xff; 0xff;
  0xff; 0x22; 0x23; 0x24; 0x25; 0x26; 0x27; 0x28; 0x29; 0xff; 0x2a; 0x2b; 0x2c; 0x2d; 0x2e; 0xff;
  0x2f; 0x30; 0x31; 0x32; 0x33; 0x34; 0x35; 0x36; 0x37; 0x38; 0x39; 0xff; 0xff; 0xff; 0xff; 0xff;
  0xff; 0x09; 0x0a; 0x0b; 0x0c; 0x0d; 0x0e; 0x0f; 0x10; 0x11; 0x12; 0x13; 0xff; 0x14; 0x15; 0x16;
  0x17; 0x18; 0x19; 0x1a; 0x1b; 0x1c; 0x1d; 0x1e; 0x1f; 0x20; 0x21; 0xff; 0xff; 0xff; 0xff; 0xff].
(** multibase.rs:578-586 [BASE64_ALPHABET_INV]. *)
Definition base64_alphabet_inv : bytes := [
  0xff; 0xff; 0xff; 0xff; 0xff; 0xff; 0xff; 0xff; 0xff; 0xff; 0xff; 0xff; 0xff; 0xff; 0xff; 0xff;
  0xff; 0xff; 0xff; 0xff; 0xff; 0xff; 0xff; 0xff; 0xff; 0xff; 0xff; 0xff; 0xff; 0xff; 0xff; 0xff;
  0xff; 0xff; 0xff; 0xff; 0xff; 0xff; 0xff; 0xff; 0xff; 0xff; 0xff; 0x3e; 0xff; 0xff; 0xff; 0x3f;
  0x34; 0x35; 0x36; 0x37; 0x38; 0x39; 0x3a; 0x3b; 0x3c; 0x3d; 0xff; 0xff; 0xff; 0xff; 0xff; 0xff;
  0xff; 0x00; 0x01; 0x02; 0x03; 0x04; 0x05; 0x06; 0x07; 0x08; 0x09; 0x0a; 0x0b; 0x0c; 0x0d; 0x0e;
  0x0f; 0x10; 0x11; 0x12; 0x13; 0x14; 0x15; 0x16; 0x17; 0x18; 0x19; 0xff; 0xff; 0xff; 0xff; 0xff;
  0xff; 0x1a; 0x1b; 0x1c; 0x1d; 0x1e; 0x1f; 0x20; 0x21; 0x22; 0x23; 0x24; 0x25; 0x26; 0x27; 0x28;
  0x29; 0x2a; 0x2b; 0x2c; 0x2d; 0x2e; 0x2f; 0x30; 0x31; 0x32; 0x33; 0xff; 0xff; 0xff; 0xff; 0xff].
(** multibase.rs:588-596 [BASE64_URL_ALPHABET_INV]. *)
Definition base64_url_alphabet_inv : bytes := [
  0xff; 0xff; 0xff; 0xff; 0xff; 0xff; 0xff; 0xff; 0xff; 0xff; 0xff; 0xff; 0xff; 0xff; 0xff; 0xff;
  0xff; 0xff; 0xff; 0xff; 0xff; 0xff; 0xff; 0xff; 0xff; 0xff; 0xff; 0xff; 0xff; 0xff; 0xff; 0xff;
  0xff; 0xff; 0xff; 0xff; 0xff; 0xff; 0xff; 0xff; 0xff; 0xff; 0xff; 0xff; 0xff; 0x3e; 0xff; 0xff;
  0x34; 0x35; 0x36; 0x37; 0x38; 0x39; 0x3a; 0x3b; 0x3c; 0x3d; 0xff; 0xff; 0xff; 0xff; 0xff; 0xff;
  0xff; 0x00; 0x01; 0x02; 0x03; 0x04; 0x05; 0x06; 0x07; 0x08; 0x09; 0x0a; 0x0b; 0x0c; 0x0d; 0x0e;
  0x0f; 0x10; 0x11; 0x12; 0x13; 0x14; 0x15; 0x16; 0x17; 0x18; 0x19; 0xff; 0xff; 0xff; 0xff; 0x3f;
  0xff; 0x1a; 0x1b; 0x1c; 0x1d; 0x1e; 0x1f; 0x20; 0x21; 0x22; 0x23; 0x24; 0x25; 0x26; 0x27; 0x28;
  0x29; 0x2a; 0x2b; 0x2c; 0x2d; 0x2e; 0x2f; 0x30; 0x31; 0x32; 0x33; 0xff; 0xff; 0xff; 0xff; 0xff].

(** multibase.rs:91-113 [Base]. *)
Inductive base :=
| Base16 | Base16Upper | Base32 | Base32Upper | Base32Pad | Base32PadUpper
| Base58Flickr | Base58BTC | Base64 | Base64Pad | Base64URL | Base64URLPad.

(** multibase.rs:115-128 [AVAILABLE_BASES], 131-133 [Base::available]. *)
Definition available_bases : list base :=
  [Base16; Base16Upper; Base32; Base32Upper; Base32Pad; Base32PadUpper;
   Base58Flickr; Base58BTC; Base64; Base64Pad; Base64URL; Base64URLPad].

(** An ASCII character literal. *)
Definition ch (c : ascii) : N := N_of_ascii c.

(** multibase.rs:135-151 [Base::for_code]. *)
Definition for_code (c : N) : option base :=
  if c =? ch "f" then Some Base16 else if c =? ch "F" then Some Base16Upper
  else if c =? ch "b" then Some Base32 else if c =? ch "B" then Some Base32Upper
  else if c =? ch "c" then Some Base32Pad else if c =? ch "C" then Some Base32PadUpper
  else if c =? ch "Z" then Some Base58Flickr else if c =? ch "z" then Some Base58BTC
  else if c =? ch "m" then Some Base64 else if c =? ch "M" then Some Base64Pad
  else if c =? ch "u" then Some Base64URL else if c =? ch "U" then Some Base64URLPad
  else None.

(** multibase.rs:153-169 [Base::for_name]. *)
Definition for_name (s : string) : option base :=
  if String.eqb s "base16" then Some Base16
  else if String.eqb s "base16upper" then Some Base16Upper
  else if String.eqb s "base32" then Some Base32
  else if String.eqb s "base32upper" then Some Base32Upper
  else if String.eqb s "base32pad" then Some Base32Pad
  else if String.eqb s "base32padupper" then Some Base32PadUpper
  else if String.eqb s "base58flickr" then Some Base58Flickr
  else if String.eqb s "base58btc" then Some Base58BTC
  else if String.eqb s "base64" then Some Base64
  else if String.eqb s "base64pad" then Some Base64Pad
  else if String.eqb s "base64url" then Some Base64URL
  else if String.eqb s "base64urlpad" then Some Base64URLPad
  else None.

(** multibase.rs:171-186 [Base::code]. *)
Definition base_code (b : base) : N :=
  match b with
  | Base16 => ch "f" | Base16Upper => ch "F" | Base32 => ch "b" | Base32Upper => ch "B"
  | Base32Pad => ch "c" | Base32PadUpper => ch "C" | Base58Flickr => ch "Z"
  | Base58BTC => ch "z" | Base64 => ch "m" | Base64Pad => ch "M" | Base64URL => ch "u"
  | Base64URLPad => ch "U"
  end.

(** multibase.rs:188-203 [Base::name]. *)
Definition base_name (b : base) : string :=
  match b with
  | Base16 => "base16" | Base16Upper => "base16upper" | Base32 => "base32"
  | Base32Upper => "base32upper" | Base32Pad => "base32pad"
  | Base32PadUpper => "base32padupper" | Base58Flickr => "base58flickr"
  | Base58BTC => "base58btc" | Base64 => "base64" | Base64Pad => "base64pad"
  | Base64URL => "base64url" | Base64URLPad => "base64urlpad"
  end.

(** The indexing [alphabet[b as usize]].  Rust panics outside the array; the model
    returns byte 0 there, which no alphabet contains. *)
Definition alpha (alphabet : bytes) (b : N) : N := nth (N.to_nat b) alphabet 0.

(** [x << n] on u8: bits shifted out are lost. *)
Definition shl8 (x n : N) : N := N.land (N.shiftl x n) 255.

(** multibase.rs:338-343 [encode_base16]. *)
Definition encode_base16 (data alphabet : bytes) : bytes :=
  flat_map (fun b => [alpha alphabet (N.shiftr b 4); alpha alphabet (N.land b 0xf)]) data.

(** multibase.rs:363-392: the loop of [encode_base32] on the data from [offset] on;
    fuel: one step per group of five. *)
Fixpoint enc32_loop (fuel last : nat) (alphabet : bytes) (padding : bool) (data : bytes) : bytes :=
  match fuel, data with
  | _, [] => []
  | O, _ => []
  | S fuel, input0 :: _ =>
    let input1 := nth 1 data 0 in
    let input2 := nth 2 data 0 in
    let input3 := nth 3 data 0 in
    let input4 := nth 4 data 0 in
    let outputs := [
      N.shiftr input0 3;
      N.lor (N.land (shl8 input0 2) 0x1f) (N.shiftr input1 6);
      N.land (N.shiftr input1 1) 0x1f;
      N.lor (N.land (shl8 input1 4) 0x1f) (N.shiftr input2 4);
      N.lor (N.land (shl8 input2 1) 0x1f) (N.shiftr input3 7);
      N.land (N.shiftr input3 2) 0x1f;
      N.lor (N.land (shl8 input3 3) 0x1f) (N.shiftr input4 5);
      N.land input4 0x1f] in
    let include := if (length data <? 5)%nat then last else 8%nat in
    map (alpha alphabet) (firstn include outputs) ++
    (if padding then repeat (ch "=") (8 - include) else []) ++
    enc32_loop fuel last alphabet padding (skipn 5 data)
  end.

(** multibase.rs:355-361: number of characters for the last group. *)
Definition last32 (len : nat) : nat :=
  match (len mod 5)%nat with
  | 1%nat => 2%nat | 2%nat => 4%nat | 3%nat => 5%nat | 4%nat => 7%nat | _ => 8%nat
  end.

(** multibase.rs:347-393 [encode_base32]; [upper] is [Case::Upper]. *)
Definition encode_base32 (data : bytes) (upper padding : bool) : bytes :=
  let alphabet := if upper then base32_upper else base32_lower in
  enc32_loop (length data) (last32 (length data)) alphabet padding data.

(** multibase.rs:430-474 [encode_base64]; the loop takes three bytes at a time. *)
Fixpoint encode_base64 (data alphabet : bytes) (padding : option N) : bytes :=
  match data with
  | input0 :: input1 :: input2 :: rest =>
      alpha alphabet (N.shiftr input0 2) ::
      alpha alphabet (N.lor (N.land (shl8 input0 4) 0x30) (N.shiftr input1 4)) ::
      alpha alphabet (N.lor (N.land (shl8 input1 2) 0x3c) (N.shiftr input2 6)) ::
      alpha alphabet (N.land input2 0x3f) ::
      encode_base64 rest alphabet padding
  | [input0] =>
      [alpha alphabet (N.shiftr input0 2); alpha alphabet (N.land (shl8 input0 4) 0x30)] ++
      match padding with Some p => [p; p] | None => [] end
  | [input0; input1] =>
      [alpha alphabet (N.shiftr input0 2);
       alpha alphabet (N.lor (N.land (shl8 input0 4) 0x30) (N.shiftr input1 4));
       alpha alphabet (N.land (shl8 input1 2) 0x3c)] ++
      match padding with Some p => [p] | None => [] end
  | [] => []
  end.

(** multibase.rs:287-292: one pass of long division by 58 ([carry] is a u16). *)
Fixpoint div58 (carry : N) (b : bytes) : bytes * N :=
  match b with
  | [] => ([], carry)
  | x :: t =>
    let c := N.lor (N.shiftl carry 8) x in
    let (q, r) := div58 (c mod 58) t in
    ((c / 58) mod two8 :: q, r)
  end.

(** multibase.rs:273-276: the leading zero bytes are counted. *)
Fixpoint leading (z : N) (b : bytes) : nat :=
  match b with
  | x :: t => if x =? z then S (leading z t) else 0%nat
  | [] => 0%nat
  end.

(** multibase.rs:272-294: the division loop, giving [b58_bytes].  Fuel exhaustion is
    excluded by the theorems (two digits per byte are enough). *)
Fixpoint digits58 (fuel : nat) (b : bytes) : bytes :=
  match fuel with
  | O => []
  | S fuel =>
    if (leading 0 b =? length b)%nat then []
    else let (q, r) := div58 0 b in r mod two8 :: digits58 fuel q
  end.

(** multibase.rs:267-302 [encode_base58]. *)
Definition encode_base58 (data alphabet : bytes) : bytes :=
  repeat (alpha alphabet 0) (leading 0 data) ++
  map (alpha alphabet) (rev (digits58 (2 * length data + 1) data)).

(** multibase.rs:221-237 [encode_inner]: the characters appended. *)
Definition encode_noprefix (data : bytes) (b : base) : bytes :=
  match b with
  | Base16 => encode_base16 data base16_lower
  | Base16Upper => encode_base16 data base16_upper
  | Base32 => encode_base32 data false false
  | Base32Upper => encode_base32 data true false
  | Base32Pad => encode_base32 data false true
  | Base32PadUpper => encode_base32 data true true
  | Base58Flickr => encode_base58 data base58_flickr
  | Base58BTC => encode_base58 data base58_btc
  | Base64 => encode_base64 data base64_alphabet None
  | Base64Pad => encode_base64 data base64_alphabet (Some (ch "="))
  | Base64URL => encode_base64 data base64_url_alphabet None
  | Base64URLPad => encode_base64 data base64_url_alphabet (Some (ch "="))
  end.
(** multibase.rs:211-214 [encode]. *)
Definition encode (data : bytes) (b : base) : bytes := base_code b :: encode_noprefix data b.

(** multibase.rs:407-410, 312-316: look a character up in an inverse table. *)
Definition inv_get (inv : bytes) (c : N) : option N :=
  match nth_error inv (N.to_nat c) with
  | None => None
  | Some b => if b =? 0xff then None else Some b
  end.

(** State of [decode_basen]: output so far, byte being assembled, number of its bits. *)
Definition dec_state : Type := bytes * N * N.
(** multibase.rs:411-419: one bit. *)
Definition dec_bit (b : N) (st : dec_state) (i : nat) : dec_state :=
  let '(out, byte, shift) := st in
  let bit := N.land (N.shiftr b (7 - N.of_nat i)) 1 in
  let byte := N.lor byte (shl8 bit (7 - shift)) in
  let shift := (shift + 1) mod 8 in
  if shift =? 0 then (out ++ [byte], 0, shift) else (out, byte, shift).
(** multibase.rs:401-423: the loop over the characters. *)
Fixpoint decode_basen_loop (s : bytes) (offset : nat) (pow2 : nat) (inv : bytes)
    (padding : bool) (st : dec_state) : outcome mb_error dec_state :=
  match s with
  | [] => Ok st
  | eb :: rest =>
    if padding && (eb =? ch "=") then Ok st
    else match inv_get inv eb with
         | None => Err (EInvalidChar offset eb)
         | Some b =>
           decode_basen_loop rest (S offset) pow2 inv padding
             (fold_left (dec_bit b) (seq (8 - pow2) pow2) st)
         end
  end.
(** multibase.rs:395-426 [decode_basen]. *)
Definition decode_basen (s : bytes) (pow2 : nat) (inv : bytes) (padding : bool)
  : outcome mb_error bytes :=
  let? st := decode_basen_loop s 0 pow2 inv padding ([], 0, 0) in
  Ok (fst (fst st)).

(** multibase.rs:318-327: multiply the little-endian number [l] by 58 and add [carry];
    remaining carry (a u16) is pushed byte by byte, at most two bytes. *)
Fixpoint mul58 (carry : N) (l : bytes) : bytes :=
  match l with
  | b :: t =>
    let c := (carry + b * 58) mod two16 in
    N.land c 0xff :: mul58 (N.shiftr c 8) t
  | [] =>
    if carry =? 0 then []
    else N.land carry 0xff ::
      (if N.shiftr carry 8 =? 0 then [] else [N.land (N.shiftr carry 8) 0xff])
  end.
(** multibase.rs:311-328: the loop over the characters. *)
Fixpoint decode58_loop (s : bytes) (offset : nat) (inv : bytes) (decoded : bytes)
  : outcome mb_error bytes :=
  match s with
  | [] => Ok decoded
  | c :: rest =>
    match inv_get inv c with
    | None => Err (EInvalidChar offset c)
    | Some b => decode58_loop rest (S offset) inv (mul58 b decoded)
    end
  end.
(** multibase.rs:304-334 [decode_base58]. *)
Definition decode_base58 (s inv : bytes) : outcome mb_error bytes :=
  let zero_count := leading (ch "1") s in
  let? decoded := decode58_loop s 0 inv [] in
  Ok (rev (decoded ++ repeat 0 zero_count)).

(** multibase.rs:248-263 [decode_noprefix]. *)
Definition decode_noprefix (s : bytes) (b : base) : outcome mb_error bytes :=
  match b with
  | Base16 => decode_basen s 4 base16_lower_inv false
  | Base16Upper => decode_basen s 4 base16_upper_inv false
  | Base32 => decode_basen s 5 base32_lower_inv false
  | Base32Upper => decode_basen s 5 base32_upper_inv false
  | Base32Pad => decode_basen s 5 base32_lower_inv true
  | Base32PadUpper => decode_basen s 5 base32_upper_inv true
  | Base64 => decode_basen s 6 base64_alphabet_inv false
  | Base64Pad => decode_basen s 6 base64_alphabet_inv true
  | Base64URL => decode_basen s 6 base64_url_alphabet_inv false
  | Base64URLPad => decode_basen s 6 base64_url_alphabet_inv true
  | Base58Flickr => decode_base58 s base58_flickr_inv
  | Base58BTC => decode_base58 s base58_btc_inv
  end.
(** multibase.rs:239-246 [decode].  The code characters are ASCII, so the second
    character starts at byte 1. *)
Definition decode (s : bytes) : outcome mb_error bytes :=
  match s with
  | [] => Err EEmptyString
  | code :: rest =>
    match for_code code with
    | None => Err (EUnsupportedEncoding code)
    | Some b => match rest with
                | [] => Ok []
                | _ => decode_noprefix rest b
                end
    end
  end.
