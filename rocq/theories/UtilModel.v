(** Model of src/util/util.rs (hex text, string escaping) and src/util/detrand.rs (the
    deterministic generator). *)
From Verif Require Import Base.

(** The character [{:02x}] prints for a value below 16: '0'.. '9', 'a'..'f'. *)
Definition lower_hex_digit (v : N) : N := if v <? 10 then 48 + v else 87 + v.
(** util.rs:5-12 [Display for BinaryData]: [{:02x}] for every byte, as text bytes. *)
Definition to_hex (data : bytes) : bytes :=
  flat_map (fun byte => [lower_hex_digit (byte / 16); lower_hex_digit (byte mod 16)]) data.

(** util.rs:60-67 [hex_from_byte]. *)
Definition hex_from_byte (b : N) : option N :=
  if (48 <=? b) && (b <=? 57) then Some (b - 48)
  else if (97 <=? b) && (b <=? 102) then Some (b - 97 + 10)
  else if (65 <=? b) && (b <=? 70) then Some (b - 65 + 10)
  else None.
(** util.rs:47-57: the loop of [from_hex]; the text is consumed two bytes at a time. *)
Fixpoint from_hex_loop (raw : bytes) : option bytes :=
  match raw with
  | a :: b :: t =>
    match hex_from_byte a, hex_from_byte b with
    | Some hi, Some lo =>
      match from_hex_loop t with
      | Some l => Some (N.lor ((N.shiftl hi 4) mod 256) lo :: l)
      | None => None
      end
    | _, _ => None
    end
  | _ => Some []
  end.
(** util.rs:39-58 [from_hex]. *)
Definition from_hex (raw : bytes) : option bytes :=
  if Nat.odd (length raw) then None else from_hex_loop raw.

(** util.rs:70-94 [escape_string], on the characters of the string (code points). *)
Definition escape_char (c : N) : list N :=
  if c =? 34 then [92; 34]           (* the quote *)
  else if c =? 13 then [92; 114]     (* \r *)
  else if c =? 10 then [92; 110]     (* \n *)
  else [c].
Definition escape_string (s : list N) : list N := [34] ++ flat_map escape_char s ++ [34].

(** util.rs:96-100 [vec_with_len]. *)
Definition vec_with_len {A} (default : A) (len : nat) : list A := repeat default len.

(** detrand.rs:22-25 [next_u32]: the new seed (which is also the result); detrand.rs:14-20
    [new] fixes the two constants. *)
Definition lcg_a : N := 214013.
Definition lcg_c : N := 2531011.
Definition next_u32 (seed : N) : N := ((lcg_a * seed) mod two32 + lcg_c) mod two32.
