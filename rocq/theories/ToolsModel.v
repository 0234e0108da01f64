(** Model of the multibase command line tool (src/bin/multibase.rs), of its self test
    (src/bin/test_multibase.rs), and of the parts of src/ipfs/types/multibase.rs that only
    they use: the error texts and the generator of the inverse tables.

    Texts are lists of bytes.  The arguments are those that the argument parser (clap)
    hands over; its own usage texts are not modelled.  Printing is assumed to succeed. *)
From Verif Require Import Base UtilModel MultibaseModel ChatModel HexDumpModel.
Local Open Scope string_scope. Local Open Scope list_scope. Local Open Scope N_scope.

(** What a program leaves behind: standard output, standard error, and whether its exit
    code is 0. *)
Record run := { r_out : bytes; r_err : bytes; r_ok : bool }.
Definition succeed (out : bytes) : run := {| r_out := out; r_err := []; r_ok := true |}.
Definition fail (out err : bytes) : run := {| r_out := out; r_err := err ++ [10]; r_ok := false |}.

(** The bytes of the first character of a UTF-8 text ([chars().next()]). *)
Definition first_char (s : bytes) : bytes :=
  match s with
  | [] => []
  | c :: _ => firstn (if c <? 128 then 1 else if c <? 224 then 2 else if c <? 240 then 3 else 4) s
  end.
(** The name of a base, looked up from text: multibase.rs:153-169 on a [str]. *)
Definition for_name_text (s : bytes) : option base := for_name (string_of_list_ascii (map ascii_of_N s)).

(** multibase.rs:14-43 [Display for DecodeError].  The model's error has the first byte of
    the text [s] it was raised for, so the first character is taken from there.  The
    offending character of [InvalidChar] is a [u8], which prints as a number. *)
Definition decode_error_text (s : bytes) (e : mb_error) : bytes :=
  match e with
  | EEmptyString => ascii_bytes "Empty string"
  | EInvalidLength n => ascii_bytes "Invalid length: " ++ decimal (N.of_nat n)
  | EInvalidChar off c =>
    ascii_bytes "Invalid character at offset " ++ decimal (N.of_nat off) ++ ascii_bytes ": '" ++ decimal c ++ ascii_bytes "'"
  | EUnsupportedEncoding c =>
    ascii_bytes "Unknown encoding format: " ++ first_char s ++
    (if c =? ch "1" then ascii_bytes " (looks like a base58-encoded identity multihash from a peer id)"
     else if c =? ch "Q" then ascii_bytes " (looks like a base58-encoded sha2-256 multihash from a peer id or CIDv0)"
     else [])
  end.

(** *** bin/multibase.rs *)
(** bin/multibase.rs:25-51 [SubCommand] with its arguments. *)
Inductive subcommand := MList | MDetect (value : bytes) | MDecode (value : bytes) | MConvert (to value : bytes).
(** bin/multibase.rs:53-58 [list]. *)
Definition mb_list : run :=
  succeed (flat_map (fun b => [base_code b; 32] ++ ascii_bytes (base_name b) ++ [10]) available_bases).
(** bin/multibase.rs:60-65 [detect]. *)
Definition mb_detect (value : bytes) : run :=
  match value with
  | [] => fail [] (decode_error_text value EEmptyString)
  | code :: _ =>
    match for_code code with
    | None => fail [] (decode_error_text value (EUnsupportedEncoding code))
    | Some b => succeed (ascii_bytes (base_name b) ++ [10])
    end
  end.
(** bin/multibase.rs:67-72 [decode_cmd].  [decode] has no panicking input. *)
Definition mb_decode (value : bytes) : run :=
  match decode value with
  | Ok binary => succeed (encode_noprefix binary Base16 ++ [10])
  | Err e => fail [] (decode_error_text value e)
  | Panic => fail [] []
  end.
(** bin/multibase.rs:74-79 [convert]. *)
Definition mb_convert (to value : bytes) : run :=
  match for_name_text to with
  | None => fail [] (ascii_bytes "Unknown base: " ++ to)
  | Some to_base =>
    match decode value with
    | Ok binary => succeed (encode binary to_base ++ [10])
    | Err e => fail [] (decode_error_text value e)
    | Panic => fail [] []
    end
  end.
(** bin/multibase.rs:81-99 [main_inner], [main]. *)
Definition mb_main (c : subcommand) : run :=
  match c with
  | MList => mb_list
  | MDetect v => mb_detect v
  | MDecode v => mb_decode v
  | MConvert t v => mb_convert t v
  end.

(** *** bin/test_multibase.rs *)
(** [{:<40}] of a text of one-byte characters. *)
Definition left40 (s : bytes) : bytes := s ++ repeat 32 (40 - length s).
(** bin/test_multibase.rs:40-66: the loop over the lines from number [lineno] on, having
    printed [out]; [quoted] is the [{:?}] form of a text. *)
Fixpoint test_lines (quoted : bytes -> bytes) (b : base) (lineno : nat) (lines : list bytes) (out : bytes) : run :=
  match lines with
  | [] => succeed out
  | line :: rest =>
    match from_hex line with
    | None =>
      fail out (ascii_bytes "Line " ++ decimal (N.of_nat lineno) ++ ascii_bytes ": Invalid hex string: " ++ quoted line)
    | Some num_bytes =>
      let encoded := encode num_bytes b in
      let out := out ++ left40 line ++ [32] ++ encoded ++ [10] in
      match decode encoded with
      | Ok data =>
        if bytes_eqb data num_bytes then test_lines quoted b (S lineno) rest out
        else fail out (ascii_bytes "Decode: Not equal" ++ [10] ++ ascii_bytes "Expected: " ++ to_hex num_bytes ++ [10] ++
                       ascii_bytes "Actual:   " ++ to_hex data)
      | Err e => fail out (ascii_bytes "Decode: " ++ decode_error_text encoded e)
      | Panic => fail out []
      end
    end
  end.
(** bin/test_multibase.rs:12-80 [main_result], [main] on the arguments after the program's
    name; [read] gives the text of a file, or the error text of [read_to_string]. *)
Definition test_main (quoted : bytes -> bytes) (read : bytes -> bytes + bytes) (args : list bytes) : run :=
  match args with
  | [] => fail [] (ascii_bytes "Please specify numbers filename")
  | [_] => fail [] (ascii_bytes "Please specify base")
  | file :: name :: _ =>
    match for_name_text name with
    | None => fail [] (ascii_bytes "Unknown base: " ++ name)
    | Some b =>
      match read file with
      | inr e => fail [] e
      | inl text => test_lines quoted b 0 (text_lines text) []
      end
    end
  end.

(** *** The generator of the inverse tables *)
(** An assignment to an array element. *)
Definition set_nth (l : bytes) (k : nat) (v : N) : bytes := firstn k l ++ match skipn k l with [] => [] | _ :: t => v :: t end.
(** multibase.rs:478-481: the loop over the alphabet (code points) from position [index]. *)
Fixpoint gen_mapping (alphabet : list N) (index : nat) (mapping : bytes) : bytes :=
  match alphabet with
  | [] => mapping
  | c :: t => gen_mapping t (S index) (set_nth mapping (N.to_nat (c mod 256)) (N.of_nat index mod 256))
  end.
(** multibase.rs:477-481: the array [mapping]. *)
Definition gen_table (alphabet : list N) : bytes := gen_mapping alphabet 0 (repeat 0xff 256).
(** multibase.rs:485-501: the rows; [index] is always [16 * hi + lo]. *)
Definition gen_row (mapping : bytes) (hi : nat) : bytes :=
  ascii_bytes "    " ++
  flat_map (fun lo => ascii_bytes "0x" ++ hex_padded 2 (nth (16 * hi + lo) mapping 0) ++
                      (if (lo + 1 <? 16)%nat then ascii_bytes ", " else [])) (seq 0 16) ++
  (if (hi + 1 <? 8)%nat then ascii_bytes "," else ascii_bytes "];") ++ [10].
(** multibase.rs:476-503 [gen_inverse]: what is printed. *)
Definition gen_inverse (name : bytes) (alphabet : list N) : bytes :=
  ascii_bytes "const " ++ name ++ ascii_bytes "_INV: [u8; 128] = [" ++ [10] ++
  flat_map (gen_row (gen_table alphabet)) (seq 0 8) ++ [10].
(** multibase.rs:506-513: the calls. *)
Definition generated : list (string * bytes) := [
  ("BASE16_LOWER", base16_lower); ("BASE16_UPPER", base16_upper);
  ("BASE32_UPPER", base32_upper); ("BASE32_LOWER", base32_lower);
  ("BASE58_BTC", base58_btc); ("BASE58_FLICKR", base58_flickr);
  ("BASE64_ALPHABET", base64_alphabet); ("BASE64_URL_ALPHABET", base64_url_alphabet)].
(** multibase.rs:505-514 [gen_inverse_all]. *)
Definition gen_inverse_all : bytes := flat_map (fun e => gen_inverse (ascii_bytes (fst e)) (snd e)) generated.
