(** Model of src/crypto/pem.rs.

    The parser's position is the bytes that remain.  [PLoop] is a loop that makes no progress
    and never ends (expect_string at the end of the data). *)
From Verif Require Import Base MultibaseModel ChatModel.
Local Open Scope string_scope. Local Open Scope list_scope. Local Open Scope N_scope.

(** pem.rs:5-9 [PEMError]. *)
Inductive pem_error := PemPlain (s : string) | PemString (s : bytes) | PemLabelMismatch (a b : bytes).
Inductive presult (A : Type) := POk (a : A) (rest : bytes) | PErr (e : pem_error) | PLoop.
Arguments POk {A} a rest. Arguments PErr {A} e. Arguments PLoop {A}.
Definition pbind {A B} (x : presult A) (k : A -> bytes -> presult B) : presult B :=
  match x with POk a r => k a r | PErr e => PErr e | PLoop => PLoop end.
(** A text without characters to escape, as [{:?}] shows it: pem.rs:19-21 and 102 use it for
    fixed words and for labels of capital letters and spaces only. *)
Definition in_quotes (s : bytes) : bytes := [34] ++ s ++ [34].
(** pem.rs:11-28, Display and Debug of [PEMError]. *)
Definition pem_error_text (e : pem_error) : bytes :=
  match e with
  | PemPlain s => ascii_bytes s
  | PemString s => s
  | PemLabelMismatch a b =>
    ascii_bytes "Label mismatch: " ++ in_quotes (ascii_bytes "BEGIN " ++ a) ++ ascii_bytes " and " ++ in_quotes (ascii_bytes "END " ++ b)
  end.
(** The longest prefix of bytes satisfying [p], and what follows: the [while let] loops of
    expect_dashes and read_label. *)
Fixpoint span (p : N -> bool) (l : bytes) : bytes * bytes :=
  match l with
  | b :: t => if p b then let (a, r) := span p t in (b :: a, r) else ([], l)
  | [] => ([], [])
  end.
(** pem.rs:55-67 [expect_dashes]. *)
Definition expect_dashes (l : bytes) : presult nat :=
  let (d, r) := span (N.eqb 45) l in
  if (length d =? 0)%nat then PErr (PemPlain "Expected '") else POk (length d) r.
(** pem.rs:69-77 [expect_space]. *)
Definition expect_space (l : bytes) : presult unit :=
  match l with 32 :: t => POk tt t | _ => PErr (PemPlain "Expected ' '") end.
(** pem.rs:79-90 [expect_newline]. *)
Definition expect_newline (l : bytes) : presult unit :=
  let l := match l with 13 :: t => t | _ => l end in
  match l with 10 :: t => POk tt t | _ => PErr (PemPlain "Expected newline") end.
(** The loop of pem.rs:95-105: at the end of the data it neither advances nor returns.
    [whole] is the string asked for, [s] what is left of it. *)
Fixpoint expect_rest (whole s l : bytes) : presult unit :=
  match s with
  | [] => POk tt l
  | b :: s' => match l with
               | [] => PLoop
               | b2 :: l' => if b =? b2 then expect_rest whole s' l' else PErr (PemString (ascii_bytes "Expected " ++ in_quotes whole))
               end
  end.
(** pem.rs:92-107 [expect_string]. *)
Definition expect_string (s l : bytes) : presult unit := expect_rest s s l.
(** pem.rs:113: characters of a label. *)
Definition label_char (b : N) : bool := ((65 <=? b) && (b <=? 90)) || (b =? 32).
(** pem.rs:109-121 [read_label]. *)
Definition read_label (l : bytes) : presult bytes :=
  let (s, r) := span label_char l in if utf8_valid s then POk s r else PErr (PemPlain "Invalid UTF-8 label").
(** pem.rs:123-130 [expect_end]. *)
Definition expect_end (l : bytes) : presult unit := match l with [] => POk tt l | _ => PErr (PemPlain "Expected EOF") end.
(** pem.rs:136-139: characters of the body. *)
Definition body_char (b : N) : bool :=
  ((65 <=? b) && (b <=? 90)) || ((97 <=? b) && (b <=? 122)) || ((48 <=? b) && (b <=? 57)) || (b =? 43) || (b =? 47) || (b =? 61).
(** pem.rs:132-155 [read_base64]. *)
Fixpoint read_base64 (l : bytes) : presult bytes :=
  match l with
  | [] => POk [] []
  | b :: t =>
    if body_char b then pbind (read_base64 t) (fun d r => POk (b :: d) r)
    else if (b =? 13) || (b =? 10) then read_base64 t
    else if b =? 45 then POk [] l
    else PErr (PemString (ascii_bytes "Expected base64-encoded data, got " ++ decimal b))
  end.
(** pem.rs:158-193 [decode_pem]. *)
Definition decode_pem (l : bytes) : presult (bytes * bytes) :=
  pbind (expect_dashes l) (fun _ l =>
  pbind (expect_string (ascii_bytes "BEGIN") l) (fun _ l =>
  pbind (expect_space l) (fun _ l =>
  pbind (read_label l) (fun begin_label l =>
  pbind (expect_dashes l) (fun _ l =>
  pbind (expect_newline l) (fun _ l =>
  pbind (read_base64 l) (fun base64_data l =>
  pbind (expect_dashes l) (fun _ l =>
  pbind (expect_string (ascii_bytes "END") l) (fun _ l =>
  pbind (expect_space l) (fun _ l =>
  pbind (read_label l) (fun end_label l =>
  pbind (expect_dashes l) (fun _ l =>
  pbind (expect_newline l) (fun _ l =>
  pbind (expect_end l) (fun _ l =>
  if utf8_valid base64_data then
    match decode_noprefix base64_data Base64Pad with
    | Ok decoded =>
      if bytes_eqb begin_label end_label then POk (begin_label, decoded) l else PErr (PemLabelMismatch begin_label end_label)
    | _ => PErr (PemPlain "Invalid base64 data")
    end
  else PErr (PemPlain "Invalid UTF-8"))))))))))))))).
(** pem.rs:195-203 [decode_pem_with_label]. *)
Definition decode_pem_with_label (l label : bytes) : presult bytes :=
  pbind (decode_pem l) (fun p r => if bytes_eqb (fst p) label then POk (snd p) r else
    PErr (PemString (ascii_bytes "Expected " ++ label ++ ascii_bytes ", got " ++ fst p))).
(** pem.rs:212-218: lines of 64 characters.  Fuel: each line takes at least one. *)
Fixpoint pem_lines (fuel : nat) (l : bytes) : bytes :=
  match fuel, l with
  | S fuel, _ :: _ => firstn 64 l ++ [10] ++ pem_lines fuel (skipn 64 l)
  | _, _ => []
  end.
(** pem.rs:205-223 [encode_pem]. *)
Definition encode_pem (data label : bytes) : bytes :=
  let b := encode_noprefix data Base64Pad in
  ascii_bytes "-----BEGIN " ++ label ++ ascii_bytes "-----" ++ [10] ++
  pem_lines (length b) b ++
  ascii_bytes "-----END " ++ label ++ ascii_bytes "-----" ++ [10].
