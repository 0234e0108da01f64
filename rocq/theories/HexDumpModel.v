(** Model of the printing helpers of src/util/util.rs: [DebugHexDump] in both its forms and
    [Indent].  Texts are lists of bytes.  Writing to the formatter is taken to succeed (an
    error of the underlying writer is passed on). *)
From Verif Require Import Base UtilModel Asn1ToolModel.
Local Open Scope string_scope. Local Open Scope list_scope. Local Open Scope N_scope.

(** The format [{:0w x}]: at least [w] lower case digits, zeros in front. *)
Definition hex_padded (w : nat) (n : N) : bytes :=
  let t := hex_number n in repeat 48 (w - length t) ++ t.
(** util.rs:106-112: the plain form [{:?}]. *)
Definition dump_plain (d : bytes) : bytes :=
  flat_map (fun i => hex_padded 2 (nth i d 0) ++ (if (i + 1 <? length d)%nat then [32] else [])) (seq 0 (length d)).
(** util.rs:141-155 [fmt_chars]. *)
Definition dump_chars (d : bytes) (start : nat) : bytes :=
  let e := Nat.min (start + 16) (length d) in
  ascii_bytes "  |" ++
  map (fun i => let byte := nth i d 0 in if (32 <=? byte) && (byte <=? 126) then byte else 46) (seq start (e - start)) ++
  ascii_bytes "|".
(** util.rs:117-130: one line, without the line end. *)
Definition dump_line (d : bytes) (start : nat) : bytes :=
  hex_padded 8 (N.of_nat start) ++
  flat_map (fun i =>
    (if (i mod 8 =? 0)%nat then [32] else []) ++
    (if (i <? length d)%nat then [32] ++ hex_padded 2 (nth i d 0) else ascii_bytes "   ")) (seq start 16) ++
  dump_chars d start.
(** util.rs:113-135: the alternate form [{:#?}]. *)
Definition dump_alternate (d : bytes) : bytes :=
  let nlines := match d with [] => 1%nat | _ => ((length d + 15) / 16)%nat end in
  flat_map (fun lineno => dump_line d (lineno * 16) ++ (if (lineno + 1 <? nlines)%nat then [10] else [])) (seq 0 nlines).

(** [str::lines]: the text is cut after every line feed; of a piece that ends in one, the
    line feed and a carriage return right before it are dropped.  [cur] is the piece so far,
    reversed. *)
Definition strip_return (cur : bytes) : bytes :=
  match cur with c :: t => if c =? 13 then rev t else rev cur | [] => [] end.
Fixpoint lines_from (cur : bytes) (s : bytes) : list bytes :=
  match s with
  | [] => match cur with [] => [] | _ => [rev cur] end
  | c :: t => if c =? 10 then strip_return cur :: lines_from [] t else lines_from (c :: cur) t
  end.
Definition text_lines (s : bytes) : list bytes := lines_from [] s.
(** util.rs:165-170: the loop over the lines; [first] is [i == 0]. *)
Fixpoint indent_lines (first : bool) (l : list bytes) : bytes :=
  match l with
  | [] => []
  | line :: t => (if first then [] else [10]) ++ ascii_bytes "    " ++ line ++ indent_lines false t
  end.
(** util.rs:160-173 [Debug for Indent], given the [{:#?}] text of what is indented. *)
Definition indent (s : bytes) : bytes := indent_lines true (text_lines s).
