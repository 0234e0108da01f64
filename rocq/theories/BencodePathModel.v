(** Model of the remaining parts of src/formats/bencoding/mod.rs: the paths that the parser
    carries for locations and errors, the texts of its errors, and [Value::dump]; and of
    src/bin/view.rs, which shows torrent files.

    The parser below is that of BencodeModel.v with the path added: every function gets the
    path of the value it reads, and an error carries the path it was reported with.  The text
    of an invalid UTF-8 error (of the standard library) is a parameter. *)
From Verif Require Import Base BencodeModel TorrentModel UtilModel ChatModel HexDumpModel.
Local Open Scope string_scope. Local Open Scope list_scope. Local Open Scope N_scope.

(** bencoding/mod.rs:38-43 [Location] with its path, and the values (51-104). *)
Record plocation := { pl_start : nat; pl_end : nat; pl_path : bytes }.
Inductive pvalue :=
| PBytes (loc : plocation) (data : bytes)
| PInt (loc : plocation) (n : N)
| PList (loc : plocation) (items : list pvalue)
| PDict (loc : plocation) (entries : list (bytes * pvalue)).
Definition ploc_of (v : pvalue) : plocation :=
  match v with PBytes l _ | PInt l _ | PList l _ | PDict l _ => l end.
Definition pmkloc (s e : nat) (path : bytes) : plocation := {| pl_start := s; pl_end := e; pl_path := path |}.
(** bencoding/mod.rs:330, 355: [format!("{}/{}", path, index)], [format!("{}/{}", path, key)]. *)
Definition index_path (path : bytes) (index : nat) : bytes := path ++ ascii_bytes "/" ++ decimal (N.of_nat index).
Definition key_path (path key : bytes) : bytes := path ++ ascii_bytes "/" ++ key.
(** An error with the path of the function that made it. *)
Definition at_path {A} (path : bytes) (x : outcome perr A) : outcome (bytes * perr) A := map_err (pair path) x.
(** bencoding/mod.rs:372-398 [parse_value], with the loops of [parse_list] (316-336; [index]
    counts the items) and [parse_dict] (345-363). *)
Fixpoint parse_value_p (fuel : nat) (data : bytes) (off : nat) (path : bytes) : outcome (bytes * perr) (pvalue * nat) :=
  match fuel with
  | O => Err (path, POutOfFuel)
  | S fuel =>
    match peek data off with
    | None => Err (path, PPrematureEnd off)
    | Some b =>
      if b =? 105 then
        let? (v, e) := at_path path (parse_integer data off) in Ok (PInt (pmkloc off e path) v, e)
      else if b =? 108 then
        let? off1 := at_path path (expect_byte data off 108) in
        let? (l, e) := parse_items_p fuel data off1 path 0 in
        Ok (PList (pmkloc off e path) l, e)
      else if b =? 100 then
        let? off1 := at_path path (expect_byte data off 100) in
        let? (m, e) := parse_entries_p fuel data off1 path [] in
        Ok (PDict (pmkloc off e path) m, e)
      else if is_digit b then
        let? (s, e) := at_path path (parse_byte_string data off) in Ok (PBytes (pmkloc off e path) s, e)
      else Err (path, PUnknownType off b)
    end
  end
with parse_items_p (fuel : nat) (data : bytes) (off : nat) (path : bytes) (index : nat) : outcome (bytes * perr) (list pvalue * nat) :=
  match fuel with
  | O => Err (path, POutOfFuel)
  | S fuel =>
    match peek data off with
    | None => Err (path, PPrematureEnd off)
    | Some b =>
      if b =? 101 then Ok ([], advance data off)
      else
        let? (v, off1) := parse_value_p fuel data off (index_path path index) in
        let? (l, off2) := parse_items_p fuel data off1 path (S index) in
        Ok (v :: l, off2)
    end
  end
with parse_entries_p (fuel : nat) (data : bytes) (off : nat) (path : bytes) (m : list (bytes * pvalue))
  : outcome (bytes * perr) (list (bytes * pvalue) * nat) :=
  match fuel with
  | O => Err (path, POutOfFuel)
  | S fuel =>
    match peek data off with
    | None => Err (path, PPrematureEnd off)
    | Some b =>
      if b =? 101 then Ok (m, advance data off)
      else
        let? (k, off1) := at_path path (parse_utf8_string data off) in
        let? (v, off2) := parse_value_p fuel data off1 (key_path path k) in
        parse_entries_p fuel data off2 path (map_insert k v m)
    end
  end.
(** bencoding/mod.rs:410-413 [parse]: the path of the root is empty. *)
Definition parse_p (data : bytes) : outcome (bytes * perr) pvalue :=
  let? (v, _) := parse_value_p (fuel_for data) data 0 [] in Ok v.

(** bencoding/mod.rs:401-408 [byte_repr]. *)
Definition byte_repr (b : N) : bytes :=
  if (32 <=? b) && (b <=? 126) then ascii_bytes "'" ++ [b] ++ ascii_bytes "'" else ascii_bytes "0x" ++ hex_padded 2 b.
(** The offset and the message of an error (263-398); what [expect_byte] got is the byte at
    the offset.  [bad_utf8] is the text of the error of [String::from_utf8]. *)
Definition error_offset (e : perr) : nat :=
  match e with
  | PExpectedDigit o | PBadInteger o | PExpectedByte o _ | PIntegerOverflow o | PBeyondEnd o | PPrematureEnd o | PBadUtf8 o | PUnknownType o _ => o
  | POutOfFuel => 0
  end.
Definition error_message (bad_utf8 : nat -> bytes) (data : bytes) (e : perr) : bytes :=
  match e with
  | PExpectedDigit _ => ascii_bytes "Expected a digit"
  | PBadInteger _ => ascii_bytes "number too large to fit in target type"
  | PExpectedByte o b =>
    ascii_bytes "Expected " ++ byte_repr b ++ ascii_bytes ", got " ++
    match peek data o with None => ascii_bytes "end of file" | Some g => byte_repr g end
  | PIntegerOverflow _ => ascii_bytes "Integer overflow"
  | PBeyondEnd _ => ascii_bytes "String goes beyond end of file"
  | PPrematureEnd _ => ascii_bytes "Premature end of file"
  | PBadUtf8 o => bad_utf8 o
  | PUnknownType _ b => ascii_bytes "Unknown value type: " ++ decimal b
  | POutOfFuel => []
  end.
(** bencoding/mod.rs:233-237 [Display for ParseError]. *)
Definition error_text (bad_utf8 : nat -> bytes) (data : bytes) (x : bytes * perr) : bytes :=
  ascii_bytes "Offset " ++ decimal (N.of_nat (error_offset (snd x))) ++ ascii_bytes ", path " ++ [34] ++ fst x ++ [34] ++ ascii_bytes ": " ++
  error_message bad_utf8 data (snd x).

(** bencoding/mod.rs:162-206 [dump]. *)
Definition indentation (n : nat) : bytes := concat (repeat (ascii_bytes "    ") n).
Definition string_text (d : bytes) : bytes :=
  if utf8_valid d then d
  else if (length d <=? 20)%nat then to_hex d
  else ascii_bytes "<" ++ decimal (blen d) ++ ascii_bytes " bytes of binary data>".
Fixpoint dump (v : value) (indent : nat) : bytes :=
  indentation indent ++
  match v with
  | VBytes _ d => string_text d ++ [10]
  | VInt _ n => decimal n ++ [10]
  | VList _ l => ascii_bytes "list" ++ [10] ++ flat_map (fun e => dump e (S indent)) l
  | VDict _ m => ascii_bytes "dict" ++ [10] ++
      flat_map (fun e => indentation (S indent) ++ fst e ++ ascii_bytes " =" ++ [10] ++ dump (snd e) (S (S indent))) m
  end.

(** *** bin/view.rs *)
Definition line (s : bytes) : bytes := s ++ [10].
(** [{:<12}]: blanks up to a width of twelve. *)
Definition left12 (s : bytes) : bytes := s ++ repeat 32 (12 - length s).
(** view.rs:80-92 [trackers]. *)
Fixpoint trackers_text (groups : list (list bytes)) : bytes :=
  match groups with
  | [] => []
  | g :: t => flat_map line g ++ (match t with [] => [] | _ => [10] end) ++ trackers_text t
  end.
(** view.rs:94-101 [files]. *)
Definition files_text (t : torrent) : bytes := flat_map (fun f => line (tf_path f)) (t_files t).
(** view.rs:103-125 [info]. *)
Definition number_of {A} (l : list A) : bytes := decimal (N.of_nat (length l)).
Definition info_text (t : torrent) : bytes :=
  line (ascii_bytes "Info hash: " ++ to_hex (t_info_hash t)) ++
  line (ascii_bytes "Name: " ++ t_name t) ++
  line (ascii_bytes "Tracker groups: " ++ number_of (t_tracker_groups t)) ++
  line (ascii_bytes "Trackers: " ++ number_of (concat (t_tracker_groups t))) ++
  line (ascii_bytes "Piece length: " ++ decimal (t_piece_length t)) ++
  line (ascii_bytes "Pieces: " ++ number_of (t_pieces t)) ++
  line (ascii_bytes "Files: " ++ number_of (t_files t)) ++
  line (ascii_bytes "Total length: " ++ decimal (t_total_length t)).
(** view.rs:127-133 [hash]. *)
Definition hash_text (filename : bytes) (t : torrent) : bytes := line (filename ++ ascii_bytes " " ++ to_hex (t_info_hash t)).
(** view.rs:25-41 [view_torrent]. *)
Fixpoint numbered_lines (i : nat) (urls : list bytes) : bytes :=
  match urls with
  | [] => []
  | u :: t => line (ascii_bytes "        " ++ decimal (N.of_nat i) ++ ascii_bytes ": " ++ u) ++ numbered_lines (S i) t
  end.
Fixpoint numbered_groups (i : nat) (groups : list (list bytes)) : bytes :=
  match groups with
  | [] => []
  | g :: t => line (ascii_bytes "    group " ++ decimal (N.of_nat i)) ++ numbered_lines 0 g ++ numbered_groups (S i) t
  end.
Definition torrent_text (t : torrent) : bytes :=
  line (ascii_bytes "Torrent loaded successfully") ++
  line (ascii_bytes "    name = " ++ t_name t) ++
  line (ascii_bytes "    info hash = " ++ to_hex (t_info_hash t)) ++
  numbered_groups 0 (t_tracker_groups t) ++
  line (ascii_bytes "    files") ++
  flat_map (fun f => line (ascii_bytes "        " ++ left12 (decimal (tf_length f)) ++ ascii_bytes " " ++ tf_path f)) (t_files t).

(** What the program does: what it printed, and how it ended (exit code 0, exit code 1, a
    panic in the torrent reader). *)
Inductive ended := Succeeds | Fails | Panics.
(** A command that needs the torrent. *)
Definition with_torrent (sha1 : bytes -> bytes) (data : bytes) (before : bytes) (f : torrent -> bytes) : bytes * ended :=
  match from_bytes sha1 data with
  | Ok t => (before ++ f t, Succeeds)
  | Err _ => (before, Fails)
  | Panic => (before, Panics)
  end.
(** view.rs:12-23 [decode], [view_bencoding]. *)
Definition view_bencoding (data : bytes) : option bytes :=
  match parse data with Ok v => Some (dump v 0) | _ => None end.
(** view.rs:147-168 [build_commands], [print_usage]. *)
Definition command_names : list bytes := map ascii_bytes ["trackers"; "files"; "info"; "hash"; "raw"; "full"].
Definition usage : bytes := line (ascii_bytes "Commands:") ++ flat_map (fun n => line (ascii_bytes "  " ++ n)) command_names.
(** view.rs:70-78 [filename_arg], [read_file_from_arg]; 43-55 [run]; 135-145 [raw], [full]; 170-199 [main], with the arguments
    after the name of the program and the contents of the files that can be read. *)
Definition view (sha1 : bytes -> bytes) (read : bytes -> option bytes) (args : list bytes) : bytes * ended :=
  match args with
  | [] => (usage, Fails)
  | c :: rest =>
    if negb (existsb (bytes_eqb c) command_names) then (usage, Fails)
    else match rest with
    | [] => ([], Fails)
    | filename :: _ =>
      match read filename with
      | None => ([], Fails)
      | Some data =>
        if bytes_eqb c (ascii_bytes "trackers") then with_torrent sha1 data [] (fun t => trackers_text (t_tracker_groups t))
        else if bytes_eqb c (ascii_bytes "files") then with_torrent sha1 data [] files_text
        else if bytes_eqb c (ascii_bytes "info") then with_torrent sha1 data [] info_text
        else if bytes_eqb c (ascii_bytes "hash") then with_torrent sha1 data [] (hash_text filename)
        else match view_bencoding data with
        | None => ([], Fails)
        | Some text =>
          if bytes_eqb c (ascii_bytes "raw") then (text, Succeeds)
          else with_torrent sha1 data (text ++ line (ascii_bytes "-----------")) torrent_text
        end
      end
    end
  end.
