(** Model of the errors of src/bittorrent/torrent.rs and of the accessors of
    src/formats/bencoding/mod.rs with their paths and texts.

    The reader below is [from_bytes] of TorrentModel.v on the values with paths of
    BencodePathModel.v; an error carries the location that the code clones into it.  The texts
    of the errors of [String::from_utf8] are parameters. *)
From Verif Require Import Base BencodeModel TorrentModel ChatModel UtilModel BencodePathModel.
Local Open Scope string_scope. Local Open Scope list_scope. Local Open Scope N_scope.

(** bencoding/mod.rs:5-19 [ValueError]. *)
Inductive pverr := WBadUtf8 (l : plocation) (data : bytes) | WMissingKey (l : plocation) (k : bytes) | WNotType (l : plocation) (t : string).
(** bencoding/mod.rs:21-36 [Display for ValueError]; [utf8] is the text for invalid bytes. *)
Definition value_error_text (utf8 : bytes -> bytes) (e : pverr) : bytes :=
  match e with
  | WBadUtf8 l d => pl_path l ++ ascii_bytes ": " ++ utf8 d
  | WMissingKey l k => pl_path l ++ ascii_bytes ": " ++ ascii_bytes "Missing key: " ++ k
  | WNotType l t => pl_path l ++ ascii_bytes ": " ++ ascii_bytes "Expected " ++ ascii_bytes t
  end.
(** bencoding/mod.rs:118-160 the accessors, 56-66 [ByteString::as_string]. *)
Definition as_byte_string_p (v : pvalue) : outcome pverr bytes :=
  match v with PBytes _ d => Ok d | _ => Err (WNotType (ploc_of v) "bytes") end.
Definition as_string_p (v : pvalue) : outcome pverr bytes :=
  let? d := as_byte_string_p v in
  if utf8_valid d then Ok d else Err (WBadUtf8 (ploc_of v) d).
Definition as_integer_p (v : pvalue) : outcome pverr N :=
  match v with PInt _ n => Ok n | _ => Err (WNotType (ploc_of v) "integer") end.
Definition as_list_p (v : pvalue) : outcome pverr (list pvalue) :=
  match v with PList _ l => Ok l | _ => Err (WNotType (ploc_of v) "list") end.
Definition as_dictionary_p (v : pvalue) : outcome pverr (plocation * list (bytes * pvalue)) :=
  match v with PDict l m => Ok (l, m) | _ => Err (WNotType (ploc_of v) "dictionary") end.
(** bencoding/mod.rs:88-96 [get_required]. *)
Definition get_required_p (d : plocation * list (bytes * pvalue)) (key : bytes) : outcome pverr pvalue :=
  of_option (WMissingKey (fst d) key) (map_get key (snd d)).

(** torrent.rs:8-12 [TorrentError], 31-41 the conversions. *)
Inductive pterr := UString (s : bytes) | UValue (e : pverr) | UParse (e : bytes * perr).
(** torrent.rs:16-24 [Display for TorrentError]; Debug (26-30) is the same. *)
Definition torrent_error_text (utf8 : bytes -> bytes) (bad_utf8 : nat -> bytes) (data : bytes) (e : pterr) : bytes :=
  match e with
  | UString s => s
  | UValue e => value_error_text utf8 e
  | UParse e => error_text bad_utf8 data e
  end.
Definition wl {A} (x : outcome pverr A) : outcome pterr A := map_err UValue x.
(** torrent.rs:102-115 [parse_announce_list]. *)
Definition parse_announce_list_p (v : pvalue) : outcome pterr (list (list bytes)) :=
  let? groups := wl (as_list_p v) in
  collect (fun g => let? members := wl (as_list_p g) in collect (fun t => wl (as_string_p t)) members) groups.
(** torrent.rs:120-135: one file. *)
Definition parse_file_p (v : pvalue) : outcome pterr torrent_file :=
  let? d := wl (as_dictionary_p v) in
  let? len_v := wl (get_required_p d (key "length")) in
  let? path_v := wl (get_required_p d (key "path")) in
  let? len := wl (as_integer_p len_v) in
  let? comps_v := wl (as_list_p path_v) in
  let? comps := collect (fun c => wl (as_string_p c)) comps_v in
  Ok {| tf_length := len; tf_path := join_path comps |}.
(** torrent.rs:117-137 [parse_files]. *)
Definition parse_files_p (v : pvalue) : outcome pterr (list torrent_file) :=
  let? l := wl (as_list_p v) in collect parse_file_p l.
(** torrent.rs:173-176 with usize additions. *)
Fixpoint sum_lengths_p (acc : N) (l : list torrent_file) : outcome pterr N :=
  match l with
  | [] => Ok acc
  | f :: t => if two64 <=? acc + tf_length f then Panic else sum_lengths_p (acc + tf_length f) t
  end.
(** torrent.rs:139-193 [from_bytes]. *)
Definition from_bytes_p (sha1 : bytes -> bytes) (data : bytes) : outcome pterr torrent :=
  let? v := map_err UParse (parse_p data) in
  let? root := wl (as_dictionary_p v) in
  let? info_v := wl (get_required_p root (key "info")) in
  let? info := wl (as_dictionary_p info_v) in
  let? name_v := wl (get_required_p info (key "name")) in
  let? name := wl (as_string_p name_v) in
  let? al_v := wl (get_required_p root (key "announce-list")) in
  let? groups := parse_announce_list_p al_v in
  let? files_v := wl (get_required_p info (key "files")) in
  let? files := parse_files_p files_v in
  let? pl_v := wl (get_required_p info (key "piece length")) in
  let? piece_length := wl (as_integer_p pl_v) in
  let? ps_v := wl (get_required_p info (key "pieces")) in
  let? pieces_data := wl (as_byte_string_p ps_v) in
  if negb (blen pieces_data mod 20 =? 0) then
    Err (UString (ascii_bytes "Pieces data is " ++ decimal (blen pieces_data) ++ ascii_bytes " bytes, which is not a multiple of 20"))
  else
    let pieces := cut20 (length pieces_data) pieces_data in
    let? info_bytes := index_range data (pl_start (fst info)) (pl_end (fst info)) in
    let? total := sum_lengths_p 0 files in
    let? room := checked_mul piece_length (N.of_nat (length pieces)) in
    if room <? total then Err (UString (ascii_bytes "Not enough pieces"))
    else Ok {| t_info_hash := sha1 info_bytes; t_name := name; t_tracker_groups := groups;
               t_files := files; t_piece_length := piece_length; t_pieces := pieces;
               t_total_length := total |}.
(** torrent.rs:53-63 Display of [InfoHash] and [PieceHash]. *)
Definition hash_display (data : bytes) : bytes := to_hex data.
