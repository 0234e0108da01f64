(** Model of src/bittorrent/torrent.rs (torrent files) and src/bittorrent/data.rs
    (bit-fields).  SHA-1 is a parameter.  [usize] arithmetic that overflows is [Panic] (the
    checked build); in a release build it wraps instead. *)
From Verif Require Import Base BencodeModel.
Local Open Scope string_scope. Local Open Scope list_scope. Local Open Scope N_scope.

(** torrent.rs:8-12 [TorrentError]; the two messages of [String] are told apart. *)
Inductive terr := TPiecesNotMultiple (len : N) | TNotEnoughPieces | TValue (e : verr) | TParse (e : perr).

(** torrent.rs:73-76 [TorrentFile], 78-88 [Torrent] (without the copies of the input and of
    the parsed root). *)
Record torrent_file := { tf_length : N; tf_path : bytes }.
Record torrent := {
  t_info_hash : bytes; t_name : bytes; t_tracker_groups : list (list bytes);
  t_files : list torrent_file; t_piece_length : N; t_pieces : list bytes; t_total_length : N }.

Definition key (s : string) : bytes := ascii_bytes s.
Definition vl {A} (x : outcome verr A) : outcome terr A := map_err TValue x.
(** [for x in items { ... ? }] collecting the results. *)
Fixpoint collect {E A B} (f : A -> outcome E B) (l : list A) : outcome E (list B) :=
  match l with
  | [] => Ok []
  | x :: t => let? y := f x in let? r := collect f t in Ok (y :: r)
  end.

(** torrent.rs:102-115 [parse_announce_list]. *)
Definition parse_announce_list (v : value) : outcome terr (list (list bytes)) :=
  let? groups := vl (as_list v) in
  collect (fun g => let? members := vl (as_list g) in collect (fun t => vl (as_string t)) members) groups.
(** torrent.rs:126-133: the path of a file. *)
Definition push_component (spath component : bytes) : bytes :=
  match spath with
  | [] => spath ++ component
  | _ => (spath ++ [47]) ++ component
  end.
Definition join_path (components : list bytes) : bytes := fold_left push_component components [].
(** torrent.rs:120-135: one file.  (The components are all read before joining; the code
    joins as it reads, with the same result and the same first error.) *)
Definition parse_file (v : value) : outcome terr torrent_file :=
  let? d := vl (as_dictionary v) in
  let? len_v := vl (get_required d (key "length")) in
  let? path_v := vl (get_required d (key "path")) in
  let? len := vl (as_integer len_v) in
  let? comps_v := vl (as_list path_v) in
  let? comps := collect (fun c => vl (as_string c)) comps_v in
  Ok {| tf_length := len; tf_path := join_path comps |}.
(** torrent.rs:117-137 [parse_files]. *)
Definition parse_files (v : value) : outcome terr (list torrent_file) :=
  let? l := vl (as_list v) in collect parse_file l.
(** torrent.rs:159-166: cutting the piece hashes; fuel is the number of bytes. *)
Fixpoint cut20 (fuel : nat) (d : bytes) : list bytes :=
  match fuel with
  | O => []
  | S fuel => if (20 <=? length d)%nat then firstn 20 d :: cut20 fuel (skipn 20 d) else []
  end.
(** usize addition and multiplication. *)
Definition checked_add (a b : N) : outcome terr N := if two64 <=? a + b then Panic else Ok (a + b).
Definition checked_mul {E} (a b : N) : outcome E N := if two64 <=? a * b then Panic else Ok (a * b).
(** torrent.rs:173-176. *)
Fixpoint sum_lengths (acc : N) (l : list torrent_file) : outcome terr N :=
  match l with
  | [] => Ok acc
  | f :: t => let? acc := checked_add acc (tf_length f) in sum_lengths acc t
  end.

(** torrent.rs:139-193 [from_bytes]. *)
Definition from_bytes (sha1 : bytes -> bytes) (data : bytes) : outcome terr torrent :=
  let? v := map_err TParse (parse data) in
  let? root := vl (as_dictionary v) in
  let? info_v := vl (get_required root (key "info")) in
  let? info := vl (as_dictionary info_v) in
  let? name_v := vl (get_required info (key "name")) in
  let? name := vl (as_string name_v) in
  let? al_v := vl (get_required root (key "announce-list")) in
  let? groups := parse_announce_list al_v in
  let? files_v := vl (get_required info (key "files")) in
  let? files := parse_files files_v in
  let? pl_v := vl (get_required info (key "piece length")) in
  let? piece_length := vl (as_integer pl_v) in
  let? ps_v := vl (get_required info (key "pieces")) in
  let? pieces_data := vl (as_byte_string ps_v) in
  if negb (blen pieces_data mod 20 =? 0) then Err (TPiecesNotMultiple (blen pieces_data))
  else
    let pieces := cut20 (length pieces_data) pieces_data in
    let? info_bytes := index_range data (l_start (fst info)) (l_end (fst info)) in
    let? total := sum_lengths 0 files in
    let? room := checked_mul piece_length (N.of_nat (length pieces)) in
    if room <? total then Err TNotEnoughPieces
    else Ok {| t_info_hash := sha1 info_bytes; t_name := name; t_tracker_groups := groups;
               t_files := files; t_piece_length := piece_length; t_pieces := pieces;
               t_total_length := total |}.

(** torrent.rs:91-100 [last_piece_length]. *)
Definition last_piece_length (t : torrent) : outcome terr N :=
  match t_pieces t with
  | [] => Ok (t_total_length t)
  | _ =>
    let? all_but_last := checked_mul (t_piece_length t) (N.of_nat (length (t_pieces t) - 1)) in
    if t_total_length t <? all_but_last then Panic else Ok (t_total_length t - all_but_last)
  end.

(** data.rs:3-5 [BitField]; 8-16 [new]. *)
Definition bitfield := list bool.
Definition bf_new (size : nat) : bitfield := repeat false size.
(** data.rs:18-26 [num_set], 28-36 [num_clear]. *)
Fixpoint num_set (b : bitfield) : nat :=
  match b with [] => O | h :: t => if h then S (num_set t) else num_set t end.
Fixpoint num_clear (b : bitfield) : nat :=
  match b with [] => O | h :: t => if negb h then S (num_clear t) else num_clear t end.
(** data.rs:39-51: the loop of [update_from_bytes]; [i] is the index of the first of the
    remaining entries. *)
Fixpoint update_from (i : nat) (entries : bitfield) (bs : bytes) : bitfield :=
  match entries with
  | [] => []
  | e :: t =>
    let byte_index := (i / 8)%nat in
    let bit_index := (i mod 8)%nat in
    match nth_error bs byte_index with
    | None => e :: t
    | Some b =>
      negb (N.land b (N.shiftl 1 (N.of_nat (7 - bit_index))) =? 0) :: update_from (S i) t bs
    end
  end.
(** data.rs:38-52 [update_from_bytes]. *)
Definition update_from_bytes (entries : bitfield) (bs : bytes) : bitfield := update_from 0 entries bs.
