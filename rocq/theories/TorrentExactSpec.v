(** Small specification for C126: what makes a file a torrent. *)
From Verif Require Import Base BencodeModel BencodeSpec TorrentModel TorrentProps.

(** An entry of a dictionary as it is written. *)
Record written := { w_key_text : bytes; w_key : bytes; w_text : bytes; w_value : bval }.
Definition entry_text (w : written) : bytes := w_key_text w ++ w_text w.
Definition entry_good (w : written) : Prop :=
  bstring (w_key_text w) (w_key w) /\ utf8_valid (w_key w) = true /\ ben (w_text w) (w_value w).
Definition dict_text (s : bytes) (l : list written) : Prop :=
  s = [100] ++ concat (map entry_text l) ++ [101] /\ Forall entry_good l.
(** [x] is the text of the value of key [k] in the dictionary with text [s]: of the last entry
    of that key. *)
Definition last_written (s k x : bytes) (b : bval) : Prop :=
  exists l1 w l2, dict_text s (l1 ++ w :: l2) /\ w_key w = k /\ w_text w = x /\ w_value w = b /\ ~ In k (map w_key l2).

(** The file [d] begins with a bencoded dictionary with all that a torrent needs, and [t] is
    what it says. *)
Definition fields (sha1 : bytes -> bytes) (d : bytes) (t : torrent) : Prop :=
  exists s post root info info_bytes file_vals,
    d = s ++ post /\ ben s (BDict root) /\
    entry root "info" (BDict info) /\ last_written s (ascii_bytes "info") info_bytes (BDict info) /\ t_info_hash t = sha1 info_bytes /\
    entry info "name" (BBytes (t_name t)) /\ utf8_valid (t_name t) = true /\
    entry root "announce-list" (BList (map (fun g => BList (map BBytes g)) (t_tracker_groups t))) /\
    Forall (Forall (fun u => utf8_valid u = true)) (t_tracker_groups t) /\
    entry info "files" (BList file_vals) /\ Forall2 describes_file file_vals (t_files t) /\
    entry info "piece length" (BInt (t_piece_length t)) /\
    entry info "pieces" (BBytes (concat (t_pieces t))) /\ Forall (fun p => length p = 20%nat) (t_pieces t) /\
    t_total_length t = total_of (t_files t).
(** What the pieces can hold. *)
Definition room (t : torrent) : N := t_piece_length t * N.of_nat (length (t_pieces t)).
