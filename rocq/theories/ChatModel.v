(** Model of src/bin/chatserver.rs: any number of connections, each with a reader and a writer
    that run side by side and share the list of connections.

    Simplifications: printing is left out.  A connection is known by its number (each has one
    [Arc], so [Arc::ptr_eq] is equality of numbers).  Text is its UTF-8 bytes; escaping changes
    ASCII characters only, so it may be done on the bytes; [String::from_utf8_lossy] is a
    parameter.  The byte counters are unbounded. *)
From Verif Require Import Base UtilModel.

(** [{}] of a [usize]: the decimal digits.  Fuel: more than the number of digits. *)
Fixpoint decimal_loop (fuel : nat) (n : N) : bytes :=
  match fuel with
  | O => []
  | S fuel => if n <? 10 then [48 + n] else decimal_loop fuel (n / 10) ++ [48 + n mod 10]
  end.
Definition decimal (n : N) : bytes := decimal_loop (S (N.to_nat (N.log2 n))) n.
(** chatserver.rs:97-99: the response. *)
Definition response (lossy : bytes -> bytes) (id : nat) (data : bytes) : bytes :=
  ascii_bytes "Received from " ++ decimal (N.of_nat id) ++ ascii_bytes ": " ++ escape_string (lossy data) ++ [10].

(** chatserver.rs:151-155 [WriterMessage]. *)
Inductive wmessage := MWrite (data : bytes) | MClose.
(** What was put into a channel, for the specification only: by whom, for what. *)
Inductive entry := EFrom (sender : nat) (data : bytes) | EClose.
(** Where a reader is: before [add_connection] (219); waiting to read (160); in [on_receive]
    (87-118) before the first counter, before [get_connections], in the loop of [broadcast]
    with the connections still to do, before the second counter; returned. *)
Inductive rplace := RNew | RIdle | RGot (data : bytes) | RCounted (data : bytes) | RSending (todo : list nat) (data : bytes) | RSent (data : bytes) | REnded.
(** Where a writer is: waiting for the channel (187); in the loop 191-203 with [pos] bytes of the
    data written; returned after [Close] or after an error, which drops the channel. *)
Inductive wplace := WIdle | WWriting (data : bytes) (pos : nat) | WClosed | WFailed.
(** chatserver.rs:130-133 [Connection] with its channel and its tasks.  [c_log] (the pieces read)
    and [c_hist] (all that was put into the channel) are for the specification only. *)
Record conn := { c_queue : list wmessage; c_out : bytes; c_reader : rplace; c_writer : wplace; c_log : list bytes; c_hist : list entry; c_removed : bool }.
(** chatserver.rs:21-25 [StateInner]; connections are numbered from 0 in the order of [accept]. *)
Record server := { s_list : list nat; s_received : N; s_sent : N; s_conn : nat -> conn; s_count : nat }.
Definition conn_new : conn := {| c_queue := []; c_out := []; c_reader := RNew; c_writer := WIdle; c_log := []; c_hist := []; c_removed := false |}.
(** chatserver.rs:56-64 [State::new]. *)
Definition server_new : server := {| s_list := []; s_received := 0; s_sent := 0; s_conn := fun _ => conn_new; s_count := 0 |}.

Definition upd (f : nat -> conn) (k : nat) (c : conn) : nat -> conn := fun i => if (i =? k)%nat then c else f i.
Definition set_conn (s : server) (k : nat) (c : conn) : server :=
  {| s_list := s_list s; s_received := s_received s; s_sent := s_sent s; s_conn := upd (s_conn s) k c; s_count := s_count s |}.
Definition set_reader (c : conn) (p : rplace) : conn :=
  {| c_queue := c_queue c; c_out := c_out c; c_reader := p; c_writer := c_writer c; c_log := c_log c; c_hist := c_hist c; c_removed := c_removed c |}.
Definition set_writer (c : conn) (p : wplace) : conn :=
  {| c_queue := c_queue c; c_out := c_out c; c_reader := c_reader c; c_writer := p; c_log := c_log c; c_hist := c_hist c; c_removed := c_removed c |}.
Definition set_queue (c : conn) (q : list wmessage) : conn :=
  {| c_queue := q; c_out := c_out c; c_reader := c_reader c; c_writer := c_writer c; c_log := c_log c; c_hist := c_hist c; c_removed := c_removed c |}.
Definition write_out (c : conn) (d : bytes) : conn :=
  {| c_queue := c_queue c; c_out := c_out c ++ d; c_reader := c_reader c; c_writer := c_writer c; c_log := c_log c; c_hist := c_hist c; c_removed := c_removed c |}.
Definition add_log (c : conn) (d : bytes) : conn :=
  {| c_queue := c_queue c; c_out := c_out c; c_reader := c_reader c; c_writer := c_writer c; c_log := c_log c ++ [d]; c_hist := c_hist c; c_removed := c_removed c |}.
Definition set_removed (c : conn) : conn :=
  {| c_queue := c_queue c; c_out := c_out c; c_reader := c_reader c; c_writer := c_writer c; c_log := c_log c; c_hist := c_hist c; c_removed := true |}.
(** [tx.send] (tokio): fails, and changes nothing, when the receiver has been dropped; the
    callers ignore the failure. *)
Definition enqueue (c : conn) (m : wmessage) (e : entry) : conn :=
  match c_writer c with
  | WClosed | WFailed => c
  | _ => {| c_queue := c_queue c ++ [m]; c_out := c_out c; c_reader := c_reader c; c_writer := c_writer c; c_log := c_log c; c_hist := c_hist c ++ [e]; c_removed := c_removed c |}
  end.
(** chatserver.rs:33-48 [remove_connection]: the first occurrence. *)
Fixpoint remove_first (k : nat) (l : list nat) : list nat :=
  match l with
  | [] => []
  | x :: t => if (x =? k)%nat then t else x :: remove_first k t
  end.

(** One step of some task. *)
Inductive cstep (lossy : bytes -> bytes) : server -> server -> Prop :=
(** chatserver.rs:240-247: a connection is accepted. *)
| c_accept s : cstep lossy s {| s_list := s_list s; s_received := s_received s; s_sent := s_sent s; s_conn := s_conn s; s_count := Datatypes.S (s_count s) |}
(** chatserver.rs:219, 28-31. *)
| c_add s k : (k < s_count s)%nat -> c_reader (s_conn s k) = RNew ->
    cstep lossy s {| s_list := s_list s ++ [k]; s_received := s_received s; s_sent := s_sent s;
                     s_conn := upd (s_conn s) k (set_reader (s_conn s k) RIdle); s_count := s_count s |}
(** chatserver.rs:166-170: some bytes are read. *)
| c_read s k d : (k < s_count s)%nat -> c_reader (s_conn s k) = RIdle -> d <> [] -> (length d <= 1024)%nat ->
    cstep lossy s (set_conn s k (set_reader (add_log (s_conn s k) d) (RGot d)))
(** chatserver.rs:161-165, 171-175, 120-127: end of file, or an error. *)
| c_end s k : (k < s_count s)%nat -> c_reader (s_conn s k) = RIdle ->
    cstep lossy s (set_conn s k (set_reader (enqueue (s_conn s k) MClose EClose) REnded))
(** chatserver.rs:91-96. *)
| c_count_in s k d : (k < s_count s)%nat -> c_reader (s_conn s k) = RGot d ->
    cstep lossy s {| s_list := s_list s; s_received := s_received s + blen d; s_sent := s_sent s;
                     s_conn := upd (s_conn s) k (set_reader (s_conn s k) (RCounted d)); s_count := s_count s |}
(** chatserver.rs:67, 76-78: the list is copied. *)
| c_snapshot s k d : (k < s_count s)%nat -> c_reader (s_conn s k) = RCounted d ->
    cstep lossy s (set_conn s k (set_reader (s_conn s k) (RSending (s_list s) d)))
(** chatserver.rs:68-73: one round of the loop. *)
| c_send s k j todo d : (k < s_count s)%nat -> c_reader (s_conn s k) = RSending (j :: todo) d ->
    cstep lossy s (let s1 := set_conn s k (set_reader (s_conn s k) (RSending todo d)) in
                   set_conn s1 j (enqueue (s_conn s1 j) (MWrite (response lossy k d)) (EFrom k d)))
| c_all_sent s k d : (k < s_count s)%nat -> c_reader (s_conn s k) = RSending [] d ->
    cstep lossy s (set_conn s k (set_reader (s_conn s k) (RSent d)))
(** chatserver.rs:110-115. *)
| c_count_out s k d : (k < s_count s)%nat -> c_reader (s_conn s k) = RSent d ->
    cstep lossy s {| s_list := s_list s; s_received := s_received s; s_sent := s_sent s + blen (response lossy k d);
                     s_conn := upd (s_conn s) k (set_reader (s_conn s k) RIdle); s_count := s_count s |}
(** chatserver.rs:187-191: the writer takes a message. *)
| c_take s k d q : (k < s_count s)%nat -> c_reader (s_conn s k) <> RNew -> c_writer (s_conn s k) = WIdle -> c_queue (s_conn s k) = MWrite d :: q ->
    cstep lossy s (set_conn s k (set_writer (set_queue (s_conn s k) q) (WWriting d 0)))
(** chatserver.rs:205-208. *)
| c_take_close s k q : (k < s_count s)%nat -> c_reader (s_conn s k) <> RNew -> c_writer (s_conn s k) = WIdle -> c_queue (s_conn s k) = MClose :: q ->
    cstep lossy s (set_conn s k (set_writer (set_queue (s_conn s k) q) WClosed))
(** chatserver.rs:191-196: a write of [n] bytes. *)
| c_write s k d pos n : (k < s_count s)%nat -> c_writer (s_conn s k) = WWriting d pos -> (pos < length d)%nat -> (pos + n <= length d)%nat ->
    cstep lossy s (set_conn s k (set_writer (write_out (s_conn s k) (firstn n (skipn pos d))) (WWriting d (pos + n))))
(** chatserver.rs:191: the loop ends. *)
| c_written s k d pos : (k < s_count s)%nat -> c_writer (s_conn s k) = WWriting d pos -> (length d <= pos)%nat ->
    cstep lossy s (set_conn s k (set_writer (s_conn s k) WIdle))
(** chatserver.rs:197-201: a write fails. *)
| c_fail s k d pos : (k < s_count s)%nat -> c_writer (s_conn s k) = WWriting d pos -> (pos < length d)%nat ->
    cstep lossy s (set_conn s k (set_writer (s_conn s k) WFailed))
(** chatserver.rs:223-226: both have returned. *)
| c_remove s k : (k < s_count s)%nat -> c_reader (s_conn s k) = REnded -> (c_writer (s_conn s k) = WClosed \/ c_writer (s_conn s k) = WFailed) ->
    c_removed (s_conn s k) = false ->
    cstep lossy s {| s_list := remove_first k (s_list s); s_received := s_received s; s_sent := s_sent s;
                     s_conn := upd (s_conn s) k (set_removed (s_conn s k)); s_count := s_count s |}.
Inductive creach (lossy : bytes -> bytes) : server -> Prop :=
| c_start : creach lossy server_new
| c_next s s' : creach lossy s -> cstep lossy s s' -> creach lossy s'.
