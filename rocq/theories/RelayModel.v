(** Model of the programs that pass bytes between sockets: src/bin/proxy.rs, src/bin/server.rs
    (the echo server), src/bin/sock.rs and the connection of src/bin/iotest.rs.

    A socket is what its other side will send from now on and what it has accepted so far;
    which part of it a read finds, and how much of a buffer a single write takes, is up to
    the system, so every program is a step relation (the tasks interleave freely between
    their [await]s).  Simplifications: what is printed is left out, a sleep lasts any time,
    the byte counters are unbounded. *)
From Verif Require Import Base.

(** *** proxy.rs *)
(** Why [proxy_loop] returned. *)
Inductive ending := AtEof | ReadError | WriteError.
(** Where [proxy_loop] is: awaiting [read] (63), in [write_all] (76), in [sleep] (89), or
    returned. *)
Inductive place := Reading | Writing | Sleeping | Ended (e : ending).
(** One call of [proxy_loop]: bytes not yet read, bytes of the buffer not yet written, bytes
    the writer took; [total_read], [total_written]; the number of bytes of the current
    [write_all]. *)
Record pipe := { p_todo : bytes; p_buf : bytes; p_out : bytes; p_read : N; p_written : N; p_block : N; p_place : place }.
Definition pipe_new (input : bytes) : pipe :=
  {| p_todo := input; p_buf := []; p_out := []; p_read := 0; p_written := 0; p_block := 0; p_place := Reading |}.
Definition set_place (p : pipe) (x : place) : pipe :=
  {| p_todo := p_todo p; p_buf := p_buf p; p_out := p_out p; p_read := p_read p; p_written := p_written p; p_block := p_block p; p_place := x |}.
(** proxy.rs:72-76: [d] was read, the rest is still to come. *)
Definition got (p : pipe) (d rest : bytes) : pipe :=
  {| p_todo := rest; p_buf := d; p_out := p_out p; p_read := p_read p + blen d; p_written := p_written p; p_block := blen d; p_place := Writing |}.
(** A write inside [write_all] took [d]. *)
Definition took (p : pipe) (d rest : bytes) : pipe :=
  {| p_todo := p_todo p; p_buf := rest; p_out := p_out p ++ d; p_read := p_read p; p_written := p_written p; p_block := p_block p; p_place := Writing |}.
(** proxy.rs:81-90: [write_all] is done. *)
Definition wrote (delay : N) (p : pipe) : pipe :=
  {| p_todo := p_todo p; p_buf := p_buf p; p_out := p_out p; p_read := p_read p; p_written := p_written p + p_block p; p_block := 0;
     p_place := if 0 <? delay then Sleeping else Reading |}.
(** proxy.rs:58-94 [proxy_loop] with a buffer of [size] bytes. *)
Inductive pipe_step (size : nat) (delay : N) (p : pipe) : pipe -> Prop :=
| step_read d rest : p_place p = Reading -> p_todo p = d ++ rest -> d <> [] -> (length d <= size)%nat -> pipe_step size delay p (got p d rest)
| step_eof : p_place p = Reading -> p_todo p = [] \/ size = O -> pipe_step size delay p (set_place p (Ended AtEof))
| step_read_error : p_place p = Reading -> pipe_step size delay p (set_place p (Ended ReadError))
| step_write d rest : p_place p = Writing -> p_buf p = d ++ rest -> d <> [] -> pipe_step size delay p (took p d rest)
| step_write_error : p_place p = Writing -> p_buf p <> [] -> pipe_step size delay p (set_place p (Ended WriteError))
| step_wrote : p_place p = Writing -> p_buf p = [] -> pipe_step size delay p (wrote delay p)
| step_woke : p_place p = Sleeping -> pipe_step size delay p (set_place p Reading).
(** proxy.rs:17-37 [Opt]. *)
Record proxy_opt := { o_read_size : option nat; o_read_delay : option N; o_write_size : option nat; o_write_delay : option N }.
(** proxy.rs:39-40. *)
Definition default_buf_size : nat := 4096.
Definition or_default {A} (o : option A) (d : A) : A := match o with Some a => a | None => d end.
Definition up_size (o : proxy_opt) : nat := or_default (o_read_size o) default_buf_size.
Definition up_delay (o : proxy_opt) : N := or_default (o_read_delay o) 0.
Definition down_size (o : proxy_opt) : nat := or_default (o_write_size o) default_buf_size.
Definition down_delay (o : proxy_opt) : N := or_default (o_write_delay o) 0.
(** A connection: the two spawned loops, client to server and server to client. *)
Record proxied := { c_up : pipe; c_down : pipe }.
(** proxy.rs:96-143 [main]; once it has returned the runtime is gone and with it every task. *)
Record proxy := { x_conns : list proxied; x_running : bool }.
Definition proxy_new : proxy := {| x_conns := []; x_running := true |}.
Fixpoint set_nth {A} (n : nat) (x : A) (l : list A) : list A :=
  match n, l with
  | _, [] => []
  | O, _ :: t => x :: t
  | S n, y :: t => y :: set_nth n x t
  end.
(** A step; the label is, for a new connection, what the client and the server will send. *)
Inductive proxy_step (o : proxy_opt) (x : proxy) : option (bytes * bytes) -> proxy -> Prop :=
| proxy_accept client server : x_running x = true ->
    proxy_step o x (Some (client, server)) {| x_conns := x_conns x ++ [{| c_up := pipe_new client; c_down := pipe_new server |}]; x_running := true |}
| proxy_fails : x_running x = true ->   (* [accept] or [connect] returned an error: the [?]s of [main] *)
    proxy_step o x None {| x_conns := x_conns x; x_running := false |}
| proxy_up i c u : x_running x = true -> nth_error (x_conns x) i = Some c -> pipe_step (up_size o) (up_delay o) (c_up c) u ->
    proxy_step o x None {| x_conns := set_nth i {| c_up := u; c_down := c_down c |} (x_conns x); x_running := true |}
| proxy_down i c d : x_running x = true -> nth_error (x_conns x) i = Some c -> pipe_step (down_size o) (down_delay o) (c_down c) d ->
    proxy_step o x None {| x_conns := set_nth i {| c_up := c_up c; c_down := d |} (x_conns x); x_running := true |}.

(** *** server.rs *)
(** Where the task of a connection is: awaiting [read] (80); before the first lock (84);
    in [write_all] (94); before the second lock (99); returned; panicked in an [expect]. *)
Inductive eplace := EReading | EGot (n : N) | EWriting (n : N) | EWritten (n : N) | EReturned | EPanicked.
Record econn := { e_todo : bytes; e_buf : bytes; e_out : bytes; e_place : eplace }.
Definition econn_new (input : bytes) : econn := {| e_todo := input; e_buf := []; e_out := []; e_place := EReading |}.
Definition eplaced (c : econn) (x : eplace) : econn := {| e_todo := e_todo c; e_buf := e_buf c; e_out := e_out c; e_place := x |}.
(** server.rs:33-42 [Stats], and the connections in the order of [accept]. *)
Record echo := { h_received : N; h_sent : N; h_conns : list econn; h_running : bool }.
Definition echo_new : echo := {| h_received := 0; h_sent := 0; h_conns := []; h_running := true |}.
(** server.rs:75: the size of the buffer. *)
Definition echo_size : nat := 1024.
(** server.rs:74-103: a step of the task of one connection: what is added to the two counters,
    and the connection after it.  The [expect]s of 82 and 96 panic outside of the locks, so
    the mutex is never poisoned and the [unwrap]s of 84 and 99 succeed; a panic ends the task
    only. *)
Inductive econn_step (c : econn) : N -> N -> econn -> Prop :=
| echo_read d rest : e_place c = EReading -> e_todo c = d ++ rest -> (d <> [] \/ e_todo c = []) -> (length d <= echo_size)%nat ->
    econn_step c 0 0 {| e_todo := rest; e_buf := d; e_out := e_out c; e_place := EGot (blen d) |}
| echo_read_error : e_place c = EReading -> econn_step c 0 0 (eplaced c EPanicked)
| echo_count n : e_place c = EGot n -> econn_step c n 0 (eplaced c (if n =? 0 then EReturned else EWriting n))
| echo_write n d rest : e_place c = EWriting n -> e_buf c = d ++ rest -> d <> [] ->
    econn_step c 0 0 {| e_todo := e_todo c; e_buf := rest; e_out := e_out c ++ d; e_place := EWriting n |}
| echo_write_error n : e_place c = EWriting n -> e_buf c <> [] -> econn_step c 0 0 (eplaced c EPanicked)
| echo_written n : e_place c = EWriting n -> e_buf c = [] -> econn_step c 0 0 (eplaced c (EWritten n))
| echo_count_sent n : e_place c = EWritten n -> econn_step c 0 n (eplaced c EReading).
(** server.rs:44-106 [main]; the label is, for a new connection, what its client will send. *)
Inductive echo_step (h : echo) : option bytes -> echo -> Prop :=
| echo_accept input : h_running h = true ->
    echo_step h (Some input) {| h_received := h_received h; h_sent := h_sent h; h_conns := h_conns h ++ [econn_new input]; h_running := true |}
| echo_fails : h_running h = true ->
    echo_step h None {| h_received := h_received h; h_sent := h_sent h; h_conns := h_conns h; h_running := false |}
| echo_task i c r s c' : h_running h = true -> nth_error (h_conns h) i = Some c -> econn_step c r s c' ->
    echo_step h None {| h_received := h_received h + r; h_sent := h_sent h + s; h_conns := set_nth i c' (h_conns h); h_running := true |}.

(** *** sock.rs *)
(** sock.rs:17-22 [ServerMode]. *)
Inductive server_mode := ModeRead | ModeWrite | ModeEcho.
(** sock.rs:60-97 [process_connection]: it reads and drops what it read; [mode] is never
    looked at and nothing is written. *)
Record sconn := { k_todo : bytes; k_out : bytes; k_ended : bool }.
Definition sconn_new (input : bytes) : sconn := {| k_todo := input; k_out := []; k_ended := false |}.
Inductive sock_step (mode : server_mode) (size : nat) (c : sconn) : sconn -> Prop :=
| sock_read d rest : k_ended c = false -> k_todo c = d ++ rest -> d <> [] -> (length d <= size)%nat ->
    sock_step mode size c {| k_todo := rest; k_out := k_out c; k_ended := false |}
| sock_eof : k_ended c = false -> k_todo c = [] \/ size = O -> sock_step mode size c {| k_todo := k_todo c; k_out := k_out c; k_ended := true |}
| sock_error : k_ended c = false -> sock_step mode size c {| k_todo := k_todo c; k_out := k_out c; k_ended := true |}.

(** *** iotest.rs *)
(** iotest.rs:97 the text of welcome. *)
Definition welcome : bytes := ascii_bytes "=======" ++ [10] ++ ascii_bytes "Welcome" ++ [10] ++ ascii_bytes "=======" ++ [10].
(** iotest.rs:75-93 [connection_reader] and 95-108 [connection_writer], joined by [process]
    (110-116): what is left to read, what was handed to [on_receive], what the writer took, whether
    the reader and the writer are done. *)
Record iconn := { i_todo : bytes; i_received : bytes; i_out : bytes; i_read_done : bool; i_write_done : bool }.
Definition iconn_new (input : bytes) : iconn := {| i_todo := input; i_received := []; i_out := []; i_read_done := false; i_write_done := false |}.
Inductive iotest_step (c : iconn) : iconn -> Prop :=
| io_read d rest : i_read_done c = false -> i_todo c = d ++ rest -> d <> [] -> (length d <= 1024)%nat ->
    iotest_step c {| i_todo := rest; i_received := i_received c ++ d; i_out := i_out c; i_read_done := false; i_write_done := i_write_done c |}
| io_eof : i_read_done c = false -> i_todo c = [] ->
    iotest_step c {| i_todo := []; i_received := i_received c; i_out := i_out c; i_read_done := true; i_write_done := i_write_done c |}
| io_read_error : i_read_done c = false ->
    iotest_step c {| i_todo := i_todo c; i_received := i_received c; i_out := i_out c; i_read_done := true; i_write_done := i_write_done c |}
| io_write d rest : i_write_done c = false -> welcome = d ++ rest -> (* one [write], which takes any part *)
    iotest_step c {| i_todo := i_todo c; i_received := i_received c; i_out := i_out c ++ d; i_read_done := i_read_done c; i_write_done := true |}
| io_write_error : i_write_done c = false ->
    iotest_step c {| i_todo := i_todo c; i_received := i_received c; i_out := i_out c; i_read_done := i_read_done c; i_write_done := true |}.
