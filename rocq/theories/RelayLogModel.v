(** Model of what the programs of RelayModel.v print: src/bin/proxy.rs, src/bin/server.rs,
    src/bin/sock.rs and src/bin/iotest.rs.  The steps are those of RelayModel.v, each with the
    lines it prints.

    Printing is taken to succeed.  The text of an I/O error and that of a socket address are
    any texts; [lossy] is [String::from_utf8_lossy].  Not modelled: reading the command line
    (the library's), what Rust prints for an error returned by [main] or for a panic. *)
From Coq Require Import String Ascii.
From Verif Require Import Base UtilModel ChatModel BencodePathModel DebugModel RelayModel.
Local Open Scope string_scope. Local Open Scope list_scope. Local Open Scope N_scope.

(** *** proxy.rs *)
(** proxy.rs:52-56 [Side]. *)
Inductive side := ClientToServer | ServerToClient.
Definition side_text (s : side) : bytes := match s with ClientToServer => ascii_bytes "ClientToServer" | ServerToClient => ascii_bytes "ServerToClient" end.
(** What [proxy_loop] prints: proxy.rs:65, 69, 74, 78, 83. *)
Inductive psaying := PReadError (e : bytes) | PEof | PRead (n total : N) | PWriteError (e : bytes) | PWrote (n total : N).
Definition psaying_line (s : side) (x : psaying) : bytes :=
  side_text s ++
  match x with
  | PReadError e => ascii_bytes ":  read error: " ++ e
  | PEof => ascii_bytes ":  read eof"
  | PRead n t => ascii_bytes ":  read " ++ decimal n ++ ascii_bytes " bytes (total " ++ decimal t ++ ascii_bytes ")"
  | PWriteError e => ascii_bytes ": write error: " ++ e
  | PWrote n t => ascii_bytes ": wrote " ++ decimal n ++ ascii_bytes " bytes (total " ++ decimal t ++ ascii_bytes ")"
  end.
(** proxy.rs:58-94 [proxy_loop]: the steps of [pipe_step] with what they print. *)
Inductive pipe_says (size : nat) (delay : N) (p : pipe) : list psaying -> pipe -> Prop :=
| says_read d rest : p_place p = Reading -> p_todo p = d ++ rest -> d <> [] -> (length d <= size)%nat ->
    pipe_says size delay p [PRead (blen d) (p_read p + blen d)] (got p d rest)
| says_eof : p_place p = Reading -> p_todo p = [] \/ size = O -> pipe_says size delay p [PEof] (set_place p (Ended AtEof))
| says_read_error e : p_place p = Reading -> pipe_says size delay p [PReadError e] (set_place p (Ended ReadError))
| says_write d rest : p_place p = Writing -> p_buf p = d ++ rest -> d <> [] -> pipe_says size delay p [] (took p d rest)
| says_write_error e : p_place p = Writing -> p_buf p <> [] -> pipe_says size delay p [PWriteError e] (set_place p (Ended WriteError))
| says_wrote : p_place p = Writing -> p_buf p = [] -> pipe_says size delay p [PWrote (p_block p) (p_written p + p_block p)] (wrote delay p)
| says_woke : p_place p = Sleeping -> pipe_says size delay p [] (set_place p Reading).
(** An entry of the log: proxy.rs:108, or a line of the loop of the given side of the
    connection with the given number, which is not printed. *)
Inductive xentry := XGot (addr : bytes) | XSays (i : nat) (s : side) (x : psaying).
Definition xentry_line (x : xentry) : bytes :=
  match x with XGot a => ascii_bytes "Got connection from " ++ a | XSays _ s x => psaying_line s x end.
Definition proxy_text (l : list xentry) : bytes := flat_map (fun x => line (xentry_line x)) l.
(** proxy.rs:96-143 [main]: [lx_wait] is set between [accept] (107) and the end of [connect]
    (112); the other tasks go on in between. *)
Record lproxy := { lx : proxy; lx_wait : bool }.
Definition lproxy_new : lproxy := {| lx := proxy_new; lx_wait := false |}.
Inductive proxy_says (o : proxy_opt) (x : lproxy) : option (bytes * bytes) -> list xentry -> lproxy -> Prop :=
| lx_accept a : x_running (lx x) = true -> lx_wait x = false -> proxy_says o x None [XGot a] {| lx := lx x; lx_wait := true |}
| lx_connect client server : x_running (lx x) = true -> lx_wait x = true ->
    proxy_says o x (Some (client, server)) []
      {| lx := {| x_conns := x_conns (lx x) ++ [{| c_up := pipe_new client; c_down := pipe_new server |}]; x_running := true |}; lx_wait := false |}
| lx_fails : x_running (lx x) = true ->
    proxy_says o x None [] {| lx := {| x_conns := x_conns (lx x); x_running := false |}; lx_wait := lx_wait x |}
| lx_up i c l u : x_running (lx x) = true -> nth_error (x_conns (lx x)) i = Some c -> pipe_says (up_size o) (up_delay o) (c_up c) l u ->
    proxy_says o x None (map (XSays i ClientToServer) l)
      {| lx := {| x_conns := set_nth i {| c_up := u; c_down := c_down c |} (x_conns (lx x)); x_running := true |}; lx_wait := lx_wait x |}
| lx_down i c l d : x_running (lx x) = true -> nth_error (x_conns (lx x)) i = Some c -> pipe_says (down_size o) (down_delay o) (c_down c) l d ->
    proxy_says o x None (map (XSays i ServerToClient) l)
      {| lx := {| x_conns := set_nth i {| c_up := c_up c; c_down := d |} (x_conns (lx x)); x_running := true |}; lx_wait := lx_wait x |}.
(** proxy.rs:97-102: what is printed first, with the derived [Debug] of [Opt] (17-37). *)
Definition doption (o : option N) : dbg := match o with Some n => dtuple "Some" [dnumber n] | None => dtext (ascii_bytes "None") end.
Definition dproxy_opt (o : proxy_opt) (listen server : N) : dbg :=
  dstruct "Opt" [("read_buf_size", doption (option_map N.of_nat (o_read_size o))); ("read_delay_ms", doption (o_read_delay o));
    ("write_buf_size", doption (option_map N.of_nat (o_write_size o))); ("write_delay_ms", doption (o_write_delay o));
    ("listen_port", dnumber listen); ("server_port", dnumber server)].
Definition listening (where_ : bytes) : bytes := line (ascii_bytes "Listening on: " ++ where_).
Definition proxy_opening (o : proxy_opt) (listen server : N) : bytes := line (pretty (dproxy_opt o listen server)) ++ listening (decimal listen).

(** *** server.rs *)
(** server.rs:86 and 101: the line with the two counters. *)
Definition stats_line (x : N * N) : bytes := ascii_bytes "received " ++ decimal (fst x) ++ ascii_bytes ", sent " ++ decimal (snd x).
Definition stats_text (l : list (N * N)) : bytes := flat_map (fun x => line (stats_line x)) l.
(** The steps under the lock (84-87 and 99-102). *)
Definition locks (c : econn) : bool := match e_place c with EGot _ | EWritten _ => true | _ => false end.
(** server.rs:44-106 [main]: the steps of [echo_step] with what they print. *)
Inductive echo_says (h : echo) : option bytes -> list (N * N) -> echo -> Prop :=
| he_accept input : h_running h = true ->
    echo_says h (Some input) [] {| h_received := h_received h; h_sent := h_sent h; h_conns := h_conns h ++ [econn_new input]; h_running := true |}
| he_fails : h_running h = true -> echo_says h None [] {| h_received := h_received h; h_sent := h_sent h; h_conns := h_conns h; h_running := false |}
| he_task i c r s c' : h_running h = true -> nth_error (h_conns h) i = Some c -> econn_step c r s c' ->
    echo_says h None (if locks c then [(h_received h + r, h_sent h + s)] else [])
      {| h_received := h_received h + r; h_sent := h_sent h + s; h_conns := set_nth i c' (h_conns h); h_running := true |}.
(** server.rs:49-57: the first argument or the address of 51. *)
Definition server_opening (arg : option bytes) : bytes := listening (match arg with Some a => a | None => ascii_bytes "127.0.0.1:8080" end).

(** *** sock.rs *)
(** sock.rs:24-34 [ServerMode::from_str] and 35-39 its [Display], which is the derived [Debug]. *)
Definition mode_error : bytes := ascii_bytes "expected one of 'read', 'write', or 'echo'".
Definition parse_mode (s : bytes) : outcome bytes server_mode :=
  if bytes_eqb s (ascii_bytes "read") then Ok ModeRead
  else if bytes_eqb s (ascii_bytes "write") then Ok ModeWrite
  else if bytes_eqb s (ascii_bytes "echo") then Ok ModeEcho
  else Err mode_error.
Definition mode_text (m : server_mode) : bytes :=
  match m with ModeRead => ascii_bytes "Read" | ModeWrite => ascii_bytes "Write" | ModeEcho => ascii_bytes "Echo" end.
(** sock.rs:67, 71, 75. *)
Inductive ksaying := KReadError (e : bytes) | KEof | KRead (n : N).
Definition ksaying_line (x : ksaying) : bytes :=
  match x with
  | KReadError e => ascii_bytes "Read error: " ++ e
  | KEof => ascii_bytes "Read EOF"
  | KRead n => ascii_bytes "Read " ++ decimal n ++ ascii_bytes " bytes"
  end.
Definition sock_text (l : list ksaying) : bytes := flat_map (fun x => line (ksaying_line x)) l.
(** sock.rs:60-97 [process_connection]: the steps of [sock_step] with what they print. *)
Inductive sock_says (mode : server_mode) (size : nat) (c : sconn) : list ksaying -> sconn -> Prop :=
| k_read d rest : k_ended c = false -> k_todo c = d ++ rest -> d <> [] -> (length d <= size)%nat ->
    sock_says mode size c [KRead (blen d)] {| k_todo := rest; k_out := k_out c; k_ended := false |}
| k_eof : k_ended c = false -> k_todo c = [] \/ size = O -> sock_says mode size c [KEof] {| k_todo := k_todo c; k_out := k_out c; k_ended := true |}
| k_error e : k_ended c = false -> sock_says mode size c [KReadError e] {| k_todo := k_todo c; k_out := k_out c; k_ended := true |}.
(** sock.rs:41-55 [Opt] and 101-106. *)
Definition dsock_opt (mode : server_mode) (size delay : option N) (port : N) : dbg :=
  dstruct "Opt" [("mode", dtext (mode_text mode)); ("read_buf_size", doption size); ("read_delay_ms", doption delay); ("port", dnumber port)].
Definition sock_opening (mode : server_mode) (size delay : option N) (port : N) : bytes :=
  line (pretty (dsock_opt mode size delay port)) ++ listening (decimal port).

(** *** iotest.rs *)
(** iotest.rs:80, 84, 56, 88, 100, 103. *)
Inductive isaying := IFinished | IRead (n : N) | IReceived (d : bytes) | IReadError (e : bytes) | IWrote (n : N) | IWriteError (e : bytes).
Definition isaying_line (lossy : bytes -> bytes) (x : isaying) : bytes :=
  match x with
  | IFinished => ascii_bytes "Finished reading"
  | IRead n => ascii_bytes "read " ++ decimal n ++ ascii_bytes " bytes"
  | IReceived d => ascii_bytes "Received: " ++ lossy d
  | IReadError e => ascii_bytes "read error: " ++ e
  | IWrote n => ascii_bytes "wrote " ++ decimal n ++ ascii_bytes " bytes"
  | IWriteError e => ascii_bytes "write error: " ++ e
  end.
Definition iotest_text (lossy : bytes -> bytes) (l : list isaying) : bytes := flat_map (fun x => line (isaying_line lossy x)) l.
(** iotest.rs:75-116: the steps of [iotest_step] with what they print.  The lock of 70 is
    awaited between 84 and 56: [li_held] is what was read and not yet handed on. *)
Record liconn := { li : iconn; li_held : option bytes }.
Definition liconn_new (input : bytes) : liconn := {| li := iconn_new input; li_held := None |}.
Inductive iotest_says (c : liconn) : list isaying -> liconn -> Prop :=
| li_read d rest : i_read_done (li c) = false -> li_held c = None -> i_todo (li c) = d ++ rest -> d <> [] -> (length d <= 1024)%nat ->
    iotest_says c [IRead (blen d)] {| li := li c; li_held := Some d |}
| li_receive d rest : i_read_done (li c) = false -> li_held c = Some d -> i_todo (li c) = d ++ rest ->
    iotest_says c [IReceived d]
      {| li := {| i_todo := rest; i_received := i_received (li c) ++ d; i_out := i_out (li c); i_read_done := false; i_write_done := i_write_done (li c) |}; li_held := None |}
| li_eof : i_read_done (li c) = false -> li_held c = None -> i_todo (li c) = [] ->
    iotest_says c [IFinished] {| li := {| i_todo := []; i_received := i_received (li c); i_out := i_out (li c); i_read_done := true; i_write_done := i_write_done (li c) |}; li_held := None |}
| li_read_error e : i_read_done (li c) = false -> li_held c = None ->
    iotest_says c [IReadError e] {| li := {| i_todo := i_todo (li c); i_received := i_received (li c); i_out := i_out (li c); i_read_done := true; i_write_done := i_write_done (li c) |}; li_held := None |}
| li_write d rest : i_write_done (li c) = false -> welcome = d ++ rest ->
    iotest_says c [IWrote (blen d)] {| li := {| i_todo := i_todo (li c); i_received := i_received (li c); i_out := i_out (li c) ++ d; i_read_done := i_read_done (li c); i_write_done := true |}; li_held := li_held c |}
| li_write_error e : i_write_done (li c) = false ->
    iotest_says c [IWriteError e] {| li := {| i_todo := i_todo (li c); i_received := i_received (li c); i_out := i_out (li c); i_read_done := i_read_done (li c); i_write_done := true |}; li_held := li_held c |}.
(** iotest.rs:130-133. *)
Definition iotest_opening : bytes := listening (ascii_bytes "127.0.0.1:8080").
