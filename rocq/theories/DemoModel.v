(** Model of the small concurrent programs src/bin/threads.rs, src/bin/manual_futures.rs,
    src/bin/select_test.rs and src/bin/udptest.rs.

    [String::from_utf8_lossy] is a parameter; sleeping only delays, so any thread may move at
    any time.  Binding a socket succeeds. *)
From Verif Require Import Base UtilModel ChatModel BencodePathModel.
Local Open Scope string_scope. Local Open Scope list_scope. Local Open Scope N_scope.

(** ** threads.rs *)
(** threads.rs:17-22 and 31-36: what the two threads send. *)
Definition words_one : list bytes := map ascii_bytes ["hi"; "from"; "the"; "thread"].
Definition words_two : list bytes := map ascii_bytes ["more"; "messages"; "for"; "you"].
(** The two threads with the words still to be sent ([None]: ended, its sender dropped), the
    channel, what was printed, and whether [main] has ended. *)
Record threads := { th_one : option (list bytes); th_two : option (list bytes); th_queue : list bytes; th_out : bytes; th_over : bool }.
(** threads.rs:12-41: both senders are moved into the threads. *)
Definition threads_init (one two : list bytes) : threads := {| th_one := Some one; th_two := Some two; th_queue := []; th_out := []; th_over := false |}.
(** threads.rs:44-46. *)
Definition got (w : bytes) : bytes := ascii_bytes "Got: " ++ w ++ [10].
(** threads.rs:24-27, 38-41 (sending; it could fail only after the receiver is gone, which
    happens after both senders are) and 44-46 (receiving; the loop ends when the channel is
    empty and has no senders). *)
Inductive thstep : threads -> threads -> Prop :=
| t_one w ws two q o : thstep {| th_one := Some (w :: ws); th_two := two; th_queue := q; th_out := o; th_over := false |} {| th_one := Some ws; th_two := two; th_queue := q ++ [w]; th_out := o; th_over := false |}
| t_one_ends two q o : thstep {| th_one := Some []; th_two := two; th_queue := q; th_out := o; th_over := false |} {| th_one := None; th_two := two; th_queue := q; th_out := o; th_over := false |}
| t_two w ws one q o : thstep {| th_one := one; th_two := Some (w :: ws); th_queue := q; th_out := o; th_over := false |} {| th_one := one; th_two := Some ws; th_queue := q ++ [w]; th_out := o; th_over := false |}
| t_two_ends one q o : thstep {| th_one := one; th_two := Some []; th_queue := q; th_out := o; th_over := false |} {| th_one := one; th_two := None; th_queue := q; th_out := o; th_over := false |}
| t_receive one two w q o : thstep {| th_one := one; th_two := two; th_queue := w :: q; th_out := o; th_over := false |} {| th_one := one; th_two := two; th_queue := q; th_out := o ++ got w; th_over := false |}
| t_end o : thstep {| th_one := None; th_two := None; th_queue := []; th_out := o; th_over := false |} {| th_one := None; th_two := None; th_queue := []; th_out := o; th_over := true |}.
Inductive thruns (x : threads) : threads -> Prop := th_here : thruns x x | th_next y z : thruns x y -> thstep y z -> thruns x z.

(** ** manual_futures.rs *)
(** The two joined futures: the count, whether the producer has ended, what the consumer got,
    the text printed. *)
Record joined := { j_count : N; j_produced : bool; j_result : option N; j_out : bytes }.
(** manual_futures.rs:71-79. *)
Definition joined_init : joined := {| j_count := 0; j_produced := false; j_result := None; j_out := [] |}.
(** manual_futures.rs:19-31: the producer is polled; [ticks] is how many of its sleeps are over
    before one is not. *)
Fixpoint poll_producer (ticks : nat) (j : joined) : joined :=
  if j_produced j then j
  else match ticks with
       | O => j
       | S ticks =>
         let count := j_count j + 1 in
         poll_producer ticks {| j_count := count; j_produced := 10 <=? count; j_result := j_result j;
                                j_out := j_out j ++ ascii_bytes "producer: count = " ++ decimal count ++ [10] |}
       end.
(** manual_futures.rs:48-68: the consumer is polled.  The waker it stores is used by nobody. *)
Definition poll_consumer (j : joined) : joined :=
  match j_result j with
  | Some _ => j
  | None =>
    let seen := j_out j ++ ascii_bytes "ConsumerFuture::poll: count = " ++ decimal (j_count j) ++ [10] in
    if 5 <=? j_count j
    then {| j_count := j_count j; j_produced := j_produced j; j_result := Some (j_count j); j_out := seen ++ ascii_bytes "consumer: res = " ++ decimal (j_count j) ++ [10] |}
    else {| j_count := j_count j; j_produced := j_produced j; j_result := None; j_out := seen |}
  end.
(** manual_futures.rs:78 [join] polls both futures, the producer first, whenever its task is
    polled, for any reason. *)
Definition poll_join (j : joined) (ticks : nat) : joined := poll_consumer (poll_producer ticks j).
Definition joined_runs (polls : list nat) : joined := fold_left poll_join polls joined_init.
(** The program has ended. *)
Definition join_over (j : joined) : bool := j_produced j && match j_result j with Some _ => true | None => false end.

(** ** select_test.rs *)
(** The two loops of select_test. *)
Inductive mode := Heap | Stack.
(** A socket gives a datagram or an error (its text). *)
Inductive arrival := Datagram (d : bytes) | Fault (text : bytes).
(** What came in on the sockets and was not received yet; whether the loop waits in [await];
    what was printed. *)
Record selecting := { se_one : list arrival; se_two : list arrival; se_waiting : bool; se_out : bytes }.
Definition selecting_init : selecting := {| se_one := []; se_two := []; se_waiting := false; se_out := [] |}.
(** select_test.rs:48-52, 71-92 and 126-156: one datagram is cut to the buffer and printed. *)
Definition receive_text (lossy : bytes -> bytes) (who : string) (a : arrival) : bytes :=
  match a with
  | Datagram d => let data := firstn (N.to_nat 1024) d in
    ascii_bytes who ++ ascii_bytes ": Received " ++ decimal (blen data) ++ ascii_bytes " bytes: " ++ escape_string (lossy data) ++ [10]
  | Fault text => ascii_bytes who ++ ascii_bytes ": Error: " ++ text ++ [10]
  end.
(** What can happen: a datagram arrives at one of the sockets; the loop begins to wait; it
    receives from the first or the second socket. *)
Inductive sevent := ArriveOne (a : arrival) | ArriveTwo (a : arrival) | Begin | TakeOne | TakeTwo.
(** select_test.rs:24-34: [Receiver] polls the first future first.  [select] of the library
    (stack) may poll either first.  The future not chosen is dropped; its socket keeps its
    datagrams, since a pending [recv_from] has taken nothing. *)
Inductive sestep (lossy : bytes -> bytes) (m : mode) : sevent -> selecting -> selecting -> Prop :=
| se_arrive_one a s : sestep lossy m (ArriveOne a) s {| se_one := se_one s ++ [a]; se_two := se_two s; se_waiting := se_waiting s; se_out := se_out s |}
| se_arrive_two a s : sestep lossy m (ArriveTwo a) s {| se_one := se_one s; se_two := se_two s ++ [a]; se_waiting := se_waiting s; se_out := se_out s |}
(** select_test.rs:69 (only the first loop prints this). *)
| se_begin one two out : sestep lossy m Begin {| se_one := one; se_two := two; se_waiting := false; se_out := out |}
    {| se_one := one; se_two := two; se_waiting := true; se_out := match m with Heap => out ++ ascii_bytes "Waiting to receive" ++ [10] | Stack => out end |}
| se_first a one two out : sestep lossy m TakeOne {| se_one := a :: one; se_two := two; se_waiting := true; se_out := out |}
    {| se_one := one; se_two := two; se_waiting := false; se_out := out ++ receive_text lossy "First" a |}
| se_second a one two out : (m = Heap -> one = []) -> sestep lossy m TakeTwo {| se_one := one; se_two := a :: two; se_waiting := true; se_out := out |}
    {| se_one := one; se_two := two; se_waiting := false; se_out := out ++ receive_text lossy "Second" a |}.
Inductive seruns (lossy : bytes -> bytes) (m : mode) (x : selecting) : list sevent -> selecting -> Prop :=
| se_here : seruns lossy m x [] x
| se_next l e y z : seruns lossy m x l y -> sestep lossy m e y z -> seruns lossy m x (l ++ [e]) z.
(** select_test.rs:172-192: the modes on the command line; anything else ends with 1. *)
Definition select_mode (arg : option bytes) : option mode :=
  match arg with
  | Some a => if bytes_eqb a (ascii_bytes "heap") then Some Heap else if bytes_eqb a (ascii_bytes "stack") then Some Stack else None
  | None => None
  end.

(** ** udptest.rs *)
(** udptest.rs:47-52: what the server prints for a datagram. *)
Definition udp_text (lossy : bytes -> bytes) (d : bytes) : bytes :=
  ascii_bytes "Server: Received " ++ [34] ++ lossy (firstn (N.to_nat 1024) d) ++ [34; 10].
(** udptest.rs:43-53 [server]: the text printed after the datagrams received so far. *)
Definition udp_server (lossy : bytes -> bytes) (received : list bytes) : bytes :=
  ascii_bytes "Server: Created socket" ++ [10] ++ flat_map (udp_text lossy) received.
(** udptest.rs:35-41 [client]: the datagram it sends. *)
Definition udp_client : bytes := ascii_bytes "hello".
