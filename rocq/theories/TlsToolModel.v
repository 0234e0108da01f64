(** Model of src/bin/tls_client.rs: the options, the configuration made from them, and the
    HTTP request over the connection.

    Simplifications: files are their contents ([None]: cannot be read); error texts are left
    out; the address is only passed on; the connection is read as in LpioModel (what its
    [read] will deliver); [test_echo] is not called. *)
From Verif Require Import Base MplexModel LpioModel PemModel CaModel HexDumpModel ChatModel TlsCodesModel TlsTypesModel TlsRecordModel TlsClientModel.
Local Open Scope string_scope. Local Open Scope list_scope. Local Open Scope N_scope.

(** tls_client.rs:27-41 [Opt]: for each file option, the file if the option was given. *)
Record tool_options := { to_ca : option (option bytes); to_cert : option (option bytes); to_key : option (option bytes); to_address : option bytes }.
(** tls_client.rs:48-52, 54-58. *)
Definition read_certificate (o : option (option bytes)) : command (option bytes) :=
  match o with
  | None => GOk None
  | Some file => gbind (read_pem file (ascii_bytes "CERTIFICATE")) (fun d => GOk (Some d))
  end.
(** tls_client.rs:60-73. *)
Definition read_client_key (o : option (option bytes)) : command (option client_key) :=
  match o with
  | None => GOk None
  | Some file =>
    gbind (some_or file) (fun l =>
    match decode_pem l with
    | POk (label, d) _ =>
      if bytes_eqb label (ascii_bytes "RSA PRIVATE KEY") then GOk (Some (CkRsa d))
      else if bytes_eqb label (ascii_bytes "PRIVATE KEY") then GOk (Some (CkEc d))
      else GErr
    | PErr _ => GErr
    | PLoop => GLoop
    end)
  end.
(** tls_client.rs:43-103 [parse_args]. *)
Definition parse_args (o : tool_options) : command config :=
  gbind (read_certificate (to_ca o)) (fun ca =>
  gbind (read_certificate (to_cert o)) (fun cert =>
  gbind (read_client_key (to_key o)) (fun k =>
  let server := match ca with Some c => SaAuthority c | None => SaNone end in
  gbind (match cert, k with
         | Some c, Some k => GOk (CaCertificate c k)
         | Some _, None => GErr
         | None, Some _ => GErr
         | None, None => GOk CaNone
         end) (fun client =>
  GOk {| cf_client := client; cf_server := server; cf_name := None |})))).
(** tls_client.rs:170-180: the configuration the connection is made with, the address and the
    protocols offered. *)
Definition tool_setup (o : tool_options) : command (config * bytes * list bytes) :=
  gbind (parse_args o) (fun c =>
  GOk ({| cf_client := cf_client c; cf_server := cf_server c; cf_name := Some (ascii_bytes "localhost") |},
       match to_address o with Some a => a | None => ascii_bytes "localhost:443" end,
       [ascii_bytes "h2"; ascii_bytes "http/1.1"])).

(** tls_client.rs:154. *)
Definition http_request : bytes :=
  ascii_bytes "GET / HTTP/1.1" ++ [13; 10] ++ ascii_bytes "Host: localhost" ++ [13; 10] ++ ascii_bytes "Connection: close" ++ [13; 10; 13; 10].
(** tls_client.rs:163-165: what is printed for the bytes of one read. *)
Definition print_chunk (d : bytes) : bytes :=
  ascii_bytes "r = " ++ decimal (blen d) ++ [10] ++ ascii_bytes "receive application data =" ++ [10] ++ indent (dump_alternate d) ++ [10].
(** tls_client.rs:156-166: the loop of [test_http]: the result and what is printed. *)
Fixpoint http_loop (fuel : nat) (src : list item) : option (outcome ioerr unit) * bytes :=
  match fuel with
  | O => (None, [])
  | S fuel =>
    match await_read (S (length src)) None (N.to_nat 65536) src with
    | (None, _, _) => (None, [])
    | (Some (Err e), _, _) => (Some (Err e), [])
    | (Some Panic, _, _) => (Some Panic, [])
    | (Some (Ok []), _, _) => (Some (Ok tt), ascii_bytes "received EOF" ++ [10])
    | (Some (Ok d), _, src) => let (r, out) := http_loop fuel src in (r, print_chunk d ++ out)
    end
  end.
(** tls_client.rs:150-168 [test_http]: what is sent, the result, what is printed.  Each round
    takes a byte, so the fuel is enough. *)
Definition test_http (src : list item) : bytes * option (outcome ioerr unit) * bytes :=
  let (r, out) := http_loop (S (length src)) src in (http_request, r, out).
