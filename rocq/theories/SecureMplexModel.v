(** The stack of the program ipfs: an mplex connection whose transport is a TLS connection
    (bin/ipfs.rs:204-224: [establish_connection], the negotiations over it, then
    [Mplex::new(Box::pin(conn))]). *)
From Verif Require Import Base MplexModel TlsCodesModel TlsTypesModel TlsRecordModel TlsClientModel.
Ltac Zify.zify_post_hook ::= Z.div_mod_to_equations.

(** tls/error.rs:42-50 [From<TLSError> for io::Error]: I/O errors keep their kind, an
    unexpected end is [UnexpectedEof], all others are of kind [Other] (code 0 here; they
    carry the TLS error, which mplex does not look at). *)
Definition io_of (e : tls_error) : ioerr :=
  match e with TIo kind => kind | TUnexpectedEOF => UnexpectedEof | _ => OtherIo 0 end.
(** client.rs:1026-1050, 1052-1080, 1082-1099: what [poll_read], [poll_write] and [poll_flush]
    of the connection tell their caller, as the answer of a transport.  A panic is no answer:
    it ends the task.  A flush that is done is any [WOk], as in [poll_drain]. *)
Definition read_answer (x : poll (tls bytes)) : option answer :=
  match x with Wait => Some APending | Done (Ok d) => Some (ARead d) | Done (Err e) => Some (AError (io_of e)) | Done Panic => None end.
Definition write_answer (x : poll (tls nat)) : option wanswer :=
  match x with Wait => Some WPending | Done (Ok n) => Some (WOk n) | Done (Err e) => Some (WError (io_of e)) | Done Panic => None end.
Definition flush_answer (x : poll (tls unit)) : option wanswer :=
  match x with Wait => Some WPending | Done (Ok _) => Some (WOk 0) | Done (Err e) => Some (WError (io_of e)) | Done Panic => None end.
(** frame.rs:185-188: the buffer with which [poll_read_frame] reads from the transport. *)
Definition frame_room : nat := N.to_nat 1024.
