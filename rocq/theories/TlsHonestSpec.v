(** Small specification for C113: a transport without failures. *)
From Verif Require Import Base MplexModel TlsRecordModel TlsClientModel TlsClientSpec.

(** What it delivers is never empty (that would be the end of the stream) and no error. *)
Definition healthy_in (a : answer) : Prop := match a with APending | ARead (_ :: _) => True | _ => False end.
(** It takes bytes, or is not ready. *)
Definition healthy_out (a : wanswer) : Prop := match a with WPending | WOk _ => True | WError _ => False end.
Definition steady (polls : list (list answer * list wanswer)) : Prop := Forall (fun p => Forall healthy_in (fst p) /\ Forall healthy_out (snd p)) polls.
(** It takes something each time. *)
Definition eager_out (a : wanswer) : Prop := match a with WOk (S _) => True | _ => False end.
(** The size of a message authentication code. *)
Definition hmac_ok (P : primitives) : Prop := forall h k d, length (hmac P h k d) = byte_len h.
