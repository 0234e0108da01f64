(** Small specification for length-prefixed messages: C42-C44. *)
From Verif Require Import Base VarintModel MplexModel LpioModel.

(** The bytes a reader will deliver; a reader that does not fail. *)
Definition bytes_of (src : list item) : bytes := flat_map (fun i => match i with Byte b => [b] | _ => [] end) src.
Definition clean (src : list item) : Prop := Forall (fun i => match i with Fail _ => False | _ => True end) src.
(** Any reader that delivers exactly [d], in any pieces and with any pauses, and then ends. *)
Definition carries (src : list item) (d : bytes) : Prop := clean src /\ bytes_of src = d.

(** What reading one message from a flat byte string gives, and how many bytes it takes. *)
Definition flat_varint (data : bytes) : outcome ioerr (option N) * nat :=
  match feed decoder_new data with
  | (Finished v, n) => (Ok (Some v), n)
  | (DOverflow, n) => (Err InvalidData, n)
  | (Pending, _) => (match data with [] => Ok None | _ => Err UnexpectedEof end, length data)
  end.
Definition flat_message (data : bytes) : outcome ioerr (option bytes) * bytes :=
  match flat_varint data with
  | (Ok (Some len), n) =>
    let rest := skipn n data in
    if len <=? blen rest then (Ok (Some (firstn (N.to_nat len) rest)), skipn (N.to_nat len) rest)
    else (Err UnexpectedEof, [])
  | (Ok None, n) => (Ok None, skipn n data)
  | (Err e, n) => (Err e, skipn n data)
  | (Panic, n) => (Panic, skipn n data)
  end.
(** An application that reads messages until the end or an error. *)
Fixpoint read_all (fuel : nat) (src : list item) : list bytes * option (outcome ioerr unit) :=
  match fuel with
  | O => ([], None)
  | S fuel =>
    match read_opt_message None src with
    | (Some (Ok (Some m)), _, src) => let (l, r) := read_all fuel src in (m :: l, r)
    | (Some (Ok None), _, _) => ([], Some (Ok tt))
    | (Some (Err e), _, _) => ([], Some (Err e))
    | (Some Panic, _, _) => ([], Some Panic)
    | (None, _, _) => ([], None)
    end
  end.
