(** Small specification for ASN.1 values: C46-C49. *)
From Verif Require Import Base BinaryModel Asn1Model.

(** A tree without its byte ranges. *)
Fixpoint erase (i : item) : item :=
  let (_, _, v) := i in
  Item 0 0 match v with
  | VSequence l => VSequence (map erase l)
  | VSet l => VSet (map erase l)
  | VApplication t i => VApplication t (erase i)
  | VContextSpecific t i => VContextSpecific t (erase i)
  | VPrivate t i => VPrivate t (erase i)
  | v => v
  end.
(** The same tree with every Boolean false. *)
Fixpoint drop_true (i : item) : item :=
  let (s, e, v) := i in
  Item s e match v with
  | VBoolean _ => VBoolean false
  | VSequence l => VSequence (map drop_true l)
  | VSet l => VSet (map drop_true l)
  | VApplication t i => VApplication t (drop_true i)
  | VContextSpecific t i => VContextSpecific t (drop_true i)
  | VPrivate t i => VPrivate t (drop_true i)
  | v => v
  end.
(** Every node satisfies [p]. *)
Fixpoint every (p : value -> Prop) (i : item) : Prop :=
  let fix all (l : list item) : Prop := match l with [] => True | i :: t => every p i /\ all t end in
  let (_, _, v) := i in
  p v /\
  match v with
  | VSequence l | VSet l => all l
  | VApplication _ i | VContextSpecific _ i | VPrivate _ i => every p i
  | _ => True
  end.
(** An object identifier that X.690's encoding of the first two arcs can tell apart when the
    second arc is taken to be below 40, with 64-bit arcs. *)
Definition oid_ok (arcs : list N) : Prop :=
  match arcs with
  | a :: b :: rest => b < 40 /\ a * 40 + b < two64 /\ Forall (fun x => x < two64) rest
  | [] => True
  | _ => False
  end.
(** Values of the Rust types whose text is UTF-8 and whose object identifiers are as above. *)
Definition node_ok (v : value) : Prop :=
  match v with
  | VInteger d | VOctetString d => bytes_ok d
  | VBitString u d => u < 256 /\ bytes_ok d
  | VOid arcs => oid_ok arcs
  | VPrintableString s | VUtf8String s | VUtcTime s | VGeneralizedTime s => utf8_valid s = true
  | _ => True
  end.
Definition not_true (v : value) : Prop := v <> VBoolean true.
(** What the writer refuses. *)
Definition writable (v : value) : Prop :=
  match v with
  | VApplication t _ | VContextSpecific t _ | VPrivate t _ => t <= 30
  | VUnknown _ _ => False
  | VOid (a :: b :: _) => a * 40 + b < two64
  | _ => True
  end.
(** X.690 8.1.3: the definite forms of a length, short or long in up to four octets. *)
Definition length_form (s : bytes) (n : N) : Prop :=
  (s = [n] /\ n < 128) \/
  (exists d, s = 128 + blen d :: d /\ 1 <= blen d <= 4 /\ n = of_be_bytes d).
(** Byte ranges: the children of a list tile the parent's contents, the child of a tagged
    value is inside it. *)
Fixpoint well_placed (i : item) : Prop :=
  let (s, e, v) := i in
  let fix tile (c : nat) (l : list item) : Prop :=
    match l with
    | [] => c = e
    | j :: t => item_start j = c /\ well_placed j /\ tile (item_stop j) t
    end in
  (s + 2 <= e)%nat /\
  match v with
  | VSequence l | VSet l => exists c, (s + 2 <= c)%nat /\ tile c l
  | VApplication _ j | VContextSpecific _ j | VPrivate _ j => (s + 2 <= item_start j)%nat /\ (item_stop j <= e)%nat /\ well_placed j
  | _ => True
  end.
