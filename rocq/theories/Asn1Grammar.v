(** Small specification for C90 and C91: which bytes are an item, and which item, written down
    as a grammar over byte strings, without readers or offsets. *)
From Verif Require Import Base BinaryModel Asn1Model Asn1Spec.

(** A number in base 128: the top bit is set in all bytes but the last. *)
Definition base128 (s : bytes) : N := fold_left (fun a b => a * 128 + b mod 128) s 0.
Definition arc_form (s : bytes) : Prop := exists init last, s = init ++ [last] /\ Forall (fun b => 128 <= b) init /\ last < 128.
(** Numbers one after the other; only 64 bits of each are kept. *)
Inductive parts_form : bytes -> list N -> Prop :=
| parts_nil : parts_form [] []
| parts_cons s d l : arc_form s -> parts_form d l -> parts_form (s ++ d) (base128 s mod two64 :: l).
Definition split_first (parts : list N) : list N :=
  match parts with [] => [] | p :: t => p / 40 :: p mod 40 :: t end.

Definition class_no (c : class) : N := match c with CUniversal => 0 | CApplication => 1 | CContext => 2 | CPrivate => 3 end.
Definition form_no (f : form) : N := match f with FPrimitive => 0 | FConstructed => 1 end.
Definition tagged (c : class) (tag : N) (j : item) : value :=
  match c with CApplication => VApplication tag j | CContext => VContextSpecific tag j | _ => VPrivate tag j end.
Definition known_tags : list N := [1; 2; 3; 4; 5; 6; 12; 16; 17; 19; 23; 24].

(** [der s i]: [s] is the item [i] (without ranges).  [ders]: a list of items.  [holds first c
    v]: the identifier byte [first] and the contents [c] are the value [v]. *)
Inductive der : bytes -> item -> Prop :=
| der_item first len c v : length_form len (blen c) -> holds first c v -> der (first :: len ++ c) (Item 0 0 v)
with ders : bytes -> list item -> Prop :=
| ders_nil : ders [] []
| ders_cons s i d l : der s i -> ders d l -> ders (s ++ d) (i :: l)
with holds : N -> bytes -> value -> Prop :=
| holds_false : holds 1 [0] (VBoolean false)
| holds_true : holds 1 [255] (VBoolean true)
| holds_integer d : holds 2 d (VInteger d)
| holds_bits u d : holds 3 (u :: d) (VBitString u d)
| holds_octets d : holds 4 d (VOctetString d)
| holds_null : holds 5 [] VNull
| holds_oid d parts : parts_form d parts -> holds 6 d (VOid (split_first parts))
| holds_utf8 d : utf8_valid d = true -> holds 12 d (VUtf8String d)
| holds_printable d : utf8_valid d = true -> holds 19 d (VPrintableString d)
| holds_utc d : utf8_valid d = true -> holds 23 d (VUtcTime d)
| holds_generalized d : utf8_valid d = true -> holds 24 d (VGeneralizedTime d)
| holds_sequence d l : ders d l -> holds 48 d (VSequence l)
| holds_set d l : ders d l -> holds 49 d (VSet l)
| holds_tagged c tag s junk j : c <> CUniversal -> tag <= 30 -> der s j -> holds (64 * class_no c + 32 + tag) (s ++ junk) (tagged c tag j)
| holds_other c tag d : c <> CUniversal -> tag <= 30 ->
    holds (64 * class_no c + tag) d (VUnknown {| id_class := c; id_form := FPrimitive; id_tag := tag |} (blen d))
| holds_unknown f tag d : tag <= 30 -> ~ In tag known_tags ->
    holds (32 * form_no f + tag) d (VUnknown {| id_class := CUniversal; id_form := f; id_tag := tag |} (blen d)).
Scheme der_mind := Minimality for der Sort Prop with ders_mind := Minimality for ders Sort Prop with holds_mind := Minimality for holds Sort Prop.
Combined Scheme der_mutind from der_mind, ders_mind, holds_mind.
