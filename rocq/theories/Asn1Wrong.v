(** Small specification for C137: why bytes do not begin with an ASN.1 item, beside the grammar
    of Asn1Grammar.v: which fault a reader from left to right meets first, and at which place. *)
From Coq Require Import String.
From Verif Require Import Base BinaryModel Asn1Model Asn1Spec Asn1Grammar.
Local Open Scope string_scope. Local Open Scope list_scope. Local Open Scope N_scope.

(** The universal types, whether they are constructed, and what they are called. *)
Definition form_names : list (N * bool * string) :=
  [(1, false, "Boolean"); (2, false, "Integer"); (3, false, "BitString"); (4, false, "Octet string");
   (5, false, "Null"); (6, false, "Object identifier"); (12, false, "UTF8String"); (16, true, "Sequence");
   (17, true, "Set"); (19, false, "PrintableString"); (23, false, "UTCTime"); (24, false, "GeneralizedTime")].
(** [bad_length at s e]: the bytes [s], which are at the place [at], do not begin with a length. *)
Inductive bad_length (at_ : nat) : bytes -> berr -> Prop :=
| bl_nothing : bad_length at_ [] (BUnexpectedEOF at_ 1)
| bl_reserved s : bad_length at_ (255 :: s) (BPlain "noctets is 127")
| bl_indefinite s : bad_length at_ (128 :: s) (BPlain "Unsupported: Indefinite form")
| bl_large b s : 132 < b < 255 -> bad_length at_ (b :: s) (BPlain "noctets cannot fit in u32")
| bl_cut k s : 1 <= k <= 4 -> blen s < k -> bad_length at_ (128 + k :: s) (BUnexpectedEOF (at_ + 1 + List.length s) 1).
(** [wrong at s e]: [s] does not begin with an item, because of [e].  [wrongs]: it is not a list
    of items.  [unfit at first c e]: [c] are not contents of the type [first]. *)
Inductive wrong : nat -> bytes -> berr -> Prop :=
| wrong_nothing a : wrong a [] (BUnexpectedEOF a 1)
| wrong_tag a b s : b mod 32 = 31 -> wrong a (b :: s) (BPlain "Unsupported: tag >= 31")
| wrong_length a b s e : b mod 32 <> 31 -> bad_length (a + 1) s e -> wrong a (b :: s) e
| wrong_cut a b len n s : b mod 32 <> 31 -> length_form len n -> blen s < n ->
    wrong a (b :: len ++ s) (BUnexpectedEOF (a + 1 + List.length len) n)
| wrong_contents a b len c post e : length_form len (blen c) -> unfit (a + 1 + List.length len) b c e ->
    wrong a (b :: len ++ c ++ post) e
with wrongs : nat -> bytes -> berr -> Prop :=
| wrongs_here a s e : s <> [] -> wrong a s e -> wrongs a s e
| wrongs_later a s i d e : der s i -> wrongs (a + List.length s) d e -> wrongs a (s ++ d) e
with unfit : nat -> N -> bytes -> berr -> Prop :=
| unfit_form a t (constructed : bool) name c : In (t, constructed, name) form_names ->
    unfit a (if constructed then t else 32 + t) c (BPlain (name ++ ": incorrect form"))
| unfit_boolean_length a c : List.length c <> 1%nat -> unfit a 1 c (BPlain "Boolean: incorrect length")
| unfit_boolean a v : v <> 0 -> v <> 255 -> unfit a 1 [v] (BPlain "Boolean value must be all zeros or ones")
| unfit_bits a : unfit a 3 [] (BUnexpectedEOF a 1)
| unfit_null a c : c <> [] -> unfit a 5 c (BPlain "Null: incorrect length")
| unfit_oid a d parts tail : parts_form d parts -> tail <> [] -> Forall (fun b => 128 <= b) tail ->
    unfit a 6 (d ++ tail) (BUnexpectedEOF (a + List.length (d ++ tail)) 1)
| unfit_text a t c : In t [12; 19; 23; 24] -> utf8_valid c = false -> unfit a t c BInvalidUTF8
| unfit_list a t c e : In t [48; 49] -> wrongs a c e -> unfit a t c e
| unfit_tagged a c tag s e : c <> CUniversal -> tag <= 30 -> wrong a s e -> unfit a (64 * class_no c + 32 + tag) s e.
Scheme wrong_mind := Minimality for wrong Sort Prop with wrongs_mind := Minimality for wrongs Sort Prop with unfit_mind := Minimality for unfit Sort Prop.
Combined Scheme wrong_mutind from wrong_mind, wrongs_mind, unfit_mind.
