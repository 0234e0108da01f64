(** Bencoding, stated on its own: a grammar relating texts and values. *)
From Verif Require Import Base BencodeModel.

(** Values without locations. *)
Inductive bval :=
| BBytes (d : bytes)
| BInt (n : N)
| BList (l : list bval)
| BDict (m : list (bytes * bval)).

(** Decimal numbers: one or more digits, below 2^64; leading zeros are allowed. *)
Definition dec_value (s : bytes) : N := fold_left (fun a c => 10 * a + (c - 48)) s 0.
Definition decimal (s : bytes) (n : N) : Prop :=
  s <> [] /\ Forall (fun c => 48 <= c <= 57) s /\ dec_value s = n /\ n < two64.
(** A byte string: its length, a colon, its bytes. *)
Definition bstring (s d : bytes) : Prop :=
  exists ds, decimal ds (blen d) /\ s = ds ++ [58] ++ d.

(** The map a list of entries denotes: in key order, the last entry for a key counts. *)
Definition last_binding {A} (k : bytes) (b : A) (es : list (bytes * A)) : Prop :=
  exists es1 es2, es = es1 ++ (k, b) :: es2 /\ ~ In k (map fst es2).
Inductive key_sorted {A} : list (bytes * A) -> Prop :=
| ks_nil : key_sorted []
| ks_cons : forall k v m, (forall k' v', In (k', v') m -> bytes_ltb k k' = true) ->
    key_sorted m -> key_sorted ((k, v) :: m).
Definition is_map_of {A} (es m : list (bytes * A)) : Prop :=
  key_sorted m /\ forall k b, In (k, b) m <-> last_binding k b es.

Inductive ben : bytes -> bval -> Prop :=
| ben_int : forall ds n, decimal ds n -> ben ([105] ++ ds ++ [101]) (BInt n)
| ben_bytes : forall s d, bstring s d -> ben s (BBytes d)
| ben_list : forall s l, ben_items s l -> ben ([108] ++ s ++ [101]) (BList l)
| ben_dict : forall s es m, ben_entries s es -> is_map_of es m -> ben ([100] ++ s ++ [101]) (BDict m)
with ben_items : bytes -> list bval -> Prop :=
| bi_nil : ben_items [] []
| bi_cons : forall s1 s2 b l, ben s1 b -> ben_items s2 l -> ben_items (s1 ++ s2) (b :: l)
with ben_entries : bytes -> list (bytes * bval) -> Prop :=
| be_nil : ben_entries [] []
| be_cons : forall ks k s1 s2 b es,
    bstring ks k -> utf8_valid k = true -> ben s1 b -> ben_entries s2 es ->
    ben_entries (ks ++ s1 ++ s2) ((k, b) :: es).

(** Forgetting locations. *)
Fixpoint strip (v : value) : bval :=
  match v with
  | VBytes _ d => BBytes d
  | VInt _ n => BInt n
  | VList _ l => BList (map strip l)
  | VDict _ m => BDict (map (fun e => (fst e, strip (snd e))) m)
  end.

(** [child w v]: [w] is an item or an entry of [v]; [subvalue w v]: at any depth, or [v]. *)
Definition child (w v : value) : Prop :=
  match v with
  | VList _ l => In w l
  | VDict _ m => exists k, In (k, w) m
  | _ => False
  end.
Inductive subvalue : value -> value -> Prop :=
| sub_refl : forall v, subvalue v v
| sub_step : forall u w v, subvalue u w -> child w v -> subvalue u v.

(** The bytes of a location. *)
Definition slice (d : bytes) (l : location) : bytes :=
  firstn (l_end l - l_start l) (skipn (l_start l) d).
Definition inside (inner outer : location) : Prop :=
  (l_start outer <= l_start inner /\ l_start inner <= l_end inner /\ l_end inner <= l_end outer)%nat.

(** The canonical encoding of a value: decimal numbers without leading zeros, dictionary
    entries in key order. *)
Fixpoint dec_digits (fuel : nat) (n : N) (acc : bytes) : bytes :=
  match fuel with
  | O => acc
  | S fuel =>
    let acc' := 48 + n mod 10 :: acc in
    if n <? 10 then acc' else dec_digits fuel (n / 10) acc'
  end.
Definition dec_text (n : N) : bytes := dec_digits 20 n [].
Definition bstring_text (d : bytes) : bytes := dec_text (blen d) ++ [58] ++ d.
Fixpoint ben_text (b : bval) : bytes :=
  match b with
  | BBytes d => bstring_text d
  | BInt n => [105] ++ dec_text n ++ [101]
  | BList l => [108] ++ concat (map ben_text l) ++ [101]
  | BDict m => [100] ++ concat (map (fun e => bstring_text (fst e) ++ ben_text (snd e)) m) ++ [101]
  end.
(** The values that can be encoded. *)
Fixpoint bval_ok (b : bval) : Prop :=
  match b with
  | BBytes d => fits d
  | BInt n => n < two64
  | BList l => fold_right and True (map bval_ok l)
  | BDict m => key_sorted m /\
      fold_right and True
        (map (fun e => fits (fst e) /\ utf8_valid (fst e) = true /\ bval_ok (snd e)) m)
  end.
