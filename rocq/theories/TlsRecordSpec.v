(** Small specification for TLS records: C55-C57, C62. *)
From Verif Require Import Base MplexModel TlsCodesModel TlsTypesModel TlsRecordModel.
Local Open Scope N_scope.

(** *** Records on the wire (RFC 8446, 5.1) *)
Record wire_record := { w_type : N; w_version : N; w_fragment : bytes }.
Definition wire (w : wire_record) : bytes :=
  [w_type w] ++ be_bytes 2 (w_version w) ++ be_bytes 2 (blen (w_fragment w)) ++ w_fragment w.
Definition wire_ok (w : wire_record) : Prop := w_version w < 65536 /\ blen (w_fragment w) <= 16640.
(** The record the record layer returns for it. *)
Definition as_received (w : wire_record) : tls_record :=
  {| tr_type := content_type_from (w_type w); tr_version := w_version w;
     tr_header := [w_type w] ++ be_bytes 2 (w_version w) ++ be_bytes 2 (blen (w_fragment w));
     tr_fragment := w_fragment w; tr_raw := wire w |}.
(** The length declared at the start of some bytes; bytes that do not start with a complete
    record of a permitted length. *)
Definition declared (d : bytes) : option N :=
  match d with _ :: _ :: _ :: hi :: lo :: _ => Some (256 * hi + lo) | _ => None end.
Definition incomplete (d : bytes) : Prop :=
  match declared d with None => True | Some n => 16640 < n \/ blen d < 5 + n end.

(** What the layers below and above do to the receiver, in any order: deliver some bytes,
    report the end, take a record. *)
Inductive rop := Feed (d : bytes) | Finish | Pop.
Definition rstep (r : record_receiver) (o : rop) : list (poll (tls (option tls_record))) * record_receiver :=
  match o with
  | Feed d => ([], append_data r d)
  | Finish => ([], close r)
  | Pop => let (x, r) := pop_record r in ([x], r)
  end.
Fixpoint rrun (r : record_receiver) (os : list rop) : list (poll (tls (option tls_record))) * record_receiver :=
  match os with
  | [] => ([], r)
  | o :: os => let (x, r) := rstep r o in let (y, r) := rrun r os in (x ++ y, r)
  end.
Definition fed (os : list rop) : bytes := flat_map (fun o => match o with Feed d => d | _ => [] end) os.
Definition popped (l : list (poll (tls (option tls_record)))) : list tls_record :=
  flat_map (fun x => match x with Done (Ok (Some t)) => [t] | _ => [] end) l.

(** *** Record protection (RFC 8446, 5.2 and 5.3) *)
(** The sequence number, as wide as the iv, exclusive-or the iv. *)
Definition rfc_nonce (iv : bytes) (seq : N) : bytes := be_bytes (length iv) (N.lxor (of_be_bytes iv) seq).
Definition protect (P : primitives) (k : key) (seq : N) (inner : bytes) : option bytes :=
  let header := [23; 3; 3] ++ be_bytes 2 (blen inner + 16) in
  match seal P (k_alg k) (k_key k) (rfc_nonce (k_iv k) seq) header inner with
  | Some c => Some (header ++ c)
  | None => None
  end.
(** The plaintext inside: content, its type, padding. *)
Definition inner_plaintext (content : bytes) (type : N) (pad : nat) : bytes := content ++ [type] ++ repeat 0 pad.
(** What is assumed of the AEAD: it opens what it sealed, and a tag takes 16 bytes. *)
Definition aead_ok (P : primitives) : Prop := forall a k n d m c,
  length k = key_len a -> length n = 12%nat -> seal P a k n d m = Some c ->
  unseal P a k n d c = Some m /\ blen c = blen m + 16.
Definition key_ok (k : key) : Prop := length (k_key k) = key_len (k_alg k) /\ length (k_iv k) = 12%nat /\ bytes_ok (k_iv k).

(** *** A toy instance of the primitives, for the examples *)
Definition mix (d : bytes) : N := fold_left (fun a b => (a * 31 + b + 7) mod two64) d 1.
Definition toy_digest (h : hash_alg) (d : bytes) : bytes := be_bytes (byte_len h) (mix d).
Definition toy_tag (k n d m : bytes) : bytes := be_bytes 16 (mix (k ++ n ++ d ++ m)).
Definition toy : primitives := {|
  seal := fun a k n d m => Some (m ++ toy_tag k n d m);
  unseal := fun a k n d c =>
    let m := firstn (length c - 16) c in
    if bytes_eqb c (m ++ toy_tag k n d m) then Some m else None;
  digest := toy_digest;
  hmac := fun h k d => toy_digest h (k ++ d);
  extract := fun h s i => toy_digest h (s ++ i);
  expand := fun h p i n => be_bytes n (mix (p ++ i));
  public_of := fun p => p;
  agree := fun p q => Some (xor_bytes p q);
  sig_verify := fun a k m s => bytes_eqb s (toy_digest SHA256 (k ++ m));
  sign_rsa := fun h k m => Ok (toy_digest SHA256 (k ++ m));
  sign_ed25519 := fun k m => Ok (toy_digest SHA256 (k ++ m)) |}.
Definition toy_key : key := {| k_raw := repeat 9 32; k_alg := AES_128_GCM; k_key := repeat 5 16; k_iv := [1; 2; 3; 4; 5; 6; 7; 8; 9; 10; 11; 12] |}.
