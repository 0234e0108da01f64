(** Model of small checking programs: src/bin/test_detrand.rs, src/bin/tls_test.rs, and
    [bytes_from_str], [make_initial] and [make_initial1] of src/bin/quic_test.rs.

    Texts are lists of bytes.  Printing is taken to succeed. *)
From Verif Require Import Base UtilModel MultibaseModel BencodeModel HexDumpModel ChatModel BencodePathModel TlsRecordModel.
Local Open Scope string_scope. Local Open Scope list_scope. Local Open Scope N_scope.

(** *** test_detrand.rs *)
(** The results of [n] calls of [next_u32] (util/detrand.rs:23-26). *)
Fixpoint outputs (n : nat) (seed : N) : list N :=
  match n with O => [] | S n => let v := next_u32 seed in v :: outputs n v end.
(** test_detrand.rs:14: the condition for the bit number [i] from the left. *)
Definition left_bit (v : N) (i : nat) : bool := N.land (N.shiftr v (31 - N.of_nat i)) 1 =? 1.
(** test_detrand.rs:10-22: the line for one output. *)
Definition detrand_line (v : N) : bytes :=
  hex_padded 8 v ++ [32] ++ map (fun i => if left_bit v i then 49 else 48) (seq 0 32) ++ [10].
(** test_detrand.rs:8 and 16: [frequency[i]] after the outputs [l]. *)
Definition frequency (l : list N) (i : nat) : N := fold_left (fun f v => if left_bit v i then f + 1 else f) l 0.
(** The format [{:02}]. *)
Definition two_places (n : N) : bytes := let t := decimal n in repeat 48 (2 - length t) ++ t.
(** test_detrand.rs:25. *)
Definition frequency_line (l : list N) (i : nat) : bytes :=
  line (ascii_bytes "frequency[" ++ two_places (N.of_nat i) ++ ascii_bytes "] = " ++ decimal (frequency l i)).
(** test_detrand.rs:5-27 [main], with [n] for 100000 and [seed] for 12345. *)
Definition detrand_text (n : nat) (seed : N) : bytes :=
  let l := outputs n seed in flat_map detrand_line l ++ flat_map (frequency_line l) (seq 0 32).
Definition detrand_main : bytes := detrand_text (N.to_nat 100000) 12345.

(** *** quic_test.rs *)
(** quic_test.rs:195-203: the loop over the characters.  A character that is not ASCII is an
    error, as is its first byte here. *)
Fixpoint plain_digits (s : bytes) : option bytes :=
  match s with
  | [] => Some []
  | c :: s =>
    if ((48 <=? c) && (c <=? 57)) || ((97 <=? c) && (c <=? 102)) then match plain_digits s with Some t => Some (c :: t) | None => None end
    else if (c =? 32) || (c =? 10) then plain_digits s
    else None
  end.
(** quic_test.rs:193-205 [bytes_from_str]; the text of the error is left out. *)
Definition bytes_from_str (s : bytes) : option bytes :=
  match plain_digits s with
  | None => None
  | Some t => match decode_noprefix t Base16 with Ok d => Some d | _ => None end
  end.
(** quic_test.rs:393-412 [make_initial1] and 380-391 [make_initial]: what is printed and the
    files written.  [debug] is the text of the handshake, [packet] the result of
    [make_initial2] (QuicModel.v) or the text of its error, [raw] the constant
    [raw_initial_packet_str], [writes] the answer to each attempt to write a file (the text of
    the error if it fails), [bad] the text of the error of [bytes_from_str]. *)
Definition make_initial (debug : bytes) (packet : bytes + bytes) (raw bad : bytes) (writes : bytes -> bytes -> option bytes)
  : bytes * list (bytes * bytes) :=
  let start := line (ascii_bytes "make_initial: handshake = " ++ debug) in
  let error e := line (ascii_bytes "make_initial: error: " ++ e) in
  let wrote name := line (ascii_bytes "Wrote " ++ name) in
  match packet with
  | inr e => (start ++ error e, [])
  | inl packet =>
    match bytes_from_str raw with
    | None => (start ++ error bad, [])
    | Some expected =>
      let n1 := ascii_bytes "packet-expected.bin" in
      match writes n1 expected with
      | Some e => (start ++ error e, [])
      | None =>
        let n2 := ascii_bytes "packet-actual.bin" in
        match writes n2 packet with
        | Some e => (start ++ wrote n1 ++ error e, [(n1, expected)])
        | None =>
          (start ++ wrote n1 ++ wrote n2 ++
           line (ascii_bytes "expected == actual ? " ++ ascii_bytes (if bytes_eqb expected packet then "true" else "false")) ++
           line (ascii_bytes "make_initial: ok"), [(n1, expected); (n2, packet)])
        end
      end
    end
  end.

(** *** tls_test.rs *)
(** [str::parse::<usize>]: an optional plus, then digits, at least one. *)
Definition parse_len (s : bytes) : option N :=
  let t := match s with 43 :: t => t | _ => s end in
  match t with
  | [] => None
  | _ => if forallb (fun c => (48 <=? c) && (c <=? 57)) t then parse_decimal t else None
  end.
(** tls_test.rs:24-27: the bytes dumped for a length. *)
Definition counted (len : nat) : bytes := map (fun i => N.of_nat i mod 256) (seq 0 len).
(** tls_test.rs:14-30 [test_hexdump].  [arg] is the second argument; memory is taken to suffice. *)
Definition test_hexdump (arg : option bytes) : bytes * ended :=
  match arg with
  | None => ([], Fails)
  | Some s =>
    match parse_len s with
    | None => ([], Fails)
    | Some len => (line (dump_alternate (counted (N.to_nat len)) ++ ascii_bytes "--"), Succeeds)
    end
  end.
(** tls_test.rs:33. *)
Definition aes_key_text : bytes := ascii_bytes "573f321bc48531ac0340c91e4eb90ceb8da128255da285def0529f01a547034f".
(** tls_test.rs:54. *)
Definition aes_sample : bytes := ascii_bytes "The quick brown fox jumps over the lazy dog".
(** tls_test.rs:56-58, 64-66 and 72-74. *)
Definition section_text (title : bytes) (d : bytes) : bytes :=
  line (title ++ ascii_bytes " (" ++ decimal (blen d) ++ ascii_bytes " bytes) =") ++ line (indent (dump_alternate d)).
(** tls_test.rs:32-78 [test_aes].  [open_in_place] leaves the plaintext at the front of the
    buffer; what it leaves in the rest is [rest], a function of the sealed text.  [unwrap]
    and [assert!] on the key are the first two cases. *)
Definition test_aes (P : primitives) (rest : bytes -> bytes) : bytes * ended :=
  match from_hex aes_key_text with
  | None => ([], Panics)
  | Some key =>
    if negb (length key =? 32)%nat then ([], Panics) else
    let nonce := repeat 1 12 in
    let aad := ascii_bytes "hello" in
    let t1 := section_text (ascii_bytes "input_plaintext") aes_sample in
    match seal P AES_256_GCM key nonce aad aes_sample with
    | None => (t1, Fails)
    | Some work =>
      let t2 := t1 ++ section_text (ascii_bytes "ciphertext") work in
      match unseal P AES_256_GCM key nonce aad work with
      | None => (t2, Fails)
      | Some plain =>
        let work := plain ++ rest work in
        if (length work <? tag_len AES_256_GCM)%nat then (t2, Panics) else
        let work := firstn (length work - tag_len AES_256_GCM) work in
        (t2 ++ section_text (ascii_bytes "output_plaintext") work ++
         line (ascii_bytes "output == input ? " ++ ascii_bytes (if bytes_eqb work aes_sample then "true" else "false")), Succeeds)
      end
    end
  end.
(** tls_test.rs:80-117 [test_dh], from the two private keys that were generated (generating
    a key and computing its public key are taken to succeed). *)
Definition test_dh (P : primitives) (mine theirs : bytes) : bytes * ended :=
  let t1 := line (ascii_bytes "my_public_key_bytes    = " ++ to_hex (public_of P mine)) ++
            line (ascii_bytes "their_public_key_bytes = " ++ to_hex (public_of P theirs)) in
  match agree P mine (public_of P theirs) with
  | None => (t1, Fails)
  | Some k1 =>
    match agree P theirs (public_of P mine) with
    | None => (t1, Fails)
    | Some k2 =>
      let t2 := t1 ++ line (ascii_bytes "key_material1 = " ++ to_hex k1) ++ line (ascii_bytes "key_material2 = " ++ to_hex k2) in
      match hkdf_expand P SHA384 [] [] 32 with
      | Ok _ => (t2, Succeeds)
      | Err _ => (t2, Fails)
      | Panic => (t2, Panics)
      end
    end
  end.
(** tls_test.rs:119-139 [main], from the arguments after the program's name.  Standard error
    is left out. *)
Definition tls_test_main (P : primitives) (rest : bytes -> bytes) (mine theirs : bytes) (args : list bytes) : bytes * ended :=
  match args with
  | [] => ([], Fails)
  | command :: more =>
    if bytes_eqb command (ascii_bytes "dh") then test_dh P mine theirs
    else if bytes_eqb command (ascii_bytes "aes") then test_aes P rest
    else if bytes_eqb command (ascii_bytes "hexdump") then test_hexdump (nth_error more 0)
    else ([], Fails)
  end.
