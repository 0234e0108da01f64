(** Model of src/quic and of the packet handling in src/bin/quic_test.rs.

    The AES block function is a parameter [B] (key, then block); the AEAD and HKDF are those
    of TlsRecordModel.v.  Log output is left out.  [Box<dyn Error>] is [qerr].  Arithmetic
    overflow panics (debug builds). *)
From Verif Require Import Base BinaryModel TlsCodesModel TlsTypesModel TlsRecordModel.
Local Open Scope string_scope. Local Open Scope list_scope. Local Open Scope N_scope.

Inductive qerr := QText (s : string) | QBinary (e : berr) | QCrypt (e : crypt_error) | QBadConnectionId.
Definition quic := outcome qerr.
Definition from_binary {A} (x : outcome berr A) : quic A := map_err QBinary x.
Definition from_crypt {A} (x : outcome crypt_error A) : quic A := map_err QCrypt x.

(** ** wire.rs *)
(** wire.rs:17-22 [EndpointSecrets], without the secret they come from; 47-50
    [ConnectionSecrets]. *)
Record endpoint_secrets := { q_key : bytes; q_iv : bytes; q_hp : bytes }.
Record connection_secrets := { q_client : endpoint_secrets; q_server : endpoint_secrets }.
(** wire.rs:25-33 [EndpointSecrets::from_initial]. *)
Definition endpoint_from_initial (P : primitives) (h : hash_alg) (initial : bytes) : outcome crypt_error endpoint_secrets :=
  let? k := hkdf_expand_label P h initial (ascii_bytes "quic key") [] 16 in
  let? iv := hkdf_expand_label P h initial (ascii_bytes "quic iv") [] 12 in
  let? hp := hkdf_expand_label P h initial (ascii_bytes "quic hp") [] 16 in
  Ok {| q_key := k; q_iv := iv; q_hp := hp |}.
(** wire.rs:53-77 [ConnectionSecrets::from_initial]. *)
Definition connection_from_initial (P : primitives) (h : hash_alg) (initial : bytes) : outcome crypt_error connection_secrets :=
  let? c := hkdf_expand_label P h initial (ascii_bytes "client in") [] (byte_len h) in
  let? s := hkdf_expand_label P h initial (ascii_bytes "server in") [] (byte_len h) in
  let? c := endpoint_from_initial P h c in
  let? s := endpoint_from_initial P h s in
  Ok {| q_client := c; q_server := s |}.
(** wire.rs:79-87 [from_connection_id]. *)
Definition initial_salt : bytes := [0x38; 0x76; 0x2c; 0xf7; 0xf5; 0x59; 0x34; 0xb3; 0x4d; 0x17; 0x9a; 0xe6; 0xa4; 0xc8; 0x0c; 0xad; 0xcc; 0xbb; 0x7f; 0x0a].
Definition from_connection_id (P : primitives) (h : hash_alg) (id : bytes) : outcome crypt_error connection_secrets :=
  connection_from_initial P h (extract P h initial_salt id).

(** ** encryption.rs *)
(** encryption.rs:115-127 [get_sample]. *)
Definition get_sample (packet : bytes) (pn_offset : N) : quic bytes :=
  if two64 <=? pn_offset + 20 then Panic
  else if blen packet <? pn_offset + 20 then Err (QText "Insufficient data for sample")
  else Ok (firstn 16 (skipn (N.to_nat (pn_offset + 4)) packet)).
(** [packet[from + i] ^= m[i]] for all [i]. *)
Definition xor_at (packet : bytes) (from : nat) (m : bytes) : bytes :=
  firstn from packet ++ xor_bytes (firstn (length m) (skipn from packet)) m ++ skipn (from + length m) packet.
(** encryption.rs:18-23, 45-50: the first byte. *)
Definition mask_first (b m : N) : N :=
  N.lxor b (if N.land b 0x80 =? 0x80 then N.land m 0x0f else N.land m 0x1f).
(** encryption.rs:25-30, 54-59: the packet number, [n] bytes. *)
Definition mask_number (packet : bytes) (pn_offset : N) (n : N) (mask : bytes) : quic unit * bytes :=
  if blen packet <? pn_offset + n then (Err (QText "Insufficient data for packet number"), packet)
  else (Ok tt, xor_at packet (N.to_nat pn_offset) (firstn (N.to_nat n) (skipn 1 mask))).
(** encryption.rs:7-33 [add_header_protection]: the result and the packet afterwards. *)
Definition add_header_protection (B : bytes -> bytes -> bytes) (packet : bytes) (pn_offset : N) (s : endpoint_secrets) : quic unit * bytes :=
  match get_sample packet pn_offset with
  | Err e => (Err e, packet)
  | Panic => (Panic, packet)
  | Ok sample =>
    let mask := B (q_hp s) sample in
    match packet, mask with
    | b :: t, m :: _ => mask_number (mask_first b m :: t) pn_offset (N.land b 0x03 + 1) mask
    | _, _ => (Panic, packet)
    end
  end.
(** encryption.rs:35-62 [remove_header_protection]. *)
Definition remove_header_protection (B : bytes -> bytes -> bytes) (packet : bytes) (pn_offset : N) (s : endpoint_secrets) : quic unit * bytes :=
  match get_sample packet pn_offset with
  | Err e => (Err e, packet)
  | Panic => (Panic, packet)
  | Ok sample =>
    let mask := B (q_hp s) sample in
    match packet, mask with
    | b :: t, m :: _ => mask_number (mask_first b m :: t) pn_offset (N.land (mask_first b m) 0x03 + 1) mask
    | _, _ => (Panic, packet)
    end
  end.
(** encryption.rs:129-136 [make_nonce]. *)
Definition quic_nonce (s : endpoint_secrets) (packet_no : N) : bytes := xor_at (q_iv s) 4 (be_bytes 8 packet_no).
(** encryption.rs:138-144 [u64_from_slice]. *)
Definition u64_from_slice (b : bytes) : N := fold_left (fun a x => N.lor (N.shiftl a 8 mod two64) x) b 0.
(** encryption.rs:64-85 [encrypt_payload]. *)
Definition encrypt_payload (P : primitives) (B : bytes -> bytes -> bytes) (packet_no : N) (header : bytes) (pn_offset : N) (payload : bytes)
  (expected : N) (s : endpoint_secrets) (a : aead_alg) : quic bytes :=
  let nonce := quic_nonce s packet_no in
  if negb (blen payload + N.of_nat (tag_len a) =? expected) then Panic else
  let? payload := from_crypt (encrypt_in_place P a (q_key s) nonce header payload) in
  if negb (blen payload =? expected) then Panic else
  match add_header_protection B (header ++ payload) pn_offset s with
  | (Ok _, packet) => Ok packet
  | (Err e, _) => Err e
  | (Panic, _) => Panic
  end.
(** encryption.rs:87-113 [decrypt_payload]: the packet number and the payload. *)
Definition decrypt_payload (P : primitives) (B : bytes -> bytes -> bytes) (packet : bytes) (pn_offset length : N) (s : endpoint_secrets) (a : aead_alg)
  : quic (N * bytes) :=
  match remove_header_protection B packet pn_offset s with
  | (Err e, _) => Err e
  | (Panic, _) => Panic
  | (Ok _, packet) =>
    let pn_length := N.land (hd 0 packet) 0x03 + 1 in
    let payload_start := pn_offset + pn_length in
    let payload_end := pn_offset + length in
    if (two64 <=? payload_end) || (payload_end <? payload_start) || (blen packet <? payload_end) then Panic else
    let? header := index_range packet 0 (N.to_nat payload_start) in
    let? payload := index_range packet (N.to_nat payload_start) (N.to_nat payload_end) in
    let? number := index_range packet (N.to_nat pn_offset) (N.to_nat payload_start) in
    let packet_no := u64_from_slice number in
    let? payload := from_crypt (decrypt_in_place P a (q_key s) (quic_nonce s packet_no) header payload) in
    Ok (packet_no, payload)
  end.

(** ** parameters.rs *)
(** parameters.rs:7-12 [quic_varint_from_bytes]. *)
Definition quic_varint_from_bytes (d : bytes) : outcome berr N := fst ((do v <- read_quic_varint; do _ <- expect_eof; rret v) (new_reader d)).
(** parameters.rs:14-28 [TransportParameter]: the nine numbers are named by their identifiers
    1, 3-9 and 14. *)
Inductive param_number := PMaxIdle | PMaxUdp | PMaxData | PStreamBidiLocal | PStreamBidiRemote | PStreamUni | PStreamsBidi | PStreamsUni | PActiveIds.
Inductive param :=
| POriginalId (id : bytes) | PNumber (p : param_number) (v : N) | PSourceId (id : bytes) | PInvalid (id : N) (d : bytes) | PUnknown (id : N) (d : bytes).
(** spec.rs:42-50 [ConnectionId::from_raw]. *)
Definition connection_id_from_raw (d : bytes) : quic bytes := if (length d <=? 20)%nat then Ok d else Err QBadConnectionId.
(** parameters.rs:53-68 [decode]. *)
Definition param_decode (id : N) (raw : bytes) : quic param :=
  let number p := let? v := from_binary (quic_varint_from_bytes raw) in Ok (PNumber p v) in
  if id =? 0x01 then number PMaxIdle
  else if id =? 0x03 then number PMaxUdp
  else if id =? 0x04 then number PMaxData
  else if id =? 0x05 then number PStreamBidiLocal
  else if id =? 0x06 then number PStreamBidiRemote
  else if id =? 0x07 then number PStreamUni
  else if id =? 0x08 then number PStreamsBidi
  else if id =? 0x09 then number PStreamsUni
  else if id =? 0x0e then number PActiveIds
  else if id =? 0x0f then let? c := connection_id_from_raw raw in Ok (PSourceId c)
  else Ok (PUnknown id raw).
(** parameters.rs:97-101 [encode_raw]; 89-95 [encode_varint]; 70-87 [encode]. *)
Definition encode_raw (id : N) (d : bytes) : wr := write_quic_varint id;; write_quic_varint (blen d);; write_raw d.
Definition encode_varint (id v : N) : wr := encode_raw id (snd (write_quic_varint v [])).
Definition param_encode (p : param) : wr :=
  match p with
  | POriginalId d => encode_raw 0x00 d
  | PNumber PMaxIdle v => encode_varint 0x01 v
  | PNumber PMaxUdp v => encode_varint 0x03 v
  | PNumber PMaxData v => encode_varint 0x04 v
  | PNumber PStreamBidiLocal v => encode_varint 0x05 v
  | PNumber PStreamBidiRemote v => encode_varint 0x06 v
  | PNumber PStreamUni v => encode_varint 0x07 v
  | PNumber PStreamsBidi v => encode_varint 0x08 v
  | PNumber PStreamsUni v => encode_varint 0x09 v
  | PNumber PActiveIds v => encode_varint 0x0e v
  | PSourceId d => encode_raw 0x0f d
  | PInvalid id d => encode_raw id d
  | PUnknown id d => encode_raw id d
  end.
(** parameters.rs:119-125 [encode_list]. *)
Definition encode_list (l : list param) : bytes := snd (write_items param_encode l []).
(** parameters.rs:103-117 [decode_list].  Fuel: every round takes a byte at least. *)
Definition param_read : rd param :=
  do id <- read_quic_varint;
  do len <- read_quic_varint;
  do value <- read_fixed len;
  match param_decode id value with
  | Ok p => rret p
  | Err _ => rret (PInvalid id value)
  | Panic => rpanic
  end.
Fixpoint decode_loop (fuel : nat) (r : reader) : outcome berr (list param) :=
  match fuel with
  | O => Panic
  | S fuel =>
    if (0 <? remaining r)%nat then
      match param_read r with
      | (Ok p, r) => let? l := decode_loop fuel r in Ok (p :: l)
      | (Err e, _) => Err e
      | (Panic, _) => Panic
      end
    else Ok []
  end.
Definition decode_list (d : bytes) : outcome berr (list param) := decode_loop (S (length d)) (new_reader d).

(** ** spec.rs *)
(** spec.rs:71-106, 123-139: stream identifiers. *)
Inductive initiator := Client | Server.
Inductive directionality := Bidirectional | Unidirectional.
Inductive stream_type := ClientBidirectional | ServerBidirectional | ClientUnidirectional | ServerUnidirectional.
Definition stream_initiator (id : N) : initiator := if N.land id 0x01 =? 0 then Client else Server.
Definition stream_directionality (id : N) : directionality := if N.land id 0x02 =? 0 then Bidirectional else Unidirectional.
Definition stream_type_of (id : N) : stream_type :=
  let k := N.land id 0x03 in
  if k =? 0 then ClientBidirectional else if k =? 1 then ServerBidirectional else if k =? 2 then ClientUnidirectional else ServerUnidirectional.
(** spec.rs:320-323 [CryptoFrame]; 361-375 [CryptoStream] ([data_start_offset] stays 0). *)
Record crypto_frame := { cf_start : N; cf_data : bytes }.
Record crypto_stream := { cs_pending : list crypto_frame; cs_data : bytes }.
Definition crypto_new : crypto_stream := {| cs_pending := []; cs_data := [] |}.
(** spec.rs:384-393: the first pending frame that can be used, and the others. *)
Fixpoint take_first (e : N) (l : list crypto_frame) : option (crypto_frame * list crypto_frame) :=
  match l with
  | [] => None
  | f :: t =>
    if cf_start f <=? e then Some (f, t)
    else match take_first e t with Some (g, t) => Some (g, f :: t) | None => None end
  end.
(** spec.rs:382-403 [check_pending].  Fuel: every round takes a pending frame. *)
Fixpoint check_pending (fuel : nat) (s : crypto_stream) : quic crypto_stream :=
  match fuel with
  | O => Panic
  | S fuel =>
    let e := blen (cs_data s) in
    match take_first e (cs_pending s) with
    | None => Ok s
    | Some (f, rest) =>
      if blen (cf_data f) <? e - cf_start f then Panic
      else check_pending fuel {| cs_pending := rest; cs_data := cs_data s ++ skipn (N.to_nat (e - cf_start f)) (cf_data f) |}
    end
  end.
(** spec.rs:377-380 [add_frame]; 405-407 [send]. *)
Definition crypto_send (s : crypto_stream) (f : crypto_frame) : quic crypto_stream :=
  check_pending (S (S (length (cs_pending s)))) {| cs_pending := cs_pending s ++ [f]; cs_data := cs_data s |}.

(** ** quic_test.rs *)
(** spec.rs:177-199 [Frame], those that are parsed; the reason is kept as received, without
    [from_utf8_lossy]. *)
Inductive frame := FPing | FCrypto (f : crypto_frame) | FClose (code frame_type : N) (reason : bytes).
(** quic_test.rs:332-374: one round of [parse_frames]. *)
Definition read_frame : rd (option frame) :=
  do t <- read_u8;
  if t =? 0x00 then rret None
  else if t =? 0x02 then rret (Some FPing)
  else if t =? 0x06 then
    do offset <- read_quic_varint;
    do len <- read_quic_varint;
    do d <- read_fixed len;
    rret (Some (FCrypto {| cf_start := offset; cf_data := d |}))
  else if t =? 0x1c then
    do code <- read_quic_varint;
    do ft <- read_quic_varint;
    do len <- read_quic_varint;
    do reason <- read_fixed len;
    rret (Some (FClose code ft reason))
  else rfail (BPlain "Unknown frame type").
(** quic_test.rs:327-378 [parse_frames].  Fuel: every round takes a byte. *)
Fixpoint frames_loop (fuel : nat) (r : reader) : outcome berr (list frame) :=
  match fuel with
  | O => Panic
  | S fuel =>
    if (0 <? remaining r)%nat then
      match read_frame r with
      | (Ok None, r) => frames_loop fuel r
      | (Ok (Some f), r) => let? l := frames_loop fuel r in Ok (f :: l)
      | (Err e, _) => Err e
      | (Panic, _) => Panic
      end
    else Ok []
  end.
Definition parse_frames (d : bytes) : outcome berr (list frame) := frames_loop (S (length d)) (new_reader d).

(** quic_test.rs:454-468: the header; its length and that without the packet number. *)
Definition initial_header (dst src : bytes) (packet_no : N) (token : bytes) : bytes :=
  [0xc3] ++ [0; 0; 0; 1] ++ [blen dst mod two8] ++ dst ++ [blen src mod two8] ++ src ++
  snd (write_quic_varint (blen token) []) ++ token ++ [0; 0] ++ be_bytes 4 (packet_no mod two32).
(** quic_test.rs:442-493 [encode_initial_packet]. *)
Definition encode_initial_packet (P : primitives) (B : bytes -> bytes -> bytes) (dst src : bytes) (packet_no : N) (token payload : bytes)
  (s : endpoint_secrets) : quic bytes :=
  let header := initial_header dst src packet_no token in
  let pn_offset := (length header - 4)%nat in
  let payload := payload ++ repeat 0 (1200 - (length header + length payload + 16)) in
  let len := 4 + blen payload + 16 in
  let header := patch header (pn_offset - 2) [N.lor (N.shiftr len 8 mod two8) 0x40; len mod two8] in
  encrypt_payload P B packet_no header (N.of_nat pn_offset) payload (len - 4) s AES_128_GCM.
(** quic_test.rs:415-440 [make_initial2]. *)
Definition make_initial (P : primitives) (B : bytes -> bytes -> bytes) (dst src token : bytes) (h : handshake) (s : endpoint_secrets) : quic bytes :=
  match write_handshake h [] with
  | (Err e, _) => Err (QBinary e)
  | (Panic, _) => Panic
  | (Ok _, d) =>
    encode_initial_packet P B dst src 0 token (snd ((write_u8 0x06;; write_quic_varint 0;; write_quic_varint (blen d);; write_raw d) [])) s
  end.

(** quic_test.rs:874-901 [try_pop_handshake] on the received crypto bytes. *)
Definition try_pop_handshake (received : bytes) : quic (option (handshake * bytes)) :=
  if (length received <? 4)%nat then Ok None else
  let? len := from_binary (fst ((do _ <- read_u8; read_u24) (new_reader received))) in
  if blen received - 4 <? len then Ok None else
  match read_handshake (new_reader received) with
  | (Err e, _) => Err (QBinary e)
  | (Panic, _) => Panic
  | (Ok h, r) =>
    match write_handshake h [] with
    | (Err e, _) => Err (QBinary e)
    | (Panic, _) => Panic
    | (Ok _, d) =>
      if bytes_eqb received d then Ok (Some (h, skipn (r_off r) received)) else Panic
    end
  end.
(** quic_test.rs:278-290: the transport parameters of a client hello. *)
Fixpoint check_params (l : list extension) : quic unit :=
  match l with
  | [] => Ok tt
  | XTransportParameters d :: l =>
    let? ps := from_binary (decode_list d) in
    if bytes_eqb (encode_list ps) d then check_params l else Panic
  | _ :: l => check_params l
  end.
(** quic_test.rs:266-318 [process_initial_handshakes]: the messages.  Fuel: every round takes
    four bytes at least. *)
Fixpoint process_handshakes (fuel : nat) (P : primitives) (dst received : bytes) (first : bool) : quic (list handshake) :=
  match fuel with
  | O => Panic
  | S fuel =>
    let? x := try_pop_handshake received in
    match x with
    | None => Ok []
    | Some (h, rest) =>
      let? _ := match h with HClientHello c => check_params (ch_extensions c) | _ => Ok tt end in
      let? _ := if first then let? _ := from_crypt (from_connection_id P SHA256 dst) in Ok tt else Ok tt in
      let? l := process_handshakes fuel P dst rest false in
      Ok (h :: l)
    end
  end.
(** quic_test.rs:241-264 [handle_packet]: the data of the crypto frames in the order of the
    frames; what is found in it. *)
Definition crypto_data (l : list frame) : bytes := concat (map (fun f => match f with FCrypto f => cf_data f | _ => [] end) l).
Definition handle_packet (P : primitives) (dst : bytes) (frames : list frame) : quic (list handshake) :=
  let d := crypto_data frames in process_handshakes (S (length d)) P dst d true.

(** quic_test.rs:232-238, 321-324 [ConnectionImpl], [Handler]: the secrets by connection id. *)
Definition connections := list (bytes * connection_secrets).
Fixpoint lookup (id : bytes) (l : connections) : option connection_secrets :=
  match l with
  | [] => None
  | (k, s) :: l => if bytes_eqb k id then Some s else lookup id l
  end.
Definition insert (id : bytes) (s : connection_secrets) (l : connections) : connections :=
  (id, s) :: filter (fun p => negb (bytes_eqb (fst p) id)) l.
(** What a packet delivered: spec.rs:151-157 [Packet], the token and the messages. *)
Record received := { rc_frames : list frame; rc_src : bytes; rc_dst : bytes; rc_number : N; rc_token : bytes; rc_messages : list handshake }.
(** quic_test.rs:579-655 [parse_initial]. *)
Definition parse_initial (P : primitives) (B : bytes -> bytes -> bytes) (cs : connections) (dst src : bytes) (offset : nat) (packet : bytes)
  : quic (received * connections) :=
  let? x := from_binary (fst ((do token_len <- read_quic_varint;
                              do token <- read_fixed token_len;
                              do len <- read_quic_varint;
                              fun r => (Ok (token, len, r_off r), r)) (new_reader_at packet offset))) in
  let '(token, len, pn_offset) := x in
  let? y := match lookup dst cs with
            | Some s => Ok (q_server s, None)
            | None => let? s := from_crypt (from_connection_id P SHA256 dst) in Ok (q_client s, Some s)
            end in
  let '(theirs, new) := y in
  let? z := decrypt_payload P B packet (N.of_nat pn_offset) len theirs AES_128_GCM in
  let? frames := from_binary (parse_frames (snd z)) in
  let? messages := handle_packet P dst frames in
  Ok ({| rc_frames := frames; rc_src := src; rc_dst := dst; rc_number := fst z; rc_token := token; rc_messages := messages |},
      match new with Some s => insert src s cs | None => cs end).
(** quic_test.rs:533-569 [parse_long_header_packet]; 657-691 [parse_0rtt], [parse_handshake],
    [parse_retry]. *)
Definition parse_long (P : primitives) (B : bytes -> bytes -> bytes) (cs : connections) (packet : bytes) : quic (received * connections) :=
  let? x := from_binary (fst ((do b <- read_u8;
                              do version <- read_u32;
                              if negb (version =? 1) then rfail (BPlain "Unsupported version") else
                              do n <- read_u8;
                              if 20 <? n then rfail (BPlain "Invalid dst_connection_id length") else
                              do dst <- read_fixed n;
                              do n <- read_u8;
                              if 20 <? n then rfail (BPlain "Invalid src_connection_id length") else
                              do src <- read_fixed n;
                              fun r => (Ok (b, dst, src, r_off r), r)) (new_reader packet))) in
  let '(b, dst, src, offset) := x in
  let kind := N.shiftr (N.land b 0x30) 4 in
  if kind =? 0 then parse_initial P B cs dst src offset packet
  else if kind =? 1 then Err (QText "TODO: 0-RTT packets")
  else if kind =? 2 then Err (QText "TODO: Handshake packets")
  else Err (QText "TODO: Retry packets").
(** quic_test.rs:516-531 [parse_packet]; 571-577 [parse_short_header_packet] is [todo!()]. *)
Definition parse_packet (P : primitives) (B : bytes -> bytes -> bytes) (cs : connections) (packet : bytes) : quic (received * connections) :=
  match packet with
  | [] => Err (QText "Packet is empty")
  | b :: _ =>
    if N.land b 0x40 =? 0 then Err (QText "Fixed bit is zero")
    else if N.land b 0x80 =? 0x80 then parse_long P B cs packet
    else Panic
  end.
