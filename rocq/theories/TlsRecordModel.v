(** Model of src/tls/protocol/stream.rs (TLS records), src/tls/helpers.rs (key schedule and
    record protection), src/crypto/aead.rs and src/crypto/crypt.rs.

    The cryptographic primitives of the libraries (AES-GCM, SHA-2, HMAC, HKDF, X25519, RSA,
    ECDSA, Ed25519) are parameters: arbitrary functions, collected in [primitives].  What the
    code does around them (lengths it checks, what it passes to them) is modelled.

    The transport is an oracle, as in MplexModel.v: the answers of its [poll_read], and of
    its [poll_write] and [poll_flush], one after the other; when they are used up it answers
    [Pending].  (The code reads at most 1024 bytes at once; here a read may return any number.)
    The name carried by [UnexpectedMessage] and the inner errors of ring are left out.
    Wake-ups ([wake_by_ref]; see TlsWakeModel.v) and log output are left out.  Running out of fuel is [Panic],
    which the theorems exclude. *)
From Verif Require Import Base MplexModel BinaryModel Asn1Model X509Model TlsCodesModel TlsTypesModel.
Local Open Scope string_scope. Local Open Scope list_scope. Local Open Scope N_scope.

(** crypto/error.rs:5-12 [CryptError]. *)
Inductive crypt_error := CInvalidPrkLength | CInvalidLength | CInvalidKeyLength | CInvalidNonceLength | CEncryptionFailed | CDecryptionFailed.
(** tls/error.rs:8-39 [TLSError]. *)
Inductive tls_error :=
| TEncryptionFailed | TDecryptionFailed | TMessageEncodingFailed | TUnexpectedMessage | TUnexpectedEOF
| TUnexpectedAlert (a : alert) | TInvalidPlaintextRecord | TInvalidMessageRecord | TInternal (e : crypt_error)
| TFinishedVerificationFailed | TUnsupportedCipherSuite | TUnsupportedSignatureScheme | TVerifyCertificateFailed
| TVerifyTranscriptFailed | TRsaKeyRejected | TSignatureFailed | TSignatureVerificationFailed | TInvalidCertificate
| TUnsupportedCertificateSignatureAlgorithm | TRandomFillFailed | TEphemeralPrivateKeyGenerationFailed
| TComputePublicKeyFailed | TGetSharedSecretFailed | TEmptyCertificateList | TMissingCertificateMessage
| TMissingCertificateVerifyMessage | TCACertificateUnavailable | TInvalidKey | TIo (e : ioerr) | TReceiveInWrongPlace.
Definition tls := outcome tls_error.
(** tls/error.rs:61-65: [?] on a [CryptError]. *)
Definition internal {A} (r : outcome crypt_error A) : tls A := map_err TInternal r.

(** crypt.rs:8-13 [HashAlgorithm], 16-22 [byte_len]. *)
Inductive hash_alg := SHA256 | SHA384 | SHA512.
Definition byte_len (h : hash_alg) : nat := match h with SHA256 => 32 | SHA384 => 48 | SHA512 => 64 end.
(** aead.rs:9-15 [AeadAlgorithm], 83-102: the sizes of AES-128-GCM and AES-256-GCM. *)
Inductive aead_alg := AES_128_GCM | AES_256_GCM.
Definition key_len (a : aead_alg) : nat := match a with AES_128_GCM => 16 | AES_256_GCM => 32 end.
Definition nonce_len (a : aead_alg) : nat := 12.
Definition tag_len (a : aead_alg) : nat := 16.
(** The verification algorithms of ring that are used. *)
Inductive sig_alg := RsaPkcs1 (h : hash_alg) | RsaPss (h : hash_alg) | EcdsaP256Sha256 | Ed25519Sig.
(** The primitives. *)
Record primitives := {
  seal : aead_alg -> bytes -> bytes -> bytes -> bytes -> option bytes;
  unseal : aead_alg -> bytes -> bytes -> bytes -> bytes -> option bytes;
  digest : hash_alg -> bytes -> bytes;
  hmac : hash_alg -> bytes -> bytes -> bytes;
  extract : hash_alg -> bytes -> bytes -> bytes;
  expand : hash_alg -> bytes -> bytes -> nat -> bytes;
  public_of : bytes -> bytes;
  agree : bytes -> bytes -> option bytes;
  sig_verify : sig_alg -> bytes -> bytes -> bytes -> bool;
  sign_rsa : hash_alg -> bytes -> bytes -> tls bytes;
  sign_ed25519 : bytes -> bytes -> tls bytes }.

(** ** crypt.rs *)
(** crypt.rs:32-54 [hkdf_expand]: [from_prk] wants at least a hash of key, [expand] gives at
    most 255 hashes. *)
Definition hkdf_expand (P : primitives) (h : hash_alg) (prk info : bytes) (len : nat) : outcome crypt_error bytes :=
  if (length prk <? byte_len h)%nat then Err CInvalidPrkLength
  else if (255 * byte_len h <? len)%nat then Err CInvalidLength
  else Ok (expand P h prk info len).
(** crypt.rs:64-85 [hmac_sign]: a key of any length will do. *)
Definition hmac_sign (P : primitives) (h : hash_alg) (key data : bytes) : outcome crypt_error bytes := Ok (hmac P h key data).
(** crypt.rs:87-124 [hmac_verify]: [GenericArray::from_slice] panics on a slice of another
    length. *)
Definition hmac_verify (P : primitives) (h : hash_alg) (key data expected : bytes) : outcome crypt_error bool :=
  if (length expected =? byte_len h)%nat then Ok (bytes_eqb (hmac P h key data) expected) else Panic.

(** ** aead.rs *)
(** aead.rs:18-34 and 52-64, 104-117 [encrypt_in_place]. *)
Definition encrypt_in_place (P : primitives) (a : aead_alg) (key nonce aad data : bytes) : outcome crypt_error bytes :=
  if negb (length key =? key_len a)%nat then Err CInvalidKeyLength
  else if negb (length nonce =? nonce_len a)%nat then Err CInvalidNonceLength
  else of_option CDecryptionFailed (seal P a key nonce aad data).
(** aead.rs:67-79, 119-132 [decrypt_in_place]. *)
Definition decrypt_in_place (P : primitives) (a : aead_alg) (key nonce aad data : bytes) : outcome crypt_error bytes :=
  if negb (length key =? key_len a)%nat then Err CInvalidKeyLength
  else if negb (length nonce =? nonce_len a)%nat then Err CInvalidNonceLength
  else of_option CDecryptionFailed (unseal P a key nonce aad data).

(** ** helpers.rs *)
(** util.rs [vec_with_len]: that many zero bytes. *)
Definition zeros (n : nat) : bytes := repeat 0 n.
(** helpers.rs:138-160 [hkdf_expand_label]; the three lengths are cut to their fields. *)
Definition hkdf_expand_label (P : primitives) (h : hash_alg) (prk label context : bytes) (len : nat) : outcome crypt_error bytes :=
  let label_field := ascii_bytes "tls13 " ++ label in
  hkdf_expand P h prk
    (be_bytes 2 (N.of_nat len mod two16) ++ [blen label_field mod two8] ++ label_field ++ [blen context mod two8] ++ context) len.
(** helpers.rs:162-167 [derive_secret]. *)
Definition derive_secret (P : primitives) (h : hash_alg) (secret label thash : bytes) : outcome crypt_error bytes :=
  hkdf_expand_label P h secret label thash (byte_len h).
(** helpers.rs:28-48 [Transcript]: the bytes given to the hasher so far. *)
Record transcript := { ts_alg : hash_alg; ts_data : bytes }.
Definition transcript_update (t : transcript) (d : bytes) : transcript := {| ts_alg := ts_alg t; ts_data := ts_data t ++ d |}.
Definition get_hash (P : primitives) (t : transcript) : bytes := digest P (ts_alg t) (ts_data t).
(** helpers.rs:51-56 [EncryptionKey]. *)
Record key := { k_raw : bytes; k_alg : aead_alg; k_key : bytes; k_iv : bytes }.
(** helpers.rs:59-70 [EncryptionKey::new]. *)
Definition key_new (P : primitives) (raw : bytes) (h : hash_alg) (a : aead_alg) : outcome crypt_error key :=
  let? write_key := hkdf_expand_label P h raw (ascii_bytes "key") [] (key_len a) in
  let? write_iv := hkdf_expand_label P h raw (ascii_bytes "iv") [] 12 in
  Ok {| k_raw := raw; k_alg := a; k_key := write_key; k_iv := write_iv |}.
(** helpers.rs:74-77 [Ciphers], 101-104 [TrafficSecrets]. *)
Record ciphers := { c_hash : hash_alg; c_aead : aead_alg }.
Record traffic_secrets := { t_client : key; t_server : key }.
(** helpers.rs:80-98 [Ciphers::from_server_hello]. *)
Definition ciphers_from (s : server_hello) : tls ciphers :=
  match sh_suite s with
  | CsTLSAES128GCMSHA256 => Ok {| c_hash := SHA256; c_aead := AES_128_GCM |}
  | CsTLSAES256GCMSHA384 => Ok {| c_hash := SHA384; c_aead := AES_256_GCM |}
  | _ => Err TUnsupportedCipherSuite
  end.
(** helpers.rs:107-123 [TrafficSecrets::derive_from]. *)
Definition derive_from (P : primitives) (c : ciphers) (t : transcript) (prk label : bytes) : outcome crypt_error traffic_secrets :=
  let thash := get_hash P t in
  let? cs := derive_secret P (c_hash c) prk (ascii_bytes "c " ++ label ++ ascii_bytes " traffic") thash in
  let? ck := key_new P cs (c_hash c) (c_aead c) in
  let? ss := derive_secret P (c_hash c) prk (ascii_bytes "s " ++ label ++ ascii_bytes " traffic") thash in
  let? sk := key_new P ss (c_hash c) (c_aead c) in
  Ok {| t_client := ck; t_server := sk |}.
(** helpers.rs:182-191 [get_server_hello_x25519_key_share]. *)
Fixpoint x25519_share (l : list extension) : option bytes :=
  match l with
  | [] => None
  | XKeyShareServer k :: t => match ks_group k with NgX25519 => Some (ks_key k) | _ => x25519_share t end
  | _ :: t => x25519_share t
  end.
(** helpers.rs:193-218 [get_server_hello_x25519_shared_secret]. *)
Definition shared_secret (P : primitives) (private : bytes) (s : server_hello) : option bytes :=
  match x25519_share (sh_extensions s) with Some share => agree P private share | None => None end.
(** helpers.rs:224-228 [get_zero_prk]. *)
Definition get_zero_prk (P : primitives) (h : hash_alg) : bytes := extract P h (zeros (byte_len h)) (zeros (byte_len h)).
(** helpers.rs:220-222 and 230-233 [get_derived_prk]. *)
Definition get_derived_prk (P : primitives) (h : hash_alg) (prk secret : bytes) : outcome crypt_error bytes :=
  let? salt := derive_secret P h prk (ascii_bytes "derived") (digest P h []) in
  Ok (extract P h salt secret).
(** helpers.rs:241-246 and 273-278: the nonce. *)
Fixpoint xor_bytes (a b : bytes) : bytes :=
  match a, b with x :: a, y :: b => N.lxor x y :: xor_bytes a b | _, _ => [] end.
Definition make_nonce (iv : bytes) (seq : N) : bytes := xor_bytes (zeros 4 ++ be_bytes 8 seq) iv.
(** helpers.rs:236-265 [encrypt_traffic]. *)
Definition encrypt_traffic (P : primitives) (k : key) (seq : N) (data : bytes) : tls bytes :=
  let len := N.of_nat (length data + tag_len (k_alg k)) in
  let aad := [0x17; 3; 3; N.shiftr len 8 mod two8; len mod two8] in
  map_err (fun _ => TEncryptionFailed) (encrypt_in_place P (k_alg k) (k_key k) (make_nonce (k_iv k) seq) aad data).

(** *** types/record.rs *)
(** record.rs:10-13. *)
Definition max_plaintext : N := 16384.
Definition max_ciphertext : N := 16640.
(** record.rs:127-161 [TLSCiphertext::from_raw_data]: the encrypted record and how many bytes
    were used; the errors are not told apart by the callers. *)
Definition ciphertext_from_raw (d : bytes) : option (bytes * nat) :=
  match d with
  | _ :: _ :: _ :: l1 :: l0 :: body =>
    let len := of_be_bytes [l1; l0] in
    if max_ciphertext <? len then None
    else if blen body <? len then None
    else Some (firstn (N.to_nat len) body, (5 + N.to_nat len)%nat)
  | _ => None
  end.

(** helpers.rs:268-309 [decrypt_traffic]. *)
Definition decrypt_traffic (P : primitives) (k : key) (seq : N) (raw : bytes) : tls bytes :=
  match ciphertext_from_raw raw with
  | None => Err TDecryptionFailed
  | Some (encrypted, consumed) =>
    if negb (consumed =? length raw)%nat then Err TDecryptionFailed
    else map_err (fun _ => TDecryptionFailed)
           (decrypt_in_place P (k_alg k) (k_key k) (make_nonce (k_iv k) seq) (firstn 5 raw) encrypted)
  end.
(** helpers.rs:327-330: what is left when trailing zeros are dropped, last byte first. *)
Fixpoint drop_zeros (reversed : bytes) : bytes := match reversed with 0 :: t => drop_zeros t | _ => reversed end.
(** helpers.rs:311-344 [decrypt_message]. *)
Definition decrypt_message (P : primitives) (seq : N) (k : key) (raw : bytes) : tls (message * bytes) :=
  let? plaintext := decrypt_traffic P k seq raw in
  match drop_zeros (rev plaintext) with
  | [] => Err TInvalidPlaintextRecord
  | t :: body =>
    let? m := map_err (fun _ => TInvalidMessageRecord) (message_from_raw (rev body) (content_type_from t)) in
    Ok (m, rev body)
  end.
(** helpers.rs:346-368 [verify_finished]. *)
Definition verify_finished (P : primitives) (h : hash_alg) (k : key) (thash verify_data : bytes) : tls unit :=
  let? finished_key := internal (derive_secret P h (k_raw k) (ascii_bytes "finished") []) in
  let? good := internal (hmac_verify P h finished_key thash verify_data) in
  if good then Ok tt else Err TFinishedVerificationFailed.
(** helpers.rs:395-412 [rsa_verify]. *)
Definition scheme_alg (s : signature_scheme) : option sig_alg :=
  match s with
  | SsEcdsaSecp256r1Sha256 => Some EcdsaP256Sha256
  | SsRsaPssRsaeSha256 => Some (RsaPss SHA256)
  | SsRsaPssRsaeSha384 => Some (RsaPss SHA384)
  | SsRsaPssRsaeSha512 => Some (RsaPss SHA512)
  | SsEd25519 => Some Ed25519Sig
  | _ => None
  end.
Definition rsa_verify (P : primitives) (s : signature_scheme) (k input signature : bytes) : tls unit :=
  match scheme_alg s with
  | None => Err TUnsupportedSignatureScheme
  | Some a => if sig_verify P a k input signature then Ok tt else Err TSignatureVerificationFailed
  end.
(** helpers.rs:370-386 [rsa_sign]. *)
Definition rsa_sign (P : primitives) (k input : bytes) (s : signature_scheme) : tls bytes :=
  match s with
  | SsRsaPssRsaeSha256 => sign_rsa P SHA256 k input
  | SsRsaPssRsaeSha384 => sign_rsa P SHA384 k input
  | SsRsaPssRsaeSha512 => sign_rsa P SHA512 k input
  | _ => Err TUnsupportedSignatureScheme
  end.

(** ** stream.rs *)
(** stream.rs:27-37 [ReadState], [WriteState]. *)
Inductive read_state := RActive | REof | RError (e : tls_error).
Inductive write_state := WsActive | WsShutdown | WsError (e : tls_error).
(** stream.rs:44-69 [encrypt_record]: what is appended to the bytes to send. *)
Definition encrypt_record (P : primitives) (data : bytes) (ct : content_type) (k : key) (seq : N) : tls bytes :=
  if max_plaintext <? blen data then Err TInvalidPlaintextRecord
  else let? sealed := encrypt_traffic P k seq (data ++ [content_type_to ct]) in
       Ok (encode_record CtApplicationData 0x0303 sealed).
(** stream.rs:71-82 [RecordReceiver]. *)
Record record_receiver := { rr_in : bytes; rr_state : read_state }.
Definition receiver_new : record_receiver := {| rr_in := []; rr_state := RActive |}.
(** types/record.rs:164-170 [TLSOwnedPlaintext]. *)
Record tls_record := { tr_type : content_type; tr_version : N; tr_header : bytes; tr_fragment : bytes; tr_raw : bytes }.
(** stream.rs:86-90: nothing complete is buffered. *)
Definition starved {A} (s : read_state) (at_eof : tls A) : poll (tls A) :=
  match s with RActive => Wait | REof => Done at_eof | RError e => Done (Err e) end.
(** stream.rs:84-145 [pop_record]. *)
Definition pop_record (r : record_receiver) : poll (tls (option tls_record)) * record_receiver :=
  match rr_in r with
  | b0 :: v1 :: v0 :: l1 :: l0 :: rest =>
    let len := of_be_bytes [l1; l0] in
    if max_ciphertext <? len then (Done (Err TInvalidPlaintextRecord), r)
    else if blen rest <? len then
      (starved (rr_state r) (Err TInvalidPlaintextRecord),
       match rr_state r with REof => {| rr_in := rr_in r; rr_state := RError TInvalidPlaintextRecord |} | _ => r end)
    else
      let n := N.to_nat len in
      (Done (Ok (Some {| tr_type := content_type_from b0; tr_version := of_be_bytes [v1; v0];
                         tr_header := [b0; v1; v0; l1; l0]; tr_fragment := firstn n rest;
                         tr_raw := firstn (5 + n) (rr_in r) |})),
       {| rr_in := skipn (5 + n) (rr_in r); rr_state := rr_state r |})
  | _ => (starved (rr_state r) (Ok None), r)
  end.
(** stream.rs:147-149 [append_data]; 151-155 [close]. *)
Definition append_data (r : record_receiver) (d : bytes) : record_receiver := {| rr_in := rr_in r ++ d; rr_state := rr_state r |}.
Definition close (r : record_receiver) : record_receiver :=
  {| rr_in := rr_in r; rr_state := match rr_state r with RActive => REof | s => s end |}.
(** stream.rs:158-211 [poll_receive_and_add_data], [poll_receive_data]; 259-261 [poll_recv]. *)
Definition poll_recv (r : record_receiver) (answers : list answer) : poll (tls unit) * record_receiver * list answer :=
  match answers with
  | [] => (Wait, r, [])
  | APending :: t => (Wait, r, t)
  | AError e :: t => (Done (Err (TIo e)), {| rr_in := rr_in r; rr_state := RError (TIo e) |}, t)
  | ARead [] :: t => (Done (Ok tt), close r, t)
  | ARead d :: t => (Done (Ok tt), append_data r d, t)
  end.
(** stream.rs:213-234 [poll_receive_record_ignore_cc].  Fuel: each record takes five bytes at
    least. *)
Fixpoint pop_ignore_cc (fuel : nat) (r : record_receiver) : poll (tls (option tls_record)) * record_receiver :=
  match fuel with
  | O => (Done Panic, r)
  | S fuel =>
    match pop_record r with
    | (Done (Ok (Some x)), r') =>
      match tr_type x with CtChangeCipherSpec => pop_ignore_cc fuel r' | _ => (Done (Ok (Some x)), r') end
    | other => other
    end
  end.
Definition receive_record_ignore_cc (r : record_receiver) := pop_ignore_cc (S (length (rr_in r))) r.
(** stream.rs:242-257 [PlaintextStream], without the transport. *)
Record plaintext_stream := { ps_receiver : record_receiver; ps_out : bytes; ps_write : write_state }.
Definition plaintext_new : plaintext_stream := {| ps_receiver := receiver_new; ps_out := []; ps_write := WsActive |}.
(** stream.rs:263-285 [poll_receive_plaintext_message]; the transcript is raw bytes yet. *)
Definition receive_plaintext_message (r : record_receiver) (ts : bytes) : poll (tls (option message)) * record_receiver * bytes :=
  match receive_record_ignore_cc r with
  | (Done (Ok (Some x)), r') =>
    (Done (let? m := map_err (fun _ => TInvalidMessageRecord) (message_from_raw (tr_fragment x) (tr_type x)) in Ok (Some m)),
     r', ts ++ tr_fragment x)
  | (Done (Ok None), r') => (Done (Ok None), r', ts)
  | (Done (Err e), r') => (Done (Err e), r', ts)
  | (Done Panic, r') => (Done Panic, r', ts)
  | (Wait, r') => (Wait, r', ts)
  end.
(** stream.rs:287-313 [poll_flush]: also what the transport took.  (A transport that keeps
    taking zero bytes makes the code loop; here its answers run out.) *)
Fixpoint flush_out (out : bytes) (ws : write_state) (answers : list wanswer)
  : poll (tls unit) * bytes * write_state * list wanswer * bytes :=
  match out with
  | [] =>
    match answers with
    | [] => (Wait, [], ws, [], [])
    | WPending :: t => (Wait, [], ws, t, [])
    | WError e :: t => (Done (Err (TIo e)), [], ws, t, [])
    | WOk _ :: t => (Done (Ok tt), [], ws, t, [])
    end
  | _ =>
    match answers with
    | [] => (Wait, out, ws, [], [])
    | WPending :: t => (Wait, out, ws, t, [])
    | WError e :: t => (Done (Err (TIo e)), out, WsError (TIo e), t, [])
    | WOk n :: t =>
      let '(r, out', ws', t', sent) := flush_out (skipn n out) ws t in (r, out', ws', t', firstn n out ++ sent)
    end
  end.
Definition stream_flush (s : plaintext_stream) (w : list wanswer) : poll (tls unit) * plaintext_stream * list wanswer * bytes :=
  let '(r, out, ws, w, sent) := flush_out (ps_out s) (ps_write s) w in
  (r, {| ps_receiver := ps_receiver s; ps_out := out; ps_write := ws |}, w, sent).
(** stream.rs:39-42 [Encryption], 333-337 [SequenceEncryption]. *)
Record encryption := { e_secrets : traffic_secrets; e_ciphers : ciphers }.
Record sequence_encryption := { se_client : N; se_server : N; se_enc : encryption }.
(** [+= 1] on a u64. *)
Definition incr (n : N) : tls N := if two64 <=? n + 1 then Panic else Ok (n + 1).
(** stream.rs:339-364 [poll_receive_encrypted_message]: the result, the receiver, the
    sequence number and the transcript. *)
Definition receive_encrypted_message (P : primitives) (r : record_receiver) (seq : N) (e : encryption) (ts : option transcript)
  : poll (tls (option message)) * record_receiver * N * option transcript :=
  match receive_record_ignore_cc r with
  | (Wait, r') => (Wait, r', seq, ts)
  | (Done (Err x), r') => (Done (Err x), r', seq, ts)
  | (Done Panic, r') => (Done Panic, r', seq, ts)
  | (Done (Ok None), r') => (Done (Ok None), r', seq, ts)
  | (Done (Ok (Some x)), r') =>
    match (let? m := decrypt_message P seq (t_server (e_secrets e)) (tr_raw x) in let? s := incr seq in Ok (m, s)) with
    | Ok ((m, raw), s) => (Done (Ok (Some m)), r', s, option_map (fun t => transcript_update t raw) ts)
    | Err x => (Done (Err x), r', seq, ts)
    | Panic => (Done Panic, r', seq, ts)
    end
  end.
