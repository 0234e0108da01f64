(** What the TLS client is supposed to do: RFC 8446, independently of the model's functions. *)
From Verif Require Import Base MplexModel BinaryModel Asn1Model X509Model TlsCodesModel TlsTypesModel TlsTypesSpec TlsRecordModel TlsRecordSpec TlsClientModel.
Local Open Scope string_scope. Local Open Scope list_scope. Local Open Scope N_scope.

(** *** Received records *)
Definition is_record (raw : bytes) (type : N) (fragment : bytes) : Prop :=
  exists v1 v0 l1 l0, raw = [type; v1; v0; l1; l0] ++ fragment /\ blen fragment = 256 * l1 + l0 /\ blen fragment <= 16640.
(** [carries d l]: [d] is a sequence of records; [l] those that are not ChangeCipherSpec. *)
Inductive carries : bytes -> list bytes -> Prop :=
| carries_none : carries [] []
| carries_ccs d l raw fragment : carries d l -> is_record raw 20 fragment -> carries (d ++ raw) l
| carries_one d l raw type fragment : carries d l -> is_record raw type fragment -> type <> 20 -> carries (d ++ raw) (l ++ [raw]).
(** [raw] is the encryption of [content], of this type, under this key and number. *)
Definition opens (P : primitives) (k : key) (seq : N) (raw content : bytes) (type : N) : Prop :=
  exists header c pad, raw = header ++ c /\ length header = 5%nat /\
    unseal P (k_alg k) (k_key k) (rfc_nonce (k_iv k) seq) header c = Some (inner_plaintext content type pad) /\ type <> 0.
(** The handshake message in a record's content. *)
Definition handshake_in (content : bytes) (h : handshake) : Prop := message_from_raw content CtHandshake = Ok (MHandshake h).
(** [raws] are, one after the other, the encryptions of [contents], which hold [messages];
    numbered from [seq]. *)
Fixpoint flight (P : primitives) (k : key) (seq : N) (raws contents : list bytes) (messages : list handshake) : Prop :=
  match raws, contents, messages with
  | [], [], [] => True
  | r :: raws, c :: contents, m :: messages => opens P k seq r c 22 /\ handshake_in c m /\ flight P k (seq + 1) raws contents messages
  | _, _, _ => False
  end.

(** *** The key schedule, RFC 8446 section 7.1 *)
Definition expand_label (P : primitives) (h : hash_alg) (secret : bytes) (label : string) (context : bytes) (len : nat) : bytes :=
  let l := ascii_bytes "tls13 " ++ ascii_bytes label in
  expand P h secret (be_bytes 2 (N.of_nat len) ++ [blen l] ++ l ++ [blen context] ++ context) len.
Definition no_bytes (h : hash_alg) : bytes := repeat 0 (byte_len h).
Definition next_secret (P : primitives) (h : hash_alg) (secret input : bytes) : bytes :=
  extract P h (expand_label P h secret "derived" (digest P h []) (byte_len h)) input.
Definition handshake_secret (P : primitives) (h : hash_alg) (shared : bytes) : bytes :=
  next_secret P h (extract P h (no_bytes h) (no_bytes h)) shared.
Definition master_secret (P : primitives) (h : hash_alg) (shared : bytes) : bytes :=
  next_secret P h (handshake_secret P h shared) (no_bytes h).
Definition traffic_key (P : primitives) (h : hash_alg) (a : aead_alg) (secret : bytes) (label : string) (messages : bytes) : key :=
  let s := expand_label P h secret label (digest P h messages) (byte_len h) in
  {| k_raw := s; k_alg := a; k_key := expand_label P h s "key" [] (key_len a); k_iv := expand_label P h s "iv" [] 12 |}.
Definition finished_value (P : primitives) (h : hash_alg) (k : key) (messages : bytes) : bytes :=
  hmac P h (expand_label P h (k_raw k) "finished" [] (byte_len h)) (digest P h messages).
(** What is assumed of the hash functions: the sizes of their results. *)
Definition sizes_ok (P : primitives) : Prop :=
  (forall h d, length (digest P h d) = byte_len h) /\ (forall h s i, length (extract P h s i) = byte_len h) /\
  (forall h s i n, length (expand P h s i n) = n /\ bytes_ok (expand P h s i n)).
(** The suites. *)
Definition suite_of (s : cipher_suite) (h : hash_alg) (a : aead_alg) : Prop :=
  (s = CsTLSAES128GCMSHA256 /\ h = SHA256 /\ a = AES_128_GCM) \/ (s = CsTLSAES256GCMSHA384 /\ h = SHA384 /\ a = AES_256_GCM).
(** The server's X25519 share. *)
Definition is_share (x : extension) (k : bytes) : Prop := x = XKeyShareServer {| ks_group := NgX25519; ks_key := k |}.
Definition share_of (sh : server_hello) (k : bytes) : Prop :=
  exists before x after, sh_extensions sh = before ++ x :: after /\ is_share x k /\ Forall (fun y => forall k', ~ is_share y k') before.

(** *** Certificates and signatures *)
(** The signature of [cert] is right under the key in [issuer]. *)
Definition issued_by (P : primitives) (issuer cert : bytes) : Prop :=
  exists ic item tbs_item alg_item sig_item g a unused signature signed,
    certificate_from_bytes issuer = Ok ic /\
    fst (read_der (new_reader cert)) = Ok item /\ item_value item = VSequence [tbs_item; alg_item; sig_item] /\
    algorithm_from alg_item = Ok g /\ item_value sig_item = VBitString unused signature /\
    In (al_oid g, a) [([1; 2; 840; 113549; 1; 1; 11], RsaPkcs1 SHA256); ([1; 2; 840; 113549; 1; 1; 12], RsaPkcs1 SHA384);
                      ([1; 2; 840; 113549; 1; 1; 13], RsaPkcs1 SHA512); ([1; 2; 840; 10045; 4; 3; 2], EcdsaP256Sha256);
                      ([1; 3; 101; 112], Ed25519Sig)] /\
    (exists before after, cert = before ++ signed ++ after /\ item_start tbs_item = length before /\ item_stop tbs_item = length (before ++ signed)) /\
    sig_verify P a (bs_bytes (sp_key (tb_key (ce_tbs ic)))) signed signature = true.
(** RFC 8446 section 4.4.3. *)
Definition signed_by (P : primitives) (k : bytes) (context : string) (hash : bytes) (cv : certificate_verify) : Prop :=
  exists a, In (cv_algorithm cv, a) [(SsEcdsaSecp256r1Sha256, EcdsaP256Sha256); (SsRsaPssRsaeSha256, RsaPss SHA256);
      (SsRsaPssRsaeSha384, RsaPss SHA384); (SsRsaPssRsaeSha512, RsaPss SHA512); (SsEd25519, Ed25519Sig)] /\
    sig_verify P a k (repeat 32 64 ++ ascii_bytes context ++ [0] ++ hash) (cv_signature cv) = true.
(** The certificate to check the server's with. *)
Definition trusted (cfg : config) (leaf ca : bytes) : Prop := cf_server cfg = SaAuthority ca \/ (cf_server cfg = SaSelfSigned /\ ca = leaf).

(** *** An authentic server *)
(** [received]: all bytes that came from the transport; [hello]: the ClientHello message;
    [remain]: the bytes after the handshake; [h], [client], [whole]: the hash, the client's
    handshake key and all messages so far; [keys]: the keys of the connection. *)
Definition authentic (P : primitives) (cfg : config) (private hello received remain : bytes) (h : hash_alg) (client : key) (whole : bytes) (keys : traffic_secrets) : Prop :=
  exists consumed raw0 raws b0 sh a share secret bodies b_verify b_finished messages ee cr certs leaf more cv finished ca,
    received = consumed ++ remain /\ carries consumed (raw0 :: raws) /\
    is_record raw0 22 b0 /\ handshake_in b0 (HServerHello sh) /\ suite_of (sh_suite sh) h a /\
    share_of sh share /\ agree P private share = Some secret /\
    let hs := handshake_secret P h secret in
    let server := traffic_key P h a hs "s hs traffic" (hello ++ b0) in
    client = traffic_key P h a hs "c hs traffic" (hello ++ b0) /\
    flight P server 0 raws (bodies ++ [b_verify; b_finished]) messages /\
    messages = [HEncryptedExtensions ee] ++ match cr with Some r => [HCertificateRequest r] | None => [] end ++
               [HCertificate certs; HCertificateVerify cv; HFinished finished] /\
    ct_list certs = leaf :: more /\ trusted cfg (en_data leaf) ca /\ issued_by P ca (en_data leaf) /\
    let upto := hello ++ b0 ++ concat bodies in
    signed_by P (bs_bytes (sp_key (tb_key (ce_tbs (en_certificate leaf))))) "TLS 1.3, server CertificateVerify" (digest P h upto) cv /\
    finished = finished_value P h server (upto ++ b_verify) /\
    whole = upto ++ b_verify ++ b_finished /\
    keys = {| t_client := traffic_key P h a (master_secret P h secret) "c ap traffic" whole;
              t_server := traffic_key P h a (master_secret P h secret) "s ap traffic" whole |}.
(** What the client answers: its certificate if it has one, proof of its key, Finished. *)
Definition is_message (d : bytes) (h : handshake) : Prop := exists t body, handshake_parts h = Some (t, body) /\ d = handshake_bytes t body.
Definition client_signed (P : primitives) (k : client_key) (hash : bytes) (cv : certificate_verify) : Prop :=
  let input := repeat 32 64 ++ ascii_bytes "TLS 1.3, client CertificateVerify" ++ [0] ++ hash in
  match k with
  | CkRsa k => cv_algorithm cv = SsRsaPssRsaeSha256 /\ sign_rsa P SHA256 k input = Ok (cv_signature cv)
  | CkEc k => cv_algorithm cv = SsEd25519 /\ sign_ed25519 P k input = Ok (cv_signature cv)
  end.
Definition client_flight (P : primitives) (cfg : config) (h : hash_alg) (client : key) (whole content : bytes) : Prop :=
  exists out fin, content = out ++ fin /\ is_message fin (HFinished (finished_value P h client (whole ++ out))) /\
    match cf_client cfg with
    | CaNone => out = []
    | CaCertificate cert k => exists c v parsed cv, out = c ++ v /\ certificate_from_bytes cert = Ok parsed /\
        is_message c (HCertificate {| ct_context := []; ct_list := [{| en_data := cert; en_certificate := parsed; en_extensions := [] |}] |}) /\
        is_message v (HCertificateVerify cv) /\ client_signed P k (digest P h (whole ++ c)) cv
    end.
(** All that is sent in the handshake: the ClientHello record; later one encrypted record. *)
Definition hello_record (hello : bytes) : bytes := [22; 3; 1] ++ be_bytes 2 (blen hello mod 65536) ++ hello.
Definition client_sent (P : primitives) (cfg : config) (h : hash_alg) (client : key) (whole hello sent : bytes) : Prop :=
  exists content raw, client_flight P cfg h client whole content /\ blen content <= 16384 /\
    protect P client 0 (inner_plaintext content 22 0) = Some raw /\ sent = hello_record hello ++ raw.
(** What may have been sent in the handshake at any time, if completed: the ClientHello record;
    the rest only after an authentic server's messages. *)
Definition sent_so_far (P : primitives) (cfg : config) (private hello received total : bytes) : Prop :=
  total = hello_record hello \/
  exists remain h client whole keys, authentic P cfg private hello received remain h client whole keys /\ client_sent P cfg h client whole hello total.

(** *** Runs of the handshake *)
(** The data in the answers of the transport that were used. *)
Definition data_of (a : answer) : bytes := match a with ARead d => d | _ => [] end.
Definition used (answers remain : list answer) : bytes := concat (map data_of (firstn (length answers - length remain) answers)).
(** Poll again and again, the transport answering anything, until there is a result: the
    result, the received bytes, the sent bytes. *)
Fixpoint handshake_run (P : primitives) (s : ec_state) (polls : list (list answer * list wanswer)) : option (tls connection) * bytes * bytes :=
  match polls with
  | [] => (None, [], [])
  | (answers, w) :: polls =>
    let '(x, s', remain, _, sent) := establish_poll P s answers w in
    match x, s' with
    | Done r, _ => (Some r, used answers remain, sent)
    | Wait, Some s' => let '(r, rx, tx) := handshake_run P s' polls in (r, used answers remain ++ rx, sent ++ tx)
    | Wait, None => (Some Panic, used answers remain, sent)
    end
  end.

(** *** The order of the messages *)
Definition rank (h : handshake) : option nat :=
  match h with
  | HEncryptedExtensions _ => Some 1%nat | HCertificateRequest _ => Some 2%nat | HCertificate _ => Some 3%nat
  | HCertificateVerify _ => Some 4%nat | HFinished _ => Some 5%nat | _ => None
  end.
(** Encrypted extensions first, then in this order, each at most once. *)
Fixpoint in_order (last : nat) (l : list handshake) : Prop :=
  match l with
  | [] => True
  | h :: l => exists n, rank h = Some n /\ (last < n)%nat /\ (last = 0%nat -> n = 1%nat) /\ in_order n l
  end.

(** *** The connection *)
(** Operations of the user, with the transport's answers to each. *)
Inductive cop := CRead (room : nat) (answers : list answer) | CWrite (data : bytes) (w : list wanswer) | CFlush (w : list wanswer) | CShutdown (w : list wanswer).
Inductive cres := RRead (x : poll (tls bytes)) | RWrite (x : poll (tls nat)) | RFlush (x : poll (tls unit)) | RShutdown (x : poll (tls unit)).
(** The result, the connection, the bytes received, the bytes sent. *)
Definition cstep (P : primitives) (c : connection) (o : cop) : cres * connection * bytes * bytes :=
  match o with
  | CRead room answers => let '(x, c', remain) := conn_read P c room answers in (RRead x, c', used answers remain, [])
  | CWrite data w => let '(x, c', _, sent) := conn_write P c data w in (RWrite x, c', [], sent)
  | CFlush w => let '(x, c', _, sent) := conn_flush c w in (RFlush x, c', [], sent)
  | CShutdown w => let '(x, c', _, sent) := conn_shutdown P c w in (RShutdown x, c', [], sent)
  end.
Fixpoint crun (P : primitives) (c : connection) (os : list cop) : list cres * connection * bytes * bytes :=
  match os with
  | [] => ([], c, [], [])
  | o :: os =>
    let '(x, c, rx, tx) := cstep P c o in
    let '(xs, c, rxs, txs) := crun P c os in (x :: xs, c, rx ++ rxs, tx ++ txs)
  end.
(** The bytes of the writes that were accepted, and those the reads returned. *)
Definition accepted_by (o : cop) (r : cres) : bytes :=
  match o, r with CWrite d _, RWrite (Done (Ok n)) => firstn n d | _, _ => [] end.
Definition accepted (os : list cop) (rs : list cres) : bytes := concat (map (fun p => accepted_by (fst p) (snd p)) (combine os rs)).
Definition returned_by (r : cres) : bytes := match r with RRead (Done (Ok d)) => d | _ => [] end.
Definition returned (rs : list cres) : bytes := concat (map returned_by rs).
(** The encrypted records with these contents and types, numbered from [seq]. *)
Fixpoint protected (P : primitives) (k : key) (seq : N) (l : list (bytes * N)) : option bytes :=
  match l with
  | [] => Some []
  | (content, type) :: l =>
    match protect P k seq (inner_plaintext content type 0), protected P k (seq + 1) l with
    | Some r, Some rest => Some (r ++ rest)
    | _, _ => None
    end
  end.
(** A connection that has just been established. *)
Definition fresh (k_client k_server : key) (c : connection) : Prop :=
  se_client (cn_seq c) = 0 /\ se_server (cn_seq c) = 0 /\ e_secrets (se_enc (cn_seq c)) = {| t_client := k_client; t_server := k_server |} /\
  ps_write (cn_plain c) = WsActive /\ ps_out (cn_plain c) = [] /\ cn_in c = [] /\ cn_read c = RActive.
(** What a client sends: pieces of application data, then maybe close_notify. *)
Definition sent_list (pieces : list bytes) (closed : bool) : list (bytes * N) :=
  map (fun d => (d, 23)) pieces ++ if closed then [([1; 0], 21)] else [].
(** [took P k raws l]: of the records [raws], [l] (contents and types) have been accepted, as
    numbers 0, 1, 2, ...; the others are no application data with the number due. *)
Inductive took (P : primitives) (k : key) : list bytes -> list (bytes * N) -> Prop :=
| took_none : took P k [] []
| took_one raws l raw content type : took P k raws l -> opens P k (N.of_nat (length l)) raw content type -> took P k (raws ++ [raw]) (l ++ [(content, type)])
| took_bad raws l raw : took P k raws l -> (forall content, ~ opens P k (N.of_nat (length l)) raw content 23) -> took P k (raws ++ [raw]) l.
Definition app_data (l : list (bytes * N)) : bytes := concat (map (fun p => if snd p =? 23 then fst p else []) l).
(** An alert close_notify. *)
Definition is_close (content : bytes) : Prop := exists level rest, content = [level; 0] ++ rest.
(** The bytes of all answers of the transport offered in a run. *)
Definition offered (os : list cop) : bytes := concat (map (fun o => match o with CRead _ answers => concat (map data_of answers) | _ => [] end) os).
Definition is_shutdown (o : cop) : Prop := match o with CShutdown _ => True | _ => False end.
(** All handshake messages the client state machine is given, one after the other. *)
Fixpoint feed_all (s : client_state) (l : list (bytes * handshake)) : tls client_state :=
  match l with [] => Ok s | (hash, h) :: l => let? s := on_handshake s hash h in feed_all s l end.

(** *** A toy server, for the examples *)
Definition got {E} (x : outcome E bytes) : bytes := match x with Ok d => d | _ => [] end.
Definition toy_random : bytes := repeat 17 32.
Definition toy_cfg (sa : server_auth) : config := {| cf_client := CaNone; cf_server := sa; cf_name := Some (ascii_bytes "example.org") |}.
Definition toy_hello : bytes := got (encode_handshake (HClientHello (make_client_hello toy_random toy_random (repeat 4 32) (Some (ascii_bytes "example.org")) [ascii_bytes "h2"]))).
Definition toy_server_hello : bytes := got (encode_handshake (HServerHello {| sh_version := 771; sh_random := repeat 18 32; sh_session := toy_random; sh_suite := CsTLSAES128GCMSHA256;
  sh_compression := 0; sh_extensions := [XKeyShareServer {| ks_group := NgX25519; ks_key := repeat 3 32 |}] |})).
Definition toy_secret : bytes := xor_bytes (repeat 4 32) (repeat 3 32).
Definition toy_hs (label : string) : key := traffic_key toy SHA256 AES_128_GCM (handshake_secret toy SHA256 toy_secret) label (toy_hello ++ toy_server_hello).
(** A certificate of nobody in particular, valid for one second in 1999, signed by itself. *)
Definition toy_tbs : tbs :=
  {| tb_version := V3; tb_serial := [1]; tb_signature := {| al_oid := [1; 3; 101; 112]; al_params := None |}; tb_issuer := [];
     tb_validity := {| va_before := TUtc (ascii_bytes "990101000000Z"); va_after := TUtc (ascii_bytes "990101000001Z") |}; tb_subject := [];
     tb_key := {| sp_alg := {| al_oid := [1; 3; 101; 112]; al_params := None |}; sp_key := {| bs_unused := 0; bs_bytes := [1; 2; 3] |} |};
     tb_issuer_id := None; tb_subject_id := None; tb_extensions := [] |}.
Definition toy_sign (m : bytes) : bytes := toy_digest SHA256 ([1; 2; 3] ++ m).
Definition toy_cert : certificate := {| ce_tbs := toy_tbs; ce_alg := {| al_oid := [1; 3; 101; 112]; al_params := None |};
  ce_value := {| bs_unused := 0; bs_bytes := toy_sign (got (encode_item (tbs_to toy_tbs))) |} |}.
Definition toy_cert_bytes : bytes := got (encode_item (certificate_to toy_cert)).
Definition toy_m1 : bytes := [8; 0; 0; 2; 0; 0].
Definition toy_m2 : bytes := got (encode_handshake (HCertificate {| ct_context := []; ct_list := [{| en_data := toy_cert_bytes; en_certificate := toy_cert; en_extensions := [] |}] |})).
Definition toy_m3 : bytes := got (encode_handshake (HCertificateVerify {| cv_algorithm := SsEd25519;
  cv_signature := toy_sign (repeat 32 64 ++ ascii_bytes "TLS 1.3, server CertificateVerify" ++ [0] ++ toy_digest SHA256 (toy_hello ++ toy_server_hello ++ toy_m1 ++ toy_m2)) |})).
Definition toy_m4 (value : bytes) : bytes := got (encode_handshake (HFinished value)).
Definition toy_finished : bytes := finished_value toy SHA256 (toy_hs "s hs traffic") (toy_hello ++ toy_server_hello ++ toy_m1 ++ toy_m2 ++ toy_m3).
Definition some (x : option bytes) : bytes := match x with Some d => d | None => [] end.
(** The server's records with these messages. *)
Definition toy_flight (messages : list bytes) : bytes :=
  [22; 3; 3] ++ be_bytes 2 (blen toy_server_hello) ++ toy_server_hello ++ [20; 3; 3; 0; 1; 1] ++
  some (protected toy (toy_hs "s hs traffic") 0 (map (fun m => (m, 22)) messages)).
Definition toy_start (sa : server_auth) : ec_state := establish toy toy_random toy_random (repeat 4 32) (toy_cfg sa) [ascii_bytes "h2"].
(** Send in two pieces; receive in three. *)
Definition toy_polls (flight : bytes) : list (list answer * list wanswer) :=
  [([], [WOk 100; WPending]); ([ARead (firstn 60 flight)], [WOk 2000; WOk 0]); ([ARead (firstn 200 (skipn 60 flight)); APending], []);
   ([ARead (skipn 260 flight)], [WOk 100; WOk 1])].
Definition toy_run (sa : server_auth) (messages : list bytes) := handshake_run toy (toy_start sa) (toy_polls (toy_flight messages)).
