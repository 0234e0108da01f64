(** Specifications for the QUIC model: RFC 9000 and RFC 9001. *)
From Verif Require Import Base BinaryModel BinarySpec TlsCodesModel TlsTypesModel TlsRecordModel TlsRecordSpec TlsClientSpec QuicModel.
Local Open Scope string_scope. Local Open Scope list_scope. Local Open Scope N_scope.

(** What is assumed of the block function: it maps blocks to blocks. *)
Definition block_ok (B : bytes -> bytes -> bytes) : Prop := forall k d, length d = 16%nat -> length (B k d) = 16%nat /\ bytes_ok (B k d).
Definition secrets_ok (s : endpoint_secrets) : Prop := length (q_key s) = 16%nat /\ length (q_iv s) = 12%nat /\ bytes_ok (q_iv s).

(** *** Header protection (RFC 9001, 5.4.1 and 5.4.2) *)
(** Four bits of the first byte of a long header, five of a short one, and the packet number
    after the rest of the header are masked; the mask is the sample four bytes on, encrypted. *)
Definition masked (B : bytes -> bytes -> bytes) (hp : bytes) (pn_offset : nat) (plain protected : bytes) : Prop :=
  exists b mid pn rest m0 m more,
    plain = b :: mid ++ pn ++ rest /\ (1 + length mid)%nat = pn_offset /\ N.of_nat (length pn) = b mod 4 + 1 /\
    B hp (between plain (pn_offset + 4) (pn_offset + 20)) = m0 :: m ++ more /\ length m = length pn /\
    protected = N.lxor b (if 128 <=? b then m0 mod 16 else m0 mod 32) :: mid ++ xor_bytes pn m ++ rest.

(** *** Packet protection (RFC 9001, 5.3) *)
(** A header up to and with its packet number: the low two bits of the first byte are its
    length less one. *)
Definition header_of (header : bytes) (pn_offset : nat) (pn : N) : Prop :=
  exists b mid n, header = b :: mid ++ be_bytes n pn /\ (1 + length mid)%nat = pn_offset /\ N.of_nat n = b mod 4 + 1 /\ pn < 256 ^ N.of_nat n.
Definition packet_of (P : primitives) (B : bytes -> bytes -> bytes) (a : aead_alg) (s : endpoint_secrets) (header : bytes) (pn_offset : nat) (pn : N) (payload packet : bytes) : Prop :=
  exists c, seal P a (q_key s) (rfc_nonce (q_iv s) pn) header payload = Some c /\ masked B (q_hp s) pn_offset (header ++ c) packet.

(** *** Transport parameters (RFC 9000, 18) *)
Definition param_ids : list (N * param_number) :=
  [(1, PMaxIdle); (3, PMaxUdp); (4, PMaxData); (5, PStreamBidiLocal); (6, PStreamBidiRemote); (7, PStreamUni); (8, PStreamsBidi); (9, PStreamsUni); (14, PActiveIds)].
(** A number in [w] bytes, not necessarily as few as possible. *)
Definition quic_form (w : nat) (v : N) : bytes := be_bytes w (quic_tag w * 2 ^ (8 * N.of_nat w - 2) + v).
Definition form_ok (w : nat) (v : N) : Prop := In w [1; 2; 4; 8]%nat /\ v < 2 ^ (8 * N.of_nat w - 2).
(** An identifier, a length and a value. *)
Record wire_param := { wp_id : N; wp_id_width : nat; wp_len_width : nat; wp_value : bytes }.
Definition wire_param_ok (x : wire_param) : Prop := form_ok (wp_id_width x) (wp_id x) /\ form_ok (wp_len_width x) (blen (wp_value x)).
Definition wire_param_bytes (x : wire_param) : bytes := quic_form (wp_id_width x) (wp_id x) ++ quic_form (wp_len_width x) (blen (wp_value x)) ++ wp_value x.
(** The same in the fewest bytes. *)
Definition shortest (id : N) (d : bytes) : wire_param := {| wp_id := id; wp_id_width := quic_width id; wp_len_width := quic_width (blen d); wp_value := d |}.
(** What an identifier and a value mean. *)
Inductive means : N -> bytes -> param -> Prop :=
| MNumber id p w v : In (id, p) param_ids -> form_ok w v -> means id (quic_form w v) (PNumber p v)
| MBadNumber id p d : In (id, p) param_ids -> (forall w v, form_ok w v -> d <> quic_form w v) -> means id d (PInvalid id d)
| MSource d : (length d <= 20)%nat -> means 15 d (PSourceId d)
| MBadSource d : (20 < length d)%nat -> means 15 d (PInvalid 15 d)
| MOther id d : ~ In id (15 :: map fst param_ids) -> means id d (PUnknown id d).
(** Parameters as they are sent. *)
Inductive sent_as : param -> N -> bytes -> Prop :=
| SOriginal d : sent_as (POriginalId d) 0 d
| SNumber id p v : In (id, p) param_ids -> v < two62 -> sent_as (PNumber p v) id (quic_enc v)
| SSource d : sent_as (PSourceId d) 15 d
| SInvalid id d : id < two62 -> sent_as (PInvalid id d) id d
| SUnknown id d : id < two62 -> sent_as (PUnknown id d) id d.
(** The parameters that can be told from others once they are sent. *)
Definition canonical (p : param) : Prop :=
  match p with
  | POriginalId _ => False
  | PNumber _ v => v < two62
  | PSourceId d => (length d <= 20)%nat
  | PInvalid id d => means id d (PInvalid id d) /\ blen d < two62
  | PUnknown id d => ~ In id (15 :: map fst param_ids) /\ id < two62 /\ blen d < two62
  end.
(** No number in it takes more bytes than it has to. *)
Definition minimal (x : wire_param) : Prop :=
  wp_id_width x = quic_width (wp_id x) /\ wp_len_width x = quic_width (blen (wp_value x)) /\
  (In (wp_id x) (map fst param_ids) -> forall w v, form_ok w v -> wp_value x = quic_form w v -> w = quic_width v).

(** The same of all the transport parameters of a client hello. *)
Definition params_minimal (h : client_hello) : Prop :=
  forall d, In (XTransportParameters d) (ch_extensions h) ->
    exists xs, d = concat (map wire_param_bytes xs) /\ Forall wire_param_ok xs /\ Forall minimal xs /\ bytes_ok d /\ fits d.

(** *** The crypto stream (RFC 9000, 19.6) *)
(** A frame carries a part of the message. *)
Definition part_of (msg : bytes) (f : crypto_frame) : Prop :=
  exists a b, msg = a ++ cf_data f ++ b /\ cf_start f = blen a.
Definition frame_end (f : crypto_frame) : N := cf_start f + blen (cf_data f).
Fixpoint crypto_run (s : crypto_stream) (fs : list crypto_frame) : quic crypto_stream :=
  match fs with
  | [] => Ok s
  | f :: fs => let? s := crypto_send s f in crypto_run s fs
  end.
(** [n] is as far as the frames reach without a gap. *)
Definition reach (fs : list crypto_frame) (n : N) : Prop :=
  (forall i, i < n -> exists f, In f fs /\ cf_start f <= i < frame_end f) /\
  (forall f, In f fs -> cf_start f <= n -> frame_end f <= n).
Definition disjoint (f g : crypto_frame) : Prop := frame_end f <= cf_start g \/ frame_end g <= cf_start f.
(** A message cut into pieces. *)
Fixpoint cut (start : N) (pieces : list bytes) : list crypto_frame :=
  match pieces with
  | [] => []
  | d :: l => {| cf_start := start; cf_data := d |} :: cut (start + blen d) l
  end.

(** *** Frames (RFC 9000, 19) *)
Definition frame_ok (f : frame) : Prop :=
  match f with
  | FPing => True
  | FCrypto c => cf_start c < two62 /\ blen (cf_data c) < two62
  | FClose code t reason => code < two62 /\ t < two62 /\ blen reason < two62
  end.
Definition crypto_bytes (c : crypto_frame) : bytes := [6] ++ quic_enc (cf_start c) ++ quic_enc (blen (cf_data c)) ++ cf_data c.
Definition close_bytes (code t : N) (reason : bytes) : bytes := [0x1c] ++ quic_enc code ++ quic_enc t ++ quic_enc (blen reason) ++ reason.
(** As the endpoint takes them: 2 for a ping. *)
Definition frame_bytes (f : frame) : bytes :=
  match f with
  | FPing => [2]
  | FCrypto c => crypto_bytes c
  | FClose code t reason => close_bytes code t reason
  end.

(** A byte of padding or a frame. *)
Definition item_bytes (x : option frame) : bytes := match x with Some f => frame_bytes f | None => [0] end.
Definition item_ok (x : option frame) : Prop := match x with Some f => frame_ok f | None => True end.
Definition frames_of (l : list (option frame)) : list frame := flat_map (fun x => match x with Some f => [f] | None => [] end) l.

(** *** Initial packets (RFC 9000, 17.2.2) with a packet number of four bytes *)
Definition rfc_header (dst src token : bytes) (len pn : N) : bytes :=
  0xc3 :: [0; 0; 0; 1] ++ [blen dst] ++ dst ++ [blen src] ++ src ++ quic_enc (blen token) ++ token ++ quic_form 2 len ++ be_bytes 4 pn.

(** *** Initial secrets (RFC 9001, 5.2) *)
Definition rfc_salt : N := 0x38762cf7f55934b34d179ae6a4c80cadccbb7f0a.
Definition rfc_keys (P : primitives) (secret : bytes) : endpoint_secrets :=
  {| q_key := expand_label P SHA256 secret "quic key" [] 16; q_iv := expand_label P SHA256 secret "quic iv" [] 12; q_hp := expand_label P SHA256 secret "quic hp" [] 16 |}.
Definition rfc_secrets (P : primitives) (id : bytes) : connection_secrets :=
  let initial := extract P SHA256 (be_bytes 20 rfc_salt) id in
  {| q_client := rfc_keys P (expand_label P SHA256 initial "client in" [] 32); q_server := rfc_keys P (expand_label P SHA256 initial "server in" [] 32) |}.

(** *** A toy block function, for the examples *)
Definition toy_block (k d : bytes) : bytes := be_bytes 16 (mix (k ++ d) * 0x123456789abcdef123).
