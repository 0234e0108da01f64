(** Model of the QUIC test program, src/bin/quic_test.rs (its client hello, its client and
    its server; the packets themselves are in QuicModel.v), of the texts of transport
    parameters (src/quic/parameters.rs) and of the packet dispatcher of src/quic/spec.rs.

    Simplifications: the program is a [dprog] of AnnounceModel.v: binding, sending and
    receiving succeed.  The random number generator and the key generator succeed; their
    results are parameters.  Of what is printed, only the transport parameters of the client
    hellos of a packet that was understood are kept (quic_test.rs:287-288).  The subcommand
    that parses a fixed packet is not modelled.  The log of the dispatcher, which the code
    throws away, is kept. *)
From Verif Require Import Base BinaryModel TlsCodesModel TlsTypesModel TlsRecordModel QuicModel UtilModel ChatModel Asn1ToolModel BencodePathModel AnnounceModel.
Local Open Scope string_scope. Local Open Scope list_scope. Local Open Scope N_scope.

(** *** parameters.rs, spec.rs: texts *)
(** spec.rs:52-67: the text of a connection id. *)
Definition id_text (id : bytes) : bytes := match id with [] => ascii_bytes "." | _ => to_hex id end.
(** parameters.rs:34-44: the names of the numbers. *)
Definition number_name (p : param_number) : string :=
  match p with
  | PMaxIdle => "max_idle_timeout"
  | PMaxUdp => "max_udp_payload_size"
  | PMaxData => "initial_max_data"
  | PStreamBidiLocal => "initial_max_stream_data_bidi_local"
  | PStreamBidiRemote => "initial_max_stream_data_bidi_remote"
  | PStreamUni => "initial_max_stream_data_uni"
  | PStreamsBidi => "initial_max_streams_bidi"
  | PStreamsUni => "initial_max_streams_uni"
  | PActiveIds => "active_connection_id_limit"
  end.
(** parameters.rs:30-49: [fmt::Debug] of a transport parameter. *)
Definition param_text (p : param) : bytes :=
  match p with
  | POriginalId id => ascii_bytes "original_destination_connection_id = " ++ id_text id
  | PNumber n v => ascii_bytes (number_name n) ++ ascii_bytes " = " ++ decimal v
  | PSourceId id => ascii_bytes "initial_source_connection_id = " ++ id_text id
  | PInvalid id d => ascii_bytes "invalid(0x" ++ hex_number id ++ ascii_bytes ") = " ++ to_hex d
  | PUnknown id d => ascii_bytes "unknown(0x" ++ hex_number id ++ ascii_bytes ") = " ++ to_hex d
  end.
(** quic_test.rs:287-288: the [{:#?}] of a vector of them. *)
Definition params_text (l : list param) : bytes :=
  line (ascii_bytes "decoded_params =") ++
  line (match l with
        | [] => ascii_bytes "[]"
        | _ => line (ascii_bytes "[") ++ flat_map (fun p => line (ascii_bytes "    " ++ param_text p ++ ascii_bytes ",")) l ++ ascii_bytes "]"
        end).

(** *** quic_test.rs *)
(** quic_test.rs:701-769 [make_client_hello]. *)
Definition make_client_hello (protocol_names : list bytes) (public_key : bytes) (params : list param) (random : bytes) : client_hello :=
  {| ch_version := 0x0303; ch_random := random; ch_session := [];
     ch_suites := [CsTLSAES128GCMSHA256; CsTLSAES256GCMSHA384; CsUnknown 0x00ff];
     ch_compression := [0];
     ch_extensions :=
       [XPointFormats [PfUncompressed; PfANSIX962CompressedPrime; PfANSIX962CompressedChar2];
        XSupportedGroups [NcX25519; NcSecp256r1; NcX448; NcSecp521r1; NcSecp384r1];
        XNextProtocol [];
        XAlpn protocol_names;
        XEncryptThenMac;
        XExtendedMasterSecret;
        XPostHandshakeAuth;
        XSignatureAlgorithms [SsEcdsaSecp256r1Sha256; SsEcdsaSecp384r1Sha384; SsEcdsaSecp521r1Sha512; SsEd25519; SsEd448;
          SsRsaPssPssSha256; SsRsaPssPssSha384; SsRsaPssPssSha512; SsRsaPssRsaeSha256; SsRsaPssRsaeSha384; SsRsaPssRsaeSha512;
          SsRsaPkcs1Sha256; SsRsaPkcs1Sha384; SsRsaPkcs1Sha512];
        XSupportedVersions [2; 3; 4];
        XPskModes [PmPskDheKe];
        XKeyShareClient [{| ks_group := NgX25519; ks_key := public_key |}];
        XTransportParameters (encode_list params)] |}.
(** quic_test.rs:777-778: the two connection ids; 795: the protocol. *)
Definition client_dst : bytes := [0x12; 0x34; 0x01; 0x02; 0x03; 0x04; 0x05; 0x06].
Definition client_src : bytes := [0x56; 0x78].
Definition tool_protocol : bytes := ascii_bytes "hq-29".
(** quic_test.rs:791-802: the client hello. *)
Definition tool_hello (random public_key : bytes) : client_hello :=
  make_client_hello [tool_protocol] public_key [PSourceId client_src] random.
(** quic_test.rs:278-288: the parameters that are printed, those of the last extension. *)
Definition hello_params (h : client_hello) : list param :=
  fold_left (fun l x => match x with XTransportParameters d => match decode_list d with Ok ps => ps | _ => l end | _ => l end) (ch_extensions h) [].
Definition messages_text (l : list handshake) : bytes :=
  flat_map (fun h => match h with HClientHello c => params_text (hello_params c) | _ => [] end) l.
(** quic_test.rs:837-844: one datagram; 507-514 [on_recv_packet]: an error is only printed; a
    panic ends the task, and [main] (932, 937) with an error. *)
Definition receive_one (P : primitives) (B : bytes -> bytes -> bytes) (cs : connections) : dprog :=
  DRecv None (N.to_nat 4096) (fun d =>
    match parse_packet P B cs d with
    | Ok (r, _) => DPrint (messages_text (rc_messages r)) (DEnd Succeeds)
    | Err _ => DEnd Succeeds
    | Panic => DEnd Fails
    end).
(** quic_test.rs:772-849 [udp_receiver_inner] and 693-698 [udp_receiver], as the server. *)
Definition server_program (P : primitives) (B : bytes -> bytes -> bytes) : dprog := receive_one P B [].
(** The same as the client. *)
Definition client_program (P : primitives) (B : bytes -> bytes -> bytes) (server : addr) (random public_key : bytes) : dprog :=
  match from_connection_id P SHA256 client_dst with
  | Err _ => DEnd Succeeds
  | Panic => DEnd Fails
  | Ok secrets =>
    match make_initial P B client_dst client_src [] (HClientHello (tool_hello random public_key)) (q_client secrets) with
    | Err _ => DEnd Succeeds
    | Panic => DEnd Fails
    | Ok initial => DSend server initial (receive_one P B (insert client_src secrets []))
    end
  end.

(** *** spec.rs: the dispatcher *)
(** spec.rs:165-174 [PacketType]; 150-157 [Packet], what the dispatcher looks at. *)
Inductive packet_type := PtInitial | PtZeroRTT | PtHandshake | PtRetry | PtVersionNegotiation | PtShortHeader.
Record qpacket := { qp_type : packet_type; qp_dst : bytes; qp_src : bytes }.
(** spec.rs:217-236 [Connection]: the two ids; 294-303: what it is given is ignored. *)
Record qconn := { qc_ours : bytes; qc_theirs : bytes }.
(** What became of a packet: the connection it was handed to, or what was logged. *)
Inductive delivery := Delivered (i : nat) | Logged (why : string).
(** spec.rs:260-267: the first connection with that id. *)
Fixpoint find_connection (i : nat) (id : bytes) (l : list qconn) : option nat :=
  match l with
  | [] => None
  | c :: l => if bytes_eqb id (qc_ours c) then Some i else find_connection (S i) id l
  end.
(** spec.rs:259-291 [on_receive_packet]; 243-245 [generate_connection_id] is [todo!()]. *)
Definition dispatch (server : bool) (l : list qconn) (p : qpacket) : outcome unit delivery :=
  match find_connection 0 (qp_dst p) l with
  | Some i => Ok (Delivered i)
  | None =>
    if server then
      match qp_type p with
      | PtInitial => Panic
      | _ => Ok (Logged "Non-initial packet received with unknown connection id")
      end
    else Ok (Logged "Packet received with unknown connection id")
  end.
(** spec.rs:253-257 [on_receive_datagram]: the packets in turn; no connection is ever added. *)
Fixpoint dispatch_all (server : bool) (l : list qconn) (ps : list qpacket) : outcome unit (list delivery) :=
  match ps with
  | [] => Ok []
  | p :: ps => let? d := dispatch server l p in let? ds := dispatch_all server l ps in Ok (d :: ds)
  end.
(** spec.rs:348-359: the text of a buffer. *)
Fixpoint spaced (first : bool) (d : bytes) : bytes :=
  match d with
  | [] => []
  | b :: d => (if first then [] else [32]) ++ to_hex [b] ++ spaced false d
  end.
Definition buffer_text (d : bytes) : bytes := ascii_bytes "<" ++ spaced true d ++ ascii_bytes ">".
