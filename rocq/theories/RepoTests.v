(** The unit tests of the repository, run in the model.

    Every [Example] below has the name, the input and the expected value of a test of
    src/formats/protobuf/protobuf.rs, src/formats/protobuf/varint.rs,
    src/ipfs/types/cid.rs or src/bittorrent/data.rs.  They check the model against the
    code's own expectations and are not claims about all inputs; those are in the files
    with the theorems.  Floats are compared by their bits (protobuf.rs:71-101), the NaN
    tests with the NaN that the input holds.  [enc_dec_random] of varint.rs:177-201 uses
    a library generator and is not repeated: theorem [C01_varint_round_trip] covers it. *)
From Verif Require Import Base VarintModel ProtobufModel UtilModel CidModel CidTextModel TorrentModel MultibaseModel QuicModel.
Local Open Scope string_scope. Local Open Scope list_scope. Local Open Scope N_scope.

(** The common part of the tests at protobuf.rs:597-1136: decode the hex text, read the
    first field, apply the accessor. *)
Definition first_field {A} (hex : string) (get : field_data -> outcome field_data_error A) : outcome unit A :=
  match from_hex (ascii_bytes hex) with
  | None => Panic
  | Some data =>
    match rd_field (reader_new data) with
    | Ok (Some (f, _)) => map_err (fun _ => tt) (get (fr_data f))
    | _ => Panic
    end
  end.

(** protobuf.rs:598-604. *)
Example decode_test_float_nan : first_field "e5010000c07f" fd_to_float = Ok 2143289344.
Proof. vm_compute. reflexivity. Qed.
(** protobuf.rs:607-613. *)
Example decode_test_double_nan : first_field "9102000000000000f87f" fd_to_double = Ok 9221120237041090560.
Proof. vm_compute. reflexivity. Qed.
(** protobuf.rs:617-623. *)
Example decode_test_string_empty : first_field "0a00" fd_to_string = Ok (ascii_bytes "").
Proof. vm_compute. reflexivity. Qed.
(** protobuf.rs:626-632. *)
Example decode_test_string_nonempty : first_field "120568656c6c6f" fd_to_string = Ok (ascii_bytes "hello").
Proof. vm_compute. reflexivity. Qed.
(** protobuf.rs:635-641. *)
Example decode_test_bytes_empty : first_field "1a00" fd_to_bytes = Ok [].
Proof. vm_compute. reflexivity. Qed.
(** protobuf.rs:644-650. *)
Example decode_test_bytes_nonempty : first_field "2204cafebabe" fd_to_bytes = Ok [202; 254; 186; 190].
Proof. vm_compute. reflexivity. Qed.
(** protobuf.rs:653-659. *)
Example decode_test_bool_true : first_field "2801" fd_to_bool = Ok true.
Proof. vm_compute. reflexivity. Qed.
(** protobuf.rs:662-668. *)
Example decode_test_bool_false : first_field "3000" fd_to_bool = Ok false.
Proof. vm_compute. reflexivity. Qed.
(** protobuf.rs:671-677. *)
Example decode_test_fixed32_positive : first_field "3dd2029649" fd_to_fixed32 = Ok 1234567890.
Proof. vm_compute. reflexivity. Qed.
(** protobuf.rs:680-686. *)
Example decode_test_fixed32_min : first_field "4500000000" fd_to_fixed32 = Ok 0.
Proof. vm_compute. reflexivity. Qed.
(** protobuf.rs:689-695. *)
Example decode_test_fixed32_max : first_field "4dffffffff" fd_to_fixed32 = Ok 4294967295.
Proof. vm_compute. reflexivity. Qed.
(** protobuf.rs:698-704. *)
Example decode_test_fixed64_positive : first_field "51cb44f2b09582cf4e" fd_to_fixed64 = Ok 5678901234567890123.
Proof. vm_compute. reflexivity. Qed.
(** protobuf.rs:707-713. *)
Example decode_test_fixed64_min : first_field "590000000000000000" fd_to_fixed64 = Ok 0.
Proof. vm_compute. reflexivity. Qed.
(** protobuf.rs:716-722. *)
Example decode_test_fixed64_max : first_field "61ffffffffffffffff" fd_to_fixed64 = Ok 18446744073709551615.
Proof. vm_compute. reflexivity. Qed.
(** protobuf.rs:725-731. *)
Example decode_test_sfixed32_positive : first_field "6dd2029649" fd_to_sfixed32 = Ok (1234567890)%Z.
Proof. vm_compute. reflexivity. Qed.
(** protobuf.rs:734-740. *)
Example decode_test_sfixed32_negative : first_field "752efd69b6" fd_to_sfixed32 = Ok (-1234567890)%Z.
Proof. vm_compute. reflexivity. Qed.
(** protobuf.rs:743-749. *)
Example decode_test_sfixed32_zero : first_field "7d00000000" fd_to_sfixed32 = Ok (0)%Z.
Proof. vm_compute. reflexivity. Qed.
(** protobuf.rs:752-758. *)
Example decode_test_sfixed32_min : first_field "850100000080" fd_to_sfixed32 = Ok (-2147483648)%Z.
Proof. vm_compute. reflexivity. Qed.
(** protobuf.rs:761-767. *)
Example decode_test_sfixed32_max : first_field "8d01ffffff7f" fd_to_sfixed32 = Ok (2147483647)%Z.
Proof. vm_compute. reflexivity. Qed.
(** protobuf.rs:770-776. *)
Example decode_test_sfixed64_positive : first_field "9101cb44f2b09582cf4e" fd_to_sfixed64 = Ok (5678901234567890123)%Z.
Proof. vm_compute. reflexivity. Qed.
(** protobuf.rs:779-785. *)
Example decode_test_sfixed64_negative : first_field "990135bb0d4f6a7d30b1" fd_to_sfixed64 = Ok (-5678901234567890123)%Z.
Proof. vm_compute. reflexivity. Qed.
(** protobuf.rs:788-794. *)
Example decode_test_sfixed64_zero : first_field "a1010000000000000000" fd_to_sfixed64 = Ok (0)%Z.
Proof. vm_compute. reflexivity. Qed.
(** protobuf.rs:797-803. *)
Example decode_test_sfixed64_min : first_field "a9010000000000000080" fd_to_sfixed64 = Ok (-9223372036854775808)%Z.
Proof. vm_compute. reflexivity. Qed.
(** protobuf.rs:806-812. *)
Example decode_test_sfixed64_max : first_field "b101ffffffffffffff7f" fd_to_sfixed64 = Ok (9223372036854775807)%Z.
Proof. vm_compute. reflexivity. Qed.
(** protobuf.rs:815-821. *)
Example decode_test_float_positive : first_field "bd01db0f4940" fd_to_float = Ok 1078530011.
Proof. vm_compute. reflexivity. Qed.
(** protobuf.rs:824-830. *)
Example decode_test_float_negative : first_field "c501db0f49c0" fd_to_float = Ok 3226013659.
Proof. vm_compute. reflexivity. Qed.
(** protobuf.rs:833-839. *)
Example decode_test_float_zero : first_field "cd0100000000" fd_to_float = Ok 0.
Proof. vm_compute. reflexivity. Qed.
(** protobuf.rs:842-848. *)
Example decode_test_float_posinf : first_field "d5010000807f" fd_to_float = Ok 2139095040.
Proof. vm_compute. reflexivity. Qed.
(** protobuf.rs:851-857. *)
Example decode_test_float_neginf : first_field "dd01000080ff" fd_to_float = Ok 4286578688.
Proof. vm_compute. reflexivity. Qed.
(** protobuf.rs:860-866. *)
Example decode_test_double_positive : first_field "e101182d4454fb210940" fd_to_double = Ok 4614256656552045848.
Proof. vm_compute. reflexivity. Qed.
(** protobuf.rs:869-875. *)
Example decode_test_double_negative : first_field "e901182d4454fb2109c0" fd_to_double = Ok 13837628693406821656.
Proof. vm_compute. reflexivity. Qed.
(** protobuf.rs:878-884. *)
Example decode_test_double_zero : first_field "f1010000000000000000" fd_to_double = Ok 0.
Proof. vm_compute. reflexivity. Qed.
(** protobuf.rs:887-893. *)
Example decode_test_double_posinf : first_field "f901000000000000f07f" fd_to_double = Ok 9218868437227405312.
Proof. vm_compute. reflexivity. Qed.
(** protobuf.rs:896-902. *)
Example decode_test_double_neginf : first_field "8102000000000000f0ff" fd_to_double = Ok 18442240474082181120.
Proof. vm_compute. reflexivity. Qed.
(** protobuf.rs:905-911. *)
Example decode_test_uint32_positive : first_field "8802d285d8cc04" fd_to_uint32 = Ok 1234567890.
Proof. vm_compute. reflexivity. Qed.
(** protobuf.rs:914-920. *)
Example decode_test_uint32_min : first_field "900200" fd_to_uint32 = Ok 0.
Proof. vm_compute. reflexivity. Qed.
(** protobuf.rs:923-929. *)
Example decode_test_uint32_max : first_field "9802ffffffff0f" fd_to_uint32 = Ok 4294967295.
Proof. vm_compute. reflexivity. Qed.
(** protobuf.rs:932-938. *)
Example decode_test_uint64_positive : first_field "a002cb89c987dbd2e0e74e" fd_to_uint64 = Ok 5678901234567890123.
Proof. vm_compute. reflexivity. Qed.
(** protobuf.rs:941-947. *)
Example decode_test_uint64_min : first_field "a80200" fd_to_uint64 = Ok 0.
Proof. vm_compute. reflexivity. Qed.
(** protobuf.rs:950-956. *)
Example decode_test_uint64_max : first_field "b002ffffffffffffffffff01" fd_to_uint64 = Ok 18446744073709551615.
Proof. vm_compute. reflexivity. Qed.
(** protobuf.rs:959-965. *)
Example decode_test_int32_positive : first_field "b802d285d8cc04" fd_to_int32 = Ok (1234567890)%Z.
Proof. vm_compute. reflexivity. Qed.
(** protobuf.rs:968-974. *)
Example decode_test_int32_negative : first_field "c002aefaa7b3fbffffffff01" fd_to_int32 = Ok (-1234567890)%Z.
Proof. vm_compute. reflexivity. Qed.
(** protobuf.rs:977-983. *)
Example decode_test_int32_zero : first_field "c80200" fd_to_int32 = Ok (0)%Z.
Proof. vm_compute. reflexivity. Qed.
(** protobuf.rs:986-992. *)
Example decode_test_int32_min : first_field "d00280808080f8ffffffff01" fd_to_int32 = Ok (-2147483648)%Z.
Proof. vm_compute. reflexivity. Qed.
(** protobuf.rs:995-1001. *)
Example decode_test_int32_max : first_field "d802ffffffff07" fd_to_int32 = Ok (2147483647)%Z.
Proof. vm_compute. reflexivity. Qed.
(** protobuf.rs:1004-1010. *)
Example decode_test_int64_positive : first_field "e002cb89c987dbd2e0e74e" fd_to_int64 = Ok (5678901234567890123)%Z.
Proof. vm_compute. reflexivity. Qed.
(** protobuf.rs:1013-1019. *)
Example decode_test_int64_negative : first_field "e802b5f6b6f8a4ad9f98b101" fd_to_int64 = Ok (-5678901234567890123)%Z.
Proof. vm_compute. reflexivity. Qed.
(** protobuf.rs:1022-1028. *)
Example decode_test_int64_zero : first_field "f00200" fd_to_int64 = Ok (0)%Z.
Proof. vm_compute. reflexivity. Qed.
(** protobuf.rs:1031-1037. *)
Example decode_test_int64_min : first_field "f80280808080808080808001" fd_to_int64 = Ok (-9223372036854775808)%Z.
Proof. vm_compute. reflexivity. Qed.
(** protobuf.rs:1040-1046. *)
Example decode_test_int64_max : first_field "8003ffffffffffffffff7f" fd_to_int64 = Ok (9223372036854775807)%Z.
Proof. vm_compute. reflexivity. Qed.
(** protobuf.rs:1049-1055. *)
Example decode_test_sint32_positive : first_field "8803a48bb09909" fd_to_sint32 = Ok (1234567890)%Z.
Proof. vm_compute. reflexivity. Qed.
(** protobuf.rs:1058-1064. *)
Example decode_test_sint32_negative : first_field "9003a38bb09909" fd_to_sint32 = Ok (-1234567890)%Z.
Proof. vm_compute. reflexivity. Qed.
(** protobuf.rs:1067-1073. *)
Example decode_test_sint32_zero : first_field "980300" fd_to_sint32 = Ok (0)%Z.
Proof. vm_compute. reflexivity. Qed.
(** protobuf.rs:1076-1082. *)
Example decode_test_sint32_min : first_field "a003ffffffff0f" fd_to_sint32 = Ok (-2147483648)%Z.
Proof. vm_compute. reflexivity. Qed.
(** protobuf.rs:1085-1091. *)
Example decode_test_sint32_max : first_field "a803feffffff0f" fd_to_sint32 = Ok (2147483647)%Z.
Proof. vm_compute. reflexivity. Qed.
(** protobuf.rs:1094-1100. *)
Example decode_test_sint64_positive : first_field "b0039693928fb6a5c1cf9d01" fd_to_sint64 = Ok (5678901234567890123)%Z.
Proof. vm_compute. reflexivity. Qed.
(** protobuf.rs:1103-1109. *)
Example decode_test_sint64_negative : first_field "b8039593928fb6a5c1cf9d01" fd_to_sint64 = Ok (-5678901234567890123)%Z.
Proof. vm_compute. reflexivity. Qed.
(** protobuf.rs:1112-1118. *)
Example decode_test_sint64_zero : first_field "c00300" fd_to_sint64 = Ok (0)%Z.
Proof. vm_compute. reflexivity. Qed.
(** protobuf.rs:1121-1127. *)
Example decode_test_sint64_min : first_field "c803ffffffffffffffffff01" fd_to_sint64 = Ok (-9223372036854775808)%Z.
Proof. vm_compute. reflexivity. Qed.
(** protobuf.rs:1130-1136. *)
Example decode_test_sint64_max : first_field "d003feffffffffffffffff01" fd_to_sint64 = Ok (9223372036854775807)%Z.
Proof. vm_compute. reflexivity. Qed.

(** varint.rs:118. *)
Example decode_empty : decode_u64 [] = Err MissingFinalByte.
Proof. vm_compute. reflexivity. Qed.
(** varint.rs:123. *)
Example decode_one_nonfinal : decode_u64 [128] = Err MissingFinalByte.
Proof. vm_compute. reflexivity. Qed.
(** varint.rs:128. *)
Example decode_normal : decode_u64 [227; 231; 219; 1] = Ok 3601379.
Proof. vm_compute. reflexivity. Qed.
(** varint.rs:133. *)
Example decode_multiple_nonfinal : decode_u64 [227; 231; 219; 129] = Err MissingFinalByte.
Proof. vm_compute. reflexivity. Qed.
(** varint.rs:138. *)
Example decode_u64_max : decode_u64 [255; 255; 255; 255; 255; 255; 255; 255; 255; 1] = Ok 18446744073709551615.
Proof. vm_compute. reflexivity. Qed.
(** varint.rs:143. *)
Example decode_one_too_many : decode_u64 [255; 255; 255; 255; 255; 255; 255; 255; 255; 2] = Err Overflow.
Proof. vm_compute. reflexivity. Qed.
(** varint.rs:149. *)
Example decode_extra_byte : decode_u64 [255; 255; 255; 255; 255; 255; 255; 255; 255; 255; 1] = Err Overflow.
Proof. vm_compute. reflexivity. Qed.

(** varint.rs:155-174 [enc_dec_1bits]: the numbers of 1 to 64 one bits. *)
Example enc_dec_1bits :
  forallb (fun bits => match decode_u64 (encode_u64 (2 ^ N.of_nat bits - 1)) with
                       | Ok v => v =? 2 ^ N.of_nat bits - 1 | _ => false end) (seq 1 64) = true.
Proof. vm_compute. reflexivity. Qed.

(** cid.rs:316-341. *)
Definition tested_hash : bytes :=
  [195; 196; 115; 62; 200; 175; 253; 6; 207; 158; 159; 245; 15; 252; 107; 205; 46; 200; 90; 97; 112; 0; 75; 183; 9; 102; 156; 49; 222; 148; 57; 26].
Example cid_from_string_v0 :
  let s := ascii_bytes "QmbWqxBEKC3P8tqsKc98xmWNzrzDtRLMiMPL8wBuTGsMnR" in
  let c := {| cid_ver := CIDv0; cid_codec := CDagPB; cid_hash_type := HSha2256; cid_hash := tested_hash |} in
  cid_from_string s = Ok c /\ cid_to_string c = s.
Proof. vm_compute. split; reflexivity. Qed.
Example cid_from_string_v1 :
  let s := ascii_bytes "bafybeigdyrzt5sfp7udm7hu76uh7y26nf3efuylqabf3oclgtqy55fbzdi" in
  let c := {| cid_ver := CIDv1; cid_codec := CDagPB; cid_hash_type := HSha2256; cid_hash := tested_hash |} in
  cid_from_string s = Ok c /\ cid_to_string c = s.
Proof. vm_compute. split; reflexivity. Qed.

(** data.rs:70-87 [test_bitfield_update_from_bytes] (its comment shows the bits). *)
Example test_bitfield_update_from_bytes :
  map (fun b : bool => if b then 1 else 0) (update_from_bytes (repeat false 48) [90; 165; 3; 12; 48; 192]) =
  [0;1;0;1;1;0;1;0; 1;0;1;0;0;1;0;1; 0;0;0;0;0;0;1;1; 0;0;0;0;1;1;0;0; 0;0;1;1;0;0;0;0; 1;1;0;0;0;0;0;0].
Proof. vm_compute. reflexivity. Qed.

(** The first values of bin/test_detrand.rs as python/test_detrand.py prints them. *)
Fixpoint generated (n : nat) (seed : N) : list N :=
  match n with O => [] | S n => let v := next_u32 seed in v :: generated n v end.
Example test_detrand : generated 12 12345 =
  [2644521496; 1255958651; 3837989202; 1449997005; 2529458780; 3681394607; 1800747958; 354763681; 1905301472; 3681310499; 980411738; 3117471413].
Proof. vm_compute. reflexivity. Qed.

(** The multibase test vector "yes mani !" of the specification that multibase.rs
    implements (scripts/test_multibase.sh compares with the reference library). *)
Definition yes_mani : bytes := ascii_bytes "yes mani !".
Definition vectors : list (base * string) :=
  [(Base16, "f796573206d616e692021"); (Base16Upper, "F796573206D616E692021");
   (Base32, "bpfsxgidnmfxgsibb"); (Base32Upper, "BPFSXGIDNMFXGSIBB");
   (Base32Pad, "cpfsxgidnmfxgsibb"); (Base32PadUpper, "CPFSXGIDNMFXGSIBB");
   (Base58Flickr, "Z7Pznk19XTTzBtx"); (Base58BTC, "z7paNL19xttacUY");
   (Base64, "meWVzIG1hbmkgIQ"); (Base64Pad, "MeWVzIG1hbmkgIQ==");
   (Base64URL, "ueWVzIG1hbmkgIQ"); (Base64URLPad, "UeWVzIG1hbmkgIQ==")].
Example multibase_vectors :
  forallb (fun v => bytes_eqb (encode yes_mani (fst v)) (ascii_bytes (snd v)) &&
                    match decode (ascii_bytes (snd v)) with Ok d => bytes_eqb d yes_mani | _ => false end)%bool
    vectors = true.
Proof. vm_compute. reflexivity. Qed.

(** RFC 9000, A.1: sample variable-length integers. *)
Example quic_varint_vectors :
  map quic_varint_from_bytes [[194; 25; 124; 94; 255; 20; 232; 140]; [157; 127; 62; 125]; [123; 189]; [37]; [64; 37]] =
  [Ok 151288809941952652; Ok 494878333; Ok 15293; Ok 37; Ok 37].
Proof. vm_compute. reflexivity. Qed.

(** RFC 9001, A.2 and A.5: header protection of a long and of a short header, with the
    sample and mask given there in place of the cipher. *)
Definition hex (s : string) : bytes := match from_hex (ascii_bytes s) with Some b => b | None => [] end.
Definition given (sample mask : string) : bytes -> bytes -> bytes :=
  fun _ x => if bytes_eqb x (hex sample) then hex mask else [].
Definition no_secrets : endpoint_secrets := {| q_key := []; q_iv := []; q_hp := [] |}.
Example header_protection_vectors :
  add_header_protection (given "d1b1c98dd7689fb8ec11d242b123dc9b" "437b9aec36")
    (hex "c300000001088394c8f03e5157080000449e00000002d1b1c98dd7689fb8ec11d242b123dc9b") 18 no_secrets =
  (Ok tt, hex "c000000001088394c8f03e5157080000449e7b9aec34d1b1c98dd7689fb8ec11d242b123dc9b") /\
  remove_header_protection (given "5e5cd55c41f69080575d7999c25a5bfb" "aefefe7d03")
    (hex "4cfe4189655e5cd55c41f69080575d7999c25a5bfb") 1 no_secrets =
  (Ok tt, hex "4200bff4655e5cd55c41f69080575d7999c25a5bfb").
Proof. vm_compute. split; reflexivity. Qed.
(** RFC 9001, A.5: the nonce of packet number 654360564. *)
Example nonce_vector :
  quic_nonce {| q_key := []; q_iv := hex "e0459b3474bdd0e44a41c144"; q_hp := [] |} 654360564 =
  hex "e0459b3474bdd0e46d417eb0".
Proof. vm_compute. reflexivity. Qed.
