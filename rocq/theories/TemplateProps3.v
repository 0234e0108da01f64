(** The packets that the QUIC program refuses, with its exact messages (C82). *)
From Coq Require Import String Ascii.
From Verif Require Import Base BaseProofs BinaryModel TlsTypesModel QuicModel QuicProofs5 QuicProps2.
Local Open Scope string_scope. Local Open Scope list_scope. Local Open Scope N_scope.
(** The beginning of a packet with a long header: first byte, version 1 and the two connection ids. *)
Definition long_header (b : N) (dst src : bytes) : bytes := b :: [0; 0; 0; 1] ++ [blen dst] ++ dst ++ [blen src] ++ src.
Theorem C82_messages P B cs :
  parse_packet P B cs [] = Err (QText "Packet is empty") /\
  (forall b t, N.land b 0x40 = 0 -> parse_packet P B cs (b :: t) = Err (QText "Fixed bit is zero")) /\
  (forall b dst src rest k, 0xc0 <= b < 256 -> blen dst <= 20 -> blen src <= 20 -> fits (long_header b dst src ++ rest) -> (b / 16) mod 4 = k -> 1 <= k ->
     parse_packet P B cs (long_header b dst src ++ rest) = Err (QText (match k with 1 => "TODO: 0-RTT packets" | 2 => "TODO: Handshake packets" | _ => "TODO: Retry packets" end))).
Proof.
  split; [reflexivity|split].
  - intros b t H. cbn [parse_packet]. rewrite H. reflexivity.
  - intros b dst src rest k Hb L1 L2 F Hk Lk.
    assert (E : long_header b dst src ++ rest = b :: [0; 0; 0; 1] ++ [blen dst] ++ dst ++ [blen src] ++ src ++ rest) by (unfold long_header; repeat progress (cbn [app]; rewrite <- ?app_assoc); reflexivity).
    rewrite E in *.
    assert (B1 : forall b, 0xc0 <= b < 256 -> (N.land b 0x40 =? 0) = false /\ (N.land b 0x80 =? 0x80) = true /\ N.shiftr (N.land b 0x30) 4 = (b / 16) mod 4).
    { clear. intros b H.
      assert (W : forallb (fun b => (b <? 0xc0) || (negb (N.land b 0x40 =? 0) && (N.land b 0x80 =? 0x80) && (N.shiftr (N.land b 0x30) 4 =? (b / 16) mod 4)))%bool (map N.of_nat (seq 0 256)) = true) by (vm_compute; reflexivity).
      rewrite forallb_forall in W. pose proof (W b ltac:(apply in_map_iff; exists (N.to_nat b); split; [lia|apply in_seq; lia])) as X.
      rewrite orb_true_iff, !andb_true_iff, negb_true_iff, N.ltb_lt, !N.eqb_eq in X. destruct X as [X|[[A C] D]]; [lia|]. rewrite C. repeat split; assumption. }
    destruct (B1 b Hb) as (A1 & A2 & A3).
    unfold parse_packet. rewrite A1, A2. unfold parse_long. fold long_reader. rewrite (long_reader_ok b dst src rest) by (try assumption; lia).
    cbn [fst from_binary map_err bind]. cbv zeta. rewrite A3, Hk.
    assert (K : k = 1 \/ k = 2 \/ k = 3) by lia. destruct K as [->|[->| ->]]; reflexivity.
Qed.
Print Assumptions C82_messages.
Theorem C82_short_number packet off n mask : (blen packet < off + n -> mask_number packet off n mask = (Err (QText "Insufficient data for packet number"), packet)) /\
  (blen packet < off + 20 -> off + 20 < two64 -> get_sample packet off = Err (QText "Insufficient data for sample")).
Proof.
  split; intros H.
  - unfold mask_number. rewrite (proj2 (N.ltb_lt _ _) H). reflexivity.
  - intros L. unfold get_sample. rewrite (proj2 (N.leb_gt _ _) L), (proj2 (N.ltb_lt _ _) H). reflexivity.
Qed.
Print Assumptions C82_short_number.
Example C82_messages_case : forall P B, parse_packet P B [] (0xf0 :: [0; 0; 0; 1] ++ [1; 9; 0]) = Err (QText "TODO: Retry packets").
Proof. intros. reflexivity. Qed.
