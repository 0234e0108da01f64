(** What does hold of the claims about QUIC endpoints that are refuted in [QuicProps2]. *)
From Verif Require Import Base BaseProofs BinaryModel BinarySpec BinaryProofs BinaryProofs2 MessageProofs MessageProofs2 TlsCodesModel TlsTypesModel TlsTypesSpec TlsTypesProofs TlsTypesProofs2 TlsTypesProofs3
  TlsRecordModel TlsRecordSpec TlsRecordProofs TlsClientSpec QuicModel QuicSpec QuicProofs QuicProofs2 QuicProofs4 QuicProofs5 QuicProofs6 QuicProps2.
From Coq Require Import Lia ZArith ZifyBool ZifyNat ZifyN.
Ltac Zify.zify_post_hook ::= Z.div_mod_to_equations.
Local Open Scope string_scope. Local Open Scope list_scope. Local Open Scope N_scope.

(** *** C83: which packets find which connection *)
(** The table after a packet was accepted, looked at by every identifier: nothing changes when
    the destination is in it; otherwise the sender's identifier, and no other, now has the
    secrets of the destination.  So a connection is found again exactly under the
    identifier its opener gave as its own. *)
Lemma lookup_filter id k cs : id <> k -> lookup id (filter (fun p : bytes * connection_secrets => negb (bytes_eqb (fst p) k)) cs) = lookup id cs.
Proof.
  intros NE. induction cs as [|[k' s'] cs IH]; [reflexivity|]. cbn [filter fst lookup]. destruct (bytes_eqb k' k) eqn:E; cbn [negb lookup].
  - apply bytes_eqb_eq in E. subst k'. destruct (bytes_eqb k id) eqn:E'; [apply bytes_eqb_eq in E'; congruence|exact IH].
  - rewrite IH. reflexivity.
Qed.
Theorem C83_table_partial P B cs packet r new id : sizes_ok P -> parse_packet P B cs packet = Ok (r, new) ->
  lookup id new = match lookup (rc_dst r) cs with
                  | Some _ => lookup id cs
                  | None => if bytes_eqb id (rc_src r) then Some (rfc_secrets P (rc_dst r)) else lookup id cs
                  end.
Proof.
  intros SZ E. unfold parse_packet in E. destruct packet as [|b t]; [discriminate|]. destruct (_ =? 0); [discriminate|]. destruct (_ =? 128); [|discriminate].
  unfold parse_long in E. apply bind_ok in E. destruct E as ([[[b' dst] src] offset] & _ & E). cbv zeta in E.
  destruct (_ =? 0); [|repeat (destruct (_ =? _); [discriminate|]); discriminate].
  unfold parse_initial in E. apply bind_ok in E. destruct E as ([[token len] pn_offset] & _ & E). apply bind_ok in E. destruct E as ([k n] & EK & E).
  apply bind_ok in E. destruct E as (z & _ & E). apply bind_ok in E. destruct E as (fs & _ & E). apply bind_ok in E. destruct E as (ms & _ & E).
  assert (Er : r = {| rc_frames := fs; rc_src := src; rc_dst := dst; rc_number := fst z; rc_token := token; rc_messages := ms |}) by congruence.
  assert (En : new = match n with Some s => insert src s cs | None => cs end) by congruence. subst r new. cbn [rc_dst rc_src] in *.
  destruct (lookup dst cs) as [s|] eqn:L.
  - assert (n = None) as -> by congruence. reflexivity.
  - rewrite from_id_rfc in EK by exact SZ. cbn [from_crypt map_err bind] in EK. assert (n = Some (rfc_secrets P dst)) as -> by congruence.
    unfold insert. cbn [lookup]. destruct (bytes_eqb id src) eqn:E1.
    + apply bytes_eqb_eq in E1. subst. rewrite bytes_eqb_refl. reflexivity.
    + destruct (bytes_eqb src id) eqn:E2; [apply bytes_eqb_eq in E2; subst; rewrite bytes_eqb_refl in E1; discriminate|].
      apply lookup_filter. intros ->. rewrite bytes_eqb_refl in E1. discriminate.
Qed.
Print Assumptions C83_table_partial.
(** A client that uses one identifier for both sides does find its connection. *)
Theorem C83_same_id_partial P B cs packet r new : sizes_ok P -> parse_packet P B cs packet = Ok (r, new) -> rc_src r = rc_dst r -> lookup (rc_dst r) new <> None.
Proof. intros SZ E S. rewrite (C83_table_partial P B cs packet r new _ SZ E). rewrite S, bytes_eqb_refl. destruct (lookup _ cs) eqn:L; congruence. Qed.
Print Assumptions C83_same_id_partial.
Example C83_table_sample : exists packet r new, encode_initial_packet toy toy_block [1; 2] [9; 9] 7 [] [2] (q_client (rfc_secrets toy [1; 2])) = Ok packet /\
  parse_packet toy toy_block [([5], (rfc_secrets toy [3]))] packet = Ok (r, new) /\ lookup [9; 9] new = Some (rfc_secrets toy [1; 2]) /\ lookup [5] new = Some (rfc_secrets toy [3]) /\ lookup [1; 2] new = None.
Proof. eexists. eexists. eexists. split; [vm_compute; reflexivity|]. split; [vm_compute; reflexivity|]. repeat split; vm_compute; reflexivity. Qed.

(** *** C86: which frame types are taken as RFC 9000 assigns them *)
(** Padding (0), crypto (6) and connection close (0x1c) are, in any order and number; and after
    them any type but those and 2 makes the packet an error, without a frame of it being
    handled. *)
Definition as_assigned (x : option frame) : Prop := match x with Some FPing => False | _ => item_ok x end.
Lemma frames_loop_bad l t d : t < 256 -> ~ In t [0; 2; 6; 0x1c] -> forall fuel pre, Forall item_ok l -> fits (pre ++ concat (map item_bytes l) ++ t :: d) ->
  (length (concat (map item_bytes l) ++ t :: d) < fuel)%nat ->
  frames_loop fuel (at_pos pre (concat (map item_bytes l) ++ t :: d)) = Err (BPlain "Unknown frame type").
Proof.
  intros Lt NI. induction l as [|x l IH]; intros fuel pre O F L; (destruct fuel as [|fuel]; [lia|]); cbn [map concat] in *; cbn [frames_loop]; rewrite remaining_at.
  - rewrite app_nil_l in *. cbn [length]. replace (0 <? S (length d))%nat with true by reflexivity. unfold read_frame, rbind.
    change (t :: d) with ([t] ++ d) in *. rewrite (single_be1 t) in * by exact Lt. rewrite (reads_u8 t Lt pre d F).
    destruct (N.eqb_spec t 0) as [->|]; [destruct NI; left; reflexivity|]. destruct (N.eqb_spec t 2) as [->|]; [destruct NI; right; left; reflexivity|].
    destruct (N.eqb_spec t 6) as [->|]; [destruct NI; do 2 right; left; reflexivity|]. destruct (N.eqb_spec t 0x1c) as [->|]; [destruct NI; do 3 right; left; reflexivity|].
    reflexivity.
  - inversion O as [|? ? O1 O2]; subst. pose proof (item_nonempty x) as NE. rewrite <- app_assoc in F, L |- *.
    set (tl := concat (map item_bytes l) ++ t :: d) in *. assert (LL : length (item_bytes x ++ tl) = (length (item_bytes x) + length tl)%nat) by apply app_length. rewrite LL in *.
    replace (0 <? _)%nat with true by (symmetry; apply Nat.ltb_lt; lia).
    rewrite (reads_item x O1 pre _ F). specialize (IH fuel (pre ++ item_bytes x) O2). rewrite <- app_assoc in IH. specialize (IH F ltac:(lia)).
    rewrite IH. destruct x; reflexivity.
Qed.
Theorem C86_assigned_partial items t d : Forall as_assigned items ->
  (fits (concat (map item_bytes items)) -> parse_frames (concat (map item_bytes items)) = Ok (frames_of items)) /\
  (t < 256 -> ~ In t [0; 2; 6; 0x1c] -> fits (concat (map item_bytes items) ++ t :: d) -> parse_frames (concat (map item_bytes items) ++ t :: d) = Err (BPlain "Unknown frame type")).
Proof.
  intros A. assert (O : Forall item_ok items) by (eapply Forall_impl; [|exact A]; intros [[| |]|]; cbn; tauto). split.
  - intros F. apply (C67_frames items []); assumption.
  - intros Lt NI F. unfold parse_frames. rewrite new_at_pos. apply frames_loop_bad; try assumption. lia.
Qed.
Print Assumptions C86_assigned_partial.
Example C86_assigned_sample : parse_frames [0; 6; 0; 2; 5; 6; 0x1c; 10; 6; 1; 120] = Ok [FCrypto {| cf_start := 0; cf_data := [5; 6] |}; FClose 10 6 [120]] /\
  parse_frames [0; 6; 0; 2; 5; 6; 8; 0; 0] = Err (BPlain "Unknown frame type").
Proof. split; reflexivity. Qed.

(** *** C87: which handshake messages are delivered *)
(** A message that is complete in one packet is, however its bytes are cut into the crypto
    frames of the packet (taken in their order) and whatever other frames are between them. *)
Inductive cut : list frame -> bytes -> Prop :=
| cut_nil : cut [] []
| cut_crypto off d l rest : cut l rest -> cut (FCrypto {| cf_start := off; cf_data := d |} :: l) (d ++ rest)
| cut_ping l rest : cut l rest -> cut (FPing :: l) rest
| cut_close code t reason l rest : cut l rest -> cut (FClose code t reason :: l) rest.
Lemma cut_data l d : cut l d <-> crypto_data l = d.
Proof.
  split.
  - induction 1; unfold crypto_data in *; cbn [map concat cf_data]; rewrite ?app_nil_l; congruence.
  - intros <-. induction l as [|[|[s d']|] l IH]; [constructor| | |]; unfold crypto_data in *; cbn [map concat cf_data]; try rewrite app_nil_l; constructor; exact IH.
Qed.
Theorem C87_one_packet_partial P dst h t b frames : sizes_ok P -> handshake_ok h -> handshake_writable h -> handshake_fits h -> handshake_parts h = Some (t, b) -> delimits_itself h ->
  fits (handshake_bytes t b) -> match h with HClientHello c => params_minimal c | _ => True end ->
  cut frames (handshake_bytes t b) -> handle_packet P dst frames = Ok [h].
Proof.
  intros SZ O W HF E D F M C. apply cut_data in C. unfold handle_packet. rewrite C.
  destruct (length (handshake_bytes t b)) as [|n] eqn:L; [unfold handshake_bytes in L; discriminate|]. apply process_written; assumption.
Qed.
Print Assumptions C87_one_packet_partial.
(** Conversely, what is delivered is what was sent: when a message comes out, the crypto frames
    of the packet, in their order, are exactly that message as it is written. *)
Theorem C87_only_whole_partial P dst frames h l : handle_packet P dst frames = Ok (h :: l) -> exists d, cut frames d /\ write_handshake h [] = (Ok tt, d).
Proof.
  intros H. exists (crypto_data frames). split; [apply cut_data; reflexivity|]. unfold handle_packet in H. cbn [process_handshakes] in H.
  apply bind_ok in H. destruct H as ([[h' rest]|] & X & H); [|discriminate]. apply bind_ok in H. destruct H as (? & _ & H). apply bind_ok in H. destruct H as (? & _ & H).
  apply bind_ok in H. destruct H as (l' & _ & H). assert (h' = h) as -> by congruence. clear H. unfold try_pop_handshake in X.
  destruct (_ <? 4)%nat; [discriminate|]. apply bind_ok in X. destruct X as (len & _ & X). destruct (_ <? len); [discriminate|].
  destruct (read_handshake _) as [[h''|e|] r]; [|discriminate|discriminate]. destruct (write_handshake h'' []) as [[[]|e|] d] eqn:Wh; [|discriminate|discriminate].
  destruct (bytes_eqb _ d) eqn:BE; [|discriminate]. apply bytes_eqb_eq in BE. subst d. congruence.
Qed.
Print Assumptions C87_only_whole_partial.
Example C87_one_packet_sample : handle_packet toy [] [FCrypto {| cf_start := 0; cf_data := [20; 0; 0] |}; FPing; FCrypto {| cf_start := 3; cf_data := [2; 7; 8] |}] = Ok [HFinished [7; 8]].
Proof. reflexivity. Qed.
