(** Sharper statements, added where a wrong program had passed: exact texts (C103, C119) and
    that the proxy does accept connections (C105). *)
From Verif Require Import Base BaseProofs UtilModel ChatModel RelayModel RelayProps Asn1Model Asn1ToolModel HexDumpModel HexDumpProps QuicToolModel.
Local Open Scope string_scope. Local Open Scope list_scope. Local Open Scope N_scope.

(** *** C103: the [Debug] text of a bit string *)
(** The two digits of the position of every byte, not of the byte (up to 256 bytes). *)
Theorem C103_bits_debug_text unused d : (length d <= 256)%nat ->
  bit_string_debug unused d = concat (map (fun i => two_digits (N.of_nat i)) (seq 0 (length d))) ++ ascii_bytes " (unused " ++ decimal unused ++ ascii_bytes ")".
Proof.
  intros L. unfold bit_string_debug. f_equal. rewrite flat_map_concat_map. f_equal. apply map_ext_in. intros i Hi. apply in_seq in Hi.
  rewrite <- two_digits_ok by lia. assert (B : N.of_nat i < 256) by lia. clear Hi L. revert B. generalize (N.of_nat i). clear. intros n B. cbv zeta.
  apply (byte_sweep (fun n => bytes_eqb ((if n <? 16 then ascii_bytes "0" else []) ++ hex_number n) (hex_padded 2 n))) in B; [|vm_compute; reflexivity].
  apply bytes_eqb_eq, B.
Qed.
Print Assumptions C103_bits_debug_text.
Example C103_bits_debug_sample : bit_string_debug 3 [200; 100; 50] = ascii_bytes "000102 (unused 3)".
Proof. reflexivity. Qed.

(** *** C119: the text of a buffer *)
Theorem C119_buffer_exact d : bytes_ok d -> buffer_text d = ascii_bytes "<" ++ HexDumpProps.spaced (map two_digits d) ++ ascii_bytes ">".
Proof.
  intros O. unfold buffer_text. do 2 f_equal.
  assert (X : forall d, bytes_ok d -> QuicToolModel.spaced false d = match d with [] => [] | _ => [32] ++ HexDumpProps.spaced (map two_digits d) end /\
    QuicToolModel.spaced true d = HexDumpProps.spaced (map two_digits d)).
  { clear. induction d as [|b d IH]; intros O; [split; reflexivity|]. apply bytes_ok_cons in O. destruct O as (Ob & O). destruct (IH O) as (E & _).
    assert (T : to_hex [b] = two_digits b).
    { apply (byte_sweep (fun b => bytes_eqb (to_hex [b]) (two_digits b))) in Ob; [|vm_compute; reflexivity]. apply bytes_eqb_eq, Ob. }
    cbn [QuicToolModel.spaced map app]. rewrite T, E. destruct d as [|b' d]; [cbn; auto|]. cbn [map HexDumpProps.spaced app]. auto. }
  apply X, O.
Qed.
Print Assumptions C119_buffer_exact.
Example C119_buffer_sample : buffer_text [0; 255] = ascii_bytes "<00 ff>".
Proof. reflexivity. Qed.

(** *** C105: the proxy takes connections *)
(** From the start, and whatever has happened as long as nothing failed, any number of
    further connections can be taken, and those there were are untouched. *)
Theorem C105_accepts o more : (exists x, proxy_run o more x /\ x_running x = true /\ length (x_conns x) = length more) /\
  forall ins x, proxy_run o ins x -> x_running x = true -> exists y new, proxy_run o (ins ++ more) y /\ x_running y = true /\ x_conns y = x_conns x ++ new /\ length new = length more.
Proof.
  assert (X : forall more ins x, proxy_run o ins x -> x_running x = true -> exists y new, proxy_run o (ins ++ more) y /\ x_running y = true /\ x_conns y = x_conns x ++ new /\ length new = length more).
  { clear. induction more as [|[c s] more IH]; intros ins x H R.
    - exists x, []. rewrite !app_nil_r. auto.
    - pose proof (proxy_then o ins x (Some (c, s)) _ H (proxy_accept o x c s R)) as H'. destruct (IH _ _ H' eq_refl) as (y & new & A & B & C & D).
      exists y. eexists. rewrite <- app_assoc in A. split; [exact A|]. split; [exact B|]. cbn [x_conns] in C. rewrite <- app_assoc in C. split; [exact C|]. cbn [app length]. rewrite D. reflexivity. }
  split; [|apply X]. destruct (X more [] proxy_new (proxy_start o) eq_refl) as (y & new & A & B & C & D). exists y. rewrite C. auto.
Qed.
Print Assumptions C105_accepts.
Example C105_accepts_sample o : exists x, proxy_run o [([1], [2]); ([], [3])] x /\ length (x_conns x) = 2%nat.
Proof. destruct (proj1 (C105_accepts o [([1], [2]); ([], [3])])) as (x & A & _ & B). exists x. auto. Qed.
