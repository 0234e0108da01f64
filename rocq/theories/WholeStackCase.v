(** A session in which one node asks the other who it is: the case for C136. *)
From Verif Require Import Base BaseProofs IdentifyModel MplexModel MplexProps MplexSendProps MplexStreamSpec LpioModel LpioSpec LpioProps
  HandlerModel IpfsMainModel ConversationSpec IpfsMainProps MplexPairProps MessagePipeProps WholeStackProps.
From Coq Require Import Lia.

Definition case_key : bytes := repeat 7 32.
Definition asked : bytes := frames [ascii_bytes "/multistream/1.0.0" ++ [10]; ascii_bytes "/ipfs/id/1.0.0" ++ [10]].
Definition answered : bytes := asked ++ identify_handler case_key.
Definition to_b : bytes := wires [SendNew 33 None; SendMessage (Initiator 33) asked].
Definition to_a : bytes := wires [SendMessage (Receiver 33) answered].
Definition two_ends (x : side) : node :=
  match x with
  | SideA => node_new [ARead (firstn 30 to_a); APending; ARead (skipn 30 to_a)] (repeat (WOk 500) 5)
  | SideB => node_new [ARead (firstn 9 to_b); APending; ARead (skipn 9 to_b)] (repeat (WOk 500) 5)
  end.
(** The request is written and read in pieces, the answer too. *)
Definition talk : list (side * node_call) :=
  [(SideA, NSend (CallConnect None)); (SideA, NSend (CallWrite (Receiver 33) asked)); (SideA, NSend (CallFlush (Receiver 33)));
   (SideB, NAccept 1); (SideB, NRead (Initiator 33) 2 10); (SideB, NAccept 1); (SideB, NRead (Initiator 33) 2 10); (SideB, NRead (Initiator 33) 2 7); (SideB, NRead (Initiator 33) 2 100);
   (SideB, NSend (CallWrite (Initiator 33) answered)); (SideB, NSend (CallFlush (Initiator 33)));
   (SideA, NRead (Receiver 33) 3 50); (SideA, NRead (Receiver 33) 3 50); (SideA, NRead (Receiver 33) 3 500)].
Definition read_by_a : list item := as_read (Receiver 33) (fst (history two_ends SideA talk)).
Definition read_by_b : list item := as_read (Initiator 33) (fst (history two_ends SideB talk)).
Lemma talk_session : MplexPairProps.session two_ends talk.
Proof.
  split; [|split; [|split; [|split; [|split]]]].
  - exists (fun x => nd_in (two_ends x)), (fun x => nd_out (two_ends x)). intros []; reflexivity.
  - intros x. split; [apply bytes_okb_spec; destruct x; vm_compute; reflexivity|destruct x; vm_compute; reflexivity].
  - vm_compute; reflexivity.
  - repeat constructor; cbn; try exact I; try (split; reflexivity); reflexivity.
  - apply carried_connected. vm_compute. reflexivity.
  - intros []; vm_compute; repeat split; intros i H; intuition.
Qed.
Lemma talk_joins_a : joined_by read_by_a answered.
Proof.
  left. exists two_ends, talk, SideB, (Initiator 33). split; [exact talk_session|]. split; [intros H; cbn in H; intuition discriminate|].
  split; [vm_compute; reflexivity|reflexivity].
Qed.
Lemma talk_joins_b : joined_by read_by_b asked.
Proof.
  left. exists two_ends, talk, SideA, (Receiver 33). split; [exact talk_session|]. split; [intros H; cbn in H; intuition discriminate|].
  split; [vm_compute; reflexivity|reflexivity].
Qed.
(** Both ends of the conversation, over one stream of a session whose pieces do not respect the
    messages. *)
Example C136_case : joined_by read_by_a answered /\ joined_by read_by_b asked /\ bytes_of read_by_a = answered /\ bytes_of read_by_b = asked /\
  identify_command read_by_a = (Some (Ok (Some (handler_identify case_key))), asked, [Cut]) /\
  (forall sha256 blake2b256, serve sha256 blake2b256 case_key read_by_b = (Some (Ok SIdentify), answered, [Cut]) /\
     said (serve_prog sha256 blake2b256 case_key) answered /\ said (serve_prog sha256 blake2b256 case_key) (firstn 25 answered)).
Proof.
  split; [exact talk_joins_a|]. split; [exact talk_joins_b|]. split; [vm_compute; reflexivity|]. split; [vm_compute; reflexivity|]. split; [vm_compute; reflexivity|].
  intros sha256 blake2b256. split; [vm_compute; reflexivity|].
  assert (S : forall o, said (Say (write_message id_protocol) (Say (identify_handler case_key) (Stop (@Ok unit served SIdentify)))) o -> said (serve_prog sha256 blake2b256 case_key) (write_message multistream_header ++ o)).
  { intros o H. apply said_all. apply said_after with (m := Ok (Some multistream_header)). cbn [or_eof]. rewrite bytes_eqb_refl.
    rewrite (prog_eq (requests_prog sha256 blake2b256 case_key)). cbn [requests_prog]. apply said_after with (m := Ok (Some id_protocol)). exact H. }
  split.
  - change answered with (write_message multistream_header ++ (write_message id_protocol ++ identify_handler case_key ++ [])). apply S, said_all, said_all, said_nothing.
  - change (firstn 25 answered) with (write_message multistream_header ++ firstn 5 (write_message id_protocol)). apply S, said_part.
Qed.
