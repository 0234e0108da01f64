(** The program download: C120. *)
From Verif Require Import Base BaseProofs TorrentModel TorrentProps MplexModel LpioModel LpioSpec DownloadModel DownloadProps DownloadProps2 BencodePathModel AnnounceModel DownloadMainModel.
Local Open Scope string_scope. Local Open Scope list_scope. Local Open Scope N_scope.

(** *** Specification *)
(** All that was sent so far. *)
Definition sent_by (x : dlstate) : bytes := match x with DlOver _ d | DlWaiting d => d | DlRunning h s => h ++ d_out s end.
(** The handshake of BEP 3 with the id of the program. *)
Definition hello_bytes (info_hash : bytes) : bytes :=
  [19] ++ ascii_bytes "BitTorrent protocol" ++ [0; 0; 0; 0; 0; 0; 0; 0] ++ info_hash ++
  [0xf2; 0x25; 0x27; 0x6a; 0xee; 0x14; 0x16; 0xa5; 0xe2; 0x45; 0x60; 0x6d; 0xd4; 0x8a; 0xf3; 0x4f; 0x88; 0xc0; 0x1d; 0x15].
(** What the arguments lead to. *)
Inductive called (sha1 : bytes -> bytes) (read : bytes -> option bytes) (lookup : bytes -> option (list addr)) (connect : addr -> option (list item)) : list bytes -> torrent -> list item -> Prop :=
| called_ok peer file more data t a others src : read file = Some data -> from_bytes sha1 data = Ok t -> lookup peer = Some (a :: others) -> connect a = Some src ->
    called sha1 read lookup connect (peer :: file :: more) t src.

(** *** Theorems *)
(** Exactly when the program gets to the transfer, and how it starts. *)
Theorem C120_start sha1 read lookup connect args hello s :
  download_main sha1 read lookup connect args = DlRunning hello s <->
  exists t src h src', called sha1 read lookup connect args t src /\ recv_handshake src = (Some (Ok h), src') /\
    hello = hello_bytes (t_info_hash t) /\ s = d_init (N.of_nat (length (t_pieces t))) src'.
Proof.
  split.
  - unfold download_main. destruct args as [|peer [|file more]]; cbn [nth_error]; try discriminate. destruct (read file) as [data|] eqn:R; [|discriminate].
    destruct (from_bytes sha1 data) as [t|e|] eqn:F; try discriminate. destruct (lookup peer) as [[|a others]|] eqn:L; try discriminate. destruct (connect a) as [src|] eqn:C; [|discriminate].
    unfold peer_connection. destruct (recv_handshake src) as [[[h|e|]|] src'] eqn:H; try discriminate. intros E. injection E as <- <-.
    exists t, src, h, src'. split; [econstructor; eassumption|]. split; [exact H|]. split; reflexivity.
  - intros (t & src & h & src' & C & H & -> & ->). destruct C as [peer file more data t a others src R F L C]. unfold download_main. cbn [nth_error]. rewrite R, F, L, C. unfold peer_connection. rewrite H. reflexivity.
Qed.
Print Assumptions C120_start.
(** An honest peer is always met: whatever torrent it serves (its info hash is not looked at),
    however its bytes arrive. *)
Theorem C120_met sha1 read lookup connect args t src reserved remote_hash remote_id rest e :
  called sha1 read lookup connect args t src -> length reserved = 8%nat -> length remote_hash = 20%nat -> length remote_id = 20%nat ->
  lead src = ([19] ++ ascii_bytes "BitTorrent protocol" ++ reserved ++ remote_hash ++ remote_id ++ rest, e) -> bytes_ok (fst (lead src)) ->
  exists src', download_main sha1 read lookup connect args = DlRunning (hello_bytes (t_info_hash t)) (d_init (N.of_nat (length (t_pieces t))) src') /\ lead src' = (rest, e).
Proof.
  intros C L1 L2 L3 E B. destruct (proj2 (C95_handshake_exactly src {| hs_info_hash := remote_hash; hs_peer_id := remote_id |} [] B) reserved rest e L1 L2 L3 E) as (src' & H & E').
  exists src'. split; [|exact E']. apply C120_start. exists t, src, {| hs_info_hash := remote_hash; hs_peer_id := remote_id |}, src'. auto.
Qed.
Print Assumptions C120_met.
(** So a peer with another torrent is not refused. *)
Theorem C120_wrong_torrent_refuted sha1 read lookup connect args t src reserved remote_hash remote_id rest e :
  called sha1 read lookup connect args t src -> length reserved = 8%nat -> length remote_hash = 20%nat -> length remote_id = 20%nat -> remote_hash <> t_info_hash t ->
  lead src = ([19] ++ ascii_bytes "BitTorrent protocol" ++ reserved ++ remote_hash ++ remote_id ++ rest, e) -> bytes_ok (fst (lead src)) ->
  exists s, download_main sha1 read lookup connect args = DlRunning (hello_bytes (t_info_hash t)) s.
Proof.
  intros C L1 L2 L3 _ E B. destruct (C120_met _ _ _ _ _ _ _ _ _ _ _ _ C L1 L2 L3 E B) as (src' & H & _). eauto.
Qed.
Print Assumptions C120_wrong_torrent_refuted.
Lemma runs_reach h pieces src y : dlruns (DlRunning h (d_init pieces src)) y ->
  match y with
  | DlRunning h' s => h' = h /\ dreach pieces src s
  | DlOver how d => exists s, dreach pieces src s /\ d = h ++ d_out s /\ (how = Succeeds /\ d_reader s = RDone /\ d_writer s = WDone \/ how = Fails /\ d_reader s = RPanicked)
  | DlWaiting _ => False
  end.
Proof.
  intros R. induction R as [|y z R IH S]; [split; [reflexivity|constructor]|]. destruct S as [h' s s' _ S|h' s D W|h' s P]; destruct IH as (-> & IH).
  - split; [reflexivity|]. econstructor; eassumption.
  - exists s. auto 6.
  - exists s. auto 6.
Qed.
Lemma idle x y : dlruns x y -> (forall h s, x <> DlRunning h s) -> y = x.
Proof.
  intros R X. induction R as [|y z R IH S]; [reflexivity|]. subst y. destruct S as [h s s' _ _|h s _ _|h s _]; destruct (X h s eq_refl).
Qed.
Lemma begun sha1 read lookup connect args t src : called sha1 read lookup connect args t src -> download_main sha1 read lookup connect args = peer_connection t src.
Proof. intros C. destruct C as [peer file more data t a others src R F L C]. unfold download_main. cbn [nth_error]. rewrite R, F, L, C. reflexivity. Qed.
(** Whatever the peer does and however the loops are interleaved, what is sent is a beginning
    of this fixed text: the handshake, an empty bit field, "interested", and one request for
    the first 16384 bytes. *)
Theorem C120_sends sha1 read lookup connect args t src y : N.of_nat (length (t_pieces t)) < 4294967296 ->
  called sha1 read lookup connect args t src -> dlruns (download_main sha1 read lookup connect args) y ->
  exists rest, hello_bytes (t_info_hash t) ++ first_part (N.of_nat (length (t_pieces t))) ++ request_part = sent_by y ++ rest.
Proof.
  intros P C R. rewrite (begun _ _ _ _ _ _ _ C) in R. unfold peer_connection in R. set (n := N.of_nat (length (t_pieces t))) in *.
  change (send_handshake (our_handshake t)) with (hello_bytes (t_info_hash t)) in R. set (h := hello_bytes (t_info_hash t)) in *. clearbody n h.
  destruct (recv_handshake src) as [[[hs|e|]|] src'].
  2-4: apply idle in R; [|discriminate]; subst y; eexists; reflexivity.
  apply runs_reach in R. destruct y as [how d|d|h' s].
  - destruct R as (s & R & -> & _). destruct (proj1 (C96_output _ _ _ P R)) as (rest & E). exists rest. cbn [sent_by]. rewrite E, app_assoc. reflexivity.
  - destruct R.
  - destruct R as (-> & R). destruct (proj1 (C96_output _ _ _ P R)) as (rest & E). exists rest. cbn [sent_by]. rewrite E, app_assoc. reflexivity.
Qed.
Print Assumptions C120_sends.
(** Nothing at all is sent when the program does not get as far as connecting; it then ends
    with a failure. *)
Theorem C120_not_called sha1 read lookup connect args y : (forall t src, ~ called sha1 read lookup connect args t src) ->
  dlruns (download_main sha1 read lookup connect args) y -> exists how, y = DlOver how [] /\ how <> Succeeds.
Proof.
  intros X R.
  assert (H : exists how, download_main sha1 read lookup connect args = DlOver how [] /\ how <> Succeeds).
  { unfold download_main. destruct args as [|peer [|file more]]; cbn [nth_error]; try (eexists; split; [reflexivity|discriminate]).
    destruct (read file) as [data|] eqn:E1; [|eexists; split; [reflexivity|discriminate]].
    destruct (from_bytes sha1 data) as [t|e|] eqn:E2; try (eexists; split; [reflexivity|discriminate]).
    destruct (lookup peer) as [[|a others]|] eqn:E3; try (eexists; split; [reflexivity|discriminate]).
    destruct (connect a) as [src|] eqn:E4; [|eexists; split; [reflexivity|discriminate]].
    destruct (X t src). econstructor; eassumption. }
  destruct H as (how & H & N). rewrite H in R. apply idle in R; [|discriminate]. subst y. eauto.
Qed.
Print Assumptions C120_not_called.
(** The program never ends with success unless it was told to stop by an error of the
    connection: a run without a failed write that ends has read a bad bit field or met an error
    in reading. *)
Lemma done_told n src s : dreach n src s -> d_reader s = RDone -> d_disconnect s = true.
Proof.
  intros R. cut (d_reader s = RDone -> d_disconnect s = true); [auto|]. induction R as [|s s' _ IH St]; [discriminate|].
  assert (Nt : forall s1, d_reader s1 = RHead -> d_reader (notify s1) = RDone -> False).
  { intros s1 R1. unfold notify. destruct (d_writer s1); cbn; congruence. }
  destruct St as [s R D|s R D|s fuel m src' R Q|s fuel e src' R Q|s W D|s W D|s act W Ch|s W Ch|s act W|s act k W K|s act W|s m W Q]; cbn; try exact IH; try discriminate; try (intros _; exact D); auto.
  unfold on_received_message. destruct m as [| | | | |i|b|i b blk|id bd]; try (intros X; exfalso; revert X; apply Nt; reflexivity).
  destruct (negb _); [discriminate|]. intros X; exfalso; revert X; apply Nt; reflexivity.
Qed.
Theorem C120_success sha1 read lookup connect args d : dlruns (download_main sha1 read lookup connect args) (DlOver Succeeds d) ->
  exists t src src' h s, called sha1 read lookup connect args t src /\ recv_handshake src = (Some (Ok h), src') /\
    dreach (N.of_nat (length (t_pieces t))) src' s /\ d = hello_bytes (t_info_hash t) ++ d_out s /\ d_reader s = RDone /\ d_writer s = WDone /\ d_disconnect s = true.
Proof.
  intros R.
  destruct (download_main sha1 read lookup connect args) as [how d'|d'|hello s0] eqn:M.
  - apply idle in R; [|discriminate]. injection R as <- <-. exfalso. revert M. unfold download_main.
    destruct args as [|peer [|file more]]; cbn [nth_error]; try discriminate. destruct (read file); [|discriminate]. destruct (from_bytes sha1 _) as [t0|e0|]; try discriminate.
    destruct (lookup peer) as [[|a o]|]; try discriminate. destruct (connect a); [|discriminate]. unfold peer_connection. destruct (recv_handshake _) as [[[| |]|] ?]; discriminate.
  - apply idle in R; [|discriminate]. discriminate.
  - apply C120_start in M. destruct M as (t & src & h & src' & C & H & -> & ->). apply runs_reach in R. destruct R as (s & R & -> & [(_ & A & B)|(X & _)]); [|discriminate].
    exists t, src, src', h, s. pose proof (done_told _ _ _ R A). auto 8.
Qed.
Print Assumptions C120_success.
(** When the peer closes the connection after the handshake the program may hang for ever. *)
Theorem C120_hang_refuted sha1 read lookup connect args t reserved remote_hash remote_id :
  called sha1 read lookup connect args t (map Byte ([19] ++ ascii_bytes "BitTorrent protocol" ++ reserved ++ remote_hash ++ remote_id)) ->
  length reserved = 8%nat -> length remote_hash = 20%nat -> length remote_id = 20%nat ->
  exists y, dlruns (download_main sha1 read lookup connect args) y /\ (forall z, ~ dlstep y z) /\ forall how d, y <> DlOver how d.
Proof.
  intros C L1 L2 L3. set (src := map Byte _) in C.
  assert (H : recv_handshake src = (Some (Ok {| hs_info_hash := remote_hash; hs_peer_id := remote_id |}), [])).
  { subst src. clear C. do 8 (destruct reserved as [|? reserved]; [discriminate|]). destruct reserved; [|discriminate].
    do 20 (destruct remote_hash as [|? remote_hash]; [discriminate|]). destruct remote_hash; [|discriminate].
    do 20 (destruct remote_id as [|? remote_id]; [discriminate|]). destruct remote_id; [|discriminate]. reflexivity. }
  destruct (C96_close_refuted (N.of_nat (length (t_pieces t)))) as (s & R & A & B & S).
  exists (DlRunning (hello_bytes (t_info_hash t)) s). split; [|split; [|discriminate]].
  - rewrite (begun _ _ _ _ _ _ _ C). unfold peer_connection. rewrite H. clear A B S.
    induction R as [|s s' R IH St K]; [constructor|]. econstructor; [exact IH|]. constructor; [|exact St]. exact (proj1 (C96_no_panic _ _ _ R)).
  - intros z Z. inversion Z as [h s0 s1 N St E1 E2|h s0 D W E1 E2|h s0 P E1 E2]; subst; [exact (S _ St)|congruence|congruence].
Qed.
Print Assumptions C120_hang_refuted.
(** Whatever blocks of the file arrive, they change nothing: the program goes on as after a
    keep-alive, so nothing of the file is kept. *)
Theorem C120_blocks_refuted s i b block : on_received_message s (Piece i b block) = on_received_message s KeepAlive.
Proof. reflexivity. Qed.
Print Assumptions C120_blocks_refuted.

Definition small_torrent : bytes := dotdot_torrent.
Definition a_peer : list item := map Byte ([19] ++ ascii_bytes "BitTorrent protocol" ++ [0; 0; 0; 0; 0; 16; 0; 5] ++ repeat 7 20 ++ repeat 8 20 ++ [0; 0; 0; 1; 1]).
Example C120_case :
  match download_main (fun _ => repeat 3 20) (fun _ => Some small_torrent) (fun _ => Some [[1]; [2]]) (fun a => if bytes_eqb a [1] then Some a_peer else None) [ascii_bytes "peer:1"; ascii_bytes "f"] with
  | DlRunning h s => length h = 68%nat /\ firstn 20 (skipn 28 h) = repeat 3 20 /\ s = d_init 1 (map Byte [0; 0; 0; 1; 1])
  | _ => False
  end /\
  download_main (fun _ => repeat 3 20) (fun _ => Some small_torrent) (fun _ => Some []) (fun _ => Some a_peer) [ascii_bytes "peer:1"; ascii_bytes "f"] = DlOver Fails [].
Proof. vm_compute. repeat split; reflexivity. Qed.
