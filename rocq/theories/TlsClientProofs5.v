(** Proofs about established TLS connections: reading. *)
From Verif Require Import Base BaseProofs MplexModel BinaryModel BinaryProofs MessageProofs MessageProofs2 ProtobufProofs Asn1Model X509Model TlsCodesModel TlsTypesModel
  TlsTypesSpec TlsTypesProofs TlsTypesProofs2 TlsTypesProofs3 TlsRecordModel TlsRecordSpec TlsRecordProofs TlsRecordProps TlsClientModel TlsClientSpec TlsClientProofs TlsClientProofs2 TlsClientProofs3.
Local Open Scope string_scope. Local Open Scope list_scope. Local Open Scope N_scope.
Ltac Zify.zify_post_hook ::= Z.div_mod_to_equations.

(** *** Records *)
Lemma carries_records d l : carries d l -> Forall (fun raw => exists t f, is_record raw t f /\ t <> 20) l /\ (5 * length l <= length d)%nat.
Proof.
  induction 1 as [|d l raw f C [IH1 IH2] R|d l raw t f C [IH1 IH2] R T].
  - split; [constructor|apply Nat.le_refl].
  - split; [exact IH1|]. rewrite app_length. lia.
  - split; [apply Forall_app; split; [exact IH1|constructor; [exists t, f; auto|constructor]]|].
    destruct R as (v1 & v0 & l1 & l0 & -> & _). rewrite !app_length. cbn [length]. lia.
Qed.
Lemma adds_is_record d raw : adds d [raw] -> exists t f, is_record raw t f.
Proof. intros A. destruct (carries_records _ _ (A [] [] carries_none)) as [F _]. cbn [app] in F. apply Forall_inv in F. destruct F as (t & f & F & _). eauto. Qed.
Lemma is_record_unique r1 t1 f1 r2 t2 f2 x y : is_record r1 t1 f1 -> is_record r2 t2 f2 -> r1 ++ x = r2 ++ y -> r1 = r2 /\ x = y.
Proof.
  intros (a1 & a0 & l1 & l0 & -> & L1 & _) (b1 & b0 & m1 & m0 & -> & M1 & _) H. cbn [app] in H. injection H as <- <- <- <- <- H.
  assert (f1 = f2 /\ x = y) as [-> ->]; [|auto]. assert (L : length f1 = length f2) by (unfold blen in *; lia).
  assert (f1 = f2) as -> by (rewrite <- (firstn_app_length f1 x), H, L; apply firstn_app_length). split; [reflexivity|]. exact (app_inv_head _ _ _ H).
Qed.
Lemma carries_prefix d l : carries d l -> forall raws rest, Forall (fun raw => exists t f, is_record raw t f /\ t <> 20) raws -> d ++ rest = concat raws ->
  l = firstn (length l) raws /\ d = concat l /\ (length l <= length raws)%nat /\ rest = concat (skipn (length l) raws).
Proof.
  induction 1 as [|d l raw f C IH R|d l raw t f C IH R T]; intros raws rest F E.
  - cbn [length firstn concat skipn]. cbn [app] in E. auto using Nat.le_0_l.
  - rewrite <- app_assoc in E. destruct (IH raws (raw ++ rest) F E) as (I1 & I2 & I3 & I4). exfalso.
    destruct (skipn (length l) raws) as [|r tl] eqn:Sk.
    + cbn [concat] in I4. destruct R as (v1 & v0 & l1 & l0 & -> & _). discriminate I4.
    + assert (Fr : exists t f, is_record r t f /\ t <> 20).
      { rewrite <- (firstn_skipn (length l) raws), Sk in F. apply Forall_app in F. destruct F as [_ F]. apply Forall_inv in F. exact F. }
      destruct Fr as (t2 & f2 & Fr & T2). cbn [concat] in I4. destruct (is_record_unique _ _ _ _ _ _ _ _ R Fr I4) as [<- _].
      destruct R as (v1 & v0 & l1 & l0 & -> & _), Fr as (w1 & w0 & k1 & k0 & Q & _). cbn [app] in Q. injection Q as <- _ _ _ _ _. contradiction T2; reflexivity.
  - rewrite <- app_assoc in E. destruct (IH raws (raw ++ rest) F E) as (I1 & I2 & I3 & I4).
    destruct (skipn (length l) raws) as [|r tl] eqn:Sk.
    + cbn [concat] in I4. destruct R as (v1 & v0 & l1 & l0 & -> & _). discriminate I4.
    + assert (Fr : exists t f, is_record r t f /\ t <> 20).
      { rewrite <- (firstn_skipn (length l) raws), Sk in F. apply Forall_app in F. destruct F as [_ F]. apply Forall_inv in F. exact F. }
      destruct Fr as (t2 & f2 & Fr & T2). cbn [concat] in I4. destruct (is_record_unique _ _ _ _ _ _ _ _ R Fr I4) as [<- ->].
      assert (Q : raws = (l ++ [raw]) ++ tl) by (rewrite <- (firstn_skipn (length l) raws), Sk, <- I1, <- app_assoc; reflexivity).
      rewrite Q, firstn_app_length, skipn_app_length, concat_app, I2. cbn [concat]. rewrite app_nil_r.
      split; [reflexivity|]. split; [reflexivity|]. split; [rewrite ?app_length; lia|reflexivity].
Qed.
Lemma decrypt_opens P k seq raw t f content : key_ok k -> seq < two64 -> is_record raw t f -> opens P k seq raw content 23 ->
  decrypt_message P seq k raw = Ok (MApplicationData content, content).
Proof.
  intros (K1 & K2 & K3) S (v1 & v0 & l1 & l0 & -> & L1 & L2) (hd & c & pad & E1 & E2 & E3 & _).
  destruct hd as [|h0 [|h1 [|h2 [|h3 [|h4 [|h5 hd]]]]]]; try discriminate E2. cbn [app] in E1. injection E1 as <- <- <- <- <- <-.
  unfold decrypt_message, decrypt_traffic. cbn [app ciphertext_from_raw]. rewrite of_be2. unfold max_ciphertext.
  destruct (16640 <? 256 * l1 + l0) eqn:B1; [lia|]. destruct (blen f <? 256 * l1 + l0) eqn:B2; [lia|]. assert (Ln : N.to_nat (256 * l1 + l0) = length f) by (unfold blen in *; lia). rewrite Ln, firstn_all.
  change (length (t :: v1 :: v0 :: l1 :: l0 :: f)) with (5 + length f)%nat. rewrite Nat.eqb_refl. cbn [negb]. unfold decrypt_in_place. rewrite K1, Nat.eqb_refl. cbn [negb].
  rewrite (nonce_length _ _ K2). change (nonce_len (k_alg k)) with 12%nat. cbn [Nat.eqb negb]. rewrite (nonce_rfc _ _ K2 K3 S). cbn [firstn]. rewrite E3. cbn [of_option map_err bind].
  rewrite strip_inner by discriminate. rewrite rev_involutive. reflexivity.
Qed.
Lemma opened_any P k seq raw m body : key_ok k -> seq < two64 -> decrypt_message P seq k raw = Ok (m, body) ->
  exists t, opens P k seq raw body t /\ message_from_raw body (content_type_from t) = Ok m.
Proof.
  intros K S H. destruct (C56_only_what_opens P k seq raw _ _ K S H) as (hd & c & t & pad & E1 & E2 & _ & _ & E3 & E4 & E5). exists t. split; [|exact E5]. exists hd, c, pad. auto.
Qed.
Lemma content_type_is t ct : content_type_from t = ct -> match ct with CtAlert => t = 21 | CtApplicationData => t = 23 | _ => True end.
Proof. unfold content_type_from. intros <-. repeat match goal with |- context [if ?c then _ else _] => let X := fresh "X" in destruct c eqn:X end; try exact I; lia. Qed.
Lemma data_message t body d : message_from_raw body (content_type_from t) = Ok (MApplicationData d) -> t = 23 /\ d = body.
Proof.
  intros H. destruct (content_type_from t) eqn:E; cbn [message_from_raw] in H; try discriminate H.
  - apply bind_ok in H. destruct H as (? & _ & H). discriminate H.
  - apply bind_ok in H. destruct H as (? & _ & H). discriminate H.
  - split; [exact (content_type_is _ _ E)|congruence].
Qed.
Lemma close_message t body a : message_from_raw body (content_type_from t) = Ok (MAlert a) -> a_description a = AdCloseNotify -> t = 21 /\ is_close body.
Proof.
  intros H D. destruct (content_type_from t) eqn:E; cbn [message_from_raw] in H; try discriminate H.
  - apply bind_ok in H. destruct H as (a' & Ra & H). assert (a' = a) as -> by congruence. split; [exact (content_type_is _ _ E)|].
    unfold read_alert, read_alert_level, read_alert_description, rbind in Ra. change (new_reader body) with (at_pos [] body) in Ra.
    destruct (read_u8 (at_pos [] body)) as [x r1] eqn:E1. destruct (u8_inv _ _ _ _ E1) as [(e & -> & ->)|(l & post & -> & -> & ->)]; [discriminate Ra|]. cbn [rret] in Ra. cbn [fst snd] in Ra.
    unfold rret in Ra. destruct (read_u8 (at_pos ([] ++ [l]) post)) as [y r2] eqn:E2. destruct (u8_inv _ _ _ _ E2) as [(e & -> & ->)|(c & rest & -> & -> & ->)]; [discriminate Ra|].
    cbn [fst] in Ra. exists l, rest. assert (a = {| a_level := alert_level_from l; a_description := alert_description_from c |}) as -> by congruence.
      cbn [a_description] in D. unfold alert_description_from in D.
      destruct (c =? 0) eqn:C0; [assert (c = 0) as -> by lia; reflexivity|].
      repeat match type of D with context [if ?c then _ else _] => destruct c; try discriminate D end.
  - apply bind_ok in H. destruct H as (? & _ & H). discriminate H.
Qed.

(** *** The invariant *)
Definition reading (P : primitives) (k : key) (rx : bytes) (c : connection) (got : bytes) (l : list (bytes * N)) : Prop :=
  exists d raws, rx = d ++ rr_in (ps_receiver (cn_plain c)) /\ carries d raws /\ took P k raws l /\ se_server (cn_seq c) = N.of_nat (length l) /\
    t_server (e_secrets (se_enc (cn_seq c))) = k /\ app_data l = got ++ cn_in c /\
    (cn_read c = REof -> cn_in c = [] /\ exists l' content, l = l' ++ [(content, 21)] /\ is_close content).
Lemma took_length P k raws l : took P k raws l -> (length l <= length raws)%nat.
Proof. induction 1; rewrite ?app_length; cbn [length]; lia. Qed.
Lemma app_data_app l1 l2 : app_data (l1 ++ l2) = app_data l1 ++ app_data l2.
Proof. unfold app_data. rewrite map_app, concat_app. reflexivity. Qed.
Lemma fill_reading fuel P k : key_ok k -> forall rx c got l answers x c' rest, reading P k rx c got l -> cn_in c = [] -> cn_read c = RActive ->
  blen rx + blen (concat (map data_of answers)) < two64 ->
  fill_loop fuel P c answers = (x, c', rest) ->
  exists pre l', answers = pre ++ rest /\ reading P k (rx ++ concat (map data_of pre)) c' got (l ++ l') /\
    (x = Done (Ok tt) -> cn_in c' = [] -> (cn_read c' = REof) \/ exists l2, l ++ l' = l2 ++ [([], 23)]).
Proof.
  intros K. induction fuel as [|fuel IH]; intros rx c got l answers x c' rest R Ci Cr B H; cbn [fill_loop] in H.
  - injection H as <- <- <-. exists [], []. rewrite !app_nil_r. split; [reflexivity|]. split; [exact R|discriminate].
  - destruct (poll_recv (ps_receiver (cn_plain c)) answers) as [[y r1] a1] eqn:E1. destruct (recv_spec _ _ _ _ _ E1) as (pre & P1 & P2).
    destruct R as (d & raws & R1 & R2 & R3 & R4 & R5 & R6 & R7). rewrite Ci, app_nil_r in R6.
    assert (R1' : rx ++ concat (map data_of pre) = d ++ rr_in r1) by (rewrite R1, P2, app_assoc; reflexivity).
    assert (Base : forall rs, (rs = REof -> False) -> reading P k (rx ++ concat (map data_of pre)) (set_read (with_receiver c r1) rs) got l).
    { intros rs N0. exists d, raws. split; [exact R1'|]. split; [exact R2|]. split; [exact R3|]. split; [exact R4|]. split; [exact R5|]. cbn [set_read with_receiver set_plain cn_in cn_read]. rewrite Ci, app_nil_r. split; [exact R6|].
      intros C. contradiction (N0 C). }
    assert (Base0 : reading P k (rx ++ concat (map data_of pre)) (with_receiver c r1) got l).
    { exists d, raws. split; [exact R1'|]. split; [exact R2|]. split; [exact R3|]. split; [exact R4|]. split; [exact R5|]. cbn [with_receiver set_plain cn_in cn_read]. rewrite Ci, Cr, app_nil_r. split; [exact R6|discriminate]. }
    destruct y as [|[[]|e|]].
    + injection H as <- <- <-. exists pre, []. rewrite app_nil_r. split; [exact P1|]. split; [exact Base0|discriminate].
    + destruct (receive_encrypted_message P r1 (se_server (cn_seq (with_receiver c r1))) (se_enc (cn_seq (with_receiver c r1))) None) as [[[z r2] n2] ts2] eqn:E2.
      cbn [with_receiver set_plain cn_seq] in E2. destruct (receive_spec _ _ _ _ _ _ _ _ _ E2) as (d2 & Q1 & Q2). rewrite R5, R4 in Q2.
      assert (Bd : blen (d ++ d2) < two64).
      { assert (blen (rx ++ concat (map data_of pre)) < two64) by (rewrite P1, map_app, concat_app, blen_app in B; rewrite blen_app; lia). rewrite R1', Q1, app_assoc, blen_app in H0. lia. }
      assert (Ls : N.of_nat (length l) < two64).
      { destruct (carries_records _ _ R2) as [_ X]. pose proof (took_length _ _ _ _ R3). rewrite blen_app in Bd. unfold blen in Bd. lia. }
      assert (Rx2 : rx ++ concat (map data_of pre) = (d ++ d2) ++ rr_in r2) by (rewrite R1', Q1, app_assoc; reflexivity).
      (* nothing was taken, or something that is no message *)
      assert (Plain : adds d2 [] -> n2 = N.of_nat (length l) -> forall rs, (rs = REof -> False) -> reading P k (rx ++ concat (map data_of pre)) (set_read (with_server_seq (with_receiver (with_receiver c r1) r2) n2) rs) got l).
      { intros A Nn rs N0. exists (d ++ d2), raws. split; [exact Rx2|]. split; [pose proof (A _ _ R2) as A'; rewrite app_nil_r in A'; exact A'|]. split; [exact R3|]. split; [exact Nn|]. split; [exact R5|].
        cbn [set_read with_server_seq with_receiver set_plain cn_in cn_read]. rewrite Ci, app_nil_r. split; [exact R6|]. intros C. contradiction (N0 C). }
      assert (Bad : forall raw, adds d2 [raw] -> (forall y, decrypt_message P (N.of_nat (length l)) k raw <> Ok y) -> n2 = N.of_nat (length l) ->
        reading P k (rx ++ concat (map data_of pre)) (set_read (with_server_seq (with_receiver (with_receiver c r1) r2) n2) RActive) got l).
      { intros raw A Dn Nn. exists (d ++ d2), (raws ++ [raw]). split; [exact Rx2|]. split; [exact (A _ _ R2)|]. split.
        - apply took_bad; [exact R3|]. intros content O. destruct (adds_is_record _ _ A) as (t & f & Ir). exact (Dn _ (decrypt_opens P k _ raw t f content K Ls Ir O)).
        - split; [exact Nn|]. split; [exact R5|]. cbn [set_read with_server_seq with_receiver set_plain cn_in cn_read]. rewrite Ci, app_nil_r. split; [exact R6|discriminate]. }
      assert (Good : forall m raw body, adds d2 [raw] -> decrypt_message P (N.of_nat (length l)) k raw = Ok (m, body) -> n2 = N.of_nat (length l) + 1 ->
        exists t, message_from_raw body (content_type_from t) = Ok m /\ forall rs, (rs = REof -> t = 21 /\ is_close body) -> 
        reading P k (rx ++ concat (map data_of pre)) (set_read (with_in (with_server_seq (with_receiver (with_receiver c r1) r2) n2) (if t =? 23 then body else [])) rs) got (l ++ [(body, t)])).
      { intros m raw body A Dn Nn. destruct (opened_any P k _ raw m body K Ls Dn) as (t & O & M). exists t. split; [exact M|]. intros rs Hrs. exists (d ++ d2), (raws ++ [raw]).
        split; [exact Rx2|]. split; [exact (A _ _ R2)|]. split; [apply took_one; assumption|]. split; [cbn [set_read with_in with_server_seq cn_seq se_server]; rewrite app_length; cbn [length]; lia|]. split; [exact R5|].
        cbn [set_read with_in with_server_seq with_receiver set_plain cn_in cn_read]. split; [rewrite app_data_app, R6; unfold app_data; cbn [map concat fst snd]; rewrite app_nil_r; reflexivity|].
        intros C. destruct (Hrs C) as [-> Cl]. split; [reflexivity|]. exists l, body. auto. }
      assert (Same : forall c1 : connection, cn_in c1 = [] -> cn_read c1 = RActive -> set_read c1 RActive = c1) by (intros [p q i r] X1 X2; cbn in X1, X2; unfold set_read; cbn; rewrite X2; reflexivity).
      assert (SameIn : forall c1 : connection, cn_in c1 = [] -> with_in c1 [] = c1) by (intros [p q i r] X1; cbn in X1; unfold with_in; cbn; rewrite X1; reflexivity).
      set (c2 := with_server_seq (with_receiver (with_receiver c r1) r2) n2) in *.
      assert (C2 : cn_in c2 = [] /\ cn_read c2 = RActive) by (split; [exact Ci|exact Cr]). destruct C2 as [C2i C2r].
      destruct z as [|[[m|]|e|]].
      * injection H as <- <- <-. exists pre, []. rewrite app_nil_r. split; [exact P1|]. split; [|discriminate]. destruct Q2 as (Nn & _ & A). rewrite <- (Same c2 C2i C2r). apply Plain; [exact A|exact Nn|discriminate].
      * destruct Q2 as (raw & body & A & Dn & Nn & _ & _). destruct (Good m raw body A Dn Nn) as (t & M & G).
        assert (Other : (forall a, m <> MApplicationData a) -> forall rs, (rs = REof -> t = 21 /\ is_close body) -> reading P k (rx ++ concat (map data_of pre)) (set_read c2 rs) got (l ++ [(body, t)])).
        { intros Nd rs Hrs. specialize (G rs Hrs). assert (t =? 23 = false) as T.
          { apply N.eqb_neq. intros ->. cbn in M. apply (Nd body). congruence. }
          rewrite T, SameIn in G by exact C2i. exact G. }
        destruct m as [| |a|h|dd|cc].
        -- injection H as <- <- <-. exists pre, [(body, t)]. split; [exact P1|]. split; [apply Other; discriminate|discriminate].
        -- injection H as <- <- <-. exists pre, [(body, t)]. split; [exact P1|]. split; [apply Other; discriminate|discriminate].
        -- destruct (a_description a) eqn:Ad; injection H as <- <- <-; exists pre, [(body, t)]; (split; [exact P1|]); (split; [apply Other; [discriminate|]|]); try discriminate.
           ++ intros _. exact (close_message t body a M Ad).
           ++ intros _ _. left. reflexivity.
        -- destruct h; try (injection H as <- <- <-; exists pre, [(body, t)]; split; [exact P1|]; split; [apply Other; discriminate|discriminate]).
           specialize (Other ltac:(discriminate) RActive ltac:(discriminate)). rewrite (Same c2 C2i C2r) in Other.
           assert (B' : blen (rx ++ concat (map data_of pre)) + blen (concat (map data_of a1)) < two64) by (rewrite P1, map_app, concat_app, blen_app in B; rewrite blen_app; lia).
           destruct (IH _ _ _ _ _ _ _ _ Other C2i C2r B' H) as (pre2 & l2 & S1 & S2 & S3).
           exists (pre ++ pre2), ((body, t) :: l2). rewrite P1, S1, <- app_assoc. split; [reflexivity|]. rewrite map_app, concat_app, app_assoc.
           change ((body, t) :: l2) with ([(body, t)] ++ l2). rewrite app_assoc. split; [exact S2|exact S3].
        -- destruct (data_message t body dd M) as [-> ->]. cbn [N.eqb Pos.eqb] in G. injection H as <- <- <-. exists pre, [(body, 23)]. split; [exact P1|].
           specialize (G RActive ltac:(discriminate)). rewrite Ci. cbn [app]. split; [|intros _ C; cbn [with_in cn_in] in C; right; exists l; rewrite C; reflexivity].
           replace (with_in c2 body) with (set_read (with_in c2 body) RActive); [exact G|]. unfold set_read, with_in. cbn. unfold c2 in C2r |- *. cbn in C2r |- *. rewrite C2r. reflexivity.
        -- injection H as <- <- <-. exists pre, [(body, t)]. split; [exact P1|]. split; [apply Other; discriminate|discriminate].
      * injection H as <- <- <-. exists pre, []. rewrite app_nil_r. split; [exact P1|]. split; [|discriminate]. destruct Q2 as (Nn & _ & A). apply Plain; [exact A|exact Nn|discriminate].
      * injection H as <- <- <-. exists pre, []. rewrite app_nil_r. split; [exact P1|]. split; [|discriminate]. destruct Q2 as (Nn & _ & [A|(raw & A & [Dn|[Dn _]])]); [| |discriminate Dn].
        -- rewrite <- (Same c2 C2i C2r). apply Plain; [exact A|exact Nn|discriminate].
        -- rewrite <- (Same c2 C2i C2r). exact (Bad raw A Dn Nn).
      * injection H as <- <- <-. exists pre, []. rewrite app_nil_r. split; [exact P1|]. split; [|discriminate]. destruct Q2 as (Nn & _ & [A|(raw & A & [Dn|[_ Dn]])]).
        -- rewrite <- (Same c2 C2i C2r). apply Plain; [exact A|exact Nn|discriminate].
        -- rewrite <- (Same c2 C2i C2r). exact (Bad raw A Dn Nn).
        -- exfalso. destruct (carries_records _ _ (A _ _ R2)) as [_ X]. pose proof (took_length _ _ _ _ R3). rewrite app_length in X. cbn [length] in X. unfold blen in Bd. lia.
    + injection H as <- <- <-. exists pre, []. rewrite app_nil_r. split; [exact P1|]. split; [apply Base; discriminate|discriminate].
    + injection H as <- <- <-. exists pre, []. rewrite app_nil_r. split; [exact P1|]. split; [exact Base0|discriminate].
Qed.
Lemma read_reading P k rx c got l room answers x c' rest : key_ok k -> reading P k rx c got l -> blen rx + blen (concat (map data_of answers)) < two64 ->
  conn_read P c room answers = (x, c', rest) ->
  exists pre l', answers = pre ++ rest /\ reading P k (rx ++ concat (map data_of pre)) c' (got ++ returned_by (RRead x)) (l ++ l') /\
    (x = Done (Ok []) -> (0 < room)%nat -> cn_read c' = REof \/ exists l2, l ++ l' = l2 ++ [([], 23)]).
Proof.
  intros K R B H. unfold conn_read in H.
  destruct (cn_read c) eqn:Cr.
  - unfold fill_incoming in H.
    assert (Y : exists y c1 a1, (match cn_in c with [] => fill_loop (Datatypes.S (length answers)) P c answers | _ => (Done (Ok tt), c, answers) end) = (y, c1, a1) /\
      exists pre l', answers = pre ++ a1 /\ reading P k (rx ++ concat (map data_of pre)) c1 got (l ++ l') /\
        (y = Done (Ok tt) -> cn_in c1 = [] -> (cn_read c1 = REof) \/ exists l2, l ++ l' = l2 ++ [([], 23)])).
    { destruct (cn_in c) as [|b i] eqn:Ci.
      - destruct (fill_loop (Datatypes.S (length answers)) P c answers) as [[y c1] a1] eqn:F. exists y, c1, a1. split; [reflexivity|]. exact (fill_reading _ P k K rx c got l answers y c1 a1 R Ci Cr B F).
      - exists (Done (Ok tt)), c, answers. split; [reflexivity|]. exists [], []. cbn [map concat app]. rewrite !app_nil_r. split; [reflexivity|]. split; [exact R|]. intros _ C. rewrite Ci in C. discriminate C. }
    destruct Y as (y & c1 & a1 & Y1 & pre & l' & Y2 & Y3 & Y4). rewrite Y1 in H. exists pre, l'.
    destruct y as [|[[]|e|]]; try (injection H as <- <- <-; cbn [returned_by]; rewrite app_nil_r; split; [exact Y2|]; split; [exact Y3|discriminate]).
    injection H as <- <- <-. split; [exact Y2|]. cbn [returned_by]. set (amt := Nat.min (length (cn_in c1)) room). split.
    + destruct Y3 as (d & raws & R1 & R2 & R3 & R4 & R5 & R6 & R7). exists d, raws. cbn [with_in cn_plain cn_seq cn_in cn_read]. repeat (split; [assumption|]).
      split; [rewrite R6, <- app_assoc, firstn_skipn; reflexivity|]. intros C. destruct (R7 C) as (R8 & R9). split; [rewrite R8; apply skipn_nil|exact R9].
    + intros C Rm. assert (C' : firstn amt (cn_in c1) = []) by congruence. apply Y4; [reflexivity|]. destruct (cn_in c1) as [|b i]; [reflexivity|]. exfalso. unfold amt in C'. destruct room; [lia|]. discriminate C'.
  - injection H as <- <- <-. exists [], []. cbn [map concat returned_by app]. rewrite !app_nil_r. split; [reflexivity|]. split; [exact R|auto].
  - injection H as <- <- <-. exists [], []. cbn [map concat returned_by app]. rewrite !app_nil_r. split; [reflexivity|]. split; [exact R|discriminate].
Qed.
Lemma flush_keeps_reading P k rx c got l w x c' w' sent : reading P k rx c got l -> flush_encrypted c w = (x, c', w', sent) -> reading P k rx c' got l.
Proof.
  intros R H. unfold flush_encrypted, stream_flush in H. destruct (flush_out (ps_out (cn_plain c)) (ps_write (cn_plain c)) w) as [[[[x1 o] ws] w1] s1]. injection H as <- <- <- <-. exact R.
Qed.
Lemma append_keeps_reading P k rx c got l data ct x c' : reading P k rx c got l -> append_record P c data ct = (x, c') -> reading P k rx c' got l.
Proof.
  intros R H. unfold append_record in H. destruct (encrypt_record P data ct (t_client (e_secrets (se_enc (cn_seq c)))) (se_client (cn_seq c))) as [rec|e|]; [|injection H as <- <-; exact R|injection H as <- <-; exact R].
  destruct (incr (se_client (cn_seq c))); injection H as <- <-; exact R.
Qed.
Lemma used_pre answers pre rest : answers = pre ++ rest -> used answers rest = concat (map data_of pre).
Proof. intros ->. apply used_app. Qed.
Lemma step_reading P k rx c got l o r c' new sent : key_ok k -> reading P k rx c got l -> blen rx + blen (offered [o]) < two64 ->
  cstep P c o = (r, c', new, sent) ->
  exists l', reading P k (rx ++ new) c' (got ++ returned_by r) (l ++ l') /\ blen new <= blen (offered [o]) /\
    (match o with CRead (S _) _ => r = RRead (Done (Ok [])) | _ => False end -> cn_read c' = REof \/ exists l2, l ++ l' = l2 ++ [([], 23)]).
Proof.
  intros K R B H. destruct o as [room answers|data w|w|w]; cbn [cstep] in H.
  - destruct (conn_read P c room answers) as [[x c1] rest] eqn:E. injection H as <- <- <- <-. unfold offered in *. cbn [map concat] in *. rewrite app_nil_r in B.
    destruct (read_reading P k rx c got l room answers x c1 rest K R B E) as (pre & l' & P1 & P2 & P3). exists l'. rewrite (used_pre _ _ _ P1). split; [exact P2|]. split.
    + rewrite app_nil_r, P1, map_app, concat_app, blen_app. lia.
    + destruct room as [|room]; [intros []|]. intros C. apply P3; [congruence|lia].
  - destruct (conn_write P c data w) as [[[x c1] w1] s1] eqn:E. injection H as <- <- <- <-. exists []. cbn [returned_by]. rewrite !app_nil_r. split; [|split; [cbn; lia|intros []]].
    unfold conn_write in E. destruct (ps_write (cn_plain c)); try (injection E as <- <- <- <-; exact R). destruct (flush_encrypted c w) as [[[y c2] w2] s2] eqn:F. pose proof (flush_keeps_reading _ _ _ _ _ _ _ _ _ _ _ R F) as R2.
    destruct y as [|[[]|e|]]; try (injection E as <- <- <- <-; exact R2). destruct (append_application_data P c2 (firstn (Nat.min (length data) (N.to_nat max_plaintext)) data)) as [z c3] eqn:G.
    pose proof (append_keeps_reading _ _ _ _ _ _ _ _ _ _ R2 G) as R3. destruct z as [[]|e|]; injection E as <- <- <- <-; exact R3.
  - destruct (conn_flush c w) as [[[x c1] w1] s1] eqn:E. injection H as <- <- <- <-. exists []. cbn [returned_by]. rewrite !app_nil_r. split; [|split; [cbn; lia|intros []]].
    unfold conn_flush in E. destruct (ps_write (cn_plain c)); try (injection E as <- <- <- <-; exact R). exact (flush_keeps_reading _ _ _ _ _ _ _ _ _ _ _ R E).
  - destruct (conn_shutdown P c w) as [[[x c1] w1] s1] eqn:E. injection H as <- <- <- <-. exists []. cbn [returned_by]. rewrite !app_nil_r. split; [|split; [cbn; lia|intros []]].
    assert (Sr : forall c0, reading P k rx c0 got l -> shutdown_rest c0 w = (x, c1, w1, s1) -> reading P k rx c1 got l).
    { intros c0 R0 S0. unfold shutdown_rest in S0. destruct (flush_encrypted c0 w) as [[[y c2] w2] s2] eqn:F. pose proof (flush_keeps_reading _ _ _ _ _ _ _ _ _ _ _ R0 F) as R2.
      destruct y as [|[[]|e|]]; try (injection S0 as <- <- <- <-; exact R2). destruct w2 as [|[|n|e] w2]; injection S0 as <- <- <- <-; exact R2. }
    unfold conn_shutdown in E. destruct (ps_write (cn_plain c)).
    + destruct (append_close_notify P c) as [z c3] eqn:G. pose proof (append_keeps_reading _ _ _ _ _ _ _ _ _ _ R G) as R3. destruct z as [[]|e|]; try (injection E as <- <- <- <-; exact R3).
      exact (Sr (set_write c3 WsShutdown) R3 E).
    + exact (Sr _ R E).
    + injection E as <- <- <- <-. exact R.
Qed.
Lemma offered_cons o os : offered (o :: os) = offered [o] ++ offered os.
Proof. unfold offered. cbn [map concat]. rewrite app_nil_r. reflexivity. Qed.
Lemma run_reading os : forall P k rx c got l rs c' new sent, key_ok k -> reading P k rx c got l -> blen rx + blen (offered os) < two64 ->
  crun P c os = (rs, c', new, sent) -> exists l', reading P k (rx ++ new) c' (got ++ returned rs) (l ++ l').
Proof.
  induction os as [|o os IH]; intros P k rx c got l rs c' new sent K R B H; cbn [crun] in H.
  - injection H as <- <- <- <-. exists []. cbn [returned map concat]. rewrite !app_nil_r. exact R.
  - destruct (cstep P c o) as [[[r c1] rx1] s1] eqn:E. destruct (crun P c1 os) as [[[rs2 c2] rx2] s2] eqn:F. injection H as <- <- <- <-. rewrite offered_cons, blen_app in B.
    destruct (step_reading P k rx c got l o r c1 rx1 s1 K R ltac:(lia) E) as (l1 & X1 & X2 & _).
    destruct (IH P k (rx ++ rx1) c1 _ _ rs2 c2 rx2 s2 K X1 ltac:(rewrite blen_app; lia) F) as (l2 & Y). exists (l1 ++ l2).
    unfold returned in *. cbn [map concat]. rewrite !app_assoc in *. exact Y.
Qed.
