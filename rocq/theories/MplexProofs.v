(** Lemmas about mplex frames. *)
From Verif Require Import Base BaseProofs VarintModel VarintSpec VarintProofs VarintProofs2 MplexModel.
Ltac Zify.zify_post_hook ::= Z.div_mod_to_equations.

Lemma scan_app l e n : scan_varint l = Some n -> scan_varint (l ++ e) = Some n /\ (1 <= n <= length l)%nat.
Proof.
  revert n. induction l as [|b l IH]; intros n; cbn [scan_varint app]; [discriminate|].
  destruct (N.land b 128 =? 0); [intros H; injection H as <-; cbn [length]; split; [reflexivity|lia]|].
  destruct (scan_varint l) as [m|]; [|discriminate]. cbn [option_map]. intros H. injection H as <-.
  destruct (IH m eq_refl) as [E L]. rewrite E. cbn [option_map length]. split; [reflexivity|lia].
Qed.
Lemma firstn_more {A} n (l m : list A) : (n <= length l)%nat -> firstn n (l ++ m) = firstn n l.
Proof. intros H. rewrite firstn_app. replace (n - length l)%nat with 0%nat by lia. rewrite firstn_O, app_nil_r. reflexivity. Qed.
Lemma skipn_more {A} n (l m : list A) : (n <= length l)%nat -> skipn n (l ++ m) = skipn n l ++ m.
Proof. intros H. rewrite skipn_app. replace (n - length l)%nat with 0%nat by lia. reflexivity. Qed.

Lemma extract_app d o e : (o <= length d)%nat ->
  match extract_varint_u64 d o with
  | Ok (Some (v, o')) => extract_varint_u64 (d ++ e) o = Ok (Some (v, o')) /\ (o < o' <= length d)%nat
  | Ok None => True
  | Err x => extract_varint_u64 (d ++ e) o = Err x
  | Panic => False
  end.
Proof.
  intros Ho. unfold extract_varint_u64. destruct (scan_varint (skipn o d)) as [n|] eqn:S; [|exact I].
  apply (scan_app _ e) in S. destruct S as [S L]. rewrite skipn_more by exact Ho. rewrite S.
  rewrite firstn_more by lia. rewrite skipn_length in L.
  destruct (decode_u64 _); [split; [reflexivity|lia]|reflexivity|reflexivity].
Qed.
Lemma buffered_app d e :
  match buffered_frame d with
  | Ok (Some (f, rest)) => buffered_frame (d ++ e) = Ok (Some (f, rest ++ e)) /\ (length rest + 2 <= length d)%nat /\
                           exists u, d = u ++ rest
  | Ok None => True
  | Err x => buffered_frame (d ++ e) = Err x
  | Panic => buffered_frame (d ++ e) = Panic
  end.
Proof.
  unfold buffered_frame. pose proof (extract_app d 0 e ltac:(lia)) as X1.
  destruct (extract_varint_u64 d 0) as [[[hd o]|]|x|]; cbn [bind]; [|exact I|rewrite X1; reflexivity|contradiction].
  destruct X1 as [X1 L1]. rewrite X1. cbn [bind].
  destruct (flag_from_raw (N.land hd 7)) as [fl|x|]; cbn [bind]; [|reflexivity|reflexivity].
  pose proof (extract_app d o e ltac:(lia)) as X2.
  destruct (extract_varint_u64 d o) as [[[pl o']|]|x|]; cbn [bind]; [|exact I|rewrite X2; reflexivity|contradiction].
  destruct X2 as [X2 L2]. rewrite X2. cbn [bind].
  destruct (two64 <=? N.of_nat o' + pl); [reflexivity|].
  destruct (N.of_nat o' + pl <=? blen d) eqn:E; [|exact I].
  replace (N.of_nat o' + pl <=? blen (d ++ e)) with true by (rewrite blen_app; unfold blen in *; lia).
  assert (Lp : (N.to_nat pl <= length (skipn o' d))%nat) by (rewrite skipn_length; unfold blen in E; lia).
  rewrite skipn_more by lia. rewrite firstn_more, skipn_more by exact Lp.
  split; [reflexivity|]. rewrite !skipn_length. split; [lia|].
  rewrite skipn_skipn'. eexists. symmetry. apply firstn_skipn.
Qed.

(** ** Reading everything *)
Inductive status := Finished_ok | Failed (e : ioerr) | Crashed | Waiting | OutOfPolls.
Fixpoint whole (fuel : nat) (d : bytes) : list frame * status :=
  match fuel with
  | O => ([], OutOfPolls)
  | S fuel =>
    match buffered_frame d with
    | Ok (Some (f, rest)) => let (l, s) := whole fuel rest in (f :: l, s)
    | Err e => ([], Failed e)
    | Panic => ([], Crashed)
    | Ok None => match d with [] => ([], Finished_ok) | _ => ([], Failed UnexpectedEof) end
    end
  end.
Lemma whole_fuel f1 f2 d : (length d < f1)%nat -> (length d < f2)%nat -> whole f1 d = whole f2 d.
Proof.
  revert f2 d. induction f1 as [|f1 IH]; intros f2 d L1 L2; [lia|]. destruct f2 as [|f2]; [lia|].
  cbn [whole]. pose proof (buffered_app d []) as B. destruct (buffered_frame d) as [[[f rest]|]|e|]; auto.
  destruct B as (_ & B & _). rewrite (IH f2 rest) by lia. reflexivity.
Qed.
(** Poll until there is nothing left to poll for. *)
Fixpoint receive (polls : nat) (fs : frame_stream) (answers : list answer) : list frame * status :=
  match polls with
  | O => ([], OutOfPolls)
  | S n =>
    match poll_read_frame fs answers with
    | (Wait, fs', []) => ([], Waiting)
    | (Wait, fs', answers') => receive n fs' answers'
    | (Done (Ok (Some f)), fs', answers') => let (l, s) := receive n fs' answers' in (f :: l, s)
    | (Done (Ok None), _, _) => ([], Finished_ok)
    | (Done (Err e), _, _) => ([], Failed e)
    | (Done Panic, _, _) => ([], Crashed)
    end
  end.
(** Pieces of data and pauses, without an end. *)
Definition pieces (answers : list answer) : Prop :=
  Forall (fun a => match a with APending => True | ARead d => d <> [] | AError _ => False end) answers.

Lemma poll_cases chunks : forall fs tail, pieces chunks -> fs_eof fs = false ->
  let d := fs_in fs ++ data_of chunks in
  match poll_read_frame fs (chunks ++ ARead [] :: tail) with
  | (Wait, fs', a') => exists ch', a' = ch' ++ ARead [] :: tail /\ (length ch' < length chunks)%nat /\ pieces ch' /\
       fs_eof fs' = false /\ fs_in fs' ++ data_of ch' = d
  | (Done (Ok (Some f)), fs', a') => exists ch', a' = ch' ++ ARead [] :: tail /\ (length ch' <= length chunks)%nat /\ pieces ch' /\
       fs_eof fs' = false /\ buffered_frame d = Ok (Some (f, fs_in fs' ++ data_of ch'))
  | (Done (Ok None), _, _) => d = []
  | (Done (Err e), _, _) => buffered_frame d = Err e \/ buffered_frame d = Ok None /\ d <> [] /\ e = UnexpectedEof
  | (Done Panic, _, _) => buffered_frame d = Panic
  end.
Proof.
  induction chunks as [|a chunks IH]; intros fs tail P E.
  - cbn [app data_of]. rewrite app_nil_r. cbv zeta. cbn [poll_read_frame].
    pose proof (buffered_app (fs_in fs) []) as B.
    destruct (buffered_frame (fs_in fs)) as [[[f rest]|]|e|] eqn:Eb; auto.
    + exists []. cbn [app data_of length with_in fs_in fs_eof]. rewrite app_nil_r. auto 10.
    + rewrite E. destruct tail as [|? tail]; cbn [poll_read_frame fs_in fs_eof]; rewrite Eb;
        (destruct (fs_in fs) as [|b l] eqn:El; [reflexivity|]); right; (split; [reflexivity|split; [discriminate|reflexivity]]).
  - inversion P as [|? ? Pa Pc]; subst. cbn [app].
    assert (H1 : poll_read_frame fs (a :: chunks ++ ARead [] :: tail) =
      match buffered_frame (fs_in fs) with
      | Ok (Some (f, rest)) => (Done (Ok (Some f)), with_in fs rest, a :: chunks ++ ARead [] :: tail)
      | Err e => (Done (Err e), fs, a :: chunks ++ ARead [] :: tail)
      | Panic => (Done Panic, fs, a :: chunks ++ ARead [] :: tail)
      | Ok None => match a with
         | APending => (Wait, fs, chunks ++ ARead [] :: tail)
         | AError e => (Done (Err e), fs, chunks ++ ARead [] :: tail)
         | ARead d => poll_read_frame (with_in fs (fs_in fs ++ d)) (chunks ++ ARead [] :: tail)
         end
      end).
    { cbn [poll_read_frame]. destruct (buffered_frame (fs_in fs)) as [[[f rest]|]|e|]; auto. rewrite E.
      destruct a as [|d|e]; auto. destruct d as [|b d]; auto. contradiction. }
    rewrite H1. clear H1. cbv zeta.
    pose proof (buffered_app (fs_in fs) (data_of (a :: chunks))) as B.
    destruct (buffered_frame (fs_in fs)) as [[[f rest]|]|e|] eqn:Eb.
    + exists (a :: chunks). cbn [app length with_in fs_in fs_eof]. destruct B as (B & _). auto 10.
    + destruct a as [|d|e]; [|clear B Eb|contradiction].
      * exists chunks. cbn [length data_of]. auto 10.
      * specialize (IH (with_in fs (fs_in fs ++ d)) tail Pc E). cbv zeta in IH. cbn [with_in fs_in] in IH.
        rewrite <- app_assoc in IH. cbn [data_of].
        destruct (poll_read_frame _ _) as [[[|[[f|]|e|]] fs'] a'].
        -- destruct IH as (ch' & I1 & I2 & I3). exists ch'. cbn [length]. split; [exact I1|]. split; [lia|exact I3].
        -- destruct IH as (ch' & I1 & I2 & I3). exists ch'. cbn [length]. split; [exact I1|]. split; [lia|exact I3].
        -- exact IH.
        -- exact IH.
        -- exact IH.
    + left. exact B.
    + exact B.
Qed.
Lemma receive_whole : forall n fs chunks tail, pieces chunks -> fs_eof fs = false ->
  (length chunks + length (fs_in fs ++ data_of chunks) < n)%nat ->
  receive n fs (chunks ++ ARead [] :: tail) = whole (S (length (fs_in fs ++ data_of chunks))) (fs_in fs ++ data_of chunks).
Proof.
  induction n as [|n IH]; intros fs chunks tail P E L; [lia|]. cbn [receive].
  pose proof (poll_cases chunks fs tail P E) as C. cbv zeta in C. set (d := fs_in fs ++ data_of chunks) in *.
  destruct (poll_read_frame fs (chunks ++ ARead [] :: tail)) as [[[|[[f|]|e|]] fs'] a'].
  - destruct C as (ch' & -> & C1 & C2 & C3 & C4).
    destruct (ch' ++ ARead [] :: tail) as [|x y] eqn:Ec; [destruct ch'; discriminate|]. rewrite <- Ec.
    rewrite IH; [rewrite C4; reflexivity|exact C2|exact C3|rewrite C4; lia].
  - destruct C as (ch' & -> & C1 & C2 & C3 & C4).
    pose proof (buffered_app d []) as B. rewrite C4 in B. destruct B as (_ & B & _).
    set (d2 := fs_in fs' ++ data_of ch') in *.
    rewrite IH; [|exact C2|exact C3|fold d2; lia]. fold d2.
    rewrite (whole_fuel (S (length d2)) (length d) d2) by lia.
    cbn [whole]. rewrite C4. reflexivity.
  - rewrite C. reflexivity.
  - cbn [whole]. destruct C as [C|(C & C1 & ->)]; rewrite C; [reflexivity|]. destruct d; [congruence|reflexivity].
  - cbn [whole]. rewrite C. reflexivity.
Qed.
Lemma whole_ends fuel d : (length d < fuel)%nat -> snd (whole fuel d) <> OutOfPolls /\ snd (whole fuel d) <> Waiting.
Proof.
  revert d. induction fuel as [|fuel IH]; intros d L; [lia|]. cbn [whole].
  pose proof (buffered_app d []) as B.
  destruct (buffered_frame d) as [[[f rest]|]|e|]; [|destruct d; split; discriminate|split; discriminate|split; discriminate].
  destruct B as (_ & B & _). specialize (IH rest ltac:(lia)). destruct (whole fuel rest). exact IH.
Qed.

(** ** One frame *)
Definition wire_frame (h : N) (data : bytes) : bytes := encode_u64 h ++ encode_u64 (blen data) ++ data.
Lemma extract_encode pre v rest : v < two64 ->
  extract_varint_u64 (pre ++ encode_u64 v ++ rest) (length pre) = Ok (Some (v, (length pre + length (encode_u64 v))%nat)).
Proof.
  intros H. unfold extract_varint_u64. rewrite skipn_app_length.
  rewrite scan_well_terminated by (apply encode_bytes_ok || apply encode_well_terminated).
  rewrite firstn_app_length, decode_encode by exact H. reflexivity.
Qed.
Lemma buffered_wire h fl data rest : h < two64 -> flag_from_raw (N.land h 7) = Ok fl -> blen data + 20 < two64 ->
  buffered_frame (wire_frame h data ++ rest) = Ok (Some (from_message_parts (N.shiftr h 3) fl data, rest)).
Proof.
  intros Hh Hf Hl. unfold wire_frame. rewrite <- !app_assoc. unfold buffered_frame.
  pose proof (extract_encode [] h (encode_u64 (blen data) ++ data ++ rest) Hh) as X1. cbn [app length Nat.add] in X1.
  rewrite X1. cbn [bind]. rewrite Hf. cbn [bind].
  assert (Hb : blen data < two64) by lia.
  rewrite (extract_encode (encode_u64 h) (blen data) (data ++ rest) Hb). cbn [bind].
  pose proof (encode_length_u64 h Hh) as L1. pose proof (encode_length_u64 (blen data) Hb) as L2.
  set (o := (length (encode_u64 h) + length (encode_u64 (blen data)))%nat).
  replace (two64 <=? N.of_nat o + blen data) with false by lia.
  replace (N.of_nat o + blen data <=? blen (encode_u64 h ++ encode_u64 (blen data) ++ data ++ rest)) with true.
  2:{ rewrite !blen_app. unfold o, blen. rewrite !Nat2N.inj_add. lia. }
  assert (S : skipn o (encode_u64 h ++ encode_u64 (blen data) ++ data ++ rest) = data ++ rest).
  { unfold o. rewrite <- skipn_skipn', skipn_app_length. apply skipn_app_length. }
  rewrite S. unfold blen. rewrite Nat2N.id, firstn_app_length, skipn_app_length. reflexivity.
Qed.
Lemma header_parts n fl : n < 2 ^ 61 -> header_of n fl < two64 /\ N.shiftr (header_of n fl) 3 = n /\
  N.land (header_of n fl) 7 = flag_to_raw fl.
Proof.
  intros H. unfold header_of. rewrite N.shiftl_mul_pow2. change (2 ^ 3) with 8.
  assert (Hf : flag_to_raw fl < 8) by (destruct fl; reflexivity).
  assert (E : N.lor (n * 8 mod two64) (flag_to_raw fl) = n * 8 + flag_to_raw fl).
  { rewrite N.mod_small by (unfold two64; change (2^61) with 2305843009213693952 in H; lia).
    pose proof (lor_disjoint (flag_to_raw fl) n 3 Hf) as D. rewrite N.shiftl_mul_pow2 in D. change (2 ^ 3) with 8 in D.
    rewrite N.lor_comm, D. lia. }
  rewrite E. rewrite shiftr_pow. change (2 ^ 3) with 8. change 7 with (N.ones 3). rewrite N.land_ones. change (2 ^ 3) with 8.
  change (2^61) with 2305843009213693952 in H. unfold two64. set (f := flag_to_raw fl) in *. clearbody f. clear E. split; [lia|]. split; lia.
Qed.
