(** Everything the IPFS node prints, C140. *)
From Coq Require Import String Ascii FinFun.
From Verif Require Import Base BaseProofs UtilModel ChatModel Asn1PrintProps VarintModel ProtobufModel CidModel CidTextModel IdentifyModel BitswapModel BlockModel DagPbModel UnixfsModel
  MplexModel LpioModel HandlerModel IpfsMainModel HexDumpModel NamesModel DebugModel IpfsTextModel BitswapLogModel BitswapLogProps MplexLogProps TemplateSpec NodeLogModel.
Local Open Scope string_scope. Local Open Scope list_scope. Local Open Scope N_scope.

Lemma quad {A B C D} (a a' : A) (b b' : B) (c c' : C) (d d' : D) : (a, (b, c, d)) = (a', (b', c', d')) -> a = a' /\ b = b' /\ c = c' /\ d = d'.
Proof. intros E. injection E. auto. Qed.
Ltac quads E := apply quad in E; destruct E as (<- & <- & <- & <-).

Section Props.
Set Default Proof Using "Type".
Context (sha256 blake2b256 lossy quote : bytes -> bytes) (ip6 : bytes -> bytes) (utf8 : bytes) (io : ioerr -> bytes).

(** ** C140: the results are those without the log *)
Lemma request_same {H} k fuel : forall (entries : list (service H)) src, snd (request_said lossy k fuel entries src) = request_loop fuel entries src.
Proof.
  induction fuel as [|fuel IH]; intros entries src; cbn [request_said request_loop]; [reflexivity|].
  destruct (read_opt_message None src) as [[[[[d|]|e|]|] lim] s]; try reflexivity. destruct (registry_lookup entries d) as [h|]; [reflexivity|].
  specialize (IH entries s). destruct (request_said lossy k fuel entries s) as [l [[r out] s']]. cbn [snd] in IH. rewrite <- IH. reflexivity.
Qed.
Lemma handler2_same {H} k (entries : list (service H)) src : snd (handler2_said lossy k entries src) = connection_handler2 entries src.
Proof.
  unfold handler2_said, connection_handler2. destruct (multistream_handshake src) as [[[[[]|e|]|] out] s]; try reflexivity.
  pose proof (request_same k (S (length s)) entries s) as R. destruct (request_said lossy k (S (length s)) entries s) as [l [[r o] s']]. cbn [snd] in R. rewrite <- R. reflexivity.
Qed.
Lemma upgrade_same w d p n src : snd (upgrade_said lossy w d p n src) = upgrade lossy p n src.
Proof.
  unfold upgrade_said, upgrade. destruct (multistream_handshake src) as [[[[[]|e|]|] out] s]; try reflexivity.
  destruct (multistream_list lossy s) as [[[[l|e|]|] out'] s']; try reflexivity. destruct (negotiate p n s') as [[r o] s'']. reflexivity.
Qed.
Theorem C140_same_results :
  (forall key k src, snd (serve_said sha256 blake2b256 lossy quote utf8 io key k src) = serve sha256 blake2b256 key src) /\
  (forall src, snd (identify_said quote ip6 utf8 io src) = identify_command src) /\
  (forall text src, snd (show_said sha256 blake2b256 quote utf8 io text src) = show_command sha256 blake2b256 text src) /\
  (forall tls src, snd (dial_said lossy tls src) = dial lossy tls src).
Proof.
  split; [|split; [|split]].
  - intros key k src. unfold serve_said, serve. pose proof (handler2_same k node_services src) as R. destruct (handler2_said lossy k node_services src) as [l [[r o] s]]. cbn [snd] in R. rewrite <- R.
    destruct r as [[[[]|]|e|]|]; try reflexivity. destruct (bitswap_handler sha256 blake2b256 None s) as [[[o' ls] r] s']. reflexivity.
  - intros src. unfold identify_said, identify_command. destruct (open_protocol id_protocol "identify protocol unsupported" src) as [[[[[]|e|]|] o] s]; try reflexivity.
    unfold identify_client_said. destruct (identify_client_inner s) as [r s']. reflexivity.
  - intros text src. unfold show_said, show_command. destruct (open_protocol bitswap_protocol "bitswap protocol unsupported" src) as [[[[[]|e|]|] o] s]; try reflexivity.
    destruct (bitswap_handler sha256 blake2b256 (Some text) s) as [[[o' ls] r] s']. reflexivity.
  - intros tls src. unfold dial_said, dial. pose proof (upgrade_same "TCP" "TLS" (ascii_bytes "/tls/1.0.0" ++ [10]) "/tls/1.0.0 is unsupported" src) as R.
    destruct (upgrade_said lossy "TCP" "TLS" (ascii_bytes "/tls/1.0.0" ++ [10]) "/tls/1.0.0 is unsupported" src) as [l [[r o] s]]. cbn [snd] in R. rewrite <- R.
    destruct r as [[u|e|]|]; try reflexivity. destruct (tls s) as [plain|]; [|reflexivity].
    pose proof (upgrade_same "TLS" "/mplex/6.7.0" (ascii_bytes "/mplex/6.7.0" ++ [10]) "/mplex/6.7.0 is unsupported" plain) as R2.
    destruct (upgrade_said lossy "TLS" "/mplex/6.7.0" (ascii_bytes "/mplex/6.7.0" ++ [10]) "/mplex/6.7.0 is unsupported" plain) as [l2 [[r2 o2] s2]]. cbn [snd] in R2. rewrite <- R2. reflexivity.
Qed.

(** ** C140: the requests of a stream *)
(** The messages [ds] are read from [src], one after the other. *)
Inductive reads : list item -> list bytes -> list item -> Prop :=
| reads_none src : reads src [] src
| reads_one src d lim mid ds rest : read_opt_message None src = (Some (Ok (Some d)), lim, mid) -> reads mid ds rest -> reads src (d :: ds) rest.
Definition numbered (k : N) (ds : list bytes) : list told := map (fun d => Out (text_of [fill "{}: peer requested service: {}" [decimal k; escape_string (lossy d)]])) ds.
Lemma request_told k d : tell (request_line lossy k d) = numbered k [d].
Proof. unfold tell, numbered, request_line, text_of, say. cbn. rewrite ?app_nil_r. reflexivity. Qed.
(** What the loop prints: a line for every request, in order; it goes on after a request for
    an unknown service only; what it answers; and the line when the peer ended the stream. *)
Theorem C140_requests {H} k fuel (entries : list (service H)) src l r out rest :
  request_said lossy k fuel entries src = (l, (r, out, rest)) ->
  exists ds mid, reads src ds mid /\
    match r with
    | Some (Ok (Some h)) => exists us d, ds = us ++ [d] /\ Forall (fun u => registry_lookup entries u = None) us /\ registry_lookup entries d = Some h /\ mid = rest /\
        l = numbered k ds /\ out = concat (map (fun _ => write_message na) us) ++ write_message id_protocol
    | _ => Forall (fun u => registry_lookup entries u = None) ds /\ out = concat (map (fun _ => write_message na) ds) /\
        l = numbered k ds ++ match r with Some (Ok None) => [Out (text_of [fill "{}: peer terminated stream normally" [decimal k]])] | _ => [] end
    end.
Proof.
  revert src l r out rest. induction fuel as [|fuel IH]; intros src l r out rest E; cbn [request_said] in E.
  { quads E. exists [], src. split; [constructor|]. repeat constructor. }
  destruct (read_opt_message None src) as [[[[[d|]|e|]|] lim] s] eqn:R.
  - destruct (registry_lookup entries d) as [h|] eqn:Lk.
    + quads E. exists [d], s. split; [econstructor; [exact R|constructor]|]. exists [], d. repeat split; try assumption; try constructor. apply request_told.
    + destruct (request_said lossy k fuel entries s) as [l' [[r' out'] rest']] eqn:Q. quads E.
      apply IH in Q. destruct Q as (ds & mid & Rd & Q). exists (d :: ds), mid. split; [econstructor; eassumption|].
      rewrite request_told. destruct r' as [[[h|]|e|]|].
      1: { destruct Q as (us & x & -> & F & Lx & M & L & O). exists (d :: us), x. split; [reflexivity|]. split; [constructor; assumption|]. split; [exact Lx|]. split; [exact M|]. split; [rewrite L; reflexivity|]. rewrite O. cbn [map concat]. rewrite <- app_assoc. reflexivity. }
      all: destruct Q as (F & O & L); split; [constructor; assumption|]; split; [rewrite O; reflexivity|rewrite L; reflexivity].
  - quads E. exists [], src. split; [constructor|]. split; [constructor|]. split; [reflexivity|]. unfold tell, say, text_of. cbn. rewrite ?app_nil_r, <- ?app_assoc. reflexivity.
  - quads E. exists [], src. split; [constructor|]. repeat constructor.
  - quads E. exists [], src. split; [constructor|]. repeat constructor.
  - quads E. exists [], src. split; [constructor|]. repeat constructor.
Qed.
(** Whatever the peer asks for, a request is one line, that of its stream. *)
Theorem C140_one_line_per_request k ds :
  exists ls, printed (numbered k ds) = text_of ls /\ complained (numbered k ds) = [] /\ length ls = length ds /\
    Forall (fun l => ~ In 10 l /\ exists t, l = fill "{}: peer requested service: {}" [decimal k; escape_string t]) ls.
Proof.
  clear sha256 blake2b256 quote ip6 utf8 io.
  exists (map (fun d => fill "{}: peer requested service: {}" [decimal k; escape_string (lossy d)]) ds).
  split; [|split; [|split]].
  - induction ds as [|d ds IH]; [reflexivity|]. unfold printed in *. cbn [numbered map flat_map]. unfold numbered in IH. rewrite IH. cbn [text_of flat_map]. rewrite app_nil_r. reflexivity.
  - induction ds as [|d ds IH]; [reflexivity|exact IH].
  - apply map_length.
  - apply Forall_forall. intros l X. apply in_map_iff in X. destruct X as (d & <- & _). split; [|eauto].
    replace (fill "{}: peer requested service: {}" [decimal k; escape_string (lossy d)]) with (decimal k ++ ascii_bytes ": peer requested service: " ++ escape_string (lossy d)) by (cbn; rewrite ?app_nil_r; reflexivity).
    apply app_free; [apply decimal_free; lia|]. apply app_free; [apply ascii_free; reflexivity|apply escape_free].
Qed.
(** A line tells its stream and, but for backslashes, the name asked for. *)
Theorem C140_request_line_tells k k' s s' : 
  fill "{}: peer requested service: {}" [decimal k; escape_string s] = fill "{}: peer requested service: {}" [decimal k'; escape_string s'] ->
  k = k' /\ (~ In 92 s -> ~ In 92 s' -> s = s').
Proof.
  clear sha256 blake2b256 lossy quote ip6 utf8 io.
  intros E. assert (E1 : decimal k ++ 58 :: (ascii_bytes " peer requested service: " ++ escape_string s ++ []) = decimal k' ++ 58 :: (ascii_bytes " peer requested service: " ++ escape_string s' ++ [])) by exact E.
  apply split_at in E1; [|apply decimal_free; lia..]. destruct E1 as (E1 & E2). apply decimal_inj in E1. split; [exact E1|]. intros A B. apply app_inv_head in E2. rewrite !app_nil_r in E2. apply escape_inj; assumption.
Qed.

(** ** C140: a stream that the peer opened *)
Theorem C140_served key k src l r out rest : serve_said sha256 blake2b256 lossy quote utf8 io key k src = (l, (r, out, rest)) ->
  exists ds tail, l = numbered k ds ++ tail /\
    match r with
    | Some (Ok SEnded) => tail = [Out (text_of [fill "{}: peer terminated stream normally" [decimal k]])]
    | Some (Ok (SFailed e)) => tail = [Diag (text_of [fill "{}: Handler error: {}" [decimal k; io e]])]
    | Some (Ok SIdentify) => tail = [Out (text_of [fill "[identify] starting" []]); Out (text_of [fill "[identify] finished" []])] /\ exists us, ds = us ++ [id_protocol]
    | Some (Ok (SBitswap _ _)) => (exists src', tail = [Out (fst (handler_said sha256 blake2b256 quote utf8 io None src'))]) /\ exists us, ds = us ++ [bitswap_protocol]
    | Some (Err _) => False
    | None | Some Panic => tail = [] \/ exists src', tail = [Out (fst (handler_said sha256 blake2b256 quote utf8 io None src'))]
    end.
Proof.
  intros E. unfold serve_said in E. destruct (handler2_said lossy k node_services src) as [l1 [[r1 o1] s1]] eqn:Q.
  assert (G : exists ds tl, l1 = numbered k ds ++ tl /\
    match r1 with
    | Some (Ok (Some h)) => tl = [] /\ exists us d, ds = us ++ [d] /\ registry_lookup node_services d = Some h
    | Some (Ok None) => tl = [Out (text_of [fill "{}: peer terminated stream normally" [decimal k]])]
    | _ => tl = []
    end).
  { unfold handler2_said in Q. destruct (multistream_handshake src) as [[[[[]|e|]|] o] s] eqn:M; try (quads Q; exists [], []; split; reflexivity).
    destruct (request_said lossy k (S (length s)) node_services s) as [l' [[r' o'] s']] eqn:R. quads Q.
    apply C140_requests in R. destruct R as (ds & mid & _ & R). destruct r' as [[[h|]|e|]|].
    - destruct R as (us & d & -> & _ & Lk & _ & L & _). exists (us ++ [d]), []. rewrite app_nil_r. split; [exact L|]. split; [reflexivity|]. eauto.
    - destruct R as (_ & _ & L). eauto.
    - destruct R as (_ & _ & L). eauto.
    - destruct R as (_ & _ & L). eauto.
    - destruct R as (_ & _ & L). eauto. }
  destruct G as (ds & tl & -> & G).
  assert (Lk : forall d h, registry_lookup node_services d = Some h -> match h with HIdentify => d = id_protocol | HBitswap => d = bitswap_protocol end).
  { intros d h. unfold node_services, registry_add, registry_lookup. cbn [app svc_bname svc_handler]. destruct (bytes_eqb (ascii_bytes "/ipfs/id/1.0.0" ++ [10]) d) eqn:A.
    - apply bytes_eqb_eq in A. intros X. injection X as <-. symmetry. exact A.
    - destruct (bytes_eqb (ascii_bytes "/ipfs/bitswap/1.2.0" ++ [10]) d) eqn:B; [|discriminate]. apply bytes_eqb_eq in B. intros X. injection X as <-. symmetry. exact B. }
  destruct r1 as [[[[|]|]|e|]|].
  - quads E. destruct G as (-> & us & d & -> & L). apply Lk in L. subst d. exists (us ++ [id_protocol]), identify_handler_lines. rewrite app_nil_r. split; [reflexivity|]. split; [reflexivity|eauto].
  - destruct (bitswap_handler sha256 blake2b256 None s1) as [[[o' ls] r'] s'] eqn:B. quads E. destruct G as (-> & us & d & -> & L). apply Lk in L. subst d.
    eexists (us ++ [bitswap_protocol]), _. rewrite app_nil_r. split; [reflexivity|]. destruct r' as [r'|]; cbn [option_map]; [|right; eauto]. split; eauto.
  - quads E. exists ds, tl. auto.
  - quads E. subst tl. eexists ds, _. rewrite app_nil_r. split; [reflexivity|]. unfold complain, say, text_of. cbn. rewrite ?app_nil_r, <- ?app_assoc. cbn. rewrite <- ?app_assoc. reflexivity.
  - quads E. subst tl. exists ds, []. auto.
  - quads E. subst tl. exists ds, []. auto.
Qed.

(** ** C140: the streams are numbered from 0, each with its own number, in the order of [accept] *)
Definition streams_of (l : list acceptance) : list (list item) := flat_map (fun a => match a with AStream s => [s] | _ => [] end) l.
Definition numbers_from (n : N) (len : nat) : list N := map (fun i => n + N.of_nat i) (seq 0 len).
Theorem C140_accept srcs tail : Forall (fun a => match a with AStream _ => False | _ => True end) (firstn 1 tail) ->
  let '(t, s) := accept_said io 0 (map AStream srcs ++ tail) in
  map snd s = srcs /\ map fst s = numbers_from 0 (length srcs) /\ NoDup (map fst s) /\
  t = map (fun n => Out (text_of [fill "{}: accept_loop(): new connection" [decimal n]])) (numbers_from 0 (length srcs)) ++
      match tail with
      | [] => []
      | ANoMore :: _ => [Out (text_of [fill "{}: accept_loop(): no more connections (underlying transport closed)" [decimal (N.of_nat (length srcs))]])]
      | AFailed e :: _ => [Diag (text_of [fill "{}: accept_loop(): {}" [decimal (N.of_nat (length srcs)); io e]])]
      | AStream _ :: _ => []
      end.
Proof.
  clear sha256 blake2b256 lossy quote ip6 utf8.
  intros T.
  assert (G : forall n, let '(t, s) := accept_said io n (map AStream srcs ++ tail) in
    map snd s = srcs /\ map fst s = numbers_from n (length srcs) /\
    t = map (fun n => Out (text_of [fill "{}: accept_loop(): new connection" [decimal n]])) (numbers_from n (length srcs)) ++
      match tail with
      | [] => []
      | ANoMore :: _ => [Out (text_of [fill "{}: accept_loop(): no more connections (underlying transport closed)" [decimal (n + N.of_nat (length srcs))]])]
      | AFailed e :: _ => [Diag (text_of [fill "{}: accept_loop(): {}" [decimal (n + N.of_nat (length srcs)); io e]])]
      | AStream _ :: _ => []
      end).
  { induction srcs as [|x srcs IH]; intros n.
    - cbn [map app length numbers_from seq]. rewrite N.add_0_r. destruct tail as [|[s| |e] tail]; cbn [accept_said].
      + auto.
      + cbn in T. inversion T. contradiction.
      + split; [reflexivity|]. split; [reflexivity|]. unfold tell, say, text_of. cbn. rewrite ?app_nil_r, <- ?app_assoc. reflexivity.
      + split; [reflexivity|]. split; [reflexivity|]. unfold complain, say, text_of. cbn. rewrite ?app_nil_r, <- ?app_assoc. cbn. rewrite <- ?app_assoc. reflexivity.
    - cbn [map app accept_said]. specialize (IH (n + 1)). destruct (accept_said io (n + 1) (map AStream srcs ++ tail)) as [t s]. destruct IH as (A & B & C). cbn [map fst snd]. rewrite A, B, C.
      assert (Nn : numbers_from n (length (x :: srcs)) = n :: numbers_from (n + 1) (length srcs)).
      { unfold numbers_from. cbn [length seq map]. rewrite N.add_0_r. f_equal. rewrite <- seq_shift, map_map. apply map_ext. intros i. lia. }
      rewrite Nn. split; [reflexivity|]. split; [reflexivity|]. cbn [map app]. replace (n + N.of_nat (length (x :: srcs))) with (n + 1 + N.of_nat (length srcs)) by (cbn [length]; lia).
      unfold tell, say, text_of. cbn. rewrite ?app_nil_r, <- ?app_assoc. reflexivity. }
  specialize (G 0). destruct (accept_said io 0 (map AStream srcs ++ tail)) as [t s]. destruct G as (A & B & C). split; [exact A|]. split; [exact B|]. split; [|exact C].
  rewrite B. unfold numbers_from. apply Injective_map_NoDup; [|apply seq_NoDup]. intros i j X. lia.
Qed.

(** ** C140: the commands *)
Theorem C140_identify_lines src l r out rest : identify_said quote ip6 utf8 io src = (l, (r, out, rest)) ->
  match r with
  | Some (Ok (Some i)) => exists n, l = map (fun x => Out (text_of [x])) [fill "identify protocol accepted" []; fill "[identify] starting" []; fill "Received {} bytes of data" [decimal n]; pretty (didentify quote ip6 i); fill "[identify] finished" []]
  | Some (Ok None) => l = map (fun x => Out (text_of [x])) [fill "identify protocol accepted" []; fill "[identify] starting" []; fill "[identify] peer closed connection" []; fill "[identify] finished" []]
  | Some (Err (NPb e)) => exists n, l = map (fun x => Out (text_of [x])) [fill "identify protocol accepted" []; fill "[identify] starting" []; fill "Received {} bytes of data" [decimal n]; fill "[identify] error: {}" [pb_error_text utf8 e]]
  | Some (Err (NIo e)) => l = [] \/ l = map (fun x => Out (text_of [x])) [fill "identify protocol accepted" []; fill "[identify] starting" []; fill "[identify] error: {}" [io e]]
  | Some (Err _) => l = []
  | None => l = [] \/ l = map (fun x => Out (text_of [x])) [fill "identify protocol accepted" []; fill "[identify] starting" []]
  | Some Panic => True
  end.
Proof.
  intros E. unfold identify_said in E.
  assert (OE : forall e o s, open_protocol id_protocol "identify protocol unsupported" src = (Some (Err e), o, s) -> match e with NPb _ => False | _ => True end).
  { intros e o s X. unfold open_protocol in X. destruct (multistream_handshake src) as [[[[[]|e0|]|] o0] s0]; try discriminate X; [|injection X as <- _ _; exact I].
    unfold negotiate in X. destruct (multistream_select id_protocol s0) as [[[[[]|e1|]|] o1] s1]; try discriminate X; injection X as <- _ _; exact I. }
  destruct (open_protocol id_protocol "identify protocol unsupported" src) as [[[[[]|e|]|] o] s] eqn:Op.
  - unfold identify_client_said in E. destruct (identify_client_inner s) as [r1 s1] eqn:C. quads E. unfold identify_client_inner in C.
    destruct (read_opt_message None s) as [[[[[d|]|e|]|] lim] s2] eqn:R.
    + injection C as <- <-. destruct (identify_from_pb d) as [i|e|]; cbn beta iota.
      * exists (blen d). unfold tell, say, text_of. cbn. rewrite ?app_nil_r, <- ?app_assoc. reflexivity.
      * exists (blen d). unfold tell, say, text_of. cbn. rewrite ?app_nil_r, <- ?app_assoc. cbn. rewrite ?app_nil_r, <- ?app_assoc. reflexivity.
      * exact I.
    + injection C as <- <-. reflexivity.
    + injection C as <- <-. right. unfold tell, say, text_of. cbn. rewrite ?app_nil_r, <- ?app_assoc. reflexivity.
    + injection C as <- <-. exact I.
    + injection C as <- <-. right. reflexivity.
  - quads E. specialize (OE _ _ _ eq_refl). destruct e; auto. contradiction.
  - quads E. exact I.
  - quads E. left. reflexivity.
Qed.
Theorem C140_show_lines text src l r out rest : show_said sha256 blake2b256 quote utf8 io text src = (l, (r, out, rest)) ->
  (exists e, r = Some (Err e) /\ l = []) \/ (r = None /\ l = []) \/ (r = Some Panic /\ l = []) \/
  exists s, l = [Out (text_of [fill "bitswap protocol accepted" []]); Out (fst (handler_said sha256 blake2b256 quote utf8 io (Some text) s))] /\
    (r = None <-> snd (handler_said sha256 blake2b256 quote utf8 io (Some text) s) = None).
Proof.
  intros E. unfold show_said in E. destruct (open_protocol bitswap_protocol "bitswap protocol unsupported" src) as [[[[[]|e|]|] o] s] eqn:Op; try (quads E; eauto; fail).
  destruct (bitswap_handler sha256 blake2b256 (Some text) s) as [[[o' ls] r'] s'] eqn:B. quads E. right. right. right. exists s. split; [reflexivity|].
  apply (BitswapLogProps.C129_same_results sha256 blake2b256 quote utf8 io) in B. destruct B as (-> & _). destruct r'; cbn; split; congruence.
Qed.
Theorem C140_test_line : test_said = [Out (text_of [fill "Test: sitting passively, waiting for connections" []])].
Proof. reflexivity. Qed.

(** ** C140: how far the connection has come *)
(** The lines of a whole connection; [names1] and [names2] are the protocols listed. *)
Definition milestones (names1 names2 : list bytes) : list bytes :=
  [fill "Generated certificate" []; fill "Completed multistream handshake on TCP connection" []; fill "Available protocols on TCP connection:" []] ++
  map (fun p => fill "    {}" [escape_string p]) names1 ++
  [fill "Negotiated TLS" []; fill "Established TLS connection" []; []; fill "Completed multistream handshake on TLS connection" []; fill "Available protocols on TLS connection:" []] ++
  map (fun p => fill "    {}" [escape_string p]) names2 ++ [fill "Negotiated /mplex/6.7.0" []].
Lemma names_told l : flat_map (fun p => tell (ascii_bytes "    " ++ escape_string p)) l = map (fun x => Out (text_of [x])) (map (fun p => fill "    {}" [escape_string p]) l).
Proof. induction l as [|p l IH]; [reflexivity|]. cbn [flat_map map]. rewrite IH. unfold tell, say, text_of. cbn. rewrite ?app_nil_r. reflexivity. Qed.
Definition upgrade_lines (w d : string) (names : list bytes) : list bytes :=
  [fill "Completed multistream handshake on {} connection" [ascii_bytes w]; fill "Available protocols on {} connection:" [ascii_bytes w]] ++
  map (fun p => fill "    {}" [escape_string p]) names ++ [fill "Negotiated {}" [ascii_bytes d]].
Lemma upgrade_shape w d p n src l r out rest : upgrade_said lossy w d p n src = (l, (r, out, rest)) ->
  exists names k, l = map (fun x => Out (text_of [x])) (firstn k (upgrade_lines w d names)) /\
    ((k = length (upgrade_lines w d names) /\ r = Some (Ok names)) \/ ((k < length (upgrade_lines w d names))%nat /\ forall m, r <> Some (Ok m))).
Proof.
  clear sha256 blake2b256 quote ip6 utf8 io.
  intros E. unfold upgrade_said in E.
  assert (L1 : forall x, (0 < length (upgrade_lines w d x))%nat /\ (1 < length (upgrade_lines w d x))%nat) by (intros x; unfold upgrade_lines; cbn [app length]; lia).
  destruct (multistream_handshake src) as [[[[[]|e|]|] o] s]; try (quads E; exists [], 0%nat; split; [reflexivity|right; split; [apply L1|discriminate]]).
  assert (H1 : tell (ascii_bytes "Completed multistream handshake on " ++ ascii_bytes w ++ ascii_bytes " connection") = map (fun x => Out (text_of [x])) (firstn 1 (upgrade_lines w d []))).
  { unfold tell, say, text_of, upgrade_lines. cbn. rewrite ?app_nil_r, <- ?app_assoc. cbn. rewrite <- ?app_assoc. reflexivity. }
  destruct (multistream_list lossy s) as [[[[names|e|]|] o'] s']; try (quads E; exists [], 1%nat; split; [exact H1|right; split; [apply L1|discriminate]]).
  destruct (negotiate p n s') as [[r' o''] s'']. quads E.
  assert (Ls : tell (ascii_bytes "Completed multistream handshake on " ++ ascii_bytes w ++ ascii_bytes " connection") ++ list_lines w names =
    map (fun x => Out (text_of [x])) ([fill "Completed multistream handshake on {} connection" [ascii_bytes w]; fill "Available protocols on {} connection:" [ascii_bytes w]] ++ map (fun p => fill "    {}" [escape_string p]) names)).
  { rewrite map_app, <- names_told. unfold list_lines. rewrite app_assoc. f_equal. unfold tell, say, text_of. cbn. rewrite ?app_nil_r, <- ?app_assoc. cbn. rewrite <- ?app_assoc. reflexivity. }
  rewrite app_assoc, Ls. clear Ls H1.
  assert (Part : forall x : list bytes, firstn (length x) (x ++ [fill "Negotiated {}" [ascii_bytes d]]) = x) by (intros x; rewrite firstn_app, Nat.sub_diag, firstn_all; apply app_nil_r).
  exists names. destruct r' as [[u|e|]|].
  - exists (length (upgrade_lines w d names)). rewrite firstn_all. split; [|left; auto]. unfold upgrade_lines. rewrite app_assoc, (map_app _ _ [fill "Negotiated {}" [ascii_bytes d]]). apply (f_equal2 (@app told)); [reflexivity|]. unfold tell, say, text_of. cbn. rewrite ?app_nil_r. reflexivity.
  - exists (2 + length names)%nat. rewrite app_nil_r. unfold upgrade_lines. rewrite app_assoc. split; [f_equal; rewrite <- (Part ([fill "Completed multistream handshake on {} connection" [ascii_bytes w]; fill "Available protocols on {} connection:" [ascii_bytes w]] ++ map (fun p => fill "    {}" [escape_string p]) names)) at 1; f_equal; rewrite app_length, map_length; reflexivity|].
    right. split; [rewrite !app_length, map_length; cbn [length]; rewrite Nat.add_1_r; apply Nat.lt_succ_diag_r|discriminate].
  - exists (2 + length names)%nat. rewrite app_nil_r. unfold upgrade_lines. rewrite app_assoc. split; [f_equal; rewrite <- (Part ([fill "Completed multistream handshake on {} connection" [ascii_bytes w]; fill "Available protocols on {} connection:" [ascii_bytes w]] ++ map (fun p => fill "    {}" [escape_string p]) names)) at 1; f_equal; rewrite app_length, map_length; reflexivity|].
    right. split; [rewrite !app_length, map_length; cbn [length]; rewrite Nat.add_1_r; apply Nat.lt_succ_diag_r|discriminate].
  - exists (2 + length names)%nat. rewrite app_nil_r. unfold upgrade_lines. rewrite app_assoc. split; [f_equal; rewrite <- (Part ([fill "Completed multistream handshake on {} connection" [ascii_bytes w]; fill "Available protocols on {} connection:" [ascii_bytes w]] ++ map (fun p => fill "    {}" [escape_string p]) names)) at 1; f_equal; rewrite app_length, map_length; reflexivity|].
    right. split; [rewrite !app_length, map_length; cbn [length]; rewrite Nat.add_1_r; apply Nat.lt_succ_diag_r|discriminate].
Qed.
(** The lines are always a beginning of the whole list, and all of it exactly when the
    multiplexed connection stands; a listed protocol is one line whatever its name. *)
Theorem C140_milestones tls src l r out out' : dial_said lossy tls src = (l, (r, out, out')) ->
  exists names1 names2 k, l = map (fun x => Out (text_of [x])) (firstn k (milestones names1 names2)) /\ Forall (fun x => ~ In 10 x) (milestones names1 names2) /\
    ((exists plain, r = Some (Ok plain)) <-> (length (milestones names1 names2) <= k)%nat).
Proof.
  clear sha256 blake2b256 quote ip6 utf8 io.
  intros E. unfold dial_said in E.
  assert (MM : forall a b, milestones a b = [fill "Generated certificate" []] ++ upgrade_lines "TCP" "TLS" a ++ [fill "Established TLS connection" []; []] ++ upgrade_lines "TLS" "/mplex/6.7.0" b).
  { intros a b. unfold milestones, upgrade_lines. rewrite <- !app_assoc. reflexivity. }
  assert (Free : forall a b, Forall (fun x => ~ In 10 x) (milestones a b)).
  { intros a b. unfold milestones. assert (F : forall l, Forall (fun x => ~ In 10 x) (map (fun p => fill "    {}" [escape_string p]) l)).
    { intros q. apply Forall_forall. intros x X. apply in_map_iff in X. destruct X as (p & <- & _). replace (fill "    {}" [escape_string p]) with (ascii_bytes "    " ++ escape_string p) by (cbn; rewrite ?app_nil_r; reflexivity). apply app_free; [apply ascii_free; reflexivity|apply escape_free]. }
    assert (B10 : forall l : list bytes, forallb (fun x => negb (existsb (N.eqb 10) x)) l = true -> Forall (fun x => ~ In 10 x) l).
    { intros q Q. apply Forall_forall. intros x X Y. rewrite forallb_forall in Q. apply Q in X. apply Bool.negb_true_iff in X. enough (existsb (N.eqb 10) x = true) by congruence. apply existsb_exists. exists 10. split; [exact Y|reflexivity]. }
    apply Forall_app; split; [apply B10; reflexivity|]. apply Forall_app; split; [apply F|]. apply Forall_app; split; [apply B10; reflexivity|]. apply Forall_app; split; [apply F|apply B10; reflexivity]. }
  destruct (upgrade_said lossy "TCP" "TLS" (ascii_bytes "/tls/1.0.0" ++ [10]) "/tls/1.0.0 is unsupported" src) as [l1 [[r1 o1] s1]] eqn:U1.
  apply upgrade_shape in U1. destruct U1 as (names1 & k1 & L1 & U1). 
  assert (Stop : (forall m, r1 <> Some (Ok m)) -> l = tell (ascii_bytes "Generated certificate") ++ l1 -> (forall plain, r <> Some (Ok plain)) ->
    exists names1 names2 k, l = map (fun x => Out (text_of [x])) (firstn k (milestones names1 names2)) /\ Forall (fun x => ~ In 10 x) (milestones names1 names2) /\ ((exists plain, r = Some (Ok plain)) <-> (length (milestones names1 names2) <= k)%nat)).
  { intros N -> R. destruct U1 as [(K & X)|(K & _)]; [destruct (N _ X)|]. exists names1, [], (S k1). split; [|split; [apply Free|]].
    - rewrite MM, L1. change (firstn (S k1) ([fill "Generated certificate" []] ++ ?x)) with (fill "Generated certificate" [] :: firstn k1 x). cbn [app firstn map]. f_equal. rewrite firstn_app. replace (k1 - length (upgrade_lines "TCP" "TLS" names1))%nat with 0%nat by lia. cbn [firstn]. rewrite app_nil_r. reflexivity.
    - rewrite MM, !app_length. cbn [length]. split; [intros (plain & P); destruct (R _ P)|lia]. }
  destruct r1 as [[u|e|]|]; [|quads E; apply Stop; [discriminate|reflexivity|discriminate]..]. clear Stop.
  destruct U1 as [(K & X)|(_ & X)]; [|destruct (X u eq_refl)]. injection X as ->.
  rewrite K, firstn_all in L1.
  destruct (tls s1) as [plain|].
  - destruct (upgrade_said lossy "TLS" "/mplex/6.7.0" (ascii_bytes "/mplex/6.7.0" ++ [10]) "/mplex/6.7.0 is unsupported" plain) as [l2 [[r2 o2] s2]] eqn:U2. quads E.
    apply upgrade_shape in U2. destruct U2 as (names2 & k2 & L2 & U2). exists names1, names2, (1 + length (upgrade_lines "TCP" "TLS" names1) + 2 + k2)%nat. split; [|split; [apply Free|]].
    + rewrite MM, L1, L2. rewrite (app_assoc [fill "Generated certificate" []]), (app_assoc _ [fill "Established TLS connection" []; []]).
      rewrite firstn_app, !app_length. cbn [length]. replace (1 + length (upgrade_lines "TCP" "TLS" names1) + 2 + k2 - (1 + length (upgrade_lines "TCP" "TLS" names1) + 2))%nat with k2 by lia.
      rewrite (@firstn_all2 _ (1 + length (upgrade_lines "TCP" "TLS" names1) + 2 + k2)) by (rewrite !app_length; cbn [length]; lia). rewrite !map_app, <- !app_assoc. reflexivity.
    + rewrite MM, !app_length. cbn [length]. split.
      * intros (p & P). destruct U2 as [(-> & _)|(_ & N)]; [lia|]. destruct r2 as [[u|e|]|]; try discriminate P. destruct (N u eq_refl).
      * intros Le. destruct U2 as [(_ & ->)|(Lt & _)]; [eauto|lia].
  - quads E. exists names1, [], (1 + length (upgrade_lines "TCP" "TLS" names1))%nat. split; [|split; [apply Free|]].
    + rewrite MM, L1. rewrite (app_assoc [fill "Generated certificate" []]). rewrite firstn_app, !app_length. cbn [length]. rewrite Nat.sub_diag. cbn [firstn].
      rewrite firstn_all2 by (rewrite !app_length; cbn [length]; lia). rewrite app_nil_r, !map_app. reflexivity.
    + rewrite MM, !app_length. cbn [length]. split; [intros (p & P); discriminate P|lia].
Qed.
End Props.
Print Assumptions C140_same_results.
Print Assumptions C140_requests.
Print Assumptions C140_one_line_per_request.
Print Assumptions C140_request_line_tells.
Print Assumptions C140_served.
Print Assumptions C140_accept.
Print Assumptions C140_identify_lines.
Print Assumptions C140_show_lines.
Print Assumptions C140_test_line.
Print Assumptions C140_milestones.
