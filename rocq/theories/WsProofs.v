From Coq Require Import String.
From Verif Require Import Base CodecModel GreetModel ListenModel HdrModel HdrProofs WsModel WsSpec.
Open Scope list_scope.
Open Scope Z_scope.

Lemma held_range o : 0 <= held o <= 1.
Proof. destruct o; cbn; lia. Qed.

(** [k]: the strings already lost. *)
Definition minv (k own : Z) (s : wsm) : Prop :=
  m_refs s = own + m_busy s /\ m_alive s = (0 <? m_refs s) /\ 0 <= own /\ 0 <= m_busy s /\
  m_mem s = k + (if m_alive s then ws_strings (m_set s) else 0).

Lemma times_cons {A} (f : witem -> option A) e es :
  times f (e :: es) = (match e with WConf i => match f i with Some _ => 1 | None => 0 end | _ => 0 end) + times f es.
Proof. unfold times. cbn [filter]. destruct e; auto. destruct (f i); auto. unfold zlen. cbn [List.length]. lia. Qed.
Lemma times_nonneg {A} (f : witem -> option A) es : 0 <= times f es.
Proof. unfold times, zlen. lia. Qed.

Lemma m_unref_ok k own s : minv k (own + 1) s -> 0 <= own -> exists s', m_unref s = Ok s' /\ minv k own s' /\ m_busy s' = m_busy s /\ m_set s' = m_set s.
Proof.
  intros (A & B & C & D & E) O. unfold m_unref. replace (m_alive s) with true in * by lia.
  destruct (m_refs s - 1 =? 0) eqn:Z0; eexists; (split; [reflexivity|]); unfold minv; cbn; repeat apply conj; auto; try lia.
Qed.

Lemma ws_run : forall es k own s, minv k own s -> fair own (m_busy s) es ->
  exists s', wrun s es = Ok s' /\ m_busy s' = working (m_busy s) es /\
  (exists k', minv k' (own_after own es) s' /\
     (times of_origin es <= 1 - held (ws_origin (m_set s)) -> times of_host es <= 1 - held (ws_host (m_set s)) -> k' = k)) /\
  ws_tls (m_set s') = last_of of_tls es (ws_tls (m_set s)) /\ ws_verify (m_set s') = last_of of_verify es (ws_verify (m_set s)) /\
  ws_host (m_set s') = last_of of_host es (ws_host (m_set s)) /\ ws_origin (m_set s') = last_of of_origin es (ws_origin (m_set s)).
Proof.
  induction es as [|e es IH]; intros k own s I F.
  { eexists; split; [reflexivity|]. cbn. split; auto. split; [exists k; auto|auto]. }
  assert (L : forall k1 own1 s1, wstep s e = Ok s1 -> minv k1 own1 s1 -> fair own1 (m_busy s1) es -> own_after own (e :: es) = own_after own1 es ->
    working (m_busy s) (e :: es) = working (m_busy s1) es ->
    (times of_origin (e :: es) <= 1 - held (ws_origin (m_set s)) -> times of_host (e :: es) <= 1 - held (ws_host (m_set s)) ->
       k1 = k /\ times of_origin es <= 1 - held (ws_origin (m_set s1)) /\ times of_host es <= 1 - held (ws_host (m_set s1))) ->
    (last_of of_tls (e :: es) (ws_tls (m_set s)) = last_of of_tls es (ws_tls (m_set s1))) ->
    (last_of of_verify (e :: es) (ws_verify (m_set s)) = last_of of_verify es (ws_verify (m_set s1))) ->
    (last_of of_host (e :: es) (ws_host (m_set s)) = last_of of_host es (ws_host (m_set s1))) ->
    (last_of of_origin (e :: es) (ws_origin (m_set s)) = last_of of_origin es (ws_origin (m_set s1))) ->
    exists s', wrun s (e :: es) = Ok s' /\ m_busy s' = working (m_busy s) (e :: es) /\
    (exists k', minv k' (own_after own (e :: es)) s' /\
     (times of_origin (e :: es) <= 1 - held (ws_origin (m_set s)) -> times of_host (e :: es) <= 1 - held (ws_host (m_set s)) -> k' = k)) /\
    ws_tls (m_set s') = last_of of_tls (e :: es) (ws_tls (m_set s)) /\ ws_verify (m_set s') = last_of of_verify (e :: es) (ws_verify (m_set s)) /\
    ws_host (m_set s') = last_of of_host (e :: es) (ws_host (m_set s)) /\ ws_origin (m_set s') = last_of of_origin (e :: es) (ws_origin (m_set s))).
  { intros k1 own1 s1 E I1 F1 O1 W1 T1 X1 X2 X3 X4. destruct (IH k1 own1 s1 I1 F1) as (s' & R & B & (k' & I' & K') & Y1 & Y2 & Y3 & Y4).
    exists s'. rewrite O1, W1, X1, X2, X3, X4. cbn [wrun]. rewrite E. cbn [obind].
    split; [exact R|]. split; [exact B|]. split; [|auto]. exists k'. split; [exact I'|].
    intros T2 T3. destruct (T1 T2 T3) as (-> & T4 & T5). auto. }
  clear IH. pose proof I as (A & B & C & D & E).
  destruct e; cbn [fair] in F; destruct F as [F0 F].
  - apply (L k (own + 1) (mkWM true (m_refs s + 1) (m_set s) (m_busy s) (m_mem s))); auto.
    + cbn. replace (m_alive s) with true by lia. reflexivity.
    + unfold minv; cbn. replace (m_alive s) with true in * by lia. repeat apply conj; auto; lia.
  - assert (I2 : minv k ((own - 1) + 1) s) by (replace (own - 1 + 1) with own by lia; exact I).
    destruct (m_unref_ok _ _ _ I2) as (s1 & E1 & I1 & B1 & S1); [lia|].
    apply (L k (own - 1) s1); auto; rewrite ?B1, ?S1; auto.
  - assert (AL : m_alive s = true) by lia. rewrite AL in E.
    destruct (ws_conf i (m_set s)) as [w n] eqn:W.
    apply (L (m_mem s + n - ws_strings w) own (mkWM true (m_refs s) w (m_busy s) (m_mem s + n))); auto.
    + cbn. rewrite AL, W. reflexivity.
    + unfold minv; cbn. repeat apply conj; auto; lia.
    + rewrite !times_cons. pose proof (times_nonneg of_origin es). pose proof (times_nonneg of_host es).
      pose proof (held_range (ws_origin (m_set s))). pose proof (held_range (ws_host (m_set s))).
      destruct i; cbn in W; injection W as <- <-; unfold ws_strings in *; cbn -[held Z.add Z.sub times]; try (pose proof (held_range s0)); intros; repeat apply conj; lia.
    + destruct i; cbn in W; injection W as <- <-; reflexivity.
    + destruct i; cbn in W; injection W as <- <-; reflexivity.
    + destruct i; cbn in W; injection W as <- <-; reflexivity.
    + destruct i; cbn in W; injection W as <- <-; reflexivity.
  - apply (L k (own - 1) (mkWM true (m_refs s) (m_set s) (m_busy s + 1) (m_mem s))); auto.
    + cbn. replace (m_alive s) with true by lia. reflexivity.
    + unfold minv; cbn. replace (m_alive s) with true in * by lia. repeat apply conj; auto; lia.
  - assert (I2 : minv k (own + 1) (mkWM (m_alive s) (m_refs s) (m_set s) (m_busy s - 1) (m_mem s))).
    { unfold minv; cbn. repeat apply conj; auto; lia. }
    destruct (m_unref_ok _ _ _ I2) as (s1 & E1 & I1 & B1 & S1); [lia|]. cbn in B1, S1.
    apply (L k own s1); auto; rewrite ?B1, ?S1; auto.
    cbn. replace (0 <? m_busy s) with true by lia. exact E1.
Qed.

Theorem setup_lives : forall es, fair 1 0 es -> exists s, wrun m_new es = Ok s /\
  m_refs s = own_after 1 es + working 0 es /\ (m_alive s = true <-> 0 < m_refs s) /\
  (times of_origin es <= 1 -> times of_host es <= 1 -> m_mem s = if m_alive s then ws_strings (m_set s) else 0).
Proof.
  intros es F. destruct (ws_run es 0 1 m_new) as (s & R & B & (k & (I1 & I2 & I3 & I4 & I5) & K) & _); [unfold minv; cbn; repeat apply conj; lia|exact F|].
  exists s. cbn in *. repeat apply conj; auto.
  - lia.
  - rewrite I2. lia.
  - rewrite I2. lia.
  - intros T1 T2. rewrite K in I5 by lia. lia.
Qed.

Theorem setup_values : forall es s, fair 1 0 es -> wrun m_new es = Ok s ->
  ws_tls (m_set s) = last_of of_tls es false /\ ws_verify (m_set s) = last_of of_verify es false /\
  ws_host (m_set s) = last_of of_host es None /\ ws_origin (m_set s) = last_of of_origin es None.
Proof.
  intros es s F R. destruct (ws_run es 0 1 m_new) as (s' & R' & _ & _ & X); [unfold minv; cbn; repeat apply conj; lia|exact F|].
  assert (s' = s) by congruence. subst. exact X.
Qed.

Lemma cut_spec h : before_colon h (cut h).
Proof.
  unfold before_colon. induction h as [|c h IH]; cbn.
  - split; auto. exists []. auto.
  - unfold colon. destruct (c =? 58) eqn:E.
    + split; auto. exists (c :: h). split; auto. right. exists h. f_equal. lia.
    + destruct IH as [N (r & H & Q)]. split.
      * intros [X|X]; [lia|auto].
      * exists r. cbn. rewrite <- H. auto.
Qed.
Lemma before_unique h n m : before_colon h n -> before_colon h m -> n = m.
Proof.
  intros (N & r & -> & R) (M & q & E & Q). revert m M E. induction n as [|c n IH]; intros m M E.
  - destruct m as [|d m]; auto. exfalso. destruct R as [->|(t & ->)]; cbn in E; [discriminate|]. injection E as <- _. apply M; cbn; auto.
  - destruct m as [|d m].
    + exfalso. destruct Q as [->|(t & ->)]; cbn in E; [discriminate|]. injection E as -> _. apply N; cbn; auto.
    + cbn in E. injection E as <- E. f_equal. apply IH; auto.
      * intros X. apply N. cbn; auto.
      * intros X. apply M. cbn; auto.
Qed.

Theorem client_result : forall w host t nctx ready greet handler r, r = ws_connect w host t nctx ready greet handler ->
  (handler = true -> c_ret r = NoConn /\ List.length (c_told r) = 1%nat) /\ (handler = false -> c_told r = []) /\
  (got r = NoConn <-> nctx && ready = false) /\ (c_closed r = true <-> got r = NoConn) /\
  (forall ok tls name, got r = Conn ok tls name -> ok = greet /\ tls = (ws_tls w && greet) /\
     exists n, name = Some n /\ before_colon (match ws_host w with Some h => h | None => host end) n) /\
  (forall how h o, c_ask r = Some (how, h, o) -> h = (match ws_host w with Some x => x | None => host end) /\
     (forall x, ws_origin w = Some x -> o = x) /\ (ws_origin w = None -> o = asc "http://" ++ host) /\
     (ws_tls w = true <-> exists v, how = NTls v) /\ tls_running how (got r) = (match got r with Conn _ b _ => b | NoConn => false end)).
Proof.
  intros w host t nctx ready greet handler r ->. unfold ws_connect, got.
  destruct nctx, ready, handler; cbn; repeat match goal with |- _ /\ _ => split end; try (intros; discriminate); auto;
    try (split; intros; discriminate); try (split; auto; fail).
  all: try (intros ok tls name X; injection X as <- <- <-; repeat apply conj; auto; eexists; split; [reflexivity|]; unfold or_else; destruct (ws_host w); apply cut_spec).
  all: intros how h o X; injection X as <- <- <-; repeat match goal with |- _ /\ _ => split end; auto.
  all: try (intros x ->; reflexivity); try (intros ->; reflexivity).
  all: try (destruct (ws_tls w); reflexivity).
  all: split; [intros ->; eauto|]; try (intros (v & X); destruct (ws_tls w); [reflexivity|discriminate]).
Qed.

Theorem client_waits : forall t, (1000000 <= t -> wait_for t = t / 1000000 /\ wait_for t * 1000000 <= t) /\ (t < 1000000 -> wait_for t = 60).
Proof.
  intros t. unfold wait_for. split; intros H.
  - replace (0 <? t) with true by lia. rewrite Z.quot_div_nonneg by lia.
    assert (1 <= t / 1000000) by (apply Z.div_le_lower_bound; lia). replace (t / 1000000 <=? 0) with false by lia.
    split; auto. pose proof (Z.mul_div_le t 1000000). lia.
  - destruct (0 <? t) eqn:E; [|replace (t <=? 0) with true by lia; auto].
    rewrite Z.quot_small by lia. auto.
Qed.

Theorem verified : forall es s host t nctx ready greet handler v h o, fair 1 0 es -> wrun m_new es = Ok s ->
  c_ask (ws_connect (m_set s) host t nctx ready greet handler) = Some (NTls v, h, o) -> v = last_of of_verify es false.
Proof.
  intros es s host t nctx ready greet handler v h o F R. destruct (setup_values es s F R) as (_ & <- & _).
  unfold ws_connect. destruct nctx, ready, handler, (ws_tls (m_set s)); cbn; intros X; try discriminate; congruence.
Qed.

Theorem accepted_named : forall n accept a refs, ws_accept (Some n) accept = Ok (AccMade a refs) ->
  1 <= refs /\
  (forall h, np_host n = Some h -> exists b m, post_actions a = (1, b) /\ a_name b = Some m /\ before_colon h m /\ a_tls b = np_tls n) /\
  (np_host n = None -> fst (post_actions a) = -1).
Proof.
  intros n accept a refs H. unfold ws_accept, acc_refs in H. destruct accept; cbn in H; [|discriminate]. injection H as <- <-.
  split; [lia|]. unfold post_actions; cbn. split.
  - intros h ->. do 2 eexists. split; [reflexivity|]. split; [reflexivity|]. split; [apply cut_spec|]. cbn. destruct (np_tls n); auto.
  - intros ->. reflexivity.
Qed.
Theorem others_alone : forall a, a_role a <> RoleListener \/ a_ws a = false \/ a_hook a = None -> post_actions a = (1, a).
Proof. intros [ro [n|] ws name tls] H; unfold post_actions; cbn in *; auto. destruct ro; auto. destruct ws; auto. destruct H as [H|[H|H]]; congruence. Qed.
Theorem named_once : forall a b m, a_name a = Some m -> post_actions a = (1, b) -> a_name b = Some m.
Proof.
  intros [ro [n|] ws name tls] b m H E; unfold post_actions in E; cbn in *; [|injection E as <-; exact H].
  destruct ro; try (inversion E; subst; auto; fail). destruct ws; [|inversion E; subst; auto].
  destruct (np_host n); inversion E; subst; auto.
Qed.

Lemma bytes_eqb_eq a b : bytes_eqb a b = true <-> a = b.
Proof.
  revert b. induction a as [|x a IH]; intros [|y b]; cbn; split; intros H; try discriminate; auto.
  - apply andb_prop in H. destruct H as [X Y]. apply IH in Y. f_equal; auto. lia.
  - injection H as -> ->. rewrite Z.eqb_refl. apply IH. auto.
Qed.

(** With the handler of this module on a listener. *)
Definition shared (made hand : bool) (d : dstate) (peek : bytes) :=
  check_share (mkPN RoleListener [] []) (Some [mkP None None 0]) (fun _ b => fst (fst (detect made hand b d))) false peek.
Theorem detected : forall made hand d peek, 4 <= zlen peek ->
  (firstn 3 peek = asc "RPY" -> shared made hand d peek = ([], true, false)) /\
  (firstn 3 peek = asc "GET" \/ firstn 3 peek = [22; 3; 1] ->
     shared made hand d peek = ([mkPC 0 (firstn 4 peek)], made && hand, negb (made && hand))) /\
  (firstn 3 peek <> asc "RPY" -> firstn 3 peek <> asc "GET" -> firstn 3 peek <> [22; 3; 1] ->
     shared made hand d peek = ([mkPC 0 (firstn 4 peek)], false, false) /\ detect made hand (firstn 4 peek) d = (1, d, None)).
Proof.
  intros made hand d peek L. unfold shared, check_share. cbn [pn_role].
  assert (L4 : zlen (firstn 4 peek) = 4) by (unfold zlen in *; rewrite firstn_length; lia). rewrite L4. cbn [Z.eqb negb Pos.eqb].
  assert (F3 : firstn 3 (firstn 4 peek) = firstn 3 peek) by (rewrite firstn_firstn; reflexivity).
  assert (RE : bytes_eqb (firstn 3 peek) (asc "RPY") = true <-> firstn 3 peek = asc "RPY") by apply bytes_eqb_eq.
  assert (GE : is_get (firstn 4 peek) = true <-> firstn 3 peek = asc "GET") by (unfold is_get; rewrite F3; apply bytes_eqb_eq).
  assert (TE : is_tls (firstn 4 peek) = true <-> firstn 3 peek = [22; 3; 1]) by (unfold is_tls; rewrite F3; apply bytes_eqb_eq).
  repeat match goal with |- _ /\ _ => split end.
  - intros H. apply RE in H. rewrite H. reflexivity.
  - intros H. assert (X : is_get (firstn 4 peek) = true \/ is_tls (firstn 4 peek) = true) by tauto.
    destruct (bytes_eqb (firstn 3 peek) (asc "RPY")) eqn:R.
    { apply bytes_eqb_eq in R. exfalso. rewrite R in H. destruct H; discriminate. }
    unfold share_loop, detect. destruct (is_get (firstn 4 peek)), (is_tls (firstn 4 peek)); try (destruct X; discriminate);
      destruct made, hand; reflexivity.
  - intros N1 N2 N3.
    destruct (bytes_eqb (firstn 3 peek) (asc "RPY")) eqn:R; [apply bytes_eqb_eq in R; congruence|].
    unfold share_loop, detect.
    destruct (is_get (firstn 4 peek)) eqn:G; [elim N2; apply GE; reflexivity|].
    destruct (is_tls (firstn 4 peek)) eqn:T; [elim N3; apply TE; reflexivity|]. cbn. split; auto.
Qed.

Theorem client_asked : forall w host t ready greet handler, exists how h o,
  c_ask (ws_connect w host t true ready greet handler) = Some (how, h, o) /\ c_wait (ws_connect w host t true ready greet handler) = wait_for t.
Proof. intros w host t [|] greet [|]; do 3 eexists; split; reflexivity. Qed.
Theorem let_in : forall conn, exists r, ws_accept conn true = Ok r /\ (r = AccNone <-> conn = None).
Proof. intros [n|]; eexists; (split; [reflexivity|]); split; intros X; auto; discriminate. Qed.
Theorem detect_state : forall made hand b d c e t, detect made hand b d = (c, e, t) ->
  (c = 1 \/ c = 2 \/ c = -1) /\ (c = 2 -> made = true /\ hand = true /\ d_ctx e = true /\ d_master e = true /\ t = Some (bytes_eqb (firstn 3 b) [22; 3; 1])) /\
  (c <> 2 -> t = None) /\ (d_lost e = d_lost d \/ (made = true /\ hand = false /\ c = -1)).
Proof.
  intros made hand b d c e t. unfold detect. fold (is_tls b).
  destruct (is_get b), (is_tls b), made, hand; cbn; intros X; injection X as <- <- <-; repeat match goal with |- _ /\ _ => split end; auto; try (intros; discriminate); try congruence; try (intros; repeat split; auto).
Qed.
