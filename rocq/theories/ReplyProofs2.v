(** Proofs of the order of the replies. *)
From Verif Require Import Base CodecModel ReplyModel ReplySpec OutProofs ReplyProofs.

Definition is_ans (k : call) : bool := ftype_eqb (k_type k) TANS.
Definition cnt (ks : list call) : Z := zlen (filter is_ans ks).

(** Calls that the application was allowed to make. *)
Definition ok_calls (l : list call) : Prop :=
  forall a k b, l = a ++ k :: b -> answered a = false /\ may_follow a k = true.

Lemma ok_calls_nil : ok_calls [].
Proof. intros a k b E. destruct a; discriminate. Qed.

Lemma ok_calls_snoc : forall l k, ok_calls l -> answered l = false -> may_follow l k = true -> ok_calls (l ++ [k]).
Proof.
  intros l k H A M a x b E. apply snoc_split in E as [(-> & -> & ->)|(b' & -> & E)]; auto.
  eapply H; eauto.
Qed.

Lemma ok_calls_prefix : forall a b, ok_calls (a ++ b) -> ok_calls a.
Proof. intros a b H x k y E. subst a. apply (H x k (y ++ b)). now rewrite <- app_assoc. Qed.

Lemma answered_app : forall a b, answered (a ++ b) = answered a || answered b.
Proof. intros. apply existsb_app. Qed.

Lemma ok_calls_ans_nomore : forall l k, ok_calls l -> In k l -> is_ans k = true -> k_more k = false.
Proof.
  intros l k H I A. apply in_split in I as (a & b & E). destruct (H _ _ _ E) as [_ M].
  unfold may_follow, is_ans in *. destruct (k_type k); try discriminate.
  apply andb_prop in M as [M _]. now apply negb_true_iff in M.
Qed.

Lemma cnt_snoc : forall l k, cnt (l ++ [k]) = cnt l + (if is_ans k then 1 else 0).
Proof.
  intros. unfold cnt, zlen. rewrite filter_app, app_length. cbn. destruct (is_ans k); cbn; lia.
Qed.

Lemma cnt_all_ans : forall l, forallb is_ans l = true -> cnt l = zlen l.
Proof.
  unfold cnt, zlen. induction l as [|k l IH]; intros H; auto. cbn in *.
  apply andb_prop in H as [H1 H2]. rewrite H1. cbn. specialize (IH H2). lia.
Qed.

Lemma cnt_pieces : forall l, ok_calls l -> forallb (fun x => k_more x) l = true -> cnt l = 0.
Proof.
  intros l H M. unfold cnt. assert (E : filter is_ans l = []); [|now rewrite E].
  destruct (filter is_ans l) as [|k r] eqn:E; auto. exfalso.
  assert (I : In k (filter is_ans l)) by (rewrite E; now left).
  apply filter_In in I as [I A].
  rewrite forallb_forall in M. specialize (M _ I). rewrite (ok_calls_ans_nomore _ _ H I A) in M. discriminate.
Qed.

Lemma number_app : forall n a b i, number n i (a ++ b) = number n i a ++ number n (i + zlen a) b.
Proof.
  induction a as [|k a IH]; intros b i; cbn [number app].
  - unfold zlen. cbn. now rewrite Z.add_0_r.
  - rewrite IH. do 3 f_equal. unfold zlen. cbn. lia.
Qed.

Lemma queued_app : forall a b, queued (a ++ b) = queued a ++ queued b.
Proof. induction a as [|o a IH]; intros b; cbn; auto. destruct o; cbn; now rewrite IH. Qed.

(** A stored reply and the call that produced it. *)
Definition dk (m : Z) (d : rdata) (k : call) : Prop :=
  d_type d = k_type k /\ d_msgno d = m /\ d_body d = k_body k /\ d_more d = k_more k.

(** What the hash holds for a message whose turn did not come. *)
Definition enc (s : list (Z * stored)) (m : Z) (js : list call) : Prop :=
  match js with
  | [] => hget s m = None
  | k :: _ =>
    if is_ans_nul (k_type k) then exists l, hget s m = Some (SList l) /\ Forall2 (dk m) l js
    else exists d, hget s m = Some (SOne d) /\ dk m d k
  end.

Lemma enc_same : forall s s' m js, hget s' m = hget s m -> enc s m js -> enc s' m js.
Proof.
  intros s s' m js E H. destruct js as [|k js]; cbn in *; [congruence|].
  destruct (is_ans_nul (k_type k)); [destruct H as (l & H)|destruct H as (d & H)]; [exists l|exists d]; now rewrite E.
Qed.

Definition no_pieces (js : list call) : Prop := Forall (fun k => k_more k = false) js.

Definition rest_ok (s : list (Z * stored)) (i : inst) : Prop :=
  enc s (fst i) (snd i) /\ ok_calls (snd i) /\ no_pieces (snd i).

(** The message [m] is the oldest, [pre] was sent, [js] is stored. *)
Record St (c : ichan) (m : Z) (pre js : list call) (r : list inst) : Prop := mkSt {
  st_in : ic_in c = m :: map fst r;
  st_ansno : ic_ansno c = cnt pre;
  st_enc : enc (ic_stored c) m js;
  st_rest : Forall (rest_ok (ic_stored c)) r;
  st_none : forall k, ~ In k (m :: map fst r) -> hget (ic_stored c) k = None;
  st_nodup : NoDup (m :: map fst r);
  st_no1 : ~ In (-1) (m :: map fst r);
  st_ok : ok_calls (pre ++ js);
  st_pre : answered pre = false;
  st_js : js <> [] -> no_pieces js
}.

Definition Fin (c : ichan) (t : list inst) : Prop :=
  match t with
  | [] => ic_in c = [] /\ ic_ansno c = 0 /\ forall k, hget (ic_stored c) k = None
  | (m, ks) :: r => St c m ks [] r
  end.

Lemma emit1 : forall c m pre k (r : list inst) d c1,
  ic_in c = m :: map fst r -> ic_ansno c = cnt pre -> ok_calls (pre ++ [k]) ->
  dk m d k -> (is_ans k = true -> d_ansno d = cnt pre) ->
  reply_status c d m = Ok c1 ->
  let c2 := after_status c1 d m in
  ic_up c2 = ic_up c /\ ic_frag c2 = ic_frag c /\
  queued (ic_log c2) = queued (ic_log c) ++ number m (zlen pre) [k] /\
  ic_stored c2 = (if is_ans_nul (k_type k) then ic_stored c else hdel (ic_stored c) m) /\
  (if last_call k then ic_in c2 = map fst r /\ ic_ansno c2 = 0
   else ic_in c2 = m :: map fst r /\ ic_ansno c2 = cnt (pre ++ [k])).
Proof.
  intros c m pre k r d c1 Ei Ea Ok' (D1 & D2 & D3 & D4) Dn H c2. subst c2.
  destruct (Ok' pre k [] eq_refl) as [Ap Mf].
  assert (Okp := ok_calls_prefix _ _ Ok').
  assert (W : number m (zlen pre) [k] = [wire_of d]).
  { cbn. unfold wire_of. rewrite D1, D2, D3, D4. unfold is_ans in Dn.
    destruct (ftype_eqb (k_type k) TANS) eqn:T; auto.
    rewrite Dn by auto. do 3 f_equal. symmetry. apply cnt_all_ans.
    unfold may_follow in Mf. destruct (k_type k); try discriminate. now apply andb_prop in Mf as [_ Mf]. }
  rewrite W, cnt_snoc. unfold reply_status, after_status, last_call, is_ans in *. rewrite D1, D4 in *.
  unfold may_follow in Mf.
  destruct (k_type k) eqn:T; try discriminate.
  - inversion H. destruct (k_more k) eqn:M; cbn [negb].
    + cbn. rewrite queued_app, Ei. conj; auto. lia.
    + unfold remove_first_pending. rewrite Ei, Z.eqb_refl. cbn. rewrite queued_app. conj; auto.
      rewrite Ea. now apply cnt_pieces.
  - destruct (two31 <=? ic_ansno c + 1); inversion H. cbn. rewrite queued_app. conj; auto. lia.
  - inversion H. destruct (k_more k) eqn:M; cbn [negb].
    + cbn. rewrite queued_app, Ei. conj; auto. lia.
    + unfold remove_first_pending. rewrite Ei, Z.eqb_refl. cbn. rewrite queued_app. conj; auto.
      rewrite Ea. now apply cnt_pieces.
  - inversion H. unfold remove_first_pending. cbn [iset_ansno ic_in]. rewrite Ei, Z.eqb_refl. cbn.
    rewrite queued_app. conj; auto.
Qed.

Lemma rest_other : forall s s' (r : list inst), (forall k, In k (map fst r) -> hget s' k = hget s k) ->
  Forall (rest_ok s) r -> Forall (rest_ok s') r.
Proof.
  intros s s' r H F. rewrite Forall_forall in *. intros i I. destruct (F _ I) as (A & B & C).
  split; auto. eapply enc_same; [|exact A]. apply H. now apply in_map.
Qed.

(** Once the oldest message is answered the next one becomes the oldest. *)
Lemma fin_next : forall c (r : list inst), ic_in c = map fst r -> ic_ansno c = 0 ->
  Forall (rest_ok (ic_stored c)) r -> (forall k, ~ In k (map fst r) -> hget (ic_stored c) k = None) ->
  NoDup (map fst r) -> ~ In (-1) (map fst r) ->
  match r with
  | [] => Fin c []
  | (m, js) :: r' => St c m [] js r'
  end.
Proof.
  intros c r H1 H2 H3 H4 H5 H6. destruct r as [|[m js] r'].
  - cbn. conj; auto.
  - inversion H3; subst. destruct H7 as (A & B & C). cbn [map fst snd] in *. constructor; auto.
Qed.

Lemma reply_status_ub : forall c d m, reply_status c d m = UB ->
  d_type d = TANS /\ two31 <= ic_ansno c + 1.
Proof.
  intros c d m H. unfold reply_status in H. destruct (d_type d); try discriminate.
  destruct (Z.leb_spec two31 (ic_ansno c + 1)); [auto|discriminate].
Qed.

(** Sending one stored reply of the oldest message. *)
Lemma flush_step : forall f c m pre k js r, St c m pre (k :: js) r ->
  (flush_tail (S f) c = UB /\ two31 <= cnt (pre ++ [k])) \/
  exists c2, flush_tail (S f) c = flush_tail f c2 /\ ic_up c2 = ic_up c /\ ic_frag c2 = ic_frag c /\
    queued (ic_log c2) = queued (ic_log c) ++ number m (zlen pre) [k] /\
    if last_call k then js = [] /\ match r with [] => Fin c2 [] | (m2, js2) :: r2 => St c2 m2 [] js2 r2 end
    else St c2 m (pre ++ [k]) js r.
Proof.
  intros f c m pre k js r S.
  pose proof (st_enc _ _ _ _ _ S) as E. cbn [enc] in E.
  assert (Okk : ok_calls (pre ++ [k])).
  { apply ok_calls_prefix with (b := js). rewrite <- app_assoc. apply (st_ok _ _ _ _ _ S). }
  assert (Nd := st_nodup _ _ _ _ _ S). inversion Nd as [|? ? Nm Nr]; subst.
  assert (N1 := st_no1 _ _ _ _ _ S).
  assert (Hjs : no_pieces (k :: js)) by (apply (st_js _ _ _ _ _ S); discriminate).
  assert (Km : k_more k = false) by (inversion Hjs; auto).
  assert (Lst : last_call k = true -> js = []).
  { intros L. destruct js as [|k2 js]; auto. exfalso.
    destruct (st_ok _ _ _ _ _ S (pre ++ [k]) k2 js) as [X _]; [now rewrite <- app_assoc|].
    rewrite answered_app in X. cbn in X. rewrite L, orb_true_r in X. discriminate. }
  (* the state reached, whatever kind of reply it was *)
  assert (G : forall c0 c2,
    (forall j, j <> m -> hget (ic_stored c2) j = hget (ic_stored c) j) -> enc (ic_stored c2) m js ->
    (if last_call k then ic_in c2 = map fst r /\ ic_ansno c2 = 0
     else ic_in c2 = m :: map fst r /\ ic_ansno c2 = cnt (pre ++ [k])) ->
    ic_up c2 = ic_up c0 -> ic_frag c2 = ic_frag c0 ->
    if last_call k then js = [] /\ match r with [] => Fin c2 [] | (m2, js2) :: r2 => St c2 m2 [] js2 r2 end
    else St c2 m (pre ++ [k]) js r).
  { intros c0 c2 Oth Em P5 _ _.
    assert (Rest : Forall (rest_ok (ic_stored c2)) r).
    { eapply rest_other; [|apply (st_rest _ _ _ _ _ S)]. intros j J. apply Oth. intros ->. contradiction. }
    assert (None' : forall j, ~ In j (m :: map fst r) -> hget (ic_stored c2) j = None).
    { intros j J. rewrite Oth by (intros ->; apply J; now left). apply (st_none _ _ _ _ _ S); auto. }
    destruct (last_call k) eqn:L; destruct P5 as [P5 P6].
    - specialize (Lst eq_refl). subst js. split; auto. apply (fin_next c2 r P5 P6 Rest); auto.
      + intros j J. destruct (Z.eq_dec j m) as [->|Dj]; [exact Em|]. apply None'. intros [X|X]; auto.
      + intros X. apply N1. now right.
    - constructor; auto.
      + rewrite <- app_assoc. apply (st_ok _ _ _ _ _ S).
      + rewrite answered_app. cbn. now rewrite L, (st_pre _ _ _ _ _ S).
      + intros _. inversion Hjs; auto. }
  unfold flush_tail at 1 2, next_reply_no. rewrite (st_in _ _ _ _ _ S).
  destruct (is_ans_nul (k_type k)) eqn:T.
  - destruct E as (l & E & F2). rewrite E. inversion F2 as [|d' k' l' js' D F2' E1 E2]; subst.
    cbv zeta. rewrite !send_reply_unfold.
    match goal with |- context [obind (reply_status ?c0 _ _) _] => set (c0' := c0) in * end.
    match goal with |- context [obind (reply_status _ ?d0 _) _] => set (d0' := d0) in * end.
    assert (Dk : dk m d0' k) by (destruct D as (? & ? & ? & ?); subst d0'; repeat split; auto).
    destruct (reply_status c0' d0' m) as [c1|] eqn:Er; cbn [obind].
    + right. exists (after_status c1 d0' m). split; auto.
      pose proof (emit1 c0' m pre k r d0' c1 (st_in _ _ _ _ _ S) (st_ansno _ _ _ _ _ S) Okk Dk
                        (fun _ => st_ansno _ _ _ _ _ S) Er) as (P1 & P2 & P3 & P4 & P5).
      set (c2 := after_status c1 d0' m) in *. clearbody c2. rewrite T in P4.
      conj; auto. apply (G c0' c2); auto.
      * intros j Dj. rewrite P4. subst c0'. cbn [iset_stored ic_stored].
        destruct l'; [now apply hget_hdel_other|now apply hget_hput_other].
      * rewrite P4. subst c0'. cbn [iset_stored ic_stored].
        destruct js as [|k2 js]; inversion F2'; subst; cbn [enc]; [apply hget_hdel_same|].
        assert (T2 : is_ans_nul (k_type k2) = true).
        { destruct (st_ok _ _ _ _ _ S (pre ++ [k]) k2 js) as [X M]; [now rewrite <- app_assoc|].
          unfold may_follow in M. rewrite forallb_app in M. cbn [forallb] in M. rewrite Km in M.
          destruct (k_type k2); auto; rewrite ?andb_false_r in M; try discriminate;
            cbn in M; rewrite ?andb_false_r in M; discriminate. }
        rewrite T2. eexists. rewrite hget_hput_same. split; [reflexivity|auto].
    + left. split; auto. apply reply_status_ub in Er as [Er1 Er2]. destruct Dk as (Dt & _). rewrite Dt in Er1.
      rewrite cnt_snoc. unfold is_ans. rewrite Er1. cbn [ftype_eqb]. change (ic_ansno c0') with (ic_ansno c) in Er2.
      rewrite (st_ansno _ _ _ _ _ S) in Er2. exact Er2.
  - destruct E as (d & E & D). rewrite E, !send_reply_unfold.
    assert (NA : is_ans k = false).
    { unfold is_ans. destruct (k_type k); cbn in *; auto; discriminate. }
    assert (L : last_call k = true).
    { destruct (Okk pre k [] eq_refl) as [_ M]. unfold may_follow, last_call in *. rewrite Km.
      destruct (k_type k); cbn in *; auto; discriminate. }
    destruct (reply_status c d m) as [c1|] eqn:Er; cbn [obind].
    + right. exists (after_status c1 d m). split; auto.
      pose proof (emit1 c m pre k r d c1 (st_in _ _ _ _ _ S) (st_ansno _ _ _ _ _ S) Okk D
                        ltac:(intros X; rewrite NA in X; discriminate) Er) as (P1 & P2 & P3 & P4 & P5).
      set (c2 := after_status c1 d m) in *. clearbody c2. rewrite T in P4.
      conj; auto. apply (G c c2); auto.
      * intros j Dj. rewrite P4. now apply hget_hdel_other.
      * specialize (Lst L). subst js. cbn [enc]. rewrite P4. apply hget_hdel_same.
    + exfalso. apply reply_status_ub in Er as [Er1 _]. destruct D as (Dt & _). rewrite Dt in Er1.
      unfold is_ans in NA. rewrite Er1 in NA. discriminate.
Qed.

Lemma flush_idle : forall f c m pre r, St c m pre [] r -> flush_tail f c = Ok (Some c).
Proof.
  intros f c m pre r S. unfold flush_tail, next_reply_no. rewrite (st_in _ _ _ _ _ S).
  pose proof (st_enc _ _ _ _ _ S) as E. cbn [enc] in E. now rewrite E.
Qed.
Lemma flush_empty : forall f c, Fin c [] -> flush_tail f c = Ok (Some c).
Proof. intros f c (Q1 & Q2 & Q3). unfold flush_tail, next_reply_no. now rewrite Q1, Q3. Qed.
Lemma flush_0 : forall c m pre k js r, St c m pre (k :: js) r -> flush_tail 0 c = Ok None.
Proof.
  intros c m pre k js r S. unfold flush_tail, next_reply_no. rewrite (st_in _ _ _ _ _ S).
  pose proof (st_enc _ _ _ _ _ S) as E. cbn [enc] in E. destruct (is_ans_nul (k_type k)).
  - destruct E as (l & -> & F2). inversion F2; subst. reflexivity.
  - destruct E as (d & -> & _). reflexivity.
Qed.

Lemma flush_spec : forall f c m pre js r c',
  St c m pre js r -> flush_tail f c = Ok (Some c') ->
  queued (ic_log c') = queued (ic_log c) ++ number m (zlen pre) js ++
                       (if answered (pre ++ js) then release r else []) /\
  ic_up c' = ic_up c /\ ic_frag c' = ic_frag c /\ Fin c' (waiting ((m, pre ++ js) :: r)).
Proof.
  induction f as [|f IH]; intros c m pre [|k js] r c' S H.
  1, 3 : rewrite (flush_idle _ _ _ _ _ S) in H; inversion H; subst c'; cbn [waiting];
    rewrite app_nil_r, (st_pre _ _ _ _ _ S); cbn [number]; rewrite !app_nil_r; cbn [Fin]; auto.
  - rewrite (flush_0 _ _ _ _ _ _ S) in H. discriminate.
  - destruct (flush_step f _ _ _ _ _ _ S) as [[E _]|(c2 & E & P1 & P2 & P3 & P5)]; rewrite E in H; [discriminate|].
    destruct (last_call k) eqn:L.
    + destruct P5 as [-> NX].
      assert (A1 : answered (pre ++ [k]) = true) by (rewrite answered_app; cbn; rewrite L; now rewrite orb_true_r).
      cbn [waiting]. rewrite A1. destruct r as [|[m2 js2] r2].
      * rewrite (flush_empty _ _ NX) in H. inversion H. subst c'. cbn [release waiting].
        conj; auto; rewrite P3; now rewrite app_nil_r.
      * destruct (IH _ _ _ _ _ _ NX H) as (R1 & R2 & R3 & R4). cbn [app] in R1, R4.
        conj; [|congruence|congruence|exact R4].
        rewrite R1, P3. cbn [release]. rewrite <- !app_assoc. reflexivity.
    + destruct (IH _ _ _ _ _ _ P5 H) as (R1 & R2 & R3 & R4).
      rewrite <- app_assoc in R1, R4. cbn [app] in R1, R4.
      conj; [|congruence|congruence|exact R4].
      rewrite R1, P3. change (k :: js) with ([k] ++ js). rewrite number_app, <- !app_assoc.
      f_equal. f_equal. unfold zlen. rewrite app_length. cbn. f_equal. f_equal. lia.
Qed.

Definition few (i : inst) : Prop := cnt (snd i) < two31.

Lemma cnt_app : forall a b, cnt (a ++ b) = cnt a + cnt b.
Proof. intros. unfold cnt, zlen. rewrite filter_app, app_length. lia. Qed.
Lemma cnt_nonneg : forall a, 0 <= cnt a.
Proof. intros. unfold cnt, zlen. lia. Qed.

Lemma flush_no_ub : forall f c m pre js r,
  St c m pre js r -> Forall few ((m, pre ++ js) :: r) -> flush_tail f c <> UB.
Proof.
  induction f as [|f IH]; intros c m pre [|k js] r S W.
  1, 3 : rewrite (flush_idle _ _ _ _ _ S); discriminate.
  - rewrite (flush_0 _ _ _ _ _ _ S). discriminate.
  - inversion W as [|? ? W1 W2]; subst. unfold few in W1. cbn [snd] in W1.
    change (k :: js) with ([k] ++ js) in W1. rewrite app_assoc, cnt_app in W1. pose proof (cnt_nonneg js).
    destruct (flush_step f _ _ _ _ _ _ S) as [[E X]|(c2 & E & P1 & P2 & P3 & P5)]; [lia|]. rewrite E.
    destruct (last_call k) eqn:L.
    + destruct P5 as [-> NX]. destruct r as [|[m2 js2] r2].
      * rewrite (flush_empty _ _ NX). discriminate.
      * eapply IH; eauto.
    + eapply IH; eauto. rewrite <- app_assoc. exact W.
Qed.

(** ** The calls of the application *)
Lemma add_call_waiting : forall s n k s', add_call true s n k = Some s' ->
  exists m ks r, waiting s = (m, ks) :: r /\ answered ks = false /\
    ((m = n /\ may_follow ks k = true /\ waiting s' = waiting ((n, ks ++ [k]) :: r) /\
      exists P, release s = P ++ number n 0 ks /\ release s' = P ++ release ((n, ks ++ [k]) :: r)) \/
     (m <> n /\ exists r', add_call false r n k = Some r' /\ waiting s' = (m, ks) :: r' /\ release s' = release s)).
Proof.
  induction s as [|[m ks] s IH]; intros n k s' H; [discriminate|].
  cbn [add_call] in H. cbn [waiting release]. destruct (answered ks) eqn:A.
  - destruct (add_call true s n k) as [s1|] eqn:E; [|discriminate]. inversion H. subst s'. cbn [waiting release].
    rewrite A. destruct (IH _ _ _ E) as (m' & ks' & r & W & A' & [(E1 & M & W' & P & R1 & R2)|(E1 & r' & R1 & R2 & R3)]).
    + exists m', ks', r. conj; auto. left. conj; auto. exists (number m 0 ks ++ P). rewrite R1, R2. split; now rewrite <- app_assoc.
    + exists m', ks', r. conj; auto. right. split; auto. exists r'. conj; auto. now rewrite R3.
  - exists m, ks, s. conj; auto. destruct (Z.eqb_spec m n) as [->|D].
    + destruct (may_follow ks k) eqn:M; [|discriminate]. cbn in H. inversion H. subst s'. left.
      conj; auto. exists []. rewrite app_nil_r. auto.
    + right. split; auto. destruct (add_call false s n k) as [r'|] eqn:E; [|discriminate].
      inversion H. subst s'. exists r'. conj; auto; cbn [waiting release]; now rewrite A.
Qed.

Lemma add_call_rest : forall r n k r', add_call false r n k = Some r' ->
  exists r1 js r2, r = r1 ++ (n, js) :: r2 /\ r' = r1 ++ (n, js ++ [k]) :: r2 /\
    answered js = false /\ may_follow js k = true /\ k_more k = false.
Proof.
  induction r as [|[m ks] r IH]; intros n k r' H; [discriminate|].
  assert (G : forall x, add_call false r n k = Some x -> Some r' = Some ((m, ks) :: x) ->
              exists r1 js r2, (m, ks) :: r = r1 ++ (n, js) :: r2 /\ r' = r1 ++ (n, js ++ [k]) :: r2 /\
                answered js = false /\ may_follow js k = true /\ k_more k = false).
  { intros x E1 E2. inversion E2. subst r'. destruct (IH _ _ _ E1) as (r1 & js & r2 & -> & -> & X).
    exists ((m, ks) :: r1), js, r2. conj; auto; apply X. }
  cbn [add_call] in H. destruct (answered ks) eqn:A.
  - destruct (add_call false r n k) as [x|] eqn:E; [|discriminate]. eapply G; eauto.
  - destruct (Z.eqb_spec m n) as [->|D].
    + destruct (may_follow ks k) eqn:M; [|discriminate]. cbn in H.
      destruct (k_more k) eqn:Km; [discriminate|]. inversion H. exists [], ks, r. conj; auto.
    + destruct (add_call false r n k) as [x|] eqn:E; [|discriminate]. eapply G; eauto.
Qed.

(** ** The relation between the code and the specification *)
Record R (a : appst) (c : ichan) : Prop := mkR' {
  r_fin : Fin c (waiting (a_msgs a));
  r_queued : queued (ic_log c) = release (a_msgs a);
  r_up : ic_up c = true;
  r_frag : ic_frag c = match a_open a with Some n => n | None => -1 end;
  r_open : a_open a <> Some (-1);
  r_ret : forall t n ok, In (IRet t n ok) (ic_log c) -> ok = true
}.

Lemma fin_in : forall c t, Fin c t -> ic_in c = map fst t.
Proof. intros c [|[m ks] r] H; cbn in *; [tauto|]. apply (st_in _ _ _ _ _ H). Qed.

Lemma waiting_snoc : forall s n, waiting (s ++ [(n, [])]) = waiting s ++ [(n, [])].
Proof.
  induction s as [|[m ks] s IH]; intros n; cbn; auto. destruct (answered ks); auto.
Qed.
Lemma release_snoc : forall s n, release (s ++ [(n, [])]) = release s.
Proof.
  induction s as [|[m ks] s IH]; intros n; cbn; auto. rewrite IH. reflexivity.
Qed.

Lemma fin_snoc : forall c d (t : list inst) n, Fin c t -> n <> -1 -> ~ In n (map fst t) ->
  ic_in d = ic_in c ++ [n] -> ic_stored d = ic_stored c -> ic_ansno d = ic_ansno c -> Fin d (t ++ [(n, [])]).
Proof.
  intros c d t n F Hn Hi E1 E2 E3. destruct t as [|[m ks] r].
  - cbn in F. destruct F as (F1 & F2 & F3). cbn. constructor; cbn; rewrite ?E1, ?E2, ?E3, ?F1; auto.
    + constructor; [intros []|constructor].
    + intros [X|[]]. congruence.
    + apply ok_calls_nil.
    + intros X. contradiction.
  - cbn [Fin app] in *. destruct F as [S1 S2 S3 S4 S5 S6 S7 S8 S9 S10].
    constructor; rewrite ?E2, ?E3; auto.
    + rewrite E1, S1, map_app. reflexivity.
    + apply Forall_app. split; auto. constructor; [|constructor].
      split; [|split; [apply ok_calls_nil|constructor]]. cbn. apply S5. exact Hi.
    + intros k K. apply S5. intros X. apply K. rewrite map_app. destruct X as [X|X]; [now left|].
      right. apply in_or_app. auto.
    + rewrite map_app. cbn [map fst]. change (m :: map fst r ++ [n]) with ((m :: map fst r) ++ [n]).
      apply NoDup_app_remove_r with (l' := []) || idtac.
      rewrite <- (app_nil_r ((m :: map fst r) ++ [n])), <- app_assoc.
      apply NoDup_Add with (a := n) (l := (m :: map fst r) ++ []).
      * apply Add_app.
      * rewrite app_nil_r. split; auto.
    + rewrite map_app. intros [X|X]; [apply S7; now left|].
      apply in_app_or in X as [X|[X|[]]]; [apply S7; now right|cbn in X; congruence].
Qed.

Lemma in_ret_snoc : forall l o t n ok, In (IRet t n ok) (l ++ [o]) -> In (IRet t n ok) l \/ o = IRet t n ok.
Proof. intros l o t n ok I. apply in_app_or in I as [I|[I|[]]]; auto. Qed.

(** No call returns a failure from inside the loop: it only logs replies. *)
Lemma send_reply_ret : forall f c d n c' t m ok, send_reply f c d n = Ok (Some c') ->
  In (IRet t m ok) (ic_log c') -> In (IRet t m ok) (ic_log c).
Proof.
  induction f as [|f IH]; intros c d n c' t m ok H I; [discriminate|].
  rewrite send_reply_unfold in H.
  destruct (reply_status c d n) as [c1|] eqn:E; [|discriminate]. cbn [obind] in H.
  assert (X : In (IRet t m ok) (ic_log (after_status c1 d n)) -> In (IRet t m ok) (ic_log c)).
  { unfold after_status, reply_status, remove_first_pending in *. intros J.
    assert (J' : In (IRet t m ok) (ic_log c1)).
    { cbn [ilog ic_log] in J. apply in_ret_snoc in J as [J|J]; [|discriminate].
      destruct (d_type d); exact J. }
    destruct (d_type d); try (inversion E; subst; exact J');
      repeat match type of E with context [if ?b then _ else _] => destruct b end;
      try discriminate; inversion E; subst; cbn in J'; auto;
      apply in_ret_snoc in J' as [J'|J']; auto; discriminate. }
  apply X. clear X. unfold flush_tail in H.
  destruct (hget (ic_stored (after_status c1 d n)) (next_reply_no (after_status c1 d n))) as [[x|[|x l]]|].
  - eapply IH; eauto.
  - discriminate.
  - cbv zeta in H. apply IH with (t := t) (m := m) (ok := ok) in H; auto.
  - inversion H. subst. auto.
Qed.

Lemma R_msg : forall a c n more a', R a c -> astep a (IpMsg n more) = Some a' -> R a' (recv_msg c n more).
Proof.
  intros a c n more a' [F Q U G O T] H. cbn [astep] in H.
  pose proof (fin_in _ _ F) as Fi.
  unfold recv_msg, check_msg_no. rewrite G.
  destruct (a_open a) as [m|] eqn:Eo.
  - destruct (Z.eqb_spec n m) as [->|]; [|discriminate]. inversion H. subst a'. clear H.
    assert (Em : (m =? -1) = false) by (apply Z.eqb_neq; congruence).
    rewrite Em, Z.eqb_refl. cbn [negb andb].
    destruct more.
    + constructor; cbn [a_msgs a_open ilog ic_log ic_up ic_frag]; auto.
      * destruct (waiting (a_msgs a)) as [|[x ks] r]; cbn in *; auto. destruct F. constructor; auto.
      * now rewrite queued_app, Q, app_nil_r.
      * intros t k ok I. apply in_ret_snoc in I as [I|I]; [eauto|discriminate].
    + constructor; cbn [a_msgs a_open ilog ic_log ic_up ic_frag iset_frag]; auto.
      * destruct (waiting (a_msgs a)) as [|[x ks] r]; cbn in *; auto. destruct F. constructor; auto.
      * now rewrite queued_app, Q, app_nil_r.
      * discriminate.
      * intros t k ok I. apply in_ret_snoc in I as [I|I]; [eauto|discriminate].
  - destruct ((n =? -1) || existsb (Z.eqb n) (map fst (waiting (a_msgs a)))) eqn:E; [discriminate|].
    inversion H. subst a'. clear H. apply orb_false_iff in E as [E1 E2].
    assert (Hn : n <> -1) by (now apply Z.eqb_neq).
    assert (Hi : ~ In n (map fst (waiting (a_msgs a)))).
    { intros I. apply in_use_In in I. unfold in_use in I. congruence. }
    assert (Eu : in_use (ic_in c) n = false).
    { destruct (in_use (ic_in c) n) eqn:X; auto. apply in_use_In in X. rewrite Fi in X. contradiction. }
    change (-1 =? -1) with true. cbn [negb andb]. rewrite Eu.
    destruct more.
    + constructor; cbn [a_msgs a_open ilog ic_log ic_up ic_frag iset_in iset_frag]; auto.
      * rewrite waiting_snoc. eapply fin_snoc with (c := c); eauto.
      * rewrite release_snoc. cbn [ilog ic_log]. now rewrite queued_app, Q, app_nil_r.
      * congruence.
      * intros t k ok I. apply in_ret_snoc in I as [I|I]; [eauto|discriminate].
    + constructor; cbn [a_msgs a_open ilog ic_log ic_up ic_frag iset_in iset_frag]; auto.
      * rewrite waiting_snoc. eapply fin_snoc with (c := c); eauto.
      * rewrite release_snoc. now rewrite queued_app, Q, app_nil_r.
      * intros t k ok I. apply in_ret_snoc in I as [I|I]; [eauto|discriminate].
Qed.

Lemma Forall2_last : forall (A B : Type) (P : A -> B -> Prop) l js x y, Forall2 P (l ++ [x]) (js ++ [y]) -> P x y.
Proof.
  intros A B P l js x y H. apply Forall2_app_inv_l in H as (a & b & H1 & H2 & E).
  inversion H2; subst. inversion H5; subst. apply app_inj_tail in E as [_ ->]. auto.
Qed.

Lemma R_call : forall a c t n body more a' r, R a c -> astep a (IpCall t n body more) = Some a' ->
  common_rpy c t n body more = Ok r -> exists c', r = Some c' /\ R a' c'.
Proof.
  intros a c t n body more a' r [F Q U G O T] H Hr. cbn [astep] in H.
  set (k := mkCall t body more) in *.
  destruct (add_call true (a_msgs a) n k) as [s'|] eqn:E; [|discriminate]. inversion H. subst a'. clear H.
  destruct (add_call_waiting _ _ _ _ E) as (m & ks & w & Ew & A & D). rewrite Ew in F. cbn [Fin] in F.
  unfold common_rpy in Hr. rewrite U in Hr. unfold next_reply_no in Hr. rewrite (st_in _ _ _ _ _ F) in Hr.
  assert (Ks : ok_calls ks) by (pose proof (st_ok _ _ _ _ _ F) as X; now rewrite app_nil_r in X).
  destruct D as [(-> & M & W' & P & R1 & R2)|(D & w' & R1 & R2 & R3)].
  - rewrite Z.eqb_refl in Hr.
    set (d := mkRD t n (ic_ansno c) body more) in *.
    match type of Hr with obind ?x _ = _ => destruct x as [o|] eqn:Es end; [|discriminate]. cbn [obind] in Hr.
    assert (I : reply_type t = true).
    { unfold may_follow in M. cbn in M. destruct t; auto; discriminate. }
    (* termination comes from the general invariant, rebuilt here *)
    assert (exists c', o = Some c') as (c' & ->).
    { assert (GS : forall j v, hget (ic_stored c) j = Some v -> exists js, In (j, js) w /\ js <> [] /\
                       enc (ic_stored c) j js /\ ok_calls js /\ no_pieces js).
      { intros j v Ej. destruct (in_dec Z.eq_dec j (n :: map fst w)) as [[Jj|Jj]|Jj].
        - subst j. pose proof (st_enc _ _ _ _ _ F) as X. cbn in X. congruence.
        - apply in_map_iff in Jj as ([j' js] & <- & Ji). pose proof (st_rest _ _ _ _ _ F) as X.
          rewrite Forall_forall in X. destruct (X _ Ji) as (X1 & X2 & X3). exists js. cbn [fst snd] in *. conj; auto.
          intros ->. cbn in X1. congruence.
        - rewrite (st_none _ _ _ _ _ F _ Jj) in Ej. discriminate. }
      assert (Inv : iinv (ic_in c) (mkIC (ic_in c) (-1) (ic_stored c) (ic_ansno c) (ic_up c) []) /\ good_types (ic_stored c)).
      { assert (Sh : forall j v, hget (ic_stored c) j = Some v ->
                  j <> -1 /\ good_value j v /\ Forall (fun d => reply_type (d_type d) = true) (vdata v)).
        { intros j v Ej. destruct (GS _ _ Ej) as (js & Ji & Jn & X1 & X2 & X3).
          split; [intros ->; apply (st_no1 _ _ _ _ _ F); right; apply in_map_iff; exists (-1, js); auto|].
          destruct js as [|k0 js]; [contradiction|]. cbn [enc] in X1.
          destruct (is_ans_nul (k_type k0)) eqn:T0.
          - destruct X1 as (l & X1 & F2). rewrite Ej in X1. inversion X1. subst v.
            assert (AN : Forall (fun x => is_ans_nul (k_type x) = true) (k0 :: js)).
            { rewrite Forall_forall. intros x Ix. apply in_split in Ix as (b1 & b2 & Eb).
              destruct b1 as [|y b1]; [inversion Eb; subst; auto|]. cbn in Eb. injection Eb as <- Eb.
              destruct (X2 (k0 :: b1) x b2) as [_ Mx]; [now rewrite Eb|].
              inversion X3; subst. unfold may_follow in Mx. cbn [forallb] in Mx. rewrite H1 in Mx.
              destruct (k_type x); auto; rewrite ?andb_false_l in Mx; discriminate. }
            split; [split|].
            + cbn [vdata]. clear - F2. induction F2; constructor; auto. apply H.
            + split; [intros ->; inversion F2|]. clear - F2 AN. induction F2; constructor; inversion AN; subst; auto.
              destruct H as (-> & _). auto.
            + cbn [vdata]. clear - F2 AN. induction F2; constructor; inversion AN; subst; auto.
              destruct H as (-> & _). destruct (k_type y); auto; discriminate.
          - destruct X1 as (x & X1 & Dx). rewrite Ej in X1. inversion X1. subst v.
            destruct Dx as (Dx1 & Dx2 & _). split; [split|]; cbn [vdata].
            + constructor; auto.
            + now rewrite Dx1.
            + constructor; auto. rewrite Dx1. destruct (X2 [] k0 js eq_refl) as [_ Mx].
              unfold may_follow in Mx. destruct (k_type k0); auto; discriminate. }
        split.
        - constructor; cbn; auto.
          + rewrite (st_in _ _ _ _ _ F). apply (st_no1 _ _ _ _ _ F).
          + intros j v Ej. destruct (Sh _ _ Ej) as (S1 & S2 & _). auto.
          + intros x y z zz X. destruct x; discriminate.
          + intros x y z X. destruct x; discriminate.
        - intros j v Ej. apply (Sh _ _ Ej). }
      destruct Inv as [Inv Gt].
      destruct o as [c'|]; [eauto|]. exfalso.
      assert (NP : n <> -1) by (intros ->; apply (st_no1 _ _ _ _ _ F); now left).
      (* the result does not depend on the log nor on ic_frag *)
      assert (Ir : forall f c1 c2 d n, ic_in c1 = ic_in c2 -> ic_stored c1 = ic_stored c2 -> ic_ansno c1 = ic_ansno c2 ->
                send_reply f c1 d n = Ok None -> send_reply f c2 d n = Ok None).
      { clear. induction f as [|f IH]; intros c1 c2 d n E1 E2 E3 H; auto.
        rewrite send_reply_unfold in *.
        assert (X : match reply_status c1 d n, reply_status c2 d n with
                    | Ok x, Ok y => ic_in x = ic_in y /\ ic_stored x = ic_stored y /\ ic_ansno x = ic_ansno y
                    | UB, UB => True
                    | _, _ => False
                    end).
        { unfold reply_status, remove_first_pending. cbn [iset_ansno ic_in]. rewrite E1, E3.
          destruct (d_type d); try (conj; auto; fail); try destruct (d_more d);
            repeat match goal with |- context [if ?b then _ else _] => destruct b end; cbn; conj; auto; congruence. }
        destruct (reply_status c1 d n) as [x|], (reply_status c2 d n) as [y|]; try contradiction; try discriminate.
        cbn [obind] in *. destruct X as (X1 & X2 & X3).
        assert (Y : ic_in (after_status x d n) = ic_in (after_status y d n) /\
                    ic_stored (after_status x d n) = ic_stored (after_status y d n) /\
                    ic_ansno (after_status x d n) = ic_ansno (after_status y d n)).
        { unfold after_status. destruct (d_type d); cbn; conj; auto; congruence. }
        destruct Y as (Y1 & Y2 & Y3). unfold flush_tail, next_reply_no in *. rewrite <- Y1, <- Y2.
        destruct (hget (ic_stored (after_status x d n)) _) as [[z|[|z l]]|]; try discriminate.
        - eapply IH; [| | |exact H]; auto.
        - cbv zeta in *. cbn [iset_stored ic_ansno] in *. rewrite <- Y3. eapply IH; [| | |exact H]; auto. }
      pose proof (Ir _ c (mkIC (ic_in c) (-1) (ic_stored c) (ic_ansno c) (ic_up c) []) _ _ eq_refl eq_refl eq_refl Es) as Es'.
      pose proof (send_reply_inv (ic_in c) (S (S (stored_size (ic_stored c))))
                    (mkIC (ic_in c) (-1) (ic_stored c) (ic_ansno c) (ic_up c) []) d n Inv Gt eq_refl) as X.
      rewrite Es' in X. apply X; auto.
      - unfold next_reply_no. cbn. now rewrite (st_in _ _ _ _ _ F).
      - cbn [ic_stored]. pose proof (hdel_size_le (ic_stored c) n). destruct (is_ans_nul (d_type d)); lia. }
    inversion Hr. subst r. exists (ilog c' (IRet t n true)). split; auto.
    pose proof Es as Es2. rewrite send_reply_unfold in Es2.
    destruct (reply_status c d n) as [c1|] eqn:Er; [|discriminate]. cbn [obind] in Es2.
    assert (Dk : dk n d k) by (repeat split).
    pose proof (emit1 c n ks k w d c1 (st_in _ _ _ _ _ F) (st_ansno _ _ _ _ _ F)
                  (ok_calls_snoc _ _ Ks A M) Dk (fun _ => st_ansno _ _ _ _ _ F) Er) as (P1 & P2 & P3 & P4 & P5).
    set (c2 := after_status c1 d n) in *. clearbody c2.
    assert (En : hget (ic_stored c) n = None) by (apply (st_enc _ _ _ _ _ F)).
    assert (Sto : forall j, hget (ic_stored c2) j = hget (ic_stored c) j).
    { intros j. rewrite P4. destruct (is_ans_nul (k_type k)); auto.
      destruct (Z.eq_dec j n) as [->|]; [now rewrite hget_hdel_same|now apply hget_hdel_other]. }
    assert (Rest : Forall (rest_ok (ic_stored c2)) w).
    { eapply rest_other; [|apply (st_rest _ _ _ _ _ F)]. auto. }
    pose proof (st_nodup _ _ _ _ _ F) as Nd. inversion Nd as [|? ? Nm Nr]; subst.
    assert (X : queued (ic_log c') = queued (ic_log c2) ++ (if answered (ks ++ [k]) then release w else []) /\
                ic_up c' = ic_up c2 /\ ic_frag c' = ic_frag c2 /\ Fin c' (waiting ((n, ks ++ [k]) :: w))).
    { cbn [waiting]. rewrite answered_app, A. cbn [answered existsb orb]. rewrite orb_false_r.
      destruct (last_call k) eqn:L.
      - destruct P5 as [P5 P6].
        assert (NX := fin_next c2 w P5 P6 Rest).
        assert (NX' : forall j, ~ In j (map fst w) -> hget (ic_stored c2) j = None).
        { intros j J. rewrite Sto. destruct (Z.eq_dec j n) as [->|Dj]; auto.
          apply (st_none _ _ _ _ _ F). intros [X|X]; auto. }
        specialize (NX NX' Nr (fun X => st_no1 _ _ _ _ _ F (or_intror X))).
        destruct w as [|[m2 js2] w2].
        + destruct NX as (Q1 & Q2 & Q3). unfold flush_tail, next_reply_no in Es2. rewrite Q1, Q3 in Es2.
          inversion Es2. subst c'. cbn [release]. rewrite app_nil_r. cbn. conj; auto.
        + destruct (flush_spec _ _ _ _ _ _ _ NX Es2) as (Y1 & Y2 & Y3 & Y4). cbn [app] in *.
          conj; auto.
      - destruct P5 as [P5 P6].
        assert (S2 : St c2 n (ks ++ [k]) [] w).
        { constructor; auto.
          - cbn. now rewrite Sto.
          - intros j J. rewrite Sto. apply (st_none _ _ _ _ _ F); auto.
          - apply (st_no1 _ _ _ _ _ F).
          - rewrite app_nil_r. now apply ok_calls_snoc.
          - rewrite answered_app, A. cbn. now rewrite L.
          - intros X. contradiction. }
        destruct (flush_spec _ _ _ _ _ _ _ S2 Es2) as (Y1 & Y2 & Y3 & Y4). cbn [app number] in *.
        rewrite app_nil_r in *. rewrite answered_app, A in Y1. cbn [waiting] in Y4. rewrite answered_app, A in Y4.
        cbn [answered existsb orb] in Y1, Y4. rewrite L in Y1, Y4. cbn [orb] in Y1, Y4. rewrite app_nil_r in Y1. conj; auto. }
    destruct X as (X1 & X2 & X3 & X4).
    constructor; cbn [a_msgs a_open ilog ic_log ic_up ic_frag]; try congruence; auto.
    + rewrite W'. destruct (waiting ((n, ks ++ [k]) :: w)) as [|[z zs] z']; cbn in *; auto. destruct X4. constructor; auto.
    + rewrite queued_app, X1, P3, Q, R1, R2. cbn [queued]. rewrite app_nil_r.
      cbn [release]. rewrite number_app, <- !app_assoc. reflexivity.
    + intros t' n' ok I'. apply in_ret_snoc in I' as [I'|I']; [|congruence].
      eapply send_reply_ret in I'; [|exact Es]. eauto.
  - destruct (Z.eqb_spec m n) as [|_]; [contradiction|].
    destruct (add_call_rest _ _ _ _ R1) as (w1 & js & w2 & -> & -> & Aj & Mj & Kj).
    set (d := mkRD t n (ic_ansno c) body more) in *.
    pose proof (st_rest _ _ _ _ _ F) as Rs. apply Forall_app in Rs as [Rs1 Rs2]. inversion Rs2 as [|? ? Rj Rs2' ]; subst.
    destruct Rj as (Ej & Oj & Nj). cbn [fst snd] in Ej, Oj, Nj.
    assert (Okj : ok_calls (js ++ [k])) by (now apply ok_calls_snoc).
    assert (Npj : no_pieces (js ++ [k])) by (apply Forall_app; split; auto).
    pose proof (st_nodup _ _ _ _ _ F) as Nd. rewrite map_app in Nd. cbn [map fst] in Nd.
    assert (G1 : exists v, store_reply c d = (iset_stored c (hput (ic_stored c) n v), true) /\
                           enc (hput (ic_stored c) n v) n (js ++ [k])).
    { unfold store_reply. cbn [d d_type d_msgno].
      unfold may_follow in Mj. cbn [k k_type k_more] in Mj, Kj.
      destruct (is_ans_nul t) eqn:Tt.
      - assert (AA : forallb is_ans js = true).
        { destruct t; try discriminate; now apply andb_prop in Mj as [_ Mj]. }
        destruct js as [|k0 js].
        + cbn in Ej. rewrite Ej. eexists. split; [reflexivity|]. cbn [app enc]. cbn [k k_type]. rewrite Tt.
          exists [d]. rewrite hget_hput_same. split; auto. constructor; [repeat split|constructor].
        + cbn [enc] in Ej. cbn in AA. apply andb_prop in AA as [AA1 AA2].
          assert (T0 : is_ans_nul (k_type k0) = true) by (unfold is_ans in AA1; unfold is_ans_nul; now rewrite AA1).
          rewrite T0 in Ej. destruct Ej as (l & El & F2). rewrite El.
          assert (LN : ftype_eqb (d_type (last l d)) TNUL && negb (zlen l =? 0) = false).
          { inversion F2 as [|d1 y l1 ys Hd F2' Q1 Q2]; subst.
            destruct (exists_last (l := d1 :: l1)) as (l0 & x & El0); [discriminate|].
            destruct (exists_last (l := k0 :: js)) as (j0 & y & Ej0); [discriminate|].
            rewrite El0, last_last. rewrite El0, Ej0 in F2. apply Forall2_last in F2. destruct F2 as (F21 & _).
            assert (Iy : is_ans y = true).
            { assert (In y (k0 :: js)) by (rewrite Ej0; apply in_or_app; right; now left).
              assert (Z1 : forallb is_ans (k0 :: js) = true) by (cbn; now rewrite AA1).
              rewrite forallb_forall in Z1. auto. }
            rewrite F21. unfold is_ans in Iy. destruct (k_type y); try discriminate. reflexivity. }
          assert (LN' : ftype_eqb t TNUL && ftype_eqb (d_type (last l d)) TNUL && negb (zlen l =? 0) = false).
          { rewrite <- andb_assoc, LN. apply andb_false_r. }
          rewrite LN'. eexists. split; [reflexivity|]. cbn [app enc]. rewrite T0.
          exists (l ++ [d]). rewrite hget_hput_same. split; auto.
          change (k0 :: js ++ [k]) with ((k0 :: js) ++ [k]). apply Forall2_app; auto. constructor; [repeat split|constructor].
      - assert (js = []).
        { destruct js as [|k0 js]; auto. exfalso. inversion Nj; subst.
          destruct t; try discriminate; cbn in Mj; rewrite H1 in Mj; discriminate. }
        subst js. eexists. split; [reflexivity|]. cbn [app enc]. cbn [k k_type]. rewrite Tt.
        exists d. rewrite hget_hput_same. split; auto. repeat split. }
    destruct G1 as (v & G1 & G2). rewrite G1 in Hr. inversion Hr. subst r.
    eexists. split; [reflexivity|].
    constructor; cbn [a_msgs a_open ilog ic_log ic_up ic_frag iset_stored]; auto.
    + rewrite R2. cbn [Fin].
      assert (Oth : forall j, j <> n -> hget (hput (ic_stored c) n v) j = hget (ic_stored c) j)
        by (intros; now apply hget_hput_other).
      assert (Nd2 := Nd). rewrite app_comm_cons in Nd2. apply NoDup_remove in Nd2 as [_ Nn].
      assert (Mf : forall x y : list call, map fst (w1 ++ (n, x) :: w2) = map fst (w1 ++ (n, y) :: w2))
        by (intros; rewrite !map_app; reflexivity).
      constructor; cbn [ilog iset_stored ic_in ic_stored ic_ansno]; rewrite ?(Mf (js ++ [k]) js).
      * apply (st_in _ _ _ _ _ F).
      * apply (st_ansno _ _ _ _ _ F).
      * cbn [enc]. rewrite Oth by auto. apply (st_enc _ _ _ _ _ F).
      * apply Forall_app. split; [|constructor].
        -- eapply rest_other; [|exact Rs1]. intros j J. apply Oth. intros ->. apply Nn. right. apply in_or_app. auto.
        -- split; auto.
        -- eapply rest_other; [|exact Rs2']. intros j J. apply Oth. intros ->. apply Nn. right. apply in_or_app. auto.
      * intros j J. rewrite Oth.
        -- apply (st_none _ _ _ _ _ F); auto.
        -- intros ->. apply J. right. rewrite map_app. apply in_or_app. right. now left.
      * apply (st_nodup _ _ _ _ _ F).
      * apply (st_no1 _ _ _ _ _ F).
      * apply (st_ok _ _ _ _ _ F).
      * auto.
      * intros X. contradiction.
    + rewrite queued_app, Q, R3. cbn. now rewrite app_nil_r.
    + intros t' n' ok I'. apply in_ret_snoc in I' as [I'|I']; [eauto|congruence].
Qed.

Lemma waiting_incl : forall s i, In i (waiting s) -> In i s.
Proof.
  induction s as [|[m ks] s IH]; intros i I; [destruct I|]. cbn [waiting] in I. destruct (answered ks); [right|]; auto.
Qed.

Lemma call_no_ub : forall a c t n body more a', R a c -> astep a (IpCall t n body more) = Some a' ->
  Forall few (a_msgs a') -> common_rpy c t n body more <> UB.
Proof.
  intros a c t n body more a' [F Q U G O T] H Fw. cbn [astep] in H.
  set (k := mkCall t body more) in *.
  destruct (add_call true (a_msgs a) n k) as [s'|] eqn:E; [|discriminate]. inversion H. subst a'. clear H.
  cbn [a_msgs] in Fw.
  destruct (add_call_waiting _ _ _ _ E) as (m & ks & w & Ew & A & D). rewrite Ew in F. cbn [Fin] in F.
  unfold common_rpy. rewrite U. unfold next_reply_no. rewrite (st_in _ _ _ _ _ F).
  assert (Ks : ok_calls ks) by (pose proof (st_ok _ _ _ _ _ F) as X; now rewrite app_nil_r in X).
  destruct D as [(-> & M & W' & P & R1 & R2)|(D & w' & R1 & R2 & R3)].
  2 : { destruct (Z.eqb_spec m n) as [|_]; [contradiction|]. destruct (store_reply c _). discriminate. }
  rewrite Z.eqb_refl.
  set (d := mkRD t n (ic_ansno c) body more) in *.
  assert (Fk : cnt (ks ++ [k]) < two31 /\ Forall few w).
  { clear - E Ew Fw A. revert s' E Fw. induction (a_msgs a) as [|[m1 k1] s IH]; intros s' E Fw; [discriminate|].
    cbn [waiting add_call] in *. destruct (answered k1) eqn:A1.
    - destruct (add_call true s n k) as [s1|]; [|discriminate]. inversion E; subst s'. inversion Fw; subst. eauto.
    - inversion Ew. subst m1 k1 w. rewrite Z.eqb_refl in E. destruct (may_follow ks k && _); [|discriminate].
      inversion E. subst s'. inversion Fw; subst. split; auto. }
  destruct Fk as [Fk Fw'].
  intros X. match type of X with obind ?x _ = _ => destruct x as [o|] eqn:Es end; [discriminate|]. clear X.
  rewrite send_reply_unfold in Es.
  destruct (reply_status c d n) as [c1|] eqn:Er; cbn [obind] in Es.
  2 : { apply reply_status_ub in Er as [Er1 Er2]. rewrite cnt_snoc in Fk. cbn [d d_type] in Er1.
        unfold is_ans in Fk. cbn [k k_type] in Fk. rewrite Er1 in Fk. cbn [ftype_eqb] in Fk.
        rewrite (st_ansno _ _ _ _ _ F) in Er2. lia. }
  assert (Dk : dk n d k) by (repeat split).
  pose proof (emit1 c n ks k w d c1 (st_in _ _ _ _ _ F) (st_ansno _ _ _ _ _ F)
                (ok_calls_snoc _ _ Ks A M) Dk (fun _ => st_ansno _ _ _ _ _ F) Er) as (P1 & P2 & P3 & P4 & P5).
  set (c2 := after_status c1 d n) in *. clearbody c2.
  assert (En : hget (ic_stored c) n = None) by (apply (st_enc _ _ _ _ _ F)).
  assert (Sto : forall j, hget (ic_stored c2) j = hget (ic_stored c) j).
  { intros j. rewrite P4. destruct (is_ans_nul (k_type k)); auto.
    destruct (Z.eq_dec j n) as [->|]; [now rewrite hget_hdel_same|now apply hget_hdel_other]. }
  assert (Rest : Forall (rest_ok (ic_stored c2)) w).
  { eapply rest_other; [|apply (st_rest _ _ _ _ _ F)]. auto. }
  pose proof (st_nodup _ _ _ _ _ F) as Nd. inversion Nd as [|? ? Nm Nr]; subst.
  destruct (last_call k) eqn:L; destruct P5 as [P5 P6].
  - assert (NX := fin_next c2 w P5 P6 Rest).
    assert (NX' : forall j, ~ In j (map fst w) -> hget (ic_stored c2) j = None).
    { intros j J. rewrite Sto. destruct (Z.eq_dec j n) as [->|Dj]; auto.
      apply (st_none _ _ _ _ _ F). intros [X|X]; auto. }
    specialize (NX NX' Nr (fun X => st_no1 _ _ _ _ _ F (or_intror X))).
    destruct w as [|[m2 js2] w2].
    + rewrite (flush_empty _ _ NX) in Es. discriminate.
    + exact (flush_no_ub _ _ _ _ _ _ NX Fw' Es).
  - assert (S2 : St c2 n (ks ++ [k]) [] w).
    { constructor; auto.
      - cbn [enc]. now rewrite Sto.
      - intros j J. rewrite Sto. apply (st_none _ _ _ _ _ F); auto.
      - apply (st_no1 _ _ _ _ _ F).
      - rewrite app_nil_r. now apply ok_calls_snoc.
      - rewrite answered_app, A. cbn. now rewrite L.
      - intros X. contradiction. }
    rewrite (flush_idle _ _ _ _ _ S2) in Es. discriminate.
Qed.

Lemma R_run : forall os a c a' r, R a c -> arun a os = Some a' -> irun c os = Ok r ->
  exists c', r = Some c' /\ R a' c'.
Proof.
  induction os as [|o os IH]; intros a c a' r HR Ha Hc.
  - inversion Ha. inversion Hc. subst. eauto.
  - cbn [arun irun] in *. destruct (astep a o) as [a1|] eqn:Ea; [|discriminate].
    destruct o as [n more|t n body more|]; cbn [istep obind] in Hc.
    + rewrite (r_up _ _ HR) in Hc. eapply IH; [|exact Ha|exact Hc]. eapply R_msg; eauto.
    + destruct (common_rpy c t n body more) as [r1|] eqn:E; [|discriminate]. cbn [obind] in Hc.
      destruct (R_call _ _ _ _ _ _ _ _ HR Ea E) as (c1 & -> & HR1). eapply IH; eauto.
    + discriminate.
Qed.

Lemma R0 : forall first, NoDup first -> ~ In (-1) first -> R (app0 first) (ic0 first).
Proof.
  intros first Nd N1. constructor; cbn; auto; try discriminate.
  - assert (W : waiting (map (fun n => (n, @nil call)) first) = map (fun n => (n, [])) first).
    { destruct first; reflexivity. }
    rewrite W. destruct first as [|n l]; cbn; auto.
    assert (M : map fst (map (fun n : Z => (n, @nil call)) l) = l).
    { rewrite map_map. cbn. apply map_id. }
    constructor; cbn; rewrite ?M; auto.
    + rewrite Forall_forall. intros i I. apply in_map_iff in I as (x & <- & _). cbn.
      split; [reflexivity|]. split; [apply ok_calls_nil|constructor].
    + apply ok_calls_nil.
    + intros X. contradiction.
  - destruct first; reflexivity.
Qed.

Lemma replies_in_order : forall first os a r, NoDup first -> ~ In (-1) first ->
  arun (app0 first) os = Some a -> irun (ic0 first) os = Ok r ->
  exists c, r = Some c /\ queued (ic_log c) = release (a_msgs a) /\ ic_up c = true /\
            forall t n ok, In (IRet t n ok) (ic_log c) -> ok = true.
Proof.
  intros first os a r Nd N1 Ha Hr.
  destruct (R_run _ _ _ _ _ (R0 first Nd N1) Ha Hr) as (c & -> & [F Q U G O T]). exists c. conj; auto.
Qed.

(** The messages only grow. *)
Lemma add_call_few : forall b s n k s', add_call b s n k = Some s' -> Forall few s' -> Forall few s.
Proof.
  intros b s. revert b. induction s as [|[m ks] s IH]; intros b n k s' H F; [constructor|].
  cbn [add_call] in H.
  destruct (answered ks).
  - destruct (add_call b s n k) eqn:E; [|discriminate]. inversion H. subst s'. inversion F; subst. constructor; eauto.
  - destruct (m =? n).
    + destruct (_ && _); [|discriminate]. inversion H. subst s'. inversion F; subst. constructor; auto.
      unfold few in *. cbn [snd] in *. rewrite cnt_app in H2. pose proof (cnt_nonneg [k]). lia.
    + destruct (add_call false s n k) eqn:E; [|discriminate]. inversion H. subst s'. inversion F; subst. constructor; eauto.
Qed.

Lemma astep_few : forall a o a', astep a o = Some a' -> Forall few (a_msgs a') -> Forall few (a_msgs a).
Proof.
  intros a o a' H F. destruct o as [n more|t n body more|]; cbn [astep] in H; [| |discriminate].
  - destruct (a_open a).
    + destruct (n =? z); [|discriminate]. inversion H. subst a'. exact F.
    + destruct (_ || _); [discriminate|]. inversion H. subst a'. cbn [a_msgs] in F. now apply Forall_app in F as [F _].
  - destruct (add_call true (a_msgs a) n (mkCall t body more)) eqn:E; [|discriminate]. inversion H. subst a'.
    eapply add_call_few; eauto.
Qed.

Lemma arun_few : forall os a a', arun a os = Some a' -> Forall few (a_msgs a') -> Forall few (a_msgs a).
Proof.
  induction os as [|o os IH]; intros a a' H F.
  - inversion H. subst. auto.
  - cbn [arun] in H. destruct (astep a o) as [a1|] eqn:E; [|discriminate]. eapply astep_few; eauto.
Qed.

Lemma run_no_ub : forall os a c a', R a c -> arun a os = Some a' -> Forall few (a_msgs a') -> irun c os <> UB.
Proof.
  induction os as [|o os IH]; intros a c a' HR Ha Fw.
  - discriminate.
  - cbn [arun irun] in *. destruct (astep a o) as [a1|] eqn:Ea; [|discriminate].
    pose proof (arun_few _ _ _ Ha Fw) as Fw1.
    destruct o as [n more|t n body more|]; cbn [istep obind].
    + rewrite (r_up _ _ HR). eapply IH; [|exact Ha|exact Fw]. eapply R_msg; eauto.
    + destruct (common_rpy c t n body more) as [r1|] eqn:E.
      * cbn [obind]. destruct (R_call _ _ _ _ _ _ _ _ HR Ea E) as (c1 & -> & HR1). eapply IH; eauto.
      * exfalso. eapply call_no_ub; eauto.
    + discriminate.
Qed.

Lemma filter_len : forall (A : Type) (f : A -> bool) l, (length (filter f l) <= length l)%nat.
Proof. induction l as [|x l IH]; cbn; [lia|]. destruct (f x); cbn; lia. Qed.

Lemma replies_order : forall first os a, NoDup first -> ~ In (-1) first ->
  arun (app0 first) os = Some a -> Forall (fun i => zlen (snd i) < two31) (a_msgs a) ->
  exists c, irun (ic0 first) os = Ok (Some c) /\ queued (ic_log c) = release (a_msgs a) /\ ic_up c = true /\
            forall t n ok, In (IRet t n ok) (ic_log c) -> ok = true.
Proof.
  intros first os a Nd N1 Ha Fw.
  destruct (irun (ic0 first) os) as [r|] eqn:E.
  - destruct (replies_in_order _ _ _ _ Nd N1 Ha E) as (c & -> & H). exists c. split; auto.
  - exfalso. eapply run_no_ub; [apply R0; eauto|eauto| |eauto].
    eapply Forall_impl; [|exact Fw]. intros i Hi. unfold few, cnt, zlen in *.
    pose proof (filter_len _ is_ans (snd i)). lia.
Qed.

(** ** One-to-many exchanges *)
Lemma app_cons_split : forall (A : Type) (l1 l2 a b : list A) w, l1 ++ l2 = a ++ w :: b ->
  (exists b', l1 = a ++ w :: b' /\ b = b' ++ l2) \/ (exists a', a = l1 ++ a' /\ l2 = a' ++ w :: b).
Proof.
  induction l1 as [|x l1 IH]; intros l2 a b w E; cbn in E.
  - right. exists a. auto.
  - destruct a as [|y a]; cbn in E; injection E as <- E.
    + left. exists l1. auto.
    + destruct (IH _ _ _ _ E) as [(b' & -> & ->)|(a' & -> & ->)].
      * left. exists b'. auto.
      * right. exists a'. auto.
Qed.

Lemma number_split : forall n ks i a w b, number n i ks = a ++ w :: b ->
  exists pre k post, ks = pre ++ k :: post /\ a = number n i pre /\
    w = mkW (k_type k) n (if ftype_eqb (k_type k) TANS then Some (i + zlen pre) else None) (k_body k) (k_more k).
Proof.
  intros n. induction ks as [|k ks IH]; intros i a w b E; cbn [number] in E; [destruct a; discriminate|].
  destruct a as [|x a]; cbn in E; injection E as <- E.
  - exists [], k, ks. rewrite Z.add_0_r. auto.
  - destruct (IH _ _ _ _ E) as (pre & k' & post & -> & -> & ->). exists (k :: pre), k', post. conj; auto.
    unfold zlen. cbn [length]. destruct (ftype_eqb _ _); auto. do 2 f_equal. lia.
Qed.

Lemma number_len : forall n ks i, zlen (number n i ks) = zlen ks.
Proof. intros n. induction ks as [|k ks IH]; intros i; auto. unfold zlen in *. cbn. specialize (IH (i + 1)). lia. Qed.

Lemma release_one_to_many : forall s, Forall (fun i => ok_calls (snd i)) s -> one_to_many (release s).
Proof.
  induction s as [|[n ks] s IH]; intros F a w b E T; [destruct a; discriminate|].
  inversion F as [|? ? Ok' F']; subst. cbn [snd] in Ok'. cbn [release] in E.
  apply app_cons_split in E as [(b' & E & _)|(a' & -> & E)].
  - destruct (number_split _ _ _ _ _ _ E) as (pre & k & post & -> & -> & ->). cbn [w_type w_msgno w_ansno] in *.
    exists [], (number n 0 pre). destruct (Ok' pre k post eq_refl) as [_ M].
    assert (AA : forallb is_ans pre = true).
    { unfold may_follow in M. destruct T as [T|T]; rewrite T in M; now apply andb_prop in M as [_ M]. }
    conj; auto.
    + clear - AA. generalize 0. induction pre as [|x pre IH]; intros i; cbn [number]; constructor.
      * cbn in AA. apply andb_prop in AA as [A1 A2]. cbn. unfold is_ans in A1. split; auto.
        destruct (k_type x); try discriminate. auto.
      * cbn in AA. apply andb_prop in AA as [A1 A2]. auto.
    + now rewrite number_len.
  - destruct (answered ks) eqn:A; [|destruct a'; discriminate].
    destruct (IH F' _ _ _ E T) as (a1 & a2 & -> & H1 & H2 & H3).
    exists (number n 0 ks ++ a1), a2. conj; auto; [now rewrite app_assoc|].
    right. destruct H3 as [->|(a0 & x & -> & Fx)].
    + rewrite app_nil_r.
      destruct (exists_last (l := ks)) as (k0 & k & ->); [intros ->; discriminate|].
      destruct (Ok' k0 k [] eq_refl) as [A0 _].
      assert (L : last_call k = true).
      { rewrite answered_app, A0 in A. cbn in A. now rewrite orb_false_r in A. }
      rewrite number_app. cbn [number]. do 2 eexists. split; [reflexivity|]. exact L.
    + exists (number n 0 ks ++ a0), x. now rewrite app_assoc.
Qed.

Lemma add_call_ok : forall b s n k s', add_call b s n k = Some s' ->
  Forall (fun i => ok_calls (snd i)) s -> Forall (fun i => ok_calls (snd i)) s'.
Proof.
  intros b s. revert b. induction s as [|[m ks] s IH]; intros b n k s' H F; [discriminate|].
  cbn [add_call] in H. inversion F; subst. destruct (answered ks) eqn:A.
  - destruct (add_call b s n k) eqn:E; [|discriminate]. inversion H. subst s'. constructor; eauto.
  - destruct (m =? n).
    + destruct (may_follow ks k) eqn:M; [|discriminate]. destruct (true && _); [|discriminate].
      inversion H. subst s'. constructor; auto. cbn. apply ok_calls_snoc; auto.
    + destruct (add_call false s n k) eqn:E; [|discriminate]. inversion H. subst s'. constructor; eauto.
Qed.

Lemma arun_ok : forall os a a', arun a os = Some a' ->
  Forall (fun i => ok_calls (snd i)) (a_msgs a) -> Forall (fun i => ok_calls (snd i)) (a_msgs a').
Proof.
  induction os as [|o os IH]; intros a a' H F.
  - inversion H. subst. auto.
  - cbn [arun] in H. destruct (astep a o) as [a1|] eqn:E; [|discriminate]. eapply IH; eauto. clear H IH.
    destruct o as [n more|t n body more|]; cbn [astep] in E; [| |discriminate].
    + destruct (a_open a).
      * destruct (n =? z); [|discriminate]. inversion E. subst a1. exact F.
      * destruct (_ || _); [discriminate|]. inversion E. subst a1. apply Forall_app. split; auto.
        constructor; [|constructor]. apply ok_calls_nil.
    + destruct (add_call true (a_msgs a) n (mkCall t body more)) eqn:E'; [|discriminate]. inversion E. subst a1.
      eapply add_call_ok; eauto.
Qed.

Lemma one_to_many_sent : forall first os a c, NoDup first -> ~ In (-1) first ->
  arun (app0 first) os = Some a -> irun (ic0 first) os = Ok (Some c) -> one_to_many (queued (ic_log c)).
Proof.
  intros first os a c Nd N1 Ha Hr.
  destruct (replies_in_order _ _ _ _ Nd N1 Ha Hr) as (c' & E & Q & _). inversion E. subst c'. rewrite Q.
  apply release_one_to_many. eapply arun_ok; eauto.
  apply Forall_forall. intros i I. apply in_map_iff in I as (x & <- & _). apply ok_calls_nil.
Qed.

(** ** The decision on an incoming message *)
Lemma recv_decision : forall first os c n more, ~ In (-1) first -> Forall iop_ok os ->
  irun (ic0 first) os = Ok (Some c) -> ic_up c = true -> n <> -1 ->
  exists c', istep c (IpMsg n more) = Ok (Some c') /\
    ((acceptable (unanswered first (ic_log c)) n /\ ic_up c' = true /\ ic_log c' = ic_log c ++ [IMsg n more]) \/
     (~ acceptable (unanswered first (ic_log c)) n /\ ic_up c' = false /\ ic_log c' = ic_log c ++ [IClosed])).
Proof.
  intros first os c n more F W H Up Hn. destruct (irun_from0 _ _ _ F W H) as (c0 & E & I). inversion E. subst c0.
  cbn [istep]. rewrite Up. exists (recv_msg c n more). split; auto.
  pose proof (check_msg_no_spec first c n more I Hn) as X. unfold recv_msg.
  destruct (check_msg_no c n more) as [c1|]; cbn.
  - left. destruct X as (X1 & X2 & X3 & X4 & X5 & X6 & X7). conj; auto; congruence.
  - right. auto.
Qed.

Lemma after_down : forall os c, ic_up c = false -> exists c' l, irun c os = Ok (Some c') /\ ic_up c' = false /\
  ic_log c' = ic_log c ++ l /\ Forall (fun o => exists t n, o = IRet t n false) l.
Proof.
  induction os as [|o os IH]; intros c U.
  - exists c, []. rewrite app_nil_r. auto.
  - cbn [irun]. destruct o as [n more|t n body more|]; cbn [istep obind].
    + rewrite U. apply IH; auto.
    + unfold common_rpy. rewrite U. cbn [obind].
      destruct (IH (ilog c (IRet t n false)) U) as (c' & l & H1 & H2 & H3 & H4).
      exists c', (IRet t n false :: l). conj; auto.
      * rewrite H3. cbn. now rewrite <- app_assoc.
      * constructor; eauto.
    + destruct (IH (idown c) eq_refl) as (c' & l & H1 & H2 & H3 & H4). exists c', l. auto.
Qed.

Lemma replies_terminate : forall first os, ~ In (-1) first -> Forall iop_ok os -> irun (ic0 first) os <> Ok None.
Proof. intros first os F W H. destruct (irun_from0 _ _ _ F W H) as (c & E & _). discriminate. Qed.
