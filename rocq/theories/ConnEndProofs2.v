(** Proofs about the close of connections: what the calls returned, the connections accepted, witnesses. *)
From Verif Require Import Base HdrModel HdrProofs ConnEndModel ConnEndSpec ConnEndProofs.

(** On the way to the end of the connection, or to return false. *)
Definition pre (p : pc) : Z :=
  match p with QIsOk | QRefOk | QRefInc | QRefRead | QFailShut | QChan | QChanUnref | QUndo | QShut => 1 | _ => 0 end.
Lemma pre0 q : 0 <= pre q. Proof. destruct q; cbn; lia. Qed.
Record inv2 (s : cn) : Prop := {
  j_up : q_called s = true -> q_up s = false \/ 1 <= sumf pre (q_calls s);
  j_false : q_called s = false -> In (QDone true) (q_calls s) -> In (QDone false) (q_calls s)
}.
Lemma pre_upd l n p x : nth_error l n = Some p -> pre p <= pre x -> 1 <= sumf pre l -> 1 <= sumf pre (upd_nth l n x).
Proof. intros E L H. rewrite (sumf_upd pre _ _ x _ E). lia. Qed.
Lemma in_upd_old l n p x b : nth_error l n = Some p -> (forall b, p <> QDone b) -> In (QDone b) l -> In (QDone b) (upd_nth l n x).
Proof. intros E D I. eapply upd_in_old; eauto. Qed.
Lemma move2 s t n p x :
  inv2 s -> nth_error (q_calls s) n = Some p -> (forall b, p <> QDone b) ->
  q_calls t = upd_nth (q_calls s) n x ->
  (q_up t = q_up s \/ q_up t = false) ->
  (q_called t = q_called s /\ (x = QDone true -> q_called s = true) /\ (pre p <= pre x \/ q_up t = false)) \/
  (q_called t = true /\ pre x = 1) \/ (q_called t = false /\ x = QDone false) ->
  inv2 t.
Proof.
  intros [ju jf] E PD CL UP K. constructor; rewrite CL.
  - intros C. destruct K as [(K1 & K2 & [K3|K3])|[(K1 & K2)|(K1 & K2)]].
    + rewrite K1 in C. destruct (ju C) as [U|U]; [left; destruct UP; congruence|right; eapply pre_upd; eauto].
    + left. exact K3.
    + right. rewrite (sumf_upd pre _ _ x _ E). pose proof (sumf_ge pre _ _ _ pre0 E). lia.
    + congruence.
  - intros C I. destruct K as [(K1 & K2 & K3)|[(K1 & K2)|(K1 & K2)]].
    + rewrite K1 in C. destruct (upd_in _ _ _ _ _ E I) as [Q|Q].
      * symmetry in Q. apply K2 in Q. congruence.
      * eapply in_upd_old; eauto.
    + congruence.
    + subst x. eapply upd_in_new; eauto.
Qed.
Ltac m2 := try (left; cbn; repeat split; auto; left; lia).
Lemma step_inv2 s e s' : inv s -> inv2 s -> qstep s e = Ok s' -> inv2 s'.
Proof.
  intros Hi Hj H. pose proof Hj as [ju jf]. destruct e as [|n b| | |]; cbn [qstep] in H.
  - injection H as <-. constructor; qsimp; intros C; rewrite ?sumf_app; cbn [sumf pre].
    + destruct (ju C) as [U|U]; [auto|right; lia].
    + intros I. apply in_app_or in I. apply in_or_app. left. apply jf; auto. destruct I as [I|[I|[]]]; [auto|discriminate].
  - destruct (nth_error (q_calls s) n) as [p|] eqn:E; [|injection H as <-; exact Hj].
    assert (Q : (exists b0, p = QDone b0) \/ (forall b0, p <> QDone b0)).
    { destruct p; try (right; intros; discriminate). left; eauto. }
    destruct Q as [(b0 & ->)|PD]; [injection H as <-; exact Hj|].
    assert (X : s' = cstep s n p b).
    { destruct (q_freed s); destruct p; try discriminate H; injection H as <-; reflexivity. }
    subst s'. clear H. pose proof (proj2 (count_active s n p Hi E PD)) as CB.
    destruct p; try (destruct (CB eq_refl) as (CC & _)); cbn [cstep].
    + destruct (q_called s) eqn:C.
      * eapply (move2 s _ n QStart (QDone true) Hj E PD); qsimp; auto; rewrite ?C; m2.
      * eapply (move2 s _ n QStart QIsOk Hj E PD); qsimp; auto.
    + destruct (q_up s) eqn:U.
      * eapply (move2 s _ n QIsOk QRefOk Hj E PD); qsimp; auto; m2.
      * eapply (move2 s _ n QIsOk QMaster Hj E PD); qsimp; auto.
    + destruct (q_up s) eqn:U.
      * eapply (move2 s _ n QRefOk QRefInc Hj E PD); qsimp; auto; m2.
      * eapply (move2 s _ n QRefOk QFailShut Hj E PD); qsimp; auto.
    + eapply (move2 s _ n QRefInc QRefRead Hj E PD); qsimp; auto; m2.
    + destruct (1 <? q_count s).
      * eapply (move2 s _ n QRefRead QChan Hj E PD); qsimp; auto; m2.
      * eapply (move2 s _ n QRefRead QFailShut Hj E PD); qsimp; auto; m2.
    + eapply (move2 s _ n QFailShut QFailUnref Hj E PD); qsimp; auto.
    + eapply (move2 s _ n QFailUnref (QDone true) Hj E PD); qsimp; auto; m2.
    + destruct b.
      * eapply (move2 s _ n QChan QShut Hj E PD); qsimp; auto; m2.
      * eapply (move2 s _ n QChan QChanUnref Hj E PD); qsimp; auto; m2.
    + eapply (move2 s _ n QChanUnref QUndo Hj E PD); qsimp; auto; m2.
    + eapply (move2 s _ n QUndo (QDone false) Hj E PD); qsimp; auto.
    + eapply (move2 s _ n QShut QRead Hj E PD); qsimp; auto.
    + eapply (move2 s _ n QRead (QUnref (q_count s)) Hj E PD); qsimp; auto; m2.
    + destruct (r - 1 =? 0).
      * eapply (move2 s _ n (QUnref r) (QDone true) Hj E PD); qsimp; auto; m2.
      * eapply (move2 s _ n (QUnref r) QRole Hj E PD); qsimp; auto; m2.
    + destruct (q_role s).
      * eapply (move2 s _ n QRole QOwn Hj E PD); qsimp; auto; m2.
      * eapply (move2 s _ n QRole (QDone true) Hj E PD); qsimp; auto; m2.
      * eapply (move2 s _ n QRole (QDone true) Hj E PD); qsimp; auto; m2.
    + eapply (move2 s _ n QOwn (QDone true) Hj E PD); qsimp; auto; m2.
    + destruct (q_role s).
      * eapply (move2 s _ n QMaster QRole Hj E PD); qsimp; auto; m2.
      * eapply (move2 s _ n QMaster QRole Hj E PD); qsimp; auto; m2.
      * eapply (move2 s _ n QMaster QMasterUnref Hj E PD); qsimp; auto; m2.
    + eapply (move2 s _ n QMasterUnref (QDone true) Hj E PD); qsimp; auto; m2.
    + exact Hj.
  - injection H as <-. constructor; qsimp; auto.
  - destruct (q_reader s); [|injection H as <-; exact Hj]. destruct (q_freed s); [discriminate|].
    destruct (q_up s) eqn:U; injection H as <-; [exact Hj|]. constructor; qsimp; auto.
  - destruct (0 <? q_extra s); [|injection H as <-; exact Hj]. destruct (q_freed s); [discriminate|].
    injection H as <-. constructor; qsimp; auto.
Qed.
Lemma run_inv2 es : forall s, inv s -> inv2 s -> careful s es -> exists s', qrun s es = Ok s' /\ inv s' /\ inv2 s'.
Proof.
  induction es as [|e r IH]; intros s Hi Hj HC. { exists s. auto. }
  destruct HC as (H1 & H2). destruct (step_inv s e Hi H1) as (s1 & E & I1). cbn. rewrite E in H2. rewrite E. cbn.
  apply IH; [exact I1|eapply step_inv2; [exact Hi|exact Hj|exact E]|exact H2].
Qed.
Lemma inv2_established e : inv2 (established Initiator e).
Proof. constructor; cbn; [discriminate|intros _ []]. Qed.
Lemma quiet_zero s f : quiet s -> (forall b, f (QDone b) = 0) -> sumf f (q_calls s) = 0.
Proof. intros Q F. apply sumf_zero. eapply Forall_impl; [|exact Q]. intros p (b & ->). apply F. Qed.

Lemma initiator_safe e es : 0 <= e -> careful (established Initiator e) es ->
  exists s, qrun (established Initiator e) es = Ok s /\ (q_freed s = true <-> q_count s = 0) /\ 0 <= q_count s.
Proof.
  intros H HC. destruct (run_inv es _ (inv_established e H) HC) as (s & E & I). exists s. split; auto.
  destruct I as [ir ic ifr ii io ie ib ird idn inm]. pose proof (sumf_nonneg act (q_calls s) act0). pose proof (sumf_nonneg tmp (q_calls s) tmp0).
  assert (0 <= b2z (q_reader s)) by (destruct (q_reader s); cbn; lia).
  split; [rewrite ifr; apply Z.eqb_eq|]. rewrite ic. destruct (q_called s); lia.
Qed.
Lemma initiator_refs e es s : 0 <= e -> careful (established Initiator e) es ->
  qrun (established Initiator e) es = Ok s -> quiet s ->
  (~ returned s true -> q_count s = q_extra s + b2z (q_reader s) + 1) /\
  (q_calls s <> [] -> ~ returned s false -> q_up s = false /\ q_count s = q_extra s + b2z (q_reader s)).
Proof.
  intros H HC E Q. destruct (run_inv2 es _ (inv_established e H) (inv2_established e) HC) as (s' & E' & I & J).
  rewrite E in E'. injection E' as <-. destruct I as [ir ic ifr ii io ie ib ird idn inm]. destruct J as [ju jf].
  pose proof (quiet_zero s act Q (fun _ => eq_refl)) as A. pose proof (quiet_zero s tmp Q (fun _ => eq_refl)) as T.
  pose proof (quiet_zero s pre Q (fun _ => eq_refl)) as P. rewrite A, T in ic. split.
  - intros R. destruct (q_called s) eqn:C; [|lia]. exfalso. apply R. apply idn; auto.
  - intros N R. destruct (q_called s) eqn:C.
    + split; [|lia]. destruct (ju eq_refl) as [U|U]; [exact U|lia].
    + exfalso. apply R. destruct (q_calls s) as [|p r] eqn:L; [congruence|]. unfold returned. rewrite L.
      unfold quiet in Q. rewrite L in Q. inversion Q as [|? ? (b & ->) Q2]; subst.
      destruct b; [apply jf; auto; left; reflexivity|left; reflexivity].
Qed.

(** * Connections accepted *)
Record sinv (s : cn) : Prop := {
  s_role : q_role s = Accepted;
  s_count : q_count s = q_extra s + b2z (q_reader s) + sumf tmp (q_calls s);
  s_freed : q_freed s = (q_count s =? 0);
  s_idle : q_called s = false -> sumf act (q_calls s) = 0;
  s_one : sumf act (q_calls s) <= 1;
  s_extra : 0 <= q_extra s;
  s_hold : 1 <= q_extra s \/ quiet s;
  s_ok : In QRefOk (q_calls s) -> q_up s = true;
  s_bad : ~ In QFailShut (q_calls s) /\ ~ In QFailUnref (q_calls s) /\ ~ In QMasterUnref (q_calls s) /\ ~ In QOwn (q_calls s)
}.
Lemma two_sum f l n p y : (forall q, 0 <= f q) -> nth_error l n = Some p -> In y l -> y <> p -> f p + f y <= sumf f l.
Proof.
  intros F. revert n. induction l as [|a l IH]; intros [|n] E I D; try discriminate; cbn in E |- *.
  - injection E as ->. destruct I as [->|I]; [congruence|]. apply In_nth_error in I. destruct I as (m & M).
    pose proof (sumf_ge f _ _ _ F M). lia.
  - destruct I as [->|I].
    + pose proof (sumf_ge f _ _ _ F E). lia.
    + specialize (IH n E I D). specialize (F a). lia.
Qed.
Lemma smove s t n p x :
  sinv s -> nth_error (q_calls s) n = Some p -> (forall b, p <> QDone b) ->
  q_role t = q_role s -> q_freed t = (q_count t =? 0) -> q_reader t = q_reader s -> q_extra t = q_extra s ->
  q_calls t = upd_nth (q_calls s) n x ->
  q_count t - q_count s = tmp x - tmp p ->
  (q_called t = false -> sumf act (q_calls s) - act p + act x = 0) ->
  sumf act (q_calls s) - act p + act x <= 1 ->
  (q_up t = q_up s \/ act p = 1) -> (x = QRefOk -> q_up t = true) ->
  match x with QFailShut | QFailUnref | QMasterUnref | QOwn => False | _ => True end ->
  sinv t.
Proof.
  intros [sr sc sf si so se sh sk (b1 & b2 & b3 & b4)] E PD R F RD EX CL CO ID ON UP XK XB.
  assert (E1 : 1 <= q_extra s).
  { destruct sh as [sh|sh]; auto. exfalso. unfold quiet in sh. rewrite Forall_forall in sh.
    destruct (sh p) as (b & ->); [eapply nth_error_In; eauto|]. eapply PD. reflexivity. }
  pose proof (sumf_upd act _ _ x _ E) as UA. pose proof (sumf_upd tmp _ _ x _ E) as UT.
  constructor.
  - congruence.
  - rewrite CL, UT, EX, RD. lia.
  - exact F.
  - rewrite CL, UA. exact ID.
  - rewrite CL, UA. exact ON.
  - lia.
  - left. lia.
  - rewrite CL. intros I. destruct (upd_in _ _ _ _ _ E I) as [Q|Q]; [auto|].
    destruct UP as [UP|UP]; [rewrite UP; auto|].
    assert (D : p = QRefOk \/ QRefOk <> p) by (destruct p; auto; right; discriminate).
    destruct D as [->|D].
    + (* the call at the check itself moved *)
      destruct (In_nth_error _ _ I) as (m & M). pose proof (sumf_ge act _ _ _ act0 M) as G. 
      assert (x = QRefOk \/ x <> QRefOk) as [X|X] by (destruct x; auto; right; discriminate); [auto|].
      (* another one is there too: two calls inside *)
      exfalso. assert (Y : exists m', m' <> n /\ nth_error (q_calls s) m' = Some QRefOk).
      { exists m. destruct (Nat.eq_dec m n) as [->|N].
        - exfalso. clear - M E X. revert n M E. induction (q_calls s); intros [|n] M E; try discriminate; cbn in *; [congruence|eauto].
        - split; auto. clear - M N. revert n m M N. induction (q_calls s); intros [|n] [|m] M N; try discriminate; cbn in *; auto; try congruence. eapply IHl; eauto. }
      destruct Y as (m' & N & M'). clear - so E M' N. revert n m' E M' N so.
      induction (q_calls s) as [|a l IH]; intros [|n] [|m] E M N so; try discriminate; try congruence; cbn [sumf nth_error] in *.
      * injection E as ->. pose proof (sumf_ge act _ _ _ act0 M). change (act QRefOk) with 1 in *. lia.
      * injection M as ->. pose proof (sumf_ge act _ _ _ act0 E). change (act QRefOk) with 1 in *. lia.
      * eapply (IH n m); eauto. pose proof (act0 a). lia.
    + pose proof (two_sum act _ _ _ _ act0 E Q D) as T2. change (act QRefOk) with 1 in T2. clear - T2 UP so. lia.
  - rewrite CL. repeat split; intros I; destruct (upd_in _ _ _ _ _ E I) as [Q|Q]; try contradiction; subst x; exact XB.
Qed.
Lemma sstep s e : sinv s -> holding1 s e -> exists s', qstep s e = Ok s' /\ sinv s'.
Proof.
  intros Hi (HC & HD & HL). pose proof Hi as [sr sc sf si so se sh sk (b1 & b2 & b3 & b4)].
  destruct e as [|n b| | |]; cbn [qstep].
  - eexists. split; [reflexivity|]. constructor; qsimp; rewrite ?sumf_app; cbn [sumf act tmp].
    + exact sr.
    + lia.
    + exact sf.
    + intros H. rewrite si; auto.
    + lia.
    + lia.
    + left. auto.
    + intros I. apply in_app_or in I. destruct I as [I|[I|[]]]; [auto|discriminate].
    + repeat split; intros I; apply in_app_or in I; destruct I as [I|[I|[]]]; try contradiction; discriminate.
  - destruct (nth_error (q_calls s) n) as [p|] eqn:E; [|eexists; split; [reflexivity|exact Hi]].
    assert (Q : (exists b0, p = QDone b0) \/ (forall b0, p <> QDone b0)).
    { destruct p; try (right; intros; discriminate). left; eauto. }
    destruct Q as [(b0 & ->)|PD]; [eexists; split; [reflexivity|exact Hi]|].
    assert (E1 : 1 <= q_extra s).
    { destruct sh as [sh|sh]; auto. exfalso. unfold quiet in sh. rewrite Forall_forall in sh.
      destruct (sh p) as (b0 & ->); [eapply nth_error_In; eauto|]. eapply PD. reflexivity. }
    pose proof (sumf_ge tmp _ _ _ tmp0 E) as GT. pose proof (sumf_ge act _ _ _ act0 E) as GA.
    assert (B0 : 0 <= b2z (q_reader s)) by (destruct (q_reader s); cbn; lia).
    pose proof (tmp0 p) as TP.
    assert (FR : q_freed s = false) by (rewrite sf; apply Z.eqb_neq; lia).
    assert (X : (match p with QDone _ => Ok s | _ => if q_freed s then UB else Ok (cstep s n p b) end) = Ok (cstep s n p b)).
    { rewrite FR. destruct p; reflexivity. }
    rewrite X. clear X. eexists. split; [reflexivity|].
    assert (CB : act p = 1 -> q_called s = true).
    { intros A. destruct (q_called s); auto. specialize (si eq_refl). lia. }
    assert (FZ : false = (q_count s =? 0)) by congruence.
    assert (F1 : false = (q_count s + 1 =? 0)) by (symmetry; apply Z.eqb_neq; lia).
    destruct p; try (pose proof (CB eq_refl) as CC); cbn [cstep]; cbn [act tmp] in GT, GA, TP.
    + destruct (q_called s) eqn:C.
      * eapply (smove s _ n QStart (QDone true) Hi E PD); qsimp; auto; cbn [act tmp]; try lia; try discriminate; congruence.
      * assert (A0 : sumf act (q_calls s) = 0) by (apply si; reflexivity).
        eapply (smove s _ n QStart QIsOk Hi E PD); qsimp; auto; cbn [act tmp]; try lia; try discriminate; congruence.
    + destruct (q_up s) eqn:U; [eapply (smove s _ n QIsOk QRefOk Hi E PD)|eapply (smove s _ n QIsOk QMaster Hi E PD)]; qsimp; auto;
        cbn [act tmp]; try lia; try discriminate; congruence.
    + rewrite sk by (eapply nth_error_In; eauto).
      eapply (smove s _ n QRefOk QRefInc Hi E PD); qsimp; auto; cbn [act tmp]; try lia; try discriminate; congruence.
    + eapply (smove s _ n QRefInc QRefRead Hi E PD); qsimp; auto; cbn [act tmp]; try lia; try discriminate; congruence.
    + replace (1 <? q_count s) with true by (symmetry; apply Z.ltb_lt; lia).
      eapply (smove s _ n QRefRead QChan Hi E PD); qsimp; auto; cbn [act tmp]; try lia; try discriminate; congruence.
    + exfalso. apply b1. eapply nth_error_In; eauto.
    + exfalso. apply b2. eapply nth_error_In; eauto.
    + destruct b; [eapply (smove s _ n QChan QShut Hi E PD)|eapply (smove s _ n QChan QChanUnref Hi E PD)]; qsimp; auto;
        cbn [act tmp]; try lia; try discriminate; congruence.
    + eapply (smove s _ n QChanUnref QUndo Hi E PD); qsimp; auto; cbn [act tmp]; try lia; try discriminate; congruence.
    + eapply (smove s _ n QUndo (QDone false) Hi E PD); qsimp; auto; cbn [act tmp]; try lia; try discriminate; congruence.
    + eapply (smove s _ n QShut QRead Hi E PD); qsimp; auto; cbn [act tmp]; try lia; try discriminate; congruence.
    + eapply (smove s _ n QRead (QUnref (q_count s)) Hi E PD); qsimp; auto; cbn [act tmp]; try lia; try discriminate; congruence.
    + destruct (r - 1 =? 0); [eapply (smove s _ n (QUnref r) (QDone true) Hi E PD)|eapply (smove s _ n (QUnref r) QRole Hi E PD)]; qsimp; auto;
        cbn [act tmp]; try lia; try discriminate; congruence.
    + rewrite sr. eapply (smove s _ n QRole (QDone true) Hi E PD); qsimp; auto; cbn [act tmp]; try lia; try discriminate; congruence.
    + exfalso. apply b4. eapply nth_error_In; eauto.
    + rewrite sr. eapply (smove s _ n QMaster QRole Hi E PD); qsimp; auto; cbn [act tmp]; try lia; try discriminate; congruence.
    + exfalso. apply b3. eapply nth_error_In; eauto.
    + exfalso. eapply PD. reflexivity.
  - congruence.
  - destruct (q_reader s) eqn:R; [|eexists; split; [reflexivity|exact Hi]]. pose proof (sumf_nonneg tmp (q_calls s) tmp0).
    assert (FR : q_freed s = false) by (rewrite sf; apply Z.eqb_neq; cbn in sc; lia).
    rewrite FR. destruct (q_up s) eqn:U; eexists; (split; [reflexivity|]); [exact Hi|].
    constructor; qsimp; auto. { cbn in sc |- *. lia. } intros I. specialize (sk I). congruence.
  - pose proof (sumf_nonneg tmp (q_calls s) tmp0).
    destruct (Z.ltb_spec 0 (q_extra s)) as [P|P]; [|eexists; split; [reflexivity|exact Hi]].
    assert (0 <= b2z (q_reader s)) by (destruct (q_reader s); cbn; lia).
    assert (FR : q_freed s = false) by (rewrite sf; apply Z.eqb_neq; lia).
    rewrite FR. eexists. split; [reflexivity|]. constructor; qsimp; auto; try lia.
    destruct (HD eq_refl) as [H2|H2]; [left; lia|right; exact H2].
Qed.
Lemma srun es : forall s, sinv s -> holding s es -> exists s', qrun s es = Ok s' /\ sinv s'.
Proof.
  induction es as [|e r IH]; intros s Hi HC. { exists s. auto. }
  destruct HC as (H1 & H2). destruct (sstep s e Hi H1) as (s1 & E & I1). cbn. rewrite E in *. cbn. apply IH; auto.
Qed.
Lemma accepted_safe e es : 0 <= e -> holding (established Accepted e) es ->
  exists s, qrun (established Accepted e) es = Ok s /\ (q_freed s = true <-> q_count s = 0) /\
  (quiet s -> q_count s = q_extra s + b2z (q_reader s)).
Proof.
  intros H HC. assert (I0 : sinv (established Accepted e)).
  { constructor; unfold established; cbn [q_role q_up q_called q_count q_freed q_reader q_extra q_calls sumf b2z]; auto; try lia;
      try (symmetry; apply Z.eqb_neq; lia); try (right; constructor); cbn; tauto. }
  destruct (srun es _ I0 HC) as (s & E & [sr sc sf si so se sh sk sb]). exists s. split; auto.
  split; [rewrite sf; apply Z.eqb_eq|]. intros Q. rewrite (quiet_zero s tmp Q (fun _ => eq_refl)) in sc. lia.
Qed.

(** * What goes wrong *)
Definition steps (n : nat) (k : nat) : list event := repeat (EStep n true) k.
Lemma careful_cons s e r s' : qstep s e = Ok s' -> careful1 s e -> careful s' r -> careful s (e :: r).
Proof. intros E H1 H2. split; auto. rewrite E. exact H2. Qed.
Lemma holding_cons s e r s' : qstep s e = Ok s' -> holding1 s e -> holding s' r -> holding s (e :: r).
Proof. intros E H1 H2. split; auto. rewrite E. exact H2. Qed.
Lemma told_closed : exists es s, careful (established Initiator 1) es /\ qrun (established Initiator 1) es = Ok s /\
  quiet s /\ q_calls s = [QDone false; QDone true] /\ q_up s = true /\ q_count s = 3.
Proof.
  exists [ECall; EStep 0 true; ECall; EStep 1 true; EStep 0 true; EStep 0 true; EStep 0 true; EStep 0 true; EStep 0 false; EStep 0 true; EStep 0 true].
  eexists. split; [|split; [vm_compute; reflexivity|]].
  - repeat (eapply careful_cons; [vm_compute; reflexivity|split; [intros _; left; vm_compute; discriminate|discriminate]|]). exact Logic.I.
  - split; [|repeat split]. repeat constructor; eexists; reflexivity.
Qed.
Lemma twice : exists es, qrun (established Initiator 0) (es ++ [ECall; EStep 1 true]) = UB /\
  exists s, qrun (established Initiator 0) es = Ok s /\ q_calls s = [QDone true] /\ q_freed s = true.
Proof.
  exists ([ECall] ++ steps 0 8 ++ [EReader] ++ steps 0 3). split; [vm_compute; reflexivity|].
  eexists. split; [vm_compute; reflexivity|]. split; reflexivity.
Qed.
Lemma not_owned : exists es, ~ In ELost es /\ ~ In EDrop es /\ qrun (established Accepted 0) es = UB.
Proof.
  exists ([ECall] ++ steps 0 8 ++ [EReader] ++ steps 0 2).
  assert (X : forall e, In e ([ECall] ++ steps 0 8 ++ [EReader] ++ steps 0 2) -> e <> ELost /\ e <> EDrop).
  { intros e H. cbn in H. repeat (destruct H as [<-|H]; [split; discriminate|]). destruct H. }
  split; [intros H; apply X in H; tauto|]. split; [intros H; apply X in H; tauto|]. vm_compute. reflexivity.
Qed.
Lemma stolen : exists s, qrun (established Accepted 1) ([ECall] ++ steps 0 2 ++ [ELost] ++ steps 0 3) = Ok s /\
  quiet s /\ q_extra s = 1 /\ q_reader s = true /\ q_count s = 1 /\ qrun s [EReader; EDrop] = UB.
Proof.
  eexists. split; [vm_compute; reflexivity|]. split; [repeat constructor; eexists; reflexivity|]. repeat split.
Qed.
Lemma master_lost : exists s, qrun (established Master 0) ([ELost; ECall] ++ steps 0 4) = Ok s /\
  q_calls s = [QDone true] /\ q_reader s = true /\ q_freed s = true /\ qrun s [EReader] = UB.
Proof. eexists. split; [vm_compute; reflexivity|]. repeat split. Qed.
Lemma unstarted : forall b, exists s, qrun not_started ([ECall; EStep 0 b; EStep 0 b; EStep 0 b; EStep 0 b]) = Ok s /\
  q_calls s = [QDone true] /\ q_freed s = true.
Proof. intros b. eexists. split; [vm_compute; reflexivity|]. split; reflexivity. Qed.
