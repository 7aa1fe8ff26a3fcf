(** Proofs about the close of connections. *)
From Verif Require Import Base HdrModel HdrProofs ConnEndModel ConnEndSpec.

Fixpoint sumf (f : pc -> Z) (l : list pc) : Z := match l with [] => 0 | p :: r => f p + sumf f r end.
Lemma sumf_app f a b : sumf f (a ++ b) = sumf f a + sumf f b.
Proof. induction a; cbn; lia. Qed.
Lemma sumf_upd f l n x p : nth_error l n = Some p -> sumf f (upd_nth l n x) = sumf f l - f p + f x.
Proof. revert n. induction l; intros [|n] H; try discriminate; cbn in *. { injection H as ->. lia. } rewrite (IHl n H). lia. Qed.
Lemma sumf_ge f l n p : (forall q, 0 <= f q) -> nth_error l n = Some p -> f p <= sumf f l.
Proof.
  intros F. assert (P : forall l, 0 <= sumf f l) by (induction l0; cbn; [lia|specialize (F a); lia]).
  revert n. induction l; intros [|n] H; try discriminate; cbn in *. { injection H as ->. specialize (P l). lia. }
  specialize (IHl n H). specialize (F a). lia.
Qed.
Lemma sumf_nonneg f l : (forall q, 0 <= f q) -> 0 <= sumf f l.
Proof. intros F. induction l; cbn; [lia|]. specialize (F a). lia. Qed.
Lemma sumf_le f g l : (forall q, f q <= g q) -> sumf f l <= sumf g l.
Proof. intros F. induction l; cbn; [lia|]. specialize (F a). lia. Qed.
Lemma sumf_zero f l : Forall (fun p => f p = 0) l -> sumf f l = 0.
Proof. induction 1; cbn; lia. Qed.
Lemma upd_in {A} (l : list A) n x y p : nth_error l n = Some p -> In y (upd_nth l n x) -> y = x \/ In y l.
Proof. revert n. induction l; intros [|n] H I; try discriminate; cbn in *; destruct I as [->|I]; auto. destruct (IHl n H I); auto. Qed.
Lemma upd_in_new {A} (l : list A) n x p : nth_error l n = Some p -> In x (upd_nth l n x).
Proof. revert n. induction l; intros [|n] H; try discriminate; cbn in *; auto. Qed.
Lemma upd_in_old {A} (l : list A) n x y p : nth_error l n = Some p -> y <> p -> In y l -> In y (upd_nth l n x).
Proof.
  revert n. induction l; intros [|n] H D I; try discriminate; cbn in *.
  - injection H as ->. destruct I as [->|I]; [congruence|auto].
  - destruct I as [->|I]; auto.
Qed.

(** Inside the close; with the reference it took; not begun. *)
Definition act (p : pc) : Z := match p with QStart | QDone _ => 0 | _ => 1 end.
Definition tmp (p : pc) : Z :=
  match p with QRefRead | QChan | QChanUnref | QShut | QRead | QUnref _ => 1 | _ => 0 end.
Definition beg (p : pc) : Z := match p with QStart => 1 | _ => 0 end.
Lemma act0 q : 0 <= act q. Proof. destruct q; cbn; lia. Qed.
Lemma tmp0 q : 0 <= tmp q. Proof. destruct q; cbn; lia. Qed.
Lemma beg0 q : 0 <= beg q. Proof. destruct q; cbn; lia. Qed.
Lemma tmp_act q : tmp q <= act q. Proof. destruct q; cbn; lia. Qed.
Lemma act01 q : act q = 0 \/ act q = 1. Proof. destruct q; auto. Qed.
Lemma beg01 q : beg q = 0 \/ beg q = 1. Proof. destruct q; auto. Qed.
Record inv (s : cn) : Prop := {
  i_role : q_role s = Initiator;
  i_count : q_count s = q_extra s + (if q_called s then sumf act (q_calls s) else 1) + b2z (q_reader s) + sumf tmp (q_calls s);
  i_freed : q_freed s = (q_count s =? 0);
  i_idle : q_called s = false -> sumf act (q_calls s) = 0;
  i_one : sumf act (q_calls s) <= 1;
  i_extra : 0 <= q_extra s;
  i_begin : 1 <= q_extra s \/ (sumf beg (q_calls s) = 0 \/ (sumf beg (q_calls s) = 1 /\ q_called s = false));
  i_read : forall r, In (QUnref r) (q_calls s) -> 2 <= r;
  i_done : q_called s = true -> sumf act (q_calls s) = 0 -> In (QDone true) (q_calls s);
  i_nm : ~ In QMasterUnref (q_calls s)
}.

Ltac qsimp := cbn [q_role q_up q_called q_count q_freed q_reader q_extra q_calls q_go q_setup q_setcalled q_setref q_setowners q_add q_unref].
Ltac qsimp_in H := cbn [q_role q_up q_called q_count q_freed q_reader q_extra q_calls q_go q_setup q_setcalled q_setref q_setowners q_add q_unref] in H.

Lemma inv_established e : 0 <= e -> inv (established Initiator e).
Proof.
  intros H. constructor; unfold established; cbn [q_role q_up q_called q_count q_freed q_reader q_extra q_calls sumf b2z]; auto; try lia.
  all: try (symmetry; apply Z.eqb_neq; lia).
  all: cbn; intros; try contradiction; try discriminate; auto.
Qed.
(** One call moves, with the count and the flag given. *)
Lemma inv_move s t n p x :
  inv s -> nth_error (q_calls s) n = Some p ->
  q_role t = q_role s -> q_freed t = (q_count t =? 0) -> q_reader t = q_reader s -> q_extra t = q_extra s ->
  q_calls t = upd_nth (q_calls s) n x ->
  q_count t - q_count s = (if q_called t then sumf act (q_calls s) - act p + act x else 1) -
                          (if q_called s then sumf act (q_calls s) else 1) + (tmp x - tmp p) ->
  (q_called t = false -> sumf act (q_calls s) - act p + act x = 0) ->
  sumf act (q_calls s) - act p + act x <= 1 ->
  beg x = 0 -> (beg p = 0 \/ True) -> (q_called t = true \/ beg p = 0) -> (q_called s = q_called t \/ beg p = 1 \/ q_called t = false) ->
  (forall r, x = QUnref r -> 2 <= r) ->
  (q_called t = true -> sumf act (q_calls s) - act p + act x = 0 -> x = QDone true \/ q_called s = true) ->
  (act p = 1 -> act x = 0 -> x = QDone true \/ q_called t = false) ->
  (forall b, p <> QDone b) -> x <> QMasterUnref ->
  inv t.
Proof.
  intros [ir ic ifr ii io ie ib ird idn inm] E R F RD EX CL CO ID ON BX _ CB1 CB2 RR DN DN2 PD XM.
  pose proof (sumf_upd act _ _ x _ E) as UA. pose proof (sumf_upd tmp _ _ x _ E) as UT.
  pose proof (sumf_upd beg _ _ x _ E) as UB0. pose proof (sumf_ge beg _ _ _ beg0 E) as GB.
  constructor.
  - congruence.
  - rewrite CL, UA, UT, EX, RD. destruct (q_called t); lia.
  - exact F.
  - rewrite CL, UA. exact ID.
  - rewrite CL, UA. lia.
  - lia.
  - rewrite CL, EX, UB0, BX. destruct ib as [ib|[ib|[ib ib2]]]; auto.
    + right. left. pose proof (beg0 p). lia.
    + right. destruct (Z.eq_dec (beg p) 1) as [B1|B1]; [left; lia|].
      assert (B0 : beg p = 0) by (destruct (beg01 p); [auto|contradiction]). right. split; [lia|].
      destruct CB2 as [Q|[Q|Q]]; [congruence|lia|exact Q].
  - intros r I. rewrite CL in I. destruct (upd_in _ _ _ _ _ E I) as [Q|Q]; auto.
  - rewrite CL, UA. intros CT AZ. destruct (DN CT AZ) as [->|CS]; [eapply upd_in_new; eauto|].
    destruct (Z.eq_dec (act p) 1) as [A1|A1].
    + destruct (DN2 A1) as [->|Q]; [|eapply upd_in_new; eauto|congruence].
      pose proof (act0 x). pose proof (sumf_ge act _ _ _ act0 E). lia.
    + assert (act p = 0) by (destruct (act01 p); [auto|contradiction]). pose proof (act0 x).
      pose proof (sumf_nonneg act (q_calls s) act0).
      assert (Z0 : sumf act (q_calls s) = 0) by lia.
      eapply upd_in_old; eauto.
  - intros I. rewrite CL in I. destruct (upd_in _ _ _ _ _ E I) as [Q|Q]; [congruence|exact (inm Q)].
Qed.
Lemma count_active s n p : inv s -> nth_error (q_calls s) n = Some p -> (forall b, p <> QDone b) ->
  1 + tmp p <= q_count s /\ (act p = 1 -> q_called s = true /\ sumf act (q_calls s) = 1).
Proof.
  intros [ir ic ifr ii io ie ib ird idn inm] E PD.
  pose proof (sumf_ge act _ _ _ act0 E). pose proof (sumf_ge tmp _ _ _ tmp0 E). pose proof (sumf_ge beg _ _ _ beg0 E).
  pose proof (sumf_nonneg act (q_calls s) act0). pose proof (sumf_nonneg tmp (q_calls s) tmp0).
  assert (0 <= b2z (q_reader s)) by (destruct (q_reader s); cbn; lia).
  assert (A : act p = 1 -> q_called s = true /\ sumf act (q_calls s) = 1).
  { intros A. split; [destruct (q_called s); auto; specialize (ii eq_refl); lia|lia]. }
  split; auto. destruct (Z.eq_dec (act p) 1) as [A1|A1].
  - destruct (A A1) as (C & AA). rewrite C, AA in ic. lia.
  - assert (p = QStart) by (destruct p; cbn in A1; try lia; auto; exfalso; eapply PD; reflexivity). subst p. cbn in *.
    destruct (q_called s); [|lia]. destruct ib as [ib|[ib|[ib ib2]]]; try lia; try discriminate.
Qed.

Lemma step_inv s e : inv s -> careful1 s e -> exists s', qstep s e = Ok s' /\ inv s'.
Proof.
  intros Hi (HC & HD). pose proof Hi as [ir ic ifr ii io ie ib ird idn inm]. destruct e as [|n b| | |]; cbn [qstep].
  - eexists. split; [reflexivity|]. constructor; qsimp; rewrite ?sumf_app; cbn [sumf act tmp beg].
    + exact ir.
    + rewrite ic. destruct (q_called s); lia.
    + exact ifr.
    + intros H. rewrite ii; auto.
    + lia.
    + exact ie.
    + destruct (HC eq_refl) as [H|H]; [left; exact H|right; right].
      assert (B : sumf beg (q_calls s) = 0) by (apply sumf_zero; eapply Forall_impl; [|exact H]; intros a ->; reflexivity).
      assert (A : sumf act (q_calls s) = 0) by (apply sumf_zero; eapply Forall_impl; [|exact H]; intros a ->; reflexivity).
      split; [lia|]. destruct (q_called s); auto. specialize (idn eq_refl A). rewrite Forall_forall in H.
      specialize (H _ idn). discriminate.
    + intros r I. apply in_app_or in I. destruct I as [I|[I|[]]]; [auto|discriminate].
    + intros C A. apply in_or_app. left. apply idn; auto. lia.
    + intros I. apply in_app_or in I. destruct I as [I|[I|[]]]; [auto|discriminate].
  - destruct (nth_error (q_calls s) n) as [p|] eqn:E; [|eexists; split; [reflexivity|exact Hi]].
    assert (Q : (exists b0, p = QDone b0) \/ (forall b0, p <> QDone b0)).
    { destruct p; try (right; intros; discriminate). left; eauto. }
    destruct Q as [(b0 & ->)|PD]; [eexists; split; [reflexivity|exact Hi]|].
    destruct (count_active s n p Hi E PD) as (CA & CB).
    assert (FR : q_freed s = false) by (rewrite ifr; apply Z.eqb_neq; pose proof (tmp0 p); lia).
    assert (X : (match p with QDone _ => Ok s | _ => if q_freed s then UB else Ok (cstep s n p b) end) = Ok (cstep s n p b)).
    { rewrite FR. destruct p; reflexivity. }
    rewrite X. clear X. eexists. split; [reflexivity|].
    assert (FZ : false = (q_count s =? 0)) by congruence.
    destruct p; try (destruct (CB eq_refl) as (CC & AA)); cbn [cstep]; cbn [tmp] in CA.
    + destruct (q_called s) eqn:C.
      * eapply (inv_move s _ n QStart (QDone true) Hi E); qsimp; auto; try rewrite C; cbn [act tmp beg]; try lia; try discriminate; auto.
      * assert (A0 : sumf act (q_calls s) = 0) by (apply ii; reflexivity).
        eapply (inv_move s _ n QStart QIsOk Hi E); qsimp; auto; try rewrite C; try rewrite A0; cbn [act tmp beg]; try lia; try discriminate; auto.
    + destruct (q_up s); [eapply (inv_move s _ n QIsOk QRefOk Hi E)|eapply (inv_move s _ n QIsOk QMaster Hi E)]; qsimp; auto;
        try rewrite CC; try rewrite AA; cbn [act tmp beg]; try lia; try discriminate; auto.
    + destruct (q_up s); [eapply (inv_move s _ n QRefOk QRefInc Hi E)|eapply (inv_move s _ n QRefOk QFailShut Hi E)]; qsimp; auto;
        try rewrite CC; try rewrite AA; cbn [act tmp beg]; try lia; try discriminate; auto.
    + eapply (inv_move s _ n QRefInc QRefRead Hi E); qsimp; auto; try rewrite CC; try rewrite AA; cbn [act tmp beg]; try lia; try discriminate; auto.
    + replace (1 <? q_count s) with true by (symmetry; apply Z.ltb_lt; cbn in CA; lia).
      eapply (inv_move s _ n QRefRead QChan Hi E); qsimp; auto; try rewrite CC; try rewrite AA; cbn [act tmp beg]; try lia; try discriminate; auto.
    + eapply (inv_move s _ n QFailShut QFailUnref Hi E); qsimp; auto; try rewrite CC; try rewrite AA; cbn [act tmp beg]; try lia; try discriminate; auto.
    + eapply (inv_move s _ n QFailUnref (QDone true) Hi E); qsimp; auto; try rewrite CC; try rewrite AA; cbn [act tmp beg]; try lia; try discriminate; auto.
    + destruct b; [eapply (inv_move s _ n QChan QShut Hi E)|eapply (inv_move s _ n QChan QChanUnref Hi E)]; qsimp; auto;
        try rewrite CC; try rewrite AA; cbn [act tmp beg]; try lia; try discriminate; auto.
    + eapply (inv_move s _ n QChanUnref QUndo Hi E); qsimp; auto; try rewrite CC; try rewrite AA; cbn [act tmp beg]; try lia; try discriminate; auto.
    + eapply (inv_move s _ n QUndo (QDone false) Hi E); qsimp; auto; try rewrite CC; try rewrite AA; cbn [act tmp beg]; try lia; try discriminate; auto.
    + eapply (inv_move s _ n QShut QRead Hi E); qsimp; auto; try rewrite CC; try rewrite AA; cbn [act tmp beg]; try lia; try discriminate; auto.
    + eapply (inv_move s _ n QRead (QUnref (q_count s)) Hi E); qsimp; auto; try rewrite CC; try rewrite AA; cbn [act tmp beg]; try lia; try discriminate; auto.
      intros r H. injection H as <-. cbn in CA. lia.
    + assert (2 <= r) by (apply ird; eapply nth_error_In; eauto).
      replace (r - 1 =? 0) with false by (symmetry; apply Z.eqb_neq; lia).
      eapply (inv_move s _ n (QUnref r) QRole Hi E); qsimp; auto; try rewrite CC; try rewrite AA; cbn [act tmp beg]; try lia; try discriminate; auto.
    + rewrite ir. eapply (inv_move s _ n QRole QOwn Hi E); qsimp; auto; try rewrite CC; try rewrite AA; cbn [act tmp beg]; try lia; try discriminate; auto.
    + eapply (inv_move s _ n QOwn (QDone true) Hi E); qsimp; auto; try rewrite CC; try rewrite AA; cbn [act tmp beg]; try lia; try discriminate; auto.
    + rewrite ir. eapply (inv_move s _ n QMaster QRole Hi E); qsimp; auto; try rewrite CC; try rewrite AA; cbn [act tmp beg]; try lia; try discriminate; auto.
    + exfalso. apply inm. eapply nth_error_In; eauto.
    + exfalso. eapply PD. reflexivity.
  - eexists. split; [reflexivity|]. constructor; qsimp; auto.
  - pose proof (sumf_nonneg act (q_calls s) act0). pose proof (sumf_nonneg tmp (q_calls s) tmp0).
    destruct (q_reader s) eqn:R; [|eexists; split; [reflexivity|exact Hi]].
    assert (FR : q_freed s = false).
    { rewrite ifr. apply Z.eqb_neq. cbn in ic. destruct (q_called s); lia. }
    rewrite FR. destruct (q_up s) eqn:U; eexists; (split; [reflexivity|]); [exact Hi|].
    constructor; qsimp; auto. cbn in ic |- *. lia.
  - pose proof (sumf_nonneg act (q_calls s) act0). pose proof (sumf_nonneg tmp (q_calls s) tmp0).
    destruct (Z.ltb_spec 0 (q_extra s)) as [P|P]; [|eexists; split; [reflexivity|exact Hi]].
    assert (0 <= b2z (q_reader s)) by (destruct (q_reader s); cbn; lia).
    assert (FR : q_freed s = false). { rewrite ifr. apply Z.eqb_neq. destruct (q_called s); lia. }
    rewrite FR. eexists. split; [reflexivity|]. constructor; qsimp; auto; try lia.
    destruct (HD eq_refl) as [H2|H2]; [left; lia|]. right. left. apply sumf_zero.
    eapply Forall_impl; [|exact H2]. intros a (b & ->). reflexivity.
Qed.
Lemma run_inv es : forall s, inv s -> careful s es -> exists s', qrun s es = Ok s' /\ inv s'.
Proof.
  induction es as [|e r IH]; intros s Hi HC. { exists s. auto. }
  destruct HC as (H1 & H2). destruct (step_inv s e Hi H1) as (s1 & E & I1). cbn. rewrite E in *. cbn. apply IH; auto.
Qed.
