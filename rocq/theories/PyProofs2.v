From Verif Require Import Base HdrModel HdrProofs PyModel PySpec PyProofs.

(** ** References of vortex.Connection *)

Definition b2z (b : bool) : Z := if b then 1 else 0.
Lemma filter_upd l i w w' : nth_error l i = Some w ->
  zlen (filter w_on (upd_nth l i w')) = zlen (filter w_on l) - b2z (w_on w) + b2z (w_on w').
Proof.
  revert i. induction l as [|x l IH]; intros [|i] K; cbn in K; try discriminate.
  - inversion K; subst x. cbn. destruct (w_on w), (w_on w'); unfold zlen, b2z; cbn [length]; lia.
  - cbn. specialize (IH i K). destruct (w_on x); unfold zlen in *; cbn [length]; lia.
Qed.
Lemma filter_on l i w : nth_error l i = Some w -> w_on w = true -> 1 <= zlen (filter w_on l).
Proof.
  revert i. induction l as [|x l IH]; intros [|i] K O; cbn in K; try discriminate.
  - inversion K; subst x. cbn. rewrite O. unfold zlen; cbn [length]; lia.
  - cbn. specialize (IH i K O). destruct (w_on x); unfold zlen in *; cbn [length]; lia.
Qed.
Lemma filter_nonneg l : 0 <= zlen (filter w_on l).
Proof. unfold zlen. lia. Qed.

Definition yinv s : Prop :=
  y_role s <> YMaster /\ y_freed s = (y_count s =? 0) /\ owners s <= y_count s /\
  (forall w, In w (y_ws s) -> w_alive w = false -> w_on w = false).

Lemma in_upd {A} (l : list A) i x y : In y (upd_nth l i x) -> y = x \/ In y l.
Proof.
  revert i. induction l as [|z l IH]; intros [|i]; cbn; auto.
  - intros [K|K]; auto.
  - intros [K|K]; auto. destruct (IH i K); auto.
Qed.

(** The close that lets its own reference go. *)
Definition clean s e : Prop :=
  match e with
  | YClose i _ => forall w, nth_error (y_ws s) i = Some w -> w_on w = true -> y_role s = YInit /\ y_called s = false
  | _ => True
  end.

Ltac nope := let H := fresh in intros H; discriminate H.
Ltac spl := repeat match goal with |- _ /\ _ => split end.
Ltac fin := spl; auto; try nope; try lia;
  try (let H := fresh in intros H; spl; auto; try nope; try lia; try (intros _; nope); intros; lia).

Lemma v_close_ok s chans : yinv s -> y_freed s = false -> 1 <= zlen (filter w_on (y_ws s)) ->
  exists s' b, v_close s chans = Ok (s', b) /\ y_role s' = y_role s /\ y_ws s' = y_ws s /\ y_reader s' = y_reader s /\
    y_freed s' = (y_count s' =? 0) /\
    (b = false -> y_count s' = y_count s /\ y_called s' = y_called s) /\
    (b = true -> y_called s' = true /\ y_count s - 1 <= y_count s' /\ (y_role s = YInit -> y_called s = false -> y_count s' = y_count s - 1)).
Proof.
  intros (R & F & O & A) NF ON. unfold v_close. rewrite NF.
  assert (C1 : 1 <= y_count s).
  { unfold owners in O. destruct (y_reader s); lia. }
  destruct (y_called s) eqn:CA.
  - exists s, true. fin.
  - cbn. destruct (y_up s).
    + destruct chans.
      * unfold y_unref. cbn. replace (y_count s + 1 - 1) with (y_count s) by lia.
        replace (y_count s =? 0) with false by lia. cbn.
        destruct (y_role s) eqn:RO; [| |congruence]; cbn.
        -- eexists _, true. split; [reflexivity|]. cbn. fin.
        -- eexists _, true. split; [reflexivity|]. cbn. fin.
      * unfold y_unref. cbn. replace (y_count s + 1 - 1) with (y_count s) by lia.
        eexists _, false. split; [reflexivity|]. cbn. fin.
    + destruct (y_role s) eqn:RO; [| |congruence]; cbn.
      * unfold y_unref; cbn. rewrite NF. cbn.
        eexists _, true. split; [reflexivity|]. cbn. fin.
      * eexists _, true. split; [reflexivity|]. cbn. fin.
Qed.

Lemma ystep_ok s e : yinv s -> exists s', ystep s e = Ok s' /\ yinv s' /\ y_role s' = y_role s /\
  (y_count s = owners s -> clean s e -> y_count s' = owners s').
Proof.
  intros I. pose proof I as (R & F & O & A). unfold ystep.
  assert (SAME : exists s', Ok s = Ok s' /\ yinv s' /\ y_role s' = y_role s /\ (y_count s = owners s -> clean s e -> y_count s' = owners s')).
  { exists s. repeat apply conj; auto. }
  pose proof (filter_nonneg (y_ws s)) as FN.
  assert (LIVE : forall i w, nth_error (y_ws s) i = Some w -> w_on w = true -> y_freed s = false /\ 1 <= y_count s).
  { intros i w K ON. pose proof (filter_on _ _ _ K ON). unfold owners in O. destruct (y_reader s); lia. }
  destruct e; cbn [ystep].
  - (* YWrap *)
    destruct (existsb w_on (y_ws s) || y_reader s) eqn:E; [|exact SAME].
    assert (NF : y_freed s = false).
    { apply orb_prop in E. destruct E as [E|E].
      - apply existsb_exists in E. destruct E as (w & W1 & W2). destruct (In_nth_error _ _ W1) as [i K].
        apply (LIVE i w K W2).
      - unfold owners in O. rewrite E in O. lia. }
    rewrite NF. eexists. split; [reflexivity|].
    match goal with |- yinv ?x /\ _ => assert (OW : owners x = owners s + 1) end.
    { unfold owners; cbn. rewrite filter_app. cbn. unfold zlen. rewrite app_length. cbn [length]. destruct (y_reader s); lia. }
    unfold yinv; rewrite OW; cbn. repeat apply conj; auto.
    + clear - O FN. unfold owners in O. destruct (y_reader s); lia.
    + clear - O. lia.
    + intros w W. apply in_app_or in W. destruct W as [W|[W|[]]]; auto. subst; discriminate.
    + intros; lia.
  - (* YClose *)
    destruct (nth_error (y_ws s) i) as [w|] eqn:K; [|exact SAME].
    destruct (w_alive w) eqn:WA; [|exact SAME].
    unfold y_close. destruct (w_on w) eqn:WO; [|exact SAME].
    destruct (LIVE i w K WO) as [NF C1]. rewrite NF.
    assert (M : is_master s = false) by (unfold is_master; destruct (y_role s); auto; congruence).
    rewrite M. cbn [andb].
    destruct (v_close_ok s chans I NF (filter_on _ _ _ K WO)) as (s' & b & V & V1 & V2 & V3 & V4 & V5 & V6).
    rewrite V. cbn. destruct b.
    + assert (M' : is_master s' = false) by (unfold is_master; rewrite V1; destruct (y_role s); auto; congruence).
      rewrite M'. cbn. eexists; split; [reflexivity|]. destruct (V6 eq_refl) as (V7 & V8 & V9).
      assert (OW : owners (y_with s' (upd_nth (y_ws s') i (w_off w))) = owners s - 1).
      { unfold owners; cbn. rewrite V2, V3. rewrite (filter_upd _ _ _ _ K). rewrite WO. cbn. clear. destruct (y_reader s); lia. }
      unfold yinv; rewrite OW; cbn. rewrite V1, V2, V4. repeat apply conj; auto.
      * clear - V8 O. lia.
      * intros x X. apply in_upd in X. destruct X as [->|X]; auto.
      * intros EX CL. destruct (CL w K WO) as [CL1 CL2]. rewrite (V9 CL1 CL2). clear - EX. lia.
    + eexists; split; [reflexivity|]. destruct (V5 eq_refl) as (V7 & V8).
      assert (OW : owners s' = owners s) by (unfold owners; rewrite V2, V3; auto).
      unfold yinv; rewrite OW, V1, V2, V4, V7. repeat apply conj; auto.
  - (* YShutdown *)
    destruct (nth_error (y_ws s) i) as [w|] eqn:K; [|exact SAME].
    destruct (w_alive w); [|exact SAME]. destruct (w_on w) eqn:WO; [|exact SAME].
    destruct (LIVE i w K WO) as [NF C1]. rewrite NF. eexists; split; [reflexivity|]. cbn.
    unfold yinv, owners in *; cbn. repeat apply conj; auto.
  - (* YSkip *)
    destruct (nth_error (y_ws s) i) as [w|] eqn:K; [|exact SAME].
    destruct (w_alive w) eqn:WA; [|exact SAME]. eexists; split; [reflexivity|].
    assert (OW : owners (y_with s (upd_nth (y_ws s) i (mkW true (w_on w) (w_close w) b))) = owners s).
    { unfold owners; cbn. rewrite (filter_upd _ _ _ _ K). cbn. destruct (y_reader s); lia. }
    unfold yinv; rewrite OW; cbn. repeat apply conj; auto.
    intros x X. apply in_upd in X. destruct X as [->|X]; auto. discriminate.
  - (* YCollect *)
    destruct (nth_error (y_ws s) i) as [w|] eqn:K; [|exact SAME].
    destruct (w_alive w) eqn:WA; [|exact SAME]. unfold y_collect. destruct (w_on w) eqn:WO.
    + destruct (LIVE i w K WO) as [NF C1]. rewrite NF.
      set (s1 := if y_up s && w_close w && negb (w_skip w) then y_down s else s).
      assert (S1 : y_freed s1 = false /\ y_count s1 = y_count s /\ y_ws s1 = y_ws s /\ y_reader s1 = y_reader s /\ y_role s1 = y_role s).
      { unfold s1. destruct (y_up s && w_close w && negb (w_skip w)); cbn; auto. }
      destruct S1 as (S1 & S2 & S3 & S4 & S5). unfold y_unref. rewrite S1, S2. cbn. eexists; split; [reflexivity|].
      match goal with |- yinv ?x /\ _ => assert (OW : owners x = owners s - 1) end.
      { unfold owners; cbn. rewrite S3, S4. rewrite (filter_upd _ _ _ _ K). rewrite WO. cbn. destruct (y_reader s); lia. }
      unfold yinv; rewrite OW; cbn. rewrite S3, S5. repeat apply conj; auto.
      * lia.
      * intros x X. apply in_upd in X. destruct X as [->|X]; auto.
      * intros; lia.
    + cbn. eexists; split; [reflexivity|].
      match goal with |- yinv ?x /\ _ => assert (OW : owners x = owners s) end.
      { unfold owners; cbn. rewrite (filter_upd _ _ _ _ K). rewrite WO. cbn. destruct (y_reader s); lia. }
      unfold yinv; rewrite OW; cbn. repeat apply conj; auto.
      intros x X. apply in_upd in X. destruct X as [->|X]; auto.
  - (* YLost *)
    eexists; split; [reflexivity|]. destruct (y_freed s) eqn:NF.
    + split; [exact I|]. auto.
    + unfold yinv, owners in *; cbn. rewrite NF. repeat apply conj; auto.
  - (* YReader *)
    destruct (y_reader s) eqn:RD; [|exact SAME].
    assert (NF : y_freed s = false) by (unfold owners in O; rewrite RD in O; lia).
    rewrite NF. destruct (y_up s); [exact SAME|]. unfold y_unref; cbn. eexists; split; [reflexivity|].
    match goal with |- yinv ?x /\ _ => assert (OW : owners x = owners s - 1) end.
    { unfold owners; cbn. rewrite RD. lia. }
    unfold yinv; rewrite OW; cbn. repeat apply conj; auto; intros; lia.
Qed.

Lemma yrun_app s a b : yrun s (a ++ b) = let! s := yrun s a in yrun s b.
Proof. revert s. induction a as [|e a IH]; intros s; cbn; auto. destruct (ystep s e); cbn; auto. Qed.

Definition started s := (exists ok, s = y_new ok) \/ s = y_accepted.
Lemma started_inv s : started s -> yinv s /\ y_count s = owners s.
Proof.
  intros [[ok ->]| ->]; unfold yinv, owners; cbn; [destruct ok|]; cbn; repeat apply conj; auto; try discriminate; try (unfold zlen; cbn; lia);
    intros w [<-|[]]; discriminate.
Qed.

Theorem refs_safe s0 es : started s0 -> exists s, yrun s0 es = Ok s /\ owners s <= y_count s /\ y_freed s = (y_count s =? 0).
Proof.
  intros ST. destruct (started_inv _ ST) as [I _].
  assert (K : exists s, yrun s0 es = Ok s /\ yinv s).
  { clear ST. revert s0 I. induction es as [|e es IH]; intros s0 I; cbn; eauto.
    destruct (ystep_ok s0 e I) as (s & E & I' & _). rewrite E. cbn. auto. }
  destruct K as (s & E & (_ & F & O & _)). eauto.
Qed.

Lemma close_called_step s e i : yinv s -> (forall j b, e = YClose j b -> j = i) -> y_role s = YInit ->
  (y_called s = true -> forall w, nth_error (y_ws s) i = Some w -> w_on w = false) ->
  (i < length (y_ws s))%nat ->
  forall s', ystep s e = Ok s' ->
  (y_called s' = true -> forall w, nth_error (y_ws s') i = Some w -> w_on w = false) /\ (i < length (y_ws s'))%nat.
Proof.
  intros I J RI Q LI s' E. pose proof I as (R & F & O & A). unfold ystep in E.
  assert (SAME : s = s' -> (y_called s' = true -> forall w, nth_error (y_ws s') i = Some w -> w_on w = false) /\ (i < length (y_ws s'))%nat).
  { intros <-. auto. }
  assert (UPD : forall k w w' l, nth_error l k = Some w -> (i < length l)%nat -> (w_on w = false -> w_on w' = false) ->
     (forall x, nth_error l i = Some x -> w_on x = false) -> forall x, nth_error (upd_nth l k w') i = Some x -> w_on x = false).
  { intros k w w' l K LL W Y x X. destruct (upd_case _ _ _ _ _ X) as [(-> & -> & _)|(N & X')]; [|auto]. apply W. apply (Y w K). }
  destruct e.
  - destruct (existsb w_on (y_ws s) || y_reader s); [|inversion E; auto].
    destruct (y_freed s); [discriminate|]. inversion E; subst s'; cbn. rewrite app_length. split; [|lia].
    intros C w W. rewrite nth_error_app1 in W by auto. eauto.
  - assert (i0 = i) by eauto. subst i0.
    destruct (nth_error (y_ws s) i) as [w|] eqn:K; [|inversion E; auto].
    destruct (w_alive w) eqn:WA; [|inversion E; auto]. unfold y_close in E.
    destruct (w_on w) eqn:WO; [|inversion E; auto]. destruct (y_freed s) eqn:NF; [discriminate|].
    assert (M : is_master s = false) by (unfold is_master; rewrite RI; auto).
    rewrite M in E. cbn [andb] in E.
    destruct (v_close_ok s chans I NF (filter_on _ _ _ K WO)) as (s1 & b & V & V1 & V2 & V3 & V4 & V5 & V6).
    rewrite V in E. cbn in E. destruct b.
    + assert (M' : is_master s1 = false) by (unfold is_master; rewrite V1, RI; auto).
      rewrite M' in E. cbn in E. inversion E; subst s'; cbn. rewrite V2, upd_nth_length. split; auto.
      intros _ x X. rewrite nth_upd_same in X by auto. inversion X; auto.
    + inversion E; subst s'. destruct (V5 eq_refl) as (_ & V7). rewrite V2, V7. split; auto. intros C.
      intros x X. apply Q; auto. congruence.
  - destruct (nth_error (y_ws s) i0) as [w|]; [|inversion E; auto].
    destruct (w_alive w); [|inversion E; auto]. destruct (w_on w); [|inversion E; auto].
    destruct (y_freed s); [discriminate|]. inversion E; subst s'; cbn. auto.
  - destruct (nth_error (y_ws s) i0) as [w|] eqn:K; [|inversion E; auto].
    destruct (w_alive w); [|inversion E; auto]. inversion E; subst s'; cbn. rewrite upd_nth_length. split; auto.
    intros C. eapply UPD; eauto.
  - destruct (nth_error (y_ws s) i0) as [w|] eqn:K; [|inversion E; auto].
    destruct (w_alive w); [|inversion E; auto]. unfold y_collect in E.
    assert (T : y_called s' = y_called s /\ y_ws s' = upd_nth (y_ws s) i0 (mkW false false (w_close w) (w_skip w))).
    { destruct (w_on w).
      - destruct (y_freed s) eqn:NF; [discriminate|]. unfold y_unref in E.
        destruct (y_up s && w_close w && negb (w_skip w)); cbn in E; rewrite NF in E; cbn in E; inversion E; auto.
      - cbn in E. inversion E; auto. }
    destruct T as (T1 & T2). rewrite T1, T2, upd_nth_length. split; auto. intros C. eapply UPD; eauto.
  - inversion E; subst s'. destruct (y_freed s); cbn; auto.
  - destruct (y_reader s); [|inversion E; auto]. destruct (y_freed s); [discriminate|].
    destruct (y_up s); [inversion E; auto|]. unfold y_unref in E; cbn in E. inversion E; subst s'; cbn. auto.
Qed.

Lemma released s : yinv s -> y_count s = owners s -> all_collected s -> y_freed s = true.
Proof.
  intros (_ & F & _ & A) EX [RD AL]. rewrite F, EX. unfold owners. rewrite RD.
  replace (filter w_on (y_ws s)) with (@nil wrap); auto.
  symmetry. assert (Q : forall w, In w (y_ws s) -> w_on w = false) by auto.
  clear - Q. induction (y_ws s) as [|w l IH]; cbn; auto. rewrite (Q w) by (cbn; auto). apply IH. intros x X. apply Q. cbn; auto.
Qed.

Theorem refs_initiator ok i es s : (forall j b, In (YClose j b) es -> j = i) -> (i = 0)%nat ->
  yrun (y_new ok) es = Ok s -> y_count s = owners s /\ (all_collected s -> y_freed s = true).
Proof.
  intros J I0 E.
  assert (K : forall es s0, (forall j b, In (YClose j b) es -> j = i) -> yinv s0 -> y_count s0 = owners s0 -> y_role s0 = YInit ->
     (y_called s0 = true -> forall w, nth_error (y_ws s0) i = Some w -> w_on w = false) -> (i < length (y_ws s0))%nat ->
     yrun s0 es = Ok s -> yinv s /\ y_count s = owners s).
  { clear. induction es as [|e es IH]; intros s0 J I EX RI Q LI E; cbn in E.
    - inversion E; subst; auto.
    - destruct (ystep_ok s0 e I) as (s1 & E1 & I1 & R1 & X1). rewrite E1 in E. cbn in E.
      assert (JE : forall j b, e = YClose j b -> j = i) by (intros j b ->; apply (J j b); cbn; auto).
      destruct (close_called_step s0 e i I JE RI Q LI s1 E1) as [Q1 L1].
      apply (IH s1); auto; try congruence.
      + intros j b X. apply (J j b). cbn; auto.
      + apply X1; auto. destruct e; cbn; auto. intros w W1 W2. split; auto.
        assert (i0 = i) by eauto. subst i0. destruct (y_called s0) eqn:C; auto. rewrite (Q eq_refl w W1) in W2. discriminate. }
  destruct (started_inv (y_new ok)) as [I EX]; [left; eauto|].
  destruct (K es (y_new ok)) as [I' EX']; auto; cbn.
  - discriminate.
  - subst i. cbn. lia.
  - split; auto. apply released; auto.
Qed.

Theorem refs_accepted es s : (forall j b, ~ In (YClose j b) es) -> yrun y_accepted es = Ok s ->
  y_count s = owners s /\ (all_collected s -> y_freed s = true).
Proof.
  intros J E.
  assert (K : forall es s0, (forall j b, ~ In (YClose j b) es) -> yinv s0 -> y_count s0 = owners s0 -> yrun s0 es = Ok s ->
     yinv s /\ y_count s = owners s).
  { clear. induction es as [|e es IH]; intros s0 J I EX E; cbn in E.
    - inversion E; subst; auto.
    - destruct (ystep_ok s0 e I) as (s1 & E1 & I1 & R1 & X1). rewrite E1 in E. cbn in E.
      apply (IH s1); auto.
      + intros j b X. apply (J j b). cbn; auto.
      + apply X1; auto. destruct e; cbn; auto. destruct (J i chans). cbn; auto. }
  destruct (started_inv y_accepted) as [I EX]; [right; auto|].
  destruct (K es y_accepted) as [I' EX']; auto. split; auto. apply released; auto.
Qed.
