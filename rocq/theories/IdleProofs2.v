(** The handler configured at the beginning, and what happens when it is taken away. *)
From Verif Require Import Base HdrModel HdrProofs IdleModel IdleSpec IdleProofs.

Arguments times : simpl never.
Record G (h p d d2 : Z) (s : ist) : Prop := mkG {
  g_hand : i_hand s = Some h; g_period : i_period s = p; g_data : i_data s = d; g_data2 : i_data2 s = d2;
  g_set : i_set s = []; g_pool : i_pool s = true;
  g_act : cf act (i_tasks s) = b2z (i_flag s);
  g_refs : i_refs s = holders s;
  g_task : forall h', In (TCall h') (i_tasks s) -> h' = h;
  g_said : forall o, In o (i_log s) -> said h p d d2 o
}.
Lemma in_drop : forall {A} (l : list A) k x, In x (drop_nth l k) -> In x l.
Proof. induction l as [|a l IH]; intros [|k] x H; cbn in *; auto. destruct H as [H|H]; [auto|right; eapply IH; eauto]. Qed.
Lemma in_upd : forall {A} (l : list A) k x y, In x (upd_nth l k y) -> x = y \/ In x l.
Proof. induction l as [|a l IH]; intros [|k] x y H; cbn in *; auto; destruct H as [H|H]; auto. destruct (IH _ _ _ H); auto. Qed.
Lemma said_app : forall h p d d2 l o, (forall x, In x l -> said h p d d2 x) -> said h p d d2 o -> forall x, In x (l ++ [o]) -> said h p d d2 x.
Proof. intros h p d d2 l o H K x I. apply in_app_or in I. destruct I as [I|[<-|[]]]; auto. Qed.

Lemma g_stamp : forall h p d d2 s rx tx, G h p d d2 s -> G h p d d2 (stamp s rx tx).
Proof. intros h p d d2 s rx tx []. split; auto. apply said_app; cbn; auto. Qed.
Lemma g_reader : forall h p d d2 s r, G h p d d2 s -> i_reader s <> RGone -> r <> RGone -> G h p d d2 (put_reader s r).
Proof. intros h p d d2 s r [] A B. split; auto. cbn [i_refs put_reader]. rewrite g_refs0. unfold holders. cbn. destruct (i_reader s); [congruence|..]; destruct r; congruence. Qed.
Lemma g_unref : forall h p d d2 s, i_hand s = Some h -> i_period s = p -> i_data s = d -> i_data2 s = d2 -> i_set s = [] -> i_pool s = true -> cf act (i_tasks s) = b2z (i_flag s) ->
  i_refs s - 1 = holders s -> (forall h', In (TCall h') (i_tasks s) -> h' = h) -> (forall o, In o (i_log s) -> said h p d d2 o) -> forall s', unref s = Ok s' -> G h p d d2 s'.
Proof.
  intros h p d d2 s A1 A2 A3 A4 A5 A6 A7 A8 A9 A10 s' H. unfold unref in H. destruct (i_refs s <=? 0); [discriminate|]. injection H as <-. cbn [i_refs put_refs]. destruct (i_refs s - 1 =? 0); (split; auto). apply said_app; cbn; auto.
Qed.
Lemma g_step : forall h p d d2 m s e s', (forall h p d d2, e <> ISet h p d d2) -> e <> IPoolEnd -> J s -> G h p d d2 s -> istep m s e = Ok s' -> G h p d d2 s'.
Proof.
  intros h p d d2 m s e s' NS NP I X H. destruct e; cbn [istep] in H.
  - injection H as <-. destruct X. split; auto.
  - injection H as <-. destruct (0 <? i_refs s); [apply g_stamp|]; exact X.
  - destruct (NS h0 p0 d0 d1 eq_refl).
  - injection H as <-. rewrite (g_set _ _ _ _ _ X). exact X.
  - injection H as <-. destruct (i_reader s) eqn:E; try exact X. apply g_reader; [exact X|congruence|discriminate].
  - destruct (i_reader s) eqn:E; try (injection H as <-; exact X). destruct (i_refs s <=? 0); [discriminate|]. injection H as <-. unfold check. rewrite (g_hand _ _ _ _ _ X).
    destruct m; [apply g_reader; auto; congruence|]. destruct (i_stamp s =? 0); [apply g_reader; [apply g_stamp; exact X|cbn; congruence|discriminate]|].
    destruct (i_period s <? ts - i_stamp s); [|apply g_reader; auto; congruence]. apply g_reader; [|cbn; congruence|discriminate]. destruct X. split; auto. apply said_app; cbn; auto.
  - destruct (i_reader s) eqn:E; try (injection H as <-; exact X). destruct (i_refs s <=? 0); [discriminate|]. injection H as <-. unfold notify. cbn [i_hand i_flag i_pool put_reader i_refs]. rewrite (g_hand _ _ _ _ _ X).
    destruct (i_flag s) eqn:F; [apply g_reader; auto; congruence|]. cbn [i_pool put_refs put_flag put_reader]. rewrite (g_pool _ _ _ _ _ X). destruct X as [X1 X2 X3 X4 X5 X6 X7 X8 X9 X10]. split; auto; cbn [i_tasks i_flag i_refs put_tasks put_refs put_flag put_reader i_log].
    + rewrite cf_app, X7, F. reflexivity.
    + rewrite X8. unfold holders. rewrite E. cbn [i_reader i_user i_tasks put_tasks put_refs put_flag put_reader]. unfold zlen. rewrite app_length. cbn [length]. lia.
    + intros h' Q. apply in_app_or in Q. destruct Q as [Q|[Q|[]]]; [auto|discriminate].
  - destruct (i_reader s) eqn:E; try (injection H as <-; exact X). destruct X as [X1 X2 X3 X4 X5 X6 X7 X8 X9 X10]. eapply g_unref; [..|exact H]; auto. cbn [i_refs put_reader]. rewrite X8. unfold holders. rewrite E. cbn [i_reader i_user i_tasks put_reader]. lia.
  - destruct (i_user s) eqn:E; [|injection H as <-; exact X]. destruct X as [X1 X2 X3 X4 X5 X6 X7 X8 X9 X10]. eapply g_unref; [..|exact H]; auto. cbn [i_refs put_user]. rewrite X8. unfold holders. rewrite E. cbn [i_reader i_user i_tasks put_user]. lia.
  - congruence.
  - destruct (nth_error (i_tasks s) k) as [t|] eqn:N; [|injection H as <-; exact X]. unfold work in H. destruct (i_refs s <=? 0); [discriminate|]. destruct X as [X1 X2 X3 X4 X5 X6 X7 X8 X9 X10].
    assert (HU : forall u, zlen (upd_nth (i_tasks s) k u) = zlen (i_tasks s)) by (intros; unfold zlen; rewrite upd_nth_length; reflexivity).
    assert (HD : zlen (drop_nth (i_tasks s) k) = zlen (i_tasks s) - 1) by (rewrite <- !cf_one; rewrite (cf_drop _ _ _ _ N); reflexivity).
    assert (FA : act t = 1 -> i_flag s = true). { intros A. pose proof (cf_in act _ _ _ act0 N). destruct (i_flag s); [reflexivity|]. cbn in X7. lia. }
    destruct t.
    + rewrite X1 in H. injection H as <-. split; auto; cbn [i_tasks i_flag i_refs put_tasks i_log]; [rewrite (cf_upd _ _ _ _ _ N); cbn; lia|rewrite X8; unfold holders; cbn; rewrite HU; reflexivity|].
      intros h' Q. apply in_upd in Q. destruct Q as [Q|Q]; [congruence|auto].
    + injection H as <-. split; auto; cbn [i_tasks i_flag i_refs put_tasks i_log see]; [rewrite (cf_upd _ _ _ _ _ N); cbn; lia|rewrite X8; unfold holders; cbn; rewrite HU; reflexivity| |].
      * intros h' Q. apply in_upd in Q. destruct Q as [Q|Q]; [congruence|auto].
      * apply said_app; auto. cbn. apply nth_error_In in N. auto.
    + injection H as <-. apply g_stamp. split; auto; cbn [i_tasks i_flag i_refs put_tasks i_log see]; [rewrite (cf_upd _ _ _ _ _ N); cbn; lia|rewrite X8; unfold holders; cbn; rewrite HU; reflexivity| |].
      * intros h' Q. apply in_upd in Q. destruct Q as [Q|Q]; [congruence|auto].
      * apply said_app; cbn; auto.
    + injection H as <-. split; auto; cbn [i_tasks i_flag i_refs put_tasks put_flag i_log]; [rewrite (cf_upd _ _ _ _ _ N), X7, (FA eq_refl); reflexivity|rewrite X8; unfold holders; cbn; rewrite HU; reflexivity|].
      intros h' Q. apply in_upd in Q. destruct Q as [Q|Q]; [congruence|auto].
    + eapply g_unref; [..|exact H]; auto; cbn [i_tasks i_flag i_refs put_tasks].
      * rewrite (cf_drop _ _ _ _ N). cbn. lia.
      * rewrite X8. unfold holders. cbn [i_reader i_user i_tasks put_tasks]. rewrite HD. lia.
      * intros h' Q. apply in_drop in Q. auto.
Qed.
Lemma g_run : forall h p d d2 m es s s', no_set es -> pool_open es -> J s -> G h p d d2 s -> irun m s es = Ok s' -> J s' /\ G h p d d2 s'.
Proof.
  intros h p d d2 m. induction es as [|e es IH]; intros s s' NS NP I X R; cbn in R; [injection R as <-; auto|].
  destruct (j_step m s e I) as (s1 & E & I1). rewrite E in R. cbn in R. apply (IH s1); auto.
  - intros a b c f Q. apply (NS a b c f). right. exact Q.
  - intros Q. apply NP. right. exact Q.
  - apply (g_step h p d d2 m s e s1); [intros a b c f Q; apply (NS a b c f); left; exact Q|intros Q; apply NP; left; exact Q|exact I|exact X|exact E].
Qed.
Lemma irun_app : forall m a b s, irun m s (a ++ b) = obind (irun m s a) (fun s' => irun m s' b).
Proof. induction a as [|e a IH]; intros b s; [reflexivity|]. cbn. destruct (istep m s e); cbn; [apply IH|reflexivity]. Qed.
Definition i1 (now h p d d2 : Z) : ist := mkI now (Some h) p d d2 [] 0 0 0 false 2 true true RWait [] [].
Lemma i1_run : forall m now h p d d2, irun m (i0 now) (configured h p d d2) = Ok (i1 now h p d d2).
Proof. reflexivity. Qed.
Lemma i1_g : forall now h p d d2, G h p d d2 (i1 now h p d d2).
Proof. intros. split; try reflexivity; intros o []. Qed.
Lemma g_start : forall m now h p d d2 es, no_set es -> pool_open es -> exists s, irun m (i0 now) (configured h p d d2 ++ es) = Ok s /\ J s /\ G h p d d2 s.
Proof.
  intros m now h p d d2 es NS NP. rewrite irun_app, i1_run. cbn [obind].
  assert (I : J (i1 now h p d d2)). { destruct (j_run m (configured h p d d2) (i0 now) (j_i0 now)) as (s1 & E & I). rewrite i1_run in E. injection E as E. rewrite E. exact I. }
  destruct (j_run m es _ I) as (s & R & Js). exists s. split; [exact R|]. exact (g_run h p d d2 m es _ s NS NP I (i1_g now h p d d2) R).
Qed.
(** The handler, its data and the period are the ones configured; the references
    are the ones of the reader, the user and the tasks. *)
Theorem as_configured : forall m now h p d d2 es, no_set es -> pool_open es ->
  exists s, irun m (i0 now) (configured h p d d2 ++ es) = Ok s /\ (forall o, In o (i_log s) -> said h p d d2 o) /\ i_refs s = holders s /\ (i_flag s = true <-> exists t, In t (i_tasks s) /\ t <> TUnref).
Proof.
  intros m now h p d d2 es NS NP. destruct (g_start m now h p d d2 es NS NP) as (s & R & I & X). exists s. split; [exact R|]. split; [apply (g_said _ _ _ _ _ X)|]. split; [apply (g_refs _ _ _ _ _ X)|].
  pose proof (g_act _ _ _ _ _ X) as A. split.
  - intros F. rewrite F in A. cbn in A. clear - A. induction (i_tasks s) as [|t l IH]; cbn in A; [lia|]. destruct t; try (eexists; split; [left; reflexivity|discriminate]). cbn in A. destruct (IH A) as (u & U & V). exists u. split; [right; exact U|exact V].
  - intros (t & T & V). apply In_nth_error in T. destruct T as [k T]. pose proof (cf_in act _ _ _ act0 T) as B. destruct (i_flag s); [reflexivity|]. cbn in A. destruct t; cbn in B; try lia. congruence.
Qed.
(** A connection without activity for longer than the period is notified by the next pass. *)
Lemma n_pass : forall m s h, i_reader s = RWait -> i_hand s = Some h -> istep m s IPass = Ok (put_reader s (RPass (i_now s))).
Proof. intros m s h A B. cbn [istep]. rewrite A, B. reflexivity. Qed.
Lemma n_check : forall s h ts, i_reader s = RPass ts -> i_hand s = Some h -> 1 <= i_refs s -> i_stamp s <> 0 -> i_period s < ts - i_stamp s ->
  istep false s ICheck = Ok (put_reader (see s (OIdle ts (i_period s))) RNote).
Proof.
  intros s h ts A B C D E. cbn [istep]. rewrite A. replace (i_refs s <=? 0) with false by (symmetry; apply Z.leb_gt; lia). unfold check. rewrite B.
  replace (i_stamp s =? 0) with false by (symmetry; apply Z.eqb_neq; exact D). replace (i_period s <? ts - i_stamp s) with true by (symmetry; apply Z.ltb_lt; exact E). reflexivity.
Qed.
Lemma n_note : forall m s h, i_reader s = RNote -> i_hand s = Some h -> 1 <= i_refs s -> i_flag s = false -> i_pool s = true -> i_tasks s = [] ->
  exists s', istep m s INote = Ok s' /\ i_hand s' = Some h /\ i_refs s' = i_refs s + 1 /\ i_tasks s' = [TNew] /\ i_log s' = i_log s /\ i_data s' = i_data s /\ i_data2 s' = i_data2 s.
Proof.
  intros m s h A B C D E F. cbn [istep]. rewrite A. replace (i_refs s <=? 0) with false by (symmetry; apply Z.leb_gt; lia). eexists. split; [reflexivity|].
  unfold notify. cbn [i_hand i_flag put_reader]. rewrite B, D. cbn [i_pool put_refs put_flag put_reader]. rewrite E. cbn [i_hand i_refs i_tasks i_log i_data i_data2 put_tasks put_refs put_flag put_reader]. rewrite F. auto 10.
Qed.
Lemma n_new : forall m s h, i_hand s = Some h -> 1 <= i_refs s -> i_tasks s = [TNew] -> istep m s (ITask 0) = Ok (put_tasks s [TCall h]).
Proof. intros m s h A B C. cbn [istep]. rewrite C. cbn [nth_error]. unfold work. replace (i_refs s <=? 0) with false by (symmetry; apply Z.leb_gt; lia). rewrite A, C. reflexivity. Qed.
Lemma n_call : forall m s h, 1 <= i_refs s -> i_tasks s = [TCall h] -> istep m s (ITask 0) = Ok (see (put_tasks s [TIn]) (OCall h (i_data s) (i_data2 s))).
Proof. intros m s h B C. cbn [istep]. rewrite C. cbn [nth_error]. unfold work. replace (i_refs s <=? 0) with false by (symmetry; apply Z.leb_gt; lia). rewrite C. reflexivity. Qed.
Theorem notified : forall now h p d d2 es s, no_set es -> pool_open es -> irun false (i0 now) (configured h p d d2 ++ es) = Ok s ->
  i_reader s = RWait -> i_tasks s = [] -> i_stamp s <> 0 -> p < i_now s - i_stamp s ->
  exists s', irun false s [IPass; ICheck; INote; ITask 0; ITask 0] = Ok s' /\ i_log s' = i_log s ++ [OIdle (i_now s) p; OCall h d d2].
Proof.
  intros now h p d d2 es s NS NP R E T Z P. destruct (g_start false now h p d d2 es NS NP) as (s1 & R1 & I & [X1 X2 X3 X4 X5 X6 X7 X8 X9 X10]). rewrite R in R1. injection R1 as <-.
  assert (F : i_flag s = false) by (rewrite T in X7; destruct (i_flag s); [discriminate|reflexivity]).
  assert (RR : 1 <= i_refs s) by (rewrite X8; unfold holders, zlen; rewrite E; destruct (i_user s); lia).
  cbn [irun]. rewrite (n_pass _ _ h E X1). cbn [obind].
  rewrite (n_check (put_reader s (RPass (i_now s))) h (i_now s) eq_refl X1 RR Z) by (cbn [i_period i_stamp put_reader]; lia). cbn [obind].
  destruct (n_note false (put_reader (see (put_reader s (RPass (i_now s))) (OIdle (i_now s) (i_period (put_reader s (RPass (i_now s)))))) RNote) h eq_refl X1 RR F X6 T) as (s2 & E2 & A1 & A2 & A3 & A4 & A5 & A6). rewrite E2. cbn [obind].
  cbn [i_refs i_log i_data i_data2 put_reader see i_period] in A2, A4, A5, A6. assert (R2 : 1 <= i_refs s2) by lia.
  rewrite (n_new _ _ _ A1 R2 A3). cbn [obind]. rewrite (n_call false (put_tasks s2 [TCall h]) h R2 eq_refl). cbn [obind]. eexists. split; [reflexivity|].
  cbn [i_log see put_tasks i_data i_data2]. rewrite A4, A5, A6, X2, X3, X4, <- app_assoc. reflexivity.
Qed.

(** * When the handler is taken away *)
Record W (s : ist) : Prop := mkW { w_flag : i_flag s = true; w_tasks : i_tasks s = []; w_refs : 1 + holders s <= i_refs s }.
Lemma w_step : forall m s e, W s -> exists s', istep m s e = Ok s' /\ W s' /\ times is_call (i_log s') = times is_call (i_log s).
Proof.
  intros m s e [W1 W2 W3]. pose proof (holders_ge0 s) as H0.
  assert (U : forall s, i_flag s = true -> i_tasks s = [] -> 1 + holders s <= i_refs s - 1 -> exists s', unref s = Ok s' /\ W s' /\ times is_call (i_log s') = times is_call (i_log s)).
  { intros s1 A B C. pose proof (holders_ge0 s1). unfold unref. destruct (Z.leb_spec (i_refs s1) 0); [lia|]. eexists. split; [reflexivity|]. cbn [i_refs put_refs]. destruct (Z.eqb_spec (i_refs s1 - 1) 0); [lia|]. split; [split; auto|reflexivity]. }
  destruct e; cbn [istep].
  - eexists. split; [reflexivity|]. split; [split; auto|reflexivity].
  - eexists. split; [reflexivity|]. destruct (0 <? i_refs s); (split; [split; auto|]); [|reflexivity]. cbn [i_log stamp see]. rewrite times_app. cbn. lia.
  - eexists. split; [reflexivity|]. destruct (i_set s); (split; [split; auto|reflexivity]).
  - eexists. split; [reflexivity|]. destruct (i_set s) as [|[] r]; (split; [split; auto|reflexivity]).
  - eexists. split; [reflexivity|]. destruct (i_reader s) eqn:E; (split; [split; auto|reflexivity]). unfold holders in *. rewrite E in W3. exact W3.
  - destruct (i_reader s) eqn:E; try (eexists; split; [reflexivity|]; split; [split; auto|reflexivity]). destruct (Z.leb_spec (i_refs s) 0); [lia|]. eexists. split; [reflexivity|].
    assert (HW : forall r, r <> RGone -> holders (put_reader s r) = holders s) by (intros r Q; unfold holders; rewrite E; destruct r; [congruence|reflexivity..]).
    unfold check. destruct (i_hand s); [|split; [split; auto; rewrite HW; [exact W3|discriminate]|reflexivity]]. destruct m; [split; [split; auto; rewrite HW; [exact W3|discriminate]|reflexivity]|].
    destruct (i_stamp s =? 0); [split; [split; auto; unfold holders in *; rewrite E in W3; exact W3|cbn [i_log stamp see put_reader]; rewrite times_app; cbn; lia]|].
    destruct (i_period s <? ts - i_stamp s); [|split; [split; auto; rewrite HW; [exact W3|discriminate]|reflexivity]]. split; [split; auto; unfold holders in *; rewrite E in W3; exact W3|cbn [i_log stamp see put_reader]; rewrite times_app; cbn; lia].
  - destruct (i_reader s) eqn:E; try (eexists; split; [reflexivity|]; split; [split; auto|reflexivity]). destruct (Z.leb_spec (i_refs s) 0); [lia|]. eexists. split; [reflexivity|].
    assert (HW : holders (put_reader s RWait) = holders s) by (unfold holders; rewrite E; reflexivity). unfold notify. cbn [i_hand i_flag put_reader]. rewrite W1.
    destruct (i_hand s); (split; [split; auto; rewrite HW; exact W3|reflexivity]).
  - destruct (i_reader s) eqn:E; try (eexists; split; [reflexivity|]; split; [split; auto|reflexivity]). apply (U (put_reader s RGone)); auto. unfold holders in *. rewrite E in W3. cbn [i_reader i_user i_tasks put_reader i_refs]. lia.
  - destruct (i_user s) eqn:E; [|eexists; split; [reflexivity|]; split; [split; auto|reflexivity]]. apply (U (put_user s false)); auto. unfold holders in *. rewrite E in W3. cbn [i_reader i_user i_tasks put_user i_refs]. lia.
  - eexists. split; [reflexivity|]. split; [split; auto|reflexivity].
  - rewrite W2. destruct k; (eexists; split; [reflexivity|]; split; [split; auto|reflexivity]).
Qed.
Lemma w_run : forall m es s, W s -> exists s', irun m s es = Ok s' /\ times is_call (i_log s') = times is_call (i_log s) /\ 1 <= i_refs s'.
Proof.
  intros m. induction es as [|e es IH]; intros s H; [exists s; split; [reflexivity|]; split; [reflexivity|]; pose proof (w_refs _ H); pose proof (holders_ge0 s); lia|].
  destruct (w_step m s e H) as (s1 & E & H1 & T). cbn. rewrite E. cbn. destruct (IH s1 H1) as (s' & R & C & F). exists s'. rewrite C, T. auto.
Qed.

(** * Totals *)
Lemma gone_step : forall m s e s', i_refs s <= 0 -> istep m s e = Ok s' -> i_refs s' <= 0.
Proof.
  intros m s e s' Z H. assert (L : (i_refs s <=? 0) = true) by (apply Z.leb_le; exact Z). destruct e; cbn [istep] in H.
  - injection H as <-. exact Z.
  - injection H as <-. destruct (0 <? i_refs s); exact Z.
  - injection H as <-. destruct (i_set s); exact Z.
  - injection H as <-. destruct (i_set s) as [|[] r]; exact Z.
  - injection H as <-. destruct (i_reader s); exact Z.
  - destruct (i_reader s); try (injection H as <-; exact Z). rewrite L in H. discriminate.
  - destruct (i_reader s); try (injection H as <-; exact Z). rewrite L in H. discriminate.
  - destruct (i_reader s); try (injection H as <-; exact Z). unfold unref in H. cbn [i_refs put_reader] in H. rewrite L in H. discriminate.
  - destruct (i_user s); try (injection H as <-; exact Z). unfold unref in H. cbn [i_refs put_user] in H. rewrite L in H. discriminate.
  - injection H as <-. exact Z.
  - destruct (nth_error (i_tasks s) k); [|injection H as <-; exact Z]. unfold work in H. rewrite L in H. discriminate.
Qed.
Lemma gone_run : forall m es s s', i_refs s <= 0 -> irun m s es = Ok s' -> i_refs s' <= 0.
Proof. intros m. induction es as [|e es IH]; intros s s' Z H; cbn in H; [injection H as <-; exact Z|]. destruct (istep m s e) eqn:E; [|discriminate]. cbn in H. eapply IH; [|exact H]. eapply gone_step; eauto. Qed.
Lemma unref_tot : forall s s', unref s = Ok s' -> i_rx s' = i_rx s /\ i_tx s' = i_tx s.
Proof. intros s s' H. unfold unref in H. destruct (i_refs s <=? 0); [discriminate|]. injection H as <-. cbn [i_refs put_refs]. destruct (i_refs s - 1 =? 0); auto. Qed.
Lemma tot_step : forall m s e s', 0 < i_refs s -> istep m s e = Ok s' -> i_rx s' = i_rx s + received [e] /\ i_tx s' = i_tx s + sent [e].
Proof.
  intros m s e s' Z H. unfold received, sent. destruct e; cbn [istep] in H; cbn [map sum fold_right].
  - injection H as <-. cbn. lia.
  - injection H as <-. replace (0 <? i_refs s) with true by (symmetry; apply Z.ltb_lt; exact Z). cbn. lia.
  - injection H as <-. destruct (i_set s); cbn; lia.
  - injection H as <-. destruct (i_set s) as [|[] r]; cbn; lia.
  - injection H as <-. destruct (i_reader s); cbn; lia.
  - destruct (i_reader s); try (injection H as <-; cbn; lia). destruct (i_refs s <=? 0); [discriminate|]. injection H as <-. unfold check. destruct (i_hand s); [|cbn; lia]. destruct m; [cbn; lia|]. destruct (i_stamp s =? 0); [cbn; lia|]. destruct (i_period s <? ts - i_stamp s); cbn; lia.
  - destruct (i_reader s); try (injection H as <-; cbn; lia). destruct (i_refs s <=? 0); [discriminate|]. injection H as <-. unfold notify. cbn [i_hand i_flag put_reader]. destruct (i_hand s); [|cbn; lia]. destruct (i_flag s); [cbn; lia|]. cbn [i_pool put_refs put_flag put_reader]. destruct (i_pool s); cbn; lia.
  - destruct (i_reader s); try (injection H as <-; cbn; lia). apply unref_tot in H. cbn in H. lia.
  - destruct (i_user s); try (injection H as <-; cbn; lia). apply unref_tot in H. cbn in H. lia.
  - injection H as <-. cbn. lia.
  - destruct (nth_error (i_tasks s) k) as [t|]; [|injection H as <-; cbn; lia]. unfold work in H. destruct (i_refs s <=? 0); [discriminate|]. destruct t.
    + destruct (i_hand s); injection H as <-; cbn; lia.
    + injection H as <-. cbn. lia.
    + injection H as <-. cbn. lia.
    + injection H as <-. cbn. lia.
    + apply unref_tot in H. cbn in H. lia.
Qed.
Lemma received_cons : forall e es, received (e :: es) = received [e] + received es.
Proof. intros. unfold received, sum. cbn [map fold_right]. rewrite Z.add_0_r. reflexivity. Qed.
Lemma sent_cons : forall e es, sent (e :: es) = sent [e] + sent es.
Proof. intros. unfold sent, sum. cbn [map fold_right]. rewrite Z.add_0_r. reflexivity. Qed.
Lemma tot_run : forall m es s s', irun m s es = Ok s' -> 0 < i_refs s' -> i_rx s' = i_rx s + received es /\ i_tx s' = i_tx s + sent es.
Proof.
  intros m. induction es as [|e es IH]; intros s s' H Z; [cbn in H; injection H as <-; unfold received, sent; cbn; lia|]. pose proof H as H'. cbn in H. destruct (istep m s e) as [s1|] eqn:E; [|discriminate]. cbn in H.
  destruct (Z.le_gt_cases (i_refs s) 0) as [L|L]; [pose proof (gone_run m _ _ _ L H'); lia|]. destruct (IH _ _ H Z) as [A B]. destruct (tot_step m s e s1 ltac:(lia) E) as [C D]. rewrite received_cons, sent_cons. lia.
Qed.
Theorem totals : forall m now es s, irun m (i0 now) es = Ok s -> 0 < i_refs s -> i_rx s = received es /\ i_tx s = sent es.
Proof. intros m now es s H Z. destruct (tot_run m es _ s H Z) as [A B]. cbn [i0 i_rx i_tx] in A, B. lia. Qed.
