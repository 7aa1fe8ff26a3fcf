(** Proofs about the notification of idle connections. *)
From Verif Require Import Base HdrModel HdrProofs IdleModel IdleSpec.

(** * Counting tasks *)
Fixpoint cf (f : task -> Z) (l : list task) : Z := match l with [] => 0 | t :: r => f t + cf f r end.
Lemma cf_upd : forall f l k t u, nth_error l k = Some t -> cf f (upd_nth l k u) = cf f l - f t + f u.
Proof. induction l as [|a l IH]; intros [|k] t u H; try discriminate; cbn in *; [injection H as ->; lia|]. rewrite (IH _ _ u H). lia. Qed.
Lemma cf_drop : forall f l k t, nth_error l k = Some t -> cf f (drop_nth l k) = cf f l - f t.
Proof. induction l as [|a l IH]; intros [|k] t H; try discriminate; cbn in *; [injection H as ->; lia|]. rewrite (IH _ _ H). lia. Qed.
Lemma cf_app : forall f l t, cf f (l ++ [t]) = cf f l + f t.
Proof. induction l as [|a l IH]; intros t; cbn; [lia|]. rewrite IH. lia. Qed.
Lemma cf_ge0 : forall f l, (forall t, 0 <= f t) -> 0 <= cf f l.
Proof. intros f l H. induction l as [|a l IH]; cbn; [lia|]. specialize (H a). lia. Qed.
Lemma cf_le : forall f g l, (forall t, f t <= g t) -> cf f l <= cf g l.
Proof. intros f g l H. induction l as [|a l IH]; cbn; [lia|]. specialize (H a). lia. Qed.
Lemma cf_in : forall f l k t, (forall t, 0 <= f t) -> nth_error l k = Some t -> f t <= cf f l.
Proof. induction l as [|a l IH]; intros [|k] t P H; try discriminate; cbn in *; [injection H as ->; pose proof (cf_ge0 f l P); lia|]. specialize (IH k t P H). specialize (P a). lia. Qed.
Definition act (t : task) : Z := match t with TUnref => 0 | _ => 1 end.
Definition isin (t : task) : Z := match t with TIn => 1 | _ => 0 end.
Definition wait (t : task) : Z := match t with TNew | TCall _ => 1 | _ => 0 end.
Definition one (t : task) : Z := 1.
Lemma cf_one : forall l, cf one l = zlen l.
Proof. unfold zlen. induction l as [|a l IH]; [reflexivity|]. cbn [cf length]. rewrite IH. unfold one. lia. Qed.
Lemma act0 : forall t, 0 <= act t. Proof. intros []; cbn; lia. Qed.
Lemma isin0 : forall t, 0 <= isin t. Proof. intros []; cbn; lia. Qed.
Lemma wait0 : forall t, 0 <= wait t. Proof. intros []; cbn; lia. Qed.
Lemma one0 : forall t, 0 <= one t. Proof. intros t. unfold one. lia. Qed.

(** * Histories *)
Definition open1 (b : bool) (o : iobs) : bool := match o with OCall _ _ _ => true | OReturn => false | _ => b end.
Definition opened (l : list iobs) : bool := fold_left open1 l false.
Lemma opened_app : forall l o, opened (l ++ [o]) = open1 (opened l) o.
Proof. intros. unfold opened. rewrite fold_left_app. reflexivity. Qed.
Lemma apart_app : forall l b o, apart b l -> apart (fold_left open1 l b) [o] -> apart b (l ++ [o]).
Proof. induction l as [|x l IH]; intros b o H K; [exact K|]. destruct x; cbn in *; try (apply IH; assumption); (destruct H; split; [assumption|]; apply IH; assumption). Qed.
Lemma kept_app : forall l b o, kept_in b l -> kept_in (fold_left open1 l b) [o] -> kept_in b (l ++ [o]).
Proof. induction l as [|x l IH]; intros b o H K; [exact K|]. destruct x; cbn in *; try (apply IH; assumption); (destruct H; split; [assumption|]; apply IH; assumption). Qed.
Lemma last_app : forall l o, last_active (l ++ [o]) = match o with OActive t => Some t | _ => last_active l end.
Proof. intros. unfold last_active. rewrite fold_left_app. reflexivity. Qed.
Lemma times_app : forall b l o, times b (l ++ [o]) = (times b l + if b o then 1 else 0)%nat.
Proof. intros. unfold times. rewrite filter_app, app_length. cbn. destruct (b o); reflexivity. Qed.
Lemma snoc_cases : forall {A} (l a b : list A) o, l ++ [o] = a ++ b -> (b = [] /\ a = l ++ [o]) \/ exists b', b = b' ++ [o] /\ l = a ++ b'.
Proof.
  intros A l a b o H. induction b as [|x b _] using rev_ind; [left; rewrite app_nil_r in H; auto|].
  right. rewrite app_assoc in H. apply app_inj_tail in H. destruct H as [H ->]. eauto.
Qed.
Lemma when_app : forall l o, when_idle l ->
  (forall ts p, o = OIdle ts p -> exists t, last_active l = Some t /\ p < ts - t) ->
  (is_call o = true -> (times is_call l + 1 <= times is_idle l)%nat) -> when_idle (l ++ [o]).
Proof.
  intros l o [W1 W2] A B. split.
  - intros a ts p b H. apply snoc_cases in H. destruct H as [[H _]|(b' & H & ->)]; [discriminate|]. destruct b' as [|x b']; cbn in H.
    + injection H as <- ->. rewrite app_nil_r in A. apply A. reflexivity.
    + injection H as <- ->. eapply W1. reflexivity.
  - intros a b H. apply snoc_cases in H. destruct H as [[-> ->]|(b' & -> & ->)]; [|eapply W2; reflexivity].
    rewrite !times_app. specialize (W2 l [] ltac:(rewrite app_nil_r; reflexivity)). destruct (is_call o) eqn:C; [specialize (B eq_refl); lia|lia].
Qed.
Lemma when_nil : when_idle [].
Proof. split; [intros [] ? ? ? H; discriminate|]. intros [|x a] b H; [cbn; lia|discriminate]. Qed.

(** * What is always true *)
Definition b2z (b : bool) : Z := if b then 1 else 0.
Definition rnote (r : rpc) : nat := match r with RNote => 1 | _ => 0 end.
Record J (s : ist) : Prop := mkJ {
  j_act : cf act (i_tasks s) <= b2z (i_flag s);
  j_open : b2z (opened (i_log s)) = cf isin (i_tasks s);
  j_refs : holders s <= i_refs s;
  j_apart : apart false (i_log s);
  j_kept : kept_in false (i_log s);
  j_count : Z.of_nat (times is_call (i_log s)) + cf wait (i_tasks s) + Z.of_nat (rnote (i_reader s)) <= Z.of_nat (times is_idle (i_log s));
  j_last : i_stamp s = 0 \/ last_active (i_log s) = Some (i_stamp s);
  j_when : when_idle (i_log s);
  j_free : times is_free (i_log s) = if i_refs s =? 0 then 1%nat else 0%nat
}.
Lemma j_i0 : forall now, J (i0 now).
Proof. intros now. split; cbn; try lia; auto. apply when_nil. Qed.
Lemma holders_ge0 : forall s, 0 <= holders s.
Proof. intros s. unfold holders, zlen. destruct (i_reader s), (i_user s); lia. Qed.

(** Adding an observation that is not a call, a return nor a release. *)
Definition plain (o : iobs) : bool := match o with OActive _ | OIdle _ _ => true | _ => false end.
Lemma j_stamp : forall s rx tx, J s -> J (stamp s rx tx).
Proof.
  intros s rx tx [J1 J2 J3 J4 J5 J6 J7 J8 J9]. split; cbn [i_tasks i_flag i_log i_refs i_reader i_stamp stamp see]; auto.
  - rewrite opened_app. exact J2.
  - apply apart_app; [exact J4|]. cbn. exact Logic.I.
  - apply kept_app; [exact J5|]. cbn. exact Logic.I.
  - rewrite !times_app. cbn. lia.
  - right. rewrite last_app. reflexivity.
  - apply when_app; auto; discriminate.
  - rewrite times_app. cbn. lia.
Qed.
Lemma unref_j : forall s s', unref s = Ok s' -> i_refs s' = i_refs s - 1 /\ 0 < i_refs s.
Proof. intros s s' H. unfold unref in H. destruct (Z.leb_spec (i_refs s) 0); [discriminate|]. injection H as <-. cbn. destruct (i_refs s - 1 =? 0); cbn; lia. Qed.

(** The release of a reference that somebody has. *)
Lemma j_unref : forall s, cf act (i_tasks s) <= b2z (i_flag s) -> b2z (opened (i_log s)) = cf isin (i_tasks s) -> holders s <= i_refs s - 1 -> apart false (i_log s) -> kept_in false (i_log s) ->
  Z.of_nat (times is_call (i_log s)) + cf wait (i_tasks s) + Z.of_nat (rnote (i_reader s)) <= Z.of_nat (times is_idle (i_log s)) ->
  (i_stamp s = 0 \/ last_active (i_log s) = Some (i_stamp s)) -> when_idle (i_log s) -> times is_free (i_log s) = (if i_refs s =? 0 then 1%nat else 0%nat) ->
  exists s', unref s = Ok s' /\ J s'.
Proof.
  intros s J1 J2 J3 J4 J5 J6 J7 J8 J9. pose proof (holders_ge0 s). unfold unref. destruct (Z.leb_spec (i_refs s) 0); [lia|]. eexists. split; [reflexivity|]. cbn [i_refs put_refs].
  rewrite (proj2 (Z.eqb_neq (i_refs s) 0)) in J9 by lia.
  destruct (Z.eqb_spec (i_refs s - 1) 0) as [Z|Z].
  - assert (N : i_tasks s = []). { unfold holders, zlen in J3. destruct (i_tasks s); [reflexivity|]. cbn in J3. destruct (i_reader s), (i_user s); lia. }
    split; cbn [i_tasks i_flag i_log i_refs i_reader i_stamp put_refs see]; auto.
    + rewrite opened_app. exact J2.
    + apply apart_app; [exact J4|]. cbn. exact Logic.I.
    + apply kept_app; [exact J5|]. rewrite N in J2. cbn in J2. unfold opened in J2. cbn. destruct (fold_left open1 (i_log s) false); [discriminate|auto].
    + rewrite !times_app. cbn. lia.
    + rewrite last_app. exact J7.
    + apply when_app; auto; discriminate.
    + rewrite times_app, J9, Z. reflexivity.
  - split; cbn [i_tasks i_flag i_log i_refs i_reader i_stamp put_refs]; auto. rewrite J9. destruct (Z.eqb_spec (i_refs s - 1) 0); [lia|reflexivity].
Qed.
(** Only the reader moves. *)
Lemma j_reader : forall s r, J s -> rnote r = 0%nat -> (i_reader s = RGone -> r = RGone) -> J (put_reader s r).
Proof.
  intros s r [J1 J2 J3 J4 J5 J6 J7 J8 J9] E G. split; cbn [i_tasks i_flag i_log i_refs i_reader i_stamp put_reader]; auto.
  - unfold holders in *. cbn. destruct (i_reader s); [rewrite (G eq_refl); exact J3|..]; destruct r; lia.
  - rewrite E. lia.
Qed.
Lemma in_open : forall s k, J s -> nth_error (i_tasks s) k = Some TIn -> opened (i_log s) = true.
Proof. intros s k I N. pose proof (cf_in isin _ _ _ isin0 N). cbn in H. pose proof (j_open _ I). destruct (opened (i_log s)); [reflexivity|]. cbn in *. lia. Qed.

Lemma tasks_refs : forall s k t, J s -> nth_error (i_tasks s) k = Some t -> 0 < i_refs s.
Proof. intros s k t I N. pose proof (j_refs _ I). unfold holders in H. rewrite <- cf_one in H. pose proof (cf_in one _ _ _ one0 N). unfold one in *. destruct (i_reader s), (i_user s); lia. Qed.

Lemma j_work : forall s k t, J s -> nth_error (i_tasks s) k = Some t -> exists s', work s k t = Ok s' /\ J s'.
Proof.
  intros s k t I N. pose proof (tasks_refs _ _ _ I N) as R. unfold work. destruct (Z.leb_spec (i_refs s) 0); [lia|]. pose proof I as [J1 J2 J3 J4 J5 J6 J7 J8 J9].
  assert (HU : forall u, zlen (upd_nth (i_tasks s) k u) = zlen (i_tasks s)) by (intros; unfold zlen; rewrite upd_nth_length; reflexivity).
  assert (HD : zlen (drop_nth (i_tasks s) k) = zlen (i_tasks s) - 1) by (rewrite <- !cf_one; rewrite (cf_drop _ _ _ _ N); reflexivity).
  assert (C : opened (i_log s) = true -> cf isin (i_tasks s) = 1) by (intros O; rewrite O in J2; cbn in J2; lia).
  pose proof (cf_le isin act (i_tasks s) ltac:(intros []; cbn; lia)) as IA.
  destruct t.
  - destruct (i_hand s) as [h|].
    + eexists. split; [reflexivity|]. split; cbn [i_tasks i_flag i_log i_refs i_reader i_stamp put_tasks]; auto.
      * rewrite (cf_upd _ _ _ _ _ N). cbn. lia.
      * rewrite (cf_upd _ _ _ _ _ N). cbn. lia.
      * unfold holders in *. cbn. rewrite HU. exact J3.
      * rewrite (cf_upd _ _ _ _ _ N). cbn. lia.
    + eexists. split; [reflexivity|]. split; cbn [i_tasks i_flag i_log i_refs i_reader i_stamp put_tasks]; auto.
      * rewrite (cf_drop _ _ _ _ N). cbn. lia.
      * rewrite (cf_drop _ _ _ _ N). cbn. lia.
      * unfold holders in *. cbn. rewrite HD. lia.
      * rewrite (cf_drop _ _ _ _ N). cbn. lia.
  - assert (NO : opened (i_log s) = false).
    { destruct (opened (i_log s)) eqn:O; [|reflexivity]. specialize (C eq_refl). pose proof (cf_le (fun t => isin t + wait t) act (i_tasks s) ltac:(intros []; cbn; lia)) as Q.
      assert (S : forall l, cf (fun t => isin t + wait t) l = cf isin l + cf wait l) by (induction l as [|a l IH]; cbn; [reflexivity|rewrite IH; lia]). rewrite S in Q. pose proof (cf_in wait _ _ _ wait0 N) as W. cbn in W. destruct (i_flag s); cbn in J1; lia. }
    eexists. split; [reflexivity|]. split; cbn [i_tasks i_flag i_log i_refs i_reader i_stamp put_tasks see]; auto.
    + rewrite (cf_upd _ _ _ _ _ N). cbn. lia.
    + rewrite opened_app, (cf_upd _ _ _ _ _ N). cbn. rewrite NO in J2. cbn in J2. lia.
    + unfold holders in *. cbn. rewrite HU. exact J3.
    + apply apart_app; [exact J4|]. cbn. unfold opened in NO. rewrite NO. auto.
    + apply kept_app; [exact J5|]. cbn. exact Logic.I.
    + rewrite !times_app, (cf_upd _ _ _ _ _ N). cbn. lia.
    + rewrite last_app. exact J7.
    + apply when_app; auto; [discriminate|]. intros _. pose proof (cf_in wait _ _ _ wait0 N) as W. cbn in W. pose proof (cf_ge0 wait (i_tasks s) wait0). lia.
    + rewrite times_app. cbn. lia.
  - pose proof (in_open _ _ I N) as O. eexists. split; [reflexivity|]. apply j_stamp. split; cbn [i_tasks i_flag i_log i_refs i_reader i_stamp put_tasks see]; auto.
    + rewrite (cf_upd _ _ _ _ _ N). cbn. lia.
    + rewrite opened_app, (cf_upd _ _ _ _ _ N). cbn. rewrite O in J2. cbn in J2. lia.
    + unfold holders in *. cbn. rewrite HU. exact J3.
    + apply apart_app; [exact J4|]. cbn. unfold opened in O. rewrite O. auto.
    + apply kept_app; [exact J5|]. cbn. exact Logic.I.
    + rewrite !times_app, (cf_upd _ _ _ _ _ N). cbn. lia.
    + rewrite last_app. exact J7.
    + apply when_app; auto; discriminate.
    + rewrite times_app. cbn. lia.
  - eexists. split; [reflexivity|]. split; cbn [i_tasks i_flag i_log i_refs i_reader i_stamp put_tasks put_flag]; auto.
    + rewrite (cf_upd _ _ _ _ _ N). cbn. destruct (i_flag s); cbn in J1; lia.
    + rewrite (cf_upd _ _ _ _ _ N). cbn. lia.
    + unfold holders in *. cbn. rewrite HU. exact J3.
    + rewrite (cf_upd _ _ _ _ _ N). cbn. lia.
  - apply j_unref; cbn [i_tasks i_flag i_log i_refs i_reader i_stamp put_tasks]; auto.
    + rewrite (cf_drop _ _ _ _ N). cbn. lia.
    + rewrite (cf_drop _ _ _ _ N). cbn. lia.
    + unfold holders in *. cbn. rewrite HD. lia.
    + rewrite (cf_drop _ _ _ _ N). cbn. lia.
Qed.
Lemma j_step : forall m s e, J s -> exists s', istep m s e = Ok s' /\ J s'.
Proof.
  intros m s e I. destruct e; cbn [istep].
  - eexists. split; [reflexivity|]. destruct I as [J1 J2 J3 J4 J5 J6 J7 J8 J9]. split; auto.
  - eexists. split; [reflexivity|]. destruct (0 <? i_refs s); [apply j_stamp|]; exact I.
  - eexists. split; [reflexivity|]. destruct (i_set s); [|exact I]. destruct I as [J1 J2 J3 J4 J5 J6 J7 J8 J9]. split; auto.
  - eexists. split; [reflexivity|]. destruct (i_set s) as [|w r]; [exact I|]. destruct I as [J1 J2 J3 J4 J5 J6 J7 J8 J9]. destruct w; split; auto.
  - eexists. split; [reflexivity|]. destruct (i_reader s) eqn:E; try exact I. apply j_reader; auto. congruence.
  - destruct (i_reader s) eqn:E; try (eexists; split; [reflexivity|exact I]). pose proof (j_refs _ I) as R. unfold holders, zlen in R. rewrite E in R.
    destruct (Z.leb_spec (i_refs s) 0); [destruct (i_user s); lia|]. eexists. split; [reflexivity|]. unfold check. destruct (i_hand s); [|apply j_reader; auto; congruence]. destruct m; [apply j_reader; auto; congruence|].
    destruct (Z.eqb_spec (i_stamp s) 0) as [Z|Z]; [apply j_reader; [apply j_stamp; exact I|reflexivity|cbn; congruence]|]. destruct (Z.ltb_spec (i_period s) (ts - i_stamp s)); [|apply j_reader; auto; congruence].
    destruct I as [J1 J2 J3 J4 J5 J6 J7 J8 J9]. destruct J7 as [J7|J7]; [lia|]. split; cbn [i_tasks i_flag i_log i_refs i_reader i_stamp put_reader see]; auto.
    + rewrite opened_app. exact J2.
    + apply apart_app; [exact J4|]. cbn. exact Logic.I.
    + apply kept_app; [exact J5|]. cbn. exact Logic.I.
    + rewrite !times_app. rewrite E in J6. cbn in *. lia.
    + rewrite last_app. auto.
    + apply when_app; auto; [|discriminate]. intros ts' p' Q. injection Q as <- <-. eauto.
    + rewrite times_app. cbn. lia.
  - destruct (i_reader s) eqn:E; try (eexists; split; [reflexivity|exact I]). pose proof (j_refs _ I) as R. unfold holders, zlen in R. rewrite E in R.
    destruct (Z.leb_spec (i_refs s) 0); [destruct (i_user s); lia|]. eexists. split; [reflexivity|]. unfold notify. cbn [i_hand i_flag i_pool put_reader].
    assert (JW : J (put_reader s RWait)) by (apply j_reader; auto; congruence). destruct (i_hand s); [|exact JW]. destruct (i_flag s) eqn:F; [exact JW|].
    destruct I as [J1 J2 J3 J4 J5 J6 J7 J8 J9]. rewrite F in J1. cbn in J1. rewrite E in J6. cbn in J6. cbn [i_pool put_refs put_flag put_reader i_refs].
    assert (JF : times is_free (i_log s) = (if i_refs s + 1 =? 0 then 1%nat else 0%nat)) by (rewrite J9; destruct (Z.eqb_spec (i_refs s) 0), (Z.eqb_spec (i_refs s + 1) 0); lia).
    destruct (i_pool s); (split; cbn [i_tasks i_flag i_log i_refs i_reader i_stamp put_tasks put_refs put_flag put_reader]; rewrite ?cf_app; cbn [act isin wait b2z rnote]; auto; try lia).
    + unfold holders in *. rewrite E in J3. cbn [i_reader i_user i_tasks put_tasks put_refs put_flag put_reader]. unfold zlen in *. rewrite app_length. cbn [length]. lia.
    + unfold holders in *. rewrite E in J3. cbn [i_reader i_user i_tasks put_tasks put_refs put_flag put_reader]. lia.
  - destruct (i_reader s) eqn:E; try (eexists; split; [reflexivity|exact I]). destruct I as [J1 J2 J3 J4 J5 J6 J7 J8 J9]. apply j_unref; cbn [i_tasks i_flag i_log i_refs i_reader i_stamp put_reader]; auto.
    + unfold holders in *. rewrite E in J3. cbn. lia.
    + rewrite E in J6. exact J6.
  - destruct (i_user s) eqn:E; [|eexists; split; [reflexivity|exact I]]. destruct I as [J1 J2 J3 J4 J5 J6 J7 J8 J9]. apply j_unref; cbn [i_tasks i_flag i_log i_refs i_reader i_stamp put_user]; auto.
    unfold holders in *. rewrite E in J3. cbn. lia.
  - eexists. split; [reflexivity|]. destruct I as [J1 J2 J3 J4 J5 J6 J7 J8 J9]. split; auto.
  - destruct (nth_error (i_tasks s) k) eqn:N; [|eexists; split; [reflexivity|exact I]]. apply j_work; assumption.
Qed.
Lemma j_run : forall m es s, J s -> exists s', irun m s es = Ok s' /\ J s'.
Proof. induction es as [|e es IH]; intros s I; [exists s; auto|]. destruct (j_step m s e I) as (s1 & E & I1). cbn. rewrite E. apply IH. exact I1. Qed.

Theorem always : forall m now es, exists s, irun m (i0 now) es = Ok s /\ apart false (i_log s) /\ kept_in false (i_log s) /\ when_idle (i_log s) /\
  (In TIn (i_tasks s) -> 0 < i_refs s) /\ times is_free (i_log s) = (if i_refs s =? 0 then 1%nat else 0%nat).
Proof.
  intros m now es. destruct (j_run m es (i0 now) (j_i0 now)) as (s & R & I). exists s. split; [exact R|]. pose proof I as [J1 J2 J3 J4 J5 J6 J7 J8 J9]. repeat (split; [assumption|]). split; [|exact J9].
  intros H. apply In_nth_error in H. destruct H as [k H]. eapply tasks_refs; eauto.
Qed.
