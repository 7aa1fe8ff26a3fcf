From Coq Require Import Permutation.
From Verif Require Import Base AsyncModel AsyncSpec AsyncProofs TimeModel TimeSpec TimeProofs PoolModel PoolSpec PoolProofs PoolProofs2 PoolProofs3.

(** ** The period of the automatic resize *)
Lemma mark_app a b : last_mark (a ++ b) = match last_mark b with Some t => Some t | None => last_mark a end.
Proof.
  induction a as [|o a IH]; cbn; [now destruct (last_mark b)|]. rewrite IH. now destruct (last_mark b).
Qed.
Lemma setup_app a b : last_setup (a ++ b) = match last_setup b with Some t => Some t | None => last_setup a end.
Proof.
  induction a as [|o a IH]; cbn; [now destruct (last_setup b)|]. rewrite IH. now destruct (last_setup b).
Qed.
Lemma snoc_split A (l : list A) o a x b : l ++ [o] = a ++ x :: b ->
  (a = l /\ x = o /\ b = []) \/ exists b', b = b' ++ [o] /\ l = a ++ x :: b'.
Proof.
  intros H. destruct b as [|y b0] using rev_ind.
  - left. apply app_inj_tail in H as (-> & ->). auto.
  - right. exists b0. rewrite app_comm_cons, app_assoc in H. apply app_inj_tail in H as (-> & ->). auto.
Qed.

Definition conf_of (p : tpool) (o : option tconf) : Prop :=
  match o with
  | None => tc_auto (tp_conf p) = false
  | Some c => tc_auto (tp_conf p) = negb (tc_max c =? -1) /\ tc_max (tp_conf p) = tc_max c /\ tc_add (tp_conf p) = tc_add c /\
      tc_addp (tp_conf p) = tc_addp c /\ tc_rem (tp_conf p) = tc_rem c /\ tc_remp (tp_conf p) = tc_remp c /\
      tc_autorem (tp_conf p) = tc_autorem c
  end.
Record rinv (p : tpool) : Prop := {
  r_last : match last_mark (tp_log p) with Some m => clock_ok m /\ micros (tp_last p) = micros m | None => tc_auto (tp_conf p) = false end;
  r_usec : -1000000 <= tv_usec (tp_last p) < 1000000;
  r_conf : conf_of p (last_setup (tp_log p));
  r_log : resizes_ok (tp_log p)
}.
Definition noise (o : pobs) : Prop := match o with PAdded _ _ _ | PRemoved _ _ _ | PSetAt _ _ => False | _ => True end.
Lemma noise_marks o : Forall noise o -> last_mark o = None /\ last_setup o = None.
Proof. induction 1 as [|x l H _ (A & B)]; cbn; [auto|]. rewrite A, B. destruct x; try contradiction; auto. Qed.
Lemma resizes_snoc log o : resizes_ok log ->
  match o with PAdded now _ m => added_ok log now m | PRemoved now _ m => removed_ok log now m | _ => True end -> resizes_ok (log ++ [o]).
Proof.
  intros R O a x b E. apply snoc_split in E as [(-> & -> & _)|(b' & _ & E)]; [exact O|]. now apply (R a x b').
Qed.
Lemma resizes_noise o : Forall noise o -> forall log, resizes_ok log -> resizes_ok (log ++ o).
Proof.
  induction 1 as [|x l H _ IH]; intros log R; [now rewrite app_nil_r|].
  change (x :: l) with ([x] ++ l). rewrite app_assoc. apply IH, resizes_snoc; [exact R|]. now destruct x.
Qed.
Lemma rinv_noise p q o : rinv p -> tp_conf q = tp_conf p -> tp_last q = tp_last p -> tp_log q = tp_log p ++ o -> Forall noise o -> rinv q.
Proof.
  intros [] C L G N. destruct (noise_marks o N) as (M1 & M2).
  constructor; unfold conf_of in *; rewrite ?G, ?C, ?L, ?mark_app, ?setup_app, ?M1, ?M2; auto. now apply resizes_noise.
Qed.
Lemma rinv_same p q : rinv p -> tp_conf q = tp_conf p -> tp_last q = tp_last p -> tp_log q = tp_log p -> rinv q.
Proof. intros R C L G. apply (rinv_noise p q []); auto. now rewrite app_nil_r. Qed.
Lemma took_noise l : Forall noise (flat_map took l).
Proof. induction l as [|[t x] l IH]; cbn; [auto|]. unfold took at 1. cbn. destruct (3 <? x); cbn; [constructor; cbn; auto|auto]. Qed.
Lemma rinv_queue p e : rinv p -> rinv (p_queue p e).
Proof. intros R. eapply rinv_noise; [exact R| | | |]; try reflexivity. apply took_noise. Qed.

Lemma last_sensible p m : -1000000 <= tv_usec (tp_last p) < 1000000 -> clock_ok m -> micros (tp_last p) = micros m -> sensible (tp_last p).
Proof. unfold clock_ok, normal, micros, sensible. lia. Qed.

Lemma resize_rinv p t now later made : pinv p -> rinv p -> clock_ok now -> clock_ok later ->
  exists p', resize p t now later made = Ok p' /\ rinv p'.
Proof.
  intros I R CN CL. unfold resize. destruct (negb (tc_auto (tp_conf p)) || tp_stopping p || tp_exit p) eqn:E; [eauto|].
  assert (AU : tc_auto (tp_conf p) = true) by (destruct (tc_auto (tp_conf p)); [auto|discriminate]).
  pose proof (r_last p R) as RL. pose proof (r_usec p R) as RU. pose proof (r_conf p R) as RC. pose proof (r_log p R) as RG.
  destruct (last_mark (tp_log p)) as [mark|] eqn:LM; [|congruence].
  destruct (last_setup (tp_log p)) as [c|] eqn:LS; [|cbn in RC; congruence].
  destruct RL as (CM & MM). destruct RC as (K1 & K2 & K3 & K4 & K5 & K6 & K7).
  assert (tc_max c <> -1) by lia.
  destruct (sub_reused now (tp_last p)) as (r & neg & b & SB & U & MR & MB & UB0).
  { apply CN. } { exact RU. } { unfold clock_ok, sensible in *. lia. } { eapply last_sensible; eauto. }
  rewrite SB. cbn [obind].
  assert (SEC : tv_sec r * 1000000 <= micros now - micros mark) by (unfold micros in *; lia).
  assert (USE : forall z, clock_ok z -> -1000000 <= tv_usec z < 1000000) by (unfold clock_ok, normal; lia).
  destruct (_ && _ && _ && _) eqn:C1; [|destruct (_ && _ && _ && _ && _) eqn:C2]; (eexists; split; [reflexivity|]).
  - assert (A : added_ok (tp_log p) now (zlen (tp_threads (add_internal p (tc_add (tp_conf p)) made)) - zlen (tp_threads p))).
    { exists c, mark. pose proof (add_size p (tc_add (tp_conf p)) made) as AS. unfold size in AS. conj; auto; try lia. }
    constructor; cbn [say with_last tp_log tp_last tp_conf add_internal]; auto.
    + rewrite mark_app. cbn. auto.
    + rewrite setup_app. cbn. rewrite LS. repeat split; auto.
    + now apply resizes_snoc.
  - assert (A : removed_ok (tp_log p) now (match tp_hold (remove_internal p t (tc_rem (tp_conf p))) with Some (_, m) => m | None => 0 end)).
    { exists c, mark. unfold remove_internal, with_hold. cbn [tp_hold].
      destruct (0 <? Z.max 0 (Z.min (tc_rem (tp_conf p)) (zlen (tp_threads p) - 1))) eqn:M; conj; auto; try lia. }
    constructor; cbn [say with_last tp_log tp_last tp_conf remove_internal with_hold]; auto.
    + rewrite mark_app. cbn. auto.
    + rewrite setup_app. cbn. rewrite LS. repeat split; auto.
    + now apply resizes_snoc.
  - constructor; cbn [with_last tp_log tp_last tp_conf]; auto.
    + rewrite LM. split; [auto|]. lia.
    + rewrite LS. repeat split; auto.
Qed.

Definition good_times (e : pev) : Prop :=
  match e with PThread _ now later _ _ => clock_ok now /\ clock_ok later | PSetup _ now => clock_ok now | _ => True end.
Lemma rinv_step p e : pinv p -> rinv p -> good_times e -> exists p', pstep p e = Ok p' /\ rinv p'.
Proof.
  intros I R G.
  assert (SAME : forall q, tp_conf q = tp_conf p -> tp_last q = tp_last p -> tp_log q = tp_log p -> rinv q) by (intros; eapply rinv_same; eauto).
  destruct e as [|k|t now later made k|k|k|k|n made|n|c now| | |k]; cbn [pstep].
  - eexists. split; [reflexivity|]. destruct (tp_stopping p); [auto|]. apply SAME; reflexivity.
  - eexists. split; [reflexivity|]. destruct (0 <? tp_subm p); [|auto]. apply rinv_queue.
    eapply rinv_noise; [exact R| | | |]; try reflexivity. repeat constructor.
  - destruct G as (G1 & G2). unfold thread_step. destruct (holds p t); [eauto|].
    assert (RZ : forall s', exists p', (let! q := resize p t now later made in Ok (goto q t s')) = Ok p' /\ rinv p').
    { intros s'. destruct (resize_rinv p t now later made I R G1 G2) as (q & -> & Q). cbn. eexists. split; [reflexivity|].
      eapply rinv_same; eauto. }
    destruct (state_of (tp_run p) t) as [s|] eqn:S; [|eauto]. destruct s as [| |x|n|n| | |w].
    + eexists. split; [reflexivity|]. apply rinv_queue. apply SAME; reflexivity.
    + eauto.
    + destruct (x =? 0).
      { destruct (tp_exit p); [eexists; split; [reflexivity|apply SAME; reflexivity]|]. destruct (hold_free p); eauto. }
      destruct (x =? 3).
      { destruct (joining p); [eauto|]. eexists; split; [reflexivity|]. destruct (tp_stopped p); apply SAME; reflexivity. }
      destruct (x =? 2).
      { destruct (joining p || negb (hold_free p)); [eauto|]. eexists; split; [reflexivity|]. apply SAME; reflexivity. }
      destruct (x =? 1) eqn:E1.
      { assert (ST : tp_stopping p = true).
        { apply (v_beac p I). destruct (v_list p I) as (ended & _ & E).
          assert (In t (collect fone (tp_run p))). { eapply collect_in; [exact S|]. cbn. rewrite E1. cbn. auto. }
          destruct (collect fone (tp_run p)); [contradiction|]. unfold ones, zlen in *. cbn [length] in E. lia. }
        rewrite ST. eexists; split; [reflexivity|]. apply SAME; reflexivity. }
      eexists; split; [reflexivity|]. apply SAME; reflexivity.
    + destruct (tp_exit p); [eexists; split; [reflexivity|apply SAME; reflexivity]|]. destruct (hold_free p); eauto.
    + eexists; split; [reflexivity|]. eapply rinv_noise; [exact R| | | |]; try reflexivity.
      constructor; [|constructor]. now destruct (negb _ && negb _).
    + destruct (_ || tp_exit p); [eexists; split; [reflexivity|apply SAME; reflexivity]|]. destruct (hold_free p); eauto.
    + eexists; split; [reflexivity|]. apply rinv_queue. apply SAME; reflexivity.
    + eexists; split; [reflexivity|]. destruct (state_of (tp_run p) w); [auto|]. apply SAME; reflexivity.
  - eexists. split; [reflexivity|]. now apply rinv_queue.
  - eexists. split; [reflexivity|]. now apply rinv_queue.
  - eexists. split; [reflexivity|]. destruct (tp_hold p) as [[h n]|]; [|auto]. apply rinv_queue. apply SAME; reflexivity.
  - eexists. split; [reflexivity|]. destruct (hold_free p); [|auto]. apply SAME; reflexivity.
  - eexists. split; [reflexivity|]. destruct (_ && _); [|auto]. apply SAME; reflexivity.
  - eexists. split; [reflexivity|]. destruct (hold_free p); [|auto]. cbn in G. pose proof (r_log p R) as RG.
    constructor; cbn [say tp_log tp_last tp_conf].
    + rewrite mark_app. cbn. auto.
    + unfold clock_ok, normal in G. lia.
    + rewrite setup_app. cbn. repeat split; auto.
    + now apply resizes_snoc.
  - eexists. split; [reflexivity|]. destruct (hold_free p); [|auto]. apply SAME; reflexivity.
  - eexists. split; [reflexivity|]. apply SAME; reflexivity.
  - eexists. split; [reflexivity|]. destruct (_ && _); [|auto]. apply rinv_queue. apply SAME; reflexivity.
Qed.
Lemma rinv_run es : forall p, pinv p -> rinv p -> times_ok es -> exists p', prun p es = Ok p' /\ rinv p'.
Proof.
  induction es as [|e es IH]; intros p I R T; cbn [prun]; [eauto|]. inversion T as [|? ? T1 T2]; subst.
  destruct (rinv_step p e I R T1) as (q & E & RQ). rewrite E. cbn. apply IH; auto. eapply inv_step; eauto.
Qed.
Lemma rinv_init n made : rinv (tp0 n made).
Proof.
  unfold tp0. constructor; cbn; auto; try lia. intros a o b E. destruct a; discriminate.
Qed.
Lemma defined_run n made es : times_ok es -> exists p, prun (tp0 n made) es = Ok p.
Proof. intros T. destruct (rinv_run es _ (inv_init n made) (rinv_init n made) T) as (p & E & _). eauto. Qed.
Lemma period_run n made es p : times_ok es -> prun (tp0 n made) es = Ok p -> resizes_ok (tp_log p).
Proof.
  intros T R. destruct (rinv_run es _ (inv_init n made) (rinv_init n made) T) as (q & E & Q).
  rewrite R in E. injection E as <-. apply (r_log p Q).
Qed.
