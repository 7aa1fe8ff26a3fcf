(** Why a channel is removed and what is returned. *)
From Verif Require Import Base CloseModel CloseSpec CloseProofs CloseProofs2 CloseProofs3.

Ltac split_step E := repeat (match type of E with
  | (if ?b then _ else _) = Ok _ => destruct b eqn:?
  | match ?b with _ => _ end = Ok _ => destruct b eqn:?
  | Ok (if ?b then _ else _) = Ok _ => destruct b eqn:?
  | Ok (?f (if ?b then _ else _) _) = Ok _ => destruct b eqn:?
  | Ok (?f (if ?b then _ else _) _ _) = Ok _ => destruct b eqn:?
  | Ok (?f (?g (if ?b then _ else _)) _) = Ok _ => destruct b eqn:?
  | Ok (?f (?g (if ?b then _ else _) _ _) _) = Ok _ => destruct b eqn:? end; try discriminate).
Lemma reply_log s m a : exists l, k_log (reply s m a) = k_log s ++ l.
Proof. unfold reply. destruct (k_up s); [eexists; reflexivity|exists []; rewrite app_nil_r; reflexivity]. Qed.
Lemma step_mono s e s' : kstep s e = Ok s' -> (exists l, k_log s' = k_log s ++ l) /\ (k_up s = false -> k_up s' = false).
Proof.
  intros E. assert (N : forall l : list kobs, exists k, l = l ++ k) by (intros; exists []; rewrite app_nil_r; reflexivity).
  destruct e; cbn [kstep resp_step clo_step] in E; cbv zeta in E; unfold decided in E; split_step E; apply ok_inj in E; subst s'; unfold end_r, reply in *; fields; rewrite ?app_assoc_reverse; eauto;
    repeat match goal with |- context [if ?b then _ else _] => destruct b eqn:? end; fields; rewrite ?app_assoc_reverse; eauto; try (split; [eauto|congruence]).
Qed.

Definition bad (es : list kev) (s : kst) : Prop := In (KReply FErr) es \/ In (KReply FBad) es \/ k_up s = false.
Record trace (es : list kev) (s : kst) : Prop := mkT {
  t_in : k_in s = false -> reason es s;
  t_true : forall t, at_c s t = Some (CEnd true) -> reason es s;
  t_false : forall t, at_c s t = Some (CEnd false) -> bad es s;
  t_queue : forall f, In f (k_queue s) -> match f with FFake => accepted_here s \/ k_up s = false | _ => In (KReply f) es end;
  t_fake : forall m, at_r s m = Some RFake \/ at_r s m = Some RFakeRef -> accepted_here s \/ k_up s = false;
  t_finish : forall m, at_r s m = Some (RFinish false) -> k_up s = false;
  t_ask : forall m b, In (m, RHandler b) (k_resp s) -> In (OAsk m) (k_log s);
  t_donet : forall t, In (ODone t true) (k_log s) -> reason es s \/ exists m, In (OAsk m) (k_log s);
  t_donef : forall t, In (ODone t false) (k_log s) -> bad es s
}.
Definition new_queue (es : list kev) (s : kst) (f : wframe) : Prop := match f with FFake => accepted_here s \/ k_up s = false | _ => In (KReply f) es end.
Lemma trace_frame es s e s' : trace es s -> kstep s e = Ok s' ->
  (k_in s' = false -> k_in s = false \/ reason es s \/ reason (es ++ [e]) s') ->
  (forall t, look (k_clo s') t = Some (CEnd true) -> look (k_clo s) t = Some (CEnd true) \/ reason es s \/ reason (es ++ [e]) s') ->
  (forall t, look (k_clo s') t = Some (CEnd false) -> look (k_clo s) t = Some (CEnd false) \/ bad es s \/ bad (es ++ [e]) s') ->
  (forall f, In f (k_queue s') -> In f (k_queue s) \/ new_queue (es ++ [e]) s' f) ->
  (forall m, look (k_resp s') m = Some RFake \/ look (k_resp s') m = Some RFakeRef -> look (k_resp s) m = Some RFake \/ look (k_resp s) m = Some RFakeRef \/ accepted_here s' \/ k_up s' = false) ->
  (forall m, look (k_resp s') m = Some (RFinish false) -> look (k_resp s) m = Some (RFinish false) \/ k_up s' = false) ->
  (forall m b, In (m, RHandler b) (k_resp s') -> In (m, RHandler b) (k_resp s) \/ In (OAsk m) (k_log s')) ->
  (forall t, In (ODone t true) (k_log s') -> In (ODone t true) (k_log s) \/ reason es s \/ reason (es ++ [e]) s' \/ exists m, In (OAsk m) (k_log s')) ->
  (forall t, In (ODone t false) (k_log s') -> In (ODone t false) (k_log s) \/ bad es s \/ bad (es ++ [e]) s') ->
  trace (es ++ [e]) s'.
Proof.
  intros T E. destruct (step_mono s e s' E) as [[l L] U].
  assert (A : accepted_here s -> accepted_here s') by (intros [m H]; exists m; rewrite L; apply in_or_app; auto).
  assert (R : reason es s -> reason (es ++ [e]) s').
  { unfold reason. rewrite !in_app_iff. intros [H|[H|[H|[[t H]|H]]]]; [left; auto|right; left; auto|right; right; left; auto|right; right; right; left; exists t; apply in_or_app; auto|right; right; right; right; auto]. }
  assert (B : bad es s -> bad (es ++ [e]) s') by (unfold bad; rewrite !in_app_iff; tauto).
  assert (O : forall o, In o (k_log s) -> In o (k_log s')) by (intros o H; rewrite L; apply in_or_app; auto).
  assert (X : forall f, In (KReply f) es -> In (KReply f) (es ++ [e])) by (intros; apply in_or_app; auto).
  destruct T. intros H1 H2 H3 H4 H5 H6 H7 H8 H9. constructor.
  - intros H. destruct (H1 H) as [|[|]]; auto.
  - intros t H. destruct (H2 t H) as [|[|]]; eauto.
  - intros t H. destruct (H3 t H) as [|[|]]; eauto.
  - intros f H. destruct (H4 f H) as [H'|H']; [|exact H']. specialize (t_queue0 f H'). destruct f; auto. tauto.
  - intros m H. destruct (H5 m H) as [H'|[H'|H']]; [| |exact H']; (assert (accepted_here s \/ k_up s = false) by eauto; tauto).
  - intros m H. destruct (H6 m H); eauto.
  - intros m b H. destruct (H7 m b H); eauto.
  - intros t H. destruct (H8 t H) as [H'|[H'|H']]; [|left; auto|exact H']. destruct (t_donet0 t H') as [H''|[m H'']]; eauto.
  - intros t H. destruct (H9 t H) as [|[|]]; eauto.
Qed.
Lemma trace_step es s e s' : trace es s -> kstep s e = Ok s' -> trace (es ++ [e]) s'.
Proof.
  intros T E. apply (trace_frame es s e s' T E); revert E.
  - intros E. destruct e; cbn [kstep resp_step clo_step] in E; cbv zeta in E; unfold decided, reply in E; split_step E; apply ok_inj in E; subst s'; fields; auto; intros X.
    + exfalso. congruence.
    + right. right. left. exists m. fields. apply in_or_app. left. apply in_or_app. right. left. reflexivity.
    + right. right. right. right. right. right. assumption.
    + right. left. right. right. right. right. eapply t_finish; eauto.
    + right. left. eapply t_true; eauto.
  - intros E t. destruct e; cbn [kstep resp_step clo_step] in E; cbv zeta in E; unfold decided, reply in E; split_step E; apply ok_inj in E; subst s'; fields; auto; intros H; lk; auto; try discriminate.
    + right. right. right. right. right. right. fields. apply negb_true_iff. assumption.
    + right. right. apply andb_true_iff in Heqb. destruct Heqb as [X1 X2]. right. right. right. left. exists t0. rewrite X1. apply in_or_app. right. left. reflexivity.
    + right. right. apply orb_true_iff in Heqb0. destruct Heqb0 as [X|X].
      * right. right. right. left. exists t0. rewrite X. apply in_or_app. right. left. reflexivity.
      * right. right. right. right. fields. apply negb_true_iff. exact X.
    + right. left. pose proof (t_queue es s T w) as Q. rewrite Heql in Q. specialize (Q (or_introl eq_refl)). unfold reason. destruct w; cbn in H; try discriminate; try tauto.
  - intros E t. destruct e; cbn [kstep resp_step clo_step] in E; cbv zeta in E; unfold decided, reply in E; split_step E; apply ok_inj in E; subst s'; fields; auto; intros H; lk; auto; try discriminate.
    + right. right. right. right. fields. assumption.
    + right. left. pose proof (t_queue es s T w) as Q. rewrite Heql in Q. specialize (Q (or_introl eq_refl)). unfold bad. destruct w; cbn in H; try discriminate; try tauto.
  - intros E f. destruct e; cbn [kstep resp_step clo_step] in E; cbv zeta in E; unfold decided, reply in E; split_step E; apply ok_inj in E; subst s'; fields; auto; intros H; lk; auto; try discriminate.
    + apply in_app_or in H. destruct H as [H|[<-|[]]]; [auto|right]. cbn. destruct (t_fake es s T m (or_intror Heqo)) as [[m' A]|A]; [left; exists m'; fields; apply in_or_app; auto|auto].
    + destruct H.
    + rewrite Heql in H. auto.
    + rewrite Heql in H. auto.
    + left. right. exact H.
    + apply in_app_or in H. destruct H as [H|[<-|[]]]; [auto|right]. unfold new_queue. apply in_or_app; right; left; reflexivity.
    + apply in_app_or in H. destruct H as [H|[<-|[]]]; [auto|right]. unfold new_queue. apply in_or_app; right; left; reflexivity.
    + apply in_app_or in H. destruct H as [H|[<-|[]]]; [auto|right]. unfold new_queue. apply in_or_app; right; left; reflexivity.
    + apply in_app_or in H. destruct H as [H|[<-|[]]]; [auto|right]. unfold new_queue. apply in_or_app; right; left; reflexivity.
  - intros E m0. destruct e; cbn [kstep resp_step clo_step] in E; cbv zeta in E; unfold decided, reply in E; split_step E; apply ok_inj in E; subst s'; fields; auto; intros [H|H]; lk; auto; try discriminate.
    + right. right. left. exists m. fields. apply in_or_app. right. left. reflexivity.
  - intros E m0. destruct e; cbn [kstep resp_step clo_step] in E; cbv zeta in E; unfold decided, reply in E; split_step E; apply ok_inj in E; subst s'; fields; auto; intros H; lk; auto; try discriminate.
  - intros E m0 b0. destruct e; cbn [kstep resp_step clo_step] in E; cbv zeta in E; unfold decided, reply in E; split_step E; apply ok_inj in E; subst s'; fields; auto; intros H; unfold less in H; cbn [In] in H; rewrite ?filter_In in H; try tauto.

    all: repeat match goal with H : _ \/ _ |- _ => destruct H | H : _ /\ _ |- _ => destruct H | H : In _ (filter _ _) |- _ => apply filter_In in H | H : (_, _) = (_, _) |- _ => injection H; clear H; intros; subst end; try discriminate; auto;
      try (right; apply in_or_app; right; left; congruence).
  - intros E t0. destruct e; cbn [kstep resp_step clo_step] in E; cbv zeta in E; unfold decided, reply in E; split_step E; apply ok_inj in E; subst s'; fields; auto; intros H; rewrite ?in_app_iff in H; cbn in H; repeat match goal with H : _ \/ _ |- _ => destruct H end; auto; try discriminate; try contradiction.

    + right. right. right. match goal with H : flagged s = true |- _ => unfold flagged in H; apply existsb_exists in H; destruct H as ([x q] & H1 & H2) end. cbn in H2. destruct q as [| | | | |[]| |]; try discriminate.
      exists x. apply in_or_app. left. eapply t_ask; eauto.
    + right. left. match goal with H : k_up s && k_in s = false |- _ => apply andb_false_iff in H; destruct H end; [right; right; right; right; assumption|]. apply (t_in es s T); auto.
    + right. left. eapply t_true; eauto.
  - intros E t0. destruct e; cbn [kstep resp_step clo_step] in E; cbv zeta in E; unfold decided, reply in E; split_step E; apply ok_inj in E; subst s'; fields; auto; intros H; rewrite ?in_app_iff in H; cbn in H; repeat match goal with H : _ \/ _ |- _ => destruct H end; auto; try discriminate; try contradiction.

    right. left. eapply t_false; eauto.
Qed.

Lemma krun_app s es fs : krun s (es ++ fs) = match krun s es with Ok s' => krun s' fs | UB => UB end.
Proof. revert s. induction es as [|e es IH]; intros s; [reflexivity|]. cbn. destruct (kstep s e); [apply IH|reflexivity]. Qed.
Lemma krun_snoc s es e s' : krun s (es ++ [e]) = Ok s' -> exists s1, krun s es = Ok s1 /\ kstep s1 e = Ok s'.
Proof.
  rewrite krun_app. destruct (krun s es) as [s1|] eqn:E; [|discriminate]. cbn. destruct (kstep s1 e) eqn:F; [|discriminate]. cbn. intros H. apply ok_inj in H. subst. eauto.
Qed.
Lemma trace0 : trace [] k0.
Proof. constructor; cbn; try discriminate; try contradiction. intros m [H|H]; discriminate. Qed.
Lemma trace_run es s : krun k0 es = Ok s -> trace es s.
Proof.
  revert s. induction es as [|e es IH] using rev_ind; intros s H.
  - cbn in H. apply ok_inj in H. subst s. apply trace0.
  - apply krun_snoc in H. destruct H as (s1 & H1 & H2). eapply trace_step; eauto.
Qed.
Lemma inv0 : inv k0.
Proof. constructor; cbn; try discriminate; try contradiction; auto; try lia; intros; discriminate. Qed.
Lemma calmly_run s es : inv s -> (forall m, good s m) -> fresh s -> known s -> calmly s es -> exists s', krun s es = Ok s' /\ inv s' /\ (forall m, good s' m) /\ fresh s' /\ known s'.
Proof.
  revert s. induction es as [|e es IH]; intros s I G F K C.
  - exists s. auto.
  - destruct C as [C1 C2]. destruct (inv_step s e I K C1) as (s1 & E & I1). destruct (good_step s e s1 G F I K C1 E) as (G1 & F1 & K1).
    destruct (IH s1 I1 G1 F1 K1 (C2 s1 E)) as (s' & E' & R). exists s'. cbn. rewrite E. cbn. auto.
Qed.
Lemma good0 m : good k0 m.
Proof. unfold good, valid. cbn. lia. Qed.
Theorem answered_thm es : calmly k0 es -> exists s, krun k0 es = Ok s /\ forall m,
  (length (answers m (k_log s)) <= 1)%nat /\
  (0 <= m < k_reqs s -> at_r s m = None -> k_up s = true -> (exists a, answers m (k_log s) = [a]) \/ deferred s m).
Proof.
  intros C. destruct (calmly_run k0 es inv0 good0) as (s & E & I & G & F & K); auto; [intros m _; reflexivity|intros m []|].
  exists s. split; [exact E|]. intros m. specialize (G m). unfold good in G. split.
  - assert (N : ~ valid s m -> (length (answers m (k_log s)) <= 1)%nat) by (intros V; rewrite (F m V); cbn; lia).
    destruct (at_r s m) as [p|] eqn:P.
    + destruct p as [| | | | |b| |[]]; try (rewrite G; cbn; lia); try (destruct G as [G|[G _]]; rewrite G; cbn; lia). destruct G as [G _]. rewrite G. cbn. lia.
    + destruct (Z_le_dec 0 m), (Z_lt_dec m (k_reqs s)); try (apply N; unfold valid; lia). destruct G as [[a G]|[G _]]; [split; assumption| |]; rewrite G; cbn; lia.
  - intros V P U. rewrite P in G. destruct (G V) as [A|[A [B|B]]]; [auto| |congruence]. right. split; auto.
Qed.
Theorem removed_thm es s : krun k0 es = Ok s -> k_in s = false -> reason es s.
Proof. intros E. apply (t_in es s (trace_run es s E)). Qed.
Theorem returned_thm es s t : krun k0 es = Ok s ->
  (In (ODone t true) (k_log s) -> reason es s \/ exists m, In (OAsk m) (k_log s)) /\
  (In (ODone t false) (k_log s) -> In (KReply FErr) es \/ In (KReply FBad) es \/ k_up s = false).
Proof. intros E. pose proof (trace_run es s E) as T. split; [apply (t_donet es s T)|apply (t_donef es s T)]. Qed.
