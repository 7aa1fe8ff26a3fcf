(** After a close that fails; closes that cross. *)
From Verif Require Import Base CloseModel CloseSpec CloseProofs CloseProofs2 CloseProofs3 CloseProofs4.

Record stuck (s : kst) : Prop := mkStuck {
  s_being : k_being s = true;
  s_in : k_in s = true;
  s_r : forall m p, look (k_resp s) m = Some p -> rown p = false;
  s_c : forall t p, look (k_clo s) t = Some p -> cown p = false
}.
Definition useless (l : list kobs) (s : kst) : Prop := ~ In (OMsg true) l /\ (k_up s = true -> forall t r, ~ In (ODone t r) l).
Lemma no_handler s : inv s -> k_being s = true -> forall m b, look (k_resp s) m <> Some (RHandler b).
Proof. intros I B m b H. pose proof (i_held s I m (i_mutex s I m b H)). congruence. Qed.
Lemma stuck_step s e s' : inv s -> (forall x, In x (k_resp s) -> look (k_resp s) (fst x) = Some (snd x)) -> stuck s -> calm s e -> kstep s e = Ok s' -> stuck s' /\ exists l, k_log s' = k_log s ++ l /\ useless l s'.
Proof.
  intros I ND S C E. pose proof (no_handler s I (s_being s S)) as NH.
  assert (Fl : flagged s = false).
  { unfold flagged. destruct (existsb _ _) eqn:X; [|reflexivity]. apply existsb_exists in X. destruct X as ([m q] & X1 & X2). cbn in X2. specialize (ND _ X1). cbn in ND.
    destruct q as [| | | | |[]| |]; try discriminate. destruct (NH _ _ ND). }
  destruct S as [B N R T]. 
  assert (U0 : useless [] s') by (split; intros; intros []).
  destruct e; cbn [kstep resp_step clo_step] in E; cbv zeta in E; rewrite ?at_r_look, ?at_c_look in *; unfold decided, reply in E; split_step E; apply ok_inj in E; subst s';
    rewrite ?at_r_look, ?at_c_look in *; fields; try congruence;
    try (exfalso; match goal with H : look (k_resp s) ?m = Some ?q |- _ => first [exact (NH _ _ H) | discriminate (R _ _ H)] end);
    try (exfalso; match goal with H : look (k_clo s) ?m = Some ?q |- _ => discriminate (T _ _ H) end).
  all: split; [|try (exists []; rewrite app_nil_r; auto; fail)].
  all: try (constructor; fields; auto; intros ? ? H; lk; eauto; fail).
  all: rewrite ?app_assoc_reverse; try (eexists; split; [reflexivity|split; cbn; [intuition discriminate|intros; intuition discriminate]]; fail).
  - exfalso. destruct C as (_ & _ & C). destruct (C eq_refl). congruence.
  - assert (Up : k_up s = false) by (match goal with H : k_up s && k_in s = false |- _ => rewrite N, andb_true_r in H; exact H end).
    eexists; split; [reflexivity|]. split; cbn; [intuition discriminate|]. fields. congruence.
  - exfalso. match goal with H : k_being s || _ = false |- _ => rewrite B in H; discriminate H end.
Qed.
Definition nd (l : list (Z * rphase)) : Prop := forall x, In x l -> look l (fst x) = Some (snd x).
Lemma nd_less l m : nd l -> nd (less l m).
Proof. intros H x X. rewrite look_less. unfold less in X. apply filter_In in X. destruct X as [X1 X2]. apply negb_true_iff in X2. rewrite X2. apply H, X1. Qed.
Lemma nd_put l m p : nd l -> nd ((m, p) :: less l m).
Proof.
  intros H x [<-|X]; rewrite look_put; [cbn; rewrite Z.eqb_refl; reflexivity|]. unfold less in X. apply filter_In in X. destruct X as [X1 X2]. apply negb_true_iff in X2. rewrite X2. apply H, X1.
Qed.
Lemma nd_step s e s' : nd (k_resp s) -> kstep s e = Ok s' -> nd (k_resp s').
Proof.
  intros H E. destruct e; cbn [kstep resp_step clo_step] in E; cbv zeta in E; unfold decided, reply in E; split_step E; apply ok_inj in E; subst s'; fields; auto using nd_less, nd_put.
Qed.
Lemma end_false s e s' t : inv s -> kstep s e = Ok s' -> In (ODone t false) (k_log s') -> In (ODone t false) (k_log s) \/ stuck s'.
Proof.
  intros I E. destruct e; cbn [kstep resp_step clo_step] in E; cbv zeta in E; unfold decided, reply in E; split_step E; apply ok_inj in E; subst s'; fields; auto; intros H; rewrite ?in_app_iff in H; cbn in H; repeat match goal with H : _ \/ _ |- _ => destruct H end; auto; try discriminate; try contradiction.
  right. match goal with H : at_c s ?x = Some (CEnd false) |- _ => rename H into P; destruct (i_cown s I _ _ P eq_refl) as [B N] end. constructor; fields; auto.
  - intros m p L. destruct (rown p) eqn:R; [|reflexivity]. exfalso. eapply (i_apart s I m p); eauto.
  - intros t1 p L. rewrite look_less in L. destruct (t1 =? t0) eqn:T; [discriminate|]. destruct (cown p) eqn:R; [|reflexivity]. exfalso. apply Z.eqb_neq in T. apply T. eapply (i_only s I t1 p t0); eauto.
Qed.
Lemma calmly_app s es fs : calmly s (es ++ fs) <-> calmly s es /\ forall s', krun s es = Ok s' -> calmly s' fs.
Proof.
  revert s. induction es as [|e es IH]; intros s; cbn.
  - split; [intros H; split; [exact Logic.I|intros s' E; apply ok_inj in E; subst; exact H]|intros [_ H]; auto].
  - split.
    + intros [H1 H2]. conj; [exact H1| |].
      * intros s' E. apply IH, H2, E.
      * intros s' E. destruct (kstep s e) as [s1|] eqn:F; [|discriminate]. cbn in E. apply (IH s1); auto.
    + intros [[H1 H2] H3]. split; [exact H1|]. intros s' E. rewrite E in H3. cbn in H3. apply IH. auto.
Qed.
Definition safe (s : kst) : Prop := inv s /\ (forall m, good s m) /\ fresh s /\ known s /\ nd (k_resp s).
Lemma safe_step s e : safe s -> calm s e -> exists s', kstep s e = Ok s' /\ safe s'.
Proof.
  intros (I & G & F & K & D) C. destruct (inv_step s e I K C) as (s' & E & I'). exists s'. split; [exact E|]. destruct (good_step s e s' G F I K C E) as (G' & F' & K').
  unfold safe. conj; auto. eapply nd_step; eauto.
Qed.
Lemma safe0 : safe k0.
Proof. unfold safe. conj; [apply inv0|apply good0|intros m _; reflexivity|intros m []|intros x []]. Qed.
Lemma safe_run s es s' : safe s -> calmly s es -> krun s es = Ok s' -> safe s'.
Proof.
  revert s. induction es as [|e es IH]; intros s S C E; cbn in *.
  - apply ok_inj in E. subst. exact S.
  - destruct C as [C1 C2]. destruct (safe_step s e S C1) as (s1 & F & S1). rewrite F in E. cbn in E. eauto.
Qed.
Lemma up_run s es s' : krun s es = Ok s' -> k_up s = false -> k_up s' = false.
Proof.
  revert s. induction es as [|e es IH]; intros s E U; cbn in E.
  - apply ok_inj in E. subst. exact U.
  - destruct (kstep s e) as [s1|] eqn:F; [|discriminate]. cbn in E. apply (IH s1 E). apply (step_mono s e s1 F). exact U.
Qed.
Lemma stuck_run s es s' : safe s -> stuck s -> calmly s es -> krun s es = Ok s' -> stuck s' /\ exists l, k_log s' = k_log s ++ l /\ useless l s'.
Proof.
  revert s. induction es as [|e es IH]; intros s S K C E; cbn in *.
  - apply ok_inj in E. subst. split; [exact K|]. exists []. rewrite app_nil_r. split; [reflexivity|]. split; intros; intros [].
  - destruct C as [C1 C2]. destruct (safe_step s e S C1) as (s1 & F & S1). rewrite F in E. cbn in E. destruct S as (I & G & Fr & Kn & D).
    destruct (stuck_step s e s1 I D K C1 F) as (K1 & l1 & L1 & U1 & U2). destruct (IH s1 S1 K1 (C2 s1 F) E) as (K' & l & L & U3 & U4). split; [exact K'|].
    exists (l1 ++ l). rewrite L, L1, app_assoc. split; [reflexivity|]. split.
    + rewrite in_app_iff. tauto.
    + intros Up t r. rewrite in_app_iff. intros [H|H]; [|apply (U4 Up t r H)]. apply (U2 ltac:(destruct (k_up s1) eqn:X; [reflexivity|exfalso; revert Up; rewrite (up_run s1 es s' E X); discriminate]) t r H).
Qed.
Lemma stuck_reach es s t : calmly k0 es -> krun k0 es = Ok s -> In (ODone t false) (k_log s) -> stuck s.
Proof.
  revert s. induction es as [|e es IH] using rev_ind; intros s C E H.
  - cbn in E. apply ok_inj in E. subst s. destruct H.
  - apply calmly_app in C. destruct C as [C1 C2]. apply krun_snoc in E. destruct E as (s1 & E1 & E2). pose proof (safe_run k0 es s1 safe0 C1 E1) as S. destruct (C2 s1 E1) as [C3 _].
    destruct S as (I & G & Fr & Kn & D). destruct (end_false s1 e s t I E2 H) as [H'|H']; [|exact H']. apply (stuck_step s1 e s I D (IH s1 C1 E1 H') C3 E2).
Qed.
Theorem stuck_thm es fs s s' t : calmly k0 (es ++ fs) -> krun k0 es = Ok s -> In (ODone t false) (k_log s) -> krun s fs = Ok s' ->
  k_in s' = true /\ exists l, k_log s' = k_log s ++ l /\ ~ In (OMsg true) l /\ (k_up s' = true -> forall t r, ~ In (ODone t r) l).
Proof.
  intros C E H F. apply calmly_app in C. destruct C as [C1 C2].
  destruct (stuck_run s fs s' (safe_run k0 es s safe0 C1 E) (stuck_reach es s t C1 E H) (C2 s E) F) as (K & l & L & U). split; [apply (s_in s' K)|eauto].
Qed.

(** What the next steps lead to. *)
Lemma reach_safe es s : calmly k0 es -> krun k0 es = Ok s -> safe s.
Proof. intros C E. exact (safe_run k0 es s safe0 C E). Qed.
Lemma look_self {A} (l : list (Z * A)) m p : look ((m, p) :: less l m) m = Some p.
Proof. rewrite look_put, Z.eqb_refl. reflexivity. Qed.
Theorem accepted_thm es s m : calmly k0 es -> krun k0 es = Ok s -> at_r s m = Some RWait -> k_mutex s = None -> k_up s = true -> k_out s <= 0 ->
  exists s', krun s [KReplies m; KFinish m] = Ok s' /\ k_in s' = false /\ answers m (k_log s') = [AOk].
Proof.
  intros C E P M U O. destruct (reach_safe es s C E) as (I & G & F & K & D). destruct (i_rown s I m _ P eq_refl) as [B N]. pose proof (G m) as Gm. unfold good in Gm. rewrite P in Gm.
  eexists. conj.
  - cbn [krun kstep resp_step]. rewrite P, (not_freed s N), M. fields. apply Z.leb_le in O. rewrite O. cbn [obind].
    rewrite at_r_look. fields. rewrite look_self. rewrite not_freed by (fields; exact N). fields. rewrite M. reflexivity.
  - reflexivity.
  - unfold reply. fields. rewrite U. fields. rewrite !answers_app, Gm, !answers_cons, Z.eqb_refl. reflexivity.
Qed.
Theorem crossed_thm es s m t : calmly k0 es -> krun k0 es = Ok s -> at_r s m = Some RFake -> at_c s t = Some CPend -> k_queue s = [] -> k_up s = true ->
  exists s', krun s [KFake m; KFakeRef m; KTake t false; KStep t] = Ok s' /\ k_in s' = false /\ answers m (k_log s') = [AOk] /\ In (ODone t true) (k_log s').
Proof.
  intros C E P Q Q0 U. destruct (reach_safe es s C E) as (I & G & F & K & D). destruct (i_cown s I t _ Q eq_refl) as [B N]. destruct (i_refs s I t _ Q eq_refl) as [R W].
  pose proof (G m) as Gm. unfold good in Gm. rewrite P in Gm. destruct Gm as [Gm|[_ Gm]]; [|congruence].
  assert (Z0 : k_wrefs s =? 0 = false) by (destruct (k_sent s); lia).
  eexists. conj.
  - cbn [krun kstep resp_step]. rewrite P, W. cbn [obind]. rewrite at_r_look. fields. rewrite look_self, Z0. cbn [obind].
    cbn [clo_step]. rewrite at_c_look. fields. rewrite <- at_c_look, Q. rewrite Q0. cbn [andb app]. rewrite not_freed by (fields; exact N). cbn [obind].
    rewrite at_c_look. fields. rewrite look_self. rewrite not_freed by (fields; exact N). cbn [verdict]. reflexivity.
  - reflexivity.
  - fields. rewrite !answers_app, Gm. reflexivity.
  - fields. rewrite !in_app_iff. cbn. auto.
Qed.
Theorem took_thm es s t f q : calmly k0 es -> krun k0 es = Ok s -> at_c s t = Some CPend -> k_queue s = f :: q ->
  exists s', krun s [KTake t false; KStep t] = Ok s' /\ k_in s' = negb (verdict (Some f)) /\ k_log s' = k_log s ++ [OTook t (Some f); ODone t (verdict (Some f))].
Proof.
  intros C E Q Q0. destruct (reach_safe es s C E) as (I & G & F & K & D). destruct (i_cown s I t _ Q eq_refl) as [B N].
  assert (S : krun s [KTake t false] = Ok (go_c (with_log (with_wait s false q (k_wrefs s - 1) (k_sent s)) [OTook t (Some f)]) t (CEnd (verdict (Some f))))).
  { cbn [krun kstep clo_step]. rewrite Q. cbv zeta. rewrite Q0, (not_freed s N). reflexivity. }
  change [KTake t false; KStep t] with ([KTake t false] ++ [KStep t]). rewrite krun_app, S. cbn [krun kstep clo_step]. rewrite at_c_look. fields. rewrite look_self. rewrite not_freed by (fields; exact N).
  destruct (verdict (Some f)); eexists; (split; [reflexivity|]); fields; rewrite app_assoc_reverse; auto.
Qed.

(** Executions. *)
Ltac nobody := cbn [calm] in *; unfold untouched, not; intros; unfold at_r, at_c in *; cbn [find fst k_resp k_clo] in *;
  repeat match goal with H : context [if ?b then _ else _] |- _ => destruct b end; cbn [option_map snd] in *; try discriminate;
  repeat match goal with H : Some _ = Some _ |- _ => injection H; clear H; intros; subst end; cbn [touching] in *; try contradiction; try discriminate.
Ltac calm_one := first [exact Logic.I | reflexivity | discriminate | (split; nobody; fail) | (nobody; fail) | (cbn [calm at_c find fst snd option_map k_clo Z.eqb Pos.eqb]; first [exact Logic.I | discriminate | (split; nobody; fail)])].
Ltac calm_go := repeat (split; [calm_one|intros ? S; vm_compute in S; apply ok_inj in S; subst]); exact Logic.I.
Definition start_close (t : Z) : list kev := [KClose t; KStep t; KStep t; KStep t; KStep t].
(** The close is refused by the peer, with an error; then a message. *)
Definition refused_run : list kev := start_close 1 ++ [KReply FErr; KTake 1 false; KStep 1].
Lemma refused_calm : calmly k0 (refused_run ++ [KMsg; KReq (Some true); KExists 0; KGet 0; KLock 0 (MNone true); KFake 0]).
Proof. unfold refused_run, start_close. cbn [app]. calm_go. Qed.
(** The message sent after the refusal fails, and a later close request of the
    peer is answered with ok without removing the channel. *)
Lemma refused_thm : exists es s, calmly k0 es /\ krun k0 es = Ok s /\ k_up s = true /\ In (ODone 1 false) (k_log s) /\ In (OMsg false) (k_log s) /\ answers 0 (k_log s) = [AOk] /\ k_in s = true.
Proof.
  exists (refused_run ++ [KMsg; KReq (Some true); KExists 0; KGet 0; KLock 0 (MNone true); KFake 0]). eexists.
  conj; [apply refused_calm|vm_compute; reflexivity|reflexivity|cbn; auto 10|cbn; auto 10|reflexivity|reflexivity].
Qed.
(** TRUE without agreement: no answer in time, an answer of another type, and a
    call made inside a close handler that then refuses. *)
Lemma timeout_thm : exists es s, calmly k0 es /\ krun k0 es = Ok s /\ k_up s = true /\ In (ODone 1 true) (k_log s) /\ k_in s = false /\ (forall f, ~ In (KReply f) es) /\ k_reqs s = 0.
Proof.
  exists (start_close 1 ++ [KTake 1 true; KStep 1]). eexists. conj; [unfold start_close; cbn [app]; calm_go|vm_compute; reflexivity|reflexivity|cbn; auto 10|reflexivity| |reflexivity].
  intros f H. cbn in H. repeat (destruct H as [H|H]; [discriminate|]). exact H.
Qed.
Lemma other_thm : exists es s, calmly k0 es /\ krun k0 es = Ok s /\ k_up s = true /\ In (ODone 1 true) (k_log s) /\ k_in s = false /\ (forall f, In (KReply f) es -> f = FOther) /\ k_reqs s = 0.
Proof.
  exists (start_close 1 ++ [KReply FOther; KTake 1 false; KStep 1]). eexists. conj; [unfold start_close; cbn [app]; calm_go|vm_compute; reflexivity|reflexivity|cbn; auto 10|reflexivity| |reflexivity].
  intros f H. cbn in H. repeat (destruct H as [H|H]; [congruence|]). destruct H.
Qed.
Lemma inside_thm : exists es s, calmly k0 es /\ krun k0 es = Ok s /\ k_up s = true /\ In (ODone 1 true) (k_log s) /\ k_in s = true /\ answers 0 (k_log s) = [AErr 550].
Proof.
  exists [KReq (Some true); KExists 0; KGet 0; KLock 0 MHandler; KClose 1; KDecide 0 false]. eexists. conj; [calm_go|vm_compute; reflexivity|reflexivity|cbn; auto 10|reflexivity|reflexivity].
Qed.
(** The request of the peer is served just before the wait object is set: it is
    answered with ok, so the peer removes the channel and refuses our close. *)
Lemma uncrossed_thm : exists es s, calmly k0 es /\ krun k0 es = Ok s /\ k_up s = true /\ answers 0 (k_log s) = [AOk] /\ In (ODone 1 false) (k_log s) /\ k_in s = true.
Proof.
  exists ([KClose 1; KStep 1; KReq (Some true); KExists 0; KGet 0; KLock 0 (MNone true); KFake 0; KStep 1; KStep 1; KStep 1; KReply FErr; KTake 1 false; KStep 1]).
  eexists. conj; [calm_go|vm_compute; reflexivity|reflexivity|reflexivity|cbn; auto 12|reflexivity].
Qed.
(** Undefined behaviour: a request without number; two requests for the channel;
    the request of the peer while our own close ends; a call to
    vortex_channel_close while a request of the peer is served. *)
Lemma undefined_thm : krun k0 [KReq (Some false)] = UB /\
  krun k0 [KReq (Some true); KReq (Some true); KExists 0; KGet 0; KLock 0 (MNone true); KExists 1; KReplies 0; KFinish 0; KGet 1] = UB /\
  krun k0 (start_close 1 ++ [KReq (Some true); KExists 0; KReply FOk; KTake 1 false; KStep 1; KGet 0]) = UB /\
  krun k0 [KReq (Some true); KExists 0; KGet 0; KClose 1; KLock 0 (MNone true); KReplies 0; KFinish 0; KStep 1] = UB.
Proof. vm_compute. auto. Qed.
Lemma undefined_ex : exists malformed twice crossing calling,
  krun k0 malformed = UB /\ krun k0 twice = UB /\ krun k0 crossing = UB /\ krun k0 calling = UB.
Proof. do 4 eexists. exact undefined_thm. Qed.

(** A reference of another thread keeps the channel in memory. *)
Lemma find_existsb {A} (f g : A -> bool) l x : find f l = Some x -> g x = true -> existsb g l = true.
Proof. intros F G. apply existsb_exists. exists x. split; [apply find_some in F; tauto|exact G]. Qed.
Lemma referenced_thm s t : (at_c s t = Some CLoop \/ exists p, at_r s t = Some p /\ (p = RLock \/ p = RFake \/ p = RFakeRef)) ->
  (exists s', kstep s KMsg = Ok s') /\ forall u, at_c s u <> Some CLoop -> exists s', kstep s (KStep u) = Ok s'.
Proof.
  intros H. assert (F : freed s = false).
  { unfold freed. destruct H as [H|(p & H & D)].
    - unfold at_c in H. destruct (find _ _) as [[a q]|] eqn:E; [|discriminate]. cbn in H. injection H as ->.
      rewrite (find_existsb _ holds_c _ _ E eq_refl). rewrite !andb_false_r. reflexivity.
    - unfold at_r in H. destruct (find _ _) as [[a q]|] eqn:E; [|discriminate]. cbn in H. injection H as ->.
      rewrite (find_existsb _ holds_r _ _ E); [rewrite !andb_false_r; reflexivity|]. destruct D as [D|[D|D]]; subst; reflexivity. }
  split.
  - cbn [kstep]. rewrite F. destruct (_ || _); eauto.
  - intros u N. cbn [kstep clo_step]. destruct (at_c s u) as [[]|] eqn:E; rewrite ?F; eauto; try tauto;
      repeat match goal with |- context [match ?x with _ => _ end] => destruct x end; eauto.
Qed.
