(** Proofs about the reader loop: foreach, stop, what stays watched. *)
From Verif Require Import Base LoopModel LoopSpec LoopProofs.

(** * Foreach *)
Definition owe (k : nat) (s : lst) : Z := asked k (l_log s) - ended k (l_log s) - awaited k (l_queue s) - awaited k (l_left s).
Ltac owing := unfold owe in *; st; unfold asked, ended, awaited in *; rewrite ?cnt_app; cbn [cnt].
Lemma owe_phase : forall k s p o, (forall x, ~ In (LAsk x) o) -> (forall x, ~ In (LDone x) o) -> owe k (with_phase s p o) = owe k s.
Proof.
  intros c s p o T D. owing. assert (A : cnt (fun o => match o with LAsk x => Nat.eqb x c | _ => false end) o = 0 /\ cnt (fun o => match o with LDone x => Nat.eqb x c | _ => false end) o = 0).
  { induction o as [|x o IH]; [split; reflexivity|]. destruct IH as [I1 I2].
    - intros y I. apply (T y). right. exact I.
    - intros y I. apply (D y). right. exact I.
    - cbn [cnt]. rewrite I1, I2. destruct x as [|y|y|y|y| | | | |z| |]; try (split; reflexivity); exfalso; [apply (D y)|apply (T z)]; left; reflexivity. }
  lia.
Qed.
Lemma owe_queue : forall c s i q, l_queue s = i :: q -> owe c (with_queue s q) = owe c s + awaited c [i].
Proof. intros c s i q Q. owing. rewrite Q. cbn [cnt]. lia. Qed.
Lemma owe_foreach : forall c s p t k f, owe c (with_phase s p (foreach t k f)) = owe c s - awaited c [IForeach k f].
Proof.
  intros c s p t k f. unfold foreach. owing. destruct f; rewrite ?cnt_map, ?(cnt_none _ (fun _ => false)) by reflexivity; cbn [cnt]; lia.
Qed.
Lemma owe_register : forall c s i, owe c (fst (register s i)) = owe c s.
Proof. intros c s i. unfold register. destruct i as [x|x| | | |k f]; [destruct (l_up s x)| | | | |]; try reflexivity. owing. lia. Qed.
Lemma owe_reg2 : forall c s i t b, register s i = (t, b) -> owe c t = owe c s.
Proof. intros c s i t b E. pose proof (owe_register c s i) as B. rewrite E in B. exact B. Qed.
Lemma owe_stop : forall c s, owe c (stop s) = owe c s.
Proof. intros c s. unfold stop. owing. rewrite !cnt_map, !(cnt_none _ (fun _ => false)) by reflexivity. lia. Qed.
Lemma owe_unlink : forall c s srv i x p, owe c (unlink s srv i x p) = owe c s.
Proof. intros. unfold unlink. owing. lia. Qed.
Lemma owe_pending : forall c s n, owe c (pending s n) = owe c s.
Proof.
  intros c s n. unfold pending. destruct (l_queue s) as [|i q] eqn:Q; [reflexivity|]. pose proof (owe_queue c s i q Q) as B.
  destruct i as [x|x| | | |k f]; rewrite ?owe_foreach, ?owe_phase by quiet; rewrite ?owe_register, B; unfold awaited; cbn [cnt]; lia.
Qed.
Lemma owe_first : forall c s, owe c (first s) = owe c s.
Proof.
  intros c s. unfold first. destruct (l_queue s) as [|i q] eqn:Q; [reflexivity|]. pose proof (owe_queue c s i q Q) as B.
  destruct (register (with_queue s q) i) as [t b] eqn:R. pose proof (owe_reg2 c _ _ _ _ R) as B2.
  destruct i as [x|x| | | |k f]; rewrite ?owe_foreach, ?owe_stop, ?owe_phase by quiet; unfold awaited in *; cbn [cnt] in *; lia.
Qed.
Lemma owe_tick : forall c s add r, (forall b, l_phase s <> PChange b) -> owe c (tick s add r) = owe c s.
Proof.
  intros c s add r NC. unfold tick. destruct (l_phase s) as [| |srv i set|set|l|srv i k n ready|n go|back| |]; try reflexivity.
  - apply owe_first.
  - destruct (l_con s), (l_srv s); apply owe_phase; quiet.
  - destruct (nth_error (the_list s srv) i) as [x|] eqn:N; [|apply owe_phase; quiet].
    destruct (negb (l_up s x)); [apply owe_unlink|]. destruct (l_unwatch s x); [rewrite owe_unlink; reflexivity|].
    destruct (l_blocked s x); [apply owe_phase; quiet|]. destruct add; [apply owe_phase; quiet|]. rewrite owe_unlink; reflexivity.
  - destruct r; try reflexivity; try (apply owe_phase; quiet); [destruct (Nat.eqb _ 2); reflexivity|apply owe_stop].
  - destruct l; [reflexivity|apply owe_phase; quiet].
  - destruct srv.
    + destruct (nth_error (l_srv s) i) as [x|] eqn:N; [|apply owe_phase; quiet]. destruct (negb (l_up s x)); [apply owe_unlink|].
      destruct (existsb (Nat.eqb x) ready); match goal with |- context [?a =? ?b] => destruct (a =? b) end; apply owe_phase; quiet.
    + destruct (nth_error (l_con s) i) as [x|] eqn:N; [|reflexivity]. destruct (n =? k); [reflexivity|]. destruct (negb (l_up s x)); [apply owe_unlink|].
      destruct (existsb (Nat.eqb x) ready); apply owe_phase; quiet.
  - destruct n as [|n]; [destruct go; [apply owe_phase; quiet|apply owe_stop]|apply owe_pending].
  - contradiction (NC back). reflexivity.
Qed.

(** Without a change of the mechanism, the loop never waits for one, and the requests it
    is going to read are in the queue. *)
Definition quiet_io (s : lst) : Prop :=
  (forall b, l_phase s <> PChange b) /\ existsb is_change (l_queue s) = false /\ (forall n go, l_phase s = PPending n go -> (n <= length (l_queue s))%nat).
Lemma quiet_pend : forall s s', quiet_io s -> l_queue s' = l_queue s ->
  (l_phase s' = PFirst \/ l_phase s' = PLoop \/ (exists a b c, l_phase s' = PBuild a b c) \/ (exists a, l_phase s' = PWait a) \/ (exists a, l_phase s' = PDispatch a) \/
   (exists a b c d e, l_phase s' = PCheck a b c d e) \/ l_phase s' = PPending (length (l_queue s)) true \/ l_phase s' = PStopped \/ l_phase s' = PDead) -> quiet_io s'.
Proof.
  intros s s' [Q1 [Q2 Q3]] E C. unfold quiet_io. rewrite E.
  destruct C as [C|[C|[[a [b [c C]]]|[[a C]|[[a C]|[[a [b [c [d [e C]]]]]|[C|[C|C]]]]]]]]; rewrite C; (split; [discriminate|split; [exact Q2|]]); try discriminate.
  intros n go X. injection X as <- _. lia.
Qed.
Lemma existsb_app' : forall A (f : A -> bool) l m, existsb f (l ++ m) = existsb f l || existsb f m.
Proof. intros. apply existsb_app. Qed.
Lemma reg_same : forall s i, l_queue (fst (register s i)) = l_queue s /\ l_left (fst (register s i)) = l_left s /\ l_phase (fst (register s i)) = l_phase s.
Proof. intros s i. unfold register. destruct i; try (conj; reflexivity). destruct (l_up s c); conj; reflexivity. Qed.
Lemma quiet_first : forall s, quiet_io s -> quiet_io (first s).
Proof.
  intros s Q. unfold first. destruct (l_queue s) as [|i q] eqn:E; [exact Q|]. destruct Q as [Q1 [Q2 Q3]]. rewrite E in Q2. cbn [existsb] in Q2. apply orb_false_iff in Q2. destruct Q2 as [C Q2].
  pose proof (reg_same (with_queue s q) i) as [R1 [R2 R3]]. destruct (register (with_queue s q) i) as [t b]. sti R1.
  destruct i as [x|x| | | |k f]; try discriminate; unfold quiet_io, stop; st; rewrite ?R1; conj; try discriminate; auto; destruct b; discriminate.
Qed.
Lemma quiet_pending : forall s n, (S n <= length (l_queue s))%nat -> quiet_io s -> quiet_io (pending s n).
Proof.
  intros s n L Q. unfold pending. destruct (l_queue s) as [|i q] eqn:E; [exact Q|]. destruct Q as [Q1 [Q2 Q3]]. rewrite E in Q2. cbn [existsb] in Q2. apply orb_false_iff in Q2. destruct Q2 as [C Q2].
  pose proof (reg_same (with_queue s q) i) as [R1 [R2 R3]]. sti R1. cbn [length] in L.
  destruct i as [x|x| | | |k f]; try discriminate; unfold quiet_io; st; rewrite ?R1; conj; try discriminate; auto; intros m go X; injection X as <- _; lia.
Qed.
Lemma quiet_tick : forall s add r, quiet_io s -> quiet_io (tick s add r).
Proof.
  intros s add r Q. unfold tick. destruct (l_phase s) as [| |srv i set|set|l|srv i k n ready|n go|back| |] eqn:P; try exact Q.
  - apply quiet_first. exact Q.
  - destruct (l_con s), (l_srv s); (eapply quiet_pend; [exact Q|reflexivity|]); st; eauto 12.
  - destruct (nth_error (the_list s srv) i) as [x|] eqn:N; [|eapply quiet_pend; [exact Q|reflexivity|]; st; destruct srv; eauto 12].
    destruct (negb (l_up s x)); [eapply quiet_pend; [exact Q|reflexivity|]; unfold unlink; st; eauto 12|].
    destruct (l_unwatch s x); [eapply quiet_pend; [exact Q|reflexivity|]; unfold unlink; st; eauto 12|].
    destruct (l_blocked s x); [|destruct add]; (eapply quiet_pend; [exact Q|reflexivity|]; unfold unlink; st; eauto 12).
  - destruct r; [| |split; [discriminate|split; [reflexivity|discriminate]]| |].
    + eapply quiet_pend; [exact Q|reflexivity|]. st. eauto 12.
    + destruct (Nat.eqb _ 2); (eapply quiet_pend; [exact Q|reflexivity|]; st; eauto 12).
    + eapply quiet_pend; [exact Q|reflexivity|]; st; eauto 12.
    + eapply quiet_pend; [exact Q|reflexivity|]; st; eauto 12.
  - destruct l; (eapply quiet_pend; [exact Q|reflexivity|]; st; eauto 12).
  - destruct srv.
    + destruct (nth_error (l_srv s) i) as [x|] eqn:N; [|eapply quiet_pend; [exact Q|reflexivity|]; st; eauto 12].
      destruct (negb (l_up s x)); [eapply quiet_pend; [exact Q|reflexivity|]; unfold unlink; st; eauto 12|].
      match goal with |- context [?a =? ?b] => destruct (a =? b) end; (eapply quiet_pend; [exact Q|reflexivity|]; st; eauto 12).
    + destruct (nth_error (l_con s) i) as [x|] eqn:N; [|eapply quiet_pend; [exact Q|reflexivity|]; st; eauto 12].
      destruct (n =? k); [eapply quiet_pend; [exact Q|reflexivity|]; st; eauto 12|]. destruct (negb (l_up s x)); [eapply quiet_pend; [exact Q|reflexivity|]; unfold unlink; st; eauto 12|].
      destruct (existsb (Nat.eqb x) ready); (eapply quiet_pend; [exact Q|reflexivity|]; st; eauto 12).
  - pose proof Q as [_ [_ Q3]]. specialize (Q3 n go P). destruct n as [|n]; [destruct go|].
    + eapply quiet_pend; [exact Q|reflexivity|]; st; eauto 12.
    + split; [discriminate|split; [reflexivity|discriminate]].
    + apply quiet_pending; auto.
  - destruct Q as [Q1 _]. contradiction (Q1 back).
Qed.
Definition no_change (e : lev) : Prop := e <> Change.
Lemma quiet_push : forall s i o s', quiet_io s -> is_change i = false -> push s i o = Ok s' -> quiet_io s'.
Proof.
  intros s i o s' [Q1 [Q2 Q3]] C E. apply push_ok in E. destruct E as [_ ->]. unfold quiet_io. st. rewrite existsb_app', Q2. cbn [existsb]. rewrite C.
  conj; auto. intros n go P. specialize (Q3 n go P). rewrite app_length. lia.
Qed.
Lemma quiet_step : forall s e s', quiet_io s -> e <> Change -> lstep s e = Ok s' -> quiet_io s'.
Proof.
  intros s e s' Q NC E. destruct e as [x ok|x| |k f| | |x|x|x b|add r|bad]; cbn [lstep] in E; try (eapply quiet_push in E; eauto; fail); try (injection E as <-; exact Q).
  - destruct (l_up s x && ok); [eapply quiet_push in E; eauto|]. injection E as <-. exact Q.
  - contradiction.
  - injection E as <-. apply quiet_tick. exact Q.
  - destruct (l_phase s) eqn:P; injection E as <-; try exact Q. destruct Q as [_ [Q2 _]]. unfold quiet_io, cleanup.
    destruct (clean bad (l_up s) (l_con s)) as [[k g] u]. destruct (clean bad u (l_srv s)) as [[k2 g2] u2]. st. conj; auto; discriminate.
Qed.
Lemma in_snoc : forall A (P : A -> Prop) l x, (forall e, In e (l ++ [x]) -> P e) -> (forall e, In e l -> P e) /\ P x.
Proof. intros A P l x H. split; [intros e I|]; apply H; apply in_or_app; [left; exact I|right; left; reflexivity]. Qed.
Lemma run_quiet : forall l s, lrun l0 l = Ok s -> (forall e, In e l -> e <> Change) -> quiet_io s.
Proof.
  apply (run_inv (fun l s => (forall e, In e l -> e <> Change) -> quiet_io s)).
  - intros _. split; [discriminate|split; [reflexivity|discriminate]].
  - intros l s e s' _ IH E H. apply in_snoc in H. destruct H as [H1 H2]. eapply quiet_step; eauto.
Qed.
Theorem foreach_thm : forall l s k, lrun l0 l = Ok s -> (forall e, In e l -> e <> Change) ->
  asked k (l_log s) = ended k (l_log s) + awaited k (l_queue s) + awaited k (l_left s).
Proof.
  intros l s k R H. assert (B : owe k s = 0); [|unfold owe in B; lia]. revert l s R H. apply (run_inv (fun l s => (forall e, In e l -> e <> Change) -> owe k s = 0)); [reflexivity|].
  intros l s e s' R IH E H. apply in_snoc in H. destruct H as [H1 H2]. pose proof (IH H1) as B. pose proof (run_quiet l s R H1) as [Q1 _].
  destruct e as [x ok|x| |j f| | |x|x|x b|add r|bad]; cbn [lstep] in E; try (injection E as <-; exact B);
    try (apply push_ok in E; destruct E as [_ ->]; revert B; owing; try (destruct (Nat.eqb j k)); lia).
  - destruct (l_up s x && ok); [|congruence]. apply push_ok in E. destruct E as [_ ->]. revert B. owing. lia.
  - injection E as <-. rewrite owe_tick; auto.
  - destruct (l_phase s); injection E as <-; try exact B. unfold cleanup. destruct (clean bad (l_up s) (l_con s)) as [[k1 g] u]. destruct (clean bad u (l_srv s)) as [[k2 g2] u2].
    revert B. owing. rewrite !cnt_map, !(cnt_none _ (fun _ => false)) by reflexivity. lia.
Qed.
