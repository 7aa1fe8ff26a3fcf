(** Proofs about the reader loop: the end of the loop, and what a turn does. *)
From Verif Require Import Base LoopModel LoopSpec LoopProofs LoopProofs2.

Lemma ticks_add : forall add a b s, ticks add (a + b) s = ticks add b (ticks add a s).
Proof. intros add a. induction a as [|a IH]; intros b s; [reflexivity|]. cbn [Nat.add ticks]. apply IH. Qed.
(** The state after some turns of the loop alone. *)
Definition reach (add : bool) (s s' : lst) : Prop := exists k, ticks add k s = s'.
Lemma reach_refl : forall add s, reach add s s.
Proof. intros. exists 0%nat. reflexivity. Qed.
Lemma reach_trans : forall add s t u, reach add s t -> reach add t u -> reach add s u.
Proof. intros add s t u [a A] [b B]. exists (a + b)%nat. rewrite ticks_add, A. exact B. Qed.
Lemma reach_one : forall add s t, reach add (tick s add RTimeout) t -> reach add s t.
Proof. intros add s t [k K]. exists (S k). exact K. Qed.

Lemma nth_len : forall (l : list nat) i x, nth_error l i = Some x -> (i < length l)%nat.
Proof. intros l i x E. apply nth_error_Some. congruence. Qed.
Lemma remove_len : forall (l : list nat) i x, nth_error l i = Some x -> (S (length (remove_at l i)) = length l)%nat.
Proof. intros l i x E. apply nth_len in E. unfold remove_at. rewrite app_length, firstn_length, skipn_length. lia. Qed.
Lemma list_unlink : forall s srv i c p, the_list (unlink s srv i c p) srv = remove_at (the_list s srv) i /\ l_queue (unlink s srv i c p) = l_queue s /\ l_phase (unlink s srv i c p) = p.
Proof. intros s srv i c p. unfold unlink. st. destruct srv; conj; reflexivity. Qed.
Lemma list_flags : forall s u w b srv, the_list (with_flags s u w b) srv = the_list s srv.
Proof. intros. destruct srv; reflexivity. Qed.
Lemma build_end : forall m add srv s i set, l_phase s = PBuild srv i set -> (length (the_list s srv) - i <= m)%nat ->
  exists s' j set', reach add s s' /\ l_phase s' = PBuild srv j set' /\ l_queue s' = l_queue s /\ nth_error (the_list s' srv) j = None.
Proof.
  induction m as [|m IH]; intros add srv s i set P L.
  - exists s, i, set. conj; auto using reach_refl. apply nth_error_None. lia.
  - destruct (nth_error (the_list s srv) i) as [c|] eqn:N; [|exists s, i, set; conj; auto using reach_refl].
    assert (T : exists i' set', l_phase (tick s add RTimeout) = PBuild srv i' set' /\ l_queue (tick s add RTimeout) = l_queue s /\ (length (the_list (tick s add RTimeout) srv) - i' <= m)%nat).
    { pose proof (remove_len _ _ _ N) as R. pose proof (nth_len _ _ _ N) as R2. unfold tick. rewrite P, N.
      destruct (negb (l_up s c)); [|destruct (l_unwatch s c); [|destruct (l_blocked s c); [|destruct add]]].
      - destruct (list_unlink s srv i c (PBuild srv i set)) as [A [B C]]. exists i, set. rewrite A, B, C. conj; auto. lia.
      - destruct (list_unlink (with_flags s (l_up s) (upd (l_unwatch s) c false) (l_blocked s)) srv i c (PBuild srv i set)) as [A [B C]]. exists i, set. rewrite A, B, C, list_flags. conj; auto. lia.
      - exists (S i), set. st. change (the_list (with_phase s (PBuild srv (S i) set) []) srv) with (the_list s srv). conj; auto. lia.
      - exists (S i), (set ++ [c]). st. change (the_list (with_phase s (PBuild srv (S i) (set ++ [c])) []) srv) with (the_list s srv). conj; auto. lia.
      - destruct (list_unlink (with_flags s (upd (l_up s) c false) (l_unwatch s) (l_blocked s)) srv i c (PBuild srv i set)) as [A [B C]]. exists i, set. rewrite A, B, C, list_flags. conj; auto. lia. }
    destruct T as [i' [set' [A [B C]]]]. destruct (IH add srv _ i' set' A C) as [s' [j [t [R [X [Y W]]]]]]. exists s', j, t. conj; auto; [apply reach_one; exact R|congruence].
Qed.
Lemma build_wait : forall add srv s i set, l_phase s = PBuild srv i set -> exists s' t, reach add s s' /\ l_phase s' = PWait t /\ l_queue s' = l_queue s.
Proof.
  assert (F : forall add s i set, l_phase s = PBuild false i set -> exists s' t, reach add s s' /\ l_phase s' = PWait t /\ l_queue s' = l_queue s).
  { intros add s i set P. destruct (build_end _ add false s i set P (le_n _)) as [s' [j [t [R [X [Y W]]]]]].
    exists (tick s' add RTimeout), t. unfold tick. rewrite X, W. conj; auto. eapply reach_trans; [exact R|]. exists 1%nat. cbn [ticks]. unfold tick. rewrite X, W. reflexivity. }
  intros add srv s i set P. destruct srv; [|eapply F; exact P].
  destruct (build_end _ add true s i set P (le_n _)) as [s' [j [t [R [X [Y W]]]]]].
  assert (T : tick s' add RTimeout = with_phase s' (PBuild false 0 t) []) by (unfold tick; rewrite X, W; reflexivity).
  destruct (F add (with_phase s' (PBuild false 0 t) []) 0%nat t eq_refl) as [u [v [R2 [X2 Y2]]]]. exists u, v. conj; auto; [|rewrite Y2; exact Y].
  eapply reach_trans; [exact R|]. apply reach_one. rewrite T. exact R2.
Qed.
Definition drains (add : bool) (s : lst) : Prop := exists s', reach add s s' /\ l_phase s' = PPending (length (l_queue s)) true /\ l_queue s' = l_queue s.
Lemma drains_one : forall add s, l_queue (tick s add RTimeout) = l_queue s -> drains add (tick s add RTimeout) -> drains add s.
Proof. intros add s Q [s' [R [P E]]]. exists s'. rewrite Q in *. conj; auto. apply reach_one. exact R. Qed.
Lemma drains_now : forall add s, l_phase s = PPending (length (l_queue s)) true -> drains add s.
Proof. intros add s P. exists s. conj; auto using reach_refl. Qed.
Lemma drains_wait : forall add s t, l_phase s = PWait t -> drains add s.
Proof. intros add s t P. apply drains_one; unfold tick; rewrite P; [reflexivity|]. apply drains_now. reflexivity. Qed.
Lemma drains_build : forall add srv s i set, l_phase s = PBuild srv i set -> drains add s.
Proof.
  intros add srv s i set P. destruct (build_wait add srv s i set P) as [s' [t [R [X Y]]]]. destruct (drains_wait add s' t X) as [u [R2 [X2 Y2]]].
  exists u. rewrite Y in *. conj; auto. eapply reach_trans; eauto.
Qed.
Lemma drains_dispatch : forall add l s, l_phase s = PDispatch l -> drains add s.
Proof.
  intros add. induction l as [|c l IH]; intros s P; apply drains_one; unfold tick; rewrite P; try reflexivity; [apply drains_now; reflexivity|]. apply IH. reflexivity.
Qed.
Lemma drains_con : forall m add s i k n ready, l_phase s = PCheck false i k n ready -> (length (l_con s) - i <= m)%nat -> drains add s.
Proof.
  induction m as [|m IH]; intros add s i k n ready P L.
  - assert (N : nth_error (l_con s) i = None) by (apply nth_error_None; lia). apply drains_one; unfold tick; rewrite P, N; [reflexivity|]. apply drains_now. reflexivity.
  - destruct (nth_error (l_con s) i) as [c|] eqn:N.
    2:{ apply drains_one; unfold tick; rewrite P, N; [reflexivity|]. apply drains_now. reflexivity. }
    pose proof (remove_len _ _ _ N) as R. pose proof (nth_len _ _ _ N) as R2. destruct (n =? k) eqn:NK.
    { apply drains_one; unfold tick; rewrite P, N, NK; [reflexivity|]. apply drains_now. reflexivity. }
    destruct (negb (l_up s c)) eqn:U.
    { apply drains_one; unfold tick; rewrite P, N, NK, U; [reflexivity|]. eapply IH; [reflexivity|]. unfold unlink. st. lia. }
    destruct (existsb (Nat.eqb c) ready) eqn:X; (apply drains_one; unfold tick; rewrite P, N, NK, U, X; [reflexivity|]; eapply IH; [reflexivity|]; st; lia).
Qed.
Lemma drains_srv : forall m add s i k n ready, l_phase s = PCheck true i k n ready -> (length (l_srv s) - i <= m)%nat -> drains add s.
Proof.
  induction m as [|m IH]; intros add s i k n ready P L.
  - assert (N : nth_error (l_srv s) i = None) by (apply nth_error_None; lia). apply drains_one; unfold tick; rewrite P, N; [reflexivity|]. eapply drains_con; [reflexivity|apply le_n].
  - destruct (nth_error (l_srv s) i) as [c|] eqn:N.
    2:{ apply drains_one; unfold tick; rewrite P, N; [reflexivity|]. eapply drains_con; [reflexivity|apply le_n]. }
    pose proof (remove_len _ _ _ N) as R. pose proof (nth_len _ _ _ N) as R2. destruct (negb (l_up s c)) eqn:U.
    { apply drains_one; unfold tick; rewrite P, N, U; [reflexivity|]. eapply IH; [reflexivity|]. unfold unlink. st. lia. }
    destruct ((if existsb (Nat.eqb c) ready then k + 1 else k) =? n) eqn:X; (apply drains_one; unfold tick; rewrite P, N, U; cbn zeta; rewrite X; [reflexivity|]).
    + eapply drains_con; [reflexivity|apply le_n].
    + eapply IH; [reflexivity|]. st. lia.
Qed.

Definition halts (add : bool) (s : lst) : Prop := exists s', reach add s s' /\ l_phase s' = PStopped.
Lemma halts_one : forall add s, halts add (tick s add RTimeout) -> halts add s.
Proof. intros add s [s' [R P]]. exists s'. split; auto. apply reach_one. exact R. Qed.
Lemma halts_now : forall add s, l_phase s = PStopped -> halts add s.
Proof. intros add s P. exists s. split; auto using reach_refl. Qed.
Lemma halts_reach : forall add s s', reach add s s' -> halts add s' -> halts add s.
Proof. intros add s s' R [t [R2 P]]. exists t. split; auto. eapply reach_trans; eauto. Qed.
(** The batch of the pending requests ends with the last of them. *)
Lemma batch : forall add n q s go, l_phase s = PPending n go -> l_queue s = q ++ [ITerm] -> n = S (length q) -> existsb is_change q = false -> halts add s.
Proof.
  intros add n. induction n as [|n IH]; intros q s go P Q N C; [discriminate|]. destruct q as [|i q].
  - injection N as ->. apply halts_one. unfold tick. rewrite P. unfold pending. rewrite Q. cbn [app]. apply halts_one. cbn [tick l_phase with_phase]. apply halts_now. reflexivity.
  - cbn [length] in N. injection N as N. cbn [existsb] in C. apply orb_false_iff in C. destruct C as [C1 C2]. cbn [app] in Q.
    apply halts_one. unfold tick. rewrite P. unfold pending. rewrite Q.
    pose proof (reg_same (with_queue s (q ++ [ITerm])) i) as [R1 _]. sti R1.
    destruct i as [x|x| | | |k f]; try discriminate; (eapply IH; [reflexivity|st; rewrite ?R1; reflexivity|exact N|exact C2]).
Qed.
Lemma drains_halts : forall add s q, drains add s -> l_queue s = q ++ [ITerm] -> existsb is_change q = false -> halts add s.
Proof.
  intros add s q [s' [R [P E]]] Q C. eapply halts_reach; [exact R|]. eapply (batch add _ q); [exact P|congruence| |exact C]. rewrite Q, app_length. cbn [length]. lia.
Qed.
Lemma idle_halts : forall m add s q, (length q <= m)%nat -> l_queue s = q ++ [ITerm] -> existsb is_change q = false -> (l_phase s = PFirst \/ l_phase s = PLoop) -> halts add s.
Proof.
  intros m add. induction m as [|m IH]; intros s q L Q C P.
  - destruct q; [|cbn in L; lia]. assert (F : forall t, l_queue t = [ITerm] -> l_phase t = PFirst -> halts add t).
    { intros t Qt Pt. apply halts_one. unfold tick. rewrite Pt. unfold first. rewrite Qt. apply halts_now. reflexivity. }
    destruct P as [P|P]; [apply F; auto|]. destruct (l_con s) as [|a b] eqn:E1; [destruct (l_srv s) as [|a b] eqn:E2|].
    + apply halts_one. unfold tick. rewrite P, E1, E2. apply F; [exact Q|reflexivity].
    + apply halts_one. unfold tick. rewrite P, E1, E2. eapply drains_halts; [eapply drains_build; reflexivity|exact Q|exact C].
    + apply halts_one. unfold tick. rewrite P, E1. eapply drains_halts; [eapply drains_build; reflexivity|exact Q|exact C].
  - assert (F : forall t, l_queue t = q ++ [ITerm] -> l_phase t = PFirst -> halts add t).
    { intros t Qt Pt. apply halts_one. unfold tick. rewrite Pt. unfold first. rewrite Qt. destruct q as [|i q]; [apply halts_now; reflexivity|].
      cbn [app]. cbn [existsb] in C. apply orb_false_iff in C. destruct C as [C1 C2]. cbn [length] in L.
      pose proof (reg_same (with_queue t (q ++ [ITerm])) i) as [R1 _]. sti R1. destruct (register (with_queue t (q ++ [ITerm])) i) as [u b]. sti R1.
      destruct i as [x|x| | | |k f]; try discriminate; try (apply (IH _ q); [lia|st; rewrite ?R1; reflexivity|exact C2|st; destruct b; auto]); try (apply (IH _ q); [lia|reflexivity|exact C2|auto]).
      apply halts_now. reflexivity. }
    destruct P as [P|P]; [apply F; auto|]. destruct (l_con s) as [|a b] eqn:E1; [destruct (l_srv s) as [|a b] eqn:E2|].
    + apply halts_one. unfold tick. rewrite P, E1, E2. apply F; [exact Q|reflexivity].
    + apply halts_one. unfold tick. rewrite P, E1, E2. eapply drains_halts; [eapply drains_build; reflexivity|exact Q|exact C].
    + apply halts_one. unfold tick. rewrite P, E1. eapply drains_halts; [eapply drains_build; reflexivity|exact Q|exact C].
Qed.
Lemma run_halts : forall add n s q go, l_phase s = PPending n go -> (n <= length (l_queue s))%nat -> l_queue s = q ++ [ITerm] -> existsb is_change q = false -> halts add s.
Proof.
  intros add n. induction n as [|n IH]; intros s q go P N Q C.
  - apply halts_one. unfold tick. rewrite P. destruct go; [|apply halts_now; reflexivity]. eapply idle_halts; [apply le_n|exact Q|exact C|right; reflexivity].
  - destruct q as [|i q].
    + rewrite Q in N. cbn in N. assert (n = 0%nat) by lia. subst n. eapply (batch add _ []); eauto.
    + cbn [existsb] in C. apply orb_false_iff in C. destruct C as [C1 C2]. cbn [app] in Q. rewrite Q in N. cbn [length] in N.
      apply halts_one. unfold tick. rewrite P. unfold pending. rewrite Q.
      pose proof (reg_same (with_queue s (q ++ [ITerm])) i) as [R1 _]. sti R1.
      destruct i as [x|x| | | |k f]; try discriminate; (eapply (IH _ q); [reflexivity|st; rewrite ?R1; lia|st; rewrite ?R1; reflexivity|exact C2]).
Qed.
Theorem stop_thm : forall l s add q, lrun l0 l = Ok s -> (forall e, In e l -> e <> Change) -> running s -> l_queue s = q ++ [ITerm] ->
  exists k, l_phase (ticks add k s) = PStopped.
Proof.
  intros l s add q R H [R1 R2] Q. destruct (run_quiet l s R H) as [Q1 [Q2 Q3]]. rewrite Q, existsb_app' in Q2. apply orb_false_iff in Q2. destruct Q2 as [C _].
  assert (T : halts add s).
  { destruct (l_phase s) as [| |srv i set|set|d|srv i k n ready|n go|back| |] eqn:P; try congruence.
    - eapply idle_halts; [apply le_n|exact Q|exact C|auto].
    - eapply idle_halts; [apply le_n|exact Q|exact C|auto].
    - eapply drains_halts; [eapply drains_build; exact P|exact Q|exact C].
    - eapply drains_halts; [eapply drains_wait; exact P|exact Q|exact C].
    - eapply drains_halts; [eapply drains_dispatch; exact P|exact Q|exact C].
    - eapply drains_halts; [|exact Q|exact C]. destruct srv; [eapply drains_srv|eapply drains_con]; try exact P; apply le_n.
    - eapply run_halts; [exact P|eapply Q3; reflexivity|exact Q|exact C].  }
  destruct T as [s' [[k K] P]]. exists k. rewrite K. exact P.
Qed.
