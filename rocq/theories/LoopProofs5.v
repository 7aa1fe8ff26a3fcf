(** Proofs about the reader loop: what stays watched, the sockets read, the change of the
    mechanism, and the witnesses. *)
From Verif Require Import Base LoopModel LoopSpec LoopProofs LoopProofs2 LoopProofs3 LoopProofs4.

Ltac rfl := solve [repeat split].
(** * What stays watched *)
Definition safe (c : nat) (s : lst) : Prop := l_phase s = PStopped \/ (l_up s c = true /\ l_unwatch s c = false /\ dropped c (l_log s) = 0).
Definition keeps (c : nat) (s s' : lst) : Prop := l_up s' c = l_up s c /\ l_unwatch s' c = l_unwatch s c /\ dropped c (l_log s') = dropped c (l_log s).
Lemma dropped_app : forall c l m, dropped c (l ++ m) = dropped c l + dropped c m.
Proof. intros. apply cnt_app. Qed.
Definition harmless (c : nat) (o : list lobs) : Prop := dropped c o = 0.
Lemma keeps_phase : forall c s p o, harmless c o -> keeps c s (with_phase s p o).
Proof. intros c s p o H. unfold keeps. st. rewrite dropped_app, H. conj; auto. lia. Qed.
Lemma keeps_trans : forall c s t u, keeps c s t -> keeps c t u -> keeps c s u.
Proof. unfold keeps. intros c s t u [A [B C]] [D [E F]]. conj; congruence. Qed.
Lemma keeps_safe : forall c s s', l_phase s <> PStopped -> safe c s -> keeps c s s' -> safe c s'.
Proof. intros c s s' N [S0|[A [B C]]] [D [E F]]; [contradiction|]. right. conj; congruence. Qed.
Lemma drop_other : forall c x, x <> c -> harmless c [LDrop x].
Proof. intros c x N. unfold harmless, dropped. cbn [cnt]. destruct (Nat.eqb_spec x c); [contradiction|reflexivity]. Qed.
Lemma upd_other : forall f x b c, x <> c -> upd f x b c = f c.
Proof. intros f x b c N. unfold upd. destruct (Nat.eqb_spec c x); [congruence|reflexivity]. Qed.
Lemma keeps_register : forall c s i, l_up s c = true -> keeps c s (fst (register s i)).
Proof.
  intros c s i U. unfold register. destruct i as [x|x| | | |k f]; try (rfl). destruct (l_up s x) eqn:X; [rfl|].
  apply keeps_phase. apply drop_other. intros ->. congruence.
Qed.
Lemma keeps_foreach : forall c s p t k f, keeps c s (with_phase s p (foreach t k f)).
Proof.
  intros c s p t k f. apply keeps_phase. unfold harmless, dropped, foreach. rewrite cnt_app. cbn [cnt]. destruct f; [|reflexivity]. rewrite cnt_map, (cnt_none _ (fun _ => false)) by reflexivity. reflexivity.
Qed.
Lemma keeps_unlink : forall c s srv i x p, x <> c -> keeps c s (unlink s srv i x p).
Proof. intros c s srv i x p N. unfold unlink. apply (keeps_phase c (with_list s srv (remove_at (the_list s srv) i))). apply drop_other. exact N. Qed.
Ltac kp := apply keeps_phase; reflexivity.
Lemma keeps_tick : forall c s r, l_up s c = true -> l_unwatch s c = false -> l_phase (tick s true r) <> PStopped -> keeps c s (tick s true r).
Proof.
  intros c s r U W. unfold tick. destruct (l_phase s) as [| |srv i set|set|l|srv i k n ready|n go|back| |] eqn:P; intros NS; try (rfl).
  - unfold first in *. destruct (l_queue s) as [|i q] eqn:Q; [rfl|]. pose proof (keeps_register c (with_queue s q) i U) as R.
    destruct (register (with_queue s q) i) as [t b]. sti R.
    destruct i as [x|x| | | |k f]; try (eapply keeps_trans; [exact R|kp]); [contradiction (NS eq_refl)|eapply (keeps_phase c (with_queue s q)); reflexivity|apply (keeps_foreach c (with_queue s q))].
  - destruct (l_con s), (l_srv s); kp.
  - destruct (nth_error (the_list s srv) i) as [x|] eqn:N; [|kp]. destruct (l_up s x) eqn:X.
    + cbn [negb]. destruct (l_unwatch s x) eqn:Y; [|destruct (l_blocked s x); kp]. assert (D : x <> c) by (intros ->; congruence).
      eapply keeps_trans; [|apply keeps_unlink; exact D]. unfold keeps. st. rewrite upd_other by exact D. rfl.
    + apply keeps_unlink. intros ->. congruence.
  - destruct r; try (rfl); try kp; [destruct (Nat.eqb _ 2); rfl|contradiction (NS eq_refl)].
  - destruct l; [rfl|kp].
  - destruct srv.
    + destruct (nth_error (l_srv s) i) as [x|] eqn:N; [|kp]. destruct (l_up s x) eqn:X; cbn [negb].
      * destruct (existsb (Nat.eqb x) ready); match goal with |- context [?a =? ?b] => destruct (a =? b) end; kp.
      * apply keeps_unlink. intros ->. congruence.
    + destruct (nth_error (l_con s) i) as [x|] eqn:N; [|rfl]. destruct (n =? k); [rfl|]. destruct (l_up s x) eqn:X; cbn [negb].
      * destruct (existsb (Nat.eqb x) ready); kp.
      * apply keeps_unlink. intros ->. congruence.
  - destruct n as [|n]; [destruct go; [kp|contradiction (NS eq_refl)]|]. unfold pending. destruct (l_queue s) as [|i q] eqn:Q; [rfl|].
    pose proof (keeps_register c (with_queue s q) i U) as R.
    destruct i as [x|x| | | |k f]; try (eapply keeps_trans; [exact R|kp]); apply (keeps_foreach c (with_queue s q)).
  - unfold changed_io. destruct (l_queue s) as [|i q] eqn:Q; [rfl|]. pose proof (keeps_register c (with_phase (with_queue s q) (l_phase s) [LMade]) i U) as R.
    destruct (register _ i) as [t b]. sti R. eapply keeps_trans; [|kp]. eapply keeps_trans; [|exact R]. apply (keeps_phase c (with_queue s q)). reflexivity.
Qed.
Lemma clean_safe : forall c bad, bad c = false -> forall l up k g up', clean bad up l = (k, g, up') -> up' c = up c /\ cnt (Nat.eqb c) g = 0.
Proof.
  intros c bad B. induction l as [|x l IH]; intros up k g up' E; cbn [clean] in E; [injection E as <- <- <-; split; reflexivity|]. destruct (up x && bad x) eqn:X.
  - destruct (clean bad (upd up x false) l) as [[k1 g1] u1] eqn:C. injection E as <- <- <-. apply IH in C. destruct C as [C1 C2].
    apply andb_true_iff in X. assert (D : x <> c) by (intros ->; destruct X; congruence). rewrite C1, upd_other by exact D. split; [reflexivity|]. cbn [cnt]. rewrite C2. destruct (Nat.eqb_spec c x); [congruence|reflexivity].
  - destruct (clean bad up l) as [[k1 g1] u1] eqn:C. injection E as <- <- <-. apply IH in C. exact C.
Qed.
Lemma safe_step : forall c s e s', safe c s -> kind_to c e -> lstep s e = Ok s' -> safe c s'.
Proof.
  intros c s e s' S0 K E. destruct (match l_phase s with PStopped => true | _ => false end) eqn:PS.
  { assert (P : l_phase s = PStopped) by (destruct (l_phase s); try discriminate; reflexivity). left.
    destruct e as [x ok|x| |k f| | |x|x|x b|add r|bad]; cbn [lstep] in E; unfold push in E; rewrite ?P in E; try discriminate; try (injection E as <-; exact P).
    - destruct (l_up s x && ok); [discriminate|]. injection E as <-. exact P.
    - injection E as <-. unfold tick. rewrite P. exact P. }
  assert (NP : l_phase s <> PStopped) by (intros P; rewrite P in PS; discriminate).
  assert (PUSH : forall i o, harmless c o -> push s i o = Ok s' -> safe c s').
  { intros i o H X. apply push_ok in X. destruct X as [_ ->]. eapply keeps_safe; [exact NP|exact S0|]. apply (keeps_phase c (with_queue s (l_queue s ++ [i]))). exact H. }
  destruct e as [x ok|x| |k f| | |x|x|x b|add r|bad]; cbn [lstep kind_to] in *; try (eapply PUSH; [|exact E]; reflexivity).
  - destruct (l_up s x && ok); [eapply PUSH; [|exact E]; reflexivity|]. injection E as <-. exact S0.
  - injection E as <-. eapply keeps_safe; [exact NP|exact S0|]. unfold keeps. st. rewrite upd_other by exact K. rfl.
  - injection E as <-. eapply keeps_safe; [exact NP|exact S0|]. unfold keeps. st. rewrite upd_other by exact K. rfl.
  - injection E as <-. eapply keeps_safe; [exact NP|exact S0|]. rfl.
  - injection E as <-. subst add. destruct S0 as [S0|[U [W D]]]; [contradiction|]. destruct (match l_phase (tick s true r) with PStopped => true | _ => false end) eqn:PT.
    + left. destruct (l_phase (tick s true r)); try discriminate. reflexivity.
    + eapply keeps_safe; [exact NP|right; conj; [exact U|exact W|exact D]|]. apply keeps_tick; auto. intros P. rewrite P in PT. discriminate.
  - destruct (l_phase s) eqn:P; injection E as <-; try exact S0. eapply keeps_safe; [rewrite P; discriminate|exact S0|]. unfold keeps, cleanup.
    destruct (clean bad (l_up s) (l_con s)) as [[k g] u] eqn:C1. destruct (clean bad u (l_srv s)) as [[k2 g2] u2] eqn:C2. st.
    destruct (clean_safe c bad K _ _ _ _ _ C1) as [A1 A2]. destruct (clean_safe c bad K _ _ _ _ _ C2) as [B1 B2]. conj; [congruence|reflexivity|].
    rewrite dropped_app. unfold dropped at 2. rewrite map_app, cnt_app, !cnt_map, !(cnt_ext _ (fun x => Nat.eqb x c) (Nat.eqb c)) by (intros; apply eqb_swap). lia.
Qed.
Theorem watched_thm : forall l s c, lrun l0 l = Ok s -> (forall e, In e l -> kind_to c e) -> l_phase s <> PStopped ->
  dropped c (l_log s) = 0 /\ taken c (l_log s) = requested c (l_queue s) + listed c s.
Proof.
  intros l s c R K NP. assert (S0 : safe c s).
  { clear NP. revert l s R K. apply (run_inv (fun l s => (forall e, In e l -> kind_to c e) -> safe c s)); [intros _; right; rfl|].
    intros l s e s' _ IH E H. apply in_snoc in H. destruct H as [H1 H2]. eapply safe_step; eauto. }
  destruct S0 as [S0|[_ [_ D]]]; [contradiction|]. split; [exact D|]. rewrite (refs_thm l s c R), D, (left_thm l s R NP). cbn. lia.
Qed.

(** * The set a turn waits on *)
Definition same (s s' : lst) : Prop := l_queue s' = l_queue s /\ l_left s' = l_left s /\ l_con s' = l_con s /\ l_srv s' = l_srv s /\ l_up s' = l_up s /\ l_unwatch s' = l_unwatch s /\ l_blocked s' = l_blocked s.
Lemma same_refl : forall s, same s s.
Proof. intros. rfl. Qed.
Lemma same_trans : forall s t u, same s t -> same t u -> same s u.
Proof. unfold same. intros s t u [A1 [A2 [A3 [A4 [A5 [A6 A7]]]]]] [B1 [B2 [B3 [B4 [B5 [B6 B7]]]]]]. conj; congruence. Qed.
Lemma same_phase : forall s p o, same s (with_phase s p o).
Proof. intros. rfl. Qed.
Lemma same_list : forall s t srv, same s t -> the_list t srv = the_list s srv.
Proof. intros s t srv [_ [_ [A [B _]]]]. destruct srv; cbn; congruence. Qed.
Lemma same_peace : forall s t, same s t -> peaceful s -> peaceful t.
Proof. intros s t [_ [_ [A [B [C [D _]]]]]] P c. rewrite A, B, C, D. apply P. Qed.
Lemma skip_nth : forall (l : list nat) i x, nth_error l i = Some x -> skipn i l = x :: skipn (S i) l.
Proof. induction l as [|y l IH]; intros i x E; destruct i; try discriminate; [injection E as ->; reflexivity|]. cbn [nth_error] in E. apply (IH i x E). Qed.
Definition unblocked (s : lst) (c : nat) : bool := negb (l_blocked s c).
Lemma build_list : forall m srv s i set, l_phase s = PBuild srv i set -> peaceful s -> (length (the_list s srv) - i <= m)%nat ->
  exists s' j, reach true s s' /\ l_phase s' = PBuild srv j (set ++ filter (unblocked s) (skipn i (the_list s srv))) /\ same s s' /\ l_log s' = l_log s /\ nth_error (the_list s srv) j = None.
Proof.
  induction m as [|m IH]; intros srv s i set P Q L.
  - assert (N : nth_error (the_list s srv) i = None) by (apply nth_error_None; lia). exists s, i. rewrite skipn_all2 by (apply nth_error_None; exact N). cbn [filter]. rewrite app_nil_r. conj; auto using reach_refl, same_refl.
  - destruct (nth_error (the_list s srv) i) as [c|] eqn:N.
    2:{ exists s, i. rewrite skipn_all2 by (apply nth_error_None; exact N). cbn [filter]. rewrite app_nil_r. conj; auto using reach_refl, same_refl. }
    assert (IN : In c (l_srv s ++ l_con s)). { apply nth_error_In in N. apply in_or_app. destruct srv; [left|right]; exact N. }
    destruct (Q c IN) as [U W]. rewrite (skip_nth _ _ _ N). cbn [filter]. unfold unblocked at 1. pose proof (nth_len _ _ _ N) as NL.
    assert (T : exists set', tick s true RTimeout = with_phase s (PBuild srv (S i) set') [] /\ set' = if negb (l_blocked s c) then set ++ [c] else set).
    { unfold tick. rewrite P, N, U, W. cbn [negb]. destruct (l_blocked s c); eexists; split; reflexivity. }
    destruct T as [set' [T1 T2]].
    destruct (IH srv (with_phase s (PBuild srv (S i) set') []) (S i) set' eq_refl) as [s' [j [R [X [Y [G V]]]]]]; [exact (same_peace _ _ (same_phase _ _ _) Q)|change (the_list (with_phase s (PBuild srv (S i) set') []) srv) with (the_list s srv); lia|].
    exists s', j. conj.
    + apply reach_one. rewrite T1. exact R.
    + rewrite X, T2. f_equal. change (unblocked (with_phase s (PBuild srv (S i) set') [])) with (unblocked s). change (the_list (with_phase s (PBuild srv (S i) set') []) srv) with (the_list s srv).
      fold (unblocked s c). destruct (unblocked s c); [rewrite <- app_assoc|]; reflexivity.
    + eapply same_trans; [|exact Y]. apply same_phase.
    + rewrite G. st. apply app_nil_r.
    + exact V.
Qed.
Theorem build_thm : forall s, l_phase s = PLoop -> peaceful s -> l_con s ++ l_srv s <> [] ->
  exists k, let s' := ticks true k s in
    l_phase s' = PWait (filter (fun c => negb (l_blocked s c)) (l_srv s ++ l_con s)) /\ same s s' /\ l_log s' = l_log s.
Proof.
  intros s P Q NE. assert (T : tick s true RTimeout = with_phase s (PBuild true 0 []) []) by (unfold tick; rewrite P; destruct (l_con s), (l_srv s); try reflexivity; contradiction (NE eq_refl)).
  set (s1 := with_phase s (PBuild true 0 []) []) in *.
  destruct (build_list _ true s1 0%nat [] eq_refl (same_peace _ _ (same_phase _ _ _) Q) (le_n _)) as [s2 [j [R [X [Y [G V]]]]]].
  assert (V2 : nth_error (the_list s2 true) j = None) by (rewrite (same_list _ _ _ Y); exact V).
  set (st1 := [] ++ filter (unblocked s1) (skipn 0 (the_list s1 true))) in *.
  assert (T2 : tick s2 true RTimeout = with_phase s2 (PBuild false 0 st1) []) by (unfold tick; rewrite X, V2; reflexivity).
  set (s3 := with_phase s2 (PBuild false 0 st1) []) in *.
  assert (SM : same s s3) by (eapply same_trans; [apply same_phase|]; eapply same_trans; [exact Y|]; apply same_phase).
  destruct (build_list _ false s3 0%nat st1 eq_refl (same_peace _ _ SM Q) (le_n _)) as [s4 [j4 [R4 [X4 [Y4 [G4 V4]]]]]].
  assert (V5 : nth_error (the_list s4 false) j4 = None) by (rewrite (same_list _ _ _ Y4); exact V4).
  assert (T4 : tick s4 true RTimeout = with_phase s4 (PWait (st1 ++ filter (unblocked s3) (skipn 0 (the_list s3 false)))) []) by (unfold tick; rewrite X4, V5; reflexivity).
  assert (RR : reach true s (tick s4 true RTimeout)).
  { apply reach_one. rewrite T. eapply reach_trans; [exact R|]. apply reach_one. rewrite T2. eapply reach_trans; [exact R4|]. apply reach_one. apply reach_refl. }
  assert (F : filter (unblocked s3) (skipn 0 (the_list s3 false)) = filter (fun c => negb (l_blocked s c)) (l_con s)).
  { rewrite (same_list _ _ _ SM). apply filter_ext. intros a. unfold unblocked. destruct SM as [_ [_ [_ [_ [_ [_ SB]]]]]]. rewrite SB. reflexivity. }
  destruct RR as [k K]. exists k. rewrite K, T4, F. cbn zeta. conj.
  - st. rewrite filter_app. reflexivity.
  - eapply same_trans; [exact SM|]. eapply same_trans; [exact Y4|]. apply same_phase.
  - st. rewrite app_nil_r, G4. unfold s3. st. rewrite app_nil_r, G. unfold s1. st. apply app_nil_r.
Qed.
