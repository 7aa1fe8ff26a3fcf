(** Proofs about the PULL API. *)
From Verif Require Import Base PullModel PullSpec.
Ltac conj := repeat match goal with |- _ /\ _ => split end.

Lemma num_app : forall A (f : A -> bool) l m, num f (l ++ m) = num f l + num f m.
Proof. intros A f l m. induction l as [|x l IH]; cbn [num app]; [|rewrite IH]; lia. Qed.
Lemma num_pos : forall A (f : A -> bool) l, 0 <= num f l.
Proof. intros A f l. induction l as [|x l IH]; cbn [num]; [|destruct (f x)]; lia. Qed.
Lemma num_in : forall A (f : A -> bool) l x, In x l -> f x = true -> 0 < num f l.
Proof.
  intros A f l x. induction l as [|y l IH]; intros I F; [destruct I|]. cbn [num]. pose proof (num_pos A f l).
  destruct I as [->|I]; [rewrite F; lia|]. specialize (IH I F). destruct (f y); lia.
Qed.
Lemma num_zero : forall A (f : A -> bool) l, (forall x, In x l -> f x = false) -> num f l = 0.
Proof.
  intros A f l. induction l as [|y l IH]; intros F; [reflexivity|]. cbn [num]. rewrite (F y (or_introl eq_refl)), IH; [lia|].
  intros x I. apply F. right. exact I.
Qed.
Lemma num_repeat : forall A (f : A -> bool) x n, num f (repeat x n) = if f x then Z.of_nat n else 0.
Proof. intros A f x n. induction n as [|n IH]; cbn [repeat num]; [|rewrite IH]; destruct (f x); lia. Qed.
Lemma num_put : forall f l i c x, nth_error l i = Some c ->
  num f (put_call l i x) = num f l - (if f c then 1 else 0) + num f x.
Proof.
  intros f l i c x N. unfold put_call. rewrite !num_app.
  apply nth_error_split in N. destruct N as [a [b [-> <-]]].
  rewrite firstn_app, Nat.sub_diag, firstn_O, app_nil_r, firstn_all.
  replace (S (length a)) with (length (a ++ [c])) by (rewrite app_length; cbn; lia).
  change (a ++ c :: b) with (a ++ [c] ++ b). rewrite app_assoc, skipn_app, skipn_all, Nat.sub_diag, skipn_O.
  rewrite ?num_app. cbn [app num]. rewrite ?num_app. cbn [num]. destruct (f c); lia.
Qed.
Lemma put_in : forall l i c x y, nth_error l i = Some c -> In y (put_call l i x) -> In y l \/ In y x.
Proof.
  intros l i c x y N I. unfold put_call in I. apply in_app_or in I. destruct I as [I|I].
  - left. rewrite <- (firstn_skipn i l). apply in_or_app. auto.
  - apply in_app_or in I. destruct I as [I|I]; [auto|]. left. rewrite <- (firstn_skipn (S i) l). apply in_or_app. auto.
Qed.
Lemma obind_ok : forall A B (m : outcome A) (k : A -> outcome B) b, obind m k = Ok b -> exists a, m = Ok a /\ k a = Ok b.
Proof. intros A B [a|] k b E; [|discriminate]. exists a. auto. Qed.

Lemma run_app : forall l m s, prun s (l ++ m) = obind (prun s l) (fun s => prun s m).
Proof. induction l as [|e l IH]; intros m s; [reflexivity|]. cbn [prun app]. destruct (pstep s e); cbn [obind]; [apply IH|reflexivity]. Qed.

Lemma run_inv : forall (I : list pev -> pst -> Prop) , I [] p0 ->
  (forall l s e s', prun p0 l = Ok s -> I l s -> pstep s e = Ok s' -> I (l ++ [e]) s') ->
  forall l s, prun p0 l = Ok s -> I l s.
Proof.
  intros I I0 IS l. induction l as [|e l IH] using rev_ind; intros s E.
  - injection E as <-. exact I0.
  - rewrite run_app in E. apply obind_ok in E. destruct E as [s1 [E1 E2]]. cbn [prun] in E2. apply obind_ok in E2. destruct E2 as [s2 [E2 E3]].
    injection E3 as <-. exact (IS l s1 e s2 E1 (IH s1 E1) E2).
Qed.

(** What releasing the queue leaves in the log. *)
Lemma release_log : forall q l l' o (f : pobs -> bool), release l q = Ok (l', o) ->
  (forall e h, f (PDrop e h) = false) -> (forall e, f (PFree e) = false) -> num f o = 0.
Proof.
  induction q as [|[e h] q IH]; intros l l' o f E A B; cbn [release] in E.
  - injection E as <- <-. reflexivity.
  - apply obind_ok in E. destruct E as [[l1 o1] [E1 E2]]. apply obind_ok in E2. destruct E2 as [[l2 o2] [E2 E3]].
    injection E3 as <- <-. cbn [num]. rewrite A, num_app, (IH _ _ _ f E2 A B).
    unfold unref in E1. destruct (find_event l e) as [x|]; [|discriminate].
    destruct (e_refs x - 1 =? 0); injection E1 as <- <-; cbn [num]; rewrite ?B; reflexivity.
Qed.
Lemma unref_log : forall l e l' o (f : pobs -> bool), unref l e = Ok (l', o) -> (forall e, f (PFree e) = false) -> num f o = 0.
Proof.
  intros l e l' o f E B. unfold unref in E. destruct (find_event l e) as [x|]; [|discriminate].
  destruct (e_refs x - 1 =? 0); injection E as <- <-; cbn [num]; rewrite ?B; reflexivity.
Qed.

Lemma num_after : forall f h, (forall h, f (mkCall h SReg) = false) -> num f (after h) = 0.
Proof. intros f h F. unfold after. destruct (h_kind h); cbn [num]; rewrite ?F; reflexivity. Qed.

(** A case analysis of a step. *)
Inductive pcase (s : pst) : pev -> pst -> Prop :=
| CNop : forall e, (forall h, e <> Occur h) -> pcase s e s
| CInit : p_queue s = None -> pcase s Init (mkP (Some []) (S (p_gen s)) [] true (S (p_ready s)) (S (p_acc s)) (p_closers s) (p_calls s) (p_events s) (p_next s) (p_wait s) (p_log s))
| CCleanup : forall q l o, p_queue s = Some q -> p_wait s = 0%nat -> release (p_events s) q = Ok (l, o) ->
    pcase s Cleanup (mkP None (p_gen s) [] false (p_ready s) (p_acc s) (p_closers s) (p_calls s) l (p_next s) (p_wait s) (p_log s ++ o))
| COccur : forall h, pcase s (Occur h) (mkP (p_queue s) (p_gen s) (p_masks s) (p_main s) (p_ready s) (p_acc s)
              (match h_kind h with KClosed => remove Nat.eq_dec (h_conn h) (p_closers s) | _ => p_closers s end)
              (p_calls s ++ repeat (mkCall h SCall) (handlers s h)) (p_events s) (p_next s) (p_wait s)
              (p_log s ++ POccur h :: repeat (PCall h) (handlers s h)))
| CSkip : forall i ok h, nth_error (p_calls s) i = Some (mkCall h SCall) -> filtered (p_masks s) (type (h_kind h)) = true \/ p_queue s = None ->
    pcase s (Step i ok) (with_calls s (put_call (p_calls s) i (after h)) (unreported h))
| CMake : forall i ok h q st b, nth_error (p_calls s) i = Some (mkCall h SCall) -> filtered (p_masks s) (type (h_kind h)) = false -> p_queue s = Some q ->
    st = match h_kind h with KStart => SDefer (p_next s) | _ => SPush (p_gen s) (p_next s) end ->
    b = (ok || match h_kind h with KClosed => true | _ => false end) ->
    pcase s (Step i ok) (mkP (p_queue s) (p_gen s) (p_masks s) (p_main s) (p_ready s) (p_acc s) (p_closers s)
                          (put_call (p_calls s) i [mkCall h st]) (p_events s ++ [mkE (p_next s) h b 1]) (S (p_next s)) (p_wait s) (p_log s))
| CLeak : forall i ok h n, nth_error (p_calls s) i = Some (mkCall h (SDefer n)) -> p_queue s = None ->
    pcase s (Step i ok) (with_calls s (put_call (p_calls s) i []) [PDefer h; PLeak n h])
| CDefer : forall i ok h n q, nth_error (p_calls s) i = Some (mkCall h (SDefer n)) -> p_queue s = Some q ->
    pcase s (Step i ok) (with_calls s (put_call (p_calls s) i [mkCall h (SPush (p_gen s) n)]) [PDefer h])
| CPush : forall i ok h n q, nth_error (p_calls s) i = Some (mkCall h (SPush (p_gen s) n)) -> p_queue s = Some q ->
    pcase s (Step i ok) (mkP (Some (q ++ [(n, h)])) (p_gen s) (p_masks s) (p_main s) (p_ready s) (p_acc s) (p_closers s)
                               (put_call (p_calls s) i (after h)) (p_events s) (p_next s) (p_wait s) (p_log s ++ [PPush n h]))
| CReg : forall i ok h, nth_error (p_calls s) i = Some (mkCall h SReg) ->
    pcase s (Step i ok) (mkP (p_queue s) (p_gen s) (p_masks s) (p_main s) (p_ready s) (p_acc s) (h_conn h :: p_closers s)
                      (put_call (p_calls s) i []) (p_events s) (p_next s) (p_wait s) (p_log s))
| CWait : p_queue s = Some [] -> pcase s (Next true) (mkP (Some []) (p_gen s) (p_masks s) (p_main s) (p_ready s) (p_acc s) (p_closers s) (p_calls s) (p_events s) (p_next s) (S (p_wait s)) (p_log s))
| CTake : forall e n h q w, e = Wake \/ (exists b, e = Next b) -> p_queue s = Some ((n, h) :: q) -> pcase s e (take s n h q w)
| CRef : forall e x, find_event (p_events s) e = Some x -> pcase s (Ref e) (mkP (p_queue s) (p_gen s) (p_masks s) (p_main s) (p_ready s) (p_acc s) (p_closers s) (p_calls s) (count_event (p_events s) e 1) (p_next s) (p_wait s) (p_log s ++ [PRef e]))
| CUnref : forall e l o, unref (p_events s) e = Ok (l, o) -> pcase s (Unref e) (mkP (p_queue s) (p_gen s) (p_masks s) (p_main s) (p_ready s) (p_acc s) (p_closers s) (p_calls s) l (p_next s) (p_wait s) (p_log s ++ PUnref e :: o))
| CInstall : forall m q, p_queue s = Some q -> pcase s (Install m) (with_masks s (fst (install (p_masks s) m)))
| CChange : forall i f, pcase s (Change i f) (with_masks s (change_at (p_masks s) i f)).

Lemma cases : forall s e s', pstep s e = Ok s' -> pcase s e s'.
Proof.
  intros s e s' E. destruct e as [| |h|i ok|b| |e|e|m|i f]; cbn [pstep] in E.
  - destruct (p_queue s) eqn:Q; injection E as <-; [apply CNop; discriminate|apply CInit; exact Q].
  - destruct (p_queue s) as [q|] eqn:Q; [|injection E as <-; apply CNop; discriminate].
    destruct (0 <? p_wait s)%nat eqn:W; [discriminate|]. apply Nat.ltb_ge in W.
    apply obind_ok in E. destruct E as [[l o] [E1 E2]]. injection E2 as <-. apply CCleanup with (q := q); auto. lia.
  - injection E as <-. apply COccur.
  - destruct (nth_error (p_calls s) i) as [[h st]|] eqn:N; [|injection E as <-; apply CNop; discriminate].
    cbn [c_hap c_stage] in E. destruct st as [|n|g n|].
    + destruct (filtered _ _) eqn:F.
      * injection E as <-. eapply CSkip; eauto.
      * destruct (p_queue s) as [q|] eqn:Q; injection E as <-.
        -- rewrite <- Q. eapply CMake; eauto.
        -- eapply CSkip; eauto.
    + destruct (p_queue s) as [q|] eqn:Q; injection E as <-; [eapply CDefer; eauto|apply CLeak; auto].
    + destruct (p_queue s) as [q|] eqn:Q; [|discriminate]. destruct (Nat.eqb g (p_gen s)) eqn:G; [|discriminate].
      apply Nat.eqb_eq in G. subst g. injection E as <-. apply CPush; auto.
    + injection E as <-. apply CReg; auto.
  - destruct (p_queue s) as [[|[e h] q]|] eqn:Q; [destruct b| |]; injection E as <-; try (apply CNop; discriminate).
    + apply CWait; auto.
    + apply CTake; eauto.
  - destruct (p_wait s) as [|w]; [injection E as <-; apply CNop; discriminate|].
    destruct (p_queue s) as [[|[e h] q]|] eqn:Q; injection E as <-; try (apply CNop; discriminate). apply CTake; auto.
  - destruct (find_event (p_events s) e) eqn:F; [|discriminate]. injection E as <-. eapply CRef; eauto.
  - apply obind_ok in E. destruct E as [[l o] [E1 E2]]. injection E2 as <-. apply CUnref. exact E1.
  - destruct (p_queue s) eqn:Q; injection E as <-; [eapply CInstall; eauto|apply CNop; discriminate].
  - injection E as <-. apply CChange.
Qed.

(** C147. *)
Lemma skip_log : forall h P, calls P (unreported h) = 0 /\ pushed P (unreported h) = 0 /\ leaked P (unreported h) = 0 /\
  skipped P (unreported h) = (if P h then 1 else 0).
Proof. intros h P. unfold unreported, calls, pushed, leaked, skipped. destruct (h_kind h); cbn [num]; destruct (P h); conj; lia. Qed.

Ltac state := cbn [p_queue p_gen p_masks p_main p_ready p_acc p_closers p_calls p_events p_next p_wait p_log with_calls with_masks take] in *.
Ltac counted := repeat match goal with |- context [num ?f (_ ++ _)] => rewrite num_app end; cbn [num].

Theorem account_thm : forall P l s, prun p0 l = Ok s ->
  calls P (p_log s) = pushed P (p_log s) + skipped P (p_log s) + leaked P (p_log s) + inflight P s.
Proof.
  intros P l s R. revert l s R. apply (run_inv (fun _ s => calls P (p_log s) = pushed P (p_log s) + skipped P (p_log s) + leaked P (p_log s) + inflight P s)); [reflexivity|].
  intros l s e s' _ I E. apply cases in E. unfold inflight in *.
  destruct E; state; try exact I.
  - (* cleanup *)
    unfold calls, pushed, skipped, leaked in *. rewrite !num_app.
    rewrite !(release_log _ _ _ _ _ H1) by reflexivity. lia.
  - (* occur *)
    unfold calls, pushed, skipped, leaked in *. rewrite !num_app. cbn [num]. rewrite !num_repeat. cbn [waiting c_stage c_hap andb]. destruct (P h); lia.
  - (* skip *)
    destruct (skip_log h P) as [A [B [C D]]]. unfold calls, pushed, skipped, leaked in *. rewrite !num_app, A, B, C, D.
    rewrite (num_put _ _ _ _ _ H), num_after by reflexivity. cbn [waiting c_stage c_hap andb]. destruct (P h); lia.
  - rewrite (num_put _ _ _ _ _ H). cbn [num]. cbn [waiting c_stage c_hap andb] in *.
    replace (waiting {| c_hap := h; c_stage := st |}) with true by (subst st; destruct (h_kind h); reflexivity). cbn [andb]. lia.
  - unfold calls, pushed, skipped, leaked in *. rewrite !num_app, (num_put _ _ _ _ _ H). cbn [num waiting c_stage c_hap andb]. destruct (P h); lia.
  - unfold calls, pushed, skipped, leaked in *. rewrite !num_app, (num_put _ _ _ _ _ H). cbn [num waiting c_stage c_hap andb]. destruct (P h); lia.
  - unfold calls, pushed, skipped, leaked in *. rewrite !num_app, (num_put _ _ _ _ _ H), num_after by reflexivity. cbn [num waiting c_stage c_hap andb]. destruct (P h); lia.
  - rewrite (num_put _ _ _ _ _ H). cbn [num waiting c_stage c_hap andb]. lia.
  - unfold calls, pushed, skipped, leaked in *. rewrite !num_app. cbn [num]. lia.
  - unfold calls, pushed, skipped, leaked in *. rewrite !num_app. cbn [num]. lia.
  - unfold calls, pushed, skipped, leaked in *. rewrite !num_app. cbn [num]. rewrite !(unref_log _ _ _ _ _ H) by reflexivity. lia.
Qed.

(** C148. *)
Lemma release_out : forall q l l' o, release l q = Ok (l', o) -> out_order o = q /\ in_order o = [].
Proof.
  induction q as [|[e h] q IH]; intros l l' o E; cbn [release] in E.
  - injection E as <- <-. split; reflexivity.
  - apply obind_ok in E. destruct E as [[l1 o1] [E1 E2]]. apply obind_ok in E2. destruct E2 as [[l2 o2] [E2 E3]].
    injection E3 as <- <-. destruct (IH _ _ _ E2) as [A B].
    unfold unref in E1. destruct (find_event l e) as [x|]; [|discriminate].
    unfold out_order, in_order in *. cbn [flat_map]. rewrite !flat_map_app, A, B.
    destruct (e_refs x - 1 =? 0); injection E1 as <- <-; split; reflexivity.
Qed.
Lemma no_order : forall o, Forall (fun x => match x with PPush _ _ | PPull _ _ | PDrop _ _ => False | _ => True end) o -> in_order o = [] /\ out_order o = [].
Proof.
  intros o F. induction F as [|x o X F [A B]]; [split; reflexivity|]. unfold in_order, out_order in *. cbn [flat_map]. rewrite A, B.
  destruct x; try destruct X; split; reflexivity.
Qed.
Theorem fifo_thm : forall l s, prun p0 l = Ok s -> out_order (p_log s) ++ queued s = in_order (p_log s).
Proof.
  apply (run_inv (fun _ s => out_order (p_log s) ++ queued s = in_order (p_log s))); [reflexivity|].
  intros l s e s' _ I E. apply cases in E. unfold queued in *.
  assert (K : forall o, in_order o = [] /\ out_order o = [] -> out_order (p_log s ++ o) ++ match p_queue s with Some q => q | None => [] end = in_order (p_log s ++ o)).
  { intros o [A B]. unfold in_order, out_order in *. rewrite !flat_map_app, A, B, !app_nil_r. exact I. }
  destruct E; state; try exact I; try (apply K, no_order; unfold unreported; repeat constructor; fail).
  - rewrite H in I. exact I.
  - destruct (release_out _ _ _ _ H1) as [A B]. rewrite H in I. unfold in_order, out_order in *. rewrite !flat_map_app, A, B, !app_nil_r. exact I.
  - apply K, no_order. constructor; [exact Logic.I|]. apply Forall_forall. intros x X. apply repeat_spec in X. subst x. exact Logic.I.
  - apply K, no_order. unfold unreported. destruct (h_kind h); repeat constructor.
  - rewrite H0 in I. unfold in_order, out_order in *. rewrite !flat_map_app. cbn [flat_map app]. rewrite <- I, !app_nil_r, app_assoc. reflexivity.
  - rewrite H in I. exact I.
  - rewrite H0 in I. unfold in_order, out_order in *. rewrite !flat_map_app. cbn [flat_map app]. rewrite <- I, !app_nil_r, <- app_assoc. reflexivity.
  - apply K, no_order. constructor; [exact Logic.I|]. unfold unref in H. destruct (find_event _ _) as [x|]; [|discriminate].
    destruct (e_refs x - 1 =? 0); injection H as <- <-; repeat constructor.
Qed.
