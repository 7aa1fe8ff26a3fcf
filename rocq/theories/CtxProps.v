(** C210-C214: the life of a context. *)
From Verif Require Import Base HdrModel CtxModel CtxSpec CtxProofs CtxProofs2 CtxProofs3 CtxProofs4 CtxProofs5.

Definition runs (t n : nat) : list xev := repeat (ERun t) n.
Definition shared : list xev := [EStart 0 OpRef; EGive 0 1].

(** C210: whatever number of threads call vortex_exit_ctx and in whatever order
    their steps are done, the modules are stopped once at most. *)
Theorem C210_once : forall lmx n es s, xrun (x0 lmx n) es = Ok s -> (times is_stop (x_log s) <= 1)%nat.
Proof. exact stops_once. Qed.
Print Assumptions C210_once.
(** Three threads call at the same time. *)
Definition three : list xev := [EStart 0 (OpExit false); EStart 1 (OpExit false); EStart 2 (OpExit false)] ++ [ERun 1; ERun 0; ERun 2] ++ runs 1 2 ++ runs 0 2 ++ runs 2 2 ++ runs 1 5.
Example C210_ex : exists s, xrun (x0 false 2) three = Ok s /\ all_idle s /\ x_log s = [OStop 1; OCleaned].
Proof. eexists. split; [vm_compute; reflexivity|]. split; [|reflexivity]. intros [|[|[|t]]] p H; cbn in H; try congruence. destruct t; discriminate. Qed.

(** C211: vortex_exit_ctx can be called by several threads that have a reference
    each: nothing of what was released is used, if no call begins while
    another thread is between the first check and the second one and logs do not
    use the mutex.  Missing: calls at the same time. *)
Theorem C211_safe_partial : forall n es, owners (x0 false n) es -> in_turn (x0 false n) es -> exists s, xrun (x0 false n) es = Ok s.
Proof. exact no_ub. Qed.
Print Assumptions C211_safe_partial.
Definition in_turns : list xev :=
  shared ++ [EStart 0 (OpInstall 4); EStart 0 (OpExit true)] ++ runs 0 3 ++ [EStart 1 (OpExit true); EStart 1 OpUnref] ++ runs 0 4 ++ [EAct 0 (OpRemove 4)] ++ runs 0 3 ++ runs 1 3 ++ [ERun 0].
Example C211_ex : owners (x0 false 1) in_turns /\ in_turn (x0 false 1) in_turns /\ exists s, xrun (x0 false 1) in_turns = Ok s /\ x_mem s = false /\ all_idle s.
Proof.
  split; [vm_compute; repeat split|]. split.
  - vm_compute. repeat split; (intros u p H; destruct u as [|[|u]]; cbn in H; try (injection H as <-; reflexivity); destruct u; discriminate).
  - eexists. split; [vm_compute; reflexivity|]. split; [reflexivity|]. intros [|[|t]] p H; cbn in H; try congruence. destruct t; discriminate.
Qed.
(** Two threads call at the same time, each with its reference: the second one
    locks the mutex when the first one has destroyed it. *)
Theorem C211_late_refuted : exists es, owners (x0 false 1) es /\ xrun (x0 false 1) es = UB.
Proof. exists (shared ++ [EStart 0 (OpExit false); EStart 1 (OpExit false)] ++ runs 0 6 ++ [ERun 1]). split; [vm_compute; repeat split|vm_compute; reflexivity]. Qed.
Print Assumptions C211_late_refuted.
(** Or the first one destroys it when the second one has locked it. *)
Theorem C211_locked_refuted : exists es s, owners (x0 false 1) (es ++ [ERun 0]) /\ xrun (x0 false 1) es = Ok s /\ x_emx s = MHeld 1 /\ xrun (x0 false 1) (es ++ [ERun 0]) = UB.
Proof. exists (shared ++ [EStart 0 (OpExit false); EStart 1 (OpExit false)] ++ runs 0 5 ++ [ERun 1]). eexists. split; [vm_compute; repeat split|]. split; [vm_compute; reflexivity|]. split; vm_compute; reflexivity. Qed.
Print Assumptions C211_locked_refuted.

(** C212: when the execution ends the cleanups are called, each once and in the order
    in which they were installed, and also the ones that are installed while they
    are called; in the meantime the ones called are the first ones.  Missing:
    cleanups removed from the stop of the modules until all were called. *)
Theorem C212_called_partial : forall lmx n es s, xrun (x0 lmx n) es = Ok s -> ~ removed_at_end (x_log s) ->
  (exists k, called (x_log s) = firstn k (to_call (x_log s))) /\ (In OCleaned (x_log s) -> called (x_log s) = to_call (x_log s)).
Proof. exact cleanups_called. Qed.
Print Assumptions C212_called_partial.
Definition cleaning : list xev :=
  [EStart 0 (OpInstall 4); EStart 0 (OpInstall 5); EStart 0 (OpInstall 6); EStart 0 (OpRemove 5); EStart 0 (OpExit false)] ++ runs 0 7 ++ [EAct 0 (OpInstall 9)] ++ runs 0 3.
Example C212_ex : exists s, xrun (x0 false 1) cleaning = Ok s /\ ~ removed_at_end (x_log s) /\ In OCleaned (x_log s) /\ called (x_log s) = [4; 6; 9].
Proof. eexists. split; [vm_compute; reflexivity|]. split; [intros [f H]; cbn in H; repeat (destruct H as [H|H]; [discriminate|]); destruct H|]. split; [cbn; auto 20|reflexivity]. Qed.
(** A cleanup that removes itself: the next one is not called. *)
Theorem C212_removed_refuted : exists es s, owners (x0 false 0) es /\ in_turn (x0 false 0) es /\ xrun (x0 false 0) es = Ok s /\ In OCleaned (x_log s) /\ In (OInst 5) (x_log s) /\ ~ In (ORem 5) (x_log s) /\ called (x_log s) = [4; 6].
Proof.
  exists ([EStart 0 (OpInstall 4); EStart 0 (OpInstall 5); EStart 0 (OpInstall 6); EStart 0 (OpExit false)] ++ runs 0 7 ++ [EAct 0 (OpRemove 4)] ++ runs 0 2). eexists.
  split; [vm_compute; repeat split|]. split; [vm_compute; repeat split; (intros u p H; destruct u as [|u]; cbn in H; try (injection H as <-; reflexivity); destruct u; discriminate)|].
  split; [vm_compute; reflexivity|]. split; [cbn; auto 20|]. split; [cbn; auto|]. split; [intros H; cbn in H; repeat (destruct H as [H|H]; [discriminate|]); destruct H|reflexivity].
Qed.
Print Assumptions C212_removed_refuted.
(** vortex_ctx_free without vortex_exit_ctx: the context is released and the
    cleanup is not called. *)
Theorem C212_free_refuted : exists es s, owners (x0 false 0) es /\ xrun (x0 false 0) es = Ok s /\ In (OInst 4) (x_log s) /\ In OFreed (x_log s) /\ called (x_log s) = [].
Proof. exists ([EStart 0 (OpInstall 4); EStart 0 OpFree] ++ runs 0 2). eexists. split; [vm_compute; repeat split|]. split; [vm_compute; reflexivity|]. split; [cbn; auto|]. split; [cbn; auto|reflexivity]. Qed.
Print Assumptions C212_free_refuted.

(** C213: used by threads that own a reference, the context is released once,
    when all the references were given back and not before, and its count is the
    number of references. *)
Theorem C213_released_partial : forall lmx n es s, owners (x0 lmx n) es -> xrun (x0 lmx n) es = Ok s ->
  times is_freed (x_log s) = (if x_mem s then 0%nat else 1%nat) /\ (x_mem s = false -> total s = 0) /\ (x_mem s = true -> x_ref s = total s) /\ (all_idle s -> total s = 0 -> x_mem s = false).
Proof. exact released_once. Qed.
Print Assumptions C213_released_partial.
Definition given_back : list xev := shared ++ [EStart 1 OpRef; EStart 0 OpFree; EStart 1 OpUnref; ERun 1; ERun 0; EStart 1 OpFree; ERun 1; ERun 1].
Example C213_ex : owners (x0 false 1) given_back /\ exists s, xrun (x0 false 1) given_back = Ok s /\ all_idle s /\ total s = 0 /\ x_log s = [OFreed].
Proof. split; [vm_compute; repeat split|]. eexists. split; [vm_compute; reflexivity|]. split; [|split; reflexivity]. intros [|[|t]] p H; cbn in H; try congruence. destruct t; discriminate. Qed.
(** With logs that use the mutex: the release writes a log with the mutex that it
    has just destroyed. *)
Theorem C213_log_refuted : exists es, owners (x0 true 0) es /\ in_turn (x0 true 0) es /\ xrun (x0 true 0) es = UB.
Proof. exists [EStart 0 OpFree; ERun 0; ERun 0]. repeat split; vm_compute; repeat split. Qed.
Print Assumptions C213_log_refuted.

(** C214: vortex_ctx_unref sets the pointer of the caller to NULL only if the context
    was released, and if no other thread does anything meanwhile exactly
    then.  Missing: the other direction when threads release at the same time. *)
Theorem C214_null_partial : forall lmx n es s t x, owners (x0 lmx n) es -> xrun (x0 lmx n) es = Ok s -> nth_error (x_thr s) t = Some x -> t_ptr x = false -> x_mem s = false.
Proof. exact null_released. Qed.
Print Assumptions C214_null_partial.
Theorem C214_alone_partial : forall n es s t, owners (x0 false n) es -> xrun (x0 false n) es = Ok s -> pc_of s t = Some PIdle -> 0 < own_of s t ->
  exists s', xrun s [EStart t OpUnref; ERun t; ERun t] = Ok s' /\ own_of s' t = own_of s t - 1 /\ (ptr_of s' t = false <-> x_mem s' = false) /\ (x_mem s' = false <-> total s = 1).
Proof. exact unref_alone. Qed.
Print Assumptions C214_alone_partial.
Example C214_ex : owners (x0 false 1) (shared ++ [EStart 0 OpUnref; ERun 0]) /\ exists s, xrun (x0 false 1) (shared ++ [EStart 0 OpUnref; ERun 0]) = Ok s /\ pc_of s 1 = Some PIdle /\ 0 < own_of s 1 /\ total s = 1 /\ ptr_of s 0 = true.
Proof. split; [vm_compute; repeat split|]. eexists. split; [vm_compute; reflexivity|]. repeat split. Qed.
(** Two threads release at the same time: the context is released and both
    pointers still point to it. *)
Theorem C214_two_refuted : exists es s, owners (x0 false 1) es /\ xrun (x0 false 1) es = Ok s /\ all_idle s /\ x_mem s = false /\ ptr_of s 0 = true /\ ptr_of s 1 = true.
Proof.
  exists (shared ++ [EStart 0 OpUnref; EStart 1 OpUnref; ERun 0; ERun 1; ERun 1]). eexists. split; [vm_compute; repeat split|]. split; [vm_compute; reflexivity|]. split; [|repeat split].
  intros [|[|t]] p H; cbn in H; try congruence. destruct t; discriminate.
Qed.
Print Assumptions C214_two_refuted.
