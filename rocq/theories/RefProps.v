(** References to objects shared by threads. *)
From Verif Require Import Base RefModel RefSpec RefProofs.

(** C43, C77: any number of threads and any interleaving of balanced calls: nothing
    undefined is done, the object is released exactly once, when nobody owns a
    reference, after the last use, and no call for a reference fails. *)
Theorem C43_counted : forall k n es, k <> KFrame -> balanced k (r0 n) es -> exists s, rrun k (r0 n) es = Ok s /\ sound s.
Proof. exact sound_thm. Qed.
Print Assumptions C43_counted.
(** C78: frames, if the calls do not overlap. *)
Theorem C78_frame_partial : forall n es, balanced KFrame (r0 n) es -> one_by_one KFrame (r0 n) es -> exists s, rrun KFrame (r0 n) es = Ok s /\ sound s.
Proof. exact frame_thm. Qed.
Print Assumptions C78_frame_partial.
(** Frames have no mutex: two calls that overlap, and a frame is used after its release. *)
Theorem C78_race_refuted : exists es, balanced KFrame (r0 1) es /\ rrun KFrame (r0 1) es = UB.
Proof. exact frame_race. Qed.
Print Assumptions C78_race_refuted.
(** C79: the pointer given to vortex_ctx_unref is set to NULL only if the context was released. *)
Theorem C79_null_partial : forall n es s a t b, balanced KCtx (r0 n) es -> rrun KCtx (r0 n) es = Ok s -> r_log s = a ++ ODone t true :: b -> In OFree a.
Proof. exact null_thm. Qed.
Print Assumptions C79_null_partial.
(** But it may be left as it was though the call released the context. *)
Theorem C79_race_refuted : exists es s, balanced KCtx (r0 1) es /\ rrun KCtx (r0 1) es = Ok s /\ In OFree (r_log s) /\ forall t, ~ In (ODone t true) (r_log s).
Proof. exact ctx_race. Qed.
Print Assumptions C79_race_refuted.
(** C80: a thread without a reference may be told that it has one of an object that
    is released right away. *)
Theorem C80_kept_refuted : forall k, k = KConn \/ k = KChan \/ k = KQueue \/ k = KFeeder ->
  exists es s, asking k (r0 2) es /\ rrun k (r0 2) es = Ok s /\ In (OGot 2 true) (r_log s) /\ owner s 2 /\ r_freed s = true.
Proof. exact asked_race. Qed.
Print Assumptions C80_kept_refuted.
(** And the answer axl_false may leave the counter increased. *)
Theorem C80_refused_refuted : forall k, k = KConn \/ k = KChan \/ k = KQueue ->
  exists es s, asking k (r0 1) es /\ rrun k (r0 1) es = Ok s /\ In (OGot 1 false) (r_log s) /\ r_freed s = false /\ r_count s = 1 /\ forall x, In x (r_threads s) -> t_refs x = 0.
Proof. exact refused_race. Qed.
Print Assumptions C80_refused_refuted.

(** Three threads that share a context; calls overlap. *)
Definition shared : list act :=
  [ERef 0; EStep 0; EGive 0 2; ERef 2; EUse 2; ERef 0; EStep 0; EStep 2; EGive 2 1; EUnref 0; EUnref 1; EUse 2; EStep 1; EStep 0; EStep 1; EStep 0;
   EUnref 0; EStep 0; EUnref 2; EStep 2; EStep 0; EStep 2; EStep 2].
Example C43_shared : balanced KCtx (r0 2) shared /\ exists s, rrun KCtx (r0 2) shared = Ok s /\ r_freed s = true /\ r_count s = 0 /\ length (r_log s) = 10%nat.
Proof. split; [unfold shared; walk|]. eexists. split; [vm_compute; reflexivity|]. auto. Qed.
Example C43_queue : balanced KQueue (r0 1) [ERef 0; EStep 0; EStep 0; EStep 0; EGive 0 1; EUnref 0; ERef 1; EStep 1; EStep 0; EStep 1; EStep 1; EUse 1; EUnref 1; EStep 1; EUnref 1; EStep 1; EStep 1] /\
  exists s, rrun KQueue (r0 1) [ERef 0; EStep 0; EStep 0; EStep 0; EGive 0 1; EUnref 0; ERef 1; EStep 1; EStep 0; EStep 1; EStep 1; EUse 1; EUnref 1; EStep 1; EUnref 1; EStep 1; EStep 1] = Ok s /\ r_freed s = true.
Proof. split; [walk|]. eexists. split; [vm_compute; reflexivity|]. reflexivity. Qed.
Definition alone : list act := [ERef 0; EStep 0; EStep 0; EGive 0 1; EUse 1; EUnref 0; EStep 0; EStep 0; EUse 1; EStep 0; EUnref 1; EStep 1; EStep 1; EStep 1; EStep 1].
Example C78_alone : balanced KFrame (r0 1) alone /\ one_by_one KFrame (r0 1) alone /\ exists s, rrun KFrame (r0 1) alone = Ok s /\ r_freed s = true.
Proof.
  split; [unfold alone; walk|]. split; [|eexists; split; [vm_compute; reflexivity|reflexivity]].
  unfold alone. repeat (split; [first [exact Logic.I | (cbn; intros x; intuition congruence) | (cbn; intros x [<-|[<-|[]]]; reflexivity)]|let s := fresh in let H := fresh in intros s H; vm_compute in H; injection H as <-]). exact Logic.I.
Qed.
Example C79_case : exists s, rrun KCtx (r0 1) [ERef 0; EStep 0; EGive 0 1; EUnref 0; EStep 0; EStep 0; EUnref 1; EStep 1; EStep 1; EStep 1] = Ok s /\ r_log s = [OGot 0 true; ODone 0 false; OFree; ODone 1 true].
Proof. eexists. split; vm_compute; reflexivity. Qed.
