(** The notification of idle connections (C215-C220). *)
From Verif Require Import Base IdleModel IdleSpec IdleProofs IdleProofs2.

(** The connection is used at second 100, found idle with a period of 60 seconds, and the task is in the pool. *)
Definition found : list iev := configured 1 60 7 8 ++ [ITraffic 10 20; ITick 61; IPass; ICheck; INote].
Definition takeaway : list iev := [ISet None 0 0 0; IStore; IStore; IStore; IStore].

(** C215: the calls to the idle handler for a connection never overlap, with
    every interleaving of the reader, the tasks and the configuration. *)
Theorem C215_apart : forall m now es s, irun m (i0 now) es = Ok s -> apart false (i_log s).
Proof. intros m now es s R. destruct (always m now es) as (s1 & E & H). rewrite R in E. injection E as <-. apply H. Qed.
Print Assumptions C215_apart.
Example C215_ex : exists s, irun false (i0 100) (found ++ [ITask 0; ITask 0; IPass; ICheck; INote; ITask 0; ITask 0; ITask 0; ITick 61; IPass; ICheck; INote; ITask 0; ITask 0]) = Ok s
  /\ filter (fun o => match o with OCall _ _ _ | OReturn => true | _ => false end) (i_log s) = [OCall 1 7 8; OReturn; OCall 1 7 8].
Proof. eexists. split; vm_compute; reflexivity. Qed.

(** C216: each call follows a time at which the reader found more than the
    period without activity; and with the handler configured once and the pool
    accepting tasks, the period, the handler and the data are the ones configured.
    Missing: changes of the configuration while the reader runs, and
    activity between the decision and the call. *)
Theorem C216_idle_partial : forall m now es s, irun m (i0 now) es = Ok s -> when_idle (i_log s).
Proof. intros m now es s R. destruct (always m now es) as (s1 & E & H). rewrite R in E. injection E as <-. apply H. Qed.
Print Assumptions C216_idle_partial.
Theorem C216_configured_partial : forall m now h p d d2 es s, no_set es -> pool_open es -> irun m (i0 now) (configured h p d d2 ++ es) = Ok s -> forall o, In o (i_log s) -> said h p d d2 o.
Proof. intros m now h p d d2 es s A B R. destruct (as_configured m now h p d d2 es A B) as (s1 & E & H & _). rewrite R in E. injection E as <-. exact H. Qed.
Print Assumptions C216_configured_partial.
Example C216_ex : exists s, irun false (i0 100) (found ++ [ITask 0; ITask 0]) = Ok s /\ i_log s = [OActive 100; OIdle 161 60; OCall 1 7 8].
Proof. eexists. split; vm_compute; reflexivity. Qed.
(** The handler is stored before the period and the data: the only configuration asks for 60 seconds
    and the data 7 and 8, and the handler is called with no data for a connection active one second before. *)
Theorem C216_setting_refuted : exists es s, (forall h p d d2, In (ISet h p d d2) es -> (h, p, d, d2) = (Some 1, 60, 7, 8)) /\
  irun false (i0 100) es = Ok s /\ i_log s = [OActive 100; OIdle 101 0; OCall 1 0 0].
Proof.
  exists [ITraffic 10 20; ISet (Some 1) 60 7 8; IStore; ITick 1; IPass; ICheck; INote; ITask 0; ITask 0]. eexists. split; [|split; vm_compute; reflexivity].
  intros h p d d2 H. cbn in H. repeat (destruct H as [H|H]; [try discriminate H; injection H as <- <- <- <-; reflexivity|]). destruct H.
Qed.
Print Assumptions C216_setting_refuted.
(** Octets received after the decision: the handler is called in the same second. *)
Theorem C216_active_refuted : exists es s, no_set es /\ pool_open es /\ irun false (i0 100) (configured 1 60 7 8 ++ es) = Ok s /\ i_log s = [OActive 100; OIdle 161 60; OActive 161; OCall 1 7 8].
Proof.
  exists [ITraffic 10 20; ITick 61; IPass; ICheck; INote; ITraffic 5 0; ITask 0; ITask 0]. eexists. split; [intros h p d d2 H; cbn in H; intuition discriminate|]. split; [intros H; cbn in H; intuition discriminate|]. split; vm_compute; reflexivity.
Qed.
Print Assumptions C216_active_refuted.

(** C217: whatever is closed, released or configured meanwhile, nothing is used after its
    release, the connection is in memory during every call, and it is released once at most. *)
Theorem C217_in_memory : forall m now es, exists s, irun m (i0 now) es = Ok s /\ kept_in false (i_log s) /\ (In TIn (i_tasks s) -> 0 < i_refs s) /\ (times is_free (i_log s) <= 1)%nat.
Proof. intros m now es. destruct (always m now es) as (s & E & _ & K & _ & T & F). exists s. split; [exact E|]. split; [exact K|]. split; [exact T|]. rewrite F. destruct (i_refs s =? 0); auto. Qed.
Print Assumptions C217_in_memory.
Example C217_ex : exists s, irun false (i0 100) (found ++ [ITask 0; ITask 0; IDrop; IUser; ITask 0; ITask 0; ITask 0]) = Ok s /\ i_log s = [OActive 100; OIdle 161 60; OCall 1 7 8; OReturn; OActive 161; OFree].
Proof. eexists. split; vm_compute; reflexivity. Qed.

(** C218: with the handler configured once and the pool accepting tasks, the references
    are always the ones of the reader, the user and the tasks that have not ended: the connection is
    released when the three are gone.  Missing: the handler taken away
    or the pool stopped with a notification under way. *)
Theorem C218_references_partial : forall m now h p d d2 es s, no_set es -> pool_open es -> irun m (i0 now) (configured h p d d2 ++ es) = Ok s ->
  i_refs s = holders s /\ (times is_free (i_log s) = 1%nat <-> holders s = 0).
Proof.
  intros m now h p d d2 es s A B R. destruct (as_configured m now h p d d2 es A B) as (s1 & E & _ & H & _). rewrite R in E. injection E as <-. split; [exact H|].
  destruct (always m now (configured h p d d2 ++ es)) as (s1 & E & _ & _ & _ & _ & F). rewrite R in E. injection E as <-. rewrite F, H. destruct (Z.eqb_spec (holders s) 0); split; congruence.
Qed.
Print Assumptions C218_references_partial.
Example C218_ex : exists s, irun false (i0 100) (found ++ [IDrop; IUser]) = Ok s /\ i_refs s = 1 /\ holders s = 1 /\ exists s', irun false s [ITask 0; ITask 0; ITask 0; ITask 0; ITask 0] = Ok s' /\ holders s' = 0 /\ times is_free (i_log s') = 1%nat.
Proof. eexists. split; [vm_compute; reflexivity|]. split; [reflexivity|]. split; [reflexivity|]. eexists. split; [vm_compute; reflexivity|]. split; vm_compute; reflexivity. Qed.
(** The handler is taken away before the task runs, or the pool is stopped before it is
    queued: the reference of the task is lost, and the connection is never released. *)
Theorem C218_removed_refuted : forall es', exists s, irun false (i0 100) (found ++ takeaway ++ [ITask 0; IDrop; IUser] ++ es') = Ok s /\ 1 <= i_refs s.
Proof.
  intros es'. rewrite !app_assoc, irun_app. match goal with |- context [obind ?x _] => let y := eval vm_compute in x in change x with y end. cbn [obind].
  match goal with |- context [irun false ?s es'] => destruct (w_run false es' s) as (s' & R & _ & F); [split; vm_compute; congruence|exists s'; auto] end.
Qed.
Print Assumptions C218_removed_refuted.
Theorem C218_pool_refuted : forall es', exists s, irun false (i0 100) (configured 1 60 7 8 ++ [ITraffic 10 20; ITick 61; IPass; ICheck; IPoolEnd; INote; IDrop; IUser] ++ es') = Ok s /\ 1 <= i_refs s.
Proof.
  intros es'. rewrite !app_assoc, irun_app. match goal with |- context [obind ?x _] => let y := eval vm_compute in x in change x with y end. cbn [obind].
  match goal with |- context [irun false ?s es'] => destruct (w_run false es' s) as (s' & R & _ & F); [split; vm_compute; congruence|exists s'; auto] end.
Qed.
Print Assumptions C218_pool_refuted.

(** C219: with the handler configured once and the pool accepting tasks, a
    connection without activity for longer than the period gets the call in the next
    pass of the reader and steps of the task, if there is no other
    notification under way.  Missing: everything else. *)
Theorem C219_called_partial : forall now h p d d2 es s, no_set es -> pool_open es -> irun false (i0 now) (configured h p d d2 ++ es) = Ok s ->
  i_reader s = RWait -> i_tasks s = [] -> i_stamp s <> 0 -> p < i_now s - i_stamp s ->
  exists s', irun false s [IPass; ICheck; INote; ITask 0; ITask 0] = Ok s' /\ i_log s' = i_log s ++ [OIdle (i_now s) p; OCall h d d2].
Proof. exact notified. Qed.
Print Assumptions C219_called_partial.
Example C219_ex : exists s, irun false (i0 100) (configured 1 60 7 8 ++ [ITraffic 10 20; ITick 61]) = Ok s /\ i_reader s = RWait /\ i_tasks s = [] /\ i_stamp s <> 0 /\ 60 < i_now s - i_stamp s.
Proof. eexists. split; [vm_compute; reflexivity|]. repeat split; cbn; congruence. Qed.
(** The handler is taken away while a notification is under way and set again: whatever
    happens later, it is not called for that connection any more. *)
Theorem C219_never_refuted : forall es', exists s, irun false (i0 100) (found ++ takeaway ++ [ITask 0] ++ configured 1 60 7 8 ++ es') = Ok s /\ times is_call (i_log s) = 0%nat.
Proof.
  intros es'. rewrite !app_assoc, irun_app. match goal with |- context [obind ?x _] => let y := eval vm_compute in x in change x with y end. cbn [obind].
  match goal with |- context [irun false ?s es'] => destruct (w_run false es' s) as (s' & R & T & _); [split; vm_compute; congruence|exists s'; split; [exact R|rewrite T; vm_compute; reflexivity]] end.
Qed.
Print Assumptions C219_never_refuted.
(** The reader decides while the handler runs and notifies when it has returned: the
    handler is called twice in the same second. *)
Theorem C219_twice_refuted : exists es s, no_set es /\ pool_open es /\ irun false (i0 100) (configured 1 60 7 8 ++ es) = Ok s /\
  i_log s = [OActive 100; OIdle 161 60; OCall 1 7 8; OIdle 161 60; OReturn; OActive 161; OCall 1 7 8].
Proof.
  exists [ITraffic 10 20; ITick 61; IPass; ICheck; INote; ITask 0; ITask 0; IPass; ICheck; ITask 0; ITask 0; INote; ITask 1; ITask 1]. eexists.
  split; [intros h p d d2 H; cbn in H; intuition discriminate|]. split; [intros H; cbn in H; intuition discriminate|]. split; vm_compute; reflexivity.
Qed.
Print Assumptions C219_twice_refuted.

(** C220: the totals of vortex_connection_get_receive_stamp are the octets read and
    written since the connection was created. *)
Theorem C220_totals : forall m now es s, irun m (i0 now) es = Ok s -> 0 < i_refs s -> i_rx s = received es /\ i_tx s = sent es.
Proof. exact totals. Qed.
Print Assumptions C220_totals.
Example C220_ex : exists s, irun false (i0 100) (found ++ [ITraffic 3 0; ITask 0; ITask 0; ITask 0; ITraffic 0 4]) = Ok s /\ i_rx s = 13 /\ i_tx s = 24.
Proof. eexists. split; [vm_compute; reflexivity|]. split; reflexivity. Qed.
