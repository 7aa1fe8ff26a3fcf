(** Theorems about the thread pool (C33, C34, C63, C64). *)
From Coq Require Import Permutation.
From Verif Require Import Base AsyncModel TimeModel TimeSpec PoolModel PoolSpec PoolProofs PoolProofs2 PoolProofs3 PoolProofs4 PoolProofs5.

(** ** C33: the pool size stays within its limits *)

(** False: with a maximum of 2 and a step of 5, the automatic resize takes a
    pool of one thread to 6. *)
Theorem C33_max_refuted : exists es p c, times_ok es /\
  existsb (fun e => match e with PAdd _ _ => true | _ => false end) es = false /\
  prun (tp0 1 1) es = Ok p /\ last_setup (tp_log p) = Some c /\ tc_max c = 2 /\ size p = 6.
Proof. exact max_witness. Qed.
Print Assumptions C33_max_refuted.

(** From any state, unless threads are added or settings changed by a call, the
    size does not go over the maximum by as much as a step (so, with a step of
    one, it does not go over the maximum). *)
Theorem C33_max_partial : forall es p p', prun p es = Ok p' -> forallb (fun e => negb (by_hand e)) es = true ->
  size p' <= Z.max (size p) (tc_max (tp_conf p) + tc_add (tp_conf p) - 1).
Proof. exact size_run. Qed.
Print Assumptions C33_max_partial.

(** False: two calls that remove one of two threads each leave none, and a task
    submitted then is never executed. *)
Theorem C33_min_refuted : exists es p, times_ok es /\ prun (tp0 2 2) es = Ok p /\
  size p = 0 /\ quiet p /\ submitted (tp_log p) = [0] /\ executed (tp_log p) = [].
Proof. exact min_witness. Qed.
Print Assumptions C33_min_refuted.

(** The automatic resize alone can do so. *)
Theorem C33_auto_refuted : exists es p, times_ok es /\
  existsb (fun e => match e with PRemove _ => true | _ => false end) es = false /\
  prun (tp0 1 1) es = Ok p /\ size p = 0.
Proof. exact auto_witness. Qed.
Print Assumptions C33_auto_refuted.

(** It removes threads that it has not added. *)
Theorem C33_base_refuted : exists es p, times_ok es /\
  existsb (fun e => match e with PRemove _ => true | _ => false end) es = false /\
  prun (tp0 4 4) es = Ok p /\ size (tp0 4 4) = 4 /\ size p = 1.
Proof. exact base_witness. Qed.
Print Assumptions C33_base_refuted.

(** A thread at least is left if threads are removed only when those removed
    before are gone. *)
Theorem C33_min_partial : forall n made es p, prun (tp0 n made) es = Ok p -> alone (tp0 n made) es ->
  1 <= Z.min n made -> 1 <= size p.
Proof. exact min_run. Qed.
Print Assumptions C33_min_partial.

(** Adding threads adds those that can be created, up to the number asked for. *)
Theorem C33_add : forall p n made p', pstep p (PAdd n made) = Ok p' -> tp_hold p = None ->
  size p' = size p + Z.max 0 (Z.min n made) /\ zlen (tp_run p') = zlen (tp_run p) + Z.max 0 (Z.min n made).
Proof. exact add_exact. Qed.
Print Assumptions C33_add.

(** Three threads, two of them removed, then two more added. *)
Example C33_case :
  let es := [PRemove 5; PPush 0; PPush 0; go 0; go 1; go 0; go 1; go 0; go 1; go 2; go 2; go 2; PAdd 2 2] in
  exists p, prun (tp0 3 3) es = Ok p /\ size p = 3 /\ tp_threads p = [2; 3; 4] /\ alone (tp0 3 3) es.
Proof.
  eexists. split; [vm_compute; reflexivity|]. split; [reflexivity|]. split; [reflexivity|]. cbn [alone].
  repeat (let p' := fresh "p" in let H := fresh "H" in
          intros p' H; vm_compute in H; apply ok_inj in H; subst p'; split; [vm_compute; intros; congruence|]).
  exact I.
Qed.
(** The automatic resize with steps of one. *)
Example C33_case_auto :
  let es := submit ++ submit ++ submit ++ [go 0; go 0; go 0; go_at 0 11 5; go_at 0 11 5] in
  let c := mkTC true 1 2 1 1 1 1 false false in
  let p := mkTP (tp_q (tp0 1 1)) [0] [] [(0, TStart)] 1 0 c (at_ 10) None 0 0 false false [] in
  exists p', prun p es = Ok p' /\ forallb (fun e => negb (by_hand e)) es = true /\ size p = 1 /\ size p' = 2.
Proof. eexists. split; [vm_compute; reflexivity|]. repeat split. Qed.

(** ** C34: each task is executed exactly once *)

(** At any time: no task is executed twice, no task is both executed and
    dropped, and tasks are taken in the order they were submitted. *)
Theorem C34_once : forall n made es p, prun (tp0 n made) es = Ok p ->
  NoDup (submitted (tp_log p)) /\ NoDup (executed (tp_log p)) /\
  (forall x, In x (executed (tp_log p)) -> In x (taken (tp_log p)) /\ ~ In x (dropped (tp_log p))) /\
  (exists rest, submitted (tp_log p) = taken (tp_log p) ++ rest).
Proof. exact tasks_once. Qed.
Print Assumptions C34_once.

(** When the threads of a pool that is not being stopped have nothing left to
    do, all the tasks submitted have been executed, if there is a thread (see
    [C33_min_refuted]).  In particular the threads do not block each other. *)
Theorem C34_done_partial : forall n made es p, prun (tp0 n made) es = Ok p -> quiet p -> tp_run p <> [] ->
  tp_stopping p = false -> tp_exit p = false -> Permutation (submitted (tp_log p)) (executed (tp_log p)).
Proof. exact quiet_done. Qed.
Print Assumptions C34_done_partial.

(** The pool never does anything undefined. *)
Theorem C34_defined : forall n made es, times_ok es -> exists p, prun (tp0 n made) es = Ok p.
Proof. exact defined_run. Qed.
Print Assumptions C34_defined.

(** Three tasks; two threads, one of them removed meanwhile. *)
Definition three : list pev :=
  submit ++ [go 1] ++ submit ++ [PRemove 1] ++ submit ++ [go 0; PPush 0] ++
  [go 0; go 0; go 0; go 0; go 1; go 1; go 1; go 1; go 1; go 1; go 0; go 0; go 0; go 0;
   PWake 0; PResume 0; go 0; go 0; go 0; go 0; go 0; go 0; go 0].
Example C34_case : exists p, prun (tp0 2 2) three = Ok p /\
  submitted (tp_log p) = [0; 1; 2] /\ executed (tp_log p) = [1; 0; 2] /\ tp_run p = [(0, TWait)] /\
  tp_stopping p = false /\ tp_exit p = false /\ quiet p.
Proof.
  eexists. split; [vm_compute; reflexivity|]. repeat split; try reflexivity.
  - intros t now later made k. cbn. unfold thread_step, state_of. cbn. destruct t; reflexivity.
  - intros k. destruct k; reflexivity.
Qed.

(** ** C63: stopping the pool ends its threads *)

(** Once vortex_thread_pool_exit has pushed its beacons (one for each thread of
    the pool), the threads do not stop making progress until all have ended. *)
Theorem C63_stopped : forall n made es p, prun (tp0 n made) es = Ok p -> quiet p -> tp_stopping p = true ->
  size p <= tp_beacons p -> tp_run p = [].
Proof. exact quiet_stopped. Qed.
Print Assumptions C63_stopped.
Example C63_case :
  let es := submit ++ [go 0; go 1; PRemove 1; PPush 0; PStop; PBeacon 0; PResume 0; PBeacon 0; PBeacon 0;
    go 0; go 1; go 0; go 1; go 1; go 0; go 0; go 0; go 0; go 0] in
  exists p, prun (tp0 2 2) es = Ok p /\ tp_stopping p = true /\ size p <= tp_beacons p /\ tp_run p = [] /\
    dropped (tp_log p) = [0].
Proof. eexists. split; [vm_compute; reflexivity|]. repeat split; try reflexivity. discriminate. Qed.

(** ** C64: automatic changes of size keep their period *)

(** Threads are added or removed automatically only after vortex_thread_pool_setup
    asked for it, no sooner after the last change than the period set up, and no
    more of them than set up. *)
Theorem C64_period : forall n made es p, times_ok es -> prun (tp0 n made) es = Ok p -> resizes_ok (tp_log p).
Proof. exact period_run. Qed.
Print Assumptions C64_period.
Example C64_case : exists p, prun (tp0 1 1) shrink = Ok p /\ times_ok shrink /\
  tp_log p = [PSetAt shrink_conf (at_ 0); PRemoved (at_ 2) (at_ 2) 1; PRemoved (at_ 4) (at_ 4) 1].
Proof. eexists. split; [vm_compute; reflexivity|]. split; [times|]. reflexivity. Qed.
