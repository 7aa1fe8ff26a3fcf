From Coq Require Import Permutation.
From Verif Require Import Base AsyncModel AsyncSpec AsyncProofs TimeModel TimeSpec TimeProofs PoolModel PoolSpec PoolProofs PoolProofs2 PoolProofs3 PoolProofs4.

(** ** Executions that break the limits *)
Definition at_ (s : Z) : tval := mkTV s 0.
Definition go (t : Z) : pev := PThread t (at_ 0) (at_ 0) 0 0.
Definition go_at (t s made : Z) : pev := PThread t (at_ s) (at_ s) made 0.
Definition submit : list pev := [PSubmit; PEnqueue 0].
Definition over_conf : tconf := mkTC true 0 2 5 1 1 1 false false.
Definition over : list pev :=
  PSetup over_conf (at_ 10) :: submit ++ submit ++ [go 0; go 0; go 0; go_at 0 11 5].

(** Two threads, removed one by one. *)
Definition gone : list pev :=
  [PRemove 1; PPush 0; go 0; PRemove 1; PPush 0; go 1; go 0; go 0; go 1; go 1] ++ submit.
(** Removed by the automatic resize. *)
Definition shrink_conf : tconf := mkTC true 0 10 1 1 1 0 true false.
Definition shrink : list pev :=
  [PSetup shrink_conf (at_ 0); PAdd 1 1; go 0; go 1; PWake 0; PResume 0; go_at 0 2 0; PPush 0; PResume 0;
   go 0; PWake 0; PResume 0; go_at 0 4 0; PPush 0; go 0; go 1; go 1; go 0; go 0].
(** Below the number of threads there were before any was added. *)
Definition below_conf : tconf := mkTC true 0 10 4 1 4 0 true false.
Definition below : list pev :=
  [PSetup below_conf (at_ 0); PAdd 1 1; go 0; go 1; go 2; go 3; PWake 0; PResume 0; go_at 0 2 0;
   PPush 0; PPush 0; PPush 0; PPush 0; go 0; PResume 0; PResume 0; PResume 0; go 0; go 1; go 2; go 3].

Ltac times :=
  cbv [times_ok over gone shrink below submit app go go_at at_];
  repeat (apply Forall_cons; [try exact I; unfold clock_ok, normal; cbn [tv_sec tv_usec]; lia|]); apply Forall_nil.
Lemma over_times : times_ok over.
Proof. times. Qed.
Lemma max_witness : exists es p c, times_ok es /\ existsb (fun e => match e with PAdd _ _ => true | _ => false end) es = false /\
  prun (tp0 1 1) es = Ok p /\ last_setup (tp_log p) = Some c /\ tc_max c = 2 /\ size p = 6.
Proof.
  exists over. eexists. exists over_conf. split; [exact over_times|]. split; [reflexivity|]. split; [vm_compute; reflexivity|].
  repeat split.
Qed.

Lemma min_witness : exists es p, times_ok es /\ prun (tp0 2 2) es = Ok p /\
  size p = 0 /\ quiet p /\ submitted (tp_log p) = [0] /\ executed (tp_log p) = [].
Proof.
  exists gone. eexists. split; [times|]. split; [vm_compute; reflexivity|]. split; [reflexivity|].
  split; [|split; reflexivity]. split; [|split].
  - intros t now later made k. reflexivity.
  - intros k. destruct k; reflexivity.
  - intros k. reflexivity.
Qed.
Lemma auto_witness : exists es p, times_ok es /\ existsb (fun e => match e with PRemove _ => true | _ => false end) es = false /\
  prun (tp0 1 1) es = Ok p /\ size p = 0.
Proof.
  exists shrink. eexists. split; [times|]. split; [reflexivity|]. split; [vm_compute; reflexivity|]. reflexivity.
Qed.
Lemma base_witness : exists es p, times_ok es /\ existsb (fun e => match e with PRemove _ => true | _ => false end) es = false /\
  prun (tp0 4 4) es = Ok p /\ size (tp0 4 4) = 4 /\ size p = 1.
Proof.
  exists below. eexists. split; [times|]. split; [reflexivity|]. split; [vm_compute; reflexivity|]. split; reflexivity.
Qed.

Lemma add_exact p n made p' : pstep p (PAdd n made) = Ok p' -> tp_hold p = None ->
  size p' = size p + Z.max 0 (Z.min n made) /\ zlen (tp_run p') = zlen (tp_run p) + Z.max 0 (Z.min n made).
Proof.
  cbn [pstep]. unfold hold_free. intros H E. rewrite E in H. apply ok_inj in H. subst p'.
  unfold size, add_internal, zlen. cbn [tp_threads tp_run].
  assert (LZ : forall k from, length (zseq from k) = k) by (induction k; intros; cbn; auto).
  rewrite !app_length, map_length, LZ. destruct (0 <? n) eqn:N; lia.
Qed.
