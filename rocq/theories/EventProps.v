(** Theorems about the events of the thread pool (C65, C66, C67). *)
From Coq Require Import Permutation.
From Verif Require Import Base TimeModel TimeSpec HashModel EventModel EventSpec EventProofs EventProofs2 EventProofs3 EventProofs4.

(** ** C65: events are called when their time comes, one at a time *)

(** A handler does not start before the previous one has returned. *)
Theorem C65_apart : forall es s, Forall event_ok es -> vrun ev0 es = Ok s -> apart None (ev_log s).
Proof. exact events_apart. Qed.
Print Assumptions C65_apart.

(** The call number [k] of an event is not made before [k] times its delay has
    passed since it was installed, unless at some point the microseconds and the
    delay make exactly one second. *)
Theorem C65_on_time_partial : forall es s a n now b, Forall event_ok es -> vrun ev0 es = Ok s ->
  ev_log s = a ++ VStart n now :: b ->
  exists d c id, In (VNew n d c id) a /\ (never_exact c d -> micros c + d * (1 + calls n a) <= micros now).
Proof. exact events_on_time. Qed.
Print Assumptions C65_on_time_partial.
(** In that case it can be early. *)
Theorem C65_on_time_refuted : exists es s d c now id, Forall event_ok es /\ vrun ev0 es = Ok s /\ 0 < d /\
  ev_log s = [VNew 0 d c id; VStart 0 now] /\ micros now < micros c + d.
Proof. exact early_witness. Qed.
Print Assumptions C65_on_time_refuted.

(** If nobody else installs or removes events meanwhile, a pass over the list
    calls exactly the events whose time has come, in the order of the list,
    whatever the handlers return. *)
Theorem C65_pass_partial : forall before es now s0 s, Forall event_ok (before ++ [WStart now]) -> forallb own_step es = true ->
  vrun ev0 before = Ok s0 -> ev_run s0 = [] -> ev_exit s0 = false ->
  vrun s0 (WStart now :: es) = Ok s -> ev_run s = [] -> called (ev_log s) = called (ev_log s0) ++ due_events s0 now.
Proof. exact pass_whole. Qed.
Print Assumptions C65_pass_partial.
(** Otherwise an event whose time has come can be passed over. *)
Theorem C65_pass_refuted : exists es s, Forall event_ok es /\ vrun ev0 es = Ok s /\ ev_run s = [] /\
  called (ev_log s) = [0; 2] /\ due_events s (tv 12) = [1; 2] /\ ~ gone 1 (ev_log s).
Proof. exact skips_witness. Qed.
Print Assumptions C65_pass_refuted.

(** Three events, of which two are due; the first wants to be called again. *)
Definition busy : list vev :=
  [WNew 4096 1300000 0 (tv 10); WNew 8192 7000000 1 (tv 10); WNew 12288 1000000 1 (tv 10)].
Definition one_pass : list vev :=
  [WStep 0; WStep 0; WReturn 0 false; WStep 0; WStep 0; WReturn 0 true; WStep 0; WStep 0; WStep 0].
Example C65_case : exists s0 s, Forall event_ok (busy ++ [WStart (tv 12)]) /\ forallb own_step one_pass = true /\
  vrun ev0 busy = Ok s0 /\ ev_run s0 = [] /\ vrun s0 (WStart (tv 12) :: one_pass) = Ok s /\ ev_run s = [] /\
  due_events s0 (tv 12) = [0; 2] /\ ev_list s = [4096; 8192] /\
  ev_log s = ev_log s0 ++ [VStart 0 (tv 12); VEnd 0 false; VStart 2 (tv 12); VEnd 2 true].
Proof.
  eexists. eexists. split; [repeat (apply Forall_cons; [cbn; unfold normal; cbn; try lia|]); apply Forall_nil|].
  split; [reflexivity|]. split; [vm_compute; reflexivity|]. split; [reflexivity|]. split; [vm_compute; reflexivity|]. repeat split.
Qed.
Example C65_case_exact : never_exact (tv 10) 1300000.
Proof. intros k K. cbn [tv tv_usec]. pose proof (Z.mod_pos_bound (500000 + k * 1300000) 1000000 ltac:(lia)). lia. Qed.

(** ** C66: events removed are not called again *)

(** No call after the handler has asked not to be called again. *)
Theorem C66_last : forall es s a n now b, Forall event_ok es -> vrun ev0 es = Ok s ->
  ev_log s = a ++ VStart n now :: b -> ~ In (VEnd n true) a.
Proof. exact events_last. Qed.
Print Assumptions C66_last.
(** After remove_event has returned true there may be one call, no more.  What
    it has removed is an event with that identifier, not removed before. *)
Theorem C66_removed_partial : forall es s a id n b, Forall event_ok es -> vrun ev0 es = Ok s ->
  ev_log s = a ++ VRemoved id n :: b -> calls n b <= 1 /\ (exists d c, In (VNew n d c id) a) /\ ~ gone n a.
Proof. exact events_removed. Qed.
Print Assumptions C66_removed_partial.
Theorem C66_removed_refuted : exists es s a b n id now, Forall event_ok es /\ vrun ev0 es = Ok s /\
  ev_log s = a ++ VRemoved id n :: b /\ In (VStart n now) b.
Proof. exact late_witness. Qed.
Print Assumptions C66_removed_refuted.
(** If addresses fit in an int, an identifier stands for one event that is still
    installed. *)
Theorem C66_id_partial : forall es s a id n b m d c, Forall event_ok es -> Forall small_addr es -> vrun ev0 es = Ok s ->
  ev_log s = a ++ VRemoved id n :: b -> In (VNew m d c id) a -> m <> n -> gone m a.
Proof. exact events_right_one. Qed.
Print Assumptions C66_id_partial.
(** Otherwise two events can have the same identifier, and removing one of them
    twice removes both. *)
Theorem C66_id_refuted : exists es s n m id, Forall event_ok es /\ vrun ev0 es = Ok s /\ n <> m /\
  ev_log s = [VNew n 1000000 (tv 10) id; VNew m 2000000 (tv 10) id; VRemoved id n; VRemoved id m].
Proof. exact clash_witness. Qed.
Print Assumptions C66_id_refuted.
(** An event removed, and another installed at the same address. *)
Example C66_case : exists s, vrun ev0 [WNew 4096 5 0 (tv 10); WRemove 4096; WNew 4096 9 0 (tv 11); WRemove 4096; WRemove 4096] = Ok s /\
  ev_log s = [VNew 0 5 (tv 10) 4096; VRemoved 4096 0; VNew 1 9 (tv 11) 4096; VRemoved 4096 1; VNotFound 4096].
Proof. eexists. split; [vm_compute; reflexivity|reflexivity]. Qed.

(** ** C67: events are released once, when nobody uses them *)

(** No block is used after it has been freed (nothing undefined happens). *)
Theorem C67_defined : forall es, Forall event_ok es -> exists s, vrun ev0 es = Ok s.
Proof. exact events_defined. Qed.
Print Assumptions C67_defined.
(** When no thread is processing events, the blocks in memory are those of the
    events in the list. *)
Theorem C67_freed : forall es s, Forall event_ok es -> vrun ev0 es = Ok s -> ev_run s = [] ->
  NoDup (ev_list s) /\ Permutation (map e_addr (ev_mem s)) (ev_list s) /\ Forall (fun e => e_refs e = 1) (ev_mem s).
Proof. exact events_freed. Qed.
Print Assumptions C67_freed.
(** The event is removed while its handler runs. *)
Example C67_case : exists s1 s2, vrun ev0 (late ++ []) = Ok s1 /\ ev_list s1 = [] /\ map e_refs (ev_mem s1) = [1] /\
  vrun s1 [WReturn 0 false; WStep 0; WStep 0] = Ok s2 /\ ev_mem s2 = [] /\ ev_run s2 = [].
Proof. eexists. eexists. split; [vm_compute; reflexivity|]. split; [reflexivity|]. split; [reflexivity|]. split; [vm_compute; reflexivity|]. split; reflexivity. Qed.
