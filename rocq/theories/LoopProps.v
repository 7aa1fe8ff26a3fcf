(** The properties of the reader loop. *)
From Verif Require Import Base LoopModel LoopSpec LoopProofs LoopProofs2 LoopProofs3 LoopProofs4 LoopProofs5 LoopProofs6.

(** C156: every reference taken for the reader is in a request, in a list, or released. *)
Theorem C156_account : forall l s c, lrun l0 l = Ok s ->
  taken c (l_log s) = dropped c (l_log s) + requested c (l_queue s) + requested c (l_left s) + listed c s.
Proof. exact refs_thm. Qed.
Print Assumptions C156_account.
Theorem C156_released_partial : forall l s c, lrun l0 l = Ok s -> l_phase s = PStopped -> taken c (l_log s) = dropped c (l_log s) + requested c (l_left s).
Proof. exact released_thm. Qed.
Print Assumptions C156_released_partial.
Theorem C156_step_partial : forall s e, lstep s e = UB <-> l_phase s = PStopped /\ is_push e = true /\ (forall c ok, e = Watch c ok -> l_up s c && ok = true).
Proof. exact step_thm. Qed.
Print Assumptions C156_step_partial.
Theorem C156_leak_refuted : exists l s c, lrun l0 l = Ok s /\ l_phase s = PStopped /\ taken c (l_log s) = 1 /\ dropped c (l_log s) = 0 /\
  forall m s', (forall e, In e m -> is_push e = false) -> lrun s m = Ok s' -> dropped c (l_log s') = 0.
Proof. exact leak_thm. Qed.
Print Assumptions C156_leak_refuted.
Theorem C156_late_refuted : exists l s, lrun l0 l = Ok s /\ l_phase s = PStopped /\ lrun s [Watch 1 true] = UB.
Proof. exact late_thm. Qed.
Print Assumptions C156_late_refuted.
Example C156_case : exists s, lrun l0 [Watch 1 true; Watch 2 true; Tick true RTimeout; Down 2; Watch 3 true; Tick true RTimeout; Tick true RTimeout; Tick true RTimeout;
    Tick true RTimeout; Tick true RTimeout; Tick true RTimeout] = Ok s /\
  dropped 2 (l_log s) = 1 /\ listed 1 s = 1 /\ requested 3 (l_queue s) = 1 /\ taken 3 (l_log s) = 1.
Proof. eexists. split; [vm_compute; reflexivity|]. vm_compute. auto. Qed.

(** C157: a request to stop ends the loop, once. *)
Theorem C157_stop_partial : forall l s add q, lrun l0 l = Ok s -> (forall e, In e l -> e <> Change) -> running s -> l_queue s = q ++ [ITerm] ->
  exists k, l_phase (ticks add k s) = PStopped.
Proof. exact stop_thm. Qed.
Print Assumptions C157_stop_partial.
Theorem C157_once : forall l s, lrun l0 l = Ok s ->
  cnt (fun o => match o with LStopped => true | _ => false end) (l_log s) = (match l_phase s with PStopped => 1 | _ => 0 end).
Proof. exact once_thm. Qed.
Print Assumptions C157_once.
Theorem C157_still : forall l s, l_phase s = PStopped -> (forall e, In e l -> is_push e = false) ->
  exists s', lrun s l = Ok s' /\ l_phase s' = PStopped /\ l_log s' = l_log s.
Proof. exact still_thm. Qed.
Print Assumptions C157_still.
Theorem C157_lost_refuted : exists l s, lrun l0 l = Ok s /\ In Stop l /\ running s /\ l_queue s = [] /\
  forall m s', (forall e, In e m -> e <> Stop /\ forall a, e <> Tick a RFatal) -> lrun s m = Ok s' -> l_phase s' <> PStopped.
Proof. exact lost_thm. Qed.
Print Assumptions C157_lost_refuted.
Theorem C157_dead_refuted : exists l s, lrun l0 l = Ok s /\ taken 1 (l_log s) = 1 /\ forall m s', lrun s m = Ok s' -> l_phase s' <> PStopped.
Proof. exact dead_thm. Qed.
Print Assumptions C157_dead_refuted.
Example C157_case : exists s, lrun l0 [Watch 1 true; Watch 2 true; Tick true RTimeout; Foreach 3 true; Stop] = Ok s /\ running s /\
  l_queue s = [IConn 2; IForeach 3 true] ++ [ITerm] /\ l_phase (ticks true 9 s) = PStopped /\ dropped 2 (l_log (ticks true 9 s)) = 1.
Proof. eexists. split; [vm_compute; reflexivity|]. split; [split; discriminate|]. vm_compute. auto. Qed.

(** C158: a foreach asked for is done, over the connections that are up. *)
Theorem C158_account_partial : forall l s k, lrun l0 l = Ok s -> (forall e, In e l -> e <> Change) ->
  asked k (l_log s) = ended k (l_log s) + awaited k (l_queue s) + awaited k (l_left s).
Proof. exact foreach_thm. Qed.
Print Assumptions C158_account_partial.
Theorem C158_visit : forall s add r k f q, l_queue s = IForeach k f :: q -> (l_phase s = PFirst \/ exists n go, l_phase s = PPending (S n) go) ->
  l_log (tick s add r) = l_log s ++ map (LVisit k) (if f then filter (l_up s) (l_con s ++ l_srv s) else []) ++ [LDone k] /\
  l_queue (tick s add r) = q /\ l_con (tick s add r) = l_con s /\ l_srv (tick s add r) = l_srv s.
Proof. exact visit_thm. Qed.
Print Assumptions C158_visit.
Theorem C158_eaten_refuted : exists l s k, lrun l0 l = Ok s /\ In (Foreach k true) l /\ running s /\
  forall m s', (forall e f, In e m -> e <> Foreach k f) -> lrun s m = Ok s' -> ended k (l_log s') = 0.
Proof. exact eaten_thm. Qed.
Print Assumptions C158_eaten_refuted.
Example C158_case : exists s, lrun l0 [WatchListener 1; Tick true RTimeout; Watch 2 true; Watch 3 true; Foreach 4 true; Tick true RTimeout; Tick true RTimeout; Tick true RTimeout; Tick true RTimeout;
    Tick true RTimeout; Tick true RTimeout; Tick true RTimeout; Down 2] = Ok s /\ l_queue s = [IForeach 4 true] /\ l_phase s = PPending 1 true /\
  l_log (tick s true RTimeout) = l_log s ++ [LVisit 4 3; LVisit 4 1; LDone 4].
Proof. eexists. split; [vm_compute; reflexivity|]. vm_compute. auto. Qed.

(** C159: a connection that is up and not unwatched stays watched. *)
Theorem C159_watched_partial : forall l s c, lrun l0 l = Ok s -> (forall e, In e l -> kind_to c e) -> l_phase s <> PStopped ->
  dropped c (l_log s) = 0 /\ taken c (l_log s) = requested c (l_queue s) + listed c s.
Proof. exact watched_thm. Qed.
Print Assumptions C159_watched_partial.
Theorem C159_set : forall s, l_phase s = PLoop -> peaceful s -> l_con s ++ l_srv s <> [] ->
  exists k, let s' := ticks true k s in
    l_phase s' = PWait (filter (fun c => negb (l_blocked s c)) (l_srv s ++ l_con s)) /\ l_con s' = l_con s /\ l_srv s' = l_srv s /\ l_queue s' = l_queue s /\ l_log s' = l_log s.
Proof. exact set_thm. Qed.
Print Assumptions C159_set.
Theorem C159_idle : forall s add r, l_phase s = PLoop -> l_con s = [] -> l_srv s = [] -> l_phase (tick s add r) = PFirst /\ l_log (tick s add r) = l_log s ++ [LIdle].
Proof. exact idle_thm. Qed.
Print Assumptions C159_idle.
Theorem C159_stale_refuted : exists l s c, lrun l0 l = Ok s /\ l_up s c = true /\ taken c (l_log s) = 1 /\ dropped c (l_log s) = 1 /\ l_phase s <> PStopped /\
  l = [Unwatch c] ++ [Watch c true; Tick true RTimeout; Tick true RTimeout; Tick true RTimeout; Tick true RTimeout].
Proof. exact stale_thm. Qed.
Print Assumptions C159_stale_refuted.
Example C159_case : exists s, lrun l0 [WatchListener 1; Tick true RTimeout; Watch 2 true; Watch 3 true; Block 3 true; Tick true RTimeout; Tick true RTimeout; Tick true RTimeout; Tick true RTimeout;
    Tick true RTimeout; Tick true RTimeout; Tick true RTimeout; Tick true RTimeout] = Ok s /\ l_phase s = PLoop /\ l_con s = [2; 3]%nat /\
  l_phase (ticks true 6 s) = PWait [1; 2]%nat.
Proof. eexists. split; [vm_compute; reflexivity|]. vm_compute. auto. Qed.

(** C160: the sockets with something to read are read. *)
Theorem C160_select_partial : forall s set n ready, l_phase s = PWait set -> peaceful s -> 0 < n -> n = zlen (filter (fun c => existsb (Nat.eqb c) ready) (l_srv s ++ l_con s)) ->
  exists k, let s' := ticks true k (tick s true (RSelect n ready)) in
    l_phase s' = PPending (length (l_queue s)) true /\ l_log s' = l_log s ++ map LRead (filter (fun c => existsb (Nat.eqb c) ready) (l_srv s ++ l_con s)).
Proof. exact select_thm. Qed.
Print Assumptions C160_select_partial.
Theorem C160_events : forall s set l, l_phase s = PWait set ->
  exists k, let s' := ticks true k (tick s true (REvents l)) in l_phase s' = PPending (length (l_queue s)) true /\ l_log s' = l_log s ++ map LRead l.
Proof. exact events_thm. Qed.
Print Assumptions C160_events.
Theorem C160_skipped_refuted : exists l s set c, lrun l0 l = Ok s /\ l_phase s = PWait set /\ In c set /\ l_up s c = true /\
  exists k, let s' := ticks true k (tick s true (RSelect 1 [c])) in l_phase s' = PPending (length (l_queue s)) true /\ ~ In (LRead c) (l_log s').
Proof. exact skipped_thm. Qed.
Print Assumptions C160_skipped_refuted.
Example C160_case : let s := mkLS [] [] [2; 3]%nat [1]%nat (fun _ => true) (fun _ => false) (fun _ => false) 0 (PWait [1; 2; 3]%nat) [] in
  peaceful s /\ l_log (ticks true 5 (tick s true (RSelect 2 [3; 1]%nat))) = [LRead 1; LRead 3].
Proof. split; [intros c _; split; reflexivity|reflexivity]. Qed.

(** C161: the reader works with the new I/O mechanism only once it is installed. *)
Theorem C161_installed_partial : forall l s, lrun l0 l = Ok s -> calm false l -> made (l_log s) <= installed (l_log s).
Proof. exact io_thm. Qed.
Print Assumptions C161_installed_partial.
Theorem C161_early_refuted : exists l s, lrun l0 l = Ok s /\ In Change l /\ ~ In Installed l /\ made (l_log s) = 1 /\ installed (l_log s) = 0 /\ l_phase s = PLoop.
Proof. exact early_thm. Qed.
Print Assumptions C161_early_refuted.
Example C161_case : calm false [Watch 1 true; Change; Tick true RTimeout; Installed; Tick true RTimeout; Stop] /\
  exists s, lrun l0 [Change; Tick true RTimeout; Tick true RTimeout; Installed; Tick true RTimeout] = Ok s /\ made (l_log s) = 1 /\ installed (l_log s) = 1.
Proof. split; [cbn; intuition|]. eexists. split; [vm_compute; reflexivity|]. vm_compute. auto. Qed.
