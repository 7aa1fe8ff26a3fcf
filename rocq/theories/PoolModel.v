(** The thread pool (src/vortex_thread_pool.c:45-423, 487-928): tasks, stop
    beacons and the automatic resize.  Its events are in [EventModel].

    The queue is that of [AsyncModel]; what goes through it is a beacon (1, 2 or
    3) or a task, whose address is modelled as 4 plus a number that is different
    for each task.  The state is that of the threads between two critical
    sections of the mutexes involved (the pool's, the queue's, and that of the
    list of stopped threads).  Creating several threads is one step, which
    happens inside the pool's mutex.  Not modelled: the release of the pool
    after its threads have ended (831-866). *)
From Verif Require Import Base AsyncModel TimeModel.

(** Where a thread is in __vortex_thread_pool_dispatcher (316-423):
    [TStart] before timedpop (337); [TWait] inside; [TGot x] with what it
    returned; [TPre n] before the preemptive resize of task [n] (401-403);
    [TRun n] before the call of the task (405-407); [TPost] after it (409-414);
    [TPush3] with itself moved to the list of stopped threads (372-374);
    [TJoin w] releasing thread [w], with the mutex of that list locked
    (349-351). *)
Inductive tstate :=
| TStart | TWait | TGot (x : Z) | TPre (n : Z) | TRun (n : Z) | TPost | TPush3 | TJoin (w : Z).

(** The settings of vortex_thread_pool_setup2 (600-636). *)
Record tconf := mkTC {
  tc_auto : bool; tc_base : Z; tc_max : Z; tc_add : Z; tc_addp : Z; tc_rem : Z; tc_remp : Z;
  tc_autorem : bool; tc_preempt : bool
}.

(** What is seen: a task accepted, taken from the queue by a thread, executed,
    dropped because the library is stopping; threads added by the automatic
    resize or removed by it (the time it read, the time it recorded, how many);
    a setup and the time it recorded. *)
Inductive pobs :=
| PSubmitted (n : Z) | PTook (t n : Z) | PRan (t n : Z) | PDropped (t n : Z)
| PAdded (now last : tval) (m : Z) | PRemoved (now last : tval) (m : Z) | PSetAt (c : tconf) (last : tval).

(** [tp_run]: the threads that have not ended.  [tp_hold]: the thread (or
    [-1], the application) that has the pool's mutex and how many stop beacons
    it has still to push.  [tp_subm]: calls of new_task past the check of the
    flag.  [tp_beacons]: beacons pushed by vortex_thread_pool_exit. *)
Record tpool := mkTP {
  tp_q : aqueue;
  tp_threads : list Z;
  tp_stopped : list Z;
  tp_run : list (Z * tstate);
  tp_next : Z;
  tp_tasks : Z;
  tp_conf : tconf;
  tp_last : tval;
  tp_hold : option (Z * Z);
  tp_subm : Z;
  tp_beacons : Z;
  tp_stopping : bool;
  tp_exit : bool;
  tp_log : list pobs
}.

Fixpoint zseq (from : Z) (n : nat) : list Z :=
  match n with O => [] | S m => from :: zseq (from + 1) m end.

(** vortex_thread_pool_add_internal (645-713) for [n] threads of which [made]
    can be created. *)
Definition add_internal (p : tpool) (n made : Z) : tpool :=
  let m := if 0 <? n then Z.max 0 (Z.min n made) else 0 in
  let ids := zseq (tp_next p) (Z.to_nat m) in
  mkTP (tp_q p) (tp_threads p ++ ids) (tp_stopped p) (tp_run p ++ map (fun t => (t, TStart)) ids)
       (tp_next p + m) (tp_tasks p) (tp_conf p) (tp_last p) (tp_hold p) (tp_subm p) (tp_beacons p)
       (tp_stopping p) (tp_exit p) (tp_log p).

(** vortex_thread_pool_init (487-532): no automatic resize until set up. *)
Definition tconf0 : tconf := mkTC false 0 0 0 0 0 0 false false.
Definition tp0 (n made : Z) : tpool :=
  add_internal (mkTP aq0 [] [] [] 0 0 tconf0 (mkTV 0 0) None 0 0 false false []) n made.

(** ** Parts of the state *)
Definition set_state (l : list (Z * tstate)) (t : Z) (s : tstate) : list (Z * tstate) :=
  map (fun e => if fst e =? t then (t, s) else e) l.
Definition state_of (l : list (Z * tstate)) (t : Z) : option tstate :=
  match find (fun e => fst e =? t) l with Some e => Some (snd e) | None => None end.
Definition drop_thread (l : list (Z * tstate)) (t : Z) : list (Z * tstate) :=
  filter (fun e => negb (fst e =? t)) l.
Definition with_run (p : tpool) (r : list (Z * tstate)) : tpool :=
  mkTP (tp_q p) (tp_threads p) (tp_stopped p) r (tp_next p) (tp_tasks p) (tp_conf p) (tp_last p) (tp_hold p)
       (tp_subm p) (tp_beacons p) (tp_stopping p) (tp_exit p) (tp_log p).
Definition goto (p : tpool) (t : Z) (s : tstate) : tpool := with_run p (set_state (tp_run p) t s).
Definition say (p : tpool) (o : list pobs) : tpool :=
  mkTP (tp_q p) (tp_threads p) (tp_stopped p) (tp_run p) (tp_next p) (tp_tasks p) (tp_conf p) (tp_last p) (tp_hold p)
       (tp_subm p) (tp_beacons p) (tp_stopping p) (tp_exit p) (tp_log p ++ o).
Definition with_last (p : tpool) (l : tval) : tpool :=
  mkTP (tp_q p) (tp_threads p) (tp_stopped p) (tp_run p) (tp_next p) (tp_tasks p) (tp_conf p) l (tp_hold p)
       (tp_subm p) (tp_beacons p) (tp_stopping p) (tp_exit p) (tp_log p).
Definition with_hold (p : tpool) (h : option (Z * Z)) : tpool :=
  mkTP (tp_q p) (tp_threads p) (tp_stopped p) (tp_run p) (tp_next p) (tp_tasks p) (tp_conf p) (tp_last p) h
       (tp_subm p) (tp_beacons p) (tp_stopping p) (tp_exit p) (tp_log p).
Definition hold_free (p : tpool) : bool := match tp_hold p with None => true | Some _ => false end.
Definition holds (p : tpool) (t : Z) : bool := match tp_hold p with Some (h, _) => h =? t | None => false end.
(** The mutex of the list of stopped threads is locked across steps by a thread
    that waits for another to end. *)
Definition joining (p : tpool) : bool := existsb (fun e => match snd e with TJoin _ => true | _ => false end) (tp_run p).

(** A step of the queue; threads that get something out of it move on. *)
Definition q_results (old new : list aobs) : list (Z * Z) :=
  flat_map (fun o => match o with AGot t x => [(t, x)] | ANull t => [(t, 0)] | _ => [] end)
           (skipn (length old) new).
Definition took (r : Z * Z) : list pobs := if 3 <? snd r then [PTook (fst r) (snd r - 4)] else [].
Definition p_queue (p : tpool) (e : aev) : tpool :=
  let q := astep (tp_q p) e in
  let r := q_results (aq_log (tp_q p)) (aq_log q) in
  mkTP q (tp_threads p) (tp_stopped p)
       (fold_left (fun l r => set_state l (fst r) (TGot (snd r))) r (tp_run p))
       (tp_next p) (tp_tasks p) (tp_conf p) (tp_last p) (tp_hold p) (tp_subm p) (tp_beacons p)
       (tp_stopping p) (tp_exit p) (tp_log p ++ flat_map took r).

(** vortex_thread_pool_remove_internal (755-771): how many beacons are going to
    be pushed, by the holder of the mutex. *)
Definition remove_internal (p : tpool) (holder n : Z) : tpool :=
  let m := Z.max 0 (Z.min n (zlen (tp_threads p) - 1)) in
  with_hold p (if 0 <? m then Some (holder, m) else None).

(** __vortex_thread_pool_automatic_resize (233-309) by thread [t], with the
    mutex free.  [now] and [later] are the results of gettimeofday (261, 282 or
    301); the subtraction changes [last]. *)
Definition resize (p : tpool) (t : Z) (now later : tval) (made : Z) : outcome tpool :=
  let c := tp_conf p in
  if negb (tc_auto c) || tp_stopping p || tp_exit p then Ok p else
  let running := zlen (tp_threads p) in
  let waiting := aq_waiters (tp_q p) in
  let pending := aq_items (tp_q p) in
  let! d := timeval_substract now (tp_last p) in
  let '(diff, _, last) := d in
  if (running <? tc_max c) && (waiting =? 0) && (0 <? pending) && (tc_addp c <=? tv_sec diff) then
    let p' := add_internal p (tc_add c) made in
    Ok (say (with_last p' later) [PAdded now later (zlen (tp_threads p') - running)])
  else if tc_autorem c && (pending =? 0) && (tc_base c <? running) && (tc_base c <? waiting + 2)
          && (tc_remp c <? tv_sec diff) then
    let p' := remove_internal p t (tc_rem c) in
    Ok (say (with_last p' later) [PRemoved now later (match tp_hold p' with Some (_, m) => m | None => 0 end)])
  else Ok (with_last p last).

(** The next step of thread [t].  A step that has to wait leaves the state as
    it is.  [k]: the thread woken by a push. *)
Definition thread_step (p : tpool) (t : Z) (now later : tval) (made : Z) (k : nat) : outcome tpool :=
  if holds p t then Ok p else
  match state_of (tp_run p) t with
  | None => Ok p
  | Some TStart => Ok (p_queue (goto p t TWait) (ETimed t 100000))  (* 337 *)
  | Some TWait => Ok p
  | Some (TGot x) =>
      if x =? 0 then  (* 339-347 *)
        if tp_exit p then Ok (goto p t TStart)
        else if hold_free p then let! p' := resize p t now later made in Ok (goto p' t TStart)
        else Ok p
      else if x =? 3 then  (* 349-355 *)
        if joining p then Ok p else
        Ok match tp_stopped p with
           | [] => goto p t TStart
           | w :: r =>
               goto (mkTP (tp_q p) (tp_threads p) r (tp_run p) (tp_next p) (tp_tasks p) (tp_conf p) (tp_last p)
                          (tp_hold p) (tp_subm p) (tp_beacons p) (tp_stopping p) (tp_exit p) (tp_log p))
                    t (TJoin w)
           end
      else if x =? 2 then  (* 358-372 *)
        if joining p || negb (hold_free p) then Ok p else
        Ok (goto (mkTP (tp_q p) (filter (fun i => negb (i =? t)) (tp_threads p)) (tp_stopped p ++ [t]) (tp_run p)
                       (tp_next p) (tp_tasks p) (tp_conf p) (tp_last p) (tp_hold p) (tp_subm p) (tp_beacons p)
                       (tp_stopping p) (tp_exit p) (tp_log p)) t TPush3)
      else if x =? 1 then  (* 384-393; otherwise the address 1 is used as that of a task *)
        if tp_stopping p then Ok (with_run p (drop_thread (tp_run p) t)) else UB
      else Ok (goto p t (if tc_preempt (tp_conf p) then TPre (x - 4) else TRun (x - 4)))  (* 397-402 *)
  | Some (TPre n) =>  (* 403 *)
      if tp_exit p then Ok (goto p t (TRun n))
      else if hold_free p then let! p' := resize p t now later made in Ok (goto p' t (TRun n))
      else Ok p
  | Some (TRun n) =>  (* 405-407 *)
      Ok (say (goto p t TPost) [if negb (tp_stopping p) && negb (tp_exit p) then PRan t n else PDropped t n])
  | Some TPost =>  (* 409-414 *)
      if tc_preempt (tp_conf p) || tp_exit p then Ok (goto p t TStart)
      else if hold_free p then let! p' := resize p t now later made in Ok (goto p' t TStart)
      else Ok p
  | Some TPush3 => Ok (p_queue (with_run p (drop_thread (tp_run p) t)) (EPush 3 k))  (* 373-380 *)
  | Some (TJoin w) =>  (* vortex_thread_destroy waits for the thread *)
      Ok (match state_of (tp_run p) w with None => goto p t TStart | Some _ => p end)
  end.

(** Events. *)
Inductive pev :=
| PSubmit
| PEnqueue (k : nat)
| PThread (t : Z) (now later : tval) (made : Z) (k : nat)
| PWake (k : nat)
| PResume (k : nat)
| PPush (k : nat)
| PAdd (n made : Z)
| PRemove (n : Z)
| PSetup (c : tconf) (now : tval)
| PStop
| PExit
| PBeacon (k : nat).
Definition pstep (p : tpool) (e : pev) : outcome tpool :=
  match e with
  | PSubmit =>  (* new_task (906-928): the check *)
      Ok (if tp_stopping p then p
          else mkTP (tp_q p) (tp_threads p) (tp_stopped p) (tp_run p) (tp_next p) (tp_tasks p) (tp_conf p) (tp_last p)
                    (tp_hold p) (tp_subm p + 1) (tp_beacons p) (tp_stopping p) (tp_exit p) (tp_log p))
  | PEnqueue k =>  (* and the push *)
      Ok (if 0 <? tp_subm p then
            p_queue (mkTP (tp_q p) (tp_threads p) (tp_stopped p) (tp_run p) (tp_next p) (tp_tasks p + 1) (tp_conf p)
                          (tp_last p) (tp_hold p) (tp_subm p - 1) (tp_beacons p) (tp_stopping p) (tp_exit p)
                          (tp_log p ++ [PSubmitted (tp_tasks p)]))
                    (EPush (4 + tp_tasks p) k)
          else p)
  | PThread t now later made k => thread_step p t now later made k
  | PWake k => Ok (p_queue p (EWake k))
  | PResume k => Ok (p_queue p (ERun k))
  | PPush k =>  (* the loop of remove_internal (763-768) *)
      Ok match tp_hold p with
         | None => p
         | Some (h, n) => p_queue (with_hold p (if 1 <? n then Some (h, n - 1) else None)) (EPush 2 k)
         end
  | PAdd n made => Ok (if hold_free p then add_internal p n made else p)  (* 725-741 *)
  | PRemove n =>  (* 784-799 *)
      Ok (if hold_free p && (0 <? n) then remove_internal p (-1) n else p)
  | PSetup c now =>  (* 600-636 *)
      Ok (if hold_free p then
            let c' := mkTC (negb (tc_max c =? -1)) (zlen (tp_threads p)) (tc_max c) (tc_add c) (tc_addp c) (tc_rem c)
                           (tc_remp c) (tc_autorem c) (tc_preempt c) in
            say (mkTP (tp_q p) (tp_threads p) (tp_stopped p) (tp_run p) (tp_next p) (tp_tasks p) c' now (tp_hold p)
                      (tp_subm p) (tp_beacons p) (tp_stopping p) (tp_exit p) (tp_log p)) [PSetAt c now]
          else p)
  | PStop =>  (* 815-818, 873-890 *)
      Ok (if hold_free p then
            mkTP (tp_q p) (tp_threads p) (tp_stopped p) (tp_run p) (tp_next p) (tp_tasks p) (tp_conf p) (tp_last p)
                 (tp_hold p) (tp_subm p) (tp_beacons p) true (tp_exit p) (tp_log p)
          else p)
  | PExit =>  (* vortex_exit_ctx sets the flag *)
      Ok (mkTP (tp_q p) (tp_threads p) (tp_stopped p) (tp_run p) (tp_next p) (tp_tasks p) (tp_conf p) (tp_last p)
               (tp_hold p) (tp_subm p) (tp_beacons p) (tp_stopping p) true (tp_log p))
  | PBeacon k =>  (* the loop of vortex_thread_pool_exit (820-829) *)
      Ok (if tp_stopping p && (tp_beacons p <? zlen (tp_threads p)) then
            p_queue (mkTP (tp_q p) (tp_threads p) (tp_stopped p) (tp_run p) (tp_next p) (tp_tasks p) (tp_conf p)
                          (tp_last p) (tp_hold p) (tp_subm p) (tp_beacons p + 1) (tp_stopping p) (tp_exit p) (tp_log p))
                    (EPush 1 k)
          else p)
  end.
Fixpoint prun (p : tpool) (es : list pev) : outcome tpool :=
  match es with [] => Ok p | e :: es' => let! p' := pstep p e in prun p' es' end.
