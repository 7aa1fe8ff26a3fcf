(** What users of the thread pool expect, in terms of what is seen. *)
From Verif Require Import Base TimeModel TimeSpec AsyncModel PoolModel.

(** Tasks accepted, taken by a thread, executed, dropped: in order. *)
Definition submitted (log : list pobs) : list Z :=
  flat_map (fun o => match o with PSubmitted n => [n] | _ => [] end) log.
Definition taken (log : list pobs) : list Z :=
  flat_map (fun o => match o with PTook _ n => [n] | _ => [] end) log.
Definition executed (log : list pobs) : list Z :=
  flat_map (fun o => match o with PRan _ n => [n] | _ => [] end) log.
Definition dropped (log : list pobs) : list Z :=
  flat_map (fun o => match o with PDropped _ n => [n] | _ => [] end) log.

(** Nothing is left to do for the threads of the pool: none can take a step,
    unless a task comes or its timeout passes. *)
Definition quiet (p : tpool) : Prop :=
  (forall t now later made k, pstep p (PThread t now later made k) = Ok p) /\
  (forall k, pstep p (PResume k) = Ok p) /\ (forall k, pstep p (PPush k) = Ok p).

(** The number of threads of the pool, as vortex_thread_pool_stats tells. *)
Definition size (p : tpool) : Z := zlen (tp_threads p).

(** Stop beacons that no thread has obeyed yet: in the queue, with a thread, or
    still to be pushed. *)
Definition outstanding (p : tpool) : Z :=
  zlen (filter (fun x => x =? 2) (aq_data (tp_q p)))
  + zlen (filter (fun e => match snd e with TGot x => x =? 2 | _ => false end) (tp_run p))
  + match tp_hold p with Some (_, n) => n | None => 0 end.
(** Threads are removed only when those removed before are gone. *)
Fixpoint alone (p : tpool) (es : list pev) : Prop :=
  match es with
  | [] => True
  | e :: r => forall p', pstep p e = Ok p' ->
      (tp_hold p = None -> tp_hold p' <> None -> outstanding p = 0) /\ alone p' r
  end.

(** The last time recorded (when the pool was set up or resized) and the
    settings in force. *)
Fixpoint last_mark (log : list pobs) : option tval :=
  match log with
  | [] => None
  | o :: r =>
      match last_mark r with
      | Some t => Some t
      | None => match o with PAdded _ t _ | PRemoved _ t _ | PSetAt _ t => Some t | _ => None end
      end
  end.
Fixpoint last_setup (log : list pobs) : option tconf :=
  match log with
  | [] => None
  | o :: r =>
      match last_setup r with
      | Some c => Some c
      | None => match o with PSetAt c _ => Some c | _ => None end
      end
  end.

(** The times given by the clock. *)
Definition clock_ok (t : tval) : Prop := normal t /\ Z.abs (tv_sec t) < 2305843009213693952.
Definition times_ok (es : list pev) : Prop :=
  Forall (fun e => match e with PThread _ now later _ _ => clock_ok now /\ clock_ok later | PSetup _ now => clock_ok now | _ => True end) es.

(** Calls that add threads or change the settings. *)
Definition by_hand (e : pev) : bool := match e with PAdd _ _ | PSetup _ _ => true | _ => false end.

(** An automatic change of size, seen after [a]: automatic changes are on, it
    comes a period after the last one at least, and it is not bigger than what
    was set up. *)
Definition added_ok (a : list pobs) (now : tval) (m : Z) : Prop := exists c mark,
  last_setup a = Some c /\ last_mark a = Some mark /\ tc_max c <> -1 /\
  micros mark + tc_addp c * 1000000 <= micros now /\ 0 <= m <= Z.max 0 (tc_add c).
Definition removed_ok (a : list pobs) (now : tval) (m : Z) : Prop := exists c mark,
  last_setup a = Some c /\ last_mark a = Some mark /\ tc_max c <> -1 /\ tc_autorem c = true /\
  micros mark + (tc_remp c + 1) * 1000000 <= micros now /\ 0 <= m <= Z.max 0 (tc_rem c).
Definition resizes_ok (log : list pobs) : Prop := forall a o b, log = a ++ o :: b ->
  match o with PAdded now _ m => added_ok a now m | PRemoved now _ m => removed_ok a now m | _ => True end.
