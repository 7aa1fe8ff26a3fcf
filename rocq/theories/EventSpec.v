(** What is expected of the events of the thread pool. *)
From Verif Require Import Base TimeModel TimeSpec EventModel.

(** How many times the handler of event [n] has been called, or has returned. *)
Definition calls (n : Z) (log : list vobs) : Z :=
  zlen (filter (fun o => match o with VStart m _ => m =? n | _ => false end) log).
Definition called (log : list vobs) : list Z :=
  flat_map (fun o => match o with VStart m _ => [m] | _ => [] end) log.

(** Handlers do not overlap: each one ends before another starts. *)
Fixpoint apart (running : option Z) (log : list vobs) : Prop :=
  match log with
  | [] => True
  | VStart n _ :: r => running = None /\ apart (Some n) r
  | VEnd n _ :: r => running = Some n /\ apart None r
  | _ :: r => apart running r
  end.

(** Event [n] has been removed, or its handler has asked not to be called again. *)
Definition gone (n : Z) (log : list vobs) : Prop :=
  (exists id, In (VRemoved id n) log) \/ In (VEnd n true) log.

(** Times and delays the functions are used with.  The addresses of blocks. *)
Definition event_ok (e : vev) : Prop :=
  match e with
  | WNew a delay _ now =>
      normal now /\ Z.abs (tv_sec now) < 1152921504606846976 /\ 0 < delay < 1152921504606846976
  | WStart now => normal now /\ Z.abs (tv_sec now) < 1152921504606846976
  | _ => True
  end.

(** The microseconds of the times of the calls of an event installed at [c]
    never make exactly one second with its delay. *)
Definition never_exact (c : tval) (delay : Z) : Prop :=
  forall k, 0 <= k -> (tv_usec c + k * delay) mod 1000000 + delay <> 1000000.

(** The events in the list whose time has come, in order. *)
Definition due_events (s : evs) (now : tval) : list Z :=
  flat_map (fun a => match blk (ev_mem s) a with
                     | Some b => if due now (e_next b) then [e_no b] else []
                     | None => []
                     end) (ev_list s).
(** Steps of the thread that processes events. *)
Definition own_step (e : vev) : bool := match e with WStep _ | WReturn _ _ => true | _ => false end.
