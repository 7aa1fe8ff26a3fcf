(** The events of the thread pool (src/vortex_thread_pool.c:86-227, 969-1103):
    handlers called from time to time until they ask not to be.

    A step is a critical section of the pool's mutex, or the start or the end
    of a handler, which runs with the mutex unlocked.  Events are blocks of
    memory with a reference counter; using a block that has been freed is [UB].
    The list is kept by AXL, with a function (462-471) that always tells that
    the new element goes after: the position where a new event is inserted is
    an argument. *)
From Verif Require Import Base TimeModel HashModel.

(** VortexThreadPoolEvent (86-93).  [e_no]: a number, different for each event
    ever created; the program has the address only. *)
Record tev := mkE { e_no : Z; e_addr : Z; e_delay : Z; e_next : tval; e_refs : Z }.

(** Where a thread is in __vortex_thread_pool_process_events (125-227):
    [VLoop i len now] before an iteration of the loop (157); [VCall] before the
    call of the handler of the event at an address (185), with the mutex
    unlocked; [VRun] inside the handler; [VDone] past the loop (222). *)
Inductive vstate :=
| VLoop (i len : Z) (now : tval)
| VCall (i len : Z) (now : tval) (a : Z)
| VRun (i len : Z) (now : tval) (a : Z)
| VDone.

(** What is seen: an event installed (its number, delay, the time read and the
    identifier returned), the result of remove_event, a handler that starts
    with the time the thread has read, a handler that returns. *)
Inductive vobs :=
| VNew (n delay : Z) (now : tval) (id : Z)
| VFailed
| VRemoved (id n : Z)
| VNotFound (id : Z)
| VStart (n : Z) (now : tval)
| VEnd (n : Z) (remove : bool).

(** [ev_mem]: the blocks that are allocated.  [ev_list]: pool->events.
    [ev_flag]: pool->processing_events.  [ev_run]: threads past the check. *)
Record evs := mkEV {
  ev_mem : list tev;
  ev_list : list Z;
  ev_flag : bool;
  ev_run : list vstate;
  ev_count : Z;
  ev_exit : bool;
  ev_log : list vobs
}.
Definition ev0 : evs := mkEV [] [] false [] 0 false [].

Definition blk (m : list tev) (a : Z) : option tev := find (fun e => e_addr e =? a) m.
Definition upd (m : list tev) (a : Z) (f : tev -> tev) : list tev :=
  map (fun e => if e_addr e =? a then f e else e) m.
Definition add_ref (d : Z) (e : tev) : tev := mkE (e_no e) (e_addr e) (e_delay e) (e_next e) (e_refs e + d).
Definition set_next (t : tval) (e : tev) : tev := mkE (e_no e) (e_addr e) (e_delay e) t (e_refs e).

(** __vortex_thread_pool_unref_event (116-123). *)
Definition unref (m : list tev) (a : Z) : outcome (list tev) :=
  match blk m a with
  | None => UB
  | Some e =>
      if e_refs e - 1 =? 0 then Ok (filter (fun x => negb (e_addr x =? a)) m)
      else Ok (upd m a (add_ref (-1)))
  end.

(** A list without the first element that is [a], or the first [a] such that
    [f a]. *)
Fixpoint del_first (f : Z -> bool) (l : list Z) : list Z :=
  match l with [] => [] | x :: r => if f x then r else x :: del_first f r end.

Definition set_run (s : evs) (m : list tev) (l : list Z) (k : nat) (v : vstate) (o : list vobs) : evs :=
  mkEV m l (ev_flag s) (set_nth k (ev_run s) v) (ev_count s) (ev_exit s) (ev_log s ++ o).

(** Has its time come? (169-172) *)
Definition due (now next : tval) : bool :=
  (tv_sec next <? tv_sec now) || ((tv_sec now =? tv_sec next) && (tv_usec next <=? tv_usec now)).

Inductive vev :=
| WNew (a delay : Z) (pos : nat) (now : tval)
| WRemove (id : Z)
| WStart (now : tval)
| WStep (k : nat)
| WReturn (k : nat) (remove : bool)
| WExit.
Definition vstep (s : evs) (e : vev) : outcome evs :=
  match e with
  | WNew a delay pos now =>  (* vortex_thread_pool_new_event (969-1018); malloc gives an address not in use *)
      match blk (ev_mem s) a with
      | Some _ => Ok s
      | None =>
          if a =? 0 then Ok (mkEV (ev_mem s) (ev_list s) (ev_flag s) (ev_run s) (ev_count s) (ev_exit s) (ev_log s ++ [VFailed]))
          else
            let! next := increase_stamp now delay in
            Ok (mkEV (ev_mem s ++ [mkE (ev_count s) a delay next 1])
                     (firstn pos (ev_list s) ++ a :: skipn pos (ev_list s)) (ev_flag s) (ev_run s)
                     (ev_count s + 1) (ev_exit s) (ev_log s ++ [VNew (ev_count s) delay now (s32 a)]))
      end
  | WRemove id =>  (* vortex_thread_pool_remove_event (1030-1071) *)
      match find (fun a => s32 a =? id) (ev_list s) with
      | None => Ok (mkEV (ev_mem s) (ev_list s) (ev_flag s) (ev_run s) (ev_count s) (ev_exit s) (ev_log s ++ [VNotFound id]))
      | Some a =>
          match blk (ev_mem s) a with
          | None => UB
          | Some b =>
              let! m := unref (ev_mem s) a in
              Ok (mkEV m (del_first (fun a => s32 a =? id) (ev_list s)) (ev_flag s) (ev_run s) (ev_count s) (ev_exit s)
                       (ev_log s ++ [VRemoved id (e_no b)]))
          end
      end
  | WStart now =>  (* 138-153 *)
      Ok (if ev_flag s || (zlen (ev_list s) =? 0) || ev_exit s then s
          else mkEV (ev_mem s) (ev_list s) true (ev_run s ++ [VLoop 0 (zlen (ev_list s)) now]) (ev_count s) (ev_exit s) (ev_log s))
  | WStep k =>
      match nth_error (ev_run s) k with
      | Some (VLoop i len now) =>  (* 157-219 *)
          if negb (i <? len) then Ok (set_run s (ev_mem s) (ev_list s) k VDone []) else
          match nth_error (ev_list s) (Z.to_nat i) with
          | None => Ok (set_run s (ev_mem s) (ev_list s) k VDone [])
          | Some a =>
              match blk (ev_mem s) a with
              | None => UB
              | Some b =>
                  let m := upd (ev_mem s) a (add_ref 1) in
                  if due now (e_next b) then Ok (set_run s m (ev_list s) k (VCall i len now a) [])
                  else let! m := unref m a in Ok (set_run s m (ev_list s) k (VLoop (i + 1) len now) [])
              end
          end
      | Some (VCall i len now a) =>  (* 185: the handler starts *)
          match blk (ev_mem s) a with
          | None => UB
          | Some b => Ok (set_run s (ev_mem s) (ev_list s) k (VRun i len now a) [VStart (e_no b) now])
          end
      | Some VDone =>  (* 222-225 *)
          Ok (mkEV (ev_mem s) (ev_list s) false (firstn k (ev_run s) ++ skipn (S k) (ev_run s)) (ev_count s) (ev_exit s) (ev_log s))
      | _ => Ok s
      end
  | WReturn k remove =>
      match nth_error (ev_run s) k with
      | Some (VRun i len now a) =>
          match blk (ev_mem s) a with
          | None => UB
          | Some b =>
              if remove then  (* 186-203 *)
                let! m := if existsb (fun x => x =? a) (ev_list s) then unref (ev_mem s) a else Ok (ev_mem s) in
                let! m := unref m a in
                Ok (set_run s m (del_first (fun x => x =? a) (ev_list s)) k (VLoop i len now) [VEnd (e_no b) true])
              else  (* 208-219 *)
                let! next := increase_stamp (e_next b) (e_delay b) in
                let! m := unref (upd (ev_mem s) a (set_next next)) a in
                Ok (set_run s m (ev_list s) k (VLoop (i + 1) len now) [VEnd (e_no b) false])
          end
      | _ => Ok s
      end
  | WExit => Ok (mkEV (ev_mem s) (ev_list s) (ev_flag s) (ev_run s) (ev_count s) true (ev_log s))
  end.
Fixpoint vrun (s : evs) (es : list vev) : outcome evs :=
  match es with [] => Ok s | e :: r => let! s' := vstep s e in vrun s' r end.
