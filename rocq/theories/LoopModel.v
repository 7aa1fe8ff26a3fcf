(** The reader loop (src/vortex_reader.c): the queue of requests (679-730, 875-962), the change of the
    I/O mechanism (735-770), foreach (774-823), the set to watch (968-1084), what is done
    with the sockets that changed (1086-1199), stop (1208-1249), detection of wrong sockets
    (1289-1363), the loop (1365-1487) and the functions that push requests (1511-1794).

    The loop is a machine of small steps: one request popped, one connection of a list
    looked at, one wait.  Between two steps the users act: they push requests, connections
    go down, are flagged to be unwatched, are blocked.  What the I/O mechanism says (whether
    a socket can be added, what the wait gives) comes with the step.  The reference a request
    for a listener carries is the one its creator had.  The queue is released when the loop
    ends: a request pushed after that is undefined behaviour.  Idle checks and the resize of
    the thread pool are left out. *)
From Verif Require Import Base.

Inductive item := IConn (c : nat) | IListener (c : nat) | ITerm | IChange | IReady | IForeach (k : nat) (f : bool).

(** Where the loop is: blocked in vortex_reader_read_queue; at the top of the loop; building
    the set (of the listeners, or of the connections) at a position, with the set so far;
    about to wait; dispatching; checking a list at a position (select), with the sockets
    checked and changed; reading n pending requests, and whether to continue; waiting for
    the new I/O mechanism, to go back to one or the other; ended; gone after errors. *)
Inductive phase :=
| PFirst | PLoop
| PBuild (srv : bool) (i : nat) (set : list nat)
| PWait (set : list nat)
| PDispatch (l : list nat)
| PCheck (srv : bool) (i : nat) (checked changed : Z) (ready : list nat)
| PPending (n : nat) (go : bool)
| PChange (back : option nat)
| PStopped | PDead.

(** What is seen: a reference is taken, is released; a socket is read; foreach calls the
    user, ends; the old set is released and the user told; the new set is made; no
    connections are left; the loop ends and the user is told.  By the users: foreach and the
    end are asked, the new mechanism is installed. *)
Inductive lobs :=
| LTake (c : nat) | LDrop (c : nat) | LRead (c : nat) | LVisit (k c : nat) | LDone (k : nat)
| LAck | LMade | LIdle | LStopped | LAsk (k : nat) | LStop | LInstalled.

Record lst := mkLS {
  l_queue : list item; l_left : list item; l_con : list nat; l_srv : list nat;
  l_up : nat -> bool; l_unwatch : nat -> bool; l_blocked : nat -> bool;
  l_tries : nat; l_phase : phase; l_log : list lobs }.
Definition upd (f : nat -> bool) (c : nat) (b : bool) : nat -> bool := fun x => if Nat.eqb x c then b else f x.
Definition l0 : lst := mkLS [] [] [] [] (fun _ => true) (fun _ => false) (fun _ => false) 0 PFirst [].

Inductive result := RTimeout | RError | RFatal | REvents (l : list nat) | RSelect (changed : Z) (ready : list nat).
Inductive lev :=
| Watch (c : nat) (ok : bool)        (* vortex_reader_watch_connection (1526-1560) *)
| WatchListener (c : nat)            (* 1567-1583 *)
| Stop                               (* vortex_reader_stop (1663-1694) *)
| Foreach (k : nat) (f : bool)       (* 1768-1794 *)
| Change                             (* vortex_reader_notify_change_io_api (1704-1729) *)
| Installed                          (* the new mechanism, and _notify_change_done_io_api (1735-1751) *)
| Down (c : nat)
| Unwatch (c : nat)                  (* vortex_reader_unwatch_connection (1511-1518) *)
| Block (c : nat) (b : bool)
| Tick (add : bool) (r : result)
| Bad (bad : nat -> bool).           (* EBADF after the set is built (1415-1421) *)

Definition with_phase (s : lst) (p : phase) (o : list lobs) : lst :=
  mkLS (l_queue s) (l_left s) (l_con s) (l_srv s) (l_up s) (l_unwatch s) (l_blocked s) (l_tries s) p (l_log s ++ o).
Definition with_tries (s : lst) (n : nat) (p : phase) : lst :=
  mkLS (l_queue s) (l_left s) (l_con s) (l_srv s) (l_up s) (l_unwatch s) (l_blocked s) n p (l_log s).
Definition with_queue (s : lst) (q : list item) : lst :=
  mkLS q (l_left s) (l_con s) (l_srv s) (l_up s) (l_unwatch s) (l_blocked s) (l_tries s) (l_phase s) (l_log s).
Definition with_list (s : lst) (srv : bool) (l : list nat) : lst :=
  mkLS (l_queue s) (l_left s) (if srv then l_con s else l) (if srv then l else l_srv s) (l_up s) (l_unwatch s) (l_blocked s) (l_tries s) (l_phase s) (l_log s).
Definition with_flags (s : lst) (up unw blk : nat -> bool) : lst :=
  mkLS (l_queue s) (l_left s) (l_con s) (l_srv s) up unw blk (l_tries s) (l_phase s) (l_log s).
Definition the_list (s : lst) (srv : bool) : list nat := if srv then l_srv s else l_con s.

(** A request is pushed: QUEUE_PUSH. *)
Definition push (s : lst) (i : item) (o : list lobs) : outcome lst :=
  match l_phase s with
  | PStopped => UB
  | p => Ok (with_phase (with_queue s (l_queue s ++ [i])) p o)
  end.
(** vortex_reader_register_watch (679-730); the second says whether it was taken. *)
Definition register (s : lst) (i : item) : lst * bool :=
  match i with
  | IConn c => if l_up s c then (with_list s false (l_con s ++ [c]), true) else (with_phase s (l_phase s) [LDrop c], false)
  | IListener c => (with_list s true (l_srv s ++ [c]), true)
  | _ => (s, true)
  end.
(** vortex_reader_foreach_impl (774-823). *)
Definition foreach (s : lst) (k : nat) (f : bool) : list lobs :=
  (if f : bool then map (LVisit k) (filter (l_up s) (l_con s) ++ filter (l_up s) (l_srv s)) else []) ++ [LDone k].
(** __vortex_reader_stop_process (1208-1238): each connection left is shut down and
    released (__vortex_reader_close_connection, 1240-1249), listeners first. *)
Definition stop (s : lst) : lst :=
  let l := l_srv s ++ l_con s in
  mkLS [] (l_left s ++ l_queue s) [] [] (fun c => l_up s c && negb (existsb (Nat.eqb c) l)) (l_unwatch s) (l_blocked s) (l_tries s) PStopped
       (l_log s ++ map LDrop l ++ [LStopped]).
(** The connection at i is unlinked and its reference released. *)
Definition remove_at (l : list nat) (i : nat) : list nat := firstn i l ++ skipn (S i) l.
Definition unlink (s : lst) (srv : bool) (i c : nat) (p : phase) : lst := with_phase (with_list s srv (remove_at (the_list s srv) i)) p [LDrop c].

(** One request popped by vortex_reader_read_pending (923-962), n to go after it. *)
Definition pending (s : lst) (n : nat) : lst :=
  match l_queue s with
  | [] => s
  | i :: q =>
      let s := with_queue s q in
      match i with
      | IChange => with_phase s (PChange (Some n)) [LAck]
      | IForeach k f => with_phase s (PPending n true) (foreach s k f)
      | ITerm => with_phase s (PPending n false) []
      | _ => with_phase (fst (register s i)) (PPending n true) []
      end
  end.
(** One request popped by vortex_reader_read_queue (875-907). *)
Definition first (s : lst) : lst :=
  match l_queue s with
  | [] => s
  | i :: q =>
      let s := with_queue s q in
      match i with
      | IChange => with_phase s (PChange None) [LAck]
      | IForeach k f => with_phase s PLoop (foreach s k f)
      | ITerm => stop s
      | _ => let '(s, ok) := register s i in with_phase s (if ok then PLoop else PFirst) []
      end
  end.
(** The request popped by __vortex_reader_change_io_mech (735-770), which is then registered. *)
Definition changed_io (s : lst) (back : option nat) : lst :=
  match l_queue s with
  | [] => s
  | i :: q =>
      let '(s, ok) := register (with_phase (with_queue s q) (l_phase s) [LMade]) i in
      with_phase s (match back with Some n => PPending n true | None => if ok then PLoop else PFirst end) []
  end.

Definition tick (s : lst) (add : bool) (r : result) : lst :=
  match l_phase s with
  | PFirst => first s
  | PLoop =>
      match l_con s, l_srv s with
      | [], [] => with_phase s PFirst [LIdle]
      | _, _ => with_phase s (PBuild true 0 []) []
      end
  | PBuild srv i set =>                  (* __vortex_reader_build_set_to_watch_aux (968-1065) *)
      match nth_error (the_list s srv) i with
      | None => with_phase s (if srv then PBuild false 0 set else PWait set) []
      | Some c =>
          if negb (l_up s c) then unlink s srv i c (PBuild srv i set) else
          if l_unwatch s c then unlink (with_flags s (l_up s) (upd (l_unwatch s) c false) (l_blocked s)) srv i c (PBuild srv i set) else
          if l_blocked s c then with_phase s (PBuild srv (S i) set) [] else
          if add then with_phase s (PBuild srv (S i) (set ++ [c])) [] else
          unlink (with_flags s (upd (l_up s) c false) (l_unwatch s) (l_blocked s)) srv i c (PBuild srv i set)
      end
  | PWait set =>
      match r with
      | RTimeout => with_tries s 0 (PPending (length (l_queue s)) true)
      | RError => if Nat.eqb (S (l_tries s)) 2 then with_tries s 2 PDead else with_tries s (S (l_tries s)) PLoop
      | RFatal => stop s
      | REvents l => with_phase s (PDispatch l) []
      | RSelect n l => with_phase s (PCheck true 0 0 n l) []
      end
  | PDispatch [] => with_tries s 0 (PPending (length (l_queue s)) true)
  | PDispatch (c :: l) => with_phase s (PDispatch l) [LRead c]
  | PCheck true i checked n ready =>     (* __vortex_reader_check_listener_list (1141-1199) *)
      match nth_error (l_srv s) i with
      | None => with_phase s (PCheck false 0 0 (n - checked) ready) []
      | Some c =>
          if negb (l_up s c) then unlink s true i c (PCheck true i (checked + 1) n ready) else
          let hit := existsb (Nat.eqb c) ready in
          let checked := if hit then checked + 1 else checked in
          let o := if hit then [LRead c] else [] in
          if checked =? n then with_phase s (PCheck false 0 0 0 ready) o else with_phase s (PCheck true (S i) checked n ready) o
      end
  | PCheck false i checked n ready =>    (* __vortex_reader_check_connection_list (1086-1139) *)
      match nth_error (l_con s) i with
      | None => with_tries s 0 (PPending (length (l_queue s)) true)
      | Some c =>
          if n =? checked then with_tries s 0 (PPending (length (l_queue s)) true) else
          if negb (l_up s c) then unlink s false i c (PCheck false i checked n ready) else
          if existsb (Nat.eqb c) ready
          then with_phase s (PCheck false (S i) (checked + 1) n ready) [LRead c]
          else with_phase s (PCheck false (S i) checked n ready) []
      end
  | PPending 0 true => with_phase s PLoop []
  | PPending 0 false => stop s
  | PPending (S n) _ => pending s n
  | PChange back => changed_io s back
  | PStopped | PDead => s
  end.

(** __vortex_reader_detect_and_cleanup_connections (1289-1363): the connections that are up
    whose socket is wrong are shut down and released, one by one. *)
Fixpoint clean (bad up : nat -> bool) (l : list nat) : list nat * list nat * (nat -> bool) :=
  match l with
  | [] => ([], [], up)
  | c :: l =>
      if up c && bad c
      then let '(k, g, up) := clean bad (upd up c false) l in (k, c :: g, up)
      else let '(k, g, up) := clean bad up l in (c :: k, g, up)
  end.
Definition cleanup (s : lst) (bad : nat -> bool) : lst :=
  let '(con, g, up) := clean bad (l_up s) (l_con s) in
  let '(srv, h, up) := clean bad up (l_srv s) in
  mkLS (l_queue s) (l_left s) con srv up (l_unwatch s) (l_blocked s) (l_tries s) PLoop (l_log s ++ map LDrop (g ++ h)).

Definition lstep (s : lst) (e : lev) : outcome lst :=
  match e with
  | Watch c ok => if l_up s c && ok then push s (IConn c) [LTake c] else Ok s
  | WatchListener c => push s (IListener c) [LTake c]
  | Stop => push s ITerm [LStop]
  | Foreach k f => push s (IForeach k f) [LAsk k]
  | Change => push s IChange []
  | Installed => push s IReady [LInstalled]
  | Down c => Ok (with_flags s (upd (l_up s) c false) (l_unwatch s) (l_blocked s))
  | Unwatch c => Ok (with_flags s (l_up s) (upd (l_unwatch s) c true) (l_blocked s))
  | Block c b => Ok (with_flags s (l_up s) (l_unwatch s) (upd (l_blocked s) c b))
  | Tick add r => Ok (tick s add r)
  | Bad bad => match l_phase s with PWait _ => Ok (cleanup s bad) | _ => Ok s end
  end.
Fixpoint lrun (s : lst) (l : list lev) : outcome lst :=
  match l with [] => Ok s | e :: l => let! s := lstep s e in lrun s l end.
