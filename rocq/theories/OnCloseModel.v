(** The handlers called when a connection is closed: their installation and
    removal (src/vortex_connection.c:6684-6712, 6769-6816, 6840-6882), the end of
    the connection (5772-5860), the calls of the handlers (4979-5043, 5053-5121)
    and the references that keep the connection in memory (2928-2958,
    3049-3089).

    A step is a critical section of one of the mutexes of the connection or the
    access made between two of them.  Each handler installed gets a number of
    its own, so that two installations of the same function can be told apart.
    The counter of references has no upper limit here; memory is never
    exhausted. *)
From Verif Require Import Base.

(** VortexConnectionOnCloseData: the function and its data.  The handlers of
    vortex_connection_set_on_close ([i_full] is false) have no data. *)
Record inst := mkI { i_id : Z; i_full : bool; i_fn : Z; i_data : Z }.

(** Where a thread is inside __vortex_connection_set_not_connected: before
    looking at the list (5821, 5828), before checking if the context finishes
    (5061), at the beginning of an iteration (5071, 5098), with a handler taken
    from the list (5083, 5106), before closing the socket (5835), before dropping
    its reference (5852).  The argument tells the list: false for on_close, true
    for on_close_full. *)
Inductive phase :=
| PCheck (full : bool)
| PExit (full : bool)
| PLoop (full : bool)
| PGot (h : inst)
| PSock
| PUnref.

(** What is seen: a handler installed; a handler asked to be removed and the one
    found; a thread that finds the connection open and closes it; a handler
    taken from the list; a handler for which no thread could be created; the
    call of a handler and its end; the socket closed; the connection freed. *)
Inductive cobs :=
| OInst (h : inst)
| ORem (fn data : Z) (found : option Z)
| OClosed (t : Z)
| OTake (h : inst)
| OLost (h : inst)
| OCall (id : Z)
| OEnd (id : Z)
| OSock
| OFree.

Record ocs := mkC {
  oc_conn : bool;                     (* connection->is_connected *)
  oc_exit : bool;                     (* ctx->vortex_exit *)
  oc_plain : option (list inst);      (* connection->on_close *)
  oc_full : option (list inst);       (* connection->on_close_full *)
  oc_refs : Z;                        (* connection->ref_count *)
  oc_freed : bool;
  oc_app : Z;                         (* references held outside this file *)
  oc_closers : list (Z * phase);
  oc_notes : list (inst * bool);      (* threads that call a handler; true: inside it *)
  oc_next : Z;
  oc_log : list cobs
}.
(** A connection just created has one reference (vortex_connection.c:929). *)
Definition oc0 : ocs := mkC true false None None 1 false 1 [] [] 0 [].

Definition list_of (s : ocs) (full : bool) : option (list inst) := if full then oc_full s else oc_plain s.
Definition with_list (s : ocs) (full : bool) (l : list inst) : ocs :=
  if full
  then mkC (oc_conn s) (oc_exit s) (oc_plain s) (Some l) (oc_refs s) (oc_freed s) (oc_app s) (oc_closers s) (oc_notes s) (oc_next s) (oc_log s)
  else mkC (oc_conn s) (oc_exit s) (Some l) (oc_full s) (oc_refs s) (oc_freed s) (oc_app s) (oc_closers s) (oc_notes s) (oc_next s) (oc_log s).
Definition with_log (s : ocs) (o : list cobs) : ocs :=
  mkC (oc_conn s) (oc_exit s) (oc_plain s) (oc_full s) (oc_refs s) (oc_freed s) (oc_app s) (oc_closers s) (oc_notes s) (oc_next s) (oc_log s ++ o).
Definition with_closers (s : ocs) (c : list (Z * phase)) : ocs :=
  mkC (oc_conn s) (oc_exit s) (oc_plain s) (oc_full s) (oc_refs s) (oc_freed s) (oc_app s) c (oc_notes s) (oc_next s) (oc_log s).
Definition with_notes (s : ocs) (n : list (inst * bool)) : ocs :=
  mkC (oc_conn s) (oc_exit s) (oc_plain s) (oc_full s) (oc_refs s) (oc_freed s) (oc_app s) (oc_closers s) n (oc_next s) (oc_log s).

(** vortex_connection_ref_internal without check (2928-2958). *)
Definition ref_conn (s : ocs) (app : Z) : ocs :=
  mkC (oc_conn s) (oc_exit s) (oc_plain s) (oc_full s) (oc_refs s + 1) (oc_freed s) (oc_app s + app) (oc_closers s) (oc_notes s) (oc_next s) (oc_log s).
(** vortex_connection_unref (3049-3089): the thread that leaves the counter at
    zero frees the connection (the lists, freed too, are left as they were). *)
Definition unref_conn (s : ocs) (app : Z) : ocs :=
  let n := oc_refs s - 1 in
  if n =? 0
  then mkC (oc_conn s) (oc_exit s) (oc_plain s) (oc_full s) n true (oc_app s - app) (oc_closers s) (oc_notes s) (oc_next s) (oc_log s ++ [OFree])
  else mkC (oc_conn s) (oc_exit s) (oc_plain s) (oc_full s) n (oc_freed s) (oc_app s - app) (oc_closers s) (oc_notes s) (oc_next s) (oc_log s).

(** vortex_connection_set_on_close (6692-6709) always adds at the end;
    vortex_connection_set_on_close_full2 (6783-6812) at the end or at the
    beginning. *)
Definition install (s : ocs) (full last : bool) (fn data : Z) : ocs :=
  let h := mkI (oc_next s) full fn (if full then data else 0) in
  let l := match list_of s full with Some l => l | None => [] end in
  let s := with_list s full (if full && negb last then h :: l else l ++ [h]) in
  mkC (oc_conn s) (oc_exit s) (oc_plain s) (oc_full s) (oc_refs s) (oc_freed s) (oc_app s) (oc_closers s) (oc_notes s) (oc_next s + 1)
      (oc_log s ++ [OInst h]).

(** The loop of vortex_connection_remove_on_close_full (6855-6877). *)
Fixpoint take_match (fn data : Z) (l : list inst) : option (Z * list inst) :=
  match l with
  | [] => None
  | h :: r =>
      if (fn =? i_fn h) && (data =? i_data h) then Some (i_id h, r)
      else match take_match fn data r with
           | Some (id, r') => Some (id, h :: r')
           | None => None
           end
  end.
Definition remove (s : ocs) (fn data : Z) : ocs :=
  match oc_full s with
  | None => with_log s [ORem fn data None]
  | Some l =>
      match take_match fn data l with
      | None => with_log s [ORem fn data None]
      | Some (id, r) => with_log (with_list s true r) [ORem fn data (Some id)]
      end
  end.

Definition phase_of (s : ocs) (t : Z) : option phase := option_map snd (find (fun e => fst e =? t) (oc_closers s)).
Definition closer_to (l : list (Z * phase)) (t : Z) (p : phase) : list (Z * phase) :=
  map (fun e => if fst e =? t then (t, p) else e) l.
Definition end_closer (l : list (Z * phase)) (t : Z) : list (Z * phase) := filter (fun e => negb (fst e =? t)) l.

(** __vortex_connection_set_not_connected (5791-5818). *)
Definition close_conn (s : ocs) (t : Z) : ocs :=
  match phase_of s t with
  | Some _ => s
  | None =>
      if oc_conn s then
        let s := ref_conn s 0 in
        mkC false (oc_exit s) (oc_plain s) (oc_full s) (oc_refs s) (oc_freed s) (oc_app s) (oc_closers s ++ [(t, PCheck false)])
            (oc_notes s) (oc_next s) (oc_log s ++ [OClosed t])
      else s
  end.

(** After the handlers of a list (5821-5835). *)
Definition after (full : bool) : phase := if full then PSock else PCheck true.

(** A step of a thread inside __vortex_connection_set_not_connected; [ok]: the
    thread that calls the handler could be created (5032). *)
Definition closer_step (s : ocs) (t : Z) (ok : bool) : ocs :=
  let go p := with_closers s (closer_to (oc_closers s) t p) in
  match phase_of s t with
  | None => s
  | Some (PCheck full) => match list_of s full with None => go (after full) | Some _ => go (PExit full) end
  | Some (PExit full) => if oc_exit s then go (after full) else go (PLoop full)
  | Some (PLoop full) =>
      match list_of s full with
      | Some (h :: r) => with_log (with_list (go (PGot h)) full r) [OTake h]
      | _ => go (after full)
      end
  | Some (PGot h) =>
      if ok
      then with_notes (ref_conn (go (PLoop (i_full h))) 0) (oc_notes s ++ [(h, false)])
      else with_log (go (PLoop (i_full h))) [OLost h]
  | Some PSock => with_log (go PUnref) [OSock]
  | Some PUnref => unref_conn (with_closers s (end_closer (oc_closers s) t)) 0
  end.

Definition note_of (s : ocs) (id : Z) : option bool := option_map snd (find (fun e => i_id (fst e) =? id) (oc_notes s)).
(** __vortex_connection_on_close_do_notify (4986-5003): the handler is called,
    then the reference is dropped. *)
Definition note_step (s : ocs) (id : Z) : ocs :=
  match note_of s id with
  | None => s
  | Some false =>
      with_log (with_notes s (map (fun e => if i_id (fst e) =? id then (fst e, true) else e) (oc_notes s))) [OCall id]
  | Some true =>
      unref_conn (with_log (with_notes s (filter (fun e => negb (i_id (fst e) =? id)) (oc_notes s))) [OEnd id]) 0
  end.

(** [CInst], [CRem]: installation and removal of a handler; [CClose t]: a call of
    __vortex_connection_set_not_connected by thread [t] and [CStep t ok] its next
    step; [CNote id]: the next step of the thread that calls handler [id];
    [CRef], [CUnref]: vortex_connection_ref and vortex_connection_unref called by
    the application or by the rest of the library; [CExit]: the context is
    finishing; [CReconnect]: vortex_connection_reconnect (2085). *)
Inductive cev :=
| CInst (full last : bool) (fn data : Z)
| CRem (fn data : Z)
| CClose (t : Z)
| CStep (t : Z) (ok : bool)
| CNote (id : Z)
| CRef
| CUnref
| CExit
| CReconnect.

Definition active (s : ocs) (e : cev) : bool :=
  match e with
  | CStep t _ => match phase_of s t with Some _ => true | None => false end
  | CNote id => match note_of s id with Some _ => true | None => false end
  | CExit => false
  | _ => true
  end.

(** Using a connection that was freed is undefined. *)
Definition cstep (s : ocs) (e : cev) : outcome ocs :=
  if oc_freed s && active s e then UB
  else Ok match e with
  | CInst full last fn data => install s full last fn data
  | CRem fn data => remove s fn data
  | CClose t => close_conn s t
  | CStep t ok => closer_step s t ok
  | CNote id => note_step s id
  | CRef => ref_conn s 1
  | CUnref => unref_conn s 1
  | CExit => mkC (oc_conn s) true (oc_plain s) (oc_full s) (oc_refs s) (oc_freed s) (oc_app s) (oc_closers s) (oc_notes s) (oc_next s) (oc_log s)
  | CReconnect => mkC true (oc_exit s) (oc_plain s) (oc_full s) (oc_refs s) (oc_freed s) (oc_app s) (oc_closers s) (oc_notes s) (oc_next s) (oc_log s)
  end.
Fixpoint crun (s : ocs) (es : list cev) : outcome ocs :=
  match es with [] => Ok s | e :: k => let! s' := cstep s e in crun s' k end.
