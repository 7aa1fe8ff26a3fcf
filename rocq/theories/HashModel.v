(** vortex_hash (src/vortex_hash.c:54-733): a table under a mutex whose changes
    other threads can wait for.

    The table of the axl library is an association list: axl_hash_get,
    axl_hash_exists, axl_hash_insert_full, axl_hash_delete (remove without
    calling destroy functions) and axl_hash_remove_deferred (remove and report
    what has to be destroyed).  Keys are numbers standing for the classes of
    the key comparison function; values are pointers, 0 is NULL.  Each insert
    gets a number, to tell the entries apart (not in the code).  The foreach
    functions are not modelled. *)
From Verif Require Import Base AsyncModel.

(** An entry: its number, key, value. Whether there are destroy functions for
    key and value. *)
Record hentry := mkHE { he_id : Z; he_key : Z; he_val : Z; he_kd : bool; he_vd : bool }.

(** What is seen from outside.  [HCleanup e locked]: the destroy functions of
    the entry are called, with the table locked or not.  [HHanded e]: the entry
    leaves the table without its destroy functions being called. *)
Inductive hobs :=
| HInserted (e : hentry)
| HCleanup (e : hentry) (locked : bool)
| HHanded (e : hentry)
| HLookup (k v : Z)
| HExists (k : Z) (b : bool)
| HSize (n : Z)
| HRemoved (k : Z) (b : bool)
| HDeleted (k : Z) (b : bool)
| HTaken (k v : Z)
| HCleared
| HChanged
| HWaited (t r : Z).

(** VortexHash.  [h_dead]: entries out of the table whose destroy functions are
    about to be called by the thread that removed them.  [h_notif]: the calls
    of __vortex_hash_notify_change, [None] if the number of waiters has not been
    read, else the pushes left.  [h_in]: threads in lock_until_changed that have
    not reached the queue; [h_out]: threads that got out of the queue and have
    not released their reference. *)
Record vhash := mkH {
  h_tab : list hentry;
  h_next : Z;
  h_refs : Z;
  h_q : option aqueue;
  h_dead : list hentry;
  h_notif : list (option Z);
  h_in : list (Z * Z);
  h_out : Z;
  h_freed : bool;
  h_log : list hobs
}.
(** vortex_hash_new_full (95-119). *)
Definition h0 : vhash := mkH [] 0 1 None [] [] [] 0 false [].

Definition hfind (k : Z) (l : list hentry) : option hentry := find (fun e => he_key e =? k) l.
Definition hdrop (k : Z) (l : list hentry) : list hentry := filter (fun e => negb (he_key e =? k)) l.
Definition hval (o : option hentry) : Z := match o with Some e => he_val e | None => 0 end.
Definition hsome {A} (o : option A) : bool := match o with Some _ => true | None => false end.
Definition olist {A} (o : option A) : list A := match o with Some a => [a] | None => [] end.

(** The critical section of vortex_hash_insert (179-210), vortex_hash_replace
    (222-254) and vortex_hash_replace_full (270-303), which are the same but
    for where the destroy functions come from; the thread will then destroy the
    entry replaced and notify. *)
Definition h_insert (h : vhash) (k v : Z) (kd vd : bool) : vhash :=
  let e := mkHE (h_next h) k v kd vd in
  mkH (e :: hdrop k (h_tab h)) (h_next h + 1) (h_refs h) (h_q h)
      (h_dead h ++ olist (hfind k (h_tab h))) (h_notif h ++ [None]) (h_in h) (h_out h) (h_freed h)
      (h_log h ++ [HInserted e; HChanged]).
(** vortex_hash_remove (492-523): notifies if something was removed. *)
Definition h_remove (h : vhash) (k : Z) : vhash :=
  let f := hfind k (h_tab h) in
  mkH (hdrop k (h_tab h)) (h_next h) (h_refs h) (h_q h)
      (h_dead h ++ olist f) (h_notif h ++ (if hsome f then [None] else [])) (h_in h) (h_out h) (h_freed h)
      (h_log h ++ HRemoved k (hsome f) :: (if hsome f then [HChanged] else [])).
(** vortex_hash_lookup_and_clear (397-424) and vortex_hash_delete (582-601,
    which always returns true). *)
Definition h_take (h : vhash) (k : Z) (o : hobs) : vhash :=
  let f := hfind k (h_tab h) in
  mkH (hdrop k (h_tab h)) (h_next h) (h_refs h) (h_q h)
      (h_dead h) (h_notif h ++ (if hsome f then [None] else [])) (h_in h) (h_out h) (h_freed h)
      (h_log h ++ map HHanded (olist f) ++ o :: (if hsome f then [HChanged] else [])).
(** vortex_hash_clear (709-733): the destroy functions are called by
    axl_hash_free with the table locked. *)
Definition h_clear (h : vhash) : vhash :=
  let some := match h_tab h with [] => false | _ => true end in
  mkH [] (h_next h) (h_refs h) (h_q h)
      (h_dead h) (h_notif h ++ (if some then [None] else [])) (h_in h) (h_out h) (h_freed h)
      (h_log h ++ map (fun e => HCleanup e true) (h_tab h) ++ HCleared :: (if some then [HChanged] else [])).

Definition h_see (h : vhash) (o : hobs) : vhash :=
  mkH (h_tab h) (h_next h) (h_refs h) (h_q h) (h_dead h) (h_notif h) (h_in h) (h_out h) (h_freed h) (h_log h ++ [o]).

(** vortex_hash_destroy (532-567), also vortex_hash_unref (161-167). *)
Definition h_unref (h : vhash) : vhash :=
  let r := h_refs h - 1 in
  if negb (r =? 0)
  then mkH (h_tab h) (h_next h) r (h_q h) (h_dead h) (h_notif h) (h_in h) (h_out h) (h_freed h) (h_log h)
  else mkH [] (h_next h) r None (h_dead h) (h_notif h) (h_in h) (h_out h) true
           (h_log h ++ map (fun e => HCleanup e true) (h_tab h)).

(** A step of the waiting queue: the threads that get out of it are about to
    release their reference and return what they got. *)
Definition waits_of (old new : list aobs) : list hobs :=
  flat_map (fun o => match o with AGot t x => [HWaited t x] | ANull t => [HWaited t 0] | _ => [] end)
           (skipn (length old) new).
Definition h_queue (h : vhash) (e : aev) : vhash :=
  match h_q h with
  | None => h
  | Some q =>
      let q' := astep q e in
      let w := waits_of (aq_log q) (aq_log q') in
      mkH (h_tab h) (h_next h) (h_refs h) (Some q') (h_dead h) (h_notif h) (h_in h) (h_out h + zlen w) (h_freed h)
          (h_log h ++ w)
  end.

(** Replace the [i]-th element. *)
Fixpoint set_nth {A} (i : nat) (l : list A) (a : A) : list A :=
  match l, i with
  | [], _ => []
  | _ :: r, O => a :: r
  | x :: r, S j => x :: set_nth j r a
  end.
Definition set_notif (h : vhash) (i : nat) (n : Z) : vhash :=
  mkH (h_tab h) (h_next h) (h_refs h) (h_q h) (h_dead h) (set_nth i (h_notif h) (Some n)) (h_in h) (h_out h)
      (h_freed h) (h_log h).
(** The next step of the [i]-th __vortex_hash_notify_change (54-75): read the
    number of waiters, or push one item (1) for a waiter; [k] is the thread the
    signal wakes. *)
Definition h_notify (h : vhash) (i k : nat) : vhash :=
  match nth_error (h_notif h) i with
  | Some None => set_notif h i (match h_q h with Some q => aq_waiters q | None => 0 end)
  | Some (Some n) => if 0 <? n then h_queue (set_notif h i (n - 1)) (EPush 1 k) else h
  | None => h
  end.
(** vortex_hash_lock_until_changed (447-479): the critical section, then the
    queue. *)
Definition h_enter (h : vhash) (t us : Z) : vhash :=
  mkH (h_tab h) (h_next h) (h_refs h + 1) (match h_q h with Some q => Some q | None => Some aq0 end)
      (h_dead h) (h_notif h) (h_in h ++ [(t, us)]) (h_out h) (h_freed h) (h_log h).
Definition h_wait (h : vhash) (i : nat) : vhash :=
  match pick i (h_in h) with
  | None => h
  | Some ((t, us), r) =>
      h_queue (mkH (h_tab h) (h_next h) (h_refs h) (h_q h) (h_dead h) (h_notif h) r (h_out h) (h_freed h) (h_log h))
              (if 0 <? us then ETimed t us else EPop t)
  end.

(** Events: the operations, and the later steps of the threads inside of
    them. *)
Inductive hev :=
| HEInsert (k v : Z) (kd vd : bool)
| HELookup (k : Z) | HEExists (k : Z) | HESize
| HERemove (k : Z) | HEDelete (k : Z) | HETake (k : Z) | HEClear
| HERef | HEUnref
| HEDestroy (i : nat)
| HENotify (i k : nat)
| HEEnter (t us : Z) | HEWait (i : nat) | HELeave
| HEWake (k : nat) | HERun (k : nat).
Definition hstep (h : vhash) (e : hev) : outcome vhash :=
  if h_freed h then UB else
  Ok match e with
  | HEInsert k v kd vd => h_insert h k v kd vd
  | HELookup k => h_see h (HLookup k (hval (hfind k (h_tab h))))  (* 339-354 *)
  | HEExists k => h_see h (HExists k (hsome (hfind k (h_tab h))))  (* 368-384 *)
  | HESize => h_see h (HSize (zlen (h_tab h)))  (* 312-326 *)
  | HERemove k => h_remove h k
  | HEDelete k => h_take h k (HDeleted k true)
  | HETake k => h_take h k (HTaken k (hval (hfind k (h_tab h))))
  | HEClear => h_clear h
  | HERef =>  (* 146-153 *)
      mkH (h_tab h) (h_next h) (h_refs h + 1) (h_q h) (h_dead h) (h_notif h) (h_in h) (h_out h) (h_freed h) (h_log h)
  | HEUnref => h_unref h
  | HEDestroy i =>  (* axl_hash_deferred_cleanup, after the unlock *)
      match pick i (h_dead h) with
      | None => h
      | Some (e, r) =>
          mkH (h_tab h) (h_next h) (h_refs h) (h_q h) r (h_notif h) (h_in h) (h_out h) (h_freed h)
              (h_log h ++ [HCleanup e false])
      end
  | HENotify i k => h_notify h i k
  | HEEnter t us => if 0 <=? us then h_enter h t us else h_see h (HWaited t (-2))
  | HEWait i => h_wait h i
  | HELeave =>
      if 0 <? h_out h then
        h_unref (mkH (h_tab h) (h_next h) (h_refs h) (h_q h) (h_dead h) (h_notif h) (h_in h) (h_out h - 1)
                     (h_freed h) (h_log h))
      else h
  | HEWake k => h_queue h (EWake k)
  | HERun k => h_queue h (ERun k)
  end.
Fixpoint hrun (h : vhash) (es : list hev) : outcome vhash :=
  match es with [] => Ok h | e :: es' => let! h' := hstep h e in hrun h' es' end.
