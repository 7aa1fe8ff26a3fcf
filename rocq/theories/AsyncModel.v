(** The queue threads wait on (src/vortex_thread.c:984-1672): the critical
    sections of its mutex, with the condition variable.

    Items are pointers other than NULL.  The list [aq_data] has the item pushed
    last first, as the axlList (axl_list_prepend).  A thread inside of
    vortex_cond_wait is in [aq_blocked]; once signalled, timed out or woken for
    no reason it is in [aq_woken] until it gets the mutex back.  POSIX lets a
    signal wake any blocked thread: which one is an argument of the event. *)
From Verif Require Import Base.

(** A thread and whether it is in timedpop. *)
Record waiter := mkWt { wt_id : Z; wt_timed : bool }.

(** What the callers see: an item accepted at the end of the line or at its
    start, an item given to a thread, NULL given to a thread. *)
Inductive aobs := APushed (x : Z) | AFirst (x : Z) | AGot (t x : Z) | ANull (t : Z).

(** VortexAsyncQueue (984-1006). *)
Record aqueue := mkAQ {
  aq_data : list Z;
  aq_waiters : Z;
  aq_blocked : list waiter;
  aq_woken : list waiter;
  aq_log : list aobs
}.
(** vortex_async_queue_new (1019-1053). *)
Definition aq0 : aqueue := mkAQ [] 0 [] [] [].

(** Take the [k]-th element out of a list (the first if there are not that
    many). *)
Definition pick {A : Type} (k : nat) (l : list A) : option (A * list A) :=
  match nth_error l k with
  | Some a => Some (a, firstn k l ++ skipn (S k) l)
  | None => match l with [] => None | a :: r => Some (a, r) end
  end.

(** vortex_cond_signal: wakes one blocked thread, if any. *)
Definition signal (q : aqueue) (k : nat) : aqueue :=
  match pick k (aq_blocked q) with
  | Some (w, b) => mkAQ (aq_data q) (aq_waiters q) b (aq_woken q ++ [w]) (aq_log q)
  | None => q
  end.
Definition signal_waiters (q : aqueue) (k : nat) : aqueue :=
  if 0 <? aq_waiters q then signal q k else q.

(** vortex_async_queue_unlocked_push (1100-1111). *)
Definition unlocked_push (q : aqueue) (x : Z) : aqueue :=
  mkAQ (x :: aq_data q) (aq_waiters q) (aq_blocked q) (aq_woken q) (aq_log q ++ [APushed x]).
(** vortex_async_queue_push (1065-1085). *)
Definition push (q : aqueue) (x : Z) (k : nat) : aqueue :=
  signal_waiters (unlocked_push q x) k.
(** vortex_async_queue_priority_push (1128-1148). *)
Definition priority_push (q : aqueue) (x : Z) (k : nat) : aqueue :=
  signal_waiters
    (mkAQ (aq_data q ++ [x]) (aq_waiters q) (aq_blocked q) (aq_woken q) (aq_log q ++ [AFirst x])) k.
(** vortex_async_queue_lock (1650-1655), pushes without locking and
    vortex_async_queue_unlock (1662-1672). *)
Definition batch (q : aqueue) (xs : list Z) (k : nat) : aqueue :=
  signal_waiters (fold_left unlocked_push xs q) k.

(** The end of pop and timedpop (1175-1188, 1270-1283): take the last item;
    [None] if there is none. *)
Definition take (q : aqueue) (t : Z) : option aqueue :=
  match rev (aq_data q) with
  | [] => None
  | x :: r => Some (mkAQ (rev r) (aq_waiters q - 1) (aq_blocked q) (aq_woken q) (aq_log q ++ [AGot t x]))
  end.

(** vortex_async_queue_pop (1160-1189) and vortex_async_queue_timedpop
    (1210-1284, without the win32 part) up to the wait: waiters grows, then the
    thread takes an item or blocks. *)
Definition pop_enter (q : aqueue) (t : Z) (timed : bool) : aqueue :=
  let q := mkAQ (aq_data q) (aq_waiters q + 1) (aq_blocked q) (aq_woken q) (aq_log q) in
  match take q t with
  | Some q' => q'
  | None => mkAQ (aq_data q) (aq_waiters q) (aq_blocked q ++ [mkWt t timed]) (aq_woken q) (aq_log q)
  end.
(** The return of the wait: pop tests again in its loop (1171-1172); timedpop
    tests once and gives NULL (1233-1267). *)
Definition pop_resume (q : aqueue) (k : nat) : aqueue :=
  match pick k (aq_woken q) with
  | None => q
  | Some (w, r) =>
      let q := mkAQ (aq_data q) (aq_waiters q) (aq_blocked q) r (aq_log q) in
      match take q (wt_id w) with
      | Some q' => q'
      | None =>
          if wt_timed w
          then mkAQ (aq_data q) (aq_waiters q - 1) (aq_blocked q) (aq_woken q) (aq_log q ++ [ANull (wt_id w)])
          else mkAQ (aq_data q) (aq_waiters q) (aq_blocked q ++ [w]) (aq_woken q) (aq_log q)
      end
  end.

(** vortex_async_queue_length (1294-1310), _waiters (1322-1338), _items
    (1350-1367). *)
Definition aq_length (q : aqueue) : Z := zlen (aq_data q) - aq_waiters q.
Definition aq_items (q : aqueue) : Z := zlen (aq_data q).
(** vortex_async_queue_lookup (1595-1633): the first in list order, which is
    the item pushed last. *)
Definition aq_lookup (q : aqueue) (f : Z -> bool) : option Z := find f (aq_data q).

(** Events.  [EWake k]: the [k]-th blocked thread is woken, because its time is
    over or for no reason.  [EPush 0] is a push of NULL, refused (1069). *)
Inductive aev :=
| EPush (x : Z) (k : nat)
| EFirst (x : Z) (k : nat)
| EBatch (xs : list Z) (k : nat)
| EPop (t : Z)
| ETimed (t microseconds : Z)
| EWake (k : nat)
| ERun (k : nat).
Definition nonnull (x : Z) : bool := negb (x =? 0).
Definition astep (q : aqueue) (e : aev) : aqueue :=
  match e with
  | EPush x k => if nonnull x then push q x k else q
  | EFirst x k => if nonnull x then priority_push q x k else q
  | EBatch xs k => batch q (filter nonnull xs) k
  | EPop t => pop_enter q t false
  | ETimed t us =>
      if 0 <? us then pop_enter q t true
      else mkAQ (aq_data q) (aq_waiters q) (aq_blocked q) (aq_woken q) (aq_log q ++ [ANull t])
  | EWake k => signal q k
  | ERun k => pop_resume q k
  end.
Definition arun (q : aqueue) (es : list aev) : aqueue := fold_left astep es q.
