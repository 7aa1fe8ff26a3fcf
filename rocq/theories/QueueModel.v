(** vortex_queue (src/vortex_queue.c:74-267): a list under a mutex.  Each
    operation is one critical section; free is two steps, the test of the
    length and the release of the memory (256-264).  Items are pointers, 0 is
    NULL. *)
From Verif Require Import Base.

(** What the caller of each operation gets. *)
Inductive qobs :=
| OPush (x : Z) (ok : bool)
| OHead (x : Z) (ok : bool)
| OPop (x : Z)
| OPeek (x : Z)
| OEmpty (b : bool)
| OLength (n : Z).
(** VortexQueue: the items, first to pop first. *)
Record vqueue := mkQ {
  q_items : list Z;
  q_freed : bool;
  q_log : list qobs
}.
(** vortex_queue_new (74-83). *)
Definition q0 : vqueue := mkQ [] false [].
Definition q_put (q : vqueue) (l : list Z) (o : qobs) : vqueue := mkQ l (q_freed q) (q_log q ++ [o]).

(** axl_list_get_first: NULL if there is none. *)
Definition first (l : list Z) : Z := match l with x :: _ => x | [] => 0 end.

(** The operations; using the queue once freed is [UB]. *)
Inductive qev := QPush (x : Z) | QHead (x : Z) | QPop | QPeek | QEmpty | QLength | QFree.
Definition qstep (q : vqueue) (e : qev) : outcome vqueue :=
  if q_freed q then UB else
  match e with
  | QPush x =>  (* 144-161 *)
      Ok (if x =? 0 then q_put q (q_items q) (OPush x false) else q_put q (q_items q ++ [x]) (OPush x true))
  | QHead x =>  (* 174-189 *)
      Ok (if x =? 0 then q_put q (q_items q) (OHead x false) else q_put q (x :: q_items q) (OHead x true))
  | QPop => Ok (q_put q (tl (q_items q)) (OPop (first (q_items q))))  (* 200-217 *)
  | QPeek => Ok (q_put q (q_items q) (OPeek (first (q_items q))))  (* 228-244 *)
  | QEmpty =>  (* 92-108 *)
      Ok (q_put q (q_items q) (OEmpty (match q_items q with [] => true | _ => false end)))
  | QLength => Ok (q_put q (q_items q) (OLength (u32 (zlen (q_items q)))))  (* 117-132 *)
  | QFree =>  (* 252-267, with nobody else using the queue *)
      Ok (if u32 (zlen (q_items q)) =? 0 then mkQ (q_items q) true (q_log q) else q)
  end.
Fixpoint qrun (q : vqueue) (es : list qev) : outcome vqueue :=
  match es with [] => Ok q | e :: es' => let! q' := qstep q e in qrun q' es' end.
