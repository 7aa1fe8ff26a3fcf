(** The notification of idle connections: vortex_ctx_set_idle_handler and
    vortex_ctx_notify_idle (src/vortex_ctx.c:477-545), the stamps of the connection
    (src/vortex_connection.c:4665-4731) and the check done by the reader
    (src/vortex_reader.c:978-990).

    One connection that is watched by the reader.  The four stores of
    vortex_ctx_set_idle_handler are separate steps, and so are the accesses of the reader
    and of the task of the pool; one thread at a time configures the handler.  The time is
    the number of seconds of time(2).  The flag "vo:co:idle" is data
    of the connection.  Allocation does not fail, and references and
    totals have no upper limit.  Using a connection without references is
    undefined behaviour. *)
From Verif Require Import Base HdrModel.

Inductive store := SHandler (h : option Z) | SPeriod (p : Z) | SData (d : Z) | SData2 (d : Z).
(** The reader: not watching the connection any more; between passes; in a pass that
    began at a time; about to call vortex_ctx_notify_idle. *)
Inductive rpc := RGone | RWait | RPass (ts : Z) | RNote.
(** The task __vortex_ctx_notify_idle (495-518): not begun; with the handler
    read; inside the handler; to clear the flag; to give the reference back. *)
Inductive task := TNew | TCall (h : Z) | TIn | TFlag | TUnref.
Inductive iobs :=
| OActive (t : Z)                 (* vortex_connection_set_receive_stamp *)
| OIdle (ts period : Z)           (* the reader finds the connection idle *)
| OCall (h d d2 : Z)
| OReturn
| OFree.                          (* the connection is released *)

Record ist := mkI {
  i_now : Z;
  i_hand : option Z;              (* global_idle_handler *)
  i_period : Z;                   (* max_idle_period *)
  i_data : Z; i_data2 : Z;
  i_set : list store;             (* what is left of a call to vortex_ctx_set_idle_handler *)
  i_stamp : Z;                    (* last_idle_stamp *)
  i_rx : Z; i_tx : Z;             (* bytes_received, bytes_sent *)
  i_flag : bool;                  (* "vo:co:idle" *)
  i_refs : Z;
  i_user : bool;                  (* the user has a reference *)
  i_pool : bool;                  (* the pool accepts tasks *)
  i_reader : rpc;
  i_tasks : list task;
  i_log : list iobs
}.
Definition i0 (now : Z) : ist := mkI now None 0 0 0 [] 0 0 0 false 2 true true RWait [] [].

Definition put_now (s : ist) x := mkI x (i_hand s) (i_period s) (i_data s) (i_data2 s) (i_set s) (i_stamp s) (i_rx s) (i_tx s) (i_flag s) (i_refs s) (i_user s) (i_pool s) (i_reader s) (i_tasks s) (i_log s).
Definition put_hand (s : ist) x := mkI (i_now s) x (i_period s) (i_data s) (i_data2 s) (i_set s) (i_stamp s) (i_rx s) (i_tx s) (i_flag s) (i_refs s) (i_user s) (i_pool s) (i_reader s) (i_tasks s) (i_log s).
Definition put_period (s : ist) x := mkI (i_now s) (i_hand s) x (i_data s) (i_data2 s) (i_set s) (i_stamp s) (i_rx s) (i_tx s) (i_flag s) (i_refs s) (i_user s) (i_pool s) (i_reader s) (i_tasks s) (i_log s).
Definition put_data (s : ist) x := mkI (i_now s) (i_hand s) (i_period s) x (i_data2 s) (i_set s) (i_stamp s) (i_rx s) (i_tx s) (i_flag s) (i_refs s) (i_user s) (i_pool s) (i_reader s) (i_tasks s) (i_log s).
Definition put_data2 (s : ist) x := mkI (i_now s) (i_hand s) (i_period s) (i_data s) x (i_set s) (i_stamp s) (i_rx s) (i_tx s) (i_flag s) (i_refs s) (i_user s) (i_pool s) (i_reader s) (i_tasks s) (i_log s).
Definition put_set (s : ist) x := mkI (i_now s) (i_hand s) (i_period s) (i_data s) (i_data2 s) x (i_stamp s) (i_rx s) (i_tx s) (i_flag s) (i_refs s) (i_user s) (i_pool s) (i_reader s) (i_tasks s) (i_log s).
Definition put_flag (s : ist) x := mkI (i_now s) (i_hand s) (i_period s) (i_data s) (i_data2 s) (i_set s) (i_stamp s) (i_rx s) (i_tx s) x (i_refs s) (i_user s) (i_pool s) (i_reader s) (i_tasks s) (i_log s).
Definition put_refs (s : ist) x := mkI (i_now s) (i_hand s) (i_period s) (i_data s) (i_data2 s) (i_set s) (i_stamp s) (i_rx s) (i_tx s) (i_flag s) x (i_user s) (i_pool s) (i_reader s) (i_tasks s) (i_log s).
Definition put_user (s : ist) x := mkI (i_now s) (i_hand s) (i_period s) (i_data s) (i_data2 s) (i_set s) (i_stamp s) (i_rx s) (i_tx s) (i_flag s) (i_refs s) x (i_pool s) (i_reader s) (i_tasks s) (i_log s).
Definition put_pool (s : ist) x := mkI (i_now s) (i_hand s) (i_period s) (i_data s) (i_data2 s) (i_set s) (i_stamp s) (i_rx s) (i_tx s) (i_flag s) (i_refs s) (i_user s) x (i_reader s) (i_tasks s) (i_log s).
Definition put_reader (s : ist) x := mkI (i_now s) (i_hand s) (i_period s) (i_data s) (i_data2 s) (i_set s) (i_stamp s) (i_rx s) (i_tx s) (i_flag s) (i_refs s) (i_user s) (i_pool s) x (i_tasks s) (i_log s).
Definition put_tasks (s : ist) x := mkI (i_now s) (i_hand s) (i_period s) (i_data s) (i_data2 s) (i_set s) (i_stamp s) (i_rx s) (i_tx s) (i_flag s) (i_refs s) (i_user s) (i_pool s) (i_reader s) x (i_log s).
Definition see (s : ist) o := mkI (i_now s) (i_hand s) (i_period s) (i_data s) (i_data2 s) (i_set s) (i_stamp s) (i_rx s) (i_tx s) (i_flag s) (i_refs s) (i_user s) (i_pool s) (i_reader s) (i_tasks s) (i_log s ++ [o]).

(** vortex_connection_set_receive_stamp (src/vortex_connection.c:4665-4675) *)
Definition stamp (s : ist) (rx tx : Z) : ist :=
  see (mkI (i_now s) (i_hand s) (i_period s) (i_data s) (i_data2 s) (i_set s) (i_now s) (i_rx s + rx) (i_tx s + tx) (i_flag s) (i_refs s) (i_user s) (i_pool s) (i_reader s) (i_tasks s) (i_log s)) (OActive (i_now s)).
(** vortex_connection_unref *)
Definition unref (s : ist) : outcome ist :=
  if i_refs s <=? 0 then UB
  else let s := put_refs s (i_refs s - 1) in Ok (if i_refs s =? 0 then see s OFree else s).
Definition do_store (s : ist) (w : store) : ist :=
  match w with SHandler h => put_hand s h | SPeriod p => put_period s p | SData d => put_data s d | SData2 d => put_data2 s d end.

(** vortex_connection_check_idle_status (4711-4731), called if there is a handler
    (src/vortex_reader.c:989). *)
Definition check (s : ist) (master : bool) (ts : Z) : ist :=
  match i_hand s with
  | None => put_reader s RWait
  | Some _ =>
      if master then put_reader s RWait
      else if i_stamp s =? 0 then put_reader (stamp s 0 0) RWait
      else if i_period s <? ts - i_stamp s then put_reader (see s (OIdle ts (i_period s))) RNote
      else put_reader s RWait
  end.
(** vortex_ctx_notify_idle (src/vortex_ctx.c:525-545); vortex_thread_pool_new_task
    does nothing when the pool is being stopped (src/vortex_thread_pool.c:912). *)
Definition notify (s : ist) : ist :=
  let s := put_reader s RWait in
  match i_hand s with
  | None => s
  | Some _ =>
      if i_flag s then s
      else let s := put_refs (put_flag s true) (i_refs s + 1) in
        if i_pool s then put_tasks s (i_tasks s ++ [TNew]) else s
  end.
Fixpoint drop_nth {A} (l : list A) (k : nat) : list A :=
  match l, k with [], _ => [] | _ :: r, O => r | x :: r, S n => x :: drop_nth r n end.
(** __vortex_ctx_notify_idle (495-518) *)
Definition work (s : ist) (k : nat) (t : task) : outcome ist :=
  if i_refs s <=? 0 then UB
  else match t with
  | TNew =>
      match i_hand s with
      | None => Ok (put_tasks s (drop_nth (i_tasks s) k))
      | Some h => Ok (put_tasks s (upd_nth (i_tasks s) k (TCall h)))
      end
  | TCall h => Ok (see (put_tasks s (upd_nth (i_tasks s) k TIn)) (OCall h (i_data s) (i_data2 s)))
  | TIn => Ok (stamp (put_tasks (see s OReturn) (upd_nth (i_tasks s) k TFlag)) 0 0)
  | TFlag => Ok (put_flag (put_tasks s (upd_nth (i_tasks s) k TUnref)) false)
  | TUnref => unref (put_tasks s (drop_nth (i_tasks s) k))
  end.

Inductive iev :=
| ITick (d : Z)                   (* seconds that go by *)
| ITraffic (rx tx : Z)            (* bytes read or written, while there is a reference *)
| ISet (h : option Z) (p d d2 : Z)(* vortex_ctx_set_idle_handler is called *)
| IStore                          (* its next store *)
| IPass                           (* the reader begins a pass *)
| ICheck                          (* it checks the connection *)
| INote                           (* it notifies *)
| IDrop                           (* the connection is closed: the reader gives its reference back *)
| IUser                           (* the user gives its reference back *)
| IPoolEnd                        (* vortex_thread_pool_being_closed *)
| ITask (k : nat).                (* the next step of a task *)

Definition istep (master : bool) (s : ist) (e : iev) : outcome ist :=
  match e with
  | ITick d => Ok (put_now s (i_now s + Z.max 0 d))
  | ITraffic rx tx => Ok (if 0 <? i_refs s then stamp s rx tx else s)
  | ISet h p d d2 => Ok (match i_set s with [] => put_set s [SHandler h; SPeriod p; SData d; SData2 d2] | _ => s end)
  | IStore => Ok (match i_set s with [] => s | w :: r => do_store (put_set s r) w end)
  | IPass => Ok (match i_reader s with RWait => put_reader s (RPass (match i_hand s with Some _ => i_now s | None => 0 end)) | _ => s end)
  | ICheck =>
      match i_reader s with
      | RPass ts => if i_refs s <=? 0 then UB else Ok (check s master ts)
      | _ => Ok s
      end
  | INote =>
      match i_reader s with
      | RNote => if i_refs s <=? 0 then UB else Ok (notify s)
      | _ => Ok s
      end
  | IDrop => match i_reader s with RWait => unref (put_reader s RGone) | _ => Ok s end
  | IUser => if i_user s then unref (put_user s false) else Ok s
  | IPoolEnd => Ok (put_pool s false)
  | ITask k => match nth_error (i_tasks s) k with Some t => work s k t | None => Ok s end
  end.
Fixpoint irun (master : bool) (s : ist) (es : list iev) : outcome ist :=
  match es with [] => Ok s | e :: r => let! s' := istep master s e in irun master s' r end.
