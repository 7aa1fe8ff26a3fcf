(** Reference counts of the objects of the library, changed by several threads:
    connections (src/vortex_connection.c:2928-2958 without the check of the
    connection, 3049-3089), channels (src/vortex_channel.c:5007-5087), queues
    between threads (src/vortex_thread.c:1380-1400, 1433-1472), hash tables
    (src/vortex_hash.c:146-167, 531-567), contexts (src/vortex_ctx.c:661-677,
    725-762, 782-820), feeders (src/vortex_payload_feeder.c:438-511) and frames
    (src/vortex_frame_factory.c:2090-2124).

    A step is a critical section of the mutex of the object or one access to the
    counter without it.  Counters have no upper limit here.  What the release of the
    object does with its contents is not followed: any access to the counter or
    to the object once its memory was released is undefined behaviour. *)
From Verif Require Import Base.

Inductive kind := KConn | KChan | KQueue | KHash | KCtx | KFeeder | KFrame.
(** Where a thread is inside a call.  [PDec b]: about to lock and decrement; [b] is
    the local variable nullify of vortex_ctx_unref2. *)
Inductive pc :=
| PIdle
| PTest                       (* reads the counter, without the mutex *)
| PInc                        (* locks, increments, unlocks *)
| PResult                     (* reads the counter, without the mutex, to answer *)
| PPeek                       (* vortex_ctx_unref2: locks, reads, unlocks *)
| PDec (b : bool)
| PFree (b : bool)            (* the counter was left at 0: releases the object *)
| PLoad (d : Z)               (* frames: reads, then writes the counter *)
| PStore (d v : Z)
| PLook.                      (* frames: reads the counter after the decrement *)
(** A thread and the references it owns. *)
Record th := mkT { t_refs : Z; t_pc : pc }.

Inductive robs :=
| OGot (t : nat) (b : bool)   (* a call to take a reference returns (true if it has no result) *)
| ODone (t : nat) (b : bool)  (* a call to drop it returns; [b]: the pointer of the caller is set to NULL *)
| OUse (t : nat)
| OFree.
Record rs := mkR { r_count : Z; r_freed : bool; r_threads : list th; r_log : list robs }.
(** The object just created, with one reference owned by thread 0, and [n] threads more. *)
Definition r0 (n : nat) : rs := mkR 1 false (mkT 1 PIdle :: repeat (mkT 0 PIdle) n) [].

Fixpoint upd (l : list th) (i : nat) (x : th) : list th :=
  match l, i with [], _ => [] | _ :: k, O => x :: k | a :: k, S j => a :: upd k j x end.
Definition put (s : rs) (t : nat) (x : th) (o : list robs) : rs := mkR (r_count s) (r_freed s) (upd (r_threads s) t x) (r_log s ++ o).
Definition with_count (s : rs) (c : Z) : rs := mkR c (r_freed s) (r_threads s) (r_log s).

(** The call to take a reference returns; who is told [false] does not own one. *)
Definition got (s : rs) (t : nat) (x : th) (b : bool) : rs := put s t (mkT (if b then t_refs x + 1 else t_refs x) PIdle) [OGot t b].
Definition done (s : rs) (t : nat) (x : th) (b : bool) : rs := put s t (mkT (t_refs x) PIdle) [ODone t b].
Definition goto (s : rs) (t : nat) (x : th) (p : pc) : rs := put s t (mkT (t_refs x) p) [].

(** vortex_async_queue_ref: not reference > 0 (1384); vortex_payload_feeder_ref:
    ref_count == 0 (440). *)
Definition test (k : kind) (c : Z) : bool := match k with KQueue => 0 <? c | _ => negb (c =? 0) end.
(** What a call does first. *)
Definition first_ref (k : kind) : pc := match k with KQueue | KFeeder => PTest | KFrame => PLoad 1 | _ => PInc end.
Definition first_unref (k : kind) : pc := match k with KCtx => PPeek | KFrame => PLoad (-1) | _ => PDec false end.

Definition thread_step (k : kind) (s : rs) (t : nat) (x : th) : outcome rs :=
  match t_pc x with
  | PIdle => Ok s
  | p =>
      if r_freed s then UB
      else
        match p with
        | PIdle => Ok s
        | PTest => if test k (r_count s) then Ok (goto s t x PInc) else Ok (got s t x false)
        | PInc =>
            let s := with_count s (r_count s + 1) in
            match k with
            | KChan => Ok (got s t x (2 <=? r_count s))
            | KConn | KQueue => Ok (goto s t x PResult)
            | _ => Ok (got s t x true)
            end
        | PResult => Ok (got s t x (1 <? r_count s))
        | PPeek => if r_count s <=? 0 then Ok (done s t x true) else Ok (goto s t x (PDec (r_count s =? 1)))
        | PDec b =>
            let s := with_count s (r_count s - 1) in
            if r_count s =? 0 then Ok (goto s t x (PFree b)) else Ok (done s t x b)
        | PFree b => Ok (put (mkR (r_count s) true (r_threads s) (r_log s)) t (mkT (t_refs x) PIdle) [OFree; ODone t b])
        | PLoad d => Ok (goto s t x (PStore d (r_count s + d)))
        | PStore d v =>
            let s := with_count s v in
            if d =? 1 then Ok (got s t x true) else Ok (goto s t x PLook)
        | PLook => if r_count s =? 0 then Ok (goto s t x (PFree false)) else Ok (done s t x false)
        end
  end.

(** [ERef], [EUnref]: a thread that is not inside a call makes one; [EUse]: it uses
    the object; [EGive t u]: it leaves a reference to thread [u]; [EStep]: it
    continues the call it is in. *)
Inductive act :=
| ERef (t : nat)
| EUnref (t : nat)
| EUse (t : nat)
| EGive (t u : nat)
| EStep (t : nat).
Definition idle (x : th) : bool := match t_pc x with PIdle => true | _ => false end.
Definition rstep (k : kind) (s : rs) (e : act) : outcome rs :=
  match e with
  | ERef t => match nth_error (r_threads s) t with Some x => if idle x then Ok (goto s t x (first_ref k)) else Ok s | None => Ok s end
  | EUnref t => match nth_error (r_threads s) t with Some x => if idle x then Ok (put s t (mkT (t_refs x - 1) (first_unref k)) []) else Ok s | None => Ok s end
  | EUse t => match nth_error (r_threads s) t with Some x => if r_freed s then UB else Ok (put s t x [OUse t]) | None => Ok s end
  | EGive t u =>
      match nth_error (r_threads s) t, nth_error (r_threads s) u with
      | Some x, Some y => if Nat.eqb t u || negb (idle x) then Ok s else Ok (put (put s t (mkT (t_refs x - 1) (t_pc x)) []) u (mkT (t_refs y + 1) (t_pc y)) [])
      | _, _ => Ok s
      end
  | EStep t => match nth_error (r_threads s) t with Some x => thread_step k s t x | None => Ok s end
  end.
Fixpoint rrun (k : kind) (s : rs) (es : list act) : outcome rs :=
  match es with [] => Ok s | e :: l => let! s' := rstep k s e in rrun k s' l end.
