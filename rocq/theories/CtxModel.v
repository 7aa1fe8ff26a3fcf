(** The life of a context: its references (src/vortex_ctx.c:647-818), the
    functions to call when it ends (559-606) and the end of its execution
    (src/vortex.c:1150-1289).

    A fixed number of threads share one context.  What is done under ref_mutex
    is one step, and the accesses under exit_mutex are separate steps of the
    thread that holds it.  A cleanup function is a number: what it does to the
    list of cleanups is done by events between its call and its return.  The
    stop of the modules (1180-1233) is one step that is only seen to happen.
    The number of references each thread owns is not in the code: it says which
    thread has to give each of them back.  Locking or destroying a mutex
    that was destroyed, destroying one that is locked and using a context
    that was released are undefined behaviour.  The data of the context is in
    HashModel. *)
From Verif Require Import Base HdrModel.

Inductive mutex := MFree | MHeld (t : nat) | MGone.
Inductive op :=
| OpRef | OpUnref | OpFree
| OpExit (release : bool)
| OpInstall (f : Z) | OpRemove (f : Z).

(** Where a thread is. *)
Inductive pc :=
| PIdle
| PGate (r : bool)                (* vortex.c:1165, to lock exit_mutex *)
| PInside (r : bool)              (* 1166, it has exit_mutex *)
| PSet (r : bool)                 (* 1170-1176, it has exit_mutex *)
| PStop (r : bool)                (* 1180-1240 *)
| PLast (r : bool)                (* 1243-1244 *)
| PDestroy (r : bool)             (* 1245 *)
| PClean (r : bool)               (* 1248 *)
| PCall (r : bool) (i : nat) (f : Z) (* 1259, inside a cleanup *)
| PEnd (r : bool)                 (* 1285 *)
| PUnref (last : bool)            (* vortex_ctx.c:753 *)
| PDrop                           (* vortex_ctx_free *)
| PDealloc (last : bool).         (* 800-815, the count is 0 *)

Record thread := mkT { t_pc : pc; t_own : Z; t_ptr : bool (* its pointer is not NULL *) }.
Inductive xobs :=
| OStop (t : nat)                 (* the thread stops the modules *)
| OInst (f : Z) | ORem (f : Z)
| OCall (f : Z)                   (* the cleanup is called *)
| OCleaned                        (* there are no more cleanups to call: their list is released *)
| OFreed.                         (* the context is released *)

Record xst := mkX {
  x_mem : bool;                   (* the context is in memory *)
  x_ref : Z;                      (* ref_count *)
  x_exit : bool;                  (* vortex_exit *)
  x_emx : mutex;                  (* exit_mutex *)
  x_lmx : bool;                   (* logs are enabled and use log_mutex *)
  x_clean : option (list Z);      (* cleanups *)
  x_thr : list thread;
  x_log : list xobs
}.
Definition put_mem (s : xst) v := mkX v (x_ref s) (x_exit s) (x_emx s) (x_lmx s) (x_clean s) (x_thr s) (x_log s).
Definition put_ref (s : xst) v := mkX (x_mem s) v (x_exit s) (x_emx s) (x_lmx s) (x_clean s) (x_thr s) (x_log s).
Definition put_exit (s : xst) v := mkX (x_mem s) (x_ref s) v (x_emx s) (x_lmx s) (x_clean s) (x_thr s) (x_log s).
Definition put_emx (s : xst) v := mkX (x_mem s) (x_ref s) (x_exit s) v (x_lmx s) (x_clean s) (x_thr s) (x_log s).
Definition put_clean (s : xst) v := mkX (x_mem s) (x_ref s) (x_exit s) (x_emx s) (x_lmx s) v (x_thr s) (x_log s).
Definition put_thr (s : xst) v := mkX (x_mem s) (x_ref s) (x_exit s) (x_emx s) (x_lmx s) (x_clean s) v (x_log s).
Definition see (s : xst) o := mkX (x_mem s) (x_ref s) (x_exit s) (x_emx s) (x_lmx s) (x_clean s) (x_thr s) (x_log s ++ [o]).

(** vortex_ctx_new (src/vortex_ctx.c:79-111) and vortex_init_ctx: the thread 0 has
    the only reference, and every thread knows the context. *)
Definition x0 (lmx : bool) (n : nat) : xst :=
  mkX true 1 false MFree lmx None (mkT PIdle 1 true :: repeat (mkT PIdle 0 true) n) [].

Definition set_pc p t := mkT p (t_own t) (t_ptr t).
Definition set_own n t := mkT (t_pc t) n (t_ptr t).
Definition set_ptr b t := mkT (t_pc t) (t_own t) b.
Definition upd (s : xst) (t : nat) (f : thread -> thread) : xst :=
  match nth_error (x_thr s) t with
  | Some x => put_thr s (upd_nth (x_thr s) t (f x))
  | None => s
  end.
Definition goto (s : xst) (t : nat) (p : pc) : xst := upd s t (set_pc p).

(** axl_list_remove_ptr: the first one. *)
Fixpoint remove_ptr (l : list Z) (f : Z) : list Z :=
  match l with [] => [] | g :: r => if g =? f then r else g :: remove_ptr r f end.

(** vortex_ctx_ref2 (661-676) *)
Definition ref2 (s : xst) (t : nat) : xst := upd (put_ref s (x_ref s + 1)) t (fun x => set_own (t_own x + 1) x).
(** vortex_ctx_install_cleanup (559-579) *)
Definition install (s : xst) (f : Z) : xst :=
  see (put_clean s (Some (match x_clean s with Some l => l | None => [] end ++ [f]))) (OInst f).
(** vortex_ctx_remove_cleanup (588-606) *)
Definition remove (s : xst) (f : Z) : xst :=
  see (match x_clean s with Some l => put_clean s (Some (remove_ptr l f)) | None => s end) (ORem f).
(** vortex_ctx_unref2 (725-750) until the count is decreased *)
Definition unref_start (s : xst) (t : nat) : xst :=
  if x_ref s <=? 0 then upd s t (set_ptr false) else goto s t (PUnref (x_ref s =? 1)).
(** vortex_ctx_free2 (782-798) and what the caller does then (vortex_ctx.c:756-757). *)
Definition finish (s : xst) (t : nat) (last : bool) : xst :=
  upd s t (fun x => mkT PIdle (t_own x) (if last then false else t_ptr x)).
Definition free2 (s : xst) (t : nat) (last : bool) : xst :=
  let s := upd (put_ref s (x_ref s - 1)) t (fun x => set_own (t_own x - 1) x) in
  if x_ref s =? 0 then goto s t (PDealloc last) else finish s t last.
(** 800-815: the log of 812 is done after the destruction of log_mutex (806). *)
Definition dealloc (s : xst) (t : nat) (last : bool) : outcome xst :=
  if x_lmx s then UB else Ok (see (finish (put_mem s false) t last) OFreed).

(** The loop of vortex_exit_ctx (src/vortex.c:1253-1272), with ref_mutex held. *)
Definition loop (s : xst) (t : nat) (r : bool) (i : nat) : outcome xst :=
  match x_clean s with
  | None => UB
  | Some l =>
      match nth_error l i with
      | Some f => Ok (see (goto s t (PCall r i f)) (OCall f))
      | None => Ok (see (goto (put_clean s None) t (PEnd r)) OCleaned)
      end
  end.

(** The beginning of an operation: nothing is done with a NULL pointer. *)
Definition start (s : xst) (t : nat) (o : op) : outcome xst :=
  if match nth_error (x_thr s) t with Some x => negb (t_ptr x) | None => true end then Ok s
  else if negb (x_mem s) then UB
  else match o with
  | OpRef => Ok (ref2 s t)
  | OpUnref => Ok (unref_start s t)
  | OpFree => Ok (goto s t PDrop)
  | OpExit r => Ok (if x_exit s then s else goto s t (PGate r))       (* vortex.c:1160 *)
  | OpInstall f => Ok (install s f)
  | OpRemove f => Ok (remove s f)
  end.

(** The next step of a thread. *)
Definition step_thread (s : xst) (t : nat) (p : pc) : outcome xst :=
  match p with
  | PIdle => Ok s
  | _ =>
    if negb (x_mem s) then UB
    else match p with
    | PIdle => Ok s
    | PGate r =>
        match x_emx s with MGone => UB | MHeld _ => Ok s | MFree => Ok (goto (put_emx s (MHeld t)) t (PInside r)) end
    | PInside r =>
        if x_exit s then Ok (goto (put_emx s MFree) t PIdle)
        else Ok (goto s t (PSet r))
    | PSet r => Ok (goto (put_emx (put_exit s true) MFree) t (PStop r))
    | PStop r => Ok (see (goto s t (PLast r)) (OStop t))
    | PLast r =>
        match x_emx s with MGone => UB | MHeld _ => Ok s | MFree => Ok (goto s t (PDestroy r)) end
    | PDestroy r =>
        match x_emx s with MFree => Ok (goto (put_emx s MGone) t (PClean r)) | _ => UB end
    | PClean r => match x_clean s with None => Ok (see (goto s t (PEnd r)) OCleaned) | Some _ => loop s t r 0 end
    | PCall r i _ => loop s t r (S i)
    | PEnd r => if r then Ok (free2 s t false) else Ok (goto s t PIdle)
    | PUnref last => Ok (free2 s t last)
    | PDrop => Ok (free2 s t false)
    | PDealloc last => dealloc s t last
    end
  end.

Inductive xev :=
| EStart (t : nat) (o : op)       (* the thread calls a function, if it is not in one *)
| ERun (t : nat)                  (* it does its next step *)
| EGive (t u : nat)               (* a thread gives one of its references to another *)
| EAct (t : nat) (o : op).        (* a cleanup calls a function of one step *)

Definition pc_of (s : xst) (t : nat) : option pc := option_map t_pc (nth_error (x_thr s) t).
Definition own_of (s : xst) (t : nat) : Z := match nth_error (x_thr s) t with Some x => t_own x | None => 0 end.
Definition simple (o : op) : bool := match o with OpRef | OpInstall _ | OpRemove _ => true | _ => false end.
Definition xstep (s : xst) (e : xev) : outcome xst :=
  match e with
  | EStart t o => match pc_of s t with Some PIdle => start s t o | _ => Ok s end
  | ERun t => match pc_of s t with Some p => step_thread s t p | None => Ok s end
  | EGive t u =>
      match pc_of s t, pc_of s u with
      | Some PIdle, Some PIdle =>
          Ok (upd (upd s t (fun x => set_own (t_own x - 1) x)) u (fun x => mkT (t_pc x) (t_own x + 1) true))
      | _, _ => Ok s
      end
  | EAct t o => match pc_of s t with Some (PCall _ _ _) => if simple o then start s t o else Ok s | _ => Ok s end
  end.
Fixpoint xrun (s : xst) (es : list xev) : outcome xst :=
  match es with [] => Ok s | e :: r => let! s' := xstep s e in xrun s' r end.
