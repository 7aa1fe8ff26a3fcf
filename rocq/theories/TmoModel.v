(** The timeouts an application configures: vortex_connection_timeout
    (src/vortex_connection.c 3137-3163), vortex_connection_connect_timeout (3189-3215),
    vortex_connection_get_timeout (3226-3260), vortex_connection_get_connect_timeout
    (3272-3288) and the environment they use (src/vortex_support.c 600-629, 683-724).

    The environment belongs to the process: all the contexts share it.  A context is
    its number; a number no context has is undefined behaviour.  setenv never fails
    and is taken as one step, as getenv is: POSIX does not allow them to race. *)
From Verif Require Import Base HdrModel RpcModel.

(** What "%ld" writes (3151, 3203). *)
Definition show_ld (v : Z) : bytes := if v <? 0 then 45 :: digits_of 20 (- v) [] else digits_of 20 v [].
(** vortex_support_getenv_int (support 600-610): the long of strtol becomes an int. *)
Definition getenv_int (e : option bytes) : Z :=
  match e with None => 0 | Some s => s32 (fst (strtol s)) end.
(** The variable once a value was configured (3146-3154, 3198-3206):
    vortex_support_unsetenv leaves an empty text (support 718-721). *)
Definition configured (v : Z) : option bytes := if v =? 0 then Some [] else Some (show_ld v).

(** connection_std_timeout, connection_timeout_checked and the same of the connect. *)
Record tctx := mkT { t_std : Z; t_checked : bool; t_cstd : Z; t_cchecked : bool }.
(** vortex_connection_init (7162): the rest is zero. *)
Definition fresh_ctx : tctx := mkT 60000000 false 0 false.
(** VORTEX_SYNC_TIMEOUT, VORTEX_CONNECT_TIMEOUT and the contexts. *)
Record world := mkW { w_env : option bytes; w_cenv : option bytes; w_ctxs : list tctx }.
Definition ctx_of (w : world) (c : nat) : outcome tctx :=
  match nth_error (w_ctxs w) c with Some t => Ok t | None => UB end.
Definition put_ctx (w : world) (c : nat) (t : tctx) : world := mkW (w_env w) (w_cenv w) (upd_nth (w_ctxs w) c t).

(** * The steps *)

(** vortex_connection_timeout: the variable (3146-3154), then the flag (3158-3160). *)
Definition set_env (w : world) (v : Z) : world := mkW (configured v) (w_cenv w) (w_ctxs w).
Definition set_flag (w : world) (c : nat) : outcome world :=
  let! t := ctx_of w c in Ok (put_ctx w c (mkT (t_std t) false (t_cstd t) (t_cchecked t))).
(** vortex_connection_connect_timeout. *)
Definition cset_env (w : world) (v : Z) : world := mkW (w_env w) (configured v) (w_ctxs w).
Definition cset_flag (w : world) (c : nat) : outcome world :=
  let! t := ctx_of w c in Ok (put_ctx w c (mkT (t_std t) (t_checked t) (t_cstd t) false)).

(** vortex_connection_get_timeout: the read without the mutex (3239). *)
Definition get_read (w : world) (c : nat) : outcome Z := let! t := ctx_of w c in Ok (t_std t).
(** The rest, with the mutex (3242-3256), for what was read. *)
Definition get_lock (w : world) (c : nat) (d : Z) : outcome (world * Z) :=
  let! t := ctx_of w c in
  let d := if t_checked t then d else getenv_int (w_env w) in
  if d =? 0 then Ok (put_ctx w c (mkT (t_std t) true (t_cstd t) (t_cchecked t)), t_std t)
  else Ok (put_ctx w c (mkT d true (t_cstd t) (t_cchecked t)), d).
(** vortex_connection_get_connect_timeout (3281-3287), taken as one step. *)
Definition cget (w : world) (c : nat) : outcome (world * Z) :=
  let! t := ctx_of w c in
  if t_cchecked t then Ok (w, t_cstd t)
  else let d := getenv_int (w_cenv w) in Ok (put_ctx w c (mkT (t_std t) (t_checked t) d true), d).

(** * One thread *)
Inductive call := CNew | CSet (c : nat) (v : Z) | CGet (c : nat) | CCSet (c : nat) (v : Z) | CCGet (c : nat).
Definition do_call (w : world) (k : call) : outcome (world * option Z) :=
  match k with
  | CNew => Ok (mkW (w_env w) (w_cenv w) (w_ctxs w ++ [fresh_ctx]), None)
  | CSet c v => let! w := set_flag (set_env w v) c in Ok (w, None)
  | CCSet c v => let! w := cset_flag (cset_env w v) c in Ok (w, None)
  | CGet c => let! d := get_read w c in let! (w, r) := get_lock w c d in Ok (w, Some r)
  | CCGet c => let! (w, r) := cget w c in Ok (w, Some r)
  end.
(** The values the calls return. *)
Fixpoint do_calls (w : world) (l : list call) : outcome (world * list (option Z)) :=
  match l with
  | [] => Ok (w, [])
  | k :: r => let! (w, x) := do_call w k in let! (w, xs) := do_calls w r in Ok (w, x :: xs)
  end.

(** * Any number of threads: the calls of vortex_connection_timeout and of
    vortex_connection_get_timeout under way, each its context; and for the second
    what it read, then what it returned. *)
Inductive running := RSet (c : nat) | RGet (c : nat) (d : Z) | RSetDone (c : nat) | RGot (c : nat) (r : Z).
Record conc := mkC { n_w : world; n_runs : list running }.
Inductive event := EBeginSet (c : nat) (v : Z) | EBeginGet (c : nat) | EEnd (i : nat).
Definition nstep (s : conc) (e : event) : outcome conc :=
  match e with
  | EBeginSet c v => let! _ := ctx_of (n_w s) c in Ok (mkC (set_env (n_w s) v) (n_runs s ++ [RSet c]))
  | EBeginGet c => let! d := get_read (n_w s) c in Ok (mkC (n_w s) (n_runs s ++ [RGet c d]))
  | EEnd i =>
      match nth_error (n_runs s) i with
      | Some (RSet c) => let! w := set_flag (n_w s) c in Ok (mkC w (upd_nth (n_runs s) i (RSetDone c)))
      | Some (RGet c d) => let! (w, r) := get_lock (n_w s) c d in Ok (mkC w (upd_nth (n_runs s) i (RGot c r)))
      | _ => Ok s
      end
  end.
Fixpoint nrun (s : conc) (l : list event) : outcome conc :=
  match l with [] => Ok s | e :: r => let! s := nstep s e in nrun s r end.
