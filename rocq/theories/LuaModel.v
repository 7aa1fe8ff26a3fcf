(** The Lua bindings (lua-vortex/src): the check of the parameters, the queues, the lock that lets one
    thread at a time run Lua, the descriptor that tells that a handler waits, the stacks the handlers run
    on, the references to connections, and the names of the SASL mechanisms.

    The Lua library is not in the repository: its stack, its registry of references (luaL_ref) and its
    type tests are modelled as its manual describes them.  Memory is never exhausted. *)
From Coq Require Import String.
From Verif Require Import Base GreetModel HdrModel.
Open Scope list_scope.
Open Scope Z_scope.

(** * 1. Values *)

(** The objects of the bindings: the string stored as "vortex.type" in their metatable. *)
Inductive vtype := VCtx | VConn | VChan | VFrame | VPool | VQueue.
Definition vtype_eqb (a b : vtype) : bool :=
  match a, b with
  | VCtx, VCtx | VConn, VConn | VChan, VChan | VFrame, VFrame | VPool, VPool | VQueue, VQueue => true
  | _, _ => false
  end.
Inductive lv :=
| LNil | LBool (b : bool) | LNum (z : Z) | LStr (s : bytes) | LFun (p : Z) | LTab (p : Z) | LThr (p : Z)
| LLight (p : Z) | LObj (t : vtype) (p : Z).

(** A string that Lua reads as a number: decimal digits only (signs, fractions and hexadecimal are left
    out). *)
Definition numeric (s : bytes) : bool :=
  match s with [] => false | _ => forallb (fun c => (48 <=? c) && (c <=? 57)) s end.
(** lua_isstring and lua_isnumber: a number is also a string, and a numeric string a number. *)
Definition is_string (v : lv) : bool := match v with LStr _ | LNum _ => true | _ => false end.
Definition is_number (v : lv) : bool := match v with LNum _ => true | LStr s => numeric s | _ => false end.
Definition is_function (v : lv) : bool := match v with LFun _ => true | _ => false end.
Definition is_nil (v : lv) : bool := match v with LNil => true | _ => false end.
Definition is_boolean (v : lv) : bool := match v with LBool _ => true | _ => false end.

(** * 2. The check of the parameters *)

(** What a call of a function of the bindings finds: the parameters accepted, an error raised in the
    script, or nothing at all: the function returns without value and without error. *)
Inductive ck := CkOk | CkErr | CkQuiet.

(** lua_vortex_ctx_check_internal (lua-vortex-ctx.c 403-433) and the same function of the other objects
    (lua-vortex-connection.c 826, -channel.c 560, -frame.c 208, -channelpool.c 294): an error without a
    metatable or without type, false for another type. *)
Definition check_object (t : vtype) (v : lv) : ck :=
  match v with LObj t' _ => if vtype_eqb t' t then CkOk else CkQuiet | _ => CkErr end.
Definition raise_unless (b : bool) : ck := if b then CkOk else CkErr.

(** The switch of lua_vortex_check_params (lua-vortex.c 388-473): 'q' has no case. *)
Definition check_one (c : Z) (v : lv) : ck :=
  if c =? 116 (* t *) then check_object VCtx v
  else if c =? 111 (* o *) then check_object VConn v
  else if c =? 99 (* c *) then check_object VChan v
  else if c =? 114 (* r *) then check_object VFrame v
  else if c =? 108 (* l *) then check_object VPool v
  else if c =? 102 (* f *) then raise_unless (is_function v)
  else if c =? 103 (* g *) then raise_unless (is_function v || is_nil v)
  else if c =? 115 (* s *) then raise_unless (is_string v)
  else if c =? 122 (* z *) then raise_unless (is_string v || is_nil v)
  else if c =? 105 (* i *) then raise_unless (is_number v)
  else if c =? 98 (* b *) then raise_unless (is_boolean v)
  else CkOk.
Definition BAR : Z := 124.

(** The parameters before '|' (lua-vortex.c 371-383). *)
Fixpoint expected (spec : bytes) : Z :=
  match spec with [] => 0 | c :: r => if c =? BAR then 0 else 1 + expected r end.

(** The parameter at a position of the stack, from 1; past the last one, nil stands for none. *)
Definition arg (args : list lv) (pos : Z) : lv := nth (Z.to_nat (pos - 1)) args LNil.

(** The loop (385-477): the characters of the description are counted with '|' among them. *)
Fixpoint check_loop (spec : bytes) (args : list lv) (it desp : Z) (oblig : bool) : ck * bool :=
  match spec with
  | [] => (CkOk, oblig)
  | c :: r =>
    if it <? zlen args then
      if c =? BAR then check_loop r args (it + 1) (desp - 1) false
      else match check_one c (arg args (it + desp)) with
           | CkOk => check_loop r args (it + 1) desp oblig
           | e => (e, oblig)
           end
    else (CkOk, oblig)
  end.
(** lua_vortex_check_params (lua-vortex.c 362-494). *)
Definition check_params (spec : bytes) (args : list lv) : ck :=
  match check_loop spec args 0 1 true with
  | (CkOk, true) => if zlen args =? expected spec then CkOk else CkErr
  | (CkOk, false) => CkOk
  | (e, _) => e
  end.

(** * 3. The queues *)

(** LuaVortexObject (lua-vortex-object.c 39-48): the type and the reference. *)
Inductive ltype := TyNil | TyBool | TyRef.
Definition ltype_of (v : lv) : ltype :=
  match v with LNil => TyNil | LBool _ => TyBool | _ => TyRef end.
Record lobj := mkobj { o_type : ltype; o_ref : nat }.
(** A queue: the values referenced from its metatable, and the objects queued. *)
Record lq := mklq { q_refs : list (option lv); q_items : list lobj }.
Definition q_new : lq := mklq [] [].

(** luaL_ref: a place that is not in use. *)
Fixpoint free_place (l : list (option lv)) : nat :=
  match l with [] => 0%nat | None :: _ => 0%nat | Some _ :: r => S (free_place r) end.
Definition lref (l : list (option lv)) (v : lv) : list (option lv) * nat :=
  let p := free_place l in
  (if (p <? length l)%nat then upd_nth l p (Some v) else l ++ [Some v], p).
(** luaL_unref. *)
Definition lunref (l : list (option lv)) (p : nat) : list (option lv) := upd_nth l p None.

(** lua_vortex_object_new_from_stack (lua-vortex-object.c 52-101): booleans fall in the default, "never
    reached"; the reference of an object allocated is 0. *)
Definition obj_new (l : list (option lv)) (v : lv) : list (option lv) * lobj :=
  match ltype_of v with
  | TyNil => (l, mkobj TyNil 0)
  | TyBool => (l, mkobj TyBool 0)
  | TyRef => let (l', p) := lref l v in (l', mkobj TyRef p)
  end.
(** lua_vortex_object_push (109-144): what is pushed, if anything. *)
Definition obj_push (l : list (option lv)) (o : lobj) : option lv :=
  match o_type o with
  | TyNil => Some LNil
  | TyBool => None
  | TyRef => match nth_error l (o_ref o) with Some (Some v) => Some v | _ => Some LNil end
  end.
(** lua_vortex_object_unref (152-187). *)
Definition obj_unref (l : list (option lv)) (o : lobj) : list (option lv) :=
  match o_type o with TyRef => lunref l (o_ref o) | _ => l end.

(** lua_vortex_asyncqueue_push (lua-vortex-asyncqueue.c 80-106). *)
Definition q_push (q : lq) (v : lv) : lq :=
  let (l, o) := obj_new (q_refs q) v in mklq l (q_items q ++ [o]).
(** lua_vortex_asyncqueue_pop (108-146) and timedpop (148-189): one value is returned, that on the top of
    the stack, which holds the parameters of the call ([stack], the queue first) and what was pushed.
    None: it waits. *)
Definition q_pop (q : lq) (stack : list lv) : option (lv * lq) :=
  match q_items q with
  | [] => None
  | o :: r =>
    let v := match obj_push (q_refs q) o with Some v => v | None => last stack LNil end in
    Some (v, mklq (obj_unref (q_refs q) o) r)
  end.
(** lua_vortex_asyncqueue_gc (41-64): the objects queued are released. *)
Definition q_gc (q : lq) : lq :=
  mklq (fold_left obj_unref (q_items q) (q_refs q)) [].

(** * 4. The lock *)

(** A thread: outside of Lua, running Lua for a handler that was registered with a lua state, waiting in a
    call of the bindings that leaves the lock meanwhile, or in vortex.wait_listeners. *)
Inductive lth := TIdle | TLua (l : Z) | TBlocked (l : Z) | TListen (l : Z).
(** The thread 0 is the main one, which runs on the main state, 0.  Another thread runs its handlers on a
    state of its own, made by lua_vortex_create_thread (lua-vortex.c 570-638), with the number of the
    thread.  [w_lock]: the hash of the locks, by lua state: none, or who holds the mutex.  [w_regs]: the
    states recorded in the references of the handlers (lua_vortex_ref, 649-664: ref->L = L). *)
Record lw := mklw { w_lock : Z -> option (option Z); w_th : Z -> lth; w_regs : list Z }.
Definition state_of (t : Z) : Z := t.
Definition set_lock (w : lw) (l : Z) (o : option Z) : lw :=
  mklw (fun l' => if l' =? l then Some o else w_lock w l') (w_th w) (w_regs w).
Definition set_th (w : lw) (t : Z) (s : lth) : lw :=
  mklw (w_lock w) (fun t' => if t' =? t then s else w_th w t') (w_regs w).
(** lua_vortex_lock_get and lua_vortex_lock (lua-vortex.c 797-845): the lock of the state, made when there
    is none.  None: held by a thread. *)
Definition lock (w : lw) (t l : Z) : option lw :=
  match w_lock w l with
  | None | Some None => Some (set_lock w l (Some t))
  | Some (Some _) => None
  end.
(** lua_vortex_unlock (851-882): nothing without a lock; a mutex unlocked by a thread that does not hold
    it is undefined. *)
Definition unlock (w : lw) (t l : Z) : outcome lw :=
  match w_lock w l with
  | None => Ok w
  | Some (Some t') => if t' =? t then Ok (set_lock w l None) else UB
  | Some None => UB
  end.

(** Events: a handler starts in a thread, ends; a call that waits (lua_vortex_asyncqueue_pop,
    lua-vortex-asyncqueue.c 127-135) starts, ends; a handler is registered by the thread;
    vortex.wait_listeners (lua-vortex.c 1140-1171) starts, ends.  An event that cannot happen leaves all
    as it is. *)
Inductive lev :=
| ECall (t l : Z) | ERet (t : Z) | EWait (t : Z) | EWake (t : Z) | EReg (t : Z)
| EListen (t : Z) | EListened (t : Z).
Definition lstep (w : lw) (e : lev) : outcome lw :=
  match e with
  | ECall t l =>
    match w_th w t with
    | TIdle =>
      if (0 <? t) && existsb (Z.eqb l) (w_regs w) then
        match lock w t l with Some w' => Ok (set_th w' t (TLua l)) | None => Ok w end
      else Ok w
    | _ => Ok w
    end
  | ERet t =>
    match w_th w t with
    | TLua l => if 0 <? t then let! w' := unlock w t l in Ok (set_th w' t TIdle) else Ok w
    | _ => Ok w
    end
  | EWait t =>
    match w_th w t with
    | TLua l => let! w' := unlock w t (state_of t) in Ok (set_th w' t (TBlocked l))
    | _ => Ok w
    end
  | EWake t =>
    match w_th w t with
    | TBlocked l => match lock w t (state_of t) with Some w' => Ok (set_th w' t (TLua l)) | None => Ok w end
    | _ => Ok w
    end
  | EReg t =>
    match w_th w t with
    | TLua _ => Ok (mklw (w_lock w) (w_th w) (state_of t :: w_regs w))
    | _ => Ok w
    end
  | EListen t =>
    match w_th w t with
    | TLua l => let! w' := unlock w t (state_of t) in Ok (set_th w' t (TListen l))
    | _ => Ok w
    end
  | EListened t =>
    match w_th w t with TListen l => Ok (set_th w t (TLua l)) | _ => Ok w end
  end.
Fixpoint lruns (w : lw) (es : list lev) : outcome lw :=
  match es with [] => Ok w | e :: r => let! w' := lstep w e in lruns w' r end.
(** luaopen_vortex (lua-vortex.c 1213-1238): the main thread holds the lock of its state. *)
Definition lw_init : lw :=
  mklw (fun l => if l =? 0 then Some (Some 0) else None) (fun t => if t =? 0 then TLua 0 else TIdle) [].

(** * 5. The descriptor of the events *)

(** [f_pipe]: the bytes in the pipe of vortex.event_fd, when it was made; [f_wait]: the handlers that
    called to lock and have the mutex still to take; [f_in]: the handlers with the mutex; [f_out]: those
    that left the mutex and have a byte still to read. *)
Record fdw := mkfdw { f_pipe : option Z; f_wait : Z; f_in : Z; f_out : Z }.
Inductive fev := FAsk | FGet | FLeave | FRead | FOpen.
(** lua_vortex_lock (826-845) with signal: a byte, then the mutex; lua_vortex_unlock (851-882): the mutex
    left, then a byte read without waiting; lua_vortex_event_fd (951-983): the pipe is made once. *)
Definition fstep (f : fdw) (e : fev) : fdw :=
  match e with
  | FAsk => mkfdw (match f_pipe f with Some b => Some (b + 1) | None => None end) (f_wait f + 1) (f_in f) (f_out f)
  | FGet => if (0 <? f_wait f) && (f_in f =? 0) then mkfdw (f_pipe f) (f_wait f - 1) (f_in f + 1) (f_out f) else f
  | FLeave => if 0 <? f_in f then mkfdw (f_pipe f) (f_wait f) (f_in f - 1) (f_out f + 1) else f
  | FRead =>
    if 0 <? f_out f then
      mkfdw (match f_pipe f with Some b => Some (if 0 <? b then b - 1 else b) | None => None end)
            (f_wait f) (f_in f) (f_out f - 1)
    else f
  | FOpen => match f_pipe f with Some _ => f | None => mkfdw (Some 0) (f_wait f) (f_in f) (f_out f) end
  end.
Definition fd_init : fdw := mkfdw None 0 0 0.
Definition fruns (f : fdw) (es : list fev) : fdw := fold_left fstep es f.
Definition fd_readable (f : fdw) : bool := match f_pipe f with Some b => 0 <? b | None => false end.

(** The time given to select by vortex.wait_events (lua-vortex.c 992-1040). *)
Definition ev_tv (us : Z) : Z * Z :=
  if 1000000 <=? us then (us / 1000000, us - us / 1000000 * 1000000)
  else (0, if us =? 0 then 500000 else us).
(** select: a time that is not one fails, at once. *)
Definition select_on (tv : Z * Z) (ready : bool) : Z :=
  if (snd tv <? 0) || (1000000 <=? snd tv) || (fst tv <? 0) then -1 else if ready then 1 else 0.
(** vortex.wait_events: [readies], whether the descriptor got ready within each wait; None: still
    waiting. *)
Fixpoint wait_events (us : Z) (readies : list bool) : option bool :=
  match readies with
  | [] => None
  | r :: rs =>
    let res := select_on (ev_tv us) r in
    if (us =? 0) && negb (0 <? res) then wait_events us rs else Some (0 <? res)
  end.
(** What select tells of: FD_SET (lock->pipe[0]) is the standard input, 0, without a pipe. *)
Definition looked_at (f : fdw) (stdin : bool) : bool :=
  match f_pipe f with Some _ => fd_readable f | None => stdin end.

(** * 6. The stacks of the handlers *)

(** What a handler written in Lua does: it returns a value (nil when none), or fails with a message. *)
Inductive hres := HRet (v : lv) | HErr (m : bytes).
(** The calls of handlers, by where they look for the value: lua_vortex_ctx_bridge_event
    (lua-vortex-ctx.c 150-211) at the position 1 of the stack; the start handler and the TLS accept
    handler (lua-vortex-tls.c 214-281), on its top; those without a value (lua-vortex-alive.c 66-131). *)
Inductive bkind := BEvent | BTop | BVoid.
(** LUA_MINSTACK: the places a stack has without asking for more; a call uses four. *)
Definition MINSTACK : Z := 20.
Definition CALLROOM : Z := 4.
Definition as_bool (v : lv) : bool := match v with LBool b => b | _ => false end.
(** A call: the handler and its parameters are pushed, lua_pcall takes them away and leaves the value or
    the message, and nothing takes that away afterwards.  The stack is given from its bottom. *)
Definition bridge (k : bkind) (st : list lv) (r : hres) : outcome (bool * list lv) :=
  if MINSTACK <? zlen st + CALLROOM then UB
  else
    let st' := match k, r with
               | BVoid, HRet _ => st
               | _, HRet v => st ++ [v]
               | _, HErr m => st ++ [LStr m]
               end in
    Ok (match k with
        | BEvent => as_bool (nth 0 st' LNil)
        | BTop => as_bool (last st' LNil)
        | BVoid => false
        end, st').
Fixpoint bridges (st : list lv) (cs : list (bkind * hres)) : outcome (list bool * list lv) :=
  match cs with
  | [] => Ok ([], st)
  | (k, r) :: rest =>
    let! (b, st1) := bridge k st r in
    let! (bs, st2) := bridges st1 rest in
    Ok (b :: bs, st2)
  end.

(** The state of a thread: lua_vortex_create_thread (lua-vortex.c 586-624) looks in the context for the
    identifier of the thread, kept in an int, and makes a new state when there is none. *)
Fixpoint find_state (tbl : list (Z * nat)) (k : Z) : option nat :=
  match tbl with [] => None | (k', s) :: r => if k' =? k then Some s else find_state r k end.
Definition thread_state (tbl : list (Z * nat)) (tid : Z) : nat * list (Z * nat) :=
  match find_state tbl (u32 tid) with
  | Some s => (s, tbl)
  | None => (length tbl, tbl ++ [(u32 tid, length tbl)])
  end.
Definition states (tbl : list (Z * nat)) (tids : list Z) : list (Z * nat) :=
  fold_left (fun t x => snd (thread_state t x)) tids tbl.

(** * 7. Content *)

Fixpoint until_nul (s : bytes) : bytes :=
  match s with [] => [] | c :: r => if c =? NULc then [] else c :: until_nul r end.
(** lua_vortex_channel_send_msg (lua-vortex-channel.c 96-124): what is sent of a string; the string has a
    terminator after its last byte. *)
Definition lua_content (s : bytes) (size : Z) : outcome bytes :=
  if size =? -1 then Ok (until_nul s)
  else if (0 <=? size) && (size <=? zlen s + 1) then Ok (firstn (Z.to_nat size) (s ++ [NULc]))
  else UB.

(** * 8. References to a connection *)

(** A connection made by vortex.connection.new: its references, whether it works, whether it was closed
    (close_called), whether the reader has it, and the Lua objects that point to it: transient or not;
    none, collected or set to NULL. *)
Record lc := mklc { c_rc : Z; c_ok : bool; c_called : bool; c_reader : bool; c_objs : list (option bool) }.
Definition lc_new : lc := mklc 2 true false true [Some false].
Definition touch (c : lc) : outcome lc := if 0 <? c_rc c then Ok c else UB.
Definition add_rc (c : lc) (d : Z) : lc := mklc (c_rc c + d) (c_ok c) (c_called c) (c_reader c) (c_objs c).
(** vortex_connection_unref. *)
Definition unref (c : lc) : outcome lc := let! c := touch c in Ok (add_rc c (-1)).
(** vortex_connection_close (vortex_connection.c 2826-2905) of an initiator; [closes], whether all the
    channels were closed. *)
Definition conn_close (c : lc) (closes : bool) : outcome (bool * lc) :=
  let! c := touch c in
  if c_called c then Ok (true, c)
  else if c_ok c && negb closes then Ok (false, c)
  else let! c := unref (mklc (c_rc c) false true (c_reader c) (c_objs c)) in Ok (true, c).
Definition set_obj (c : lc) (i : nat) (o : option bool) : lc :=
  mklc (c_rc c) (c_ok c) (c_called c) (c_reader c) (upd_nth (c_objs c) i o).
Inductive cev :=
| CRef | CGc (i : nat) | CClose (i : nat) (closes : bool) | CTls (i : nat) | CBreak | CReader.
(** Events: a handler gets the connection, lua_vortex_connection_new_ref (lua-vortex-connection.c
    766-794); an object is collected, lua_vortex_connection_gc (41-77); vortex.connection.close (591-610);
    vortex.tls.start_tls (lua-vortex-tls.c 138-212) that ends without TLS, the connection being the same;
    the connection fails; the reader leaves it. *)
Definition cstep (c : lc) (e : cev) : outcome lc :=
  match e with
  | CRef =>
    if c_reader c then
      let! c := touch c in
      Ok (mklc (c_rc c + 1) (c_ok c) (c_called c) (c_reader c) (c_objs c ++ [Some true]))
    else Ok c
  | CGc i =>
    match nth i (c_objs c) None with
    | None => Ok c
    | Some true => let! c := unref c in Ok (set_obj c i None)
    | Some false =>
      let! c := touch c in
      let! (_, c) := conn_close (mklc (c_rc c) false (c_called c) (c_reader c) (c_objs c)) true in
      Ok (set_obj c i None)
    end
  | CClose i closes =>
    match nth i (c_objs c) None with
    | None => Ok c
    | Some _ => let! (r, c) := conn_close c closes in Ok (if r then set_obj c i None else c)
    end
  | CTls i =>
    match nth i (c_objs c) None with
    | None => Ok c
    | Some _ =>
      let! c := touch c in
      if c_ok c then
        let! c := unref (add_rc c 1) in
        let! c := unref (add_rc c 1) in
        Ok (mklc (c_rc c) (c_ok c) (c_called c) (c_reader c) (c_objs c ++ [Some false]))
      else Ok c
    end
  | CBreak => Ok (mklc (c_rc c) false (c_called c) (c_reader c) (c_objs c))
  | CReader =>
    if c_reader c && negb (c_ok c) then
      let! c := unref c in Ok (mklc (c_rc c) (c_ok c) (c_called c) false (c_objs c))
    else Ok c
  end.
Fixpoint cruns (c : lc) (es : list cev) : outcome lc :=
  match es with [] => Ok c | e :: r => let! c' := cstep c e in cruns c' r end.

(** * 9. SASL *)

Definition low (c : Z) : Z := if (65 <=? c) && (c <=? 90) then c + 32 else c.
(** axl_casecmp. *)
Definition casecmp (a b : bytes) : bool := bytes_eqb (map low a) (map low b).
Definition FAMILY : bytes := asc "http://iana.org/beep/SASL".
Definition mech (n : string) : bytes := FAMILY ++ asc "/" ++ asc n.
(** lua_vortex_sasl_normalize_profile_name (lua-vortex-sasl.c 61-90): the last comparison has no
    parameter in it. *)
Definition sasl_name (p : bytes) : option bytes :=
  if bytes_eqb (firstn 25 p) FAMILY then Some p
  else if casecmp (skipn 26 (mech "PLAIN")) p then Some (mech "PLAIN")
  else if casecmp (skipn 26 (mech "ANONYMOUS")) p then Some (mech "ANONYMOUS")
  else if casecmp (skipn 26 (mech "EXTERNAL")) p then Some (mech "EXTERNAL")
  else if casecmp (skipn 26 (mech "CRAM-MD5")) p then Some (mech "CRAM-MD5")
  else if casecmp (skipn 26 (mech "DIGEST-MD5")) p then Some (mech "DIGEST-MD5")
  else if casecmp (skipn 26 (mech "GSSAPI")) p then Some (mech "GSSAPI")
  else if casecmp (skipn 26 (mech "KERBEROS_V4")) (asc "kerberos_v4") then Some (mech "KERBEROS_V4")
  else None.

(** lua_vortex_sasl_auth_handler_bridge (lua-vortex-sasl.c 219-325): what the library gets: refused,
    accepted, or a password; [tostr], how Lua writes a number. *)
Inductive auth := ADeny | AAccept | APassword (s : bytes).
Definition auth_answer (tostr : Z -> bytes) (exiting : bool) (r : hres) : auth :=
  if exiting then ADeny
  else match r with
       | HErr _ => ADeny
       | HRet (LBool b) => if b then AAccept else ADeny
       | HRet (LStr s) => APassword s
       | HRet (LNum z) => APassword (tostr z)
       | HRet _ => ADeny
       end.
