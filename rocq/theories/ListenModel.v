(** Model of the listener side: the handlers that accept or refuse a new
    connection, the handlers notified when channels are added or removed, the
    wait and unlock of the main thread, the detection of other transports on the
    same port and the shutdown of a listener.  Source: src/vortex_listener.c and,
    for the channel handlers, src/vortex_connection.c. *)
From Coq Require Import String.
From Verif Require Import Base GreetModel.
Open Scope string_scope.
Open Scope Z_scope.
Open Scope list_scope.

(** * 1. The handlers that accept a connection *)

(** Where the thread that accepts connection [c] is: not started, running the
    handler at a position of the list, or finished. *)
Inductive apc := AIdle | ACall (pos : nat) (h : nat) | ADone.

(** What is observed: the installation of a handler, its call with a connection,
    its answer, and what is done with the connection: the greetings error 554, the
    shutdown, the greetings sent without waiting, the registration in the reader
    and the release of the reference of the caller. *)
Inductive aev :=
| LAdd (h : nat)
| LCall (c h : nat)
| LAns (c h : nat) (ok : bool)
| LError (c : nat)
| LShut (c : nat)
| LGreet (c : nat)
| LReg (c : nat)
| LUnref (c : nat).

(** [a_hs]: ctx->listener_on_accept_handlers; [a_pc]: the threads; [a_log]: the
    observations, the first one at the head of the list. *)
Record ast := mkA { a_hs : list nat; a_pc : nat -> apc; a_log : list aev }.

Definition set_pc (f : nat -> apc) (c : nat) (p : apc) : nat -> apc :=
  fun x => if Nat.eqb x c then p else f x.

(** What the context knows about the connection when the handlers finish:
    [f_ok] vortex_connection_is_ok; [f_preread] a preread handler is defined;
    [f_now] the listener has "vo:li:send-greetings". *)
Record aflags := mkF { f_ok : bool; f_preread : bool; f_now : bool }.

(** The end of vortex_listener_accept_connection when all the handlers agree:
    the greetings, the registration (vortex_listener_complete_register, 196-222)
    and the reference (src/vortex_listener.c:171-190). *)
Definition accept_end (c : nat) (f : aflags) : list aev :=
  (if negb (f_preread f) && f_now f then [LGreet c] else []) ++ [LReg c; LUnref c].

(** The end when one refuses (src/vortex_listener.c:150-169). *)
Definition refuse_end (c : nat) (f : aflags) : list aev :=
  (if f_ok f then [LError c] else []) ++ [LShut c; LUnref c].

(** The test of the loop and the copy of the handler, with the mutex held
    (src/vortex_listener.c:104-119): what thread [c] does at position [i]. *)
Definition accept_at (s : ast) (c : nat) (i : nat) (f : aflags) : ast :=
  match nth_error (a_hs s) i with
  | Some h => mkA (a_hs s) (set_pc (a_pc s) c (ACall i h)) (a_log s ++ [LCall c h])
  | None => mkA (a_hs s) (set_pc (a_pc s) c ADone) (a_log s ++ accept_end c f)
  end.

Inductive aop :=
| OAdd (h : option nat)                     (* vortex_listener_set_on_connection_accepted *)
| OStart (c : nat) (f : aflags)             (* vortex_listener_accept_connection *)
| OAns (c : nat) (ok : bool) (f : aflags).  (* the running handler returns *)

(** vortex_listener_set_on_connection_accepted (src/vortex_listener.c:1613-1660;
    a NULL handler is ignored, 1620-1621) and the loop of
    vortex_listener_accept_connection (src/vortex_listener.c:101-148). *)
Definition astep (s : ast) (o : aop) : ast :=
  match o with
  | OAdd None => s
  | OAdd (Some h) => mkA (a_hs s ++ [h]) (a_pc s) (a_log s ++ [LAdd h])
  | OStart c f => match a_pc s c with AIdle => accept_at s c 0%nat f | _ => s end
  | OAns c ok f =>
    match a_pc s c with
    | ACall i h =>
      let s1 := mkA (a_hs s) (a_pc s) (a_log s ++ [LAns c h ok]) in
      if ok then accept_at s1 c (S i) f
      else mkA (a_hs s1) (set_pc (a_pc s1) c ADone) (a_log s1 ++ refuse_end c f)
    | _ => s
    end
  end.

Definition ainit : ast := mkA [] (fun _ => AIdle) [].
Definition arun (ops : list aop) : ast := fold_left astep ops ainit.

(** * 2. The handlers notified when a channel is added or removed *)

(** One of the two lists of a connection.  A handler is the pointer returned by
    vortex_connection_set_channel_added_handler (or _removed_); every addition
    gives a new one.  Notifications are numbered. *)
Inductive npc := NIdle | NCall (pos : nat) (h : nat) | NDone.
Inductive nev :=
| VAdd (h : nat)           (* the handler was installed *)
| VRem (h : nat)           (* vortex_connection_remove_handler returned *)
| VGlobal (n : nat)        (* the global handler was called *)
| VStart (n : nat)
| VCall (n h : nat)        (* the handler was called *)
| VEnd (n : nat).          (* the notification ended *)
(** [n_copy]: the handler was copied and the mutex released, but it was not called yet. *)
Record nst := mkN { n_next : nat; n_hs : list nat; n_pc : nat -> npc; n_copy : nat -> bool; n_log : list nev }.

Definition set_npc (f : nat -> npc) (c : nat) (p : npc) : nat -> npc :=
  fun x => if Nat.eqb x c then p else f x.
Definition set_copy (f : nat -> bool) (c : nat) (b : bool) : nat -> bool :=
  fun x => if Nat.eqb x c then b else f x.

(** axl_list_remove_ptr: removes the item with that pointer, if present. *)
Fixpoint remove_ptr (h : nat) (l : list nat) : list nat :=
  match l with
  | [] => []
  | x :: r => if Nat.eqb x h then r else x :: remove_ptr h r
  end.

(** The loop test and the copy of the handler (src/vortex_connection.c:2609-2628). *)
Definition notify_at (s : nst) (n i : nat) : nst :=
  match nth_error (n_hs s) i with
  | Some h => mkN (n_next s) (n_hs s) (set_npc (n_pc s) n (NCall i h)) (set_copy (n_copy s) n true) (n_log s)
  | None => mkN (n_next s) (n_hs s) (set_npc (n_pc s) n NDone) (n_copy s) (n_log s ++ [VEnd n])
  end.

Inductive nop :=
| QAdd (valid : bool)      (* set_channel_added_handler; valid: handler and connection not NULL *)
| QRem (h : nat)           (* vortex_connection_remove_handler *)
| QStart (n : nat) (zero : bool) (global : bool) (* check_and_notify; zero: channel 0 *)
| QCall (n : nat)          (* the copied handler is called *)
| QRet (n : nat).          (* it returns *)

(** vortex_connection_set_channel_added_handler (src/vortex_connection.c:5226-5268),
    vortex_connection_remove_handler (5355-5391) and
    __vortex_connection_check_and_notify (2564-2647). *)
Definition nstep (s : nst) (o : nop) : nst :=
  match o with
  | QAdd false => s
  | QAdd true => mkN (S (n_next s)) (n_hs s ++ [n_next s]) (n_pc s) (n_copy s) (n_log s ++ [VAdd (n_next s)])
  | QRem h => mkN (n_next s) (remove_ptr h (n_hs s)) (n_pc s) (n_copy s) (n_log s ++ [VRem h])
  | QStart n zero global =>
    match n_pc s n with
    | NIdle =>
      notify_at (mkN (n_next s) (n_hs s) (n_pc s) (n_copy s)
                     (n_log s ++ (if negb zero && global then [VGlobal n] else []) ++ [VStart n])) n 0%nat
    | _ => s
    end
  | QCall n =>
    match n_pc s n with
    | NCall i h => if n_copy s n
                   then mkN (n_next s) (n_hs s) (n_pc s) (set_copy (n_copy s) n false) (n_log s ++ [VCall n h])
                   else s
    | _ => s
    end
  | QRet n =>
    match n_pc s n with
    | NCall i h => if n_copy s n then s else notify_at s n (S i)
    | _ => s
    end
  end.

Definition ninit : nst := mkN 0 [] (fun _ => NIdle) (fun _ => false) [].
Definition nrun (ops : list nop) : nst := fold_left nstep ops ninit.

(** * 3. vortex_listener_wait and vortex_listener_unlock *)

(** Every step is one access to the shared state: the two functions take
    different mutexes (listener_mutex and listener_unlock), so that their
    critical sections exclude neither each other nor the accesses without mutex.
    [WTest]: in vortex_listener_wait, the skip flag was seen clear and the queue is
    to be created (src/vortex_listener.c:1419-1421); [WCheck]: the mutex was
    released, the pointer is to be tested (1428); [WRead]: it was not NULL, it is
    to be copied (1430); [WPop q]: about to pop (1433); [WBlock q]: inside the pop,
    counted as a waiter; [WUnref q]: got the item (1436); [WOut]: returned. *)
Inductive wpc := WIdle | WTest | WCheck | WRead | WPop (q : option nat) | WBlock (q : nat) | WUnref (q : option nat) | WOut.

(** In vortex_listener_unlock: [UPick q]: the pointer was not NULL and the number of
    waiters is to be asked (1456-1462); [UPush q] / [UFree q]: some or none was seen
    (1463, 1466); [UNull]: the pointer is to be cleared (1470); [USkip]: it was NULL,
    the flag is to be set (1478). *)
Inductive upc := UIdle | UPick | UPush | UFree | UNull | USkip | UOut.

(** A queue: items, waiters, references; freed when the references drop to 0. *)
Record wq := mkQ { q_items : nat; q_wait : nat; q_live : bool }.

(** [w_lock]: ctx->listener_wait_lock; [w_skip]: "vo:listener:skip:wait"; [w_qs]:
    the queues created; [w_m1]: who is inside listener_mutex; [w_m2]: inside listener_unlock. *)
Record wst := mkW { w_lock : option nat; w_skip : bool; w_qs : list wq;
                    w_m1 : option nat; w_m2 : option nat;
                    w_pc : nat -> wpc; u_pc : nat -> upc }.

Definition wset {A} (f : nat -> A) (c : nat) (p : A) : nat -> A :=
  fun x => if Nat.eqb x c then p else f x.

Fixpoint upd {A} (l : list A) (n : nat) (x : A) : list A :=
  match l, n with
  | [], _ => []
  | _ :: r, O => x :: r
  | y :: r, S k => y :: upd r k x
  end.

(** Use of a queue: undefined behaviour if it was freed. *)
Definition with_q (s : wst) (q : nat) (k : wq -> wst) : outcome wst :=
  match nth_error (w_qs s) q with
  | Some x => if q_live x then Ok (k x) else UB
  | None => UB
  end.
Definition set_q (s : wst) (q : nat) (x : wq) : wst :=
  mkW (w_lock s) (w_skip s) (upd (w_qs s) q x) (w_m1 s) (w_m2 s) (w_pc s) (u_pc s).
Definition set_wpc (s : wst) (t : nat) (p : wpc) : wst :=
  mkW (w_lock s) (w_skip s) (w_qs s) (w_m1 s) (w_m2 s) (wset (w_pc s) t p) (u_pc s).
Definition set_upc (s : wst) (t : nat) (p : upc) : wst :=
  mkW (w_lock s) (w_skip s) (w_qs s) (w_m1 s) (w_m2 s) (w_pc s) (wset (u_pc s) t p).
Definition set_m1 (s : wst) (m : option nat) : wst :=
  mkW (w_lock s) (w_skip s) (w_qs s) m (w_m2 s) (w_pc s) (u_pc s).
Definition set_m2 (s : wst) (m : option nat) : wst :=
  mkW (w_lock s) (w_skip s) (w_qs s) (w_m1 s) m (w_pc s) (u_pc s).
Definition set_lock (s : wst) (l : option nat) : wst :=
  mkW l (w_skip s) (w_qs s) (w_m1 s) (w_m2 s) (w_pc s) (u_pc s).
Definition set_skip (s : wst) : wst :=
  mkW (w_lock s) true (w_qs s) (w_m1 s) (w_m2 s) (w_pc s) (u_pc s).

(** One step of thread [t] in vortex_listener_wait (src/vortex_listener.c:1399-1441).
    A step that cannot be done (the mutex is taken, the queue is empty) leaves the
    state as it is: the thread is blocked. *)
Definition wait_step (s : wst) (t : nat) : outcome wst :=
  match w_pc s t with
  | WIdle =>
    match w_m1 s with
    | Some _ => Ok s
    | None => if w_skip s then Ok (set_wpc s t WOut)
              else Ok (set_m1 (set_wpc s t WTest) (Some t))
    end
  | WTest =>
    let s1 := set_m1 (set_wpc s t WCheck) None in
    match w_lock s with
    | Some _ => Ok s1
    | None => Ok (set_lock (mkW (w_lock s1) (w_skip s1) (w_qs s1 ++ [mkQ 0 0 true]) (w_m1 s1) (w_m2 s1) (w_pc s1) (u_pc s1))
                           (Some (length (w_qs s))))
    end
  | WCheck =>
    match w_lock s with
    | Some _ => Ok (set_wpc s t WRead)
    | None => Ok (set_wpc s t WOut)
    end
  | WRead => Ok (set_wpc s t (WPop (w_lock s)))
  | WPop None => Ok (set_wpc s t (WUnref None))   (* pop (NULL) returns at once (src/vortex_thread.c:1164) *)
  | WPop (Some q) =>
    with_q s q (fun x => set_wpc (set_q s q (mkQ (q_items x) (S (q_wait x)) true)) t (WBlock q))
  | WBlock q =>
    with_q s q (fun x => match q_items x with
                         | O => s
                         | S k => set_wpc (set_q s q (mkQ k (pred (q_wait x)) true)) t (WUnref (Some q))
                         end)
  | WUnref None => Ok (set_wpc s t WOut)          (* unref (NULL) does nothing *)
  | WUnref (Some q) =>
    with_q s q (fun x => set_wpc (set_q s q (mkQ (q_items x) (q_wait x) false)) t WOut)
  | WOut => Ok s
  end.

(** One step of thread [t] in vortex_listener_unlock (src/vortex_listener.c:1448-1484). *)
Definition unlock_step (s : wst) (t : nat) : outcome wst :=
  match u_pc s t with
  | UIdle =>
    match w_m2 s with
    | Some _ => Ok s
    | None =>
      match w_lock s with
      | Some _ => Ok (set_m2 (set_upc s t UPick) (Some t))
      | None => Ok (set_m2 (set_upc s t USkip) (Some t))
      end
    end
  | UPick =>
    match w_lock s with
    | Some q => with_q s q (fun x => set_upc s t (match q_wait x with O => UFree | S _ => UPush end))
    | None => Ok (set_upc s t UFree) (* waiters (NULL) is -1 (src/vortex_thread.c:1326) *)
    end
  | UPush =>
    match w_lock s with
    | Some q => with_q s q (fun x => set_upc (set_q s q (mkQ (S (q_items x)) (q_wait x) true)) t UNull)
    | None => Ok (set_upc s t UNull)
    end
  | UFree =>
    match w_lock s with
    | Some q => with_q s q (fun x => set_upc (set_q s q (mkQ (q_items x) (q_wait x) false)) t UNull)
    | None => Ok (set_upc s t UNull)
    end
  | UNull => Ok (set_m2 (set_upc (set_lock s None) t UOut) None)
  | USkip => Ok (set_m2 (set_upc (set_skip s) t UOut) None)
  | UOut => Ok s
  end.

Inductive wop := SWait (t : nat) | SUnlock (t : nat).
Definition wstep (s : wst) (o : wop) : outcome wst :=
  match o with SWait t => wait_step s t | SUnlock t => unlock_step s t end.
Fixpoint wrun (s : wst) (ops : list wop) : outcome wst :=
  match ops with
  | [] => Ok s
  | o :: r => let! s' := wstep s o in wrun s' r
  end.
Definition winit : wst := mkW None false [] None None (fun _ => WIdle) (fun _ => UIdle).

(** * 4. Port sharing *)

(** A handler as installed (src/vortex_listener.c:1665-1747). *)
Record pshare := mkP { p_addr : option bytes; p_port : option bytes; p_id : nat }.
Inductive role := RoleInitiator | RoleListener | RoleMaster.

(** What matters of the connection: its role and its local address and port. *)
Record pconn := mkPN { pn_role : role; pn_addr : bytes; pn_port : bytes }.

(** A call of a handler: which one and the bytes it was given. *)
Record pcall := mkPC { pc_id : nat; pc_bytes : bytes }.

(** The loop over the handlers (src/vortex_listener.c:2077-2099): [ans] is what each
    handler returns for these bytes.  The result: the calls, whether the transport was
    detected and whether the connection was shut down. *)
Fixpoint share_loop (hs : list pshare) (ans : nat -> bytes -> Z) (buf : bytes) : list pcall * bool * bool :=
  match hs with
  | [] => ([], false, false)
  | h :: r =>
    let c := mkPC (p_id h) buf in
    if ans (p_id h) buf =? 2 then ([c], true, false)
    else if ans (p_id h) buf =? -1 then ([c], false, true)
    else let '(cs, d, x) := share_loop r ans buf in (c :: cs, d, x)
  end.

(** __vortex_listener_check_port_sharing (src/vortex_listener.c:2027-2106).  [inst]:
    the list of handlers, None if none was ever installed; [peek]: what the socket
    has, at most 4 bytes being looked at.  The address and the port of the handler are
    stored when it is installed (1724-1728) and never looked at.  The function always answers that the
    connection is ready. *)
Definition check_share (cn : pconn) (inst : option (list pshare)) (ans : nat -> bytes -> Z)
    (detected : bool) (peek : bytes) : list pcall * bool * bool :=
  match pn_role cn with
  | RoleListener =>
    match inst with
    | None => ([], detected, false)
    | Some hs =>
      if detected then ([], true, false)
      else if negb (zlen (firstn 4 peek) =? 4) then ([], false, false)
      else if bytes_eqb (firstn 3 peek) (asc "RPY") then ([], true, false)
      else share_loop hs ans (firstn 4 peek)
    end
  | _ => ([], detected, false)
  end.

(** The life of a connection: every call of vortex_frame_get_next
    (src/vortex_frame_factory.c:1604-1608) looks at what the socket has, then reads
    some of it.  [arr]: for each read, what arrived before it and how many bytes it
    takes.  The result: the calls of the handlers and whether the connection was shut
    down (nothing is read after that). *)
Fixpoint share_run (cn : pconn) (inst : option (list pshare)) (ans : nat -> bytes -> Z)
    (detected : bool) (sock : bytes) (arr : list (bytes * nat)) : list pcall * bool :=
  match arr with
  | [] => ([], false)
  | (b, n) :: r =>
    let s := sock ++ b in
    let '(cs, d, x) := check_share cn inst ans detected s in
    if x then (cs, true)
    else let '(cs', x') := share_run cn inst ans d (skipn n s) r in (cs ++ cs', x')
  end.

(** * 5. vortex_listener_shutdown *)

(** [k_lis]: the connection of key "_vo:li:master"; [k_reader]: it is in the
    list of the reader (it is not while it is being accepted or tuned). *)
Record lconn := mkL { k_id : Z; k_role : role; k_lis : option Z; k_reader : bool; k_up : bool }.

(** vortex_connection_get_id of a NULL reference is -1 (src/vortex_connection.c:4858-4864). *)
Definition lis_id (c : lconn) : Z := match k_lis c with Some i => i | None => -1 end.
Definition shut (c : lconn) : lconn := mkL (k_id c) (k_role c) (k_lis c) (k_reader c) false.

(** __vortex_listener_shutdown_foreach (src/vortex_listener.c:1933-1963), applied by the
    reader to the connections it has. *)
Definition shut_visit (l : Z) (c : lconn) : lconn :=
  if k_reader c then
    match k_role c with
    | RoleMaster => c
    | _ => if lis_id c =? l then shut c else c
    end
  else c.

(** What else may happen: a connection is accepted by a listener that is up and
    registered, the reader takes or leaves a connection (src/vortex_reader.c), a connection closes. *)
Inductive lop :=
| KAccept (l : Z) (id : Z)
| KLeave (id : Z)
| KEnter (id : Z)
| KClose (id : Z)
| KVisit (l : Z)        (* the foreach of vortex_listener_shutdown (listener, axl_true) *)
| KShut (l : Z).        (* the shutdown of the listener itself, 2006-2007 *)

Definition is_up (s : list lconn) (l : Z) : bool :=
  existsb (fun c => (k_id c =? l) && k_up c && match k_role c with RoleMaster => true | _ => false end) s.
Definition on_id (id : Z) (f : lconn -> lconn) (s : list lconn) : list lconn :=
  map (fun c => if k_id c =? id then f c else c) s.

Definition lstep (s : list lconn) (o : lop) : list lconn :=
  match o with
  | KAccept l id => if is_up s l && negb (existsb (fun c => k_id c =? id) s)
                    then s ++ [mkL id RoleListener (Some l) true true] else s
  | KLeave id => on_id id (fun c => mkL (k_id c) (k_role c) (k_lis c) false (k_up c)) s
  | KEnter id => on_id id (fun c => mkL (k_id c) (k_role c) (k_lis c) true (k_up c)) s
  | KClose id => on_id id shut s
  | KVisit l => map (shut_visit l) s
  | KShut l => on_id l shut s
  end.
Definition lrun (s : list lconn) (ops : list lop) : list lconn := fold_left lstep ops s.

(** vortex_listener_shutdown (src/vortex_listener.c:1976-2013): nothing if the listener
    is not ok; [between] is what happens between the visit and the shutdown of the listener. *)
Definition listener_shutdown (s : list lconn) (l : Z) (also : bool) (between : list lop) : list lconn :=
  if is_up s l
  then lstep (lrun (if also then lstep s (KVisit l) else s) between) (KShut l)
  else s.
