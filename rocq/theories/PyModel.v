(** The Python bindings (py-vortex/src): the handlers called when a connection is
    closed and their handles (py_vortex_connection.c 755-911, py_vortex_handle.c
    181-211), the references held by vortex.Connection (123-244, 297-355,
    1185-1248; py_vortex.c 106-155), vortex.AsyncQueue and channel.get_reply
    (py_vortex_async_queue.c 76-196, py_vortex_channel.c 717-754), the handler of
    the frames of a channel (py_vortex_channel.c 74-120, 187-298,
    py_vortex_connection.c 524-640), the content sent (py_vortex_channel.c
    443-693) and the events (py_vortex_ctx.c 518-711).

    Code that runs with the global lock of the interpreter held is one step; a
    function that waits for the lock is two.  Python objects are numbers; a
    pointer is the number of the block it points to and blocks are never
    reused, so that an access to a block released is [UB].  Memory is never
    exhausted. *)
From Verif Require Import Base HdrModel.

(** ** Handlers of the close of a connection *)

(** Where the record given to vortex_connection_set_on_close_full is: in no list;
    in the list of its connection; taken from the list by the thread that closes
    the connection, which waits for the lock; its Python handler is running;
    finished. *)
Inductive cplace := CNo | CReg | CTaken | CRun | CDone.
(** PyVortexConnectionSetOnCloseData (755-759): [cr_conn] is the connection whose
    list it was added to (NULL if the vortex.Connection was closed), [cr_live]
    is false once axl_free was called. *)
Record crec := mkCR { cr_conn : option Z; cr_fn : Z; cr_data : Z; cr_place : cplace; cr_live : bool }.
Definition cr_to (p : cplace) (r : crec) : crec := mkCR (cr_conn r) (cr_fn r) (cr_data r) p (cr_live r).
Definition cr_free (r : crec) : crec := mkCR (cr_conn r) (cr_fn r) (cr_data r) (cr_place r) false.

(** What the program sees: the handle returned (its number), set_on_close failing,
    the result of remove_on_close, the handler of a record called, the record
    released. *)
Inductive cobs :=
| OHandle (k : nat)
| OBad
| ORemoved (k : nat) (b : bool)
| OCall (k : nat) (fn data : Z)
| OFreed (k : nat).

(** [pc_handles]: the pointer inside each vortex.Handle. *)
Record pcs := mkPC {
  pc_recs : list crec; pc_handles : list (option nat); pc_closed : list Z; pc_log : list cobs
}.
Definition pc0 : pcs := mkPC [] [] [] [].
Definition pc_say s o := mkPC (pc_recs s) (pc_handles s) (pc_closed s) (pc_log s ++ o).
Definition pc_upd s k r := mkPC (upd_nth (pc_recs s) k r) (pc_handles s) (pc_closed s) (pc_log s).

(** [w] is the connection inside the vortex.Connection, [None] when it is NULL. *)
Inductive cevent :=
| CSet (w : option Z) (callable : bool) (fn data : Z)
| CRemove (w : option Z) (k : nat)
| CClose (c : Z)
| CTake (c : Z)
| CBegin (k : nat)
| CEnd (k : nat).

(** py_vortex_connection_set_on_close (815-864). *)
Definition c_set s (w : option Z) (callable : bool) (fn data : Z) : pcs :=
  if callable
  then let k := length (pc_recs s) in
       mkPC (pc_recs s ++ [mkCR w fn data (match w with Some _ => CReg | None => CNo end) true])
            (pc_handles s ++ [Some k]) (pc_closed s) (pc_log s ++ [OHandle k])
  else pc_say s [OBad].

(** The three Py_DECREF and the axl_free of a record (802-807, 897-900). *)
Definition c_release s k : outcome pcs :=
  match nth_error (pc_recs s) k with
  | Some r => if cr_live r then Ok (pc_say (pc_upd s k (cr_free r)) [OFreed k]) else UB
  | None => UB
  end.

Definition oeqb (a b : option Z) : bool :=
  match a, b with Some x, Some y => x =? y | None, None => true | _, _ => false end.
Definition is_reg (r : crec) : bool := match cr_place r with CReg => true | _ => false end.

(** py_vortex_connection_remove_on_close (866-911); the handle is emptied before
    (py_vortex_handle_nullify), the record is released whatever
    vortex_connection_remove_on_close_full (vortex_connection.c 6840-6882) tells. *)
Definition c_remove s (w : option Z) (k : nat) : outcome pcs :=
  match nth_error (pc_handles s) k with
  | None | Some None => Ok (pc_say s [ORemoved k false])
  | Some (Some p) =>
      let s := mkPC (pc_recs s) (upd_nth (pc_handles s) k None) (pc_closed s) (pc_log s) in
      match nth_error (pc_recs s) p with
      | None => UB
      | Some r =>
          let found := match w with Some c => oeqb (cr_conn r) (Some c) && is_reg r | None => false end in
          let s := if found then pc_upd s p (cr_to CNo r) else s in
          let! s := c_release s p in
          Ok (pc_say s [ORemoved k found])
      end
  end.

(** vortex_connection.c 5098-5106: the first of the list. *)
Fixpoint c_first (c : Z) (l : list crec) (i : nat) : option nat :=
  match l with
  | [] => None
  | r :: t => if oeqb (cr_conn r) (Some c) && is_reg r then Some i else c_first c t (S i)
  end.

Definition c_take s c : pcs :=
  if existsb (Z.eqb c) (pc_closed s) then
    match c_first c (pc_recs s) 0 with
    | Some k => match nth_error (pc_recs s) k with Some r => pc_upd s k (cr_to CTaken r) | None => s end
    | None => s
    end
  else s.

(** py_vortex_connection_set_on_close_handler up to the call (776-790). *)
Definition c_begin s k : outcome pcs :=
  match nth_error (pc_recs s) k with
  | Some r =>
      match cr_place r with
      | CTaken => if cr_live r then Ok (pc_say (pc_upd s k (cr_to CRun r)) [OCall k (cr_fn r) (cr_data r)]) else UB
      | _ => Ok s
      end
  | None => Ok s
  end.
(** And from its end (792-812). *)
Definition c_end s k : outcome pcs :=
  match nth_error (pc_recs s) k with
  | Some r => match cr_place r with CRun => c_release (pc_upd s k (cr_to CDone r)) k | _ => Ok s end
  | None => Ok s
  end.

Definition cstep s e : outcome pcs :=
  match e with
  | CSet w callable fn data => Ok (c_set s w callable fn data)
  | CRemove w k => c_remove s w k
  | CClose c => Ok (mkPC (pc_recs s) (pc_handles s) (c :: pc_closed s) (pc_log s))
  | CTake c => Ok (c_take s c)
  | CBegin k => c_begin s k
  | CEnd k => c_end s k
  end.
Fixpoint crun s es : outcome pcs :=
  match es with [] => Ok s | e :: r => let! s := cstep s e in crun s r end.

(** ** References of vortex.Connection *)

Inductive yrole := YInit | YAcc | YMaster.
(** PyVortexConnection (py_vortex_connection.c 41-61): [w_on], conn is not NULL. *)
Record wrap := mkW { w_alive : bool; w_on : bool; w_close : bool; w_skip : bool }.
(** The connection wrapped; [y_reader]: the reader of the library has its
    reference. *)
Record pyc := mkY {
  y_role : yrole; y_up : bool; y_called : bool; y_count : Z; y_freed : bool; y_reader : bool; y_ws : list wrap
}.
Definition y_set s up called count freed reader := mkY (y_role s) up called count freed reader (y_ws s).
Definition y_with s ws := mkY (y_role s) (y_up s) (y_called s) (y_count s) (y_freed s) (y_reader s) ws.

(** vortex.Connection (): made by the program (py_vortex_connection.c 123-194); with
    the reference of the program and, if connected, the one of the reader. *)
Definition y_new (ok : bool) : pyc :=
  mkY YInit ok false (if ok then 2 else 1) false ok [mkW true true true false].
(** vortex.create_listener (py_vortex.c 106-155): the wrapper takes a reference; the
    one the listener was created with is given to the reader if it was
    started. *)
Definition y_listener (ok : bool) : pyc := mkY YMaster ok false 2 false ok [mkW true true true false].
(** A connection accepted, given to a handler (find_reference, 1238-1248). *)
Definition y_accepted : pyc := mkY YAcc true false 2 false true [mkW true true false false].

(** vortex_connection_unref (vortex_connection.c 3050-3091). *)
Definition y_unref s : outcome pyc :=
  if y_freed s then UB
  else Ok (y_set s (y_up s) (y_called s) (y_count s - 1) (y_count s - 1 =? 0) (y_reader s)).
Definition y_down s := y_set s false (y_called s) (y_count s) (y_freed s) (y_reader s).
Definition y_call s b := y_set s (y_up s) b (y_count s) (y_freed s) (y_reader s).

(** vortex_connection_close (vortex_connection.c 2826-2923), without the threads of
    ConnEndModel.  [chans]: all the channels were closed. *)
Definition v_close s (chans : bool) : outcome (pyc * bool) :=
  if y_freed s then UB
  else if y_called s then Ok (s, true)
  else
    let s := y_call s true in
    if y_up s then
      let s := y_set s true true (y_count s + 1) false (y_reader s) in
      if chans then
        let! s := y_unref (y_down s) in
        if y_freed s then Ok (s, true)
        else match y_role s with
             | YInit => let! s := y_unref s in Ok (s, true)
             | _ => Ok (s, true)
             end
      else let! s := y_unref s in Ok (y_call s false, false)
    else match y_role s with
         | YAcc => Ok (s, true)
         | _ => let! s := y_unref s in Ok (s, true)
         end.

Inductive yevent :=
| YWrap                            (* another vortex.Connection for it *)
| YClose (i : nat) (chans : bool)
| YShutdown (i : nat)
| YSkip (i : nat) (b : bool)
| YCollect (i : nat)               (* the object is collected *)
| YLost                            (* the peer closes *)
| YReader.                         (* the reader finds it closed *)

Definition is_master s := match y_role s with YMaster => true | _ => false end.
Definition w_off (w : wrap) := mkW (w_alive w) false (w_close w) (w_skip w).

(** py_vortex_connection_close (297-355). *)
Definition y_close s i w chans : outcome pyc :=
  if w_on w then
    if y_freed s then UB
    else
      let! (s, result) := (if is_master s && y_up s then Ok (y_down s, true) else v_close s chans) in
      if result then
        let! s := (if is_master s then y_unref s else Ok s) in
        Ok (y_with s (upd_nth (y_ws s) i (w_off w)))
      else Ok s
  else Ok s.
(** py_vortex_connection_dealloc (199-244). *)
Definition y_collect s i w : outcome pyc :=
  let! s :=
    (if w_on w then
       if y_freed s then UB
       else y_unref (if y_up s && w_close w && negb (w_skip w) then y_down s else s)
     else Ok s) in
  Ok (y_with s (upd_nth (y_ws s) i (mkW false false (w_close w) (w_skip w)))).

Definition ystep s e : outcome pyc :=
  let at_ i k := match nth_error (y_ws s) i with
                 | Some w => if w_alive w then k w else Ok s
                 | None => Ok s
                 end in
  match e with
  | YWrap =>
      if existsb w_on (y_ws s) || y_reader s then
        if y_freed s then UB
        else let s := y_set s (y_up s) (y_called s) (y_count s + 1) false (y_reader s) in
             Ok (y_with s (y_ws s ++ [mkW true true false false]))
      else Ok s
  | YClose i chans => at_ i (fun w => y_close s i w chans)
  | YShutdown i => at_ i (fun w => if w_on w then if y_freed s then UB else Ok (y_down s) else Ok s)
  | YSkip i b => at_ i (fun w => Ok (y_with s (upd_nth (y_ws s) i (mkW true (w_on w) (w_close w) b))))
  | YCollect i => at_ i (fun w => y_collect s i w)
  | YLost => Ok (if y_freed s then s else y_down s)
  | YReader =>
      if y_reader s then
        if y_freed s then UB
        else if y_up s then Ok s
        else y_unref (y_set s false (y_called s) (y_count s) false false)
      else Ok s
  end.
Fixpoint yrun s es : outcome pyc :=
  match es with [] => Ok s | e :: r => let! s := ystep s e in yrun s r end.

(** ** vortex.AsyncQueue *)

(** A pointer of the queue: an object, or INT_TO_PTR (-4), pushed when the
    connection is broken during a get_reply (vortex_channel.c 8219-8224). *)
Inductive qitem := QObj (o : Z) | QMark.
(** The result of a call: the object, or None. *)
Inductive qres := RObj (o : Z) | RNone.
(** Py_None is the object 0. *)
Definition py_none : Z := 0.
(** [qs_refs]: the references counted by each object; [qs_wait]: calls of get_reply
    that wait; [qs_det]: handlers installed on the connection for them;
    [qs_open]: the vortex.AsyncQueue was not collected. *)
Record pyq := mkQ {
  qs_items : list qitem; qs_refs : Z -> Z; qs_wait : Z; qs_det : Z; qs_open : bool; qs_got : list qres
}.
Definition q_inc (o d : Z) (f : Z -> Z) : Z -> Z := fun x => if x =? o then f x + d else f x.

Inductive qevent :=
| QPush (o : Z)
| QPop
| QTimed (expired : bool)
| QDrop (o : Z)                    (* the program lets a reference go *)
| QReply (up : bool)               (* get_reply up to its wait *)
| QReplied (expired : bool)        (* its end *)
| QBroken                          (* the connection is closed *)
| QCollect.

(** The end of a call that gets [i]: the reference is handed over.  Anything
    done to the pointer -4 is undefined behaviour. *)
Definition q_give s rest i : outcome pyq :=
  match i with
  | QObj o => Ok (mkQ rest (qs_refs s) (qs_wait s) (qs_det s) (qs_open s) (qs_got s ++ [RObj o]))
  | QMark => UB
  end.
Definition q_none s := mkQ (qs_items s) (q_inc py_none 1 (qs_refs s)) (qs_wait s) (qs_det s) (qs_open s) (qs_got s ++ [RNone]).

Definition qstep s e : outcome pyq :=
  if qs_open s then
    match e with
    | QPush o => Ok (mkQ (qs_items s ++ [QObj o]) (q_inc o 1 (qs_refs s)) (qs_wait s) (qs_det s) true (qs_got s))
    | QPop => match qs_items s with i :: r => q_give s r i | [] => Ok s end
    | QTimed expired =>
        match qs_items s with
        | i :: r => q_give s r i
        | [] => if expired then Ok (q_none s) else Ok s
        end
    | QDrop o => Ok (mkQ (qs_items s) (q_inc o (-1) (qs_refs s)) (qs_wait s) (qs_det s) true (qs_got s))
    | QReply up =>
        (* vortex_channel.c 8368-8388 *)
        if negb up && (zlen (qs_items s) =? 0) then Ok (q_none s)
        else Ok (mkQ (qs_items s) (qs_refs s) (qs_wait s + 1) (qs_det s + (if up then 1 else 0)) true (qs_got s))
    | QReplied expired =>
        (* 8391-8410; py_vortex_channel.c 741-753 *)
        if 0 <? qs_wait s then
          let det := if 0 <? qs_det s then qs_det s - 1 else qs_det s in
          let s' := mkQ (qs_items s) (qs_refs s) (qs_wait s - 1) det true (qs_got s) in
          match qs_items s with
          | QObj o :: r => q_give s' r (QObj o)
          | QMark :: r => Ok (q_none (mkQ r (qs_refs s') (qs_wait s') (qs_det s') true (qs_got s')))
          | [] => if expired then Ok (q_none s') else Ok s
          end
        else Ok s
    | QBroken =>
        Ok (mkQ (qs_items s ++ repeat QMark (Z.to_nat (qs_det s))) (qs_refs s) (qs_wait s) 0 true (qs_got s))
    | QCollect =>
        (* a call of get_reply holds the object of the queue *)
        if 0 <? qs_wait s then Ok s else Ok (mkQ [] (qs_refs s) 0 (qs_det s) false (qs_got s))
    end
  else match e with
       | QDrop o => Ok (mkQ [] (q_inc o (-1) (qs_refs s)) 0 (qs_det s) false (qs_got s))
       | _ => Ok s
       end.
Fixpoint qrun s es : outcome pyq :=
  match es with [] => Ok s | e :: r => let! s := qstep s e in qrun s r end.
Definition q_new (refs : Z -> Z) : pyq := mkQ [] refs 0 0 true [].

(** ** vortex.Frame *)

(** py_vortex_frame_create (py_vortex_frame.c 229-245): a reference is taken whatever
    [acquire] is; py_vortex_frame_dealloc (73-83) drops it. *)
Definition frame_create (refs : Z) (acquire : bool) : Z := refs + 1.
Definition frame_dealloc (refs : Z) : Z := refs - 1.
(** channel.get_reply when there is a piggyback (py_vortex_channel.c 728-732): the
    reference of vortex_channel_get_piggyback is given to the wrapper, which is
    collected. *)
Definition reply_piggyback (refs : Z) : Z := frame_dealloc (frame_create refs false).
(** py_vortex_channel_received (py_vortex_channel.c 210, 251): the reader has its own
    reference, the wrapper another. *)
Definition frame_received (refs : Z) : Z := frame_dealloc (frame_create refs true).

(** ** The handler of the frames of a channel *)

(** [h_bridge]: the channel calls py_vortex_channel_received; [h_fr], [h_frd]: the
    data "py:vo:ch:fr" and "py:vo:ch:frd"; [h_wait]: frames whose thread waits for
    the lock (207). *)
Inductive hobs := HCall (f h d : Z) | HOther (f : Z).
Record pyh := mkH { h_bridge : bool; h_fr : option Z; h_frd : option Z; h_wait : list Z; h_log : list hobs }.
Inductive hevent :=
| HConf (callable : bool) (h : Z) (d : option Z)  (* set_frame_received (h, d) *)
| HUnset                                          (* set_frame_received () *)
| HFrame (f : Z)
| HLock (f : Z).                                  (* the thread of the frame gets the lock *)
(** connection.open_channel: the channel is created with the handler given as
    frame_received already replaced by the one of the bindings (590-605), which is
    stored once it was created (610-613). *)
Definition h_opened (frame_received : bool) : pyh := mkH frame_received None None [] [].

Fixpoint rem1 (x : Z) (l : list Z) : list Z :=
  match l with [] => [] | y :: r => if x =? y then r else y :: rem1 x r end.

Definition hstep s e : outcome pyh :=
  match e with
  | HConf callable h d =>
      (* 273-298, 74-98 *)
      if callable
      then Ok (mkH true (Some h) (Some (match d with Some d => d | None => py_none end)) (h_wait s) (h_log s))
      else Ok s
  | HUnset => Ok (mkH false None None (h_wait s) (h_log s))
  | HFrame f =>
      if h_bridge s then Ok (mkH true (h_fr s) (h_frd s) (h_wait s ++ [f]) (h_log s))
      else Ok (mkH false (h_fr s) (h_frd s) (h_wait s) (h_log s ++ [HOther f]))
  | HLock f =>
      (* 207-255 *)
      if existsb (Z.eqb f) (h_wait s) then
        match h_frd s, h_fr s with
        | Some d, Some h => Ok (mkH (h_bridge s) (h_fr s) (h_frd s) (rem1 f (h_wait s)) (h_log s ++ [HCall f h d]))
        | _, _ => UB
        end
      else Ok s
  end.
Fixpoint hrun s es : outcome pyh :=
  match es with [] => Ok s | e :: r => let! s := hstep s e in hrun s r end.

(** ** The content sent *)

(** memcpy of [n] bytes of a Python string, followed in memory by a zero
    (vortex_channel.c 2556, 3137); [n] was an [int] and is a [size_t]. *)
Definition c_copy (content : option bytes) (n : Z) : outcome bytes :=
  if n =? 0 then Ok []
  else match content with
       | None => UB
       | Some b => if (0 <? n) && (n <=? zlen b + 1) then Ok (firstn (Z.to_nat n) (b ++ [NULc])) else UB
       end.
(** The size used: strlen when it is -1 (py_vortex_channel.c 455-456). *)
Definition c_size (content : option bytes) (size : Z) : outcome Z :=
  if size =? -1 then match content with Some b => Ok (s32 (zlen b)) | None => UB end else Ok size.
(** channel.send_msg and send_msg_more (443-511): no content with a size is refused
    (vortex_channel.c 2440-2441), [None] here. *)
Definition send_msg (content : option bytes) (size : Z) : outcome (option bytes) :=
  let! n := c_size content size in
  match content with
  | None => if n =? 0 then Ok (Some []) else Ok None
  | Some _ => let! b := c_copy content n in Ok (Some b)
  end.
(** send_rpy, send_err, send_ans and their _more (513-693). *)
Definition send_rpy (content : option bytes) (size : Z) : outcome (option bytes) :=
  let! n := c_size content size in
  let! b := c_copy content n in
  Ok (Some b).

(** ** Events *)

(** The end of the Python handler: an exception, an integer, something else. *)
Inductive vret := VRaise | VInt (n : Z) | VOtherVal.
(** An event installed by ctx.new_event: [v_in], it is in the list of the pool;
    [v_live], its PyVortexEventData was not released; [v_refs], the references to
    the vortex.Ctx (and to the data of the user) held for it; [v_wait], the
    thread of the pool is inside py_vortex_ctx_bridge_event, before the lock; [v_run],
    inside the Python handler; [v_exit], the context finishes. *)
Inductive vobs := VCalled | VGone.
Record pyv := mkV {
  v_in : bool; v_live : bool; v_refs : Z; v_wait : bool; v_run : bool; v_exit : bool; v_log : list vobs
}.
(** py_vortex_ctx_new_event (641-696). *)
Definition v_new : pyv := mkV true true 1 false false false [].
Inductive vevent :=
| VDue                             (* the pool calls the handler *)
| VLock                            (* its thread gets the lock *)
| VReturn (r : vret)
| VRemove                          (* ctx.remove_event *)
| VExit.

(** py_vortex_ctx_event_free (526-534). *)
Definition v_free s : outcome pyv :=
  if v_live s
  then Ok (mkV (v_in s) false (v_refs s - 1) (v_wait s) (v_run s) (v_exit s) (v_log s ++ [VGone]))
  else UB.
Definition v_out s := mkV false (v_live s) (v_refs s) (v_wait s) (v_run s) (v_exit s) (v_log s).
Definition v_set s wait run refs := mkV (v_in s) (v_live s) refs wait run (v_exit s) (v_log s).

Definition vstep s e : outcome pyv :=
  match e with
  | VDue =>
      if v_in s && negb (v_wait s) && negb (v_run s) then
        (* vortex_thread_pool.c 140-147; py_vortex_ctx.c 547-552: true asks the pool to
           remove the event *)
        if v_exit s then Ok (v_out s) else Ok (v_set s true false (v_refs s))
      else Ok s
  | VLock =>
      (* 563-582 *)
      if v_wait s then
        if v_live s then
          let s := v_set s false true (v_refs s + 1) in
          Ok (mkV (v_in s) (v_live s) (v_refs s) (v_wait s) (v_run s) (v_exit s) (v_log s ++ [VCalled]))
        else UB
      else Ok s
  | VReturn r =>
      (* 587-637 *)
      if v_run s then
        if v_live s then
          match r with
          | VRaise => v_free (v_out (v_set s false false (v_refs s)))
          | VInt n =>
              let s := v_set s false false (v_refs s - 1) in
              if negb (n =? 0) || v_exit s then v_free (v_out s) else Ok s
          | VOtherVal =>
              let s := v_set s false false (v_refs s - 1) in
              if v_exit s then v_free (v_out s) else Ok s
          end
        else UB
      else Ok s
  | VRemove => Ok (v_out s)        (* 701-711 *)
  | VExit => Ok (mkV (v_in s) (v_live s) (v_refs s) (v_wait s) (v_run s) true (v_log s))
  end.
Fixpoint vrun s es : outcome pyv :=
  match es with [] => Ok s | e :: r => let! s := vstep s e in vrun s r end.
