(** What the users of the Lua bindings rely on. *)
From Coq Require Import String.
From Verif Require Import Base GreetModel HdrModel LuaModel.
Open Scope list_scope.
Open Scope Z_scope.

(** The value a character of a description asks for, as documented (lua-vortex.c 330-361). *)
Definition wants (c : Z) (v : lv) : Prop :=
  if c =? 116 then exists p, v = LObj VCtx p
  else if c =? 111 then exists p, v = LObj VConn p
  else if c =? 99 then exists p, v = LObj VChan p
  else if c =? 114 then exists p, v = LObj VFrame p
  else if c =? 108 then exists p, v = LObj VPool p
  else if c =? 113 then exists p, v = LObj VQueue p
  else if c =? 102 then exists p, v = LFun p
  else if c =? 103 then v = LNil \/ exists p, v = LFun p
  else if c =? 115 then (exists s, v = LStr s) \/ exists z, v = LNum z
  else if c =? 122 then v = LNil \/ (exists s, v = LStr s) \/ exists z, v = LNum z
  else if c =? 105 then (exists z, v = LNum z) \/ exists s, v = LStr s /\ numeric s = true
  else if c =? 98 then exists b, v = LBool b
  else True.

(** A call that is right: the obligatory parameters, then some of the optional ones. *)
Definition right_call (man opt : bytes) (args : list lv) : Prop :=
  exists a b given rest, args = a ++ b /\ opt = given ++ rest /\ Forall2 wants man a /\ Forall2 wants given b.
Definition plain_spec (s : bytes) : Prop := ~ In BAR s /\ ~ In 113 s.

(** The values queued by a run: pushed but not taken out. *)
Inductive qev := QPush (v : lv) | QPop (stack : list lv).
(** A run of a queue: the values taken out, and the queue; a pop of an empty queue waits, and is left out. *)
Fixpoint qrun (q : lq) (es : list qev) : list lv * lq :=
  match es with
  | [] => ([], q)
  | QPush v :: r => qrun (q_push q v) r
  | QPop st :: r =>
    match q_pop q st with
    | Some (v, q') => let (out, q'') := qrun q' r in (v :: out, q'')
    | None => qrun q r
    end
  end.
(** The same with a list of the values themselves. *)
Fixpoint fifo (l : list lv) (es : list qev) : list lv * list lv :=
  match es with
  | [] => ([], l)
  | QPush v :: r => fifo (l ++ [v]) r
  | QPop _ :: r =>
    match l with
    | [] => fifo l r
    | v :: l' => let (out, l'') := fifo l' r in (v :: out, l'')
    end
  end.
Definition pushes (es : list qev) : list lv :=
  flat_map (fun e => match e with QPush v => [v] | QPop _ => [] end) es.
Definition no_bools (vs : list lv) : Prop := forall b, ~ In (LBool b) vs.
(** The values the metatable of the queue keeps alive. *)
Definition kept (q : lq) : Z := zlen (filter (fun o => match o with Some _ => true | None => false end) (q_refs q)).
Definition non_nil (vs : list lv) : Z := zlen (filter (fun v => negb (is_nil v)) vs).

(** A thread that runs Lua code. *)
Definition in_lua (w : lw) (t : Z) : Prop := exists l, w_th w t = TLua l.
Definition one_at_a_time (w : lw) : Prop := forall t t', in_lua w t -> in_lua w t' -> t = t'.
(** Handlers are registered by the main thread, which does not call vortex.wait_listeners. *)
Definition tame (e : lev) : Prop :=
  match e with EReg t => t = 0 | EListen _ => False | _ => True end.
(** A handler may start: some thread that is idle can take the lock of the main state. *)
Definition can_start (w : lw) : Prop := exists o, lock w 1 0 = Some o.

(** A run where vortex.event_fd was called before any handler. *)
Definition no_open (es : list fev) : Prop := ~ In FOpen es.

(** The answer a handler gave. *)
Definition said (r : hres) : bool := match r with HRet (LBool b) => b | _ => false end.

(** Runs of a connection. *)
Definition no_tls (es : list cev) : Prop := forall i, ~ In (CTls i) es.
Definition no_close (es : list cev) : Prop := forall i b, ~ In (CClose i b) es.
Definition all_gone (c : lc) : Prop := forall i, nth i (c_objs c) None = None.
(** Lua objects are there to be used. *)
Definition some_alive (c : lc) : Prop := exists i b, nth i (c_objs c) None = Some b.

(** The mechanisms with a name (vortex_sasl.h 56-93). *)
Definition mechs : list string :=
  ["PLAIN"; "ANONYMOUS"; "EXTERNAL"; "CRAM-MD5"; "DIGEST-MD5"; "GSSAPI"; "KERBEROS_V4"]%string.
