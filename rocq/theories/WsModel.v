(** Connections over WebSocket (web-socket/vortex_websocket.c): the setup and who holds it (118-360),
    the creation of a connection (__vortex_websocket_connection_new, 495-649, and
    vortex_websocket_connection_new, 686-726), the connections accepted (732-866), the listener
    (vortex_websocket_listener_new, 908-954) and the detection of WebSocket peers on the port of a
    listener (1031-1105).  The reading is in PendModel.

    noPoll and the network are arguments: whether a WebSocket connection is made, its Host header and
    whether it uses TLS.  The greetings succeed or not.  Memory is never exhausted: axl_new gives
    memory filled with zeros. *)
From Coq Require Import String.
From Verif Require Import Base CodecModel GreetModel ListenModel.
Open Scope list_scope.
Open Scope Z_scope.

(** * 1. The setup *)

(** VortexWebsocketSetup (118-161).  [ws_opts]: the connection options, with release_opts. *)
Record wset := mkWS {
  ws_proxy_host : option bytes; ws_proxy_port : option bytes; ws_origin : option bytes; ws_host : option bytes;
  ws_opts : option bool; ws_tls : bool; ws_debug : bool; ws_verify : bool
}.
(** vortex_websocket_setup_new (188-201). *)
Definition ws0 : wset := mkWS None None None None None false false false.

Inductive witem :=
| IProxyHost (s : option bytes) | IProxyPort (s : option bytes) | IOpts (o : option bool) | IOrigin (s : option bytes)
| IHost (s : option bytes) | ITls (b : bool) | IDebug (b : bool) | IVerify (b : bool) | IUnknown.
Definition held (o : option bytes) : Z := match o with Some _ => 1 | None => 0 end.

(** vortex_websocket_setup_conf (271-333): the setup, and what is added to the strings allocated.  The
    origin and the host of before are not released. *)
Definition ws_conf (i : witem) (w : wset) : wset * Z :=
  match i with
  | IProxyHost s => (mkWS s (ws_proxy_port w) (ws_origin w) (ws_host w) (ws_opts w) (ws_tls w) (ws_debug w) (ws_verify w), held s - held (ws_proxy_host w))
  | IProxyPort s => (mkWS (ws_proxy_host w) s (ws_origin w) (ws_host w) (ws_opts w) (ws_tls w) (ws_debug w) (ws_verify w), held s - held (ws_proxy_port w))
  | IOpts o => (mkWS (ws_proxy_host w) (ws_proxy_port w) (ws_origin w) (ws_host w) o (ws_tls w) (ws_debug w) (ws_verify w), 0)
  | IOrigin s => (mkWS (ws_proxy_host w) (ws_proxy_port w) s (ws_host w) (ws_opts w) (ws_tls w) (ws_debug w) (ws_verify w), held s)
  | IHost s => (mkWS (ws_proxy_host w) (ws_proxy_port w) (ws_origin w) s (ws_opts w) (ws_tls w) (ws_debug w) (ws_verify w), held s)
  | ITls b => (mkWS (ws_proxy_host w) (ws_proxy_port w) (ws_origin w) (ws_host w) (ws_opts w) b (ws_debug w) (ws_verify w), 0)
  | IDebug b => (mkWS (ws_proxy_host w) (ws_proxy_port w) (ws_origin w) (ws_host w) (ws_opts w) (ws_tls w) b (ws_verify w), 0)
  | IVerify b => (mkWS (ws_proxy_host w) (ws_proxy_port w) (ws_origin w) (ws_host w) (ws_opts w) (ws_tls w) (ws_debug w) b, 0)
  | IUnknown => (w, 0)
  end.
Definition ws_strings (w : wset) : Z := held (ws_proxy_host w) + held (ws_proxy_port w) + held (ws_origin w) + held (ws_host w).

(** A setup in memory: [m_busy], the connections being created with it; [m_mem], the strings allocated
    for it that were not released. *)
Record wsm := mkWM { m_alive : bool; m_refs : Z; m_set : wset; m_busy : Z; m_mem : Z }.
Definition m_new : wsm := mkWM true 1 ws0 0 0.
Inductive wev :=
| WRef | WUnref | WConf (i : witem)
| WConnect                         (* vortex_websocket_connection_new, or its task, starts *)
| WDone.                           (* and ends *)

(** vortex_websocket_setup_unref (234-259). *)
Definition m_unref (s : wsm) : outcome wsm :=
  if m_alive s then
    let n := m_refs s - 1 in
    if n =? 0 then Ok (mkWM false 0 (m_set s) (m_busy s) (m_mem s - ws_strings (m_set s)))
    else Ok (mkWM true n (m_set s) (m_busy s) (m_mem s))
  else UB.
Definition wstep (s : wsm) (e : wev) : outcome wsm :=
  match e with
  | WRef => if m_alive s then Ok (mkWM true (m_refs s + 1) (m_set s) (m_busy s) (m_mem s)) else UB
  | WUnref => m_unref s
  | WConf i =>
      if m_alive s then let '(w, n) := ws_conf i (m_set s) in Ok (mkWM true (m_refs s) w (m_busy s) (m_mem s + n)) else UB
  | WConnect =>
      (* 694-726: no reference is taken, that of the caller is used *)
      if m_alive s then Ok (mkWM true (m_refs s) (m_set s) (m_busy s + 1) (m_mem s)) else UB
  | WDone =>
      (* vortex_websocket_connection_data_free (350-360), 642 and 647 *)
      if 0 <? m_busy s
      then m_unref (mkWM (m_alive s) (m_refs s) (m_set s) (m_busy s - 1) (m_mem s))
      else Ok s
  end.
Fixpoint wrun (s : wsm) (es : list wev) : outcome wsm :=
  match es with [] => Ok s | e :: r => let! s := wstep s e in wrun s r end.

(** * 2. A connection is created *)

Definition colon : Z := 58.
(** vortex_connection_set_server_name (src/vortex_connection.c 4899-4926): the first name given, up to a
    colon. *)
Fixpoint cut (h : bytes) : bytes :=
  match h with [] => [] | c :: r => if c =? colon then [] else c :: cut r end.
Definition set_name (now : option bytes) (h : bytes) : option bytes :=
  match now with Some n => Some n | None => Some (cut h) end.

(** The WebSocket connection asked for: in clear, or with TLS and the verification of the certificate. *)
Inductive np := NPlain | NTls (verify : bool).
(** The BEEP connection: none, or whether it works, whether it is marked as TLS and its server name. *)
Inductive wconn := NoConn | Conn (ok tls : bool) (name : option bytes).
(** [c_ask]: how, the Host header and the Origin header; [c_wait]: the seconds the handshake is waited
    for; [c_greet]: those for the greetings; [c_ret]: what is returned; [c_told]: the calls of
    on_connected; [c_closed]: the WebSocket connection and its context are released; [c_freed]: the
    connection options are released. *)
Record wres := mkWR {
  c_ask : option (np * bytes * bytes); c_wait : Z; c_greet : Z; c_ret : wconn; c_told : list wconn;
  c_closed : bool; c_freed : bool
}.
Definition http : bytes := asc "http://".
(** 561-565: [timeout], vortex_connection_get_connect_timeout, microseconds. *)
Definition wait_for (timeout : Z) : Z :=
  let t := if 0 <? timeout then Z.quot timeout 1000000 else timeout in
  if t <=? 0 then 60 else t.
Definition or_else (o : option bytes) (d : bytes) : bytes := match o with Some x => x | None => d end.

(** [nctx]: nopoll_ctx_new gives a context; [ready]: the handshake ends in time; [greet]: the greetings
    are exchanged; [handler]: there is an on_connected. *)
Definition ws_connect (w : wset) (host : bytes) (timeout : Z) (nctx ready greet handler : bool) : wres :=
  let finish ask wait g c closed :=
    if handler then mkWR ask wait g NoConn [c] closed false else mkWR ask wait g c [] closed false in
  if negb nctx then finish None 0 0 NoConn true
  else
    let how := if ws_tls w then NTls (ws_verify w) else NPlain in
    let ask := Some (how, or_else (ws_host w) host, or_else (ws_origin w) (http ++ host)) in
    let wait := wait_for timeout in
    if negb ready then finish ask wait 0 NoConn true
    else finish ask wait 60 (Conn greet (ws_tls w && greet) (set_name None (or_else (ws_host w) host))) false.

(** vortex_websocket_connection_is_tls_running (1003-1029) on a connection so created. *)
Definition tls_running (how : np) (c : wconn) : bool :=
  match c, how with Conn _ tls _, NTls _ => tls | _, _ => false end.

(** * 3. Connections accepted *)

(** What is known of an accepted connection: the WebSocket connection under it, with the Host header
    and TLS; whether it was accepted by this module; its server name and the TLS mark. *)
Record npc := mkNP { np_host : option bytes; np_tls : bool }.
Record wacc := mkWA { a_role : role; a_hook : option npc; a_ws : bool; a_name : option bytes; a_tls : bool }.
(** vortex_websocket_listener_post_actions (765-792) with
    __vortex_websocket_setup_server_name_from_header (732-763): 1 goes on, -1 shuts the connection down. *)
Definition post_actions (a : wacc) : Z * wacc :=
  match a_hook a, a_role a, a_ws a with
  | Some n, RoleListener, true =>
      match np_host n with
      | Some h => (1, mkWA (a_role a) (a_hook a) (a_ws a) (set_name (a_name a) h) (if np_tls n then true else a_tls a))
      | None => (-1, a)
      end
  | _, _, _ => (1, a)
  end.

(** vortex_websocket_listener_accept (823-866): noPoll gives a connection or not; [accept]: the handlers
    of vortex_listener_accept_connection (src/vortex_listener.c 79-187) let it in.  The connection is read
    after (860-863). *)
Inductive accres := AccNone | AccMade (a : wacc) (refs : Z).
(** The references once it was accepted, from the one of vortex_connection_new_empty: the reader takes one
    (vortex_listener_complete_register, src/vortex_listener.c 193-224), the other is dropped; refused, it is dropped too
    (166). *)
Definition acc_refs (accept : bool) : Z := if accept then 1 + 1 - 1 else 1 - 1.
Definition ws_accept (conn : option npc) (accept : bool) : outcome accres :=
  match conn with
  | None => Ok AccNone
  | Some n =>
      let refs := acc_refs accept in
      if refs =? 0 then UB else Ok (AccMade (mkWA RoleListener (Some n) true None false) refs)
  end.

(** vortex_websocket_listener_new (908-954): what is returned and the calls of on_ready_full. [ok]: there is a
    socket. *)
Definition ws_listener (ok handler : bool) : option bool * list bool :=
  if handler then (None, []) else (Some ok, []).

(** * 4. The port of another listener *)

(** __vortex_websocket_detect_and_prepare_transport (1031-1105).  [d_ctx]: the context has a noPoll context;
    [d_master]: the listener has a noPoll connection; [made]: noPoll has a connection for this one;
    [hand]: nopoll_conn_accept_complete; [d_lost]: noPoll connections that nobody has. *)
Record dstate := mkDS { d_ctx : bool; d_master : bool; d_lost : Z }.
Definition is_tls (b : bytes) : bool := bytes_eqb (firstn 3 b) [22; 3; 1].
Definition is_get (b : bytes) : bool := bytes_eqb (firstn 3 b) (asc "GET").
Definition detect (made hand : bool) (b : bytes) (d : dstate) : Z * dstate * option bool :=
  if negb (is_get b) && negb (is_tls b) then (1, d, None)
  else
    let d := mkDS true true (d_lost d) in
    if negb made then (-1, d, None)
    else if negb hand then (-1, mkDS true true (d_lost d + 1), None)
    else (2, d, Some (is_tls b)).
