(** The properties of connections over WebSocket. *)
From Coq Require Import String.
From Verif Require Import Base CodecModel GreetModel ListenModel WsModel WsSpec WsProofs.
Open Scope list_scope.
Open Scope Z_scope.

Theorem C273_setup_lives_partial : forall es, fair 1 0 es -> exists s, wrun m_new es = Ok s /\
  m_refs s = own_after 1 es + working 0 es /\ (m_alive s = true <-> 0 < m_refs s) /\
  (times of_origin es <= 1 -> times of_host es <= 1 -> m_mem s = if m_alive s then ws_strings (m_set s) else 0).
Proof. exact setup_lives. Qed.
Print Assumptions C273_setup_lives_partial.
Theorem C273_setup_values : forall es s, fair 1 0 es -> wrun m_new es = Ok s ->
  ws_tls (m_set s) = last_of of_tls es false /\ ws_verify (m_set s) = last_of of_verify es false /\
  ws_host (m_set s) = last_of of_host es None /\ ws_origin (m_set s) = last_of of_origin es None.
Proof. exact setup_values. Qed.
Print Assumptions C273_setup_values.
(** The string of the host configured first is lost for ever. *)
Theorem C273_no_leak_refuted : exists es s, fair 1 0 es /\ wrun m_new es = Ok s /\ m_alive s = false /\ m_mem s = 1.
Proof.
  exists [WConf (IHost (Some (asc "a"))); WConf (IHost (Some (asc "b"))); WUnref]. eexists.
  split; [cbn; lia|]. split; [reflexivity|]. vm_compute. auto.
Qed.
Print Assumptions C273_no_leak_refuted.
(** Two connections with the one reference of the program. *)
Theorem C273_any_use_refuted : exists es, (forall e, In e es -> e = WConnect \/ e = WDone) /\ wrun m_new es = UB.
Proof. exists [WConnect; WDone; WConnect]. split; [|reflexivity]. cbn. intuition. Qed.
Print Assumptions C273_any_use_refuted.
Example C273_example :
  let es := [WConf (IHost (Some (asc "a"))); WRef; WConnect; WConf (ITls true); WDone; WUnref] in
  fair 1 0 es /\ exists s, wrun m_new es = Ok s /\ m_alive s = false /\ m_mem s = 0.
Proof. split; [cbn; lia|]. eexists. split; [reflexivity|]. auto. Qed.

Theorem C274_verified_partial : forall es s host t nctx ready greet handler v h o, fair 1 0 es -> wrun m_new es = Ok s ->
  c_ask (ws_connect (m_set s) host t nctx ready greet handler) = Some (NTls v, h, o) -> v = last_of of_verify es false.
Proof. exact verified. Qed.
Print Assumptions C274_verified_partial.
(** "By default, certificate verification is enabled": it is not. *)
Theorem C274_by_default_refuted : exists es s h o, (forall b, ~ In (WConf (IVerify b)) es) /\ fair 1 0 es /\ wrun m_new es = Ok s /\
  c_ask (ws_connect (m_set s) (asc "bank") 0 true true true false) = Some (NTls false, h, o) /\
  got (ws_connect (m_set s) (asc "bank") 0 true true true false) = Conn true true (Some (asc "bank")).
Proof.
  exists [WConf (ITls true)]. do 3 eexists. split; [intros b [X|[]]; discriminate|]. split; [cbn; lia|].
  split; [reflexivity|]. split; reflexivity.
Qed.
Print Assumptions C274_by_default_refuted.
Example C274_example : exists s h o, wrun m_new [WConf (ITls true); WConf (IVerify true)] = Ok s /\
  c_ask (ws_connect (m_set s) (asc "bank") 0 true true true false) = Some (NTls true, h, o).
Proof. do 3 eexists. split; reflexivity. Qed.

Theorem C275_waits_partial : forall t, (1000000 <= t -> wait_for t = t / 1000000 /\ wait_for t * 1000000 <= t) /\ (t < 1000000 -> wait_for t = 60).
Proof. exact client_waits. Qed.
Print Assumptions C275_waits_partial.
(** Half a second was asked for; the handshake may take a minute. *)
Theorem C275_within_refuted : exists t, 0 < t /\
  c_wait (ws_connect ws0 (asc "h") t true false false false) * 1000000 > 100 * t.
Proof. exists 500000. vm_compute. split; reflexivity. Qed.
Print Assumptions C275_within_refuted.
Example C275_example : c_wait (ws_connect ws0 (asc "h") 2500000 true true true false) = 2.
Proof. reflexivity. Qed.

Theorem C276_client_partial : forall w host t nctx ready greet handler r, r = ws_connect w host t nctx ready greet handler ->
  (handler = true -> c_ret r = NoConn /\ List.length (c_told r) = 1%nat) /\ (handler = false -> c_told r = []) /\
  (got r = NoConn <-> nctx && ready = false) /\ (c_closed r = true <-> got r = NoConn) /\
  (forall ok tls name, got r = Conn ok tls name -> ok = greet /\ tls = (ws_tls w && greet) /\
     exists n, name = Some n /\ before_colon (match ws_host w with Some h => h | None => host end) n) /\
  (forall how h o, c_ask r = Some (how, h, o) -> h = (match ws_host w with Some x => x | None => host end) /\
     (forall x, ws_origin w = Some x -> o = x) /\ (ws_origin w = None -> o = asc "http://" ++ host) /\
     (ws_tls w = true <-> exists v, how = NTls v) /\ tls_running how (got r) = (match got r with Conn _ b _ => b | NoConn => false end)).
Proof. exact client_result. Qed.
Print Assumptions C276_client_partial.
Theorem C276_asked : forall w host t ready greet handler, exists how h o,
  c_ask (ws_connect w host t true ready greet handler) = Some (how, h, o) /\ c_wait (ws_connect w host t true ready greet handler) = wait_for t.
Proof. exact client_asked. Qed.
Print Assumptions C276_asked.
(** "[::1]" is the address of the server, "[" is the name it is known by. *)
Theorem C276_ipv6_refuted : exists host, got (ws_connect ws0 host 0 true true true false) = Conn true false (Some (asc "[")) /\ host = asc "[::1]".
Proof. eexists. split; [|reflexivity]. reflexivity. Qed.
Print Assumptions C276_ipv6_refuted.
(** The proxy configured changes nothing. *)
Theorem C276_proxy_refuted : exists h p, forall host t nctx ready greet handler,
  ws_connect (fst (ws_conf (IProxyPort (Some p)) (fst (ws_conf (IProxyHost (Some h)) ws0)))) host t nctx ready greet handler =
  ws_connect ws0 host t nctx ready greet handler.
Proof. exists (asc "proxy"), (asc "3128"). reflexivity. Qed.
Print Assumptions C276_proxy_refuted.
(** Options given to be released are not. *)
Theorem C276_options_refuted : exists w, ws_opts w = Some true /\ forall host t nctx ready greet handler,
  c_freed (ws_connect w host t nctx ready greet handler) = false.
Proof. exists (mkWS None None None None (Some true) false false false). split; auto. intros host t [|] [|] greet [|]; reflexivity. Qed.
Print Assumptions C276_options_refuted.
Example C276_example :
  ws_connect (mkWS None None None (Some (asc "www.example.com:80")) None true false true) (asc "10.0.0.1") 5000000 true true true true =
  mkWR (Some (NTls true, asc "www.example.com:80", asc "http://10.0.0.1")) 5 60 NoConn [Conn true true (Some (asc "www.example.com"))] false false.
Proof. reflexivity. Qed.

Theorem C277_named : forall n accept a refs, ws_accept (Some n) accept = Ok (AccMade a refs) ->
  1 <= refs /\
  (forall h, np_host n = Some h -> exists b m, post_actions a = (1, b) /\ a_name b = Some m /\ before_colon h m /\ a_tls b = np_tls n) /\
  (np_host n = None -> fst (post_actions a) = -1).
Proof. exact accepted_named. Qed.
Print Assumptions C277_named.
Theorem C277_others : forall a, a_role a <> RoleListener \/ a_ws a = false \/ a_hook a = None -> post_actions a = (1, a).
Proof. exact others_alone. Qed.
Print Assumptions C277_others.
Theorem C277_once : forall a b m, a_name a = Some m -> post_actions a = (1, b) -> a_name b = Some m.
Proof. exact named_once. Qed.
Print Assumptions C277_once.
Example C277_example : exists a b, ws_accept (Some (mkNP (Some (asc "example.com:443")) true)) true = Ok (AccMade a 1) /\
  post_actions a = (1, b) /\ a_name b = Some (asc "example.com") /\ a_tls b = true.
Proof. do 2 eexists. split; [reflexivity|]. split; [reflexivity|]. auto. Qed.

Theorem C278_let_in_partial : forall conn, exists r, ws_accept conn true = Ok r /\ (r = AccNone <-> conn = None).
Proof. exact let_in. Qed.
Print Assumptions C278_let_in_partial.
(** A handler that says no makes the library use a connection already released. *)
Theorem C278_refused_refuted : exists n, ws_accept (Some n) false = UB.
Proof. exists (mkNP (Some (asc "h")) false). reflexivity. Qed.
Print Assumptions C278_refused_refuted.
(** The handler to be told that the listener is ready is never called, and NULL is returned. *)
Theorem C278_ready_refuted : exists ok, ok = true /\ ws_listener ok true = (None, []).
Proof. exists true. auto. Qed.
Print Assumptions C278_ready_refuted.
Example C278_example : ws_accept None false = Ok AccNone /\ ws_listener true false = (Some true, []).
Proof. split; reflexivity. Qed.

Theorem C279_detected_partial : forall made hand d peek, 4 <= zlen peek ->
  (firstn 3 peek = asc "RPY" -> shared made hand d peek = ([], true, false)) /\
  (firstn 3 peek = asc "GET" \/ firstn 3 peek = [22; 3; 1] ->
     shared made hand d peek = ([mkPC 0 (firstn 4 peek)], made && hand, negb (made && hand))) /\
  (firstn 3 peek <> asc "RPY" -> firstn 3 peek <> asc "GET" -> firstn 3 peek <> [22; 3; 1] ->
     shared made hand d peek = ([mkPC 0 (firstn 4 peek)], false, false) /\ detect made hand (firstn 4 peek) d = (1, d, None)).
Proof. exact detected. Qed.
Print Assumptions C279_detected_partial.
Theorem C279_state : forall made hand b d c e t, detect made hand b d = (c, e, t) ->
  (c = 1 \/ c = 2 \/ c = -1) /\ (c = 2 -> made = true /\ hand = true /\ d_ctx e = true /\ d_master e = true /\ t = Some (bytes_eqb (firstn 3 b) [22; 3; 1])) /\
  (c <> 2 -> t = None) /\ (d_lost e = d_lost d \/ (made = true /\ hand = false /\ c = -1)).
Proof. exact detect_state. Qed.
Print Assumptions C279_state.
(** A TLS client whose first record says 3.3, or 3.0, is taken for a BEEP peer. *)
Theorem C279_every_tls_refuted : exists peek d, firstn 2 peek = [22; 3] /\ shared true true d peek = ([mkPC 0 (firstn 4 peek)], false, false).
Proof. exists [22; 3; 3; 0; 200], (mkDS false false 0). split; reflexivity. Qed.
Print Assumptions C279_every_tls_refuted.
(** A peer that begins and goes away leaves a noPoll connection that nobody releases. *)
Theorem C279_released_refuted : exists b d, d_lost d = 0 /\ d_lost (snd (fst (detect true false b d))) = 1.
Proof. exists (asc "GET "), (mkDS true true 0). split; reflexivity. Qed.
Print Assumptions C279_released_refuted.
Example C279_example : shared true true (mkDS false false 0) (asc "GET / HTTP/1.1") = ([mkPC 0 (asc "GET ")], true, false) /\
  detect true true [22; 3; 1; 2] (mkDS false false 0) = (2, mkDS true true 0, Some true).
Proof. split; reflexivity. Qed.
