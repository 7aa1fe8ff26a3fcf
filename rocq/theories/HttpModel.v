(** Model of the connections created through an HTTP proxy with the CONNECT
    method: the request, the reply of the proxy, the greetings that follow and
    what the caller is told.  Source: http/vortex_http.c.  The reading of a line
    is vortex_frame_readline, modelled with the codec. *)
From Coq Require Import String.
From Verif Require Import Base CodecModel GreetModel.
Open Scope string_scope.
Open Scope Z_scope.
Open Scope list_scope.

Definition CRLF : bytes := [CR; LF].
(** "CONNECT %s:%s HTTP/1.1\r\nHost: %s:%s\r\n\r\n" (http/vortex_http.c:285-286). *)
Definition connect_header (host port : bytes) : bytes :=
  asc "CONNECT " ++ host ++ asc ":" ++ port ++ asc " HTTP/1.1" ++ CRLF ++
  asc "Host: " ++ host ++ asc ":" ++ port ++ CRLF ++ CRLF.

(** The two axl_memcmp of the first 10 bytes of the line (http/vortex_http.c:315-316);
    axl_memcmp (not part of the repository) is true when they are equal.  A line
    shorter than that is followed by its NUL, so it is not equal. *)
Definition is_positive (line : bytes) : bool :=
  bytes_eqb (firstn 10 line) (asc "HTTP/1.0 2") || bytes_eqb (firstn 10 line) (asc "HTTP/1.1 2").

(** vortex_frame_readline (conn, buffer, 1024) on a new connection: no pending
    line, at most 1023 bytes (src/vortex_frame_factory.c:1344-1362). *)
Definition http_readline (pending : bytes) (s : sock) : rl_res * sock :=
  let desp := zlen pending in
  if 1024 <=? desp then (RLErr, s)
  else readline_loop (Z.to_nat (1024 - desp - 1)) true pending s.

(** What happened and what the caller got.
    [h_sent]: the request written to the proxy; [h_start]: where the greetings
    exchange starts, that is, the pending line kept in the connection and what is
    left in the socket; [h_told]: the values of vortex_connection_is_ok seen by
    the on_connected handler, one per call; [h_ret]: the result of the function
    (None is NULL; Some ok a connection); [h_flag]: VORTEX_HTTP_ENABLED was set on
    the connection; [h_freed]: the data of the call, with its reference to the
    setup, was released; [h_up]: the connection is connected at the end. *)
Record hres := mkH {
  h_sent : option bytes;
  h_start : option (bytes * sock);
  h_told : list bool;
  h_ret : option bool;
  h_flag : bool;
  h_freed : bool;
  h_up : bool
}.

(** report_conn (http/vortex_http.c:349-367). *)
Definition report (handler : bool) (sent : option bytes) (start : option (bytes * sock)) (ok : bool) : hres :=
  if handler then mkH sent start [ok] None false true ok
  else mkH sent start [] (Some ok) true true ok.

(** The connection to the proxy: [PNone] the TCP connection failed
    (http/vortex_http.c:264-274), [PSet] the socket could not be set (279-284),
    [PSend] the request could not be written (290-295), [PUp s] everything went
    well and [s] is what the socket gives. *)
Inductive proxy := PNone | PSet | PSend | PUp (s : sock).

(** __vortex_http_connection_new (http/vortex_http.c:241-368).  [greet] is the
    result of vortex_connection_do_greetings_exchange on what is left.  In the
    negative branch (http/vortex_http.c:317-323) the connection is returned at
    once: no handler, nothing released. *)
Definition http_new (host port : bytes) (handler : bool) (px : proxy) (greet : bytes -> sock -> bool) : hres :=
  match px with
  | PNone | PSet => report handler (@None bytes) (@None (bytes * sock)) false
  | PSend => report handler (@None bytes) (@None (bytes * sock)) false
  | PUp s =>
    let sent := Some (connect_header host port) in
    match http_readline [] s with
    | (RLEof, _) | (RLErr, _) | (RLAgain _, _) => report handler sent (@None (bytes * sock)) false
    | (RLine _ line, s1) =>
      if negb (is_positive line) then
        mkH sent (@None (bytes * sock)) [] (if handler then None else Some false) false false false
      else
        let '(r2, s2) := http_readline [] s1 in
        let pending := match r2 with RLAgain p => p | _ => [] end in
        report handler sent (Some (pending, s2)) (greet pending s2)
    end
  end.

(** vortex_http_connection_is_proxied (http/vortex_http.c:454-458) *)
Definition is_proxied (r : hres) : bool := h_flag r.
