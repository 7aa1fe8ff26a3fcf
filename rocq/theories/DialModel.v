(** How a client connects: the wait for a socket (__vortex_connection_wait_on,
    src/vortex_connection.c 1463-1609), the limit of sockets (7250-7280), the check of
    the descriptor (356-383), vortex_connection_sock_connect_common (1697-1871),
    __vortex_connection_new (2027-2140) and the start of
    vortex_connection_new_full_common (2142-2248).

    The kernel is a parameter: what each call gives, errno included, and the
    clock each time it is read.  Allocations do not fail.  int has 32 bits and time_t 64: an
    addition of ints that overflows is undefined behaviour. *)
From Verif Require Import Base.

Definition EINTR : Z := 4.
Definition EBADF : Z := 9.
Definition EAGAIN : Z := 11.
Definition EINPROGRESS : Z := 115.

(** * The wait *)
(** An iteration (1510-1591): the clock, if the socket is added to the set, the value of the
    wait and errno after it, and the error of the socket; [None]: it could not be read. *)
Record iter := mkIt { i_now : Z; i_add : bool; i_wait : Z; i_errno : Z; i_so : option Z }.
(** The value, the error of the socket told to the caller, the period left and whether a
    waiting set is left undestroyed; or what comes next is not known. *)
Inductive wres := WRet (err so left : Z) (leak : bool) | WMore.
(** The end (1593-1608), with the clock read twice. *)
Definition wait_end (start period now1 now2 err so : Z) : wres :=
  WRet (if start + period <=? now1 then -2 else err) so (s32 (period - (now2 - start))) false.
Fixpoint wait_loop (start period now1 now2 : Z) (its : list iter) (err : Z) : wres :=
  match its with
  | [] => WMore
  | i :: r =>
      if start + period <=? i_now i then wait_end start period now1 now2 err 0
      else if negb (i_add i) then wait_end start period now1 now2 (-4) 0
      else if i_errno i =? EBADF then WRet (-3) 0 period false
      else if i_wait i =? -2 then wait_loop start period now1 now2 r (-2)
      else if i_wait i =? -1 then
        if (i_errno i =? EINTR) || (i_errno i =? EAGAIN) then wait_loop start period now1 now2 r (-1)
        else WRet (-3) (i_errno i) period false
      else if i_wait i =? 0 then wait_loop start period now1 now2 r 0
      else if 0 <? i_wait i then
        match i_so i with
        | None => wait_end start period now1 now2 (-5) 0
        | Some e => if e =? 0 then wait_end start period now1 now2 (i_wait i) 0 else wait_end start period now1 now2 (-6) e
        end
      else WRet (-1) 0 period true
  end.
(** [create]: the set was created.  The clock is stored in an int (1503). *)
Definition wait_on (create : bool) (now period now1 now2 : Z) (its : list iter) : outcome wres :=
  if period <=? 0 then Ok (WRet (-2) 0 period false)
  else if negb create then Ok (WRet (-3) 0 period false)
  else let start := s32 now in
       if two31 <=? start + period then UB else Ok (wait_loop start period now1 now2 its (-2)).

(** * The connect *)
(** [o_known]: the transport is IPv4 or IPv6; [o_sock]: the descriptor or -1; [o_temp]: a second
    socket could be created; [o_check]: the check of descriptors is enabled; [o_want]: the caller
    gives a place for the timeout; [o_connect]: errno if connect fails. *)
Record net := mkNet {
  o_res : bool; o_known : bool; o_sock : Z; o_temp : bool; o_check : bool; o_want : bool; o_timeout : Z;
  o_connect : option Z; o_create : bool; o_start : Z; o_its : list iter; o_now1 : Z; o_now2 : Z
}.
Inductive code := NameResolvFailure | SocketSanityError | ConnectionError | ConnectionTimeout.
(** The value, the error reported, how many times the socket was closed, the timeout left
    and whether a waiting set is leaked. *)
Record dialed := mkD { d_sess : Z; d_code : option code; d_closed : Z; d_left : Z; d_leak : bool }.
Definition failed (c : code) (closed left : Z) (leak : bool) : outcome (option dialed) :=
  Ok (Some (mkD (-1) (Some c) closed left leak)).
(** vortex_connection_do_sanity_check, with a context. *)
Definition sane (check : bool) (s : Z) : bool :=
  if check then negb ((s <? 0) || (s =? 0) || (s =? 1) || (s =? 2)) else true.
(** The timeout in seconds (1761-1769). *)
Definition seconds (o : net) : Z :=
  if o_want o then let t := s32 (o_timeout o) in if 0 <? t then t / 1000000 else t else 0.
Definition dial (o : net) : outcome (option dialed) :=
  if negb (o_res o) then failed NameResolvFailure 0 0 false
  else if negb (o_known o) then failed NameResolvFailure 0 0 false
  else if o_sock o =? -1 then failed NameResolvFailure 0 0 false
  (* vortex_connection_check_socket_limit closes the socket *)
  else if negb (o_temp o) then failed SocketSanityError 1 0 false
  (* the error is a format with %d and no argument (1750-1751) *)
  else if negb (sane (o_check o) (o_sock o)) then UB
  else
    let t := seconds o in
    let refused := match o_connect o with
                   | None => false
                   | Some e => negb (o_want o) || (negb (e =? EINPROGRESS) && negb (e =? EAGAIN))
                   end in
    if refused then failed ConnectionError 1 t false
    else if o_want o && (0 <? t) then
      let! w := wait_on (o_create o) (o_start o) t (o_now1 o) (o_now2 o) (o_its o) in
      match w with
      | WMore => Ok None
      | WRet err so rest leak =>
          if 0 <? err then Ok (Some (mkD (o_sock o) None 0 rest leak))
          else if (err =? -6) && negb (so =? 0) then failed ConnectionError 1 rest leak
          else if err =? -2 then failed ConnectionTimeout 1 rest leak
          else failed ConnectionError 1 rest leak
      end
    else Ok (Some (mkD (o_sock o) None 0 t false)).

(** * The connection *)
(** Whether the handler is defined, getsockname and getnameinfo work, and how the greetings end. *)
Record newin := mkNew { m_threaded : bool; m_dial : dialed; m_sockname : bool; m_nameinfo : bool; m_greet : bool }.
(** How many times the handler was called, whether a connection is returned, how many times
    the options were released, whether the connection is connected and its socket open. *)
Record newout := mkOut { x_told : Z; x_ret : bool; x_released : Z; x_up : bool; x_open : bool }.
(** The end (2125-2139). *)
Definition new_end (threaded up : bool) : newout :=
  if threaded then mkOut 1 false 1 up up else mkOut 0 true 1 up up.
Definition connection_new (m : newin) : newout :=
  if d_sess (m_dial m) =? -1 then new_end (m_threaded m) false
  (* 2095-2102 *)
  else if negb (m_sockname m) then mkOut 0 false 1 true true
  (* 2107-2110 *)
  else if negb (m_nameinfo m) then mkOut 0 false 0 true true
  else new_end (m_threaded m) (m_greet m).
(** vortex_connection_new_full_common: refused (2152-2164) or made, by the pool if there is a
    handler, whose tasks are all run. *)
Definition new_full (ready args : bool) (m : newin) : newout :=
  if negb ready || negb args then mkOut 0 false 1 false false else connection_new m.
