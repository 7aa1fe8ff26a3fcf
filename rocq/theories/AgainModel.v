(** How a connection is made again: vortex_connection_reconnect
    (src/vortex_connection.c 2725-2792), the notification of its channels
    (__vortex_connection_foreach_check_and_notify, 2649-2678, and
    __vortex_connection_check_and_notify, 2564-2646), what __vortex_connection_new
    (2027-2140) and vortex_connection_do_greetings_exchange (1897-2013) do with a connection that
    was used before, and the registration in the reader (src/vortex_reader.c 1526-1560) with its
    visits (990-1060).

    The frame reader is the one of CodecModel.  The end of a session by a thread other than the
    reader is [end_session].  A timeout is set for the
    greetings: when the new socket gives nothing more, it runs out.  What is parsed of the greetings is a
    parameter.  Allocations do not fail. *)
From Verif Require Import Base CodecModel.

(** How bytes are sent and received: the default handlers, or the ones of a TLS session made
    over the socket given (tls/vortex_tls.c); a TLS session outlives its socket. *)
Inductive io := IOClear | IOTls (k : nat).

(** A channel: its number and if a closed handler is set (vortex_channel_invoke_closed,
    src/vortex_channel.c 1754-1764). *)
Record chan := mkC { c_num : Z; c_told : bool }.

(** What the application is told. *)
Inductive told :=
| TClosed (n : Z)              (** the closed handler of the channel *)
| TGlobal (n : Z)              (** the global handler of removed channels *)
| TRemoved (n : Z) (h : nat)   (** a handler of removed channels of the connection *)
| TCreated                     (** the handler of connections created *)
| TConnected (ok : bool).      (** on_connected, with what vortex_connection_is_ok gives *)

(** The connection (src/vortex_connection_private.h): [l_rd] is what the frame reader keeps,
    is_connected included; [l_sock] the socket, if any; [l_piece] the piece of greetings kept as
    VORTEX_GREETINGS_PENDING_FRAME; [l_addrs] the local addresses allocated and not released;
    [l_watch] the entries of the reader for the connection, waiting or watched, each with a
    reference of [l_refs]. *)
Record link := mkL {
  l_id : Z; l_data : list (bytes * Z); l_refs : Z; l_profiles : list bytes;
  l_rd : rconn; l_piece : option bytes; l_sock : option nat; l_io : io;
  l_chans : list chan; l_pools : list Z; l_nextpool : Z; l_last : Z;
  l_msg : option bytes; l_addrs : nat; l_watch : nat
}.

(** vortex_connection_is_ok (src/vortex_connection.c 3311-3333). *)
Definition up (l : link) : bool :=
  match l_sock l, r_down (l_rd l) with Some _, None => true | _, _ => false end.

(** The handlers: the global one, and the ones of the connection. *)
Record env := mkEnv { v_global : bool; v_removed : nat; v_created : bool }.

(** A channel being removed (2649-2678): the closed handler, the global one except for the
    channel 0, and each handler of the connection. *)
Definition tell_chan (v : env) (c : chan) : list told :=
  (if c_told c then [TClosed (c_num c)] else []) ++
  (if negb (c_num c =? 0) && v_global v then [TGlobal (c_num c)] else []) ++
  map (TRemoved (c_num c)) (seq 0 (v_removed v)).

(** The bytes of the new socket as the receive handler gives them.  The handler of a TLS session
    over a socket closed gives an error: what arrives is not a record of that session. *)
Definition through (i : io) (s : sock) : sock :=
  match i with IOClear => s | IOTls _ => [SErr] end.

(** The greetings are awaited: vortex_greetings_process (src/vortex_greetings.c 271-327) within
    the loop of vortex_connection_do_greetings_exchange.  [fuel]: the reads made before the time left for
    the greetings runs out.  [chans]: the channel 0 is the only one. *)
Inductive gres := GNone (rd : rconn) (piece : option bytes) | GFrame (rd : rconn) (f : frame) (payload : bytes).
Definition joined (piece : option bytes) (p : bytes) : bytes :=
  match piece with Some q => q ++ p | None => p end.
Fixpoint await (fuel : nat) (chans : Z -> option chwin) (rd : rconn) (piece : option bytes) (s : sock) : outcome gres :=
  match fuel with
  | O => Ok (GNone rd piece)
  | S fuel' =>
      match wait_readable s with
      | [] => Ok (GNone rd piece)
      | s0 =>
          let! (rd', s', o) := get_next chans rd s0 in
          match o with
          | Some f =>
              let p := joined piece (f_payload f) in
              if f_more f then await fuel' chans rd' (Some p) s' else Ok (GFrame rd' f p)
          | None => match r_down rd' with Some _ => Ok (GNone rd' piece) | None => await fuel' chans rd' piece s' end
          end
      end
  end.
(** What the network gives: the connect fails with a message; the local address cannot be got
    (getsockname or getnameinfo, 2099-2114); or the socket, whether the greetings of this peer could
    be sent over it, the reads there is time for, and what arrives. *)
Inductive attempt := AFail (msg : bytes) | ANoAddr (k : nat) | AUp (k : nat) (sent : bool) (n : nat) (s : sock).

Definition with_rd (rd : rconn) (l : link) : link :=
  mkL (l_id l) (l_data l) (l_refs l) (l_profiles l) rd (l_piece l) (l_sock l) (l_io l) (l_chans l) (l_pools l)
      (l_nextpool l) (l_last l) (l_msg l) (l_addrs l) (l_watch l).
(** is_connected: the reason it was lost is forgotten, what was read is not. *)
Definition revive (rd : rconn) : rconn := mkR None (r_pending rd) (r_partial rd) (r_nodata rd).
Definition dead (w : why) (rd : rconn) : rconn := mkR (Some w) (r_pending rd) (r_partial rd) (r_nodata rd).

(** The session over.  The socket is closed and the connection flagged: the reader does it itself, and any
    thread that fails to write, closes or shuts the connection down. *)
Definition end_session (w : why) (l : link) : link :=
  mkL (l_id l) (l_data l) (l_refs l) (l_profiles l) (shutdown (l_rd l) w) (l_piece l) None (l_io l) (l_chans l) (l_pools l)
      (l_nextpool l) (l_last l) (l_msg l) (l_addrs l) (l_watch l).

(** The values of [l_msg] that matter: none, an error, or "session established and ready". *)
Definition m_error : bytes := [101].
Definition m_ready : bytes := [114].

(** __vortex_connection_new (2027-2140) on a connection without channels: the value is the
    connection or NULL. *)
Definition chan0 : chan := mkC 0 false.
Definition dial_again (v : env) (parse : frame -> bytes -> option (list bytes)) (chans : Z -> option chwin)
           (threaded : bool) (a : attempt) (l : link) : outcome (option link * link * list told) :=
  let l0 := mkL (l_id l) (l_data l) (l_refs l) (l_profiles l) (l_rd l) (l_piece l) (l_sock l) (l_io l) (chan0 :: l_chans l) (l_pools l)
                (l_nextpool l) (l_last l) (l_msg l) (l_addrs l) (l_watch l) in
  let told0 := if v_created v then [TCreated] else [] in
  let finish (l' : link) :=
    if threaded then Ok (None, l', told0 ++ [TConnected (up l')]) else Ok (Some l', l', told0) in
  match a with
  | AFail msg =>
      finish (mkL (l_id l0) (l_data l0) (l_refs l0) (l_profiles l0) (dead WError (l_rd l0)) (l_piece l0) None (l_io l0) (l_chans l0)
                  (l_pools l0) (l_nextpool l0) (l_last l0) (Some msg) (l_addrs l0) (l_watch l0))
  | ANoAddr k =>
      Ok (None, mkL (l_id l0) (l_data l0) (l_refs l0) (l_profiles l0) (revive (l_rd l0)) (l_piece l0) (Some k) (l_io l0) (l_chans l0)
                    (l_pools l0) (l_nextpool l0) (l_last l0) (l_msg l0) (l_addrs l0) (l_watch l0), told0)
  | AUp k sent n s =>
      (* the local address and port, over the ones of the session before *)
      let l1 := mkL (l_id l0) (l_data l0) (l_refs l0) (l_profiles l0) (revive (l_rd l0)) (l_piece l0) (Some k) (l_io l0) (l_chans l0)
                    (l_pools l0) (l_nextpool l0) (l_last l0) (l_msg l0) (S (l_addrs l0)) (l_watch l0) in
      if negb sent then finish (end_session WError l1)
      else
        let! g := await n chans (l_rd l1) (l_piece l1) (through (l_io l1) s) in
        match g with
        | GNone rd piece =>
            (* the socket closed and the connection flagged, 1938-1960 and 1974-1988 *)
            finish (mkL (l_id l1) (l_data l1) (l_refs l1) (l_profiles l1) (dead WClosed rd) piece None (l_io l1) (l_chans l1)
                        (l_pools l1) (l_nextpool l1) (l_last l1) (Some m_error) (l_addrs l1) (l_watch l1))
        | GFrame rd f p =>
            match parse f p with
            | None => finish (end_session WError (mkL (l_id l1) (l_data l1) (l_refs l1) (l_profiles l1) rd None (l_sock l1) (l_io l1) (l_chans l1)
                        (l_pools l1) (l_nextpool l1) (l_last l1) (Some m_error) (l_addrs l1) (l_watch l1)))
            | Some profiles =>
                (* vortex_connection_parse_greetings_and_enable (7004-7056): the reader is given a reference *)
                finish (mkL (l_id l1) (l_data l1) (l_refs l1 + 1) profiles rd None (l_sock l1) (l_io l1) (l_chans l1)
                            (l_pools l1) (l_nextpool l1) (l_last l1) (Some m_ready) (l_addrs l1) (S (l_watch l1)))
            end
        end
  end.

(** vortex_connection_reconnect: with a handler the connect is made by another thread, whose end is what
    is told last. *)
Definition reconnect (v : env) (parse : frame -> bytes -> option (list bytes)) (chans : Z -> option chwin)
           (handler : bool) (a : attempt) (c : option link) : outcome (bool * option link * list told) :=
  match c with
  | None => Ok (false, None, [])
  | Some l =>
      if up l then Ok (true, Some l, [])
      else
        let told1 := flat_map (tell_chan v) (l_chans l) in
        let l1 := mkL (l_id l) (l_data l) (l_refs l) (l_profiles l) (l_rd l) (l_piece l) (l_sock l) (l_io l) [] []
                      0 (l_last l) None (l_addrs l) (l_watch l) in
        let! (r, l2, told2) := dial_again v parse chans handler a l1 in
        Ok (if handler then true else match r with Some c => up c | None => false end, Some l2, told1 ++ told2)
  end.

(** * The entries of the reader *)
(** The reader visits an entry (src/vortex_reader.c 992-1003, 1094-1107): that of a connection that is not ok
    is removed, and its reference released.  Other threads take and release references. *)
Inductive ev := EEnd (w : why) | EVisit | EAgain (handler : bool) (a : attempt) | ERef | EUnref.
Definition visit (l : link) : link :=
  if up l then l
  else match l_watch l with
       | O => l
       | S n => mkL (l_id l) (l_data l) (l_refs l - 1) (l_profiles l) (l_rd l) (l_piece l) (l_sock l) (l_io l) (l_chans l)
                    (l_pools l) (l_nextpool l) (l_last l) (l_msg l) (l_addrs l) n
       end.
Definition refs_add (n : Z) (l : link) : link :=
  mkL (l_id l) (l_data l) (l_refs l + n) (l_profiles l) (l_rd l) (l_piece l) (l_sock l) (l_io l) (l_chans l)
      (l_pools l) (l_nextpool l) (l_last l) (l_msg l) (l_addrs l) (l_watch l).
Definition estep (v : env) (parse : frame -> bytes -> option (list bytes)) (chans : Z -> option chwin) (l : link) (e : ev)
  : outcome (link * list told) :=
  match e with
  | EEnd w => Ok (end_session w l, [])
  | EVisit => Ok (visit l, [])
  | EAgain handler a =>
      let! (b, o, t) := reconnect v parse chans handler a (Some l) in
      match o with Some l' => Ok (l', t) | None => Ok (l, t) end
  | ERef => Ok (refs_add 1 l, [])
  | EUnref => Ok (refs_add (-1) l, [])
  end.
Fixpoint life (v : env) (parse : frame -> bytes -> option (list bytes)) (chans : Z -> option chwin) (l : link) (es : list ev)
  : outcome (link * list told) :=
  match es with
  | [] => Ok (l, [])
  | e :: r => let! (l', t) := estep v parse chans l e in
              let! (l'', t') := life v parse chans l' r in Ok (l'', t ++ t')
  end.
