(** Transports that hold data back: the reader over TLS and over WebSocket, where the socket does not
    tell all there is to read (__vortex_reader_process_socket_pending, src/vortex_reader.c 646-666;
    vortex_tls_ssl_read, tls/vortex_tls.c 444-527; vortex_websocket_read,
    web-socket/vortex_websocket.c 362-423), and the greetings a client awaits on them
    (vortex_greetings_process, src/vortex_greetings.c 286-320;
    vortex_connection_do_greetings_exchange, src/vortex_connection.c 1915-1965).

    The transport takes records (TLS) or messages (WebSocket) whole from the socket: a read gives bytes
    of one of them and keeps the rest.  OpenSSL and noPoll are not in the repository: a read gives what
    is held, or takes the next record, or says there is nothing when none is complete.  The frames
    are read by vortex_frame_get_next as in CodecModel.  A connection has no preread handler here. *)
From Verif Require Import Base CodecModel.

(** What is in the socket: a whole record, a piece that completes none, the end. *)
Inductive tev := TRec (bs : bytes) | TPiece | TEof.
(** What the transport holds and what is in the socket. *)
Record tr := mkTr { t_held : bytes; t_net : list tev }.
(** What successive reads find. *)
Definition ev (e : tev) : sev := match e with TRec bs => SData bs | TPiece => SData [] | TEof => SEof end.
Definition view (t : tr) : sock :=
  match t_held t with [] => [] | _ => [SData (t_held t)] end ++ map ev (t_net t).
(** select, poll and epoll tell of the socket alone. *)
Definition readable (t : tr) : bool := match t_net t with [] => false | _ => true end.
(** The transport when [s] is what is left to read: a record read in part is held. *)
Fixpoint settle_net (net : list tev) (s : sock) : tr :=
  if Nat.eqb (length net) (length s) then
    match s, net with
    | SData bs :: _, TRec bs0 :: net' => if Nat.eqb (length bs) (length bs0) then mkTr [] net else mkTr bs net'
    | _, _ => mkTr [] net
    end
  else match net with [] => mkTr [] [] | _ :: net' => settle_net net' s end.
Definition settle (t : tr) (s : sock) : tr :=
  if Nat.ltb (length (t_net t)) (length s)
  then mkTr (match s with SData bs :: _ => bs | _ => [] end) (t_net t)
  else settle_net (t_net t) s.

(** * The reader *)
Inductive kind := TLS | WS.
(** There is something to read, or the end. *)
Definition hears (s : sock) : bool :=
  existsb (fun e => match e with SData (_ :: _) | SEof => true | _ => false end) s.
(** [p_flag] is "try_read_pending"; [p_unw] reader_unwatch; [p_i] the frames read so far. *)
Record pst := mkP { p_c : rconn; p_t : tr; p_flag : Z; p_unw : bool; p_i : nat }.
(** vortex_frame_get_next over the transport.  TLS sets the flag in each read (484), WebSocket in those that give data (419)
    and not when there is none (384). *)
Definition get (k : kind) (chans : Z -> option chwin) (c : rconn) (t : tr) (flag : Z) : outcome (rconn * tr * Z * option frame) :=
  let! (c', s', o) := get_next chans c (view t) in
  let t' := settle t s' in
  let flag' := match k with
               | TLS => zlen (t_held t')
               | WS => if hears (view t) then zlen (t_held t') else flag
               end in
  Ok (c', t', flag', o).
(** __vortex_reader_process_socket (296-308): nothing is read from a connection that is not ok or is unwatched.  [stop i]:
    the i-th frame makes its handler unwatch the connection, as the start of TLS does. *)
Definition process_socket (k : kind) (chans : nat -> Z -> option chwin) (stop : nat -> bool) (p : pst) : outcome (pst * list frame) :=
  if match r_down (p_c p) with Some _ => true | None => p_unw p end then Ok (p, [])
  else
    let! (c, t, flag, o) := get k (chans (p_i p)) (p_c p) (p_t p) (p_flag p) in
    match o with
    | Some f => Ok (mkP c t flag (stop (p_i p)) (S (p_i p)), [f])
    | None => Ok (mkP c t flag false (p_i p), [])
    end.
(** __vortex_reader_process_socket_pending (646-666); [None]: more turns than [fuel]. *)
Fixpoint pending (fuel : nat) (k : kind) (chans : nat -> Z -> option chwin) (stop : nat -> bool) (p : pst)
  : outcome (option (pst * list frame)) :=
  match fuel with
  | O => Ok None
  | S fuel' =>
      let! (p, fs) := process_socket k chans stop p in
      if p_flag p <=? 0 then Ok (Some (p, fs))
      else
        let p := mkP (p_c p) (p_t p) 0 (p_unw p) (p_i p) in
        match r_down (p_c p) with
        | Some _ => Ok (Some (p, fs))
        | None =>
            let! r := pending fuel' k chans stop p in
            match r with None => Ok None | Some (p, fs') => Ok (Some (p, fs ++ fs')) end
        end
  end.
(** The reader thread, while the socket is readable (1100-1130, 1255-1287). *)
Fixpoint reader (fuel : nat) (k : kind) (chans : nat -> Z -> option chwin) (stop : nat -> bool) (p : pst)
  : outcome (option (pst * list frame)) :=
  match fuel with
  | O => Ok None
  | S fuel' =>
      if negb (readable (p_t p)) || p_unw p || match r_down (p_c p) with Some _ => true | None => false end then Ok (Some (p, []))
      else
        let! r := pending fuel k chans stop p in
        match r with
        | None => Ok None
        | Some (p, fs) =>
            let! r := reader fuel' k chans stop p in
            match r with None => Ok None | Some (p, fs') => Ok (Some (p, fs ++ fs')) end
        end
  end.
(** Things come to the socket and the reader reads them. *)
Definition arrive (p : pst) (b : list tev) : pst :=
  mkP (p_c p) (mkTr (t_held (p_t p)) (t_net (p_t p) ++ b)) (p_flag p) (p_unw p) (p_i p).
Fixpoint run (fuel : nat) (k : kind) (chans : nat -> Z -> option chwin) (stop : nat -> bool) (p : pst) (bs : list (list tev))
  : outcome (option (pst * list frame)) :=
  match bs with
  | [] => Ok (Some (p, []))
  | b :: bs' =>
      let! r := reader fuel k chans stop (arrive p b) in
      match r with
      | None => Ok None
      | Some (p, fs) =>
          let! r := run fuel k chans stop p bs' in
          match r with None => Ok None | Some (p, fs') => Ok (Some (p, fs ++ fs')) end
      end
  end.

(** * The greetings a client awaits *)
(** What ends the wait: the frames of the greetings, the end of the connection, or nothing more to read in the socket: the timeout. *)
Inductive awaited := AFrames (fs : list frame) | ADown | ATimeout.
(** vortex_greetings_process reads one frame; one with the flag more set is stored (302-309).  With no greetings yet the client
    waits for the socket (src/vortex_connection.c 1936-1960). *)
Fixpoint await (fuel : nat) (k : kind) (chans : Z -> option chwin) (c : rconn) (t : tr) (flag : Z) (got : list frame)
  : outcome (option (awaited * rconn * tr * Z)) :=
  match fuel with
  | O => Ok None
  | S fuel' =>
      let! (c, t, flag, o) := get k chans c t flag in
      match o with
      | Some f =>
          if f_more f then
            if readable t then await fuel' k chans c t flag (got ++ [f]) else Ok (Some (ATimeout, c, t, flag))
          else Ok (Some (AFrames (got ++ [f]), c, t, flag))
      | None =>
          match r_down c with
          | Some _ => Ok (Some (ADown, c, t, flag))
          | None => if readable t then await fuel' k chans c t flag got else Ok (Some (ATimeout, c, t, flag))
          end
      end
  end.
