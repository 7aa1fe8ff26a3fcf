(** Model of vortex_frame_send_raw, the function that writes the bytes of a
    frame to the socket.  Source: src/vortex_frame_factory.c:1937-2064. *)
From Verif Require Import Base.

(** Result of one call to vortex_connection_invoke_send: [Sent n] n bytes were
    taken ([n <= 0] is the "0" result; no more than requested), [SIntrS] EINTR,
    [SBlock] EAGAIN / EWOULDBLOCK / -2, [SFail] any other error. *)
Inductive sres := Sent (n : Z) | SIntrS | SBlock | SFail.

(** Result of one wait for the socket to be writable
    (src/vortex_frame_factory.c:1966-2008): [WReady] (> 0), [WTimeout] (0, -1, -2),
    [WFail] (-3, or the descriptor could not be added to the waiting set). *)
Inductive wres := WReady | WTimeout | WFail.

(** Outcome: [Fin ok down w]: the function returned [ok], the connection was
    shut down or not, and [w] are the bytes the socket took.  [Still w]: the
    given results are over and the function is still running. *)
Inductive sout := Fin (ok down : bool) (w : bytes) | Still (w : bytes).

(** The loop.  [sends], [waits]: results of the successive calls; [rest]: bytes
    not written yet; [w]: bytes written. *)
Fixpoint send_loop (disable : bool) (sends : list sres) (waits : list wres)
         (tries : Z) (rest w : bytes) : sout :=
  match sends with
  | [] => Still w
  | r :: sends' =>
    let retry tries rest w :=
      match waits with
      | [] => Still w
      | WReady :: waits' => send_loop disable sends' waits' tries rest w
      | WFail :: _ => Fin (zlen rest =? 0) true w
      | WTimeout :: waits' =>
        let tries := tries - 1 in
        if disable then send_loop disable sends' waits' tries rest w
        else if tries =? 0 then Fin (zlen rest =? 0) true w
        else send_loop disable sends' waits' tries rest w
      end in
    match r with
    | SIntrS => send_loop disable sends' waits tries rest w
    | SBlock => retry tries rest w
    | SFail => Fin (zlen rest =? 0) true w
    | Sent n =>
      if n <=? 0 then Fin (zlen rest =? 0) true w
      else
        let k := Z.to_nat (Z.min n (zlen rest)) in
        let w' := w ++ firstn k rest in
        let rest' := skipn k rest in
        if zlen rest' =? 0 then Fin true false w'
        else
          let tries := tries - 1 in
          if tries =? 0 then Fin false false w'
          else retry tries rest' w'
    end
  end.

(** vortex_frame_send_raw.  [timeout] is ctx->conn_close_on_write_timeout,
    [disable] is ctx->disable_conn_close_on_write_timeout, [up] is
    vortex_connection_is_ok. *)
Definition send_raw (timeout : Z) (disable up : bool) (sends : list sres) (waits : list wres)
           (frame : bytes) : sout :=
  if up then send_loop disable sends waits (if 0 <? timeout then timeout else 3) frame []
  else Fin false true [].

(** The frames of a connection sent one after the other by
    vortex_sequencer_direct_send (src/vortex_sequencer.c:790-835): a failure is
    only logged by the sequencer, which goes on with the next frame.  Each
    frame comes with its environment.  Result: what is on the wire and whether
    the connection is up; [None] when some call did not return. *)
Fixpoint send_frames (timeout : Z) (disable up : bool)
         (l : list (bytes * list sres * list wres)) : option (bytes * bool) :=
  match l with
  | [] => Some ([], up)
  | (f, sends, waits) :: l' =>
    match send_raw timeout disable up sends waits f with
    | Still _ => None
    | Fin _ down w =>
      match send_frames timeout disable (up && negb down) l' with
      | None => None
      | Some (w', up') => Some (w ++ w', up')
      end
    end
  end.
