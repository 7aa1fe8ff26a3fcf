(** Model of the sequencer: how queued messages become frames.
    Source: src/vortex_sequencer.c. *)
From Verif Require Import Base CodecModel FlowModel.

(** CHECK_AND_INCREASE_BUFFER (src/vortex_sequencer.c:226-246): the new buffer
    size.  Signed overflow, in the comparison or in the loop, is [UB].  The
    loop doubles [buffer_size - 100 > 0], so 32 iterations always reach either
    its end or the overflow. *)
Fixpoint grow_loop (fuel : nat) (size cap : Z) : outcome Z :=
  match fuel with
  | O => UB
  | S fuel' =>
    if cap <? size + 100
    then (if two31 <=? (cap - 100) * 2 + 100 then UB
          else grow_loop fuel' size ((cap - 100) * 2 + 100))
    else Ok cap
  end.
Definition check_and_increase (size cap : Z) : outcome Z :=
  if two31 <=? size + 100 then UB
  else if cap <? size + 100
       then (if 100 <? cap then grow_loop 40 size cap else Ok (size + 100))
       else Ok cap.

(** A payload feeder handler (src/vortex_payload_feeder.h, the four operations
    of VortexPayloadFeederHandler): what the handler does with a state of type
    [A]: GET_SIZE, GET_CONTENT with the size requested (bytes placed in the
    buffer; the returned size is their number) and IS_FINISHED. *)
Record fops (A : Type) := mkOps {
  op_size : A -> outcome Z;
  op_content : A -> Z -> outcome (bytes * A);
  op_finished : A -> bool
}.
Arguments op_size {A}. Arguments op_content {A}. Arguments op_finished {A}.
Arguments mkOps {A}.

(** VortexPayloadFeeder (src/vortex_payload_feeder.c): handler state, status
    (0, or -1 once paused), close_transfer, bytes_transferred, whether there is
    a finish handler, and how many times it was called. *)
Record feeder (A : Type) := mkFeeder {
  fe_state : A;
  fe_status : Z;
  fe_close : bool;
  fe_transferred : Z;
  fe_handler : bool;
  fe_notified : bool;
  fe_calls : Z
}.
Arguments mkFeeder {A}. Arguments fe_state {A}. Arguments fe_status {A}. Arguments fe_close {A}.
Arguments fe_transferred {A}. Arguments fe_handler {A}. Arguments fe_notified {A}. Arguments fe_calls {A}.

(** VortexSequencerData (src/vortex_types.h / vortex_sequencer.h): a queued message. *)
Record qdata (A : Type) := mkQ {
  q_type : ftype;
  q_ch : Z;
  q_msgno : Z;
  q_ansno : Z;
  q_msg : bytes;
  q_step : Z;
  q_size : Z;
  q_fixed : bool;
  q_feeder : option (feeder A)
}.
Arguments mkQ {A}. Arguments q_type {A}. Arguments q_ch {A}. Arguments q_msgno {A}. Arguments q_ansno {A}.
Arguments q_msg {A}. Arguments q_step {A}. Arguments q_size {A}. Arguments q_fixed {A}. Arguments q_feeder {A}.

Section Ops.
Context {A : Type} (ops : fops A).

(** vortex_payload_feeder_is_finished (src/vortex_payload_feeder.c:298-322). *)
Definition feeder_is_finished (f : feeder A) : bool * feeder A :=
  let fin := op_finished ops (fe_state f) in
  if fin && fe_handler f && negb (fe_notified f)
  then (fin, mkFeeder (fe_state f) (fe_status f) (fe_close f) (fe_transferred f)
                      (fe_handler f) true (fe_calls f + 1))
  else (fin, f).

(** vortex_payload_feeder_get_content (src/vortex_payload_feeder.c:259-277) for
    a feeder that is not paused; the bytes go to a buffer of [cap] bytes. *)
Definition feeder_get_content (f : feeder A) (size cap : Z) : outcome (bytes * feeder A) :=
  let! (bs, st) := op_content ops (fe_state f) size in
  if cap <? zlen bs then UB
  else Ok (bs, mkFeeder st (fe_status f) (fe_close f) (fe_transferred f + zlen bs)
                        (fe_handler f) (fe_notified f) (fe_calls f)).

(** What vortex_sequencer_build_packet_to_send produces: a connection
    shutdown (return 0 and no frame), a pause (return -1, the message has been
    removed from the channel), or a frame: its bytes ([None] if the frame
    builder failed), the payload bytes it carries, packet->is_complete,
    packet->msg_no, and the data updated. *)
Inductive packet :=
| PShut
| PPaused
| PFrame (bs : option bytes) (payload : bytes) (complete : bool) (msgno : Z) (d : qdata A).

(** [firstn]/[skipn] on a C buffer: [n] bytes of [msg] from [step] on; reading
    outside the message is [UB]. *)
Definition slice (msg : bytes) (step n : Z) : outcome bytes :=
  if (0 <=? step) && (0 <=? n) && (step + n <=? zlen msg)
  then Ok (firstn (Z.to_nat n) (skipn (Z.to_nat step) msg))
  else UB.

Definition with_feeder (d : qdata A) (f : feeder A) : qdata A :=
  mkQ (q_type d) (q_ch d) (q_msgno d) (q_ansno d) (q_msg d) (q_step d) (q_size d) (q_fixed d) (Some f).

Definition build_up (cap : Z) (d : qdata A) (complete : bool) (first_seq : Z) (payload : bytes)
  : outcome (option bytes) :=
  build_frame cap (q_type d) (q_ch d) (q_msgno d) (negb complete || q_fixed d) first_seq (q_ansno d) payload.

(** vortex_sequencer_build_packet_to_send (src/vortex_sequencer.c:281-420).
    [a]: answers of the frame size handlers; [wsize]: channel window_size;
    [max_seq]: the limit read when the round started; [first_seq]: channel
    sequence number; [cap], [fcap]: sizes of the send and feeder buffers.
    Result: packet and the two buffer sizes.  An empty NUL jumps to
    build_frame with packet->msg_no still 0. *)
Definition build_packet (a : nfs_answers) (wsize max_seq first_seq cap fcap : Z) (d : qdata A)
  : outcome (packet * Z * Z) :=
  if (q_size d =? 0) && ftype_eqb (q_type d) TNUL then
    match q_feeder d with
    | None =>
      let! b := build_up cap d true first_seq [] in
      Ok (PFrame b [] true 0 d, cap, fcap)
    | Some f =>
      let (complete, f') := if negb (fe_status f =? 0) && fe_close f then (true, f) else feeder_is_finished f in
      let! b := build_up cap d complete first_seq [] in
      Ok (PFrame b [] complete 0 (with_feeder d f'), cap, fcap)
    end
  else
    let size := next_frame_size a wsize first_seq (q_size d) max_seq in
    if (q_size d <? size) || (size <=? 0) then Ok (PShut, cap, fcap)
    else
      match q_feeder d with
      | None =>
        let! cap := check_and_increase size cap in
        let! payload := slice (q_msg d) (q_step d) size in
        let complete := size =? q_size d in
        let! b := build_up cap d complete first_seq payload in
        Ok (PFrame b payload complete (q_msgno d) d, cap, fcap)
      | Some f =>
        if fe_status f =? 0 then
          let! fcap := check_and_increase size fcap in
          let! (content, f) := feeder_get_content f size fcap in
          let! cap := if 0 <? zlen content then check_and_increase (zlen content) cap else Ok cap in
          let (complete, f) := feeder_is_finished f in
          let! b := build_up cap d complete first_seq content in
          Ok (PFrame b content complete (q_msgno d) (with_feeder d f), cap, fcap)
        else if fe_close f then
          let! b := build_up cap d true first_seq [] in
          Ok (PFrame b [] true (q_msgno d) d, cap, fcap)
        else Ok (PPaused, cap, fcap)
      end.

(** ** One channel and the sequencer *)

(** State: window data of the channel, connection up, pending messages (first
    to be sent first), buffer sizes, limit read by a round in progress, bytes
    given to the connection, and message numbers whose complete reply was
    reported as sent (vortex_sequencer_direct_send,
    src/vortex_sequencer.c:822-833). *)
Record chst := mkCh {
  c_win : swin;
  c_up : bool;
  c_pend : list (qdata A);
  c_cap : Z;
  c_fcap : Z;
  c_round : option Z;
  c_out : list bytes;
  c_replies : list Z
}.

(** vortex_sequencer_init: buffer of 4096 + 100 (src/vortex_sequencer.c:727);
    the feeder buffer starts empty (calloc of the context). *)
Definition chst0 : chst := mkCh swin0 true [] 4196 0 None [] [].

(** The steps.  [EQueue]: vortex_sequencer_queue_data by any thread
    (src/vortex_sequencer.c:87-190).  [ESeq]: the reader processes a SEQ frame.
    [EWindow]: the receiving side of the same channel stores a new window_size.
    [EPause]: vortex_payload_feeder_pause on the feeder of the [n]th pending
    message.  [EDown]: the connection is lost for any other reason.  [EBegin], [EEnd]: the sequencer thread starts a round on the
    channel (the channel is not stalled; pending size, sequence number and
    limit are read) and finishes it.  The ready set and the choice of channel
    are a separate model (ReadyModel); here any not stalled channel can be
    chosen at any time. *)
Inductive sev :=
| EQueue (d : qdata A)
| ESeq (ackno window : Z)
| EWindow (w : Z)
| EPause (n : nat) (close : bool)
| EDown
| EBegin
| EEnd (a : nfs_answers).

(** do_send_round refreshes the pending size of a feeder
    (src/vortex_sequencer.c:451-452). *)
Definition refresh (d : qdata A) : outcome (qdata A) :=
  match q_feeder d with
  | None => Ok d
  | Some f =>
    let! sz := op_size ops (fe_state f) in
    Ok (mkQ (q_type d) (q_ch d) (q_msgno d) (q_ansno d) (q_msg d) (q_step d) sz (q_fixed d) (q_feeder d))
  end.

(** src/vortex_payload_feeder.c:389-400. *)
Definition pause (close : bool) (d : qdata A) : qdata A :=
  match q_feeder d with
  | None => d
  | Some f => with_feeder d (mkFeeder (fe_state f) (-1) close (fe_transferred f)
                                      (fe_handler f) (fe_notified f) (fe_calls f))
  end.
Fixpoint pause_nth (n : nat) (close : bool) (l : list (qdata A)) : list (qdata A) :=
  match n, l with
  | _, [] => []
  | O, d :: l' => pause close d :: l'
  | S n', d :: l' => d :: pause_nth n' close l'
  end.

(** STEP 1 of do_send_round for an incomplete message
    (src/vortex_sequencer.c:479-501); first_seq_no is refreshed in every round
    and so not kept. *)
Definition step_data (d : qdata A) (size : Z) : qdata A :=
  mkQ (q_type d) (q_ch d) (q_msgno d) (q_ansno d) (q_msg d) (q_step d + size) (q_size d - size)
      (q_fixed d) (q_feeder d).

Definition is_reply_end (t : ftype) : bool := ftype_eqb t TRPY || ftype_eqb t TNUL.

Definition sstep (s : chst) (e : sev) : outcome chst :=
  match e with
  | EQueue d =>
    Ok (mkCh (c_win s) (c_up s) (c_pend s ++ [d]) (c_cap s) (c_fcap s) (c_round s) (c_out s) (c_replies s))
  | ESeq ackno window =>
    if c_up s then
      match recv_seq (c_win s) ackno window with
      | Some w => Ok (mkCh w true (c_pend s) (c_cap s) (c_fcap s) (c_round s) (c_out s) (c_replies s))
      | None => Ok (mkCh (c_win s) false (c_pend s) (c_cap s) (c_fcap s) (c_round s) (c_out s) (c_replies s))
      end
    else Ok s
  | EWindow w =>
    Ok (mkCh (mkSW (sw_next (c_win s)) (sw_rc (c_win s)) (sw_rw (c_win s)) w) (c_up s) (c_pend s)
             (c_cap s) (c_fcap s) (c_round s) (c_out s) (c_replies s))
  | EPause n close =>
    Ok (mkCh (c_win s) (c_up s) (pause_nth n close (c_pend s)) (c_cap s) (c_fcap s) (c_round s)
             (c_out s) (c_replies s))
  | EDown =>
    Ok (mkCh (c_win s) false (c_pend s) (c_cap s) (c_fcap s) (c_round s) (c_out s) (c_replies s))
  | EBegin =>
    match c_round s, c_pend s with
    | None, d :: rest =>
      if is_stalled (c_win s) then Ok s
      else
        let! d := refresh d in
        Ok (mkCh (c_win s) (c_up s) (d :: rest) (c_cap s) (c_fcap s) (Some (max_remote (c_win s)))
                 (c_out s) (c_replies s))
    | _, _ => Ok s
    end
  | EEnd a =>
    match c_round s, c_pend s with
    | Some max_seq, d :: rest =>
      let w := c_win s in
      let! (p, cap, fcap) :=
        build_packet a (sw_wsize w) max_seq (sw_next w) (c_cap s) (c_fcap s) d in
      match p with
      | PShut => Ok (mkCh w false (c_pend s) cap fcap None (c_out s) (c_replies s))
      | PPaused => Ok (mkCh w (c_up s) rest cap fcap None (c_out s) (c_replies s))
      | PFrame bs payload complete msgno d' =>
        Ok (mkCh (advance w (zlen payload)) (c_up s)
                 (if complete then rest else step_data d' (zlen payload) :: rest)
                 cap fcap None
                 (match bs with
                  | Some b => if c_up s then c_out s ++ [b] else c_out s
                  | None => c_out s
                  end)
                 (if is_reply_end (q_type d) && complete && negb (q_fixed d)
                  then c_replies s ++ [msgno] else c_replies s))
      end
    | _, _ => Ok s
    end
  end.

Fixpoint srun (s : chst) (es : list sev) : outcome chst :=
  match es with
  | [] => Ok s
  | e :: es' => let! s' := sstep s e in srun s' es'
  end.
End Ops.
Arguments PShut {A}. Arguments PPaused {A}. Arguments PFrame {A}.
Arguments EQueue {A}. Arguments ESeq {A}. Arguments EWindow {A}. Arguments EPause {A}.
Arguments EDown {A}. Arguments EBegin {A}. Arguments EEnd {A}.
