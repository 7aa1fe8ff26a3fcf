(** Model of the ready set of the sequencer for one channel.
    Source: src/vortex_sequencer.c.  Threads: any number of senders (they enter
    one at a time, the critical section of state->mutex is split in two because
    the reader does not take that mutex to update the window), the reader and
    the sequencer thread. *)
From Verif Require Import Base.

(** The reader, after updating the window: about to look at the pending
    messages, or having found some and about to insert the channel. *)
Inductive rdpc := RdIdle | RdUpdated | RdInsert.
(** The sequencer thread: not at this channel, in the send round (mutex
    released), back from it. *)
Inductive sqpc := SqIdle | SqSend | SqAfter (complete paused : bool).

(** [y_pend]: pending messages of the channel; [y_avail]: octets left in the
    window (the channel is stalled iff there are none); [y_ready]: the channel
    is in state->ready; [y_adder]: a sender is inside add_channel. *)
Record yst := mkY {
  y_pend : Z;
  y_avail : Z;
  y_ready : bool;
  y_adder : bool;
  y_reader : rdpc;
  y_seq : sqpc
}.
Definition yst0 : yst := mkY 0 4096 false false RdIdle SqIdle.

Inductive yev :=
| YAddBegin | YAddEnd | YSeqFrame (n : Z) | YCheck | YInsert | YVisit
| YSend (k : Z) (complete paused : bool) | YAfter.

(** A step that is not possible leaves the state as it is (the thread waits). *)
Definition ystep (s : yst) (e : yev) : yst :=
  match e with
  | YAddBegin =>
    (* vortex_sequencer_add_channel, lock and stalled check (87-120) *)
    if y_adder s then s
    else mkY (y_pend s) (y_avail s) (y_ready s || negb (y_avail s =? 0)) true (y_reader s) (y_seq s)
  | YAddEnd =>
    (* vortex_channel_queue_pending_message and unlock (97-100, 122-126) *)
    if y_adder s then mkY (y_pend s + 1) (y_avail s) (y_ready s) false (y_reader s) (y_seq s) else s
  | YSeqFrame n =>
    (* the reader: vortex_channel_update_remote_incoming_buffer
       (src/vortex_reader.c:384-398) *)
    match y_reader s with
    | RdIdle => if 0 <? n then mkY (y_pend s) (y_avail s + n) (y_ready s) (y_adder s) RdUpdated (y_seq s) else s
    | _ => s
    end
  | YCheck =>
    (* vortex_sequencer_signal_update without the mutex (858-859) *)
    match y_reader s with
    | RdUpdated => mkY (y_pend s) (y_avail s) (y_ready s) (y_adder s) (if 0 <? y_pend s then RdInsert else RdIdle) (y_seq s)
    | _ => s
    end
  | YInsert =>
    (* signal_update with the mutex (865-881) *)
    match y_reader s with
    | RdInsert => if y_adder s then s else mkY (y_pend s) (y_avail s) true false RdIdle (y_seq s)
    | _ => s
    end
  | YVisit =>
    (* vortex_sequencer_process_channels up to the unlock (536-584) *)
    match y_seq s with
    | SqIdle =>
      if y_adder s || negb (y_ready s) then s
      else if y_avail s =? 0 then mkY (y_pend s) (y_avail s) false false (y_reader s) SqIdle
      else mkY (y_pend s) (y_avail s) true false (y_reader s) SqSend
    | _ => s
    end
  | YSend k complete paused =>
    (* __vortex_sequencer_do_send_round: nothing pending (440-445), a pause
       (removes the message, 333-340), or [k] octets of the first message *)
    match y_seq s with
    | SqSend =>
      if y_pend s =? 0 then mkY (y_pend s) (y_avail s) (y_ready s) (y_adder s) (y_reader s) (SqAfter false false)
      else if paused then mkY (y_pend s - 1) (y_avail s) (y_ready s) (y_adder s) (y_reader s) (SqAfter false true)
      else if (0 <=? k) && (k <=? y_avail s)
      then mkY (y_pend s) (y_avail s - k) (y_ready s) (y_adder s) (y_reader s) (SqAfter complete false)
      else s
    | _ => s
    end
  | YAfter =>
    (* back in vortex_sequencer_process_channels with the mutex (600-634) *)
    match y_seq s with
    | SqAfter complete paused =>
      if y_adder s then s
      else
        let pend := if complete then Z.max 0 (y_pend s - 1) else y_pend s in
        let is_empty := complete && (pend =? 0) in
        let ready := if is_empty || (y_avail s =? 0) || paused then false else y_ready s in
        mkY pend (y_avail s) ready false (y_reader s) SqIdle
    | _ => s
    end
  end.
Definition yrun (es : list yev) : yst := fold_left ystep es yst0.
