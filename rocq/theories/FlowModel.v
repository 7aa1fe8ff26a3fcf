(** Model of the window arithmetic of a channel, both directions.
    Source: src/vortex_channel.c.  The struct fields are unsigned int
    (last_seq_no, consumed_seqno, seq_no_window, remote_consumed_seq_no) or int
    (remote_window, window_size, desired_window_size), see
    src/vortex_channel.c:86-204; MAX_SEQ_MOD is a 64 bit constant
    (src/vortex_types.h:236). *)
From Verif Require Import Base CodecModel.

(** ** Sending side *)

(** The sending state of a channel: last_seq_no (number of the next octet to
    send), remote_consumed_seq_no, remote_window and window_size. *)
Record swin := mkSW {
  sw_next : Z;
  sw_rc : Z;
  sw_rw : Z;
  sw_wsize : Z
}.

(** vortex_channel_empty_new (src/vortex_channel.c:1573-1589). *)
Definition swin0 : swin := mkSW 0 0 4096 4096.

(** The value of [window_available] computed when a SEQ frame arrives
    (src/vortex_channel.c:4116-4122): the first branch is unsigned int
    arithmetic, the second one 64 bit arithmetic, both stored into an int. *)
Definition window_available (s : swin) (ackno : Z) : Z :=
  if sw_rc s <=? ackno
  then s32 (u32 (sw_rw s - u32 (ackno - sw_rc s)))
  else s32 (sw_rw s - (two32 - sw_rc s) - ackno).

(** vortex_channel_update_remote_incoming_buffer
    (src/vortex_channel.c:4098-4174).  [ackno] and [window] are unsigned int.
    [None]: the connection is shut down.  The comparison [window >
    window_available] is unsigned, but it is only reached with a non negative
    [window_available]. *)
Definition recv_seq (s : swin) (ackno window : Z) : option swin :=
  let wa := window_available s ackno in
  if (0 <=? wa) && (wa <? window)
  then Some (mkSW (sw_next s) ackno (s32 window) (sw_wsize s))
  else None.

(** vortex_channel_get_max_seq_no_remote_accepted (src/vortex_channel.c:4194-4208). *)
Definition max_remote (s : swin) : Z := u32 (sw_rc s + sw_rw s - 1).

(** vortex_channel_is_stalled (src/vortex_channel.c:9358-9368). *)
Definition is_stalled (s : swin) : bool := sw_next s =? u32 (sw_rc s + sw_rw s).

(** Default implementation of vortex_channel_get_next_frame_size
    (src/vortex_channel.c:4266-4276). *)
Definition remote_available (next_seq max_seq : Z) : Z :=
  if next_seq <=? max_seq then s32 (u32 (max_seq - next_seq + 1))
  else s32 ((two32 - next_seq) + max_seq + 1).
Definition default_nfs (wsize next_seq msize max_seq : Z) : Z :=
  Z.min (remote_available next_seq max_seq) (Z.min wsize (Z.min msize 4096)).

(** Answers of the user provided frame size handlers of the channel, of the
    connection and of the context during one call; [None]: not installed. *)
Record nfs_answers := mkNfs { h_chan : option Z; h_conn : option Z; h_ctx : option Z }.
Definition no_handlers : nfs_answers := mkNfs None None None.

(** vortex_channel_get_next_frame_size (src/vortex_channel.c:4236-4277) with
    vortex_connection_get_next_frame_size (src/vortex_connection.c:5490-5504). *)
Definition next_frame_size (a : nfs_answers) (wsize next_seq msize max_seq : Z) : Z :=
  match h_chan a with
  | Some v => v
  | None =>
    let size := match h_conn a with Some v => v | None => -1 end in
    if 0 <? size then size
    else match h_ctx a with
         | Some v => v
         | None => default_nfs wsize next_seq msize max_seq
         end
  end.

(** vortex_channel_update_status with UPDATE_SEQ_NO
    (src/vortex_channel.c:2249-2253). *)
Definition advance (s : swin) (size : Z) : swin :=
  mkSW ((sw_next s + size) mod two32) (sw_rc s) (sw_rw s) (sw_wsize s).

(** ** Receiving side *)

(** The receiving state: consumed_seqno, seq_no_window, window_size,
    desired_window_size and last_seq_no_expected. *)
Record rwin := mkRW {
  rw_consumed : Z;
  rw_window : Z;
  rw_wsize : Z;
  rw_desired : Z;
  rw_expected : Z
}.

Definition rwin0 : rwin := mkRW 0 4096 4096 4096 0.

(** vortex_channel_incoming_bytes_available (src/vortex_channel.c:4323-4345):
    64 bit arithmetic in the first case, unsigned int in the second; the result
    is an int. *)
Definition incoming_available (r : rwin) (seqno csize : Z) : Z :=
  if seqno <? rw_consumed r
  then s32 (rw_window r - (two32 - rw_consumed r) - seqno - csize)
  else s32 (u32 (rw_window r - u32 (seqno - rw_consumed r) - csize)).

(** vortex_channel_get_max_seq_no_accepted (src/vortex_channel.c:4517-4520). *)
Definition max_accepted (r : rwin) : Z := u32 (rw_consumed r + rw_window r - 1).

(** vortex_channel_update_incoming_buffer (src/vortex_channel.c:4370-4505).
    [off]: SEQ generation is disabled for the connection or this is the channel
    0 being closed.  Result: the new state and the SEQ to send.  The comparison
    with seq_no_window / 2 converts [bytes_available] to unsigned. *)
Definition update_incoming (r : rwin) (off : bool) (seqno csize : Z) : rwin * option (Z * Z) :=
  if off then (r, None)
  else
    let consumed := u32 (seqno + csize) in
    if rw_window r / 2 <? u32 (incoming_available r seqno csize) then (r, None)
    else if rw_wsize r =? rw_desired r then
      (mkRW consumed (u32 (rw_wsize r)) (rw_wsize r) (rw_desired r) (rw_expected r),
       Some (consumed, rw_wsize r))
    else
      let w := rw_desired r in
      if u32 (consumed + w - 1) <? max_accepted r then (r, None)
      else (mkRW consumed (u32 w) w w (rw_expected r), Some (consumed, w)).

(** vortex_channel_set_window_size (src/vortex_channel.c:3970-3979). *)
Definition set_window (r : rwin) (desired : Z) : rwin :=
  if 0 <? desired
  then mkRW (rw_consumed r) (rw_window r) (rw_wsize r) desired (rw_expected r)
  else r.

(** What the reader does with a data frame of [csize] octets as far as flow
    control goes: the window check of vortex_frame_get_next
    (vortex_channel_check_incoming_seqno, src/vortex_channel.c:9329-9345), the
    SEQ update, the check of the expected sequence number and its update
    (src/vortex_reader.c:354, 416-430, 440-507;
    src/vortex_channel.c:2318-2322).  Result: new state, SEQ frame sent, and
    whether the connection is still up. *)
Definition recv_data (r : rwin) (off : bool) (seqno csize : Z)
  : rwin * option (Z * Z) * bool :=
  if check_incoming_seqno (rw_consumed r, rw_window r) seqno csize then
    let (r1, seq) := update_incoming r off seqno csize in
    if rw_expected r1 =? seqno
    then (mkRW (rw_consumed r1) (rw_window r1) (rw_wsize r1) (rw_desired r1)
               ((rw_expected r1 + csize) mod two32), seq, true)
    else (r1, seq, false)
  else (r, None, false).

(** The receiving side of a channel: data frames arrive (or do not pass the
    checks, and then the connection is down and nothing else is read) and the
    application changes the window size.  State: the channel, the SEQ frames
    sent, each with the number of octets accepted when it was sent (ghost, not
    kept by the code), the octets accepted so far, and connection up. *)
Inductive rxev := RFrame (off : bool) (seqno csize : Z) | RSetWindow (desired : Z).

Record rrun_st := mkRR { rr_win : rwin; rr_log : list (Z * (Z * Z)); rr_total : Z; rr_up : bool }.
Definition rr0 : rrun_st := mkRR rwin0 [] 0 true.

Definition rstep (st : rrun_st) (e : rxev) : rrun_st :=
  if rr_up st then
    match e with
    | RSetWindow d => mkRR (set_window (rr_win st) d) (rr_log st) (rr_total st) true
    | RFrame off seqno csize =>
      let '(r, seq, up) := recv_data (rr_win st) off seqno csize in
      let total := if up then rr_total st + csize else rr_total st in
      mkRR r (match seq with Some x => rr_log st ++ [(total, x)] | None => rr_log st end) total up
    end
  else st.
Definition rrun (es : list rxev) : rrun_st := fold_left rstep es rr0.
