(** Theorems about the ready set of the sequencer (C55, C57). *)
From Verif Require Import Base ReadyModel ReadySpec ReadyProofs.

(** In every schedule in which no feeder is paused and no SEQ frame is
    processed while a sender is between the stalled check and the queueing of
    its message: a channel with pending messages and window left is in the
    ready set, or the reader is about to put it there. *)
Theorem C55_not_forgotten_partial : forall es, calm yst0 es ->
  let s := yrun es in
  0 < y_pend s -> 0 < y_avail s -> y_ready s = true \/ y_reader s <> RdIdle.
Proof. exact not_forgotten. Qed.
Print Assumptions C55_not_forgotten_partial.

Definition two_senders : list yev :=
  [YAddBegin; YAddEnd; YVisit; YAddBegin; YSend 4096 false false; YAddEnd; YAfter; YSeqFrame 4096; YCheck].
Example C55_case : calm yst0 two_senders /\ yrun two_senders = mkY 2 4096 false false RdInsert SqIdle.
Proof. split; [|reflexivity]. cbn. repeat split. Qed.

(** Without the restriction it is false: the SEQ frame arrives between the two
    halves of vortex_sequencer_add_channel.  The message waits, with window
    available and nobody about to do anything. *)
Theorem C55_lost_wakeup_refuted : exists es,
  let s := yrun es in
  0 < y_pend s /\ 0 < y_avail s /\ y_ready s = false /\ y_adder s = false /\ y_reader s = RdIdle /\ y_seq s = SqIdle /\
  Forall (fun e => match e with YSend _ _ p => p = false | _ => True end) es.
Proof.
  exists [YAddBegin; YAddEnd; YVisit; YSend 4096 true false; YAfter; YAddBegin; YSeqFrame 4096; YCheck; YAddEnd].
  cbv zeta. repeat split; repeat constructor.
Qed.
Print Assumptions C55_lost_wakeup_refuted.

(** Pausing a feeder drops the channel from the ready set although other
    messages are pending. *)
Theorem C55_pause_refuted : exists es,
  let s := yrun es in
  0 < y_pend s /\ 0 < y_avail s /\ y_ready s = false /\ y_adder s = false /\ y_reader s = RdIdle /\ y_seq s = SqIdle /\
  Forall (fun e => match e with YSeqFrame _ => False | _ => True end) es.
Proof.
  exists [YAddBegin; YAddEnd; YAddBegin; YAddEnd; YVisit; YSend 0 false true; YAfter].
  cbv zeta. repeat split; repeat constructor.
Qed.
Print Assumptions C55_pause_refuted.

(** ** C57: the sequencer does not spin with nothing to send *)

(** The reader inserts a channel whose last message was finished after it
    looked: the sequencer visits it again and again, and every visit leaves
    everything as it was. *)
Theorem C57_spin_refuted : exists es,
  let s := yrun es in
  y_pend s = 0 /\ y_ready s = true /\ y_adder s = false /\ y_reader s = RdIdle /\ y_seq s = SqIdle /\
  forall k c p, fold_left ystep [YVisit; YSend k c p; YAfter] s = s.
Proof.
  exists [YAddBegin; YAddEnd; YVisit; YSend 100 true false; YSeqFrame 4096; YCheck; YAfter; YInsert].
  cbv zeta. repeat split.
Qed.
Print Assumptions C57_spin_refuted.

(** Otherwise, when no SEQ frame is processed, a ready channel has something to
    send (or a sender is about to queue it, or the round just emptied it). *)
Theorem C57_no_spin_partial : forall es,
  Forall (fun e => match e with YSeqFrame _ => False | YSend _ _ p => p = false | _ => True end) es ->
  let s := yrun es in
  y_ready s = true -> 0 < y_pend s \/ y_adder s = true.
Proof. exact no_spin. Qed.
Print Assumptions C57_no_spin_partial.
Example C57_case : let s := yrun (firstn 5 two_senders) in y_ready s = true /\ y_pend s = 1 /\ y_adder s = true.
Proof. repeat split. Qed.
