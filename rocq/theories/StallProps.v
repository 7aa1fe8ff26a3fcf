(** Properties C337-C338: the write timeout of the context. *)
From Verif Require Import Base SendRawModel StallSpec StallProofs.

(** * C337: a peer that does not read is given the time configured and then closed *)
Theorem C337_closes : forall timeout k n s more wmore frame, waits_allowed timeout k -> stalls n s -> k <= Z.of_nat n -> frame <> [] ->
  send_raw timeout false true (s ++ more) (repeat WTimeout n ++ wmore) frame = Fin false true [].
Proof. exact closes. Qed.
Print Assumptions C337_closes.
Theorem C337_before_partial : forall timeout k n s m more wmore frame, waits_allowed timeout k -> stalls n s -> Z.of_nat n < k -> frame <> [] -> zlen frame <= m ->
  send_raw timeout false true (s ++ Sent m :: more) (repeat WTimeout n ++ wmore) frame = Fin true false frame.
Proof. exact goes_on. Qed.
Print Assumptions C337_before_partial.
Example C337_ex : stalls 2 [SBlock; SIntrS; SBlock] /\ waits_allowed 2 2 /\ waits_allowed 0 3 /\
  send_raw 2 false true [SBlock; SIntrS; SBlock] [WTimeout; WTimeout] [1; 2] = Fin false true [] /\
  send_raw 0 false true [SBlock; SIntrS; SBlock; Sent 2] [WTimeout; WTimeout] [1; 2] = Fin true false [1; 2].
Proof.
  split; [apply st_block, st_intr, st_block, st_nil|]. split; [left; split; reflexivity|]. split; [right; split; [discriminate|reflexivity]|]. split; reflexivity.
Qed.
(** Partial writes are counted as timeouts: a peer that reads, slowly, has its frame abandoned without one timeout, and the connection is not closed. *)
Theorem C337_slow_refuted : exists sends waits frame, Forall (fun w => w = WReady) waits /\ Forall (fun r => r = Sent 1) sends /\
  send_raw 3 false true sends waits frame = Fin false false [1; 2; 3] /\ frame = [1; 2; 3; 4].
Proof. exists [Sent 1; Sent 1; Sent 1; Sent 1], [WReady; WReady; WReady], [1; 2; 3; 4]. repeat split; repeat constructor. Qed.
Print Assumptions C337_slow_refuted.

(** * C338: without closing on timeout, timeouts change nothing *)
Theorem C338_whole_partial : forall timeout n s m more wmore frame, stalls n s -> frame <> [] -> zlen frame <= m ->
  send_raw timeout true true (s ++ Sent m :: more) (repeat WTimeout n ++ wmore) frame = Fin true false frame.
Proof. exact never_closes. Qed.
Print Assumptions C338_whole_partial.
Theorem C338_blocked : forall timeout n s frame, stalls n s -> send_raw timeout true true s (repeat WTimeout n) frame = Still [].
Proof. exact blocked. Qed.
Print Assumptions C338_blocked.
Example C338_ex : send_raw 3 true true [SBlock; SBlock; SBlock; SBlock; Sent 9] (repeat WTimeout 4) [1; 2] = Fin true false [1; 2].
Proof. reflexivity. Qed.
(** The timeouts that were to be ignored are counted, and then a partial write gives the frame up: with the same writes and sockets ready it is written. *)
Theorem C338_counted_refuted : exists sends frame,
  send_raw 3 true true sends [WReady; WReady; WReady] frame = Fin true false frame /\
  send_raw 3 true true sends [WTimeout; WTimeout; WReady] frame = Fin false false [1].
Proof. exists [SBlock; SBlock; Sent 1; Sent 1], [1; 2]. split; reflexivity. Qed.
Print Assumptions C338_counted_refuted.
