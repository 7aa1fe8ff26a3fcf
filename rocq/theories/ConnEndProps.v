(** Properties C231-C234: the close of a connection. *)
From Verif Require Import Base HdrModel ConnEndModel ConnEndSpec ConnEndProofs ConnEndProofs2.

(** C231. The connection an application created may be closed by any number of threads that have
    a reference of their own, or again after a close that returned false, while it
    is lost and read: its memory is released with the last reference and not used
    after that. *)
Theorem C231_initiator_partial : forall e es, 0 <= e -> careful (established Initiator e) es ->
  exists s, qrun (established Initiator e) es = Ok s /\ (q_freed s = true <-> q_count s = 0) /\ 0 <= q_count s.
Proof. exact initiator_safe. Qed.
Print Assumptions C231_initiator_partial.
(** A second close without a reference uses memory released (documented). *)
Theorem C231_twice_refuted : exists es,
  qrun (established Initiator 0) (es ++ [ECall; EStep 1 true]) = UB /\
  exists s, qrun (established Initiator 0) es = Ok s /\ q_calls s = [QDone true] /\ q_freed s = true.
Proof. exact twice. Qed.
Print Assumptions C231_twice_refuted.
(** Two threads: one closes, finds channels that cannot be closed, and closes again. *)
Definition retry : list event :=
  [ECall] ++ steps 0 5 ++ [EStep 0 false] ++ steps 0 2 ++ [ECall] ++ steps 1 6 ++ [EReader; ELost; EReader] ++ steps 1 5.
Example C231_ex : careful (established Initiator 0) retry /\ exists s, qrun (established Initiator 0) retry = Ok s /\
  q_calls s = [QDone false; QDone true] /\ q_freed s = true.
Proof.
  split.
  - repeat (eapply careful_cons; [vm_compute; reflexivity|split; [intros H; try discriminate H; right; vm_compute; repeat constructor|intros H; discriminate H]|]).
    exact Logic.I.
  - eexists. split; [vm_compute; reflexivity|]. split; reflexivity.
Qed.

(** C232. When the calls ended: if none returned true the reference of the application is
    still there; if some were made and none returned false the connection is closed
    and that reference, and no other, was dropped. *)
Theorem C232_initiator : forall e es s, 0 <= e -> careful (established Initiator e) es ->
  qrun (established Initiator e) es = Ok s -> quiet s ->
  (~ returned s true -> q_count s = q_extra s + b2z (q_reader s) + 1) /\
  (q_calls s <> [] -> ~ returned s false -> q_up s = false /\ q_count s = q_extra s + b2z (q_reader s)).
Proof. exact initiator_refs. Qed.
Print Assumptions C232_initiator.
(** A listener that could not be started is released by its close. *)
Theorem C232_not_started : forall b, exists s, qrun not_started [ECall; EStep 0 b; EStep 0 b; EStep 0 b; EStep 0 b] = Ok s /\
  q_calls s = [QDone true] /\ q_freed s = true.
Proof. exact unstarted. Qed.
Print Assumptions C232_not_started.
Example C232_ex : exists s, qrun (established Initiator 2) ([ECall; ECall] ++ steps 1 11 ++ steps 0 1 ++ [EDrop]) = Ok s /\
  quiet s /\ ~ returned s false /\ (q_count s, q_extra s, q_reader s, q_up s) = (2, 1, true, false).
Proof.
  eexists. split; [vm_compute; reflexivity|]. split; [repeat constructor; eexists; reflexivity|].
  split; [|reflexivity]. intros [H|[H|[]]]; discriminate H.
Qed.

(** C233. True means closed: not to the second of two callers, who is told true by
    a close that has not ended and then fails. *)
Theorem C233_true_refuted : exists es s,
  careful (established Initiator 1) es /\ qrun (established Initiator 1) es = Ok s /\
  quiet s /\ q_calls s = [QDone false; QDone true] /\ q_up s = true /\ q_count s = 3.
Proof. exact told_closed. Qed.
Print Assumptions C233_true_refuted.
Theorem C233_true_partial : forall e es s, 0 <= e -> careful (established Initiator e) es ->
  qrun (established Initiator e) es = Ok s -> quiet s -> returned s true -> ~ returned s false -> q_up s = false.
Proof.
  intros e es s H HC E Q R F. apply (proj2 (initiator_refs e es s H HC E Q)); auto.
  intros N. unfold returned in R. rewrite N in R. exact R.
Qed.
Print Assumptions C233_true_partial.

(** C234. A connection accepted may be closed by who has a reference, if it is not lost
    meanwhile: the close drops none but the one it took. *)
Theorem C234_accepted_partial : forall e es, 0 <= e -> holding (established Accepted e) es ->
  exists s, qrun (established Accepted e) es = Ok s /\ (q_freed s = true <-> q_count s = 0) /\
  (quiet s -> q_count s = q_extra s + b2z (q_reader s)).
Proof. exact accepted_safe. Qed.
Print Assumptions C234_accepted_partial.
(** Without a reference, as the close of a connection in a handler of the listener: the
    reader drops its own between two accesses. *)
Theorem C234_not_owned_refuted : exists es, ~ In ELost es /\ ~ In EDrop es /\ qrun (established Accepted 0) es = UB.
Proof. exact not_owned. Qed.
Print Assumptions C234_not_owned_refuted.
(** Lost after the first check: the close drops a reference that is not its own. *)
Theorem C234_stolen_refuted : exists s,
  qrun (established Accepted 1) ([ECall] ++ steps 0 2 ++ [ELost] ++ steps 0 3) = Ok s /\
  quiet s /\ q_extra s = 1 /\ q_reader s = true /\ q_count s = 1 /\ qrun s [EReader; EDrop] = UB.
Proof. exact stolen. Qed.
Print Assumptions C234_stolen_refuted.
(** And so does the close of a listener that was shut down and the reader still has. *)
Theorem C234_listener_refuted : exists s,
  qrun (established Master 0) ([ELost; ECall] ++ steps 0 4) = Ok s /\
  q_calls s = [QDone true] /\ q_reader s = true /\ q_freed s = true /\ qrun s [EReader] = UB.
Proof. exact master_lost. Qed.
Print Assumptions C234_listener_refuted.
Definition server : list event := [ECall] ++ steps 0 9 ++ [EReader; ECall] ++ steps 0 2 ++ steps 1 1 ++ [EDrop].
Example C234_ex : holding (established Accepted 1) server /\ exists s, qrun (established Accepted 1) server = Ok s /\
  q_calls s = [QDone true; QDone true] /\ q_freed s = true.
Proof.
  split.
  - repeat (eapply holding_cons; [vm_compute; reflexivity|split; [intros H; try discriminate H; vm_compute; discriminate|split; [intros H; try discriminate H; right; repeat constructor; eexists; reflexivity|discriminate]]|]).
    exact Logic.I.
  - eexists. split; [vm_compute; reflexivity|]. split; reflexivity.
Qed.
