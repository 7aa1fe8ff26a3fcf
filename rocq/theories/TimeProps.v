(** Theorems about times (C31, C46 and the stamps of C32). *)
From Verif Require Import Base TimeModel TimeSpec TimeProofs.

(** ** C31: timed waits use the right deadline *)

(** The deadline is the current time plus the time asked for, as a timespec
    pthread_cond_timedwait accepts, unless the microseconds of now and the time
    asked for add up to one second exactly. *)
Theorem C31_deadline_partial : forall now us,
  normal now -> sensible now -> 0 <= us < 4611686018427387904 -> us + tv_usec now <> 1000000 ->
  exists t, timedwait_deadline now us = Ok t /\ normal_ns t /\ nanos t = (micros now + us) * 1000.
Proof. exact deadline_exact. Qed.
Print Assumptions C31_deadline_partial.
Example C31_case : timedwait_deadline (mkTV 100 999999) 60000000 = Ok (mkTS 160 999999000).
Proof. reflexivity. Qed.

(** In that case the deadline is one second early: it is now or before now and
    the wait does not wait. *)
Theorem C31_early : forall now us, normal now -> sensible now -> us + tv_usec now = 1000000 ->
  exists t, timedwait_deadline now us = Ok t /\ nanos t = (micros now + us - 1000000) * 1000.
Proof. exact deadline_early. Qed.
Print Assumptions C31_early.
Theorem C31_deadline_refuted : exists now us t,
  normal now /\ sensible now /\ 0 < us /\ timedwait_deadline now us = Ok t /\ nanos t < micros now * 1000.
Proof. exact deadline_witness. Qed.
Print Assumptions C31_deadline_refuted.

(** ** C32: thread pool event stamps are exact *)
Theorem C32_stamp_partial : forall t d,
  normal t -> sensible t -> 0 <= d < 4611686018427387904 -> tv_usec t + d <> 1000000 ->
  exists t', increase_stamp t d = Ok t' /\ normal t' /\ micros t' = micros t + d.
Proof. exact stamp_exact. Qed.
Print Assumptions C32_stamp_partial.
Example C32_stamp_case : increase_stamp (mkTV 7 900000) 2200000 = Ok (mkTV 10 100000).
Proof. reflexivity. Qed.
(** The stamp goes back in time. *)
Theorem C32_stamp_refuted : exists t d t',
  normal t /\ sensible t /\ 0 < d /\ increase_stamp t d = Ok t' /\ micros t' < micros t.
Proof. exact stamp_witness. Qed.
Print Assumptions C32_stamp_refuted.

(** ** C46: time interval subtraction *)

(** With both times normalised the result is the difference, normalised, the
    value returned tells whether it is negative, and the second time is
    changed but stands for the same instant. *)
Theorem C46_exact : forall a b, normal a -> normal b -> sensible a -> sensible b ->
  exists r neg b', timeval_substract a b = Ok (r, neg, b') /\ normal r /\ micros r = micros a - micros b
    /\ (neg = true <-> micros a < micros b) /\ micros b' = micros b.
Proof. exact sub_exact. Qed.
Print Assumptions C46_exact.
Example C46_case :
  timeval_substract (mkTV 10 200000) (mkTV 10 700000) = Ok (mkTV (-1) 500000, true, mkTV 11 (-300000)).
Proof. reflexivity. Qed.

(** Calling again with the second time left by an earlier call, as the thread
    pool does with the time of its last resize, the difference is still exact,
    with at most a million microseconds. *)
Theorem C46_reused : forall a b, normal a -> -1000000 <= tv_usec b < 1000000 -> sensible a -> sensible b ->
  exists r neg b', timeval_substract a b = Ok (r, neg, b') /\ 0 <= tv_usec r <= 1000000
    /\ micros r = micros a - micros b /\ micros b' = micros b /\ -1000000 <= tv_usec b' < 1000000.
Proof. exact sub_reused. Qed.
Print Assumptions C46_reused.
Example C46_case_reused :
  timeval_substract (mkTV 12 900000) (mkTV 11 (-300000)) = Ok (mkTV 2 200000, false, mkTV 10 700000).
Proof. reflexivity. Qed.

(** But it may not be normalised and the sign may be wrong. *)
Theorem C46_reused_refuted : exists a1 a2 b b1 r1 n1 r2 b2,
  normal a1 /\ normal a2 /\ normal b /\
  timeval_substract a1 b = Ok (r1, n1, b1) /\ timeval_substract a2 b1 = Ok (r2, true, b2) /\
  micros a2 = micros b /\ tv_usec r2 = 1000000.
Proof. exact reused_witness. Qed.
Print Assumptions C46_reused_refuted.
