(** Times as numbers of microseconds. *)
From Verif Require Import Base TimeModel.

Definition micros (t : tval) : Z := tv_sec t * 1000000 + tv_usec t.
Definition normal (t : tval) : Prop := 0 <= tv_usec t < 1000000.
(** Times and intervals of less than 100 million years. *)
Definition sensible (t : tval) : Prop := Z.abs (tv_sec t) < 4611686018427387904.
Definition nanos (t : tspec) : Z := ts_sec t * 1000000000 + ts_nsec t.
(** What pthread_cond_timedwait accepts. *)
Definition normal_ns (t : tspec) : Prop := 0 <= ts_nsec t < 1000000000.
