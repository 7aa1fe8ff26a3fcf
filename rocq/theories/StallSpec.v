(** A peer that does not read: writes that find no room, [n] times, with any interruptions by signals.  And the number of waits the context allows
    (vortex_ctx_write_timeout, src/vortex_ctx.c 302-313; default, src/vortex_frame_factory.c 1948). *)
From Verif Require Import Base SendRawModel.

Inductive stalls : nat -> list sres -> Prop :=
| st_nil : stalls 0 []
| st_intr : forall n l, stalls n l -> stalls n (SIntrS :: l)
| st_block : forall n l, stalls n l -> stalls (S n) (SBlock :: l).
Definition waits_allowed (timeout : Z) (n : Z) : Prop := (timeout > 0 /\ n = timeout) \/ (timeout <= 0 /\ n = 3).
