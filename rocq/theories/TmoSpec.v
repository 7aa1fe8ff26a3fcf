(** What the application expects of the timeouts it configures. *)
From Verif Require Import Base TmoModel.

(** The values an int holds, but for the one that asks for the default. *)
Definition int_value (v : Z) : Prop := - two31 <= v < two31.
Definition sets_sync (k : call) : Prop := match k with CSet _ _ => True | _ => False end.
Definition sets_connect (k : call) : Prop := match k with CCSet _ _ => True | _ => False end.
Definition sets_sync_of (c : nat) (k : call) : Prop := match k with CSet c' _ => c' = c | _ => False end.
Definition sets_connect_of (c : nat) (k : call) : Prop := match k with CCSet c' _ => c' = c | _ => False end.
(** After the calls, a last one returns [r]. *)
Definition returns (w : world) (l : list call) (k : call) (r : Z) : Prop :=
  exists w1 xs w2, do_calls w l = Ok (w1, xs) /\ do_call w1 k = Ok (w2, Some r).
(** A process whose environment has neither variable and which has no context yet. *)
Definition started : world := mkW None None [].

(** A call of vortex_connection_timeout for the context. *)
Definition is_set (c : nat) (e : event) : Prop := match e with EBeginSet c' _ => c' = c | _ => False end.
(** A call under way for the context. *)
Definition under_way (c : nat) (r : running) : Prop :=
  match r with RSet c' => c' = c | RGet c' _ => c' = c | _ => False end.
