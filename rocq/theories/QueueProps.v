(** Theorems about vortex_queue (C26). *)
From Coq Require Import Permutation.
From Verif Require Import Base QueueModel QueueSpec QueueProofs.

(** ** C26: vortex_queue is a FIFO with head insertion *)

(** Whatever the operations, the callers get what an ideal line gives. *)
Theorem C26_line : forall es q, qrun q0 es = Ok q -> qline (q_log q) (q_items q).
Proof. exact run_qline. Qed.
Print Assumptions C26_line.
(** No operation but free makes the queue unusable. *)
Theorem C26_usable : forall es, no_free es -> forall q, q_freed q = false -> exists q', qrun q es = Ok q' /\ q_freed q' = false.
Proof. exact run_ok. Qed.
Print Assumptions C26_usable.
(** Each item put in is given once or is still there. *)
Theorem C26_once : forall log l, qline log l -> Permutation (q_put_in log) (q_given log ++ l).
Proof. exact qline_perm. Qed.
Print Assumptions C26_once.
(** In order, if none is pushed at the head. *)
Theorem C26_order : forall es q, no_head es -> qrun q0 es = Ok q -> q_put_in (q_log q) = q_given (q_log q) ++ q_items q.
Proof. exact run_order. Qed.
Print Assumptions C26_order.
(** free releases the queue exactly when it has no items. *)
Theorem C26_free : forall q q', q_freed q = false -> zlen (q_items q) < two32 -> qstep q QFree = Ok q' ->
  (q_freed q' = true <-> q_items q = []) /\ q_items q' = q_items q.
Proof. exact free_step. Qed.
Print Assumptions C26_free.

Example C26_case :
  qrun q0 [QEmpty; QPush 5; QPush 6; QHead 7; QPush 0; QFree; QPeek; QPop; QLength; QPop; QPop; QPop; QEmpty; QFree] =
  Ok (mkQ [] true [OEmpty true; OPush 5 true; OPush 6 true; OHead 7 true; OPush 0 false; OPeek 7; OPop 7; OLength 2;
                   OPop 5; OPop 6; OPop 0; OEmpty true]).
Proof. reflexivity. Qed.
Example C26_case_order :
  no_head [QPush 5; QPush 6; QPop] /\ qrun q0 [QPush 5; QPush 6; QPop] = Ok (mkQ [6] false [OPush 5 true; OPush 6 true; OPop 5]).
Proof. split; [|reflexivity]. intros x. cbn. intuition discriminate. Qed.
