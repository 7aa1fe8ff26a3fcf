(** Theorems about the queue threads wait on (C27, C28). *)
From Coq Require Import Permutation.
From Verif Require Import Base AsyncModel AsyncSpec AsyncProofs.

(** ** C27: the async queue is FIFO and loses no wake-ups *)

(** Whatever the threads do, what they see is what an ideal line of items
    shows: items are given from its start; push adds at its end and
    priority_push at its start. *)
Theorem C27_line : forall es, line (aq_log (arun aq0 es)) (rev (aq_data (arun aq0 es))).
Proof. exact run_line. Qed.
Print Assumptions C27_line.

(** Every item put in is given once or still there. *)
Theorem C27_once : forall log l, line log l -> Permutation (put_in log) (given log ++ l).
Proof. exact line_perm. Qed.
Print Assumptions C27_once.

(** Without priority pushes the items are given in the order they were put in. *)
Theorem C27_order : forall es, no_priority es ->
  put_in (aq_log (arun aq0 es)) = given (aq_log (arun aq0 es)) ++ rev (aq_data (arun aq0 es)).
Proof. exact (fun es H => line_order _ _ (run_line es) (no_first_run es H)). Qed.
Print Assumptions C27_order.

(** No lost wake-ups: if a thread is blocked while there is an item, another
    has been woken and has not run yet. *)
Theorem C27_awake : forall es, small_batches es ->
  aq_blocked (arun aq0 es) <> [] -> aq_data (arun aq0 es) <> [] -> aq_woken (arun aq0 es) <> [].
Proof. exact run_awake. Qed.
Print Assumptions C27_awake.

(** And that thread takes the first item of the line when it runs. *)
Theorem C27_takes : forall q k x r, rev (aq_data q) = x :: r -> aq_woken q <> [] ->
  exists w, In w (aq_woken q) /\ aq_log (astep q (ERun k)) = aq_log q ++ [AGot (wt_id w) x]
    /\ rev (aq_data (astep q (ERun k))) = r.
Proof. exact resume_takes. Qed.
Print Assumptions C27_takes.

(** The number of waiters reported is the number of calls of pop and timedpop
    that have not returned. *)
Theorem C27_waiters : forall es,
  aq_waiters (arun aq0 es) = calls es - returns (aq_log (arun aq0 es)) es.
Proof. exact run_waiters. Qed.
Print Assumptions C27_waiters.

(** Two threads wait, one of them for some time; three pushes, one with
    priority; a thread that did not wait gets the first item before those
    woken. *)
Example C27_case :
  let es := [EPop 1; ETimed 2 500; EPush 10 1; EPush 20 0; EFirst 30 0; EPop 3; ERun 1; ERun 0; EPop 4] in
  small_batches es /\
  aq_log (arun aq0 es) = [APushed 10; APushed 20; AFirst 30; AGot 3 30; AGot 1 10; AGot 2 20] /\
  aq_data (arun aq0 es) = [] /\ aq_blocked (arun aq0 es) = [mkWt 4 false] /\ aq_waiters (arun aq0 es) = 1.
Proof. cbv. repeat constructor; auto. Qed.
Example C27_case_awake :
  let q := arun aq0 [EPop 1; EPop 2; EPush 10 0] in
  aq_blocked q = [mkWt 2 false] /\ aq_data q = [10] /\ aq_woken q = [mkWt 1 false].
Proof. cbv. auto. Qed.
Example C27_case_order :
  let es := [EPop 1; EBatch [10; 0; 20; 30] 0; ETimed 2 1; ERun 0; ETimed 5 0] in
  no_priority es /\ given (aq_log (arun aq0 es)) = [10; 20] /\ aq_data (arun aq0 es) = [30].
Proof. split; [repeat constructor|]. cbv. auto. Qed.

(** ** C28: unlocked pushes wake every waiter that could proceed *)

(** False: two threads wait, two items are put in with the queue locked, only
    one thread is woken, and once it has taken its item the other stays blocked
    with an item in the queue and nobody about to run. *)
Theorem C28_batch_refuted : exists es,
  aq_blocked (arun aq0 es) <> [] /\ aq_data (arun aq0 es) <> [] /\ aq_woken (arun aq0 es) = [].
Proof.
  exact (ex_intro _ [EPop 1; EPop 2; EBatch [10; 20] 0; ERun 0]
    (conj (fun H => nil_cons (eq_sym H)) (conj (fun H => nil_cons (eq_sym H)) eq_refl))).
Qed.
Print Assumptions C28_batch_refuted.

(** True with one item at most between lock and unlock. *)
Theorem C28_partial : forall es x k, small_batches (es ++ [EBatch [x] k]) ->
  aq_blocked (arun aq0 (es ++ [EBatch [x] k])) <> [] -> aq_data (arun aq0 (es ++ [EBatch [x] k])) <> [] ->
  aq_woken (arun aq0 (es ++ [EBatch [x] k])) <> [].
Proof. exact (fun es x k => run_awake (es ++ [EBatch [x] k])). Qed.
Print Assumptions C28_partial.
Example C28_case :
  let q := arun aq0 ([EPop 1; EPop 2] ++ [EBatch [10] 1]) in
  aq_blocked q = [mkWt 1 false] /\ aq_data q = [10] /\ aq_woken q = [mkWt 2 false].
Proof. cbv. auto. Qed.
