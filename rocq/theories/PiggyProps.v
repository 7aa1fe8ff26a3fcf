(** The content of start replies. *)
From Verif Require Import Base PiggyModel PiggySpec PiggyProofs.
From Coq Require Import Permutation.
(** C50: in any interleaving of the creator of the channel with calls to
    get_piggyback, get_reply and threads that wait for replies, each content is given
    at most once, and all that were stored were given, are waiting, or were replaced. *)
Theorem C50_once : forall h es, let s := grun (g0 h) es in
  NoDup (given (g_log s)) /\ Permutation (stored (g_log s)) (given (g_log s) ++ lost (g_log s) ++ waiting s).
Proof. exact once_thm. Qed.
Print Assumptions C50_once.
(** What is stored is given by the next call, and by no call after it. *)
Theorem C50_get : forall h es t, let s := grun (g0 h) es in
  (forall i, g_stored s = Some i -> ~ In i (given (g_log s)) /\ g_log (gstep s (GGet t)) = g_log s ++ [OGet t (Some i)]) /\
  forall u, g_log (gstep (gstep s (GGet t)) (GGet u)) = g_log (gstep s (GGet t)) ++ [OGet u None].
Proof. exact get_thm. Qed.
Print Assumptions C50_get.
(** While there is a handler and the connection is up, nothing is dropped. *)
Theorem C50_kept : forall es, (forall b, In (GHandler b) es -> b = true) -> forall i, ~ In (ODropped i) (g_log (grun (g0 true) es)).
Proof. exact dropped_thm. Qed.
Print Assumptions C50_kept.
Example C50_kept_case : g_log (grun (g0 true) [GSet; GCreator; GCreator]) = [OSet 0; OHandler 0] /\ g_log (grun (g0 false) [GSet; GCreator; GCreator]) = [OSet 0; ODropped 0].
Proof. split; reflexivity. Qed.
Example C50_case : let s := grun (g0 true) [GSet; GCreator; GGet 3; GCreator; GSet; GGet 4; GGet 3] in
  given (g_log s) = [0%nat; 1%nat] /\ g_log s = [OSet 0; OGet 3 (Some 0%nat); OSet 1; OGet 4 (Some 1%nat); OGet 3 None].
Proof. vm_compute. auto. Qed.
Example C50_handler : given (g_log (grun (g0 true) [GSet; GWait 5 3; GCreator; GCreator])) = [0%nat].
Proof. reflexivity. Qed.
(** C81: a thread that waits for the reply to message 0, not received yet, gets the
    content instead. *)
Theorem C81_reply_refuted : exists es, ~ In GReply es /\ In (GWait 7 0) es /\ In (OWaiter 7 0) (g_log (grun (g0 true) es)).
Proof. exact waiter_thm. Qed.
Print Assumptions C81_reply_refuted.
