(** Properties C227-C230: the invocation of XML-RPC methods. *)
From Verif Require Import Base HdrModel InvokeModel InvokeSpec InvokeProofs InvokeProofs2.

(** C227. An application that makes one invocation at a time, with a peer that only
    replies: nothing goes wrong and every handler is told at most once, of the
    reply to its own invocation or of its failure. *)
Theorem C227_own_reply_partial : forall es, one_at_a_time booted es ->
  exists s, vrun booted es = Ok s /\
  forall n, told s n = [] \/ told s n = [RGot (FReply n)] \/ told s n = [RFailed].
Proof. exact alone_ok. Qed.
Print Assumptions C227_own_reply_partial.
(** Two invocations made before either is sent: the second gets the reply to the
    first, and the reply to the second uses memory released. *)
Theorem C227_crossed_refuted : exists es s,
  ~ In VAnswer es /\ ~ In VPeer es /\ no_failure es /\ stays_up es /\ vrun booted es = Ok s /\
  told s 1 = [RGot (FReply 0)] /\ told s 0 = [] /\ vrun s [VReply; VDeliver 0] = UB.
Proof. exact crossed. Qed.
Print Assumptions C227_crossed_refuted.
(** A message of the peer is taken as the reply, and the reply uses memory released. *)
Theorem C227_peer_message_refuted : exists s,
  vrun booted [VCall; VSet 0; VSend 0 true; VPeer; VDeliver 0] = Ok s /\
  told s 0 = [RGot FMsg] /\ vrun s [VReply; VDeliver 0] = UB.
Proof. exact peer_taken. Qed.
Print Assumptions C227_peer_message_refuted.
(** A peer that answers with an ANS and its end. *)
Theorem C227_answers_refuted : exists s,
  vrun booted [VCall; VSet 0; VSend 0 true; VAnswer; VDeliver 0] = Ok s /\
  told s 0 = [RGot (FReply 0)] /\ vrun s [VReply; VDeliver 0] = UB.
Proof. exact answers. Qed.
Print Assumptions C227_answers_refuted.
(** A handler that makes a new invocation when told that its own failed. *)
Theorem C227_retry_refuted : exists s,
  vrun booted [VCall; VSet 0; VSend 0 false] = Ok s /\ told s 0 = [RFailed] /\
  vrun s [VCall; VSet 1; VNext 0; VNext 0; VSend 1 true; VReply; VDeliver 0] = UB.
Proof. exact failed_handler. Qed.
Print Assumptions C227_retry_refuted.
(** Three invocations: one replied, one made by the handler of the first that fails, and one more. *)
Definition three : list event :=
  [VCall; VSet 0; VSend 0 true; VReply; VDeliver 0; VCall; VNext 0; VSet 1; VSend 1 false; VNext 1; VNext 1; VNext 1;
   VCall; VSet 2; VSend 2 true; VNext 2; VReply; VDeliver 0].
Example C227_ex : one_at_a_time booted three /\ exists s, vrun booted three = Ok s /\ still s /\
  (told s 0, told s 1, told s 2) = ([RGot (FReply 0)], [RFailed], [RGot (FReply 2)]).
Proof.
  split.
  - cbn. repeat match goal with |- _ /\ _ => split end; try discriminate; try exact Logic.I; intros _ n H; try lia.
    + destruct n as [|n]; [|lia]. split; [vm_compute; discriminate|]. vm_compute. intros [X|[]]; discriminate X.
    + destruct n as [|[|n]]; [| |lia].
      * split; [vm_compute; discriminate|]. vm_compute. intros [X|[]]; discriminate X.
      * split; [vm_compute; discriminate|]. intros _. eexists. split; [reflexivity|reflexivity].
  - eexists. split; [vm_compute; reflexivity|]. split.
    + split; [reflexivity|]. split; [reflexivity|]. repeat constructor; right; reflexivity.
    + reflexivity.
Qed.

(** C228. With such an application and peer, and a connection that stays, every
    invocation was told once when nothing is under way, and no invocation is ever
    blocked. *)
Theorem C228_told_partial : forall es s n,
  one_at_a_time booted es -> stays_up es -> vrun booted es = Ok s -> still s ->
  (n < List.length (v_invs s))%nat -> told s n = [RGot (FReply n)] \/ told s n = [RFailed].
Proof. exact alone_told. Qed.
Print Assumptions C228_told_partial.
Theorem C228_not_blocked_partial : forall es s n,
  one_at_a_time booted es -> stays_up es -> vrun booted es = Ok s -> (n < List.length (v_invs s))%nat ->
  exists es' s', ~ In VCall es' /\ ~ In VAnswer es' /\ ~ In VPeer es' /\ no_failure es' /\ stays_up es' /\
                 vrun s es' = Ok s' /\ told s' n <> [].
Proof. exact no_block. Qed.
Print Assumptions C228_not_blocked_partial.
(** The connection closed while a reply is awaited: the handler is never told. *)
Theorem C228_closed_refuted : exists es s,
  one_at_a_time booted es /\ vrun booted es = Ok s /\ List.length (v_invs s) = 1%nat /\
  forall es' s', vrun s es' = Ok s' -> told s' 0 = [].
Proof. exact never_told. Qed.
Print Assumptions C228_closed_refuted.
Example C228_ex : stays_up three. Proof. intros H. cbn in H. repeat (destruct H as [H|H]; [discriminate|]). destruct H. Qed.
(** Every later invocation of the connection closed is refused. *)
Example C228_closed_ex : exists s, vrun booted [VCall; VSet 0; VSend 0 true; VClose; VCall; VCall] = Ok s /\
  (told s 0, told s 1, told s 2) = ([], [RWaiting], [RWaiting]).
Proof. eexists. split; [vm_compute; reflexivity|]. reflexivity. Qed.

(** C229. Whatever the application, the peer and the threads do, a handler gets at
    most one frame; and it is told at most once when no message fails to be sent. *)
Theorem C229_one_frame : forall es s n, vrun booted es = Ok s -> (List.length (replies (told s n)) <= 1)%nat.
Proof. exact one_reply. Qed.
Print Assumptions C229_one_frame.
Theorem C229_at_most_once_partial : forall es s n,
  no_failure es -> stays_up es -> vrun booted es = Ok s -> (List.length (told s n) <= 1)%nat.
Proof. exact at_most_once. Qed.
Print Assumptions C229_at_most_once_partial.
(** A message of the peer delivered before a message that fails: told twice. *)
Theorem C229_twice_refuted : exists es s,
  vrun booted es = Ok s /\ List.length (told s 0) = 2%nat /\ vrun s [VNext 0] = UB.
Proof. exact twice. Qed.
Print Assumptions C229_twice_refuted.
Example C229_ex : exists s, vrun booted [VCall; VCall; VSet 1; VSend 1 true; VSet 0; VSend 0 true; VCall; VReply; VReply; VDeliver 1] = Ok s /\
  (told s 0, told s 1, told s 2) = ([RGot (FReply 0)], [], [RWaiting]).
Proof. eexists. split; [vm_compute; reflexivity|]. reflexivity. Qed.
(** The replies not delivered yet stay. *)
Example C229_left_ex : exists s, vrun booted [VCall; VCall; VSet 1; VSend 1 true; VSet 0; VSend 0 true; VPeer; VReply; VReply; VDeliver 0] = Ok s /\
  told s 0 = [RGot FMsg] /\ v_tasks s = [FReply 1; FReply 0].
Proof. eexists. split; [vm_compute; reflexivity|]. split; reflexivity. Qed.

(** C230. The method call of an invocation is released when its task ends, once,
    and only then: a refused one is never released. *)
Theorem C230_released_partial : forall es s n i,
  vrun booted es = Ok s -> nth_error (v_invs s) n = Some i -> (k_call i = true <-> k_pc i = PDone).
Proof. exact released. Qed.
Print Assumptions C230_released_partial.
(** The value returned does not tell an invocation taken from one refused. *)
Theorem C230_returned_refuted : exists es s t,
  vrun booted es = Ok s /\ v_out s = [] /\ vrun s [VCall; VSet 0; VSend 0 true] = Ok t /\
  k_pc (last (v_invs (fst (call s))) (mkInv PDone false false)) = PQueued /\
  k_pc (last (v_invs (fst (call t))) (mkInv PDone false false)) = PRefused /\
  snd (call s) = snd (call t).
Proof. exists [], booted. eexists. split; [reflexivity|]. split; [reflexivity|]. split; [vm_compute; reflexivity|]. repeat split. Qed.
Print Assumptions C230_returned_refuted.
Example C230_ex : exists s, vrun booted (three ++ [VCall; VSet 3; VSend 3 true; VCall; VNext 3]) = Ok s /\
  map (fun i => (k_pc i, k_data i, k_call i)) (v_invs s) =
  [(PDone, false, true); (PDone, false, true); (PDone, false, true); (PDone, true, true); (PRefused, false, false)].
Proof. eexists. split; [vm_compute; reflexivity|]. reflexivity. Qed.
