(** C49, C73, C74, C75. *)
From Verif Require Import Base CloseModel CloseSpec CloseProofs CloseProofs4 CloseProofs5.

(** C49. The executions are the ones of [calm]; without these rules see
    [C49_undefined_refuted]. *)
Theorem C49_answered_partial : forall es, calmly k0 es -> exists s, krun k0 es = Ok s /\ forall m,
  (length (answers m (k_log s)) <= 1)%nat /\
  (0 <= m < k_reqs s -> at_r s m = None -> k_up s = true -> (exists a, answers m (k_log s) = [a]) \/ deferred s m).
Proof. exact answered_thm. Qed.
Print Assumptions C49_answered_partial.
(** The channel is removed only for a reason: in every execution. *)
Theorem C49_removed : forall es s, krun k0 es = Ok s -> k_in s = false -> reason es s.
Proof. exact removed_thm. Qed.
Print Assumptions C49_removed.
(** An accepted request is answered with ok and the channel removed once nothing
    is pending. *)
Theorem C49_accepted_partial : forall es s m, calmly k0 es -> krun k0 es = Ok s -> at_r s m = Some RWait -> k_mutex s = None -> k_up s = true -> k_out s <= 0 ->
  exists s', krun s [KReplies m; KFinish m] = Ok s' /\ k_in s' = false /\ answers m (k_log s') = [AOk].
Proof. exact accepted_thm. Qed.
Print Assumptions C49_accepted_partial.
(** While a call that waits for another close, or a request of the peer being
    served, has a reference, the other threads can use the channel. *)
Theorem C49_referenced : forall s t, (at_c s t = Some CLoop \/ exists p, at_r s t = Some p /\ (p = RLock \/ p = RFake \/ p = RFakeRef)) ->
  (exists s', kstep s KMsg = Ok s') /\ forall u, at_c s u <> Some CLoop -> exists s', kstep s (KStep u) = Ok s'.
Proof. exact referenced_thm. Qed.
Print Assumptions C49_referenced.
(** The channel is removed, but the peer is still waiting at [KLock]. *)
Definition kept_run : list kev := [KReq (Some true); KExists 0; KGet 0] ++ start_close 7 ++ [KReply FOk; KTake 7 false; KStep 7].
Example C49_referenced_case : exists s, krun k0 kept_run = Ok s /\ k_in s = false /\ at_r s 0 = Some RLock.
Proof. eexists. split; [vm_compute; reflexivity|]. split; reflexivity. Qed.
Theorem C49_undefined_refuted : exists malformed twice crossing calling,
  krun k0 malformed = UB /\ krun k0 twice = UB /\ krun k0 crossing = UB /\ krun k0 calling = UB.
Proof. exact undefined_ex. Qed.
Print Assumptions C49_undefined_refuted.
(** Three requests: one refused by the close handler, one that is not XML and one
    accepted while a message has no reply. *)
Definition three : list kev :=
  [KMsg; KReq (Some true); KExists 0; KGet 0; KLock 0 MHandler; KDecide 0 false; KReq None;
   KReq (Some true); KExists 2; KGet 2; KLock 2 MNotify; KNotify 2 true; KReplies 2; KMsgReply].
Example C49_case : calmly k0 three /\ exists s, krun k0 three = Ok s /\ k_in s = true /\ k_reqs s = 3 /\ answers 0 (k_log s) = [AErr 550] /\ answers 1 (k_log s) = [AErr 500] /\
  at_r s 2 = Some RWait /\ k_mutex s = None /\ k_up s = true /\ k_out s <= 0.
Proof.
  split; [|eexists; split; [vm_compute; reflexivity|]; repeat (split; [reflexivity|]); discriminate].
  unfold three. repeat (split; [first [calm_one | (split; [split; [cbn; auto 10|split; reflexivity]|split; [reflexivity|intros _; split; reflexivity]])]|intros ? S; vm_compute in S; apply ok_inj in S; subst]). exact Logic.I.
Qed.
(** The close message of this side is confirmed, and the channel removed. *)
Definition confirmed : list kev := start_close 7 ++ [KReply FOk; KTake 7 false; KStep 7].
Example C49_removed_case : calmly k0 confirmed /\ exists s, krun k0 confirmed = Ok s /\ k_in s = false /\ In (ODone 7 true) (k_log s).
Proof. split; [unfold confirmed, start_close; cbn [app]; calm_go|]. eexists. split; [vm_compute; reflexivity|]. split; [reflexivity|cbn; auto 10]. Qed.

(** C73. *)
Theorem C73_kept_refuted : exists es s, calmly k0 es /\ krun k0 es = Ok s /\ k_up s = true /\ In (ODone 1 false) (k_log s) /\ In (OMsg false) (k_log s) /\ answers 0 (k_log s) = [AOk] /\ k_in s = true.
Proof. exact refused_thm. Qed.
Print Assumptions C73_kept_refuted.
(** It never works again: no message is accepted, no call to vortex_channel_close
    returns while the connection is open and the channel stays in the table. *)
Theorem C73_stuck : forall es fs s s' t, calmly k0 (es ++ fs) -> krun k0 es = Ok s -> In (ODone t false) (k_log s) -> krun s fs = Ok s' ->
  k_in s' = true /\ exists l, k_log s' = k_log s ++ l /\ ~ In (OMsg true) l /\ (k_up s' = true -> forall t r, ~ In (ODone t r) l).
Proof. exact stuck_thm. Qed.
Print Assumptions C73_stuck.
Example C73_case : calmly k0 (refused_run ++ [KMsg; KReq (Some true); KExists 0; KGet 0; KLock 0 (MNone true); KFake 0]) /\
  exists s, krun k0 refused_run = Ok s /\ In (ODone 1 false) (k_log s) /\ exists s', krun s [KMsg; KReq (Some true); KExists 0; KGet 0; KLock 0 (MNone true); KFake 0] = Ok s'.
Proof. split; [exact refused_calm|]. eexists. split; [vm_compute; reflexivity|]. split; [cbn; auto 10|]. eexists. vm_compute. reflexivity. Qed.

(** C74. What a returned value says, in every execution. *)
Theorem C74_returned_partial : forall es s t, krun k0 es = Ok s ->
  (In (ODone t true) (k_log s) -> reason es s \/ exists m, In (OAsk m) (k_log s)) /\
  (In (ODone t false) (k_log s) -> In (KReply FErr) es \/ In (KReply FBad) es \/ k_up s = false).
Proof. exact returned_thm. Qed.
Print Assumptions C74_returned_partial.
(** The answer of the peer decides. *)
Theorem C74_answer : forall es s t f q, calmly k0 es -> krun k0 es = Ok s -> at_c s t = Some CPend -> k_queue s = f :: q ->
  exists s', krun s [KTake t false; KStep t] = Ok s' /\ k_in s' = negb (verdict (Some f)) /\ k_log s' = k_log s ++ [OTook t (Some f); ODone t (verdict (Some f))].
Proof. exact took_thm. Qed.
Print Assumptions C74_answer.
Theorem C74_timeout_refuted : exists es s, calmly k0 es /\ krun k0 es = Ok s /\ k_up s = true /\ In (ODone 1 true) (k_log s) /\ k_in s = false /\ (forall f, ~ In (KReply f) es) /\ k_reqs s = 0.
Proof. exact timeout_thm. Qed.
Print Assumptions C74_timeout_refuted.
Theorem C74_type_refuted : exists es s, calmly k0 es /\ krun k0 es = Ok s /\ k_up s = true /\ In (ODone 1 true) (k_log s) /\ k_in s = false /\ (forall f, In (KReply f) es -> f = FOther) /\ k_reqs s = 0.
Proof. exact other_thm. Qed.
Print Assumptions C74_type_refuted.
Theorem C74_inside_refuted : exists es s, calmly k0 es /\ krun k0 es = Ok s /\ k_up s = true /\ In (ODone 1 true) (k_log s) /\ k_in s = true /\ answers 0 (k_log s) = [AErr 550].
Proof. exact inside_thm. Qed.
Print Assumptions C74_inside_refuted.
Example C74_case : calmly k0 (start_close 1 ++ [KReply FErr]) /\ exists s, krun k0 (start_close 1 ++ [KReply FErr]) = Ok s /\ at_c s 1 = Some CPend /\ k_queue s = [FErr] /\ verdict (Some FErr) = false.
Proof. split; [unfold start_close; cbn [app]; calm_go|]. eexists. split; [vm_compute; reflexivity|]. auto. Qed.

(** C75. *)
Theorem C75_crossed_partial : forall es s m t, calmly k0 es -> krun k0 es = Ok s -> at_r s m = Some RFake -> at_c s t = Some CPend -> k_queue s = [] -> k_up s = true ->
  exists s', krun s [KFake m; KFakeRef m; KTake t false; KStep t] = Ok s' /\ k_in s' = false /\ answers m (k_log s') = [AOk] /\ In (ODone t true) (k_log s').
Proof. exact crossed_thm. Qed.
Print Assumptions C75_crossed_partial.
Theorem C75_window_refuted : exists es s, calmly k0 es /\ krun k0 es = Ok s /\ k_up s = true /\ answers 0 (k_log s) = [AOk] /\ In (ODone 1 false) (k_log s) /\ k_in s = true.
Proof. exact uncrossed_thm. Qed.
Print Assumptions C75_window_refuted.
Definition crossing : list kev := start_close 1 ++ [KReq (Some true); KExists 0; KGet 0; KLock 0 MHandler].
Example C75_case : calmly k0 crossing /\ exists s, krun k0 crossing = Ok s /\ at_r s 0 = Some RFake /\ at_c s 1 = Some CPend /\ k_queue s = [] /\ k_up s = true.
Proof. split; [unfold crossing, start_close; cbn [app]; calm_go|]. eexists. split; [vm_compute; reflexivity|]. auto. Qed.
