(** The properties of those who wait for a reply. *)
From Verif Require Import Base WaitModel WaitSpec WaitProofs WaitProofs2.

(** C42: what vortex_channel_wait_reply returns was given to the object, or it
    is no frame. *)
Theorem C42_result : forall es w r, wrun wait0 es = Ok w -> w_pc w = WDone r -> r = 0 \/ In r (frames es).
Proof. exact result_thm. Qed.
Print Assumptions C42_result.

(** C42: it is a frame unless the connection was closed or the time was over. *)
Theorem C42_frame : forall es w r, wrun wait0 es = Ok w -> ~ In EClose es -> ~ In ETimeout es ->
  Forall frame_address (frames es) -> w_pc w = WDone r -> In r (frames es).
Proof. exact no_null_thm. Qed.
Print Assumptions C42_frame.

(** C42: a frame the thread got is the one returned, whatever happens later. *)
Theorem C42_kept : forall es w f more w' r, wrun wait0 es = Ok w -> frame_address f -> has w f -> wrun w more = Ok w' -> w_pc w' = WDone r -> r = f.
Proof. exact kept_thm. Qed.
Print Assumptions C42_kept.

(** C42: if one thing happens to the object, a reply or the end of the time, and
    the threads that call close handlers are created, nothing undefined is done
    and the thread waits only for the reply or for the end of a handler taken. *)
Theorem C42_safe_partial : forall es, (length (frames es) + timeouts es <= 1)%nat -> Forall frame_address (frames es) -> ~ In ELose es ->
  exists w, wrun wait0 es = Ok w /\ (idle w -> returned w \/ (w_pc w = W2 /\ w_queue w = []) \/ w_h w = HTaken).
Proof. exact safe_thm. Qed.
Print Assumptions C42_safe_partial.

(** C42: the reply of a message is given to who waits for it, if no object is
    used for two messages and no message waited for is answered with ANS or NUL. *)
Theorem C42_matching_partial : forall es, NoDup (objs (sends es)) -> plain (sends es) (ch_log (mrun es)) ->
  forall n k d, In (n, k, d) (ch_log (mrun es)) -> 0 <= n /\ nth_error (sends es) (Z.to_nat n) = Some d.
Proof. exact match_thm. Qed.
Print Assumptions C42_matching_partial.

(** C42: a message waited for and answered with ANS and NUL: nobody else is given
    a reply, whatever comes later. *)
Theorem C42_matching_ans_refuted : exists es, NoDup (objs (sends es)) /\ In (Some 2) (sends es) /\ answers es = [KAns; KNul] /\
  forall more, ~ In (MSend (Some 1)) more -> given (ch_log (mrun (es ++ more))) = [].
Proof. exact starve_ans_witness. Qed.
Print Assumptions C42_matching_ans_refuted.

(** C42: an object used again after its time was over, as documented: nobody else
    is given a reply. *)
Theorem C42_matching_reuse_refuted : exists es, sends es = [Some 1; Some 1] /\ answers es = [KRpy; KRpy] /\
  forall more, ~ In (MSend (Some 1)) more -> given (ch_log (mrun (es ++ more))) = [(1, 1)].
Proof. exact starve_reuse_witness. Qed.
Print Assumptions C42_matching_reuse_refuted.

(** C42: the connection is closed before the handler is installed: the thread
    waits until the time is over. *)
Theorem C42_prompt_refuted : exists es w, wrun wait0 es = Ok w /\ w_conn w = false /\ timeouts es = 0%nat /\
  forall more w', no_news more -> wrun w more = Ok w' -> ~ returned w'.
Proof. exact prompt_witness. Qed.
Print Assumptions C42_prompt_refuted.

(** C42: no thread can be created to call the close handler: the thread that
    already has its reply waits for ever. *)
Theorem C42_lost_refuted : exists es w, wrun wait0 es = Ok w /\ frames es = [8] /\ w_pc w = W4 8 /\
  forall more w', frames more = [] -> ~ In ESent more -> wrun w more = Ok w' -> ~ returned w'.
Proof. exact lost_witness. Qed.
Print Assumptions C42_lost_refuted.

(** C42: both sides close the channel and the connection is closed: the close
    handler uses the queue once it is freed. *)
Theorem C42_crossed_refuted : exists es, Forall frame_address (frames es) /\ timeouts es = 0%nat /\ length (frames es) = 2%nat /\ wrun wait0 es = UB.
Proof. exact crossed_witness. Qed.
Print Assumptions C42_crossed_refuted.

(** C42: a reply that arrives when the time is over and the connection is closed:
    the same. *)
Theorem C42_late_refuted : exists es, Forall frame_address (frames es) /\ timeouts es = 1%nat /\ length (frames es) = 1%nat /\ wrun wait0 es = UB.
Proof. exact late_witness. Qed.
Print Assumptions C42_late_refuted.

(** C41: if the reply is sent, and once, vortex_channel_wait_until_sent returns. *)
Theorem C41_sent_partial : forall es, (sents es <= 1)%nat -> ~ In ELose es -> exists w, wrun sent0 es = Ok w /\
  (sents es = 1%nat -> idle w -> returned w \/ w_h w = HTaken).
Proof. exact sent_thm. Qed.
Print Assumptions C41_sent_partial.

(** C41: if the connection is closed before the reply is sent, it does not return. *)
Theorem C41_closed_refuted : exists es w, wrun sent0 es = Ok w /\ w_conn w = false /\ ~ In ELose es /\
  forall more w', ~ In ESent more -> frames more = [] -> wrun w more = Ok w' -> ~ returned w'.
Proof. exact sent_witness. Qed.
Print Assumptions C41_closed_refuted.

(** A reply while the connection is closed. *)
Definition case_es : list wev := [EGo; EGo; EReply 8; EClose; ETake; EGo; EGo; ECall; EGo; EGo].
Example C42_case : (length (frames case_es) + timeouts case_es <= 1)%nat /\ Forall frame_address (frames case_es) /\ ~ In ELose case_es /\
  exists w, wrun wait0 case_es = Ok w /\ w_pc w = WDone 8.
Proof.
  split; [cbn; lia|]. split; [repeat constructor; unfold frame_address; cbn; lia|]. split; [cbn; intuition discriminate|].
  eexists. split; vm_compute; reflexivity.
Qed.
(** A reply without anything else. *)
Example C42_frame_case : ~ In EClose [EGo; EGo; EReply 8; EGo; EGo; EGo] /\ exists w, wrun wait0 [EGo; EGo; EReply 8; EGo; EGo; EGo] = Ok w /\ w_pc w = WDone 8.
Proof. split; [cbn; intuition discriminate|]. eexists. split; vm_compute; reflexivity. Qed.
(** Three messages, two waited for; the other is answered with ANS and NUL. *)
Definition case_ms : list mev := [MSend (Some 5); MSend None; MSend (Some 6); MReply KRpy; MReply KAns; MReply KNul; MReply KRpy].
Example C42_matching_case : NoDup (objs (sends case_ms)) /\ plain (sends case_ms) (ch_log (mrun case_ms)) /\
  given (ch_log (mrun case_ms)) = [(0, 5); (2, 6)].
Proof.
  split; [cbn; repeat constructor; cbn; intuition discriminate|]. split; [|reflexivity].
  intros n k d H K. vm_compute in H. repeat destruct H as [H|H]; try contradiction; injection H as <- <- <-; try congruence; reflexivity.
Qed.
(** The reply is sent while the connection is closed. *)
Definition case_sent : list wev := [EGo; EClose; ETake; ESent; EGo; EGo; ECall; EGo; EGo].
Example C41_case : sents case_sent = 1%nat /\ ~ In ELose case_sent /\ exists w, wrun sent0 case_sent = Ok w /\ returned w.
Proof. split; [reflexivity|]. split; [cbn; intuition discriminate|]. eexists. split; [vm_compute; reflexivity|]. exists 0. reflexivity. Qed.
