(** Properties of the Python bindings. *)
From Coq Require Import String.
From Verif Require Import Base HdrModel HdrProofs PyModel PySpec PyProofs PyProofs2 PyProofs3.
Open Scope list_scope.

(** * C265 *)
Theorem C265_closed_partial : forall es, proper es -> exists s, crun pc0 es = Ok s /\
  (forall k, (List.length (given es) <= k)%nat -> calls k (pc_log s) = []) /\
  (forall k f d, nth_error (given es) k = Some (f, d) ->
     (calls k (pc_log s) = [] \/ calls k (pc_log s) = [(f, d)]) /\
     (frees k (pc_log s) <= 1)%nat /\
     (removed k es -> calls k (pc_log s) = [] /\ frees k (pc_log s) = 1%nat) /\
     (forall c, nth_error (sets es) k = Some (Some c) -> removed k es -> In (ORemoved k true) (pc_log s)) /\
     (forall c, nth_error (sets es) k = Some (Some c) -> settled c s -> ~ removed k es ->
        calls k (pc_log s) = [(f, d)] /\ frees k (pc_log s) = 1%nat /\ In (CClose c) es)).
Proof. exact close_handlers. Qed.
Print Assumptions C265_closed_partial.
Definition three_handlers : list cevent :=
  [CSet (Some 7) true 1 10; CSet (Some 7) true 2 20; CSet (Some 8) true 3 30; CSet (Some 7) false 4 40; CRemove (Some 7) 1; CClose 7;
   CTake 7; CBegin 0; CEnd 0; CTake 7].
Example C265_ex : (exists s, crun pc0 three_handlers = Ok s /\
    pc_log s = [OHandle 0; OHandle 1; OHandle 2; OBad; OFreed 1; ORemoved 1 true; OCall 0 1 10; OFreed 0]) /\ proper three_handlers.
Proof.
  split; [eexists; split; vm_compute; reflexivity|].
  intros pre w k post E K. unfold three_handlers in E.
  cuts ltac:(cbn; split; [reflexivity|]; intros c [= <-] [Q|[Q|[Q|[Q|[]]]]]; discriminate).
Qed.
(** The handle is given back once the handler was called. *)
Theorem C265_late_refuted : exists es, es = [CSet (Some 7) true 1 10; CClose 7; CTake 7; CBegin 0; CEnd 0; CRemove (Some 7) 0] /\ crun pc0 es = UB.
Proof. eexists. split; [reflexivity|vm_compute; reflexivity]. Qed.
(** While the thread that closes the connection waits for the interpreter. *)
Theorem C265_race_refuted : exists es, es = [CSet (Some 7) true 1 10; CClose 7; CTake 7; CRemove (Some 7) 0; CBegin 0] /\ crun pc0 es = UB.
Proof. eexists. split; [reflexivity|vm_compute; reflexivity]. Qed.
(** To another connection, or to the vortex.Connection once closed. *)
Theorem C265_other_refuted : exists es, es = [CSet (Some 7) true 1 10; CRemove (Some 8) 0; CClose 7; CTake 7; CBegin 0] /\ crun pc0 es = UB /\
  crun pc0 [CSet (Some 7) true 1 10; CClose 7; CRemove None 0; CTake 7; CBegin 0] = UB.
Proof. eexists. split; [reflexivity|split; vm_compute; reflexivity]. Qed.

(** * C266 *)
Theorem C266_safe_partial : forall s0 es, (exists ok, s0 = y_new ok) \/ s0 = y_accepted ->
  exists s, yrun s0 es = Ok s /\ owners s <= y_count s /\ y_freed s = (y_count s =? 0).
Proof. exact refs_safe. Qed.
Print Assumptions C266_safe_partial.
Example C266_ex : yrun (y_new true) [YWrap; YClose 0 true; YShutdown 0; YReader; YCollect 0; YCollect 1] =
    Ok (mkY YInit false true 0 true false [mkW false false true false; mkW false false false false]) /\
  (exists s, yrun y_accepted [YWrap; YCollect 0; YLost; YReader] = Ok s /\ y_count s = 1 /\ owners s = 1).
Proof. split; [vm_compute; reflexivity|eexists; split; [vm_compute; reflexivity|split; reflexivity]]. Qed.
(** A listener, shut down before it is closed. *)
Theorem C266_listener_refuted : exists es, es = [YShutdown 0; YClose 0 true; YReader] /\ yrun (y_listener true) es = UB /\
  yrun (y_listener false) [YClose 0 true] <> UB /\ yrun (y_listener true) [YClose 0 true; YReader] <> UB.
Proof. eexists. split; [reflexivity|]. split; [vm_compute; reflexivity|]. split; vm_compute; discriminate. Qed.

(** * C267 *)
Theorem C267_initiator_partial : forall ok es s, (forall j b, In (YClose j b) es -> j = 0%nat) ->
  yrun (y_new ok) es = Ok s -> y_count s = owners s /\ (all_collected s -> y_freed s = true).
Proof. exact (fun ok es s H E => refs_initiator ok 0 es s H eq_refl E). Qed.
Print Assumptions C267_initiator_partial.
Theorem C267_accepted_partial : forall es s, (forall j b, ~ In (YClose j b) es) -> yrun y_accepted es = Ok s ->
  y_count s = owners s /\ (all_collected s -> y_freed s = true).
Proof. exact refs_accepted. Qed.
Print Assumptions C267_accepted_partial.
Example C267_ex : (exists s, yrun (y_new true) [YWrap; YClose 0 false; YClose 0 true; YReader; YCollect 1; YCollect 0] = Ok s /\
    all_collected s /\ y_freed s = true) /\
  (exists s, yrun (y_new false) [YCollect 0] = Ok s /\ all_collected s /\ y_freed s = true) /\
  (exists s, yrun y_accepted [YShutdown 0; YCollect 0; YReader] = Ok s /\ all_collected s /\ y_freed s = true).
Proof.
  repeat apply conj; eexists; (split; [vm_compute; reflexivity|]); (split; [|reflexivity]); (split; [reflexivity|]);
    cbn; intros w H; repeat (destruct H as [<-|H]; [reflexivity|]); destruct H.
Qed.
(** A connection accepted that is closed. *)
Theorem C267_accepted_refuted : exists es s, yrun y_accepted es = Ok s /\ es = [YClose 0 true; YReader; YCollect 0] /\ all_collected s /\ y_count s = 1 /\ y_freed s = false.
Proof. eexists _, _. split; [|split; [reflexivity|]]; [vm_compute; reflexivity|]. split; [|split; reflexivity]. split; [reflexivity|]. cbn. intros w [<-|[]]. reflexivity. Qed.
(** Two objects of the same connection, both closed. *)
Theorem C267_twice_refuted : exists es s, yrun (y_new true) es = Ok s /\ es = [YWrap; YClose 0 true; YClose 1 true; YReader; YCollect 0; YCollect 1] /\
  all_collected s /\ y_count s = 1 /\ y_freed s = false.
Proof. eexists _, _. split; [|split; [reflexivity|]]; [vm_compute; reflexivity|]. split; [|split; reflexivity]. split; [reflexivity|]. cbn. intros w [<-|[<-|[]]]; reflexivity. Qed.
(** A listener that could not be started. *)
Theorem C267_listener_refuted : exists es s, yrun (y_listener false) es = Ok s /\ es = [YCollect 0] /\ all_collected s /\ y_count s = 1 /\ y_freed s = false.
Proof. eexists _, _. split; [|split; [reflexivity|]]; [vm_compute; reflexivity|]. split; [|split; reflexivity]. split; [reflexivity|]. cbn. intros w [<-|[]]. reflexivity. Qed.

(** * C268 *)
Theorem C268_queue_partial : forall refs es, ~ In QBroken es -> ~ In QCollect es ->
  exists s rest, qrun (q_new refs) es = Ok s /\ qs_items s = map QObj rest /\ pushed es = objs (qs_got s) ++ rest /\
  forall x, qs_refs s x = owned refs es (qs_got s) x + count x rest.
Proof. exact queue_refs. Qed.
Print Assumptions C268_queue_partial.
Theorem C268_collect_partial : forall refs es s, ~ In QBroken es -> ~ In QCollect es -> qrun (q_new refs) es = Ok s ->
  qs_items s = [] -> qs_wait s = 0 -> exists s', qrun (q_new refs) (es ++ [QCollect]) = Ok s' /\
  qs_open s' = false /\ pushed es = objs (qs_got s') /\ forall x, qs_refs s' x = owned refs es (qs_got s') x.
Proof. exact queue_collect. Qed.
Print Assumptions C268_collect_partial.
Example C268_ex : exists s, qrun (q_new (fun x => if x =? 5 then 1 else if x =? 6 then 1 else 0))
    [QPush 5; QPush 6; QDrop 6; QPop; QTimed true; QTimed true; QDrop 5; QReply true; QReplied false; QPush 5; QReplied false] = Ok s /\
  qs_got s = [RObj 5; RObj 6; RNone; RObj 5] /\ qs_items s = [] /\ qs_wait s = 0 /\ qs_refs s 5 = 2 /\ qs_refs s 6 = 1 /\ qs_refs s 0 = 1.
Proof. eexists. split; [vm_compute; reflexivity|]. repeat split; vm_compute; reflexivity. Qed.
(** What is left inside a queue is never released. *)
Theorem C268_left_refuted : exists refs es s, qrun (q_new refs) (es ++ [QCollect]) = Ok s /\ qs_open s = false /\
  owned refs es (qs_got s) 5 = 0 /\ qs_refs s 5 = 1.
Proof. exists (fun x => if x =? 5 then 1 else 0), [QPush 5; QDrop 5]. eexists. split; [vm_compute; reflexivity|]. repeat split; vm_compute; reflexivity. Qed.
(** A timeout and None are told the same. *)
Theorem C268_none_refuted : exists refs es es' s s', pushed es = [0] /\ pushed es' = [] /\ qrun (q_new refs) es = Ok s /\ qrun (q_new refs) es' = Ok s' /\
  qs_got s = [RObj py_none] /\ qs_got s' = [RNone] /\ qs_refs s py_none = qs_refs s' py_none.
Proof. exists (fun _ => 9), [QPush 0; QTimed false], [QTimed true]. eexists _, _. split; [reflexivity|]. split; [reflexivity|]. split; [reflexivity|]. split; [vm_compute; reflexivity|]. repeat split; vm_compute; reflexivity. Qed.

(** * C269 *)
Theorem C269_reply_partial : forall refs es, ~ In QPop es -> (forall b, ~ In (QTimed b) es) -> exists s, qrun (q_new refs) es = Ok s.
Proof. exact queue_replies. Qed.
Print Assumptions C269_reply_partial.
Example C269_ex : exists s, qrun (q_new (fun _ => 1)) [QReply true; QReply true; QBroken; QReplied false; QReplied false] = Ok s /\ qs_got s = [RNone; RNone] /\ qs_items s = [].
Proof. eexists. split; [vm_compute; reflexivity|]. repeat split; vm_compute; reflexivity. Qed.
(** A frame came and the connection is closed before the thread waiting for it runs: the next pop. *)
Theorem C269_mark_refuted : exists refs es, es = [QReply true; QPush 5; QBroken; QReplied false; QPop] /\ qrun (q_new refs) es = UB.
Proof. exists (fun _ => 1). eexists. split; [reflexivity|vm_compute; reflexivity]. Qed.
(** The frame of a piggyback is never released; the one of a handler is. *)
Theorem C269_piggyback_refuted : exists refs, refs = 1 /\ reply_piggyback refs = 1 /\ frame_received refs = refs.
Proof. exists 1. repeat split. Qed.

(** * C270 *)
Theorem C270_frames_partial : forall b es, calm es -> exists s, hrun (h_opened b) es = Ok s /\
  (forall f, count f (h_wait s) + seen f (h_log s) = frames f es) /\
  (forall f h d, In (HCall f h d) (h_log s) -> exists pre post, es = pre ++ HLock f :: post /\ conf pre None = Some (h, d)).
Proof. exact frames_delivered. Qed.
Print Assumptions C270_frames_partial.
Definition changes : list hevent := [HConf true 1 (Some 2); HFrame 10; HFrame 11; HLock 11; HConf true 3 None; HLock 10; HUnset; HFrame 12; HConf false 9 None].
Example C270_ex : (exists s, hrun (h_opened true) changes = Ok s /\ h_log s = [HCall 11 1 2; HCall 10 3 py_none; HOther 12]) /\ calm changes.
Proof.
  split; [eexists; split; vm_compute; reflexivity|].
  split; [|split].
  - intros pre f post E. unfold changes in E. cuts ltac:(exists 1, (Some 2); cbn; auto).
  - intros pre post E f. unfold changes in E.
    cuts ltac:(unfold frames, locks, zlen; cbn [filter]; destruct (10 =? f), (11 =? f); cbn; lia).
  - intros pre f post E. unfold changes in E. cuts ltac:(vm_compute; reflexivity).
Qed.
(** The first frame of a channel opened with a handler. *)
Theorem C270_open_refuted : exists es, es = [HFrame 10; HLock 10; HConf true 1 (Some 2)] /\ hrun (h_opened true) es = UB.
Proof. eexists. split; [reflexivity|vm_compute; reflexivity]. Qed.
(** The handler is taken away while a frame waits. *)
Theorem C270_unset_refuted : exists es, es = [HConf true 1 None; HFrame 10; HUnset; HLock 10] /\ hrun (h_opened false) es = UB.
Proof. eexists. split; [reflexivity|vm_compute; reflexivity]. Qed.

(** * C271 *)
Theorem C271_content_partial : forall b n, zlen b < two31 ->
  (n = -1 -> send_msg (Some b) n = Ok (Some b) /\ send_rpy (Some b) n = Ok (Some b)) /\
  (0 <= n <= zlen b -> send_msg (Some b) n = Ok (Some (firstn (Z.to_nat n) b)) /\ send_rpy (Some b) n = Ok (Some (firstn (Z.to_nat n) b))) /\
  (n <= -2 \/ zlen b + 1 < n -> send_msg (Some b) n = UB /\ send_rpy (Some b) n = UB) /\
  send_msg None 0 = Ok (Some []) /\ send_rpy None 0 = Ok (Some []).
Proof. exact content_sent. Qed.
Print Assumptions C271_content_partial.
Example C271_ex : send_msg (Some [104; 111; 108; 97]) 2 = Ok (Some [104; 111]) /\ send_rpy (Some [104; 111]) (-1) = Ok (Some [104; 111]) /\
  send_msg None 4 = Ok None /\ send_msg (Some [104]) 2 = Ok (Some [104; 0]).
Proof. repeat split. Qed.
Theorem C271_none_refuted : exists n, n = -1 /\ send_msg None n = UB /\ send_rpy None n = UB /\ send_rpy None 4 = UB.
Proof. exists (-1). repeat split. Qed.
Theorem C271_size_refuted : exists b n, send_msg (Some b) n = UB /\ 0 < n /\ send_rpy (Some b) (-2) = UB.
Proof. exists [104], 9. repeat split. Qed.

(** * C272 *)
Theorem C272_events_partial : forall es, exists s, vrun v_new es = Ok s /\
  (forall a b, v_log s = a ++ VGone :: b -> b = []) /\
  (~ In (VReturn VRaise) es -> v_refs s = b2z (v_live s) + b2z (v_run s)).
Proof. exact events_safe. Qed.
Print Assumptions C272_events_partial.
Example C272_ex : vrun v_new [VDue; VLock; VReturn (VInt 0); VDue; VLock; VReturn VOtherVal; VDue; VLock; VReturn (VInt 1); VDue] =
    Ok (mkV false false 0 false false false [VCalled; VCalled; VCalled; VGone]) /\
  vrun v_new [VDue; VLock; VRemove; VReturn (VInt 1)] = Ok (mkV false false 0 false false false [VCalled; VGone]).
Proof. repeat split. Qed.
(** A handler that raises: the context is kept for ever. *)
Theorem C272_raise_refuted : exists es s, vrun v_new es = Ok s /\ es = [VDue; VLock; VReturn VRaise] /\
  v_live s = false /\ forall es' s', vrun s es' = Ok s' -> v_refs s' = 1.
Proof.
  eexists _, _. split; [|split; [reflexivity|]]; [vm_compute; reflexivity|]. split; [reflexivity|].
  intros es' s' E. apply gone_run in E; try reflexivity. destruct E as [E _]. exact E.
Qed.
(** So is it once the event was removed by remove_event. *)
Theorem C272_remove_refuted : exists es s, vrun v_new es = Ok s /\ es = [VDue; VLock; VReturn (VInt 0); VRemove] /\
  v_in s = false /\ forall es' s', vrun s es' = Ok s' -> v_refs s' = 1 /\ v_live s' = true.
Proof.
  eexists _, _. split; [|split; [reflexivity|]]; [vm_compute; reflexivity|]. split; [reflexivity|].
  intros es' s' E. apply gone_run in E; try reflexivity. exact E.
Qed.
