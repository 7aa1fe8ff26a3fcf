(** Properties of the delivery of frames. *)
From Verif Require Import Base DlvModel DlvSpec DlvProofs DlvProofs2 DlvProofs3 DlvProofs4 DlvProofs5.

(** C205: in any state in which the connection works and the channel does not
    serialise its frames, a frame received is given to the first of: the handler of
    the context (not on channel 0), the thread that waits for that reply, the
    handler of the channel, the handler of the profile; else it is dropped and its
    memory released.  (The task of the frame runs after it is received.) *)
Theorem C205_recipient : forall s i c reply n size, d_up s = true -> d_cur s = Some i -> nth_error (d_chans s) i = Some (Some c) -> c_ser c = false ->
  exists s', drun s [DFrame reply n size; DTask (length (d_tasks s))] = Ok s' /\
  d_log s' = d_log s ++ given (d_count s) (recipient (d_zero s) (d_glob s) (reply && match c_wait c with m :: _ => m =? n | [] => false end) n (c_recv c) (d_prof s)).
Proof. exact who_gets. Qed.
Print Assumptions C205_recipient.
Definition handlers : list dev :=
  [DProf (Some 5); DFrame false 0 10; DTask 0; DChan (Some 7); DWait 3; DFrame false 0 4; DTask 0; DFrame true 3 2; DFrame true 3 2; DTask 0; DReturn 0; DGlobal true; DFrame false 1 1;
   DProf None; DChan None; DGlobal false; DFrame false 2 1].
Example C205_ex : exists s, drun (d0 false) handlers = Ok s /\
  d_log s = [ODeliver 0 (WProf 5); ODeliver 1 (WChan 7); ODeliver 2 (WWaiter 3); ODeliver 3 (WChan 7); OFree 0; ODeliver 4 WGlobal; OFree 4; ODrop 5; OFree 5].
Proof. eexists. split; vm_compute; reflexivity. Qed.
(** A thread that waits for a reply is not always given it: with a handler of the
    context, which is said to override the handlers of the channel and of the
    profile, the reply goes to that handler and the thread goes on waiting. *)
Theorem C205_waiting_refuted : exists es s c, drun (d0 false) es = Ok s /\ nth_error (d_chans s) 0 = Some (Some c) /\ c_wait c = [3] /\ d_log s = [] /\
  exists s' c', drun s [DFrame true 3 10] = Ok s' /\ d_log s' = [ODeliver 0 WGlobal; OFree 0] /\ nth_error (d_chans s') 0 = Some (Some c') /\ c_wait c' = [3] /\ d_tasks s' = [].
Proof.
  exists [DGlobal true; DWait 3]. eexists _, _. split; [vm_compute; reflexivity|]. split; [reflexivity|]. split; [reflexivity|]. split; [reflexivity|].
  eexists _, _. split; [vm_compute; reflexivity|]. repeat split; reflexivity.
Qed.
Print Assumptions C205_waiting_refuted.

(** C206: every frame received is in one place: held by the library, given to a
    thread that waited for it, or released; none is released twice, none is
    lost, and none is given or dropped twice. *)
Theorem C206_once : forall z es s, drun (d0 z) es = Ok s ->
  (forall i, (i < d_count s)%nat <-> In i (in_library s ++ freed (d_log s) ++ taken (d_log s))) /\ NoDup (in_library s ++ freed (d_log s) ++ taken (d_log s)) /\ NoDup (waiting s ++ decided (d_log s)).
Proof. exact frames_once. Qed.
Print Assumptions C206_once.
Definition serialised : list dev :=
  [DChan (Some 7); DSerial true; DFrame false 0 10; DFrame false 1 20; DFrame false 2 30; DTask 1; DTask 1; DTask 0; DReturn 0; DReturn 0; DReturn 0].
Example C206_ex : exists s, drun (d0 false) serialised = Ok s /\
  d_log s = [ODeliver 0 (WChan 7); OFree 0; ODeliver 1 (WChan 7); OFree 1; ODeliver 2 (WChan 7); OFree 2] /\ clean s /\ idle s.
Proof. eexists. split; [vm_compute; reflexivity|]. split; [reflexivity|]. split; [|split; reflexivity]. repeat split. all: destruct i as [|[|i]]; cbn in H; try discriminate; injection H as <-; reflexivity. Qed.
Example C206_held : exists s, drun (d0 false) (firstn 7 serialised) = Ok s /\ waiting s = [0; 1; 2]%nat /\ d_log s = [].
Proof. eexists. split; [vm_compute; reflexivity|]. split; reflexivity. Qed.

(** C207: the channel and the connection are in memory while the library uses
    them: as long as no other channel is opened with the number of the channel,
    whatever the tasks, the handlers and the changes to them, no step uses memory
    that was released, and there are references for every task, call and stored frame. *)
Theorem C207_in_memory_partial : forall z es, no_open es -> exists s, drun (d0 z) es = Ok s /\
  (forall c, nth_error (d_chans s) 0 = Some (Some c) -> zlen (d_tasks s) + zlen (d_runs s) + zlen (c_stored c) <= c_ref c /\ zlen (d_tasks s) + zlen (d_runs s) + zlen (c_stored c) < d_conn s).
Proof. exact safe. Qed.
Print Assumptions C207_in_memory_partial.
Example C207_ex : no_open (handlers ++ serialised ++ [DClose; DDown]) /\ exists s, drun (d0 false) (handlers ++ serialised ++ [DClose; DDown]) = Ok s.
Proof. split; [intros H; repeat (destruct H as [H|H]; [discriminate|]); destruct H|]. eexists. vm_compute. reflexivity. Qed.
(** When another one is opened, a task of the profile that was waiting uses it
    and takes a reference away from it: the channel is released while the
    connection has it. *)
Theorem C207_in_memory_refuted : exists es, drun (d0 false) es = UB /\ no_serialize es /\ ~ In DDown es.
Proof.
  exists [DProf (Some 5); DFrame false 0 10; DClose; DOpen; DTask 0; DReturn 0; DFrame false 0 1]. split; [vm_compute; reflexivity|].
  split; intros H; repeat (destruct H as [H|H]; [discriminate|]); destruct H.
Qed.
Print Assumptions C207_in_memory_refuted.

(** C208: what the delivery takes is released.  When nothing is serialised and
    either the handlers are all of channels, or the connection, the channel and
    the handler of the profile last, the references to the connection are its own
    one and one for every task and call, there is a block of parameters for every
    task, and when there are no tasks and no calls the only channel in memory is the one of
    the connection, with one reference.  In the first case other channels may be opened. *)
Theorem C208_released_partial : forall z es, channel_level es \/ lasting es ->
  exists s, drun (d0 z) es = Ok s /\ d_conn s = 1 + zlen (d_tasks s) + zlen (d_runs s) /\ d_data s = zlen (d_tasks s) /\ (idle s -> clean s).
Proof. exact released. Qed.
Print Assumptions C208_released_partial.
Definition reopened : list dev := [DChan (Some 7); DFrame false 0 10; DClose; DOpen; DChan (Some 9); DFrame false 0 4; DTask 0; DTask 0; DDown; DReturn 0; DReturn 0].
Example C208_ex : channel_level reopened /\ exists s, drun (d0 false) reopened = Ok s /\ idle s /\ clean s /\ d_log s = [ODeliver 0 (WChan 7); ODeliver 1 (WChan 9); OFree 0; OFree 1].
Proof.
  split; [split; [intros H|intros h H]; repeat (destruct H as [H|H]; [discriminate|]); destruct H|]. eexists. split; [vm_compute; reflexivity|]. split; [split; reflexivity|]. split; [|reflexivity].
  repeat split. all: destruct i as [|[|[|i]]]; cbn in H; try discriminate; injection H as <-; reflexivity.
Qed.
(** The connection goes down, or the channel is closed, before the task of the
    profile runs: the channel is never released. *)
Theorem C208_profile_refuted : forall e, e = DDown \/ e = DClose -> exists s, drun (d0 false) [DProf (Some 5); DFrame false 0 10; e; DTask 0; DClose] = Ok s /\ idle s /\ ~ clean s.
Proof.
  intros e [-> | ->]; (eexists; split; [vm_compute; reflexivity|]; split; [split; reflexivity|]; intros (_ & _ & H); specialize (H 0%nat _ eq_refl); cbn in H; destruct H; discriminate).
Qed.
Print Assumptions C208_profile_refuted.
(** The received handler of the profile is taken away before its task runs: the
    parameters are never released. *)
Theorem C208_parameters_refuted : exists es s, drun (d0 false) es = Ok s /\ idle s /\ d_data s = 1 /\ ~ In DDown es /\ ~ In DClose es.
Proof.
  exists [DProf (Some 5); DFrame false 0 10; DProf None; DTask 0]. eexists. split; [vm_compute; reflexivity|]. repeat split; auto; intros H; repeat (destruct H as [H|H]; [discriminate|]); destruct H.
Qed.
Print Assumptions C208_parameters_refuted.
(** The connection goes down with frames that wait for a previous one on a
    channel that serialises: the channel and the connection are never released. *)
Theorem C208_serialised_refuted : exists s, drun (d0 false) [DChan (Some 7); DSerial true; DFrame false 0 10; DFrame false 1 20; DTask 1; DDown; DTask 0; DClose] = Ok s /\
  idle s /\ d_conn s = 2 /\ waiting s = [1%nat] /\ ~ clean s.
Proof.
  eexists. split; [vm_compute; reflexivity|]. split; [split; reflexivity|]. split; [reflexivity|]. split; [reflexivity|]. intros (H & _). cbn in H. discriminate.
Qed.
Print Assumptions C208_serialised_refuted.

(** C209: no frame is lost while there is a handler: from the moment a handler of
    the channel or of the profile is set, as long as it is kept and so are the
    connection and the channel, no frame is dropped, and when there are no tasks
    left every frame was given to somebody.  Missing: channels that serialise, for which only the first part is proved. *)
Theorem C209_delivered_partial : forall z e es, (exists h, e = DChan (Some h) \/ e = DProf (Some h)) -> kept es -> no_serialize es ->
  exists s, drun (d0 z) (e :: es) = Ok s /\ dropped (d_log s) = [] /\ (d_tasks s = [] -> forall i, (i < d_count s)%nat -> exists w, In (ODeliver i w) (d_log s)).
Proof. exact all_delivered. Qed.
Print Assumptions C209_delivered_partial.
Theorem C209_none_dropped : forall z e es, (exists h, e = DChan (Some h) \/ e = DProf (Some h)) -> kept es -> exists s, drun (d0 z) (e :: es) = Ok s /\ dropped (d_log s) = [].
Proof. exact none_dropped. Qed.
Print Assumptions C209_none_dropped.
Example C209_ex : kept [DFrame false 0 10; DChan (Some 8); DFrame true 4 1; DTask 1; DTask 0] /\
  exists s, drun (d0 true) (DProf (Some 7) :: [DFrame false 0 10; DChan (Some 8); DFrame true 4 1; DTask 1; DTask 0]) = Ok s /\ d_tasks s = [] /\ d_count s = 2%nat /\ d_log s = [ODeliver 1 (WChan 8); ODeliver 0 (WProf 7)].
Proof. split; [repeat split; intros H; repeat (destruct H as [H|H]; [discriminate|]); destruct H|]. eexists. split; [vm_compute; reflexivity|]. repeat split; reflexivity. Qed.
(** On a channel that serialises two frames without content have the same
    sequence number: the one stored second takes the place of the first one,
    which is released without being given to anybody. *)
Theorem C209_serialised_refuted : exists es s, kept es /\ drun (d0 false) (DChan (Some 7) :: es) = Ok s /\ d_tasks s = [] /\ d_runs s = [] /\ d_count s = 3%nat /\ waiting s = [] /\
  In (OFree 1) (d_log s) /\ forall w, ~ In (ODeliver 1 w) (d_log s).
Proof.
  exists [DSerial true; DFrame false 0 10; DFrame false 1 0; DFrame false 2 0; DTask 1; DTask 1; DTask 0; DReturn 0; DReturn 0]. eexists.
  split; [repeat split; intros H; repeat (destruct H as [H|H]; [discriminate|]); destruct H|]. split; [vm_compute; reflexivity|]. do 4 (split; [reflexivity|]). split; [cbn; auto|].
  intros w H. cbn in H. repeat (destruct H as [H|H]; [discriminate|]); destruct H.
Qed.
Print Assumptions C209_serialised_refuted.
