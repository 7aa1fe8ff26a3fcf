(** Properties of the external transports. *)
From Coq Require Import String.
From Verif Require Import Base HdrModel HdrProofs GreetModel ExtModel ExtSpec ExtProofs.
Open Scope list_scope.

(** * C260 *)
Theorem C260_lives_partial : forall m es, settled es -> fair 1 es ->
  exists r, xrun es (conf m) = Ok r /\
    forall s, r = Some s -> x_refs s = own_after 1 es + zlen (x_conns s) /\ (x_alive s = true <-> 0 < x_refs s).
Proof. exact setup_lives. Qed.
Print Assumptions C260_lives_partial.
Theorem C260_mutex_partial : forall es s, settled es -> xrun es (conf true) = Ok (Some s) -> x_bad s = 0%nat.
Proof. exact mutexes_made. Qed.
Print Assumptions C260_mutex_partial.
Definition two_conns : list xev := [XRef; XNew 1; XNew 2; XEnter 1 1; XLeave 1; XEnter 2 2; XLeave 2; XFree 1; XEnter 3 2; XLeave 3; XFree 2].
Example C260_ex : xrun two_conns (conf true) = Ok (Some (mkX false 0 true false [] [] 0)) /\ fair 1 two_conns /\
  xrun [XRef; XNew 1; XNew 2; XEnter 1 1; XLeave 1; XFree 1] (conf true) = Ok (Some (mkX true 1 true false [(2%nat, true)] [] 0)).
Proof. split; [vm_compute; reflexivity|]. split; [cbn; repeat split|vm_compute; reflexivity]. Qed.
(** The same setup given to two connections. *)
Theorem C260_shared_refuted : exists es, settled es /\ es = [XNew 1; XNew 2; XFree 1; XFree 2] /\ xrun es setup_new = UB.
Proof. eexists. split; [|split; [reflexivity|vm_compute; reflexivity]]. intros b [Q|[Q|[Q|[Q|[]]]]]; discriminate. Qed.
(** The user releases the setup it created, once the connection has it. *)
Theorem C260_released_refuted : exists es, settled es /\ es = [XNew 1; XUnref; XEnter 1 1] /\ xrun es setup_new = UB.
Proof. eexists. split; [|split; [reflexivity|vm_compute; reflexivity]]. intros b [Q|[Q|[Q|[]]]]; discriminate. Qed.
(** A mutex that was never created is destroyed. *)
Theorem C260_mutex_refuted : exists es s, settled es /\ fair 1 es /\ xrun es setup_new = Ok (Some s) /\ x_bad s = 1%nat.
Proof.
  exists [XNew 1; XFree 1]. eexists. split; [intros b [Q|[Q|[]]]; discriminate|]. split; [cbn; repeat split|]. split; [vm_compute; reflexivity|reflexivity].
Qed.

(** * C261 *)
Theorem C261_apart_partial : forall es s, settled es -> initiator es -> xrun es (conf true) = Ok (Some s) -> (List.length (x_in s) <= 1)%nat.
Proof. exact kept_apart. Qed.
Print Assumptions C261_apart_partial.
Example C261_ex : xrun [XNew 1; XEnter 1 1] (conf true) = Ok (Some (mkX true 1 true true [(1%nat, true)] [mkCall 1 1 HLock] 0)) /\
  xrun [XNew 1; XEnter 1 1; XEnter 2 1] (conf true) = Ok None /\
  (exists s, xrun [XNew 1; XEnter 1 1; XEnter 2 1] (conf false) = Ok (Some s) /\ List.length (x_in s) = 2%nat) /\
  (exists s, xrun [XNew 1; XEnter 1 1; XLeave 1; XEnter 2 1] (conf true) = Ok (Some s) /\ x_in s = [mkCall 2 1 HLock]).
Proof. repeat apply conj; try eexists; try (vm_compute; reflexivity); split; vm_compute; reflexivity. Qed.
(** The connections a listener accepts do not use the mutex. *)
Theorem C261_accepted_refuted : exists es s, settled es /\ xrun es (conf true) = Ok (Some s) /\ x_in s = [mkCall 2 1 HDirect; mkCall 1 1 HDirect].
Proof. exists [XEnterA 1 1; XEnterA 2 1]. eexists. split; [intros b [Q|[Q|[]]]; discriminate|]. split; [vm_compute; reflexivity|reflexivity]. Qed.
(** Turning it on while a handler runs: a mutex that is not locked is unlocked. *)
Theorem C261_on_refuted : exists es, initiator es /\ xrun es setup_new = UB /\ es = [XNew 1; XEnter 1 1; XConf true; XLeave 1].
Proof. eexists. split; [|split; [|reflexivity]]; [intros k c [Q|[Q|[Q|[Q|[]]]]]; discriminate|vm_compute; reflexivity]. Qed.
(** Turning it off while a handler runs: the mutex is not released, and the connection is never freed. *)
Theorem C261_off_refuted : exists es s, initiator es /\ xrun es (conf true) = Ok (Some s) /\ x_in s = [] /\ x_held s = true /\
  xstep (XFree 1) s = Ok None /\ xstep XUnref s = Ok None.
Proof.
  exists [XNew 1; XEnter 1 1; XConf false; XLeave 1]. eexists. split; [intros k c [Q|[Q|[Q|[Q|[]]]]]; discriminate|]. split; [vm_compute; reflexivity|]. repeat split.
Qed.

(** * C262 *)
Theorem C262_returned_partial : forall ctx session made mem sendh recvh su told greet r, conn_new ctx session made mem sendh recvh su told greet = Ok r ->
  (n_ret r = RNull <-> ctx = false \/ session < 0 \/ made = false \/ mem = false) /\
  (n_gave r = true <-> su <> None /\ n_ret r <> RNull) /\
  (n_prepared r = match su with Some s => if su_prepare s then match n_ret r with RNull => 0 | _ => 1 end else 0 | None => 0 end)%nat.
Proof. exact new_null. Qed.
Print Assumptions C262_returned_partial.
Example C262_ex : conn_new true 7 true true true true (Some (mkSu true None None)) false true = Ok (mkN (RConn true None None) 0 true 1 false) /\
  conn_new true (-1) true true true true (Some (mkSu true None None)) false true = Ok (mkN RNull 0 false 0 false) /\
  conn_new true 7 true true true true None false false = Ok (mkN (RConn false None None) 0 false 0 false).
Proof. repeat apply conj; reflexivity. Qed.
(** The handler asked for is never called: the connection is returned. *)
Theorem C262_told_refuted : exists r, conn_new true 7 true true true true None true true = Ok r /\ n_told r = 0%nat /\ n_ret r = RConn true None None.
Proof. eexists. split; [reflexivity|]. split; reflexivity. Qed.
Theorem C262_never_told : forall ctx session made mem sendh recvh su told greet r, conn_new ctx session made mem sendh recvh su told greet = Ok r -> n_told r = 0%nat.
Proof. exact (fun ctx session made mem sendh recvh su told greet r H => proj1 (never_told ctx session made mem sendh recvh su told greet r H)). Qed.
Print Assumptions C262_never_told.
(** Without memory for the data the connection created is lost. *)
Theorem C262_lost_refuted : exists r, conn_new true 7 true false true true None false true = Ok r /\ n_ret r = RNull /\ n_lost r = true.
Proof. eexists. split; [reflexivity|]. split; reflexivity. Qed.
(** No handler to send: it is called. *)
Theorem C262_handlers_refuted : exists su, conn_new true 7 true true false true su false true = UB.
Proof. exists None. reflexivity. Qed.

(** * C263 *)
Theorem C263_host_refuted : exists s r up h p, su_host s = Some (asc "host.external1.com"%string) /\ su_port s = Some (asc "23455"%string) /\
  conn_new true 7 true true true true (Some s) false true = Ok r /\ n_ret r = RConn up h p /\ h <> su_host s /\ p <> su_port s.
Proof.
  exists (mkSu false (Some (asc "host.external1.com"%string)) (Some (asc "23455"%string))). do 4 eexists. split; [reflexivity|]. split; [reflexivity|]. split; [reflexivity|]. split; [reflexivity|]. split; discriminate.
Qed.
Theorem C263_never : forall ctx session made mem sendh recvh su told greet r up h p, conn_new ctx session made mem sendh recvh su told greet = Ok r ->
  n_ret r = RConn up h p -> h = None /\ p = None.
Proof.
  exact (fun ctx session made mem sendh recvh su told greet r up h p H E =>
           eq_ind (n_ret r) (fun x => match x with RNull => True | RConn _ h p => h = None /\ p = None end) (proj2 (never_told ctx session made mem sendh recvh su told greet r H)) (RConn up h p) E).
Qed.
Print Assumptions C263_never.

(** * C264 *)
Theorem C264_client : forall n o t es, 0 <= n ->
  let c := d_closed (drun es (client n o t)) in (c = [] \/ c = [o]) /\ (In DFree es -> c = [o]).
Proof. exact client_closes. Qed.
Print Assumptions C264_client.
Theorem C264_listener_partial : forall n o t es, 0 <= n -> (forall q, ~ In (DOpen n q) es) -> Forall (fun x => x = o) (d_closed (drun es (listener n o t))).
Proof. exact listener_closes. Qed.
Print Assumptions C264_listener_partial.
Example C264_ex : d_closed (drun [DShutdown; DOpen 5 9; DFree] (client 5 1 [])) = [1%nat] /\ d_closed (drun [DOpen 6 9; DFree] (client 5 1 [])) = [1%nat] /\
  d_closed (drun [DShutdown; DOpen 6 9; DFree] (listener 5 1 [])) = [1%nat].
Proof. repeat apply conj; reflexivity. Qed.
(** The listener is shut down, the number is given to another file, that is closed when the listener is freed. *)
Theorem C264_listener_refuted : exists n o q es, 0 <= n /\ o <> q /\ es = [DShutdown; DOpen n q; DFree] /\ d_closed (drun es (listener n o [])) = [q; o].
Proof. exists 5, 1%nat, 9%nat. eexists. split; [discriminate|]. split; [discriminate|]. split; reflexivity. Qed.
