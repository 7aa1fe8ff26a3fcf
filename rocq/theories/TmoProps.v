(** The timeouts of the applications: the theorems. *)
From Verif Require Import Base RpcModel TmoModel TmoSpec TmoProofs.

(** C235: what is configured is what is used. *)
Theorem C235_set_get_partial : forall w c v l w' xs, int_value v -> v <> 0 -> Forall (fun k => ~ sets_sync k) l ->
  do_calls w (CSet c v :: l) = Ok (w', xs) -> exists w2, do_call w' (CGet c) = Ok (w2, Some v).
Proof. exact set_get. Qed.
Print Assumptions C235_set_get_partial.

Theorem C235_connect_partial : forall w c v l w' xs, int_value v -> Forall (fun k => ~ sets_connect k) l ->
  do_calls w (CCSet c v :: l) = Ok (w', xs) -> exists w2, do_call w' (CCGet c) = Ok (w2, Some v).
Proof. exact cset_cget. Qed.
Print Assumptions C235_connect_partial.

Theorem C235_default : forall l k r, Forall (fun k => ~ sets_sync k /\ ~ sets_connect k) l -> returns started l k r ->
  (forall c, k = CGet c -> r = 60000000) /\ (forall c, k = CCGet c -> r = 0).
Proof. exact default. Qed.
Print Assumptions C235_default.
(** A context made when the variables are set takes them. *)
Theorem C235_new_context : forall w w1 x w2 r, do_call w CNew = Ok (w1, x) ->
  (do_call w1 (CGet (List.length (w_ctxs w))) = Ok (w2, Some r) ->
     r = if getenv_int (w_env w) =? 0 then 60000000 else getenv_int (w_env w)) /\
  (do_call w1 (CCGet (List.length (w_ctxs w))) = Ok (w2, Some r) -> r = getenv_int (w_cenv w)).
Proof. exact new_context. Qed.
Print Assumptions C235_new_context.
Example C235_new_ex : exists w w1 w2, do_call w CNew = Ok (w1, None) /\ List.length (w_ctxs w) = 1%nat /\ do_call w1 (CGet 1) = Ok (w2, Some 7).
Proof. exists (mkW (Some [55]) None [fresh_ctx]). eexists _, _. repeat apply conj; [vm_compute; reflexivity|reflexivity|vm_compute; reflexivity]. Qed.

(** The values no int holds: one of them is used as 5 microseconds, another is ignored;
    for the connect, no timeout at all. *)
Theorem C235_range_refuted : exists v v' : Z, 0 < v < two63 /\ 0 < v' < two63 /\
  returns started [CNew; CSet 0 v] (CGet 0) 5 /\ v <> 5 /\
  returns started [CNew; CSet 0 v'] (CGet 0) 60000000 /\ v' <> 60000000 /\
  returns started [CNew; CCSet 0 v'] (CCGet 0) 0.
Proof.
  exists 4294967301, 4294967296. split; [split; reflexivity|]. split; [split; reflexivity|].
  split; [eexists _, _, _; split; [vm_compute; reflexivity|vm_compute; reflexivity]|]. split; [discriminate|].
  split; [eexists _, _, _; split; [vm_compute; reflexivity|vm_compute; reflexivity]|]. split; [discriminate|].
  eexists _, _, _; split; [vm_compute; reflexivity|vm_compute; reflexivity].
Qed.
Print Assumptions C235_range_refuted.

Example C235_ex :
  returns started [CNew; CGet 0; CSet 0 5000000; CNew; CCSet 0 3000000; CGet 1] (CGet 0) 5000000 /\
  returns started [CNew; CSet 0 5000000; CCSet 0 3000000; CGet 0] (CCGet 0) 3000000 /\
  returns started [CNew; CCSet 0 3000000; CCGet 0; CCSet 0 0] (CCGet 0) 0 /\
  returns started [CNew; CNew; CGet 0] (CGet 1) 60000000 /\
  returns started [CNew; CSet 0 (-1)] (CGet 0) (-1).
Proof. repeat apply conj; (eexists _, _, _; split; [vm_compute; reflexivity|vm_compute; reflexivity]). Qed.

(** C236: 0 restores the default. *)
Theorem C236_last_got_partial : forall w c r w0 l w1 xs1 w2 x l' w3 xs3,
  do_call w (CGet c) = Ok (w0, Some r) -> Forall (fun k => ~ sets_sync k) l -> do_calls w0 l = Ok (w1, xs1) ->
  do_call w1 (CSet c 0) = Ok (w2, x) -> Forall (fun k => ~ sets_sync k) l' -> do_calls w2 l' = Ok (w3, xs3) ->
  exists w4, do_call w3 (CGet c) = Ok (w4, Some r).
Proof. exact reset_keeps. Qed.
Print Assumptions C236_last_got_partial.

Theorem C236_default_refuted : exists l, returns started (CNew :: l ++ [CSet 0 0]) (CGet 0) 5000000.
Proof. exists [CSet 0 5000000; CGet 0]. eexists _, _, _. split; [vm_compute; reflexivity|vm_compute; reflexivity]. Qed.
Print Assumptions C236_default_refuted.

(** Restored when nothing was got in between. *)
Example C236_ex :
  returns started [CNew; CSet 0 5000000; CSet 0 0] (CGet 0) 60000000 /\
  returns started [CNew; CSet 0 5000000; CGet 0; CSet 0 7000000; CSet 0 0] (CGet 0) 5000000.
Proof. repeat apply conj; (eexists _, _, _; split; [vm_compute; reflexivity|vm_compute; reflexivity]). Qed.

(** C237: the timeouts of a context are its own. *)
Theorem C237_once_got_partial : forall w c r w0 l w1 xs, do_call w (CGet c) = Ok (w0, Some r) ->
  Forall (fun k => ~ sets_sync_of c k) l -> do_calls w0 l = Ok (w1, xs) -> exists w2, do_call w1 (CGet c) = Ok (w2, Some r).
Proof. exact others. Qed.
Print Assumptions C237_once_got_partial.

Theorem C237_connect_once_got_partial : forall w c r w0 l w1 xs, do_call w (CCGet c) = Ok (w0, Some r) ->
  Forall (fun k => ~ sets_connect_of c k) l -> do_calls w0 l = Ok (w1, xs) -> exists w2, do_call w1 (CCGet c) = Ok (w2, Some r).
Proof. exact cothers. Qed.
Print Assumptions C237_connect_once_got_partial.

(** A context uses what was configured last for another, even if it was configured itself. *)
Theorem C237_shared_refuted : exists l, Forall (fun k => sets_sync_of 0 k -> k = CSet 0 7000000) l /\ In (CSet 0 7000000) l /\
  returns started l (CGet 0) 5000000 /\
  exists l', Forall (fun k => ~ sets_connect_of 0 k) l' /\ returns started l' (CCGet 0) 5000000.
Proof.
  exists [CNew; CNew; CSet 0 7000000; CSet 1 5000000]. split; [repeat (apply Forall_cons || apply Forall_nil); cbn; try discriminate; auto; intros []|].
  split; [cbn; auto|]. split; [eexists _, _, _; split; [vm_compute; reflexivity|vm_compute; reflexivity]|].
  exists [CNew; CNew; CCSet 1 5000000]. split; [repeat (apply Forall_cons || apply Forall_nil); cbn; try discriminate; auto; intros []|].
  eexists _, _, _; split; [vm_compute; reflexivity|vm_compute; reflexivity].
Qed.
Print Assumptions C237_shared_refuted.

Example C237_ex :
  returns started [CNew; CNew; CSet 0 7000000; CGet 0; CSet 1 5000000; CGet 1; CSet 1 0] (CGet 0) 7000000 /\
  returns started [CNew; CNew; CCSet 0 7000000; CCGet 0; CCSet 1 5000000] (CCGet 0) 7000000.
Proof. repeat apply conj; (eexists _, _, _; split; [vm_compute; reflexivity|vm_compute; reflexivity]). Qed.

(** C238: the timeout read by several threads. *)
Theorem C238_once_got_partial : forall s c v w l s', (forall i r, nth_error (n_runs s) i = Some r -> ~ under_way c r) ->
  do_call (n_w s) (CGet c) = Ok (w, Some v) -> Forall (fun e => ~ is_set c e) l -> nrun (mkC w (n_runs s)) l = Ok s' ->
  forall i r, (List.length (n_runs s) <= i)%nat -> nth_error (n_runs s') i = Some (RGot c r) -> r = v.
Proof. exact concurrent. Qed.
Print Assumptions C238_once_got_partial.

Theorem C238_from : forall n l s' i c r, (c < n)%nat -> nrun (mkC (mkW None None (repeat fresh_ctx n)) []) l = Ok s' ->
  Forall (fun e => match e with EBeginSet _ v => - two63 <= v < two63 | _ => True end) l ->
  nth_error (n_runs s') i = Some (RGot c r) ->
  r = 60000000 \/ exists c' v, In (EBeginSet c' v) l /\ r = s32 v /\ r <> 0.
Proof. exact where_from. Qed.
Print Assumptions C238_from.

(** The only configuration ends before anything is asked; two threads ask at once, and the
    one that is late puts the old value back for good. *)
Theorem C238_lost_refuted : exists l s', nrun (mkC (mkW None None [fresh_ctx]) []) ([EBeginSet 0 5000000; EEnd 0] ++ l) = Ok s' /\
  Forall (fun e => ~ is_set 0 e) l /\
  nth_error (n_runs s') 2 = Some (RGot 0 5000000) /\ nth_error (n_runs s') 1 = Some (RGot 0 60000000) /\
  nth_error (n_runs s') 3 = Some (RGot 0 60000000) /\
  l = [EBeginGet 0; EBeginGet 0; EEnd 2; EEnd 1; EBeginGet 0; EEnd 3].
Proof.
  exists [EBeginGet 0; EBeginGet 0; EEnd 2; EEnd 1; EBeginGet 0; EEnd 3]. eexists. split; [vm_compute; reflexivity|].
  split; [repeat constructor; cbn; auto|]. repeat split; reflexivity.
Qed.
Print Assumptions C238_lost_refuted.

Example C238_ex : exists s', nrun (mkC (mkW None None [fresh_ctx; fresh_ctx]) [])
    [EBeginSet 0 5000000; EEnd 0; EBeginGet 0; EEnd 1; EBeginGet 0; EBeginGet 0; EBeginSet 1 9; EEnd 3; EEnd 2; EEnd 4; EBeginGet 1; EEnd 5] = Ok s' /\
  n_runs s' = [RSetDone 0; RGot 0 5000000; RGot 0 5000000; RGot 0 5000000; RSetDone 1; RGot 1 9].
Proof. eexists. split; [vm_compute; reflexivity|reflexivity]. Qed.
