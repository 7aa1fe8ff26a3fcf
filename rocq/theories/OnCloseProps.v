(** The properties of the handlers called when a connection is closed. *)
From Verif Require Import Base OnCloseModel OnCloseSpec OnCloseProofs OnCloseProofs2 OnCloseProofs3.
From Coq Require Import Sorting.Sorted.

(** C39: a handler installed is called at most once, after the connection is
    closed and never after it was removed. *)
Theorem C39_once : forall es s, crun oc0 es = Ok s ->
  NoDup (calls (oc_log s)) /\
  forall a id b, oc_log s = a ++ OCall id :: b ->
    (exists h, In h (installed a) /\ i_id h = id) /\ (exists t, In (OClosed t) a) /\ ~ In id (removed a).
Proof. exact once_thm. Qed.
Print Assumptions C39_once.

(** C39: every handler installed before the connection is closed and not removed
    has been called once nothing is going on. *)
Theorem C39_all : forall es s, crun oc0 es = Ok s -> ~ In CExit es -> quiet s -> (forall h, ~ In (OLost h) (oc_log s)) ->
  forall a t b, oc_log s = a ++ OClosed t :: b -> forall h, In h (installed a) -> ~ In (i_id h) (removed (oc_log s)) ->
  In (i_id h) (calls (oc_log s)) /\ In (i_id h) (ends (oc_log s)).
Proof. exact all_thm. Qed.
Print Assumptions C39_all.

(** C39: removal finds a handler with that function and data, which is never
    called; if it finds none, those installed were already taken or removed. *)
Theorem C39_removed : forall es s, crun oc0 es = Ok s -> forall a f d id b, oc_log s = a ++ ORem f d (Some id) :: b ->
  (exists h, In h (installed a) /\ i_id h = id /\ i_full h = true /\ i_fn h = f /\ i_data h = d) /\ ~ In id (calls (oc_log s)).
Proof. exact removed_thm. Qed.
Print Assumptions C39_removed.
Theorem C39_not_found : forall es s, crun oc0 es = Ok s -> forall a f d b, oc_log s = a ++ ORem f d None :: b ->
  forall h, In h (installed a) -> i_full h = true -> i_fn h = f -> i_data h = d -> In h (taken a) \/ In (i_id h) (removed a).
Proof. exact not_found_thm. Qed.
Print Assumptions C39_not_found.

(** C39: the handlers of a list are started in the order they were installed,
    unless some were asked to be first. *)
Theorem C39_order : forall f es s, (f = true -> forall fn d, ~ In (CInst true false fn d) es) -> crun oc0 es = Ok s ->
  StronglySorted Z.lt (map i_id (filter (fun h => Bool.eqb (i_full h) f) (taken (oc_log s)))).
Proof. exact order_thm. Qed.
Print Assumptions C39_order.

(** C72: a handler installed once the connection is closed is not called,
    whatever comes later. *)
Theorem C72_late_refuted : exists es s h, crun oc0 es = Ok s /\ ~ In CExit es /\ oc_conn s = false /\ quiet s /\ In h (installed (oc_log s)) /\
  removed (oc_log s) = [] /\
  forall more s', ~ In CReconnect more -> crun s more = Ok s' -> ~ In (i_id h) (calls (oc_log s')).
Proof. exact late_thm. Qed.
Print Assumptions C72_late_refuted.

(** C43: for a connection used only by who has a reference, nothing undefined is
    done; it is freed once, when no one has a reference, and not while a close
    handler runs. *)
Theorem C43_connection : forall es, careful oc0 es -> exists s, crun oc0 es = Ok s /\
  (oc_freed s = true <-> oc_app s = 0 /\ quiet s) /\
  (oc_freed s = true <-> In OFree (oc_log s)) /\
  forall a b, oc_log s = a ++ OFree :: b -> b = [] /\ forall id, In id (calls a) -> In id (ends a).
Proof. exact refs_thm. Qed.
Print Assumptions C43_connection.

(** Two functions and two closes: the plain handler and two of the three full
    handlers are called, the other is removed while the connection is closed;
    the application drops its reference first. *)
Definition case : list cev :=
  [CInst true true 1 10; CInst false true 2 0; CInst true true 3 30; CInst true true 1 11; CClose 5; CClose 6; CStep 5 true; CStep 5 true;
   CStep 5 true; CStep 5 true; CRem 3 30; CRem 9 9; CUnref; CStep 5 true; CStep 5 true; CStep 5 true; CStep 5 true; CStep 5 true;
   CNote 1; CRem 1 10; CStep 5 true; CStep 5 true; CStep 5 true; CStep 5 true; CStep 5 true; CNote 3; CNote 3; CNote 0; CNote 1; CNote 0].
Example C39_case : exists s, crun oc0 case = Ok s /\ quiet s /\ calls (oc_log s) = [1; 3; 0] /\ ends (oc_log s) = [3; 1; 0] /\
  removed (oc_log s) = [2] /\ map i_id (taken (oc_log s)) = [1; 0; 3] /\ In (ORem 1 10 None) (oc_log s) /\ oc_freed s = true /\ oc_app s = 0.
Proof. eexists. split; [vm_compute; reflexivity|]. split; [split; reflexivity|]. repeat split. cbn. tauto. Qed.
Example C43_case : careful oc0 case.
Proof.
  unfold case. repeat (split; [first [exact Logic.I | left; reflexivity | reflexivity | (right; eexists; vm_compute; left; reflexivity)]|
    let s := fresh in let H := fresh in intros s H; vm_compute in H; apply ok_inj in H; subst s]). exact Logic.I.
Qed.
