(** Properties of the registry of profiles. *)
From Verif Require Import Base ProfModel ProfSpec ProfProofs ProfProofs2 ProfProofs3 ProfProofs4 ProfProofs5.

Definition start7 : args := mkA (Some 7) 70 None 0 (Some 9) 90.
Definition nothing : args := mkA None 0 None 0 None 0.

(** C198: when no two calls overlap every call does what is expected of the
    registry: who decides about a start request and with which data, who is told
    about a close, who gets a frame, what is answered and what a greeting lists. *)
Theorem C198_in_turn : forall script n, (2 * length script + 12 <= n)%nat ->
  exists s, prun pst0 (in_turn n script) = Ok s /\ s_log s = seen_all None [] script.
Proof. exact one_after_another. Qed.
Print Assumptions C198_in_turn.
Definition day : list item :=
  [ICall 1 (CRegister 5 start7) true; ICall 1 (CRegister 6 nothing) true; ICall 2 (CStart 5) true; ICall 2 (CStart 6) false; IGlobal (Some (11, 110));
   ICall 2 (CStart 6) true; ICall 3 (CExt 6 (Some 8) 80) true; ICall 2 (CStart 6) true; ICall 4 (CFrame 5) true; ICall 4 (CFrame 6) true; ICall 1 CGreet true;
   ICall 1 (CUnreg 5) true; ICall 1 CGreet true; ICall 4 (CClose 5) true; ICall 4 (CClose 6) true].
Example C198_ex : exists s, prun pst0 (in_turn 42 day) = Ok s /\
  s_log s = [OAns 1 true; OAns 1 true; OCall 2 5 (TStart (FApp 7) 70); OAns 2 true; OCall 2 6 (TStart FDefault 0); OAns 2 false;
             OCall 2 6 (TGlob 11 110); OAns 2 true; OAns 3 true; OCall 2 6 (TExt 8 80); OAns 2 true; OAns 4 true; OCall 4 5 (TRecv 9 90); OAns 4 false;
             OName 1 5; OName 1 6; OEnd 1; OAns 1 true; OName 1 6; OEnd 1; OAns 4 false; OCall 4 6 (TClose FDefault 0); OAns 4 true].
Proof. eexists. split; vm_compute; reflexivity. Qed.

(** C199: the memory of the profiles is used safely, whatever the calls of the
    threads and the order of their steps, as long as no profile is unregistered.
    Missing: programs that unregister profiles. *)
Theorem C199_no_unregister_partial : forall es, no_unregister es -> prun pst0 es <> UB.
Proof. exact no_unregister_safe. Qed.
Print Assumptions C199_no_unregister_partial.
(** With profiles being unregistered, safe as long as no profile is registered
    again while it is, and nobody asks if a profile has a start or close handler. *)
Theorem C199_guarded_partial : forall es, guarded pst0 es -> prun pst0 es <> UB.
Proof. exact guarded_safe. Qed.
Print Assumptions C199_guarded_partial.
Definition busy : list pev :=
  [ECall 1 (CRegister 5 start7); ECall 2 (CStart 5); ECall 4 (CFrame 5); EStep 2 true; ECall 3 (CUnreg 5); EStep 4 true; EStep 3 true; EStep 2 true; EStep 2 true; EStep 2 true;
   ECall 5 CGreet; EStep 4 true; EStep 4 true; EStep 2 true; EStep 4 true].
Example C199_ex : guarded pst0 busy /\ exists s, prun pst0 busy = Ok s /\ s_heap s = [None] /\
  In (OCall 2 5 (TStart (FApp 7) 70)) (s_log s) /\ In (OCall 4 5 (TRecv 9 90)) (s_log s).
Proof. split; [cbn; tauto|]. eexists. split; [vm_compute; reflexivity|]. cbn. intuition. Qed.
(** Not safe otherwise: a thread that asks if a profile has a start handler, or
    that registers it again to change its handlers, while another one unregisters it. *)
Theorem C199_asked_refuted : exists es, (forall t u a, In (ECall t (CRegister u a)) es -> (t, u) = (1, 5)) /\ prun pst0 es = UB.
Proof.
  exists [ECall 1 (CRegister 5 start7); ECall 2 (CIsStart 5); ECall 3 (CUnreg 5); EStep 3 true; EStep 2 true].
  split; [|vm_compute; reflexivity]. intros t u a H. cbn in H. intuition congruence.
Qed.
Print Assumptions C199_asked_refuted.
Theorem C199_again_refuted : exists es, (forall t u, ~ In (ECall t (CIsStart u)) es /\ ~ In (ECall t (CIsClose u)) es) /\ prun pst0 es = UB.
Proof.
  exists [ECall 1 (CRegister 5 start7); ECall 2 (CRegister 5 nothing); EStep 2 true; ECall 3 (CUnreg 5); EStep 3 true; EStep 2 true].
  split; [|vm_compute; reflexivity]. intros t u. cbn. intuition congruence.
Qed.
Print Assumptions C199_again_refuted.

(** C200: when no call is in progress the mutex of the list is free, and the
    profiles in memory are the registered ones, with one reference. *)
Theorem C200_released : forall es s, prun pst0 es = Ok s -> s_thr s = [] ->
  s_lock s = None /\ forall i p, nth_error (s_heap s) i = Some (Some p) -> In i (map snd (s_tab s)) /\ p_ref p = 1.
Proof. exact released. Qed.
Print Assumptions C200_released.
Example C200_ex : exists s, prun pst0 (busy ++ [ECall 1 (CRegister 6 nothing); EStep 5 true; ECall 1 (CRegister 6 nothing)]) = Ok s /\ s_thr s = [] /\ s_lock s = None /\
  map (option_map p_ref) (s_heap s) = [None; Some 1].
Proof. eexists. split; vm_compute; auto. Qed.

(** C201: a handler called for a profile is one that was given for it (or the
    default one), and the data it gets is one that was given for that kind of
    handler of the profile, or null. *)
Theorem C201_origin : forall es s t u x, prun pst0 es = Ok s -> In (OCall t u x) (s_log s) -> origin es u x.
Proof. exact origins. Qed.
Print Assumptions C201_origin.
(** But not together: a handler gets the data of another one when a profile is
    changed while it is used. *)
Theorem C201_pair_refuted : exists es s f d, no_unregister es /\ prun pst0 es = Ok s /\ In (OCall 3 5 (TExt f d)) (s_log s) /\
  ~ exists t, In (ECall t (CExt 5 (Some f) d)) es.
Proof.
  exists [ECall 1 (CExt 5 (Some 10) 100); ECall 2 (CExt 5 (Some 20) 200); EStep 2 true; ECall 3 (CStart 5); EStep 3 true; EStep 3 true; EStep 3 true; EStep 3 true].
  eexists. exists 20, 100. split; [intros t u H; cbn in H; intuition congruence|]. split; [vm_compute; reflexivity|]. split; [vm_compute; auto|].
  intros (t & H). cbn in H. intuition congruence.
Qed.
Print Assumptions C201_pair_refuted.
Example C201_ex : origin [ECall 1 (CExt 5 (Some 10) 100); ECall 2 (CExt 5 (Some 20) 200)] 5 (TExt 20 100).
Proof. split; [exists 2, 200; cbn; auto|right; exists 1, (Some 10); cbn; auto]. Qed.

(** C202: a greeting lists the profiles that were registered when it took the
    mutex, all of them once and in the order they were registered, whatever the
    other threads do. *)
Theorem C202_greeting : forall es1 t es2 s1 s, (forall c, ~ In (ECall t c) es2) ->
  prun pst0 es1 = Ok s1 -> phase_of s1 t = None -> s_lock s1 = None -> prun s1 (ECall t CGreet :: es2) = Ok s -> phase_of s t = None ->
  names t (s_log s) = names t (s_log s1) ++ map fst (s_tab s1).
Proof. exact greeting_exact. Qed.
Print Assumptions C202_greeting.
Example C202_ex : exists s1 s, prun pst0 [ECall 2 (CRegister 5 nothing); ECall 2 (CRegister 6 nothing); ECall 2 (CRegister 7 nothing)] = Ok s1 /\
  prun s1 (ECall 1 CGreet :: [EStep 1 true; EStep 1 true; ECall 3 (CUnreg 5); EStep 3 true; ECall 2 (CRegister 8 nothing); EStep 1 true; EStep 1 true; EStep 1 true; EStep 1 true; EStep 1 true]) = Ok s /\
  phase_of s1 1 = None /\ s_lock s1 = None /\ phase_of s 1 = None /\ names 1 (s_log s) = [5; 6; 7].
Proof. do 2 eexists. split; [vm_compute; reflexivity|]. split; vm_compute; auto 10. Qed.

(** C203: vortex_profiles_is_defined_received does not tell if there is a frame
    received handler: it looks at the close handler, which is never null. *)
Theorem C203_received_refuted : exists script s, (forall u a, In (ICall 1 (CRegister u a) true) script -> a_recv a = None) /\
  prun pst0 (in_turn 20 script) = Ok s /\ s_log s = [OAns 1 true; OAns 2 true; OAns 3 false].
Proof.
  exists [ICall 1 (CRegister 5 nothing) true; ICall 2 (CIsRecv 5) true; ICall 3 (CFrame 5) true]. eexists.
  split; [intros u a H; cbn in H; destruct H as [[= <- <-]|[H|[H|[]]]]; [reflexivity|discriminate|discriminate]|]. split; vm_compute; reflexivity.
Qed.
Print Assumptions C203_received_refuted.

(** C204: a frame accepted by vortex_profiles_invoke_frame_received is given to
    the received handler of the profile.  Missing: the handler taken away. *)
Theorem C204_delivered_partial : forall es s t u, keeps_received es -> prun pst0 es = Ok s -> ~ In (ODrop t u) (s_log s).
Proof. exact never_dropped. Qed.
Print Assumptions C204_delivered_partial.
Example C204_ex : keeps_received busy /\ exists s, prun pst0 busy = Ok s /\ In (OAns 4 true) (s_log s) /\ In (OCall 4 5 (TRecv 9 90)) (s_log s).
Proof.
  split.
  - split; [|intros t u d H; cbn in H; intuition congruence]. intros t u a H. destruct H as [H|H]; [injection H as <- <- <-; discriminate|]. exfalso. cbn in H. intuition congruence.
  - eexists. split; [vm_compute; reflexivity|]. vm_compute. intuition.
Qed.
(** With the handler taken away in between, a frame is accepted and dropped. *)
Theorem C204_delivered_refuted : exists es s, no_unregister es /\ prun pst0 es = Ok s /\ In (OAns 4 true) (s_log s) /\ In (ODrop 4 5) (s_log s).
Proof.
  exists [ECall 1 (CRegister 5 start7); ECall 4 (CFrame 5); EStep 4 true; ECall 2 (CSetRecv 5 None 0); EStep 2 true; EStep 2 true; EStep 4 true]. eexists.
  split; [intros t u H; cbn in H; intuition congruence|]. split; [vm_compute; reflexivity|]. vm_compute. intuition.
Qed.
Print Assumptions C204_delivered_refuted.
