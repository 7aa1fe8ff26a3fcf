(** Properties C317-C321: the table of I/O handlers and the sets made with it. *)
From Verif Require Import Base MechModel MechSpec MechProofs.

(** * C317: a change of mechanism *)
Theorem C317_result : forall k s ty s' b, io_use k s ty = Ok (s', b) -> (b = true <-> compiled k ty) /\ (b = false -> s' = s) /\ (b = true -> t_type (m_tab s') = ty).
Proof. exact use_result. Qed.
Print Assumptions C317_result.
Theorem C317_one_mechanism_partial : forall k os s, no_set os -> mrun k (ms0 k) os = Ok s -> exists m, uniform (m_tab s) m.
Proof. exact run_uniform. Qed.
Print Assumptions C317_one_mechanism_partial.
Definition linux : build := mkB true true true false.
Example C317_ex : exists s, mrun linux (ms0 linux) [MRun; MTurn; MUse 2; MTurn; MUse 7; MUse 1; MTurn] = Ok s /\ m_tab s = whole Sel /\ m_sets s = [None; None; Some (HOf Sel)] /\ m_seen s = [true; true; true].
Proof. eexists. vm_compute. auto. Qed.
(** A handler set by the user stays when the current mechanism is asked for, which is told done. *)
Theorem C317_user_handler_refuted : exists k s s', mrun k (ms0 k) [MSet SWait (Some 5%nat)] = Ok s /\ io_use k s 3 = Ok (s', true) /\ t_wait (m_tab s') = HUser 5.
Proof. exists linux. do 2 eexists. vm_compute. auto. Qed.
Print Assumptions C317_user_handler_refuted.

(** * C318: a set is given only to the handlers of the mechanism that made it *)
Theorem C318_same_mechanism_partial : forall k os, no_set os -> quiet_all k (ms0 k) os -> exists s, mrun k (ms0 k) os = Ok s /\ Forall (fun b => b = true) (m_seen s).
Proof. exact run_quiet. Qed.
Print Assumptions C318_same_mechanism_partial.
Example C318_ex : quiet_all linux (ms0 linux) [MRun; MOpen; MWait 1; MShut 1; MUse 2; MTurn].
Proof.
  assert (U : forall s g h, nth_error (m_sets s) g = Some (Some h) -> in_use s g) by (intros s g h N; exists h; auto).
  cbn [quiet_all quiet]. split; [exact I|]. intros s H; vm_compute in H; injection H as <-.
  split; [exact I|]. intros s H; vm_compute in H; injection H as <-.
  split; [split; [eapply U; reflexivity|discriminate]|]. intros s H; vm_compute in H; injection H as <-.
  split; [split; [eapply U; reflexivity|discriminate]|]. intros s H; vm_compute in H; injection H as <-.
  split; [intros [|[|[|g]]] (h & N); try discriminate N; reflexivity|]. intros s H; vm_compute in H; injection H as <-.
  split; [exact I|]. intros; exact I.
Qed.
(** A thread that connects, or writes, has its set while another changes the mechanism. *)
Theorem C318_other_thread_refuted : exists k os s g, no_set os /\ mrun k (ms0 k) os = Ok s /\ in_use s g /\ m_reader s <> Some g /\ mstep k s (MWait g) = UB /\ mstep k s (MShut g) = UB.
Proof.
  exists linux, [MRun; MOpen; MUse 2]. eexists. exists 1%nat. split; [intros x n H; repeat destruct H as [H|H]; try discriminate; destruct H|]. split; [vm_compute; reflexivity|].
  split; [exists (HOf Epo); reflexivity|]. split; [discriminate|]. split; reflexivity.
Qed.
Print Assumptions C318_other_thread_refuted.
(** The reader itself, when the user sets handlers one by one with it running. *)
Theorem C318_set_running_refuted : exists k os s, mrun k (ms0 k) os = Ok s /\ mstep k s MTurn = UB.
Proof. exists linux, [MRun; MSet SWait (Some 1%nat)]. eexists. vm_compute. auto. Qed.
Print Assumptions C318_set_running_refuted.

(** * C319: no handler is ever missing *)
Theorem C319_complete : forall k os s, mrun k (ms0 k) os = Ok s -> complete (m_tab s).
Proof. exact run_complete. Qed.
Print Assumptions C319_complete.
Example C319_ex : exists s, mrun linux (ms0 linux) [MSet SIsSet (Some 1%nat); MSet SAdd None; MUse 1; MSet SHave (Some 2%nat); MSet SDisp None] = Ok s /\
  t_isset (m_tab s) = HOf Sel /\ t_have (m_tab s) = HUser 2 /\ t_disp (m_tab s) = HNull.
Proof. eexists. vm_compute. auto. Qed.
(** With have_dispatch set and dispatch not, over select, a turn of the reader sees no socket. *)
Theorem C319_blind_refuted : exists k os s, mrun k (ms0 k) os = Ok s /\ m_seen s = [false].
Proof. exists linux, [MUse 1; MSet SHave (Some 1%nat); MSet SCreate (Some 1%nat); MSet SDestroy (Some 1%nat); MSet SClear (Some 1%nat); MSet SWait (Some 1%nat); MSet SAdd (Some 1%nat); MSet SIsSet (Some 1%nat); MRun; MTurn]. eexists. vm_compute. auto. Qed.
Print Assumptions C319_blind_refuted.

(** * C320: a function that sets a handler sets that one, and NULL none *)
Theorem C320_set : forall k s x o s', mstep k s (MSet x o) = Ok s' -> slot_of (m_tab s') x = match o with Some n => HUser n | None => slot_of (m_tab s) x end /\ t_type (m_tab s') = t_type (m_tab s) /\
  (forall y, y <> x -> slot_of (m_tab s') y = slot_of (m_tab s) y) /\ m_sets s' = m_sets s /\ m_reader s' = m_reader s.
Proof. exact set_one. Qed.
Print Assumptions C320_set.
Example C320_ex : exists s, mstep linux (ms0 linux) (MSet SDisp (Some 3%nat)) = Ok s /\ t_disp (m_tab s) = HUser 3 /\ t_have (m_tab s) = HOf Epo.
Proof. eexists. vm_compute. auto. Qed.

(** * C321: two changes at once *)
Theorem C321_of_the_two : forall t m1 m2 c, merge (writes m1) (writes m2) c ->
  (forall x, slot_of (fold_left apply_write c t) x = slot_of (whole m1) x \/ slot_of (fold_left apply_write c t) x = slot_of (whole m2) x) /\
  (t_type (fold_left apply_write c t) = code m1 \/ t_type (fold_left apply_write c t) = code m2).
Proof. exact two_at_once. Qed.
Print Assumptions C321_of_the_two.
(** Before the reader runs nothing keeps them apart, and the table may end mixed: sets made by poll that are waited on with select. *)
Theorem C321_mixed_refuted : exists m1 m2 c, merge (writes m1) (writes m2) c /\ t_create (fold_left apply_write c (whole Epo)) = HOf Pol /\ t_wait (fold_left apply_write c (whole Epo)) = HOf Sel.
Proof.
  exists Sel, Pol, (firstn 3 (writes Sel) ++ firstn 4 (writes Pol) ++ skipn 3 (writes Sel) ++ skipn 4 (writes Pol)). split; [|vm_compute; auto].
  cbn. do 3 apply Mg_l. do 4 apply Mg_r. do 6 apply Mg_l. do 5 apply Mg_r. apply Mg_nil.
Qed.
Print Assumptions C321_mixed_refuted.
