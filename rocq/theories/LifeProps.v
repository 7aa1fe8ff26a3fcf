(** Properties C309-C316: the life of channel pools and of the references they hold. *)
From Verif Require Import Base LifeModel LifeSpec LifeProofs.

(** * C309: the references of a channel are those that hold it *)
Theorem C309_references_are_owners : forall os s, lrun lst0 os = LOk s -> counted s.
Proof. exact run_counted. Qed.
Print Assumptions C309_references_are_owners.
(** Channel 0 is closed by the peer and then removed from its pool with a reference of the application left; channel 1 is only in another pool. *)
Example C309_ex : exists s h0 h1, lrun lst0 [LNew 2; LRef 0; LCloseChan 0; LNew 0; LAttach 1 1; LMark 0 false true false; LRemove 0 2; LClosePool 0] = LOk s /\
  nth_error (l_chs s) 0 = Some h0 /\ nth_error (l_chs s) 1 = Some h1 /\ h_refs h0 = 1 /\ h_refs h1 = 1 /\ h_freed h0 = false /\ h_conn h1 = false /\ member s 1 1.
Proof. do 3 eexists. split; [vm_compute; reflexivity|]. repeat (split; [vm_compute; reflexivity|]). exists (mkQ true [1%nat]). vm_compute. auto. Qed.
Example C309_ex_freed : exists s h, lrun lst0 [LNew 1; LClosePool 0] = LOk s /\ nth_error (l_chs s) 0 = Some h /\ h_freed h = true.
Proof. do 2 eexists. split; [vm_compute; reflexivity|]. split; vm_compute; reflexivity. Qed.

(** * C310: no use of freed memory and no deadlock, under the conditions of [fair] *)
Theorem C310_fair_uses_are_safe_partial : forall os, fair_all lst0 os -> exists s, lrun lst0 os = LOk s.
Proof. exact run_fair. Qed.
Print Assumptions C310_fair_uses_are_safe_partial.
Example C310_ex : fair_all lst0 [LNew 1; LStart; LAttach 0 1; LDetach 0 1; LCloseChan 0; LClosePool 0].
Proof.
  assert (M : forall (P : Prop) c, In c [0%nat] -> (c = 0%nat -> P) -> P) by (intros P c [E|[]] K; auto).
  cbn [fair_all]. split; [exact I|]. intros s H; vm_compute in H; injection H as <-.
  split; [exact I|]. intros s H; vm_compute in H; injection H as <-.
  split; [split; [eexists; vm_compute; eauto|eexists; vm_compute; eauto]|]. intros s H; vm_compute in H; injection H as <-.
  split; [split; [eexists; vm_compute; eauto|split; [eexists; vm_compute; eauto|intros h N _ HP; vm_compute in N; injection N as <-; exfalso; apply HP; reflexivity]]|]. intros s H; vm_compute in H; injection H as <-.
  split; [eexists; vm_compute; eauto|]. intros s H; vm_compute in H; injection H as <-.
  split; [|intros; exact I]. split; [eexists; vm_compute; eauto|]. split.
  - intros c h (q & NQ & _ & IQ) N. vm_compute in NQ. injection NQ as <-. destruct IQ as [<-|[]]. vm_compute in N. injection N as <-. reflexivity.
  - intros [|[|[|c]]] h N F HP; vm_compute in N; try discriminate; injection N as <-; try discriminate. eexists. vm_compute. auto.
Qed.

(** * C311: a channel detached outlives its pool and then uses it *)
Theorem C311_detached_channel_is_safe_refuted : exists os s c, lrun lst0 os = LOk s /\ alive_ch s c /\ lstep s (LCloseChan c) = LUB.
Proof. exists [LNew 1; LDetach 0 0; LClosePool 0], (mkL [mkH 1 (Some 0%nat) true 0 true true false false] [mkQ false []] false), 0%nat. split; [vm_compute; reflexivity|]. split; [eexists; vm_compute; eauto|vm_compute; reflexivity]. Qed.
Print Assumptions C311_detached_channel_is_safe_refuted.

(** * C312: the detach of a channel that its peer closed does not return *)
Theorem C312_detach_returns_refuted : exists os s p c, lrun lst0 os = LOk s /\ member s p c /\ alive_ch s c /\ lstep s (LDetach p c) = LDead.
Proof. exists [LNew 1; LCloseChan 0], (mkL [mkH 1 (Some 0%nat) false 0 false true false false] [mkQ true [0%nat]] false), 0%nat, 0%nat. split; [vm_compute; reflexivity|]. split; [eexists; vm_compute; eauto|]. split; [eexists; vm_compute; eauto|vm_compute; reflexivity]. Qed.
Print Assumptions C312_detach_returns_refuted.

(** * C313: a channel that was closed is still counted by its pool *)
Theorem C313_members_are_open_refuted : exists os s p c h, lrun lst0 os = LOk s /\ member s p c /\ nth_error (l_chs s) c = Some h /\ h_conn h = false /\ get_num s p = 2.
Proof. exists [LNew 2; LCloseChan 0]. eexists. exists 0%nat, 0%nat. eexists. split; [vm_compute; reflexivity|]. split; [eexists; vm_compute; eauto|]. split; [vm_compute; reflexivity|]. split; vm_compute; reflexivity. Qed.
Print Assumptions C313_members_are_open_refuted.

(** * C314: the pool a channel reports is not the pool that has it *)
Theorem C314_attached_channel_names_its_pool_refuted : exists os s p c, lrun lst0 os = LOk s /\ member s p c /\ get_pool s c = None.
Proof. exists [LStart; LNew 0; LAttach 0 0]. eexists. exists 0%nat, 0%nat. split; [vm_compute; reflexivity|]. split; [eexists; vm_compute; eauto|vm_compute; reflexivity]. Qed.
Print Assumptions C314_attached_channel_names_its_pool_refuted.
Theorem C314_pool_named_has_the_channel_refuted : exists os s p c, lrun lst0 os = LOk s /\ alive_pl s p /\ alive_ch s c /\ get_pool s c = Some p /\ ~ member s p c.
Proof.
  exists [LNew 1; LDetach 0 0]. eexists. exists 0%nat, 0%nat. split; [vm_compute; reflexivity|]. split; [eexists; vm_compute; eauto|]. split; [eexists; vm_compute; eauto|]. split; [vm_compute; reflexivity|].
  intros (q & N & _ & IQ). vm_compute in N. injection N as <-. destruct IQ.
Qed.
Print Assumptions C314_pool_named_has_the_channel_refuted.

(** * C315: what creation, additions, removals and the close do *)
Theorem C315_new_pool : forall os s n s', lrun lst0 os = LOk s -> lstep s (LNew n) = LOk s' ->
  get_num s' (length (l_pools s)) = Z.of_nat n /\ alive_pl s' (length (l_pools s)) /\ (forall p, (p < length (l_pools s))%nat -> nth_error (l_pools s') p = nth_error (l_pools s) p).
Proof. exact new_num. Qed.
Print Assumptions C315_new_pool.
Theorem C315_add : forall os s p n s', lrun lst0 os = LOk s -> alive_pl s p -> lstep s (LAdd p n) = LOk s' ->
  get_num s' p = get_num s p + Z.of_nat n /\ (forall p', p' <> p -> nth_error (l_pools s') p' = nth_error (l_pools s) p').
Proof. exact add_more. Qed.
Print Assumptions C315_add.
Theorem C315_remove : forall os s p n s', lrun lst0 os = LOk s -> lstep s (LRemove p n) = LOk s' ->
  exists l, nth_error (l_pools s) p = Some (mkQ true l) /\ nth_error (l_pools s') p = Some (mkQ true (left_over (ready_in s) l n)) /\
  (forall p', p' <> p -> nth_error (l_pools s') p' = nth_error (l_pools s) p') /\
  (forall c, (~ In c l \/ In c (left_over (ready_in s) l n)) -> nth_error (l_chs s') c = nth_error (l_chs s) c) /\
  (forall c, In c l -> ~ In c (left_over (ready_in s) l n) -> exists h h', nth_error (l_chs s) c = Some h /\ nth_error (l_chs s') c = Some h' /\ h_pool h' = None /\ h_conn h' = (h_conn h && negb (h_accept h))).
Proof. exact run_remove. Qed.
Print Assumptions C315_remove.
Theorem C315_close : forall os s p s', lrun lst0 os = LOk s -> lstep s (LClosePool p) = LOk s' ->
  exists l, nth_error (l_pools s) p = Some (mkQ true l) /\ ~ alive_pl s' p /\
  (forall p', p' <> p -> nth_error (l_pools s') p' = nth_error (l_pools s) p') /\
  (forall c, ~ In c l -> nth_error (l_chs s') c = nth_error (l_chs s) c) /\
  (forall c, In c l -> exists h h', nth_error (l_chs s) c = Some h /\ nth_error (l_chs s') c = Some h' /\ h_pool h' = None /\ h_conn h' = (h_conn h && negb (h_ready h && h_accept h))).
Proof. exact run_close. Qed.
Print Assumptions C315_close.
Example C315_ex : exists s, lrun lst0 [LNew 3; LAdd 0 1; LMark 1 false true false; LMark 2 true false false; LRemove 0 2] = LOk s /\ get_num s 0 = 2 /\
  get_pool s 2 = None /\ get_pool s 1 = Some 0%nat /\ alive_ch s 2 /\ ~ alive_ch s 0.
Proof.
  eexists. split; [vm_compute; reflexivity|]. split; [vm_compute; reflexivity|]. split; [vm_compute; reflexivity|]. split; [vm_compute; reflexivity|]. split; [eexists; vm_compute; eauto|].
  intros (h & N & F). vm_compute in N. injection N as <-. discriminate.
Qed.

(** * C316: handlers that use pools, run by the close of the channels of a pool *)
Theorem C316_remove_returns_refuted : exists os s p n, lrun lst0 os = LOk s /\ alive_pl s p /\ lstep s (LRemove p n) = LDead /\ lstep s (LClosePool p) = LDead.
Proof. exists [LNew 1; LMark 0 true true true]. eexists. exists 0%nat, 1%nat. split; [vm_compute; reflexivity|]. split; [eexists; vm_compute; eauto|]. split; vm_compute; reflexivity. Qed.
Print Assumptions C316_remove_returns_refuted.
