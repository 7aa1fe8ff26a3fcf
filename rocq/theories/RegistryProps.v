(** Theorems about channel numbers and the table of channels (C36, C69). *)
From Verif Require Import Base RegistryModel RegistrySpec RegistryProofs RegistryProofs2.

(** ** C36: channel numbers are fresh *)

(** Odd for the initiator, even for the listener, and always positive. *)
Theorem C36_side : forall init es r t n used, rrun (reg0 init) es = Ok r -> In (OGiven t n used) (rg_log r) -> mine init n.
Proof. exact given_mine. Qed.
Print Assumptions C36_side.
(** While the connection is not closed, never the number of a channel it has. *)
Theorem C36_unused : forall init es, ~ In RDown es -> forall r t n used, rrun (reg0 init) es = Ok r ->
  In (OGiven t n used) (rg_log r) -> ~ In n (map fst used).
Proof. exact given_unused. Qed.
Print Assumptions C36_unused.
(** The initiator does not give a number again until all the others have been
    given or found in use. *)
Theorem C36_apart : forall es r a t n u b t' u' c m, rrun (reg0 true) es = Ok r ->
  rg_log r = a ++ OGiven t n u :: b ++ OGiven t' n u' :: c -> mine true m -> m <> n -> In (OVisit m) b.
Proof. exact given_between. Qed.
Print Assumptions C36_apart.
(** The listener never gives a number twice, *)
Theorem C36_once : forall es r a t n u b t' u' c, rrun (reg0 false) es = Ok r ->
  rg_log r <> a ++ OGiven t n u :: b ++ OGiven t' n u' :: c.
Proof. exact given_distinct. Qed.
Print Assumptions C36_once.
(** but only because the addition that follows the last one overflows. *)
Theorem C36_defined_refuted : exists es, rrun (reg0 false) es = UB.
Proof. exact listener_witness. Qed.
Print Assumptions C36_defined_refuted.
(** It never does on the initiator side. *)
Theorem C36_defined_partial : forall es, exists r, rrun (reg0 true) es = Ok r.
Proof. exact initiator_defined. Qed.
Print Assumptions C36_defined_partial.
(** The search ends, with the mutex released, if any number is free. *)
Theorem C36_found : forall es r t m, rrun (reg0 true) es = Ok r -> rg_up r = true -> thr_of r t = None -> locked r = false ->
  mine true m -> ~ In m (map fst (rg_chans r)) ->
  exists j r' vs n, Z.of_nat j <= 1073741823 /\ rrun r (repeat (RTry t) j) = Ok r' /\
    rg_log r' = rg_log r ++ vs ++ [OGiven t n (rg_chans r)] /\ locked r' = false.
Proof. exact search_ends. Qed.
Print Assumptions C36_found.

(** 3 is taken by another thread, 5 is in use by the peer. *)
Definition numbers : list rev_ := [RTry 1; RChoose 2 5; RAdd 2; RReply 2 true; RTry 3; RTry 3; RAdd 1; RReply 1 true; RAdd 3; RReply 3 true].
Example C36_case : exists r, rrun (reg0 true) numbers = Ok r /\
  rg_log r = [OVisit 3; OGiven 1 3 []; OCreated 2 5 0; OVisit 5; OVisit 7; OGiven 3 7 [(5, 0)]; OCreated 1 3 1; OCreated 3 7 2] /\
  ~ In RDown numbers /\ locked r = false /\ rg_up r = true /\ thr_of r 4 = None /\ ~ In 9 (map fst (rg_chans r)) /\ mine true 9.
Proof.
  eexists. split; [vm_compute; reflexivity|]. split; [reflexivity|]. split; [cbn; intuition discriminate|].
  split; [reflexivity|]. split; [reflexivity|]. split; [reflexivity|]. split; [cbn; intuition discriminate|]. split; [lia|reflexivity].
Qed.
Example C36_case_listener : exists r, rrun (reg0 false) [RTry 1; RTry 2; RAdd 1; RReply 1 true; RTry 3] = Ok r /\
  rg_log r = [OVisit 4; OGiven 1 4 []; OVisit 6; OGiven 2 6 []; OCreated 1 4 0; OVisit 8; OGiven 3 8 [(4, 0)]].
Proof. eexists. split; [vm_compute; reflexivity|]. reflexivity. Qed.
(** After a wrap, the initiator gives 1. *)
Example C36_wrap : next_no true 2147483645 = Ok 1 /\ next_no true 2147483643 = Ok 2147483645 /\ next_no false 2147483644 = Ok 2147483646.
Proof. repeat split. Qed.

(** ** C69: a channel created is found by its number until it is closed *)

(** If no channel is added with the number of one whose creation has not finished. *)
Theorem C69_found_partial : forall init es r n c, calm (reg0 init) es -> rrun (reg0 init) es = Ok r ->
  open_chan (rg_log r) n c -> chan_at r n = Some c.
Proof. exact open_found. Qed.
Print Assumptions C69_found_partial.
(** A channel refused is removed twice by number: the second time, another
    channel created meanwhile with that number can be removed. *)
Theorem C69_found_refuted : exists es r n c, rrun (reg0 true) es = Ok r /\ open_chan (rg_log r) n c /\ chan_at r n = None.
Proof. exact lost_channel. Qed.
Print Assumptions C69_found_refuted.
(** There is never more than one channel with the same number. *)
Theorem C69_one : forall init es r, rrun (reg0 init) es = Ok r -> NoDup (map fst (rg_chans r)).
Proof. exact one_each. Qed.
Print Assumptions C69_one.

(** The same number is chosen by two threads at once, and again after a refusal. *)
Definition reused : list rev_ := [RChoose 1 5; RChoose 2 5; RAdd 1; RReply 1 false; RDenied 1; RAdd 2; RReply 2 true; RChoose 3 5].
Ltac step_calm := split; [|let r := fresh in let H := fresh in intros r H; vm_compute in H; apply ok_inj in H; subst r].
Ltac other_numbers := let n := fresh "n" in let H := fresh in let u := fresh "u" in intros n H u ?; vm_compute in H; apply some_inj in H;
  first [discriminate H|injection H as <-]; unfold thr_of; cbn [reg0 rg_thr find fst];
  repeat (destruct (_ =? u); cbn [option_map snd]; [split; discriminate|]); split; discriminate.
Example C69_case : calm (reg0 true) reused /\ exists r, rrun (reg0 true) reused = Ok r /\ open_chan (rg_log r) 5 1 /\
  rg_log r = [ORefused 1; OCreated 2 5 1; ORefused 3].
Proof.
  split.
  - do 8 (step_calm; [first [exact Logic.I|other_numbers]|]). exact Logic.I.
  - eexists. split; [vm_compute; reflexivity|]. split; [|reflexivity]. split; [exists 2; cbn; auto|cbn; intuition discriminate].
Qed.
