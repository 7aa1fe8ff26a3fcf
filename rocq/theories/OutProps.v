(** Properties of the requesting side of a channel (C15, C18, C20, C58, C59). *)
From Verif Require Import Base CodecModel OutModel OutSpec OutProofs.

(** C15: in every execution that does not run over INT_MAX, a new message gets
    a number that no message waiting for its reply has, and the pieces of one
    message share its number. *)
Theorem C15_fresh_partial : forall os c, Forall op_ok os -> orun oc0 os = Ok c ->
  resumed_known (oc_log c) -> fresh_numbers (oc_log c).
Proof. exact oinv_resumed_fresh. Qed.
Print Assumptions C15_fresh_partial.

Theorem C15_pieces : forall os c, Forall op_ok os -> orun oc0 os = Ok c -> same_number (oc_log c).
Proof. intros os c W H. exact (proj2 (orun_same_number os c W H)). Qed.
Print Assumptions C15_pieces.

(** C15 is false without that restriction: the counter is an int that is only
    ever incremented. *)
Theorem C15_overflow_refuted : exists os, Forall op_ok os /\ zlen os = two31 + 1 /\ orun oc0 os = UB.
Proof. exact counter_overflow. Qed.
Print Assumptions C15_overflow_refuted.

Definition case15 : list oop :=
  [OpSend (plain 1); OpSend (mkQ 2 true None true); OpSend (mkQ 3 true None true);
   OpSend (mkQ 4 false None true); OpReply TRPY 0 false false; OpSend (plain 5)].

Example C15_case : exists c, orun oc0 case15 = Ok c /\ Forall op_ok case15 /\ resumed_known (oc_log c) /\
  oc_log c = [OQueued 1 0 false false true; OQueued 2 1 true false true; OQueued 3 1 true false true;
              OQueued 4 1 false false true; ODeliver TRPY 0 true; OQueued 5 2 false false true].
Proof.
  eexists. split; [vm_compute; reflexivity|]. split; [|split; [|reflexivity]].
  - repeat constructor. discriminate.
  - intros a b id n more ok E.
    do 6 (destruct a as [|? a]; [discriminate|cbn in E; injection E as _ E]).
    destruct a; discriminate.
Qed.

(** C18: whatever is delivered answers the oldest message that waits, a reply
    to anything else closes the connection, and nothing is delivered later. *)
Theorem C18_oldest : forall os c, Forall op_ok os -> orun oc0 os = Ok c ->
  oldest_answered (oc_log c) /\ silent_after_close (oc_log c).
Proof. intros os c W H. exact (conj (orun_oldest os c W H) (oi_silent c (oinv_run os c W H))). Qed.
Print Assumptions C18_oldest.

Theorem C18_decision : forall os c t n more empty, Forall op_ok os -> orun oc0 os = Ok c ->
  n <> -1 -> oc_up c = true ->
  let c' := recv_reply c t n more empty in
  (exists r, p_msgs (pending (oc_log c)) = n :: r /\ (t = TNUL -> more = false /\ empty = true) /\
             exists final, oc_log c' = oc_log c ++ [ODeliver t n final] /\ oc_up c' = true /\
               (final = true <-> t = TNUL \/ (t = TRPY \/ t = TERR) /\ more = false)) \/
  ((forall r, p_msgs (pending (oc_log c)) <> n :: r) \/ t = TNUL /\ (more = true \/ empty = false)) /\
  oc_log c' = oc_log c ++ [OClosed] /\ oc_up c' = false.
Proof. exact reply_decision. Qed.
Print Assumptions C18_decision.

(** The frames that reach these checks satisfy [n <> -1]. *)
Theorem C18_numbers : forall chans n line f,
  decide_line chans n line = Ok (DBody f) -> f_msgno f <> -1.
Proof. exact decide_line_msgno. Qed.
Print Assumptions C18_numbers.

Example C18_case :
  let os := [OpSend (plain 1); OpSend (plain 2); OpReply TANS 0 false false; OpReply TNUL 0 false true;
             OpReply TRPY 0 false false; OpReply TRPY 1 false false] in
  exists c, orun oc0 os = Ok c /\ Forall op_ok os /\
    oc_log c = [OQueued 1 0 false false true; OQueued 2 1 false false true;
                ODeliver TANS 0 false; ODeliver TNUL 0 true; OClosed].
Proof. eexists. split; [vm_compute; reflexivity|]. split; [repeat constructor; discriminate|reflexivity]. Qed.

(** C20: with a limit [L] set before the first message (and changed only to
    smaller ones) no more than [L] messages wait for their reply. *)
Theorem C20_limit : forall L f os c, 0 < L -> Forall op_ok os -> Forall (limit_below L) os ->
  orun oc0 (OpLimit L f :: os) = Ok c -> within_limit L (oc_log c).
Proof. intros L f os c HL W V H. exact (proj2 (orun_limit L f os c HL W V H)). Qed.
Print Assumptions C20_limit.

Example C20_case :
  let os := [OpSend (plain 1); OpSend (plain 2); OpSend (plain 3); OpReply TRPY 0 false false; OpRun 0] in
  Forall (limit_below 2) os /\
  exists c, orun oc0 (OpLimit 2 false :: os) = Ok c /\ zlen (p_msgs (pending (oc_log c))) = 2 /\
    oc_log c = [OQueued 1 0 false false true; OQueued 2 1 false false true; ODeliver TRPY 0 true;
                OQueued 3 2 false false true].
Proof. split; [repeat constructor|]. eexists. split; [vm_compute; reflexivity|]. split; reflexivity. Qed.

(** C58 is false: the limit counts the message being sent in pieces as
    outstanding, so its next piece waits for a reply that a correct peer only
    sends once it has the last piece. *)
Theorem C58_more_limit_refuted : exists os c, Forall op_ok os /\ orun oc0 os = Ok c /\ oc_up c = true /\
  oc_log c = [OQueued 1 0 true false true] /\ oc_waiting c = [mkQ 2 false None true] /\
  forall es c', Forall no_reply es -> orun c es = Ok c' ->
    (forall id n more r ok, In (OQueued id n more r ok) (oc_log c') -> more = true) /\
    In (mkQ 2 false None true) (oc_waiting c').
Proof.
  exists [OpLimit 1 false; OpSend (mkQ 1 true None true); OpSend (mkQ 2 false None true)].
  eexists. split; [repeat constructor|]. split; [vm_compute; reflexivity|].
  split; [reflexivity|]. split; [reflexivity|]. split; [reflexivity|].
  intros es c' N H.
  apply full_stuck in H as (l & El & Rl & Wl); [|exact N|cbn; lia|reflexivity|reflexivity].
  split.
  - intros id n more r ok I. rewrite El in I. destruct I as [I|I].
    + injection I as _ _ <- _ _. reflexivity.
    + destruct (Rl _ I) as (i & E). discriminate.
  - apply Wl. now left.
Qed.
Print Assumptions C58_more_limit_refuted.

(** C59 is false: a sender waiting at the limit when the connection is lost is
    never released. *)
Theorem C59_release_refuted : exists os c q, Forall op_ok os /\ orun oc0 os = Ok c /\ oc_up c = false /\
  In q (oc_waiting c) /\ forall es c', orun c es = Ok c' -> In q (oc_waiting c').
Proof.
  exists [OpLimit 1 false; OpSend (plain 1); OpSend (plain 2); OpDown].
  eexists. exists (plain 2). split; [repeat constructor|]. split; [vm_compute; reflexivity|].
  split; [reflexivity|]. split; [now left|].
  intros es c' H. apply down_waiting in H as [_ H]; [|reflexivity]. apply H. now left.
Qed.
Print Assumptions C59_release_refuted.
