(** Properties of the ALIVE check. *)
From Verif Require Import Base AliveModel AliveSpec AliveProofs AliveProofs2 AliveProofs3.

(** A connection that answers, then does not. *)
Definition dead_peer : list aev :=
  [AEnable 0 1000000 2 true; ACreate 1; ABytes 50; ACreated true; ACheck; AReply 20; ACheck; ACheck; ACheck; ACheck; ACheck].

(** ** C119: no false alarm *)

(** When the connection is given up nothing was received since the last look; and if the
    channel was created, as many messages of the check as allowed are not answered; if it
    was not, it was asked for. *)
Theorem C119_alarm : forall b es l1 o l2, a_log (arun (a0 b) es) = l1 ++ o :: l2 -> gives_up o = true ->
  quiet l1 = true /\ exists n, enabled_with l1 = Some n /\ (In (OChannel true) l1 -> n <= unanswered l1) /\ (~ In (OChannel true) l1 -> In OAsked l1).
Proof. exact alarm_thm. Qed.
Print Assumptions C119_alarm.
Example C119_case : a_log (arun (a0 100) dead_peer) =
  [OEnabled 2; OAsked; OGot 50; OChannel true; OLook; OLook; OPing; OGot 20; OReply; OLook; OLook; OPing; OLook; OPing; OFail; ORelease].
Proof. reflexivity. Qed.

(** ** C120: a count of 0 *)

(** A count of 0 is accepted, and the connection is given up when nothing comes in one
    period, with nothing asked to the peer. *)
Theorem C120_zero_refuted : exists es, enabled_with (a_log (arun (a0 0) es)) = Some 0 /\ count_of gives_up (a_log (arun (a0 0) es)) = 1 /\
  count_of is_ping (a_log (arun (a0 0) es)) = 0 /\ In (OChannel true) (a_log (arun (a0 0) es)).
Proof. exists [AEnable 0 1000000 0 true; ACreate 1; ABytes 50; ACreated true; ACheck]. vm_compute. intuition. Qed.
Print Assumptions C120_zero_refuted.
(** With a count of at least 1, the connection was asked. *)
Theorem C120_asked_partial : forall b es l1 o l2, a_log (arun (a0 b) es) = l1 ++ o :: l2 -> gives_up o = true ->
  (forall n, enabled_with l1 = Some n -> 0 < n) -> In (OChannel true) l1 -> In OPing l1.
Proof. exact pinged_thm. Qed.
Print Assumptions C120_asked_partial.
Example C120_case : let l1 := [OEnabled 2; OAsked; OGot 50; OChannel true; OLook; OLook; OPing; OGot 20; OReply; OLook; OLook; OPing; OLook; OPing] in
  a_log (arun (a0 100) dead_peer) = l1 ++ OFail :: [ORelease] /\ enabled_with l1 = Some 2 /\ In (OChannel true) l1.
Proof. vm_compute. intuition. Qed.

(** ** C121: a peer that does not answer is found *)

(** While the channel is open: as many checks as messages are left to send, one more to
    see what came before, and one to give up. *)
Theorem C121_detected_partial : forall b es1 es2 n, let s := arun (a0 b) es1 in
  a_up s = true -> a_open s = true -> In (OChannel true) (a_log s) -> ~ In ODrop (a_log s) -> enabled_with (a_log s) = Some n ->
  (forall e, In e es2 -> silent e = true) -> Z.max 0 (n - unanswered (a_log s)) + 2 <= checks es2 ->
  count_of gives_up (a_log (arun (a0 b) (es1 ++ es2))) = 1.
Proof. exact detected_thm. Qed.
Print Assumptions C121_detected_partial.
Example C121_case : let s := arun (a0 100) (firstn 6 dead_peer) in
  a_up s = true /\ a_open s = true /\ In (OChannel true) (a_log s) /\ ~ In ODrop (a_log s) /\ enabled_with (a_log s) = Some 2 /\
  (forall e, In e (repeat ACheck 4) -> silent e = true) /\ Z.max 0 (2 - unanswered (a_log s)) + 2 <= checks (repeat ACheck 4).
Proof.
  vm_compute. intuition (try discriminate); subst; auto.
Qed.
(** While the channel is being created: max_unreply_count x check_period, and 3 seconds at
    least. *)
Theorem C121_create_partial : forall b now0 p c h es t1 t2 t3, 0 < p -> 0 <= c -> (forall e, In e es -> waiting e = true) ->
  let lim := now0 + Z.max 3 ((c * p) / 1000000) in lim <= t1 -> lim <= t2 -> lim <= t3 ->
  count_of gives_up (a_log (arun (a0 b) (AEnable now0 p c h :: es ++ [ACreate t1; ACreate t2; ACreate t3]))) = 1.
Proof. exact create_thm. Qed.
Print Assumptions C121_create_partial.
Example C121_create_case : a_log (arun (a0 100) (AEnable 0 1000000 5 false :: [ACreate 1; ABytes 10] ++ [ACreate 5; ACreate 6; ACreate 7])) =
  [OEnabled 5; OAsked; OGot 10; OLook; OShut; ORelease].
Proof. reflexivity. Qed.

(** A peer that refuses the channel: nothing is said, then or later. *)
Theorem C121_refused_refuted : exists es1, In (OEnabled 3) (a_log (arun (a0 0) es1)) /\ a_up (arun (a0 0) es1) = true /\ In (OChannel false) (a_log (arun (a0 0) es1)) /\
  forall es2, count_of gives_up (a_log (arun (a0 0) (es1 ++ es2))) = 0.
Proof. exact (ex_intro _ _ refused_witness). Qed.
Print Assumptions C121_refused_refuted.
(** A peer that closes the channel: the same. *)
Theorem C121_closed_refuted : exists es1, In (OEnabled 3) (a_log (arun (a0 0) es1)) /\ a_up (arun (a0 0) es1) = true /\ In (OChannel true) (a_log (arun (a0 0) es1)) /\
  forall es2, count_of gives_up (a_log (arun (a0 0) (es1 ++ es2))) = 0.
Proof. exact (ex_intro _ _ closed_witness). Qed.
Print Assumptions C121_closed_refuted.

(** ** C122: given up once, and the reference given back *)

Theorem C122_once : forall b es, let s := arun (a0 b) es in
  count_of is_enabled (a_log s) <= 1 /\ count_of gives_up (a_log s) <= 1 /\ count_of is_release (a_log s) <= 1 /\
  a_refs s = count_of is_enabled (a_log s) - count_of is_release (a_log s) /\
  (a_closed s = true \/ 1 <= count_of gives_up (a_log s) -> a_refs s = 0).
Proof. exact once_thm. Qed.
Print Assumptions C122_once.
Example C122_case : let s := arun (a0 100) (dead_peer ++ [ADown; AClosed; ACheck; ACreate 9]) in
  a_refs s = 0 /\ count_of gives_up (a_log s) = 1 /\ count_of is_release (a_log s) = 1 /\ a_closed s = true /\ a_refs (arun (a0 100) (firstn 9 dead_peer)) = 1.
Proof. vm_compute. repeat split. Qed.

(** ** C123: the check is enabled again after it stopped *)

(** It never is. *)
Theorem C123_again_partial : forall b es now p c h, let s := arun (a0 b) es in
  a_up s = true -> count_of is_enabled (a_log s) = 1 -> a_log (astep s (AEnable now p c h)) = a_log s ++ [ORefused].
Proof. exact again_thm. Qed.
Print Assumptions C123_again_partial.
(** The failure was reported, the connection is up and no check is running. *)
Theorem C123_again_refuted : exists es, a_up (arun (a0 0) es) = true /\ In OFail (a_log (arun (a0 0) es)) /\ a_refs (arun (a0 0) es) = 0 /\
  forall now p c h, a_log (astep (arun (a0 0) es) (AEnable now p c h)) = a_log (arun (a0 0) es) ++ [ORefused].
Proof. exact (ex_intro _ _ again_witness). Qed.
Print Assumptions C123_again_refuted.
