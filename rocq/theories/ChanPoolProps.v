(** Theorems about the channel pool (C35, C68). *)
From Verif Require Import Base ChanPoolModel ChanPoolSpec ChanPoolProofs.

(** ** C35: a channel of the pool is handed to one user at a time *)

(** If calls of get_next_ready do not overlap with each other nor with
    vortex_channel_pool_remove, a channel is handed out only when nobody has it,
    and it has not been closed by the pool. *)
Theorem C35_exclusive_partial : forall es, serial cp0 es ->
  exclusive (cp_log (crun cp0 es)) /\ not_closed (cp_log (crun cp0 es)).
Proof. exact chan_exclusive. Qed.
Print Assumptions C35_exclusive_partial.
(** Otherwise two threads can be given the same channel, *)
Theorem C35_exclusive_refuted : exists es t u c, t <> u /\ cp_log (crun cp0 es) = [CGot t c; CGot u c].
Proof. exact both_witness. Qed.
Print Assumptions C35_exclusive_refuted.
(** or one that has been closed. *)
Theorem C35_closed_refuted : exists es t c, cp_log (crun cp0 es) = [CClosed c; CGot t c].
Proof. exact shut_witness. Qed.
Print Assumptions C35_closed_refuted.

(** A call that is not disturbed gets the first channel of the pool that is ready. *)
Theorem C35_available : forall p t auto_inc c, cp_calls p = [] -> find (cp_is_ready p) (cp_list p) = Some c ->
  cp_log (crun p [KLookup t auto_inc; KMark t]) = cp_log p ++ [CGot t c] /\
  cp_ready p c = true /\ cp_busy p c = false /\ In c (cp_list p).
Proof. exact chan_available. Qed.
Print Assumptions C35_available.
(** A channel released can be handed out again, *)
Theorem C35_released : forall p c, In c (cp_list p) -> cp_ready p c = true -> cp_is_ready (cstep p (KRelease c)) c = true.
Proof. exact chan_released. Qed.
Print Assumptions C35_released.
(** unless it was not in the pool when it was released. *)
Theorem C35_released_refuted : exists es c t, cp_log (crun cp0 es) = [CGot t c; CReleased c; CNone t] /\
  cp_list (crun cp0 es) = [c] /\ cp_ready (crun cp0 es) c = true.
Proof. exact lost_witness. Qed.
Print Assumptions C35_released_refuted.

(** Two channels, one of them created on demand and the other released. *)
Definition shared : list cev :=
  [KNew; KAttach 0; KLookup 1 true; KMark 1; KLookup 2 true; KCreate 2 true; KAppend 2; KMark 2; KLookup 3 false;
   KRelease 0; KLookup 3 false; KReady 1 false; KMark 3; KRemove 1; KRelease 1; KRemove 5; KReady 1 true; KRemove 5].
Example C35_case : serial cp0 shared /\ cp_list (crun cp0 shared) = [0] /\
  cp_log (crun cp0 shared) = [CGot 1 0; CGot 2 1; CNone 3; CReleased 0; CGot 3 0; CReleased 1; CClosed 1].
Proof. split; [vm_compute; tauto|]. split; vm_compute; reflexivity. Qed.
Example C35_case_available : cp_calls (crun cp0 [KNew; KAttach 0; KNew; KAttach 1; KLookup 1 false; KMark 1]) = [] /\
  find (cp_is_ready (crun cp0 [KNew; KAttach 0; KNew; KAttach 1; KLookup 1 false; KMark 1])) [0; 1] = Some 1.
Proof. split; reflexivity. Qed.

(** ** C68: channel pools have different identifiers *)

(** If pools are created one at a time. *)
Theorem C68_ids_partial : forall es s t u i, in_turn (mkPI 0 []) es -> pirun (mkPI 0 []) es = Ok s ->
  id_of s t = Some i -> id_of s u = Some i -> t = u.
Proof. exact pool_ids_unique. Qed.
Print Assumptions C68_ids_partial.
(** The counter is not protected. *)
Theorem C68_ids_refuted : exists es s t u i, pirun (mkPI 0 []) es = Ok s /\ t <> u /\ id_of s t = Some i /\ id_of s u = Some i.
Proof. exact pool_ids_witness. Qed.
Print Assumptions C68_ids_refuted.
Example C68_case : exists s, pirun (mkPI 0 []) [QRead 1; QWrite 1; QReturn 1; QRead 2; QWrite 2; QReturn 2] = Ok s /\
  id_of s 1 = Some 1 /\ id_of s 2 = Some 2.
Proof. eexists. split; [vm_compute; reflexivity|]. split; reflexivity. Qed.
