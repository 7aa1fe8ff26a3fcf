(** SASL, the initiator: the theorems. *)
From Verif Require Import Base SaslModel SaslCliModel SaslCliSpec SaslCliProofs.

(** C133.  The user is told once of the end of the authentication, and what it is told is so. *)
Theorem C133_told_partial : forall s k s' l,
  start_auth s k = Some (s', l) ->
  (exists st, last l NErr = st /\ l <> [] /\ (st = NOk <-> i_authenticated s' = true)) /\
  ((forall t, In t (k_turns k) -> t_reply t <> RBad) -> told s' l) /\ (length l <= 2)%nat.
Proof. exact told_thm. Qed.
Print Assumptions C133_told_partial.
Theorem C133_twice_refuted : exists s', start_auth user bad_call = Some (s', [NErr; NErr]).
Proof. exact twice_witness. Qed.
Print Assumptions C133_twice_refuted.
Theorem C133_sync : forall l, (notifications l <= 1)%nat -> qrun q0 l <> UB.
Proof. exact queue_thm. Qed.
Print Assumptions C133_sync.
Theorem C133_sync_refuted : exists s k s' l q,
  start_auth s k = Some (s', l) /\ notifications q = length l /\ qrun q0 q = UB.
Proof. exact sync_witness. Qed.
Print Assumptions C133_sync_refuted.
Example C133_case : exists s', start_auth user trusting = Some (s', [NOk]) /\ told s' [NOk] /\
  qrun q0 [QMain; QNotify; QMain] = Ok (mkQ 0 0 true).
Proof. eexists. split; [reflexivity|]. split; [exists NOk; split; [reflexivity|split; reflexivity]|reflexivity]. Qed.

(** C134.  The initiator is told that it is authenticated only when the SASL library says so. *)
Theorem C134_ok_partial : forall s k s' l,
  start_auth s k = Some (s', l) -> In NOk l ->
  exists l1 t l2, k_turns k = l1 ++ t :: l2 /\ Forall goes_on l1 /\ (listener_says t \/ library_says t).
Proof. exact ok_thm. Qed.
Print Assumptions C134_ok_partial.
Theorem C134_given : forall s k s' l, start_auth s k = Some (s', l) -> In NOk l ->
  k_up k = true /\ k_sasl k = true /\ i_authenticated s = false /\ given s (k_mech k).
Proof. exact given_thm. Qed.
Print Assumptions C134_given.
Theorem C134_trusting_refuted : exists s k s', start_auth s k = Some (s', [NOk]) /\ i_authenticated s' = true /\
  forall t, In t (k_turns k) -> t_rc t <> ROk.
Proof. exact trusting_witness. Qed.
Print Assumptions C134_trusting_refuted.
Example C134_case :
  let more := mkT (RBlob false true) RMore true true in
  let ok := mkT (RBlob false true) ROk false true in
  exists s', start_auth user (mkCall true true MDigest true FBlob true true [more; ok] true) = Some (s', [NOk]) /\
  goes_on more /\ library_says ok.
Proof.
  eexists. split; [reflexivity|]. split; [|split; [left; reflexivity|split; reflexivity]].
  split; [left; reflexivity|]. split; [reflexivity|left; reflexivity].
Qed.

(** C135.  Asking again for an authentication does not change the one there is. *)
Theorem C135_again_partial : forall s k, i_authenticated s = true ->
  exists s', start_auth s k = Some (s', [NErr]) /\ i_authenticated s' = false.
Proof. exact again_thm. Qed.
Print Assumptions C135_again_partial.
Theorem C135_again_refuted : exists s k s' l,
  i_authenticated s = true /\ start_auth s k = Some (s', l) /\ i_authenticated s' = false.
Proof. exact deauth_witness. Qed.
Print Assumptions C135_again_refuted.
Example C135_case : i_authenticated (mkI true true false true false (Some MPlain) [MPlain] true) = true.
Proof. reflexivity. Qed.
