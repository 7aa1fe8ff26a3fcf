(** SASL, the listener: the theorems. *)
From Verif Require Import Base SaslModel SaslSpec SaslProofs SaslProofs2 SaslProofs3 SaslProofs4 SaslProofs5.

(** C127.  A connection is authenticated only if the application vouched for the peer. *)
Theorem C127_vouched : forall h l s,
  faithful h sasl0 l -> srun h sasl0 l = Ok s -> is_authenticated s = true -> justified h (s_log s).
Proof. exact authenticated_thm. Qed.
Print Assumptions C127_vouched.
Example C127_case : faithful users sasl0 answered /\ is_authenticated (final answered) = true /\
  s_log (final answered) = [OSession MCram; OContinue; OSaid MCram (mkC (Some 1) None None None None) (HPassword 11); OComplete MCram (Some 11)].
Proof. split; [exact answered_faithful|]. split; vm_compute; reflexivity. Qed.

(** C128.  The identity of an authenticated peer is the one the application vouched for. *)
Theorem C128_identity_partial : forall h l s e s' d m resp l' o l2 s2,
  faithful h sasl0 l -> srun h sasl0 l = Ok s -> library h s e -> sstep h s e = Ok s' ->
  s_log s' = s_log s ++ d -> In (OComplete m resp) d ->
  ops_of e = l' ++ [o] -> Forall fills l' -> asks m o -> (is_frame e = true -> not_asked (s_log s)) ->
  (forall e2, In e2 l2 -> is_frame e2 = false) -> srun h s' l2 = Ok s2 ->
  exists c, In (OSaid m c (says h m c)) d /\ says h m c <> HDeny /\
    (m = MCram \/ m = MDigest -> exists pw, says h m c = HPassword pw /\ resp = Some pw) /\
    (m = MPlain \/ m = MCram \/ m = MDigest -> c_token c = None -> c_authid c <> None /\ auth_id s2 = Ok (c_authid c)) /\
    (forall z, c_authzid c = Some z -> authz_id s2 = Ok (Some z)) /\
    (forall k, c_token c = Some k -> auth_id s2 = Ok (Some k)) /\
    (m = MExternal -> c_authzid c <> None) /\ (m = MAnon -> c_token c <> None).
Proof. exact identity_thm. Qed.
Print Assumptions C128_identity_partial.
Theorem C128_again_refuted : exists h l s,
  faithful h sasl0 l /\ srun h sasl0 l = Ok s /\ is_authenticated s = true /\ auth_id s = UB.
Proof. exact again_witness. Qed.
Print Assumptions C128_again_refuted.
Theorem C128_retry_refuted : exists h l s,
  faithful h sasl0 l /\ srun h sasl0 l = Ok s /\ is_authenticated s = true /\ auth_id s = UB /\
  (exists l1, s_log s = l1 ++ [OComplete MCram (Some 11)]) /\
  (exists g, s_data s = Some (Some g) /\ value (g_authid g) = Some 2) /\
  says h MCram (mkC (Some 2) None None None None) = HPassword 22.
Proof. exact retry_witness. Qed.
Print Assumptions C128_retry_refuted.
Theorem C128_authz_refuted : exists h l s,
  faithful h sasl0 l /\ srun h sasl0 l = Ok s /\ is_authenticated s = true /\
  auth_id s = Ok (Some 1) /\ authz_id s = UB.
Proof. exact left_witness. Qed.
Print Assumptions C128_authz_refuted.
Example C128_case : auth_id (final answered) = Ok (Some 1) /\ authz_id (final answered) = Ok None /\
  not_asked (s_log (final [start_cram])) /\ Forall fills [GSet PAuthid (Some 1)] /\ asks MCram (GGet PPassword).
Proof.
  split; [vm_compute; reflexivity|]. split; [vm_compute; reflexivity|]. split.
  - intros m c r X. vm_compute in X. destruct X as [X|[]]. discriminate.
  - split; [|reflexivity]. constructor; [left; exists PAuthid, (Some 1); reflexivity|constructor].
Qed.

(** C129.  No message of a peer on a SASL channel makes the listener fail. *)
Theorem C129_calm_partial : forall h l, Forall calm l -> exists s, srun h sasl0 l = Ok s.
Proof. exact calm_thm. Qed.
Print Assumptions C129_calm_partial.
Theorem C129_abort_refuted : exists h l, faithful h sasl0 l /\ srun h sasl0 l = UB.
Proof. exact abort_witness. Qed.
Print Assumptions C129_abort_refuted.
Theorem C129_start_refuted : exists h l, faithful h sasl0 l /\
  Forall (fun e => match e with SFrame _ BAbort _ _ | SStart _ _ _ BAbort _ _ => False | _ => True end) l /\
  srun h sasl0 l = UB.
Proof. exact half_witness. Qed.
Print Assumptions C129_start_refuted.
Example C129_case : Forall calm retry /\ srun users sasl0 retry = Ok (final retry).
Proof. split; [repeat constructor; discriminate|vm_compute; reflexivity]. Qed.

(** C130.  Once a negotiation completes, no other begins on the connection. *)
Theorem C130_once : forall h l s,
  faithful h sasl0 l -> srun h sasl0 l = Ok s ->
  forall l1 m r l2, s_log s = l1 ++ OComplete m r :: l2 -> forall m', ~ In (OSession m') l2.
Proof. exact once_thm. Qed.
Print Assumptions C130_once.
Example C130_case : s_log (final (answered ++ [SClose 1; SStart 3 MPlain BStarts (BData None) (login 2 22) ROk])) =
  s_log (final answered) ++ [OClosed 1; ORefused].
Proof. vm_compute. reflexivity. Qed.

(** C131.  A peer told that the negotiation is complete is authenticated. *)
Theorem C131_complete_partial : forall h l s e s' d m resp,
  faithful h sasl0 l -> srun h sasl0 l = Ok s -> library h s e -> sstep h s e = Ok s' ->
  s_log s' = s_log s ++ d -> In (OComplete m resp) d ->
  (is_frame e = true -> exists ch, In (ch, m) (s_chans s)) ->
  is_authenticated s' = true.
Proof. exact completes_thm. Qed.
Print Assumptions C131_complete_partial.
Theorem C131_crossed_refuted : exists h l s, faithful h sasl0 l /\ srun h sasl0 l = Ok s /\
  (exists l1, s_log s = l1 ++ [OComplete MPlain None]) /\ is_authenticated s = false.
Proof. exact crossed_witness. Qed.
Print Assumptions C131_crossed_refuted.
Example C131_case : s_chans (final [start_cram]) = [(1%nat, MCram)] /\ is_authenticated (final [start_cram]) = false /\
  is_authenticated (final answered) = true.
Proof. vm_compute. auto. Qed.

(** C132.  A connection that is authenticated stays so. *)
Theorem C132_stays_partial : forall h l s e s',
  faithful h sasl0 l -> srun h sasl0 l = Ok s -> is_authenticated s = true ->
  library h s e -> ~ ends e -> sstep h s e = Ok s' -> is_authenticated s' = true.
Proof. exact stays_thm. Qed.
Print Assumptions C132_stays_partial.
(** It is one with a channel of the very mechanism that authenticated it. *)
Theorem C132_channel : forall s, is_authenticated s = true <->
  s_flag s = true /\ exists m ch, s_method s = Some m /\ In (ch, m) (s_chans s).
Proof. exact channel_lem. Qed.
Print Assumptions C132_channel.
Theorem C132_closed_refuted : exists h l s s', faithful h sasl0 l /\ srun h sasl0 l = Ok s /\ is_authenticated s = true /\
  sstep h s (SClose 1) = Ok s' /\ is_authenticated s' = false.
Proof. exact close_witness. Qed.
Print Assumptions C132_closed_refuted.
Theorem C132_malformed_refuted : exists h l s s', faithful h sasl0 l /\ srun h sasl0 l = Ok s /\ is_authenticated s = true /\
  sstep h s (SFrame 1 BBad [] ROther) = Ok s' /\ is_authenticated s' = false /\ auth_id s' = Ok None.
Proof. exact malformed_witness. Qed.
Print Assumptions C132_malformed_refuted.
Example C132_case : is_authenticated (final logged) = true /\ is_authenticated (final again) = true /\
  ~ ends (SFrame 1 (BData None) (login 2 99) RAuthError).
Proof. split; [vm_compute; reflexivity|]. split; [vm_compute; reflexivity|]. intros []. Qed.
