(** The properties of TLS. *)
From Verif Require Import Base TlsModel TlsSpec TlsProofs FlowModel.

(** C136: a listener connection is TLS only after a handshake the post check accepted. *)
Theorem C136_secure_partial : forall l, never_zero l -> l_flag (lrun l) = true -> secured (l_log (lrun l)).
Proof. exact secure_thm. Qed.
Print Assumptions C136_secure_partial.
Example C136_case :
  let l := [EReadable true true AOne None; EStart true true false true true; EReadable true true AOne None;
            EReadable true true AWant None; EReadable true true AOne (Some true); EReadable true true AOne None] in
  l_flag (lrun l) = true /\ l_log (lrun l) = [LRead Clear; LProceed; LHandshaken; LChecked true; LRead Ssl].
Proof. vm_compute. auto. Qed.
Theorem C136_zero_refuted : exists l, l_flag (lrun l) = true /\ l_up (lrun l) = true /\ ~ In LHandshaken (l_log (lrun l)).
Proof. exact zero_thm. Qed.
Print Assumptions C136_zero_refuted.

(** C137: nothing goes in the clear after proceed. *)
Theorem C137_clear_partial : forall l a b d, l_log (lrun l) = a ++ LProceed :: b ++ LRead Clear :: d -> In LHandFailed b.
Proof. exact clear_thm. Qed.
Print Assumptions C137_clear_partial.
Theorem C137_downgrade_refuted : exists l, l_up (lrun l) = true /\ l_log (lrun l) = [LProceed; LHandFailed; LRead Clear].
Proof. exact downgrade_thm. Qed.
Print Assumptions C137_downgrade_refuted.
Theorem C137_write_refuted : exists l, l_flag (lrun l) = true /\ l_log (lrun l) = [LProceed; LWrite Clear; LHandshaken].
Proof. exact write_thm. Qed.
Print Assumptions C137_write_refuted.
Example C137_case : l_log (lrun [EReadable true true AOne None; EStart true true true false false; EReadable true true AOne None;
   EReadable true true AOne None; EReadable true true AOne None]) = [LRead Clear; LProceed; LHandshaken; LRead Ssl].
Proof. vm_compute. reflexivity. Qed.

(** C138: TLS, once active, stays and is not started again. *)
Theorem C138_once : forall l l', l_flag (lrun l) = true ->
  l_flag (lrun (l ++ l')) = true /\
  exists new, l_log (lrun (l ++ l')) = l_log (lrun l) ++ new /\ ~ In LProceed new /\ Forall (fun o => ~ in_clear o) new.
Proof. exact once_thm. Qed.
Print Assumptions C138_once.
Example C138_case : let l := [EStart true true true false false; EReadable true true AOne None; EReadable true true AOne None] in
  l_flag (lrun l) = true /\ l_log (lrun (l ++ [EStart true true true true true; EWrite])) = l_log (lrun l) ++ [LRefuse; LWrite Ssl].
Proof. vm_compute. auto. Qed.

(** C139: the initiator is told once, at the end. *)
Theorem C139_told : forall c k o n l, start_tls c k = Some (o, n, l) ->
  exists l' w ok x, l = l' ++ [TNotify w ok] /\ about w o n = Some x /\ forall w b, ~ In (TNotify w b) l'.
Proof. exact told_thm. Qed.
Print Assumptions C139_told.
Example C139_case : exists o n, start_tls fresh_conn (mkTK true (Some TProceed) true true true [CWant; CDone] true (Some true) true true true) =
  Some (o, Some n, [THandshaken; TChecked true; TNotify New true]) /\ ic_up n = true /\ ic_io n = Ssl /\ ic_flag n = true /\ ic_up o = false.
Proof. eexists _, _. split; [reflexivity|]. vm_compute. auto. Qed.

(** C140: told VortexOk, the connection is TLS, with its certificate and its post check. *)
Theorem C140_ok : forall c k o n l w x, (ic_flag c = true -> ic_io c = Ssl) -> start_tls c k = Some (o, n, l) -> In (TNotify w true) l -> about w o n = Some x ->
  ic_flag x = true /\ ic_io x = Ssl /\
  (ic_flag c = false -> In THandshaken l /\ k_cert k = true /\ ~ In (TChecked false) l /\ (k_post k <> None -> In (TChecked true) l) /\ ic_seq_off x = false /\ ic_watched x = true).
Proof. exact ok_thm. Qed.
Print Assumptions C140_ok.
Example C140_case : match start_tls fresh_conn (mkTK true (Some TProceed) true true true [CDone] true (Some false) true true true) with
  | Some (_, Some n, l) => l = [THandshaken; TChecked false; TNotify New false] /\ ic_up n = false | _ => False end.
Proof. vm_compute. auto. Qed.

(** C141: a TLS that is refused leaves the connection as it was. *)
Theorem C141_same_partial : forall c k o n l, start_tls c k = Some (o, n, l) -> In (TNotify Old false) l -> (replaced k = false -> k_new k = true) ->
  n = None /\ ic_up o = ic_up c /\ ic_io o = ic_io c /\ ic_flag o = ic_flag c /\ ic_watched o = ic_watched c /\ ic_closes o = ic_closes c /\ ic_data o = ic_data c.
Proof. exact same_thm. Qed.
Print Assumptions C141_same_partial.
Theorem C141_refused_refuted : exists c k o l, usable c /\ start_tls c k = Some (o, None, l) /\ l = [TNotify Old false] /\ ic_up o = true /\ ic_watched o = true /\ ic_seq_off o = true.
Proof. exact refused_thm. Qed.
Print Assumptions C141_refused_refuted.
(** What that means: a channel then receives 4096 octets and no more. *)
Theorem C141_stall : forall es, Forall seq_off es -> rr_log (rrun es) = [] /\ rr_total (rrun es) <= 4096.
Proof. exact stall_thm. Qed.
Print Assumptions C141_stall.
Example C141_case : rr_total (rrun [RFrame true 0 4000; RSetWindow 100000; RFrame true 4000 96]) = 4096 /\
  rr_up (rrun [RFrame true 0 4000; RSetWindow 100000; RFrame true 4000 96]) = true /\
  rr_up (rrun [RFrame true 0 4000; RSetWindow 100000; RFrame true 4000 97]) = false.
Proof. vm_compute. auto. Qed.

(** C142: a connection whose handshake failed is closed. *)
Theorem C142_failed_partial : forall c k o n l x, start_tls c k = Some (o, n, l) -> In (TNotify New false) l -> n = Some x ->
  ic_up o = false /\ ic_flag x = false /\ ic_watched x = false /\
  (In (TChecked false) l -> ic_up x = false) /\
  (k_ctx k = true -> k_ssl k = true -> ~ In CError (k_conn k) -> ~ In THandshaken l -> ic_up x = false).
Proof. exact failed_thm. Qed.
Print Assumptions C142_failed_partial.
Theorem C142_failed_refuted : exists c k o x l, usable c /\ start_tls c k = Some (o, Some x, l) /\ l = [TNotify New false] /\
  ic_up x = true /\ ic_io x = Clear /\ ic_watched x = false /\ ic_up o = false.
Proof. exact failed_wit. Qed.
Print Assumptions C142_failed_refuted.
Example C142_case : match start_tls fresh_conn (mkTK true (Some TProceed) true true true [CWant; CSyscall] true None true true true) with
  | Some (_, Some n, l) => l = [TNotify New false] /\ ic_up n = false | _ => False end.
Proof. vm_compute. auto. Qed.

(** C143: with auto TLS and no failures allowed, a connection that is up is TLS. *)
Theorem C143_auto : forall c k w x, (ic_flag c = true -> ic_io c = Ssl) -> auto_tls false c k w = Ok (Some x) -> ic_up x = true ->
  ic_flag x = true /\ ic_io x = Ssl /\ (ic_flag c = false -> exists o n l, start_tls c k = Some (o, n, l) /\ In THandshaken l /\ k_cert k = true /\ ~ In (TChecked false) l).
Proof. exact auto_thm. Qed.
Print Assumptions C143_auto.
Example C143_case : auto_tls false fresh_conn refusal SWaiting = Ok (Some (down (mkIC true Clear false true true true true))) /\
  auto_tls true fresh_conn refusal SWaiting = Ok (Some (mkIC true Clear false true true true true)) /\
  auto_tls false fresh_conn (mkTK true (Some TProceed) true true true [CDone] true None true true true) SWaiting = Ok (Some (mkIC true Ssl true false true true true)).
Proof. vm_compute. auto. Qed.

(** C144: the synchronous call gives the connection and the status of the notification. *)
Theorem C144_sync_partial : forall c k message o n l w ok, ic_up c = true -> ic_flag c = false -> start_tls c k = Some (o, n, l) -> In (TNotify w ok) l ->
  sync c k message SWaiting = Ok (mkSR (Some w) ok o n).
Proof. exact sync_thm. Qed.
Print Assumptions C144_sync_partial.
Theorem C144_true : forall c k message w r, (ic_flag c = true -> ic_io c = Ssl) -> sync c k message w = Ok r -> sr_ok r = true ->
  exists w x, sr_conn r = Some w /\ about w (sr_old r) (sr_new r) = Some x /\ ic_flag x = true /\ ic_io x = Ssl.
Proof. exact sync_ok_thm. Qed.
Print Assumptions C144_true.
Theorem C144_again_refuted : exists c k, ic_up c = true /\ ic_flag c = true /\ start_tls c k = Some (c, None, [TNotify Old true]) /\
  (forall message w, sync c k message w = Ok (mkSR None false (down c) None)).
Proof. exact again_thm. Qed.
Print Assumptions C144_again_refuted.
Theorem C144_late_refuted : exists c k l, usable c /\ start_tls c k = Some (down (mkIC true Clear false true true false false), Some (mkIC true Ssl true false true true true), l) /\ In (TNotify New true) l /\
  sync c k true SLate = Ok (mkSR None false (down (mkIC true Clear false true true false false)) (Some (mkIC false Ssl true false true true true))).
Proof. exact late_thm. Qed.
Print Assumptions C144_late_refuted.
Theorem C144_released_refuted : exists c k w, usable c /\ sync c k true w = UB.
Proof. exact released_thm. Qed.
Print Assumptions C144_released_refuted.
Example C144_case : exists o n, sync fresh_conn (mkTK true (Some TProceed) true true true [CDone] true None true true true) true SWaiting = Ok (mkSR (Some New) true o (Some n)).
Proof. eexists _, _. reflexivity. Qed.

(** C145: vortex_tls_verify_cert says yes for a certificate of the server name. *)
Theorem C145_verify_partial : forall tls ssl vok cn s, ~ In 0 cn -> zlen cn < 512 -> ~ In 0 s ->
  (verify_cert tls ssl vok (Some (Some cn)) (Some s) = Ok true <-> tls = true /\ ssl = true /\ vok = true /\ cn = s).
Proof. exact verify_thm. Qed.
Print Assumptions C145_verify_partial.
(** "a" and a certificate for "a", NUL, "b". *)
Theorem C145_nul_refuted : exists cn s, cn <> s /\ ~ In 0 s /\ verify_cert true true true (Some (Some cn)) (Some s) = Ok true.
Proof. exists [97; 0; 98], [97]. split; [discriminate|]. split; [intros [X|[]]; discriminate|reflexivity]. Qed.
Print Assumptions C145_nul_refuted.
Theorem C145_missing_refuted : forall s, verify_cert true true true (Some None) s = UB.
Proof. intros s. reflexivity. Qed.
Print Assumptions C145_missing_refuted.
Example C145_case : verify_cert true true true (Some (Some [97; 98])) (Some [97; 98]) = Ok true /\ verify_cert true true true (Some (Some [97; 98])) (Some [97]) = Ok false.
Proof. vm_compute. auto. Qed.

(** C146: the text of a digest: two hexadecimal digits for each octet and colons. *)
Theorem C146_text : forall l, Forall is_byte l -> octal l = Ok (colons l).
Proof. exact octal_thm. Qed.
Print Assumptions C146_text.
Theorem C146_distinct : forall l m t, Forall is_byte l -> Forall is_byte m -> octal l = Ok t -> octal m = Ok t -> l = m.
Proof. intros l m t A B E F. rewrite octal_thm in E, F by auto. apply colons_inj; auto. congruence. Qed.
Print Assumptions C146_distinct.
Example C146_case : octal [0; 171; 255] = Ok [48; 48; 58; 65; 66; 58; 70; 70].
Proof. vm_compute. reflexivity. Qed.
