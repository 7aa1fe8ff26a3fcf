(** Properties C331-C333: connection options. *)
From Verif Require Import Base OptsModel OptsSpec OptsProofs.

(** * C331: the serverName asked for *)
Theorem C331_asked_partial : forall host is r, asks host is r -> r <> None -> server_name true (keep (Some (opts_new is)) host) = r.
Proof. exact name_asked. Qed.
Print Assumptions C331_asked_partial.
Theorem C331_total : forall host is, exists r, asks host is r.
Proof. exact asks_total. Qed.
Print Assumptions C331_total.
Theorem C331_no_options : forall host, server_name true (keep None host) = Some host.
Proof. exact no_options. Qed.
Print Assumptions C331_no_options.
Theorem C331_context_off : forall c, server_name false c = None.
Proof. exact ctx_off. Qed.
Print Assumptions C331_context_off.
Example C331_ex : asks 9 [IName (Some 4%nat); IAcquire false; IName (Some 5%nat)] (Some 5%nat) /\
  server_name true (keep (Some (opts_new [IName (Some 4%nat); IAcquire false; IName (Some 5%nat)])) 9) = Some 5%nat.
Proof. split; [|reflexivity]. apply as_name. exact (ln_set [IName (Some 4%nat); IAcquire false] (Some 5%nat)). Qed.
(** VORTEX_SERVERNAME_ACQUIRE with axl_false is not recorded, and what is not recorded counts as axl_true. *)
Theorem C331_acquire_off_refuted : exists host is, asks host is None /\ server_name true (keep (Some (opts_new is)) host) = Some host.
Proof. exact acquire_off_refuted. Qed.
Print Assumptions C331_acquire_off_refuted.
(** vortex_ctx_server_name_acquire with axl_false also drops the name given in the options. *)
Theorem C331_context_refuted : exists host is n, asks host is (Some n) /\ server_name false (keep (Some (opts_new is)) host) = None.
Proof. exact ctx_off_refuted. Qed.
Print Assumptions C331_context_refuted.

(** * C332: options are released when they say so, once *)
Theorem C332_released_partial : forall s i is e host, nth_error (t_opts s) i = Some (Some (opts_default is)) -> e <> KNameInfo ->
  exists s', ostep s (VConn (Some i) e host) = Ok s' /\ nth_error (t_opts s') i = Some None /\ (forall j, j <> i -> nth_error (t_opts s') j = nth_error (t_opts s) j).
Proof. exact default_freed. Qed.
Print Assumptions C332_released_partial.
Theorem C332_kept : forall s i o host s', nth_error (t_opts s) i = Some (Some o) -> ostep s (VConn (Some i) KDone host) = Ok s' ->
  t_conns s' = t_conns s ++ [keep (Some o) host].
Proof. exact done_keeps. Qed.
Print Assumptions C332_kept.
Example C332_ex : oruns os0 [VNew [IName (Some 4%nat)]; VDefault [IRelease false]; VConn (Some 1%nat) KDone 9] =
  Ok (mkT [Some (mkO (Some 4%nat) true false); None] [mkC None (Some true) 9] []).
Proof. reflexivity. Qed.
Theorem C332_nameinfo_refuted : exists vs s, vs = [VDefault []; VConn (Some 0%nat) KNameInfo 9] /\ oruns os0 vs = Ok s /\ t_opts s = [Some (opts_default [])].
Proof. exact nameinfo_leak_refuted. Qed.
Print Assumptions C332_nameinfo_refuted.
(** A connection through a proxy never releases them. *)
Theorem C332_http_refuted : exists vs s, vs = [VDefault []; VHttp (Some 0%nat) KDone 9] /\ oruns os0 vs = Ok s /\ t_opts s = [Some (opts_default [])].
Proof. exact http_leak_refuted. Qed.
Print Assumptions C332_http_refuted.

(** * C333: options can be used again *)
Theorem C333_reuse : forall is vs, keeps is -> Forall (reusing 0) vs -> exists s, oruns os0 (VNew is :: vs) = Ok s /\ nth_error (t_opts s) 0 = Some (Some (opts_new is)).
Proof. exact reuse. Qed.
Print Assumptions C333_reuse.
Example C333_ex : keeps [IName (Some 4%nat)] /\ Forall (reusing 0) [VStart (Some 0%nat) KDone 9; VConn (Some 0%nat) KTcp 8; VRun; VConn None KDone 7; VHttp (Some 0%nat) KDone 6].
Proof. split; [intros b [H|[]]; discriminate|]. repeat constructor; simpl; congruence. Qed.
(** Freed after the call returned, while the thread that connects has not run yet. *)
Theorem C333_free_refuted : exists is e host, keeps is /\ oruns os0 [VNew is; VStart (Some 0%nat) e host; VFree 0; VRun] = UB.
Proof. exact free_threaded_refuted. Qed.
Print Assumptions C333_free_refuted.
