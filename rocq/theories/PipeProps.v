(** Properties C322-C326: the portable pipe and the descriptor of events of the Lua binding. *)
From Verif Require Import Base PipeModel PipeSpec PipeProofs PipeProofs2.
From Coq Require Import Lia.

(** * C322: a pipe that was made *)
Theorem C322_made : forall a d0 d1 open r, kernel_ok a open -> support_pipe a d0 d1 open = Ok r -> p_ret r = 0 ->
  p_d0 r <> p_d1 r /\ 0 <= p_d0 r /\ 0 < p_d1 r /\ ~ In (p_d0 r) open /\ ~ In (p_d1 r) open /\ same_fds (p_open r) (p_d0 r :: p_d1 r :: open).
Proof. exact pipe_made. Qed.
Print Assumptions C322_made.
Example C322_ex : kernel_ok good std /\ support_pipe good (-1) (-1) std = Ok (mkP 0 4 5 [5; 4; 0; 1; 2] (Some Own)).
Proof. split; [fr|reflexivity]. Qed.

(** * C323: a pipe that was not made *)
Theorem C323_failed_partial : forall a d0 d1 open r, kernel_ok a open -> std_open open -> support_pipe a d0 d1 open = Ok r -> p_ret r <> 0 ->
  p_ret r = -1 /\ (same_fds (p_open r) open \/ (~ In (p_d0 r) open /\ p_d0 r = a_cli a /\ same_fds (p_open r) (p_d0 r :: open))).
Proof. exact pipe_failed. Qed.
Print Assumptions C323_failed_partial.
Example C323_ex : kernel_ok refused std /\ std_open std /\ support_pipe refused (-1) (-1) std = Ok (mkP (-1) 4 (-1) [4; 0; 1; 2] None).
Proof. split; [fr|]. split; [unfold std_open, std; simpl; tauto|reflexivity]. Qed.
(** The read side stays open when connect or accept fails. *)
Theorem C323_leak_refuted : exists a d0 d1 open r fd, kernel_ok a open /\ std_open open /\ support_pipe a d0 d1 open = Ok r /\ p_ret r = -1 /\
  In fd (p_open r) /\ ~ In fd open.
Proof. exact leak_refuted. Qed.
Print Assumptions C323_leak_refuted.
(** A program without stdin: the listener got descriptor 0, is refused for that, and stays open; descf does not tell of it. *)
Theorem C323_low_leak_refuted : exists a d0 d1 r, kernel_ok a [] /\ support_pipe a d0 d1 [] = Ok r /\ p_ret r = -1 /\ p_d0 r = d0 /\ p_d1 r = d1 /\ p_open r = [0].
Proof. exact low_leak_refuted. Qed.
Print Assumptions C323_low_leak_refuted.
Theorem C323_defined_partial : forall a d0 d1 open, named a -> exists r, support_pipe a d0 d1 open = Ok r.
Proof. exact pipe_defined. Qed.
Print Assumptions C323_defined_partial.
(** The check of getsockname is [< -1]: its failure is not seen, and the address is used. *)
Theorem C323_getsockname_refuted : exists a open, kernel_ok a open /\ std_open open /\ forall d0 d1, support_pipe a d0 d1 open = UB.
Proof. exact noname_refuted. Qed.
Print Assumptions C323_getsockname_refuted.

(** * C324: the two ends are of one connection *)
Theorem C324_paired_partial : forall a d0 d1 open r, support_pipe a d0 d1 open = Ok r -> p_ret r = 0 -> a_before a = [] -> p_peer r = Some Own.
Proof. exact pipe_paired. Qed.
Print Assumptions C324_paired_partial.
Example C324_ex : exists r, support_pipe good (-1) (-1) std = Ok r /\ p_ret r = 0 /\ a_before good = [] /\ p_peer r = Some Own.
Proof. eexists. split; [reflexivity|]. auto. Qed.
(** accept takes the first of those waiting at the listener, and nothing looks who it is. *)
Theorem C324_guest_refuted : exists a d0 d1 open r n, kernel_ok a open /\ named a /\ support_pipe a d0 d1 open = Ok r /\ p_ret r = 0 /\ p_peer r = Some (Other n).
Proof. exact guest_refuted. Qed.
Print Assumptions C324_guest_refuted.

(** * C325: vortex.event_fd *)
Theorem C325_first_partial : forall a open e l o, kernel_ok a open -> std_open open -> event_fd a lock0 open = Ok (e, l, o) -> e <> EErr ->
  exists fd, e = EFd fd /\ 2 < fd /\ ~ In fd open /\ In fd o /\ l_p1 l <> fd /\ ~ In (l_p1 l) open /\ In (l_p1 l) o /\ l_peer l <> None.
Proof. exact first_fd. Qed.
Print Assumptions C325_first_partial.
Theorem C325_same : forall al a l open fd l' o', event_fd a l open = Ok (EFd fd, l', o') -> event_fds al l' o' = Ok (map (fun _ => EFd fd) al, l', o').
Proof. exact event_fd_same. Qed.
Print Assumptions C325_same.
Example C325_ex : event_fds [good; refused; noname] lock0 std = Ok ([EFd 4; EFd 4; EFd 4], mkL 4 5 (Some Own), [5; 4; 0; 1; 2]).
Proof. reflexivity. Qed.
(** After a call that failed at connect, the next call gives the socket that was left: no other end exists. *)
Theorem C325_dead_refuted : exists al fd l o, kernel_run al lock0 std /\ event_fds al lock0 std = Ok ([EErr; EFd fd], l, o) /\ l_peer l = None /\ l_p1 l <= 0.
Proof. exact dead_fd_refuted. Qed.
Print Assumptions C325_dead_refuted.

(** * C326: closing the interpreter gives the descriptors back *)
Theorem C326_returned_partial : forall al open es l o, std_open open -> kernel_run al lock0 open -> event_fds al lock0 open = Ok (es, l, o) ->
  same_fds (lock_free l o) open.
Proof. exact lock_returns. Qed.
Print Assumptions C326_returned_partial.
Theorem C326_run : forall al l open, kernel_run al l open -> exists es l' o', event_fds al l open = Ok (es, l', o') /\ List.length es = List.length al.
Proof. exact run_defined. Qed.
Print Assumptions C326_run.
Example C326_ex : kernel_run [mkA (-1) true true 0 (-1) CFail [] (-1); good; mkA 6 true true 0 7 CDone [] 8] lock0 std.
Proof.
  econstructor; [unfold kernel_ok, fresh; simpl; tauto|reflexivity|reflexivity|].
  econstructor; [fr|reflexivity|reflexivity|].
  econstructor; [fr|reflexivity|reflexivity|constructor].
Qed.
