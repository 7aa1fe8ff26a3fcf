(** The properties of the start requests received. *)
From Verif Require Import Base StartModel StartSpec StartProofs StartProofs2.

(** C48: under the rules of [fair], a request is never answered twice, and once
    the thread that serves it ended it was answered unless the masks asked for
    silence, the application has the decision in its hands or the connection is
    closed; no step is undefined. *)
Theorem C48_answered_partial : forall es, fairly srv0 es -> exists s, srun srv0 es = Ok s /\ forall m,
  (length (answers m (s_log s)) <= 1)%nat /\
  (0 <= m < s_reqs s -> phase_of s m = None -> answers m (s_log s) = [] -> In (OSkip m) (s_log s) \/ pending s m \/ s_up s = false) /\
  (~ 0 <= m < s_reqs s -> answers m (s_log s) = []).
Proof. exact answered_thm. Qed.
Print Assumptions C48_answered_partial.

(** C48: the channel of a refused request is not in the table, that of an
    accepted one is, and no two channels have the same number. *)
Theorem C48_channel_partial : forall es s, fairly srv0 es -> srun srv0 es = Ok s ->
  NoDup (map k_num (s_chans s)) /\
  forall k m, In k (s_chans s) -> k_req k = Some m -> answers m (s_log s) = if k_done k then [ROk] else [].
Proof. exact channel_thm. Qed.
Print Assumptions C48_channel_partial.

(** C48: a request is accepted only for a positive number and a profile allowed
    by the masks with a start handler, that was called; its channel exists until
    it is closed. *)
Theorem C48_reasons_partial : forall es s m, fairly srv0 es -> srun srv0 es = Ok s -> In ROk (answers m (s_log s)) ->
  exists n c, In (OReq m (Some (mkQ (Some n) true))) (s_log s) /\ 0 < n /\ allowed es m /\ In (OCall m c) (s_log s) /\
    (In (SClose n) es \/ exists k, In k (s_chans s) /\ k_num k = n /\ k_req k = Some m /\ k_done k = true).
Proof. exact reasons_thm. Qed.
Print Assumptions C48_reasons_partial.

(** C48: while no channel is closed, two requests accepted got two channels with
    different numbers. *)
Theorem C48_apart_partial : forall es s m m', fairly srv0 es -> srun srv0 es = Ok s -> (forall n, ~ In (SClose n) es) ->
  In ROk (answers m (s_log s)) -> In ROk (answers m' (s_log s)) -> m <> m' ->
  exists k k', In k (s_chans s) /\ In k' (s_chans s) /\ k_req k = Some m /\ k_req k' = Some m' /\ k_num k <> k_num k'.
Proof. exact apart_thm. Qed.
Print Assumptions C48_apart_partial.

(** C48: a request for channel 0 or for a number in use is refused at once. *)
Theorem C48_busy : forall s m n p, phase_of s m = Some (QCheck n p) -> s_up s = true -> n = 0 \/ (0 < n /\ exists k, In k (s_chans s) /\ k_num k = n) ->
  exists s', sstep s (SCheck m) = Ok s' /\ answers m (s_log s') = answers m (s_log s) ++ [RErr 554] /\ phase_of s' m = None /\ s_chans s' = s_chans s.
Proof. exact busy_thm. Qed.
Print Assumptions C48_busy.

(** C48: a request without the attribute [number] is not answered: the code reads
    through a null pointer. *)
Theorem C48_number_refuted : exists es, srun srv0 es = UB /\ es = [SMsg (Some (mkQ None true))].
Proof. exact number_witness. Qed.
Print Assumptions C48_number_refuted.

(** C48: a deferred decision, told as a refusal before the start handler returns,
    makes the thread that called the handler use freed memory. *)
Theorem C48_refuse_refuted : exists es s, srun srv0 es = Ok s /\ fairly srv0 es /\ pending s 0 /\ sstep s (SNotify 0 false) <> UB /\ srun s [SNotify 0 false; SRet 0 true] = UB.
Proof. exact refuse_witness. Qed.
Print Assumptions C48_refuse_refuted.

(** C48: the same if the peer closes the channel while the start handler runs. *)
Theorem C48_close_refuted : exists es s, srun srv0 es = Ok s /\ fairly srv0 es /\ srun s [SClose 3; SRet 0 true] = UB.
Proof. exact close_witness. Qed.
Print Assumptions C48_close_refuted.

(** Two requests for the same number at once, one for an unknown profile, one that
    is not XML and one deferred and accepted by the application; then a channel is
    closed. *)
Definition fair_es : list sev :=
  [plain 3; plain 3; SCheck 0; SCheck 1; SFilter 0 FPass; SFilter 1 FPass; SProfile 1 PStart; SProfile 0 PStart; SAdd 1; SAdd 0; SCall 1; SRet 1 true;
   plain 5; SCheck 2; SFilter 2 FPass; SProfile 2 PNone; SMsg None;
   plain 7; SCheck 4; SFilter 4 FPass; SProfile 4 PStart; SAdd 4; SCall 4; SDefer 1; SRet 4 false; SNotify 1 true; SClose 3].
Ltac step_fair s := split; [try exact Logic.I; cbn|split; [try exact Logic.I; cbn; try congruence|intros s H; vm_compute in H; apply ok_inj in H; subst s]].
Example C48_case : exists s, srun srv0 fair_es = Ok s /\ fairly srv0 fair_es /\
  map (fun m => answers m (s_log s)) [0; 1; 2; 3; 4; 5] = [[RErr 554]; [ROk]; [RErr 554]; [RErr 500]; [ROk]; []] /\ map k_num (s_chans s) = [7].
Proof.
  eexists. split; [vm_compute; reflexivity|]. split; [|split; reflexivity]. unfold fair_es.
  do 23 step_fair s. step_fair s; [exists 4, 7; reflexivity|]. step_fair s. step_fair s.
  { eexists. split; [left; reflexivity|]. cbn. repeat (split; [reflexivity|]). discriminate. }
  step_fair s; [|exact Logic.I]. intros k [K|[K|[]]]; subst k; cbn; [discriminate|]. intros _. split; auto. intros m (n & [D|[b D]]); vm_compute in D; discriminate.
Qed.
Example C48_pending_case : exists s, srun srv0 (until_handler 0 3 ++ [SDefer 0; SRet 0 true]) = Ok s /\ answers 0 (s_log s) = [] /\ phase_of s 0 = None /\ pending s 0 /\ s_up s = true.
Proof. eexists. split; [vm_compute; reflexivity|]. repeat (split; [reflexivity|]). split; [|reflexivity]. eexists. cbn. split; [left; reflexivity|]. auto. Qed.
Example C48_busy_case : exists s, srun srv0 (until_handler 0 3 ++ [SRet 0 true; plain 3]) = Ok s /\ phase_of s 1 = Some (QCheck 3 true) /\ s_up s = true /\ exists k, In k (s_chans s) /\ k_num k = 3.
Proof. eexists. split; [vm_compute; reflexivity|]. split; [reflexivity|]. split; [reflexivity|]. eexists. split; [left; reflexivity|reflexivity]. Qed.
