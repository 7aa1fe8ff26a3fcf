(** Proofs about the start requests received: why a request is accepted. *)
From Verif Require Import Base StartModel StartSpec StartProofs.

Definition reqd (es : list sev) (l : list sobs) (m n : Z) : Prop := In (OReq m (Some (mkQ (Some n) true))) l /\ allowed es m.
Definition PT (es : list sev) (l : list sobs) (m : Z) (p : sphase) : Prop :=
  match p with
  | QCheck n p | QFilter n p => In (OReq m (Some (mkQ (Some n) p))) l
  | QProfile n p => In (OReq m (Some (mkQ (Some n) p))) l /\ In (SFilter m FPass) es
  | QAdd n => reqd es l m n
  | QAsk n c => reqd es l m n /\ n <> 0
  | QIn n c called => reqd es l m n /\ n <> 0 /\ (called = true -> 0 < n /\ In (OCall m c) l)
  end.
Definition CT (es : list sev) (l : list sobs) (m : Z) (k : chan) : Prop :=
  reqd es l m (k_num k) /\ (k_defer k = true -> 0 < k_num k /\ In (OCall m (k_id k)) l).
Definition granted (es : list sev) (s : srv) (m : Z) : Prop :=
  exists n c, In (OReq m (Some (mkQ (Some n) true))) (s_log s) /\ 0 < n /\ allowed es m /\ In (OCall m c) (s_log s) /\
    (In (SClose n) es \/ exists k, In k (s_chans s) /\ k_num k = n /\ k_req k = Some m /\ k_done k = true).
Definition trace (es : list sev) (s : srv) : Prop :=
  (forall m p, phase_of s m = Some p -> PT es (s_log s) m p) /\
  (forall k m, In k (s_chans s) -> k_req k = Some m -> CT es (s_log s) m k) /\
  (forall m, In ROk (answers m (s_log s)) -> granted es s m).

Lemma reqd_mono es es' l l' m n : incl es es' -> incl l l' -> reqd es l m n -> reqd es' l' m n.
Proof. unfold reqd, allowed. intros A B (C & D & E). auto. Qed.
Lemma PT_mono es es' l l' m p : incl es es' -> incl l l' -> PT es l m p -> PT es' l' m p.
Proof.
  intros A B. destruct p; cbn; auto.
  - intros [H1 H2]. auto.
  - apply reqd_mono; auto.
  - intros [H1 H2]. split; auto. eapply reqd_mono; eauto.
  - intros (H1 & H2 & H3). split; [eapply reqd_mono; eauto|]. split; auto. intros H. destruct (H3 H). auto.
Qed.
Lemma CT_mono es es' l l' m k : incl es es' -> incl l l' -> CT es l m k -> CT es' l' m k.
Proof. intros A B [H1 H2]. split; [eapply reqd_mono; eauto|]. intros H. destruct (H2 H). auto. Qed.
Lemma trace_intro es e s s' : trace es s -> incl (s_log s) (s_log s') ->
  (forall x p, phase_of s' x = Some p -> phase_of s x = Some p \/ PT (es ++ [e]) (s_log s') x p) ->
  (forall k x, In k (s_chans s') -> k_req k = Some x -> In k (s_chans s) \/ CT (es ++ [e]) (s_log s') x k) ->
  (forall x, In ROk (answers x (s_log s')) -> In ROk (answers x (s_log s)) \/ granted (es ++ [e]) s' x) ->
  (forall k x, In k (s_chans s) -> k_req k = Some x -> k_done k = true ->
     In (SClose (k_num k)) (es ++ [e]) \/ exists k', In k' (s_chans s') /\ k_num k' = k_num k /\ k_req k' = Some x /\ k_done k' = true) ->
  trace (es ++ [e]) s'.
Proof.
  intros (T1 & T2 & T3) L P C A D. assert (Le : incl es (es ++ [e])) by (intros x; rewrite in_app_iff; auto). unfold trace. conj.
  - intros m p H. destruct (P m p H) as [X|X]; auto. apply T1 in X. eapply PT_mono; eauto.
  - intros k m H Q. destruct (C k m H Q) as [X|X]; auto. apply T2 with (m := m) in X; auto. eapply CT_mono; eauto.
  - intros m H. destruct (A m H) as [X|X]; auto. apply T3 in X. destruct X as (n & c & X1 & X2 & (X3 & X3') & X4 & X5). exists n, c. unfold allowed. conj; auto.
    destruct X5 as [X5|(k & K1 & K2 & K3 & K4)]; [left; auto|]. destruct (D k m K1 K3 K4) as [Y|(k' & Y1 & Y2 & Y3 & Y4)]; [left; congruence|].
    right. exists k'. conj; auto. congruence.
Qed.

Lemma tr_go es e s m q : trace es s -> PT (es ++ [e]) (s_log s) m q -> trace (es ++ [e]) (go s m q).
Proof.
  intros T H. apply (trace_intro es e s); auto; cbn [go with_thr s_log s_chans]; auto.
  - intros x; auto.
  - intros x p. rewrite phase_go. destruct (x =? m) eqn:X; [|intros E; left; exact E]. intros E. apply Z.eqb_eq in X. subst x. right. congruence.
  - intros k x K Q D. right. exists k. auto.
Qed.
Lemma tr_over es e s m o : trace es s -> (forall x, answers x o = []) -> trace (es ++ [e]) (over (with_log s o) m).
Proof.
  intros T O. apply (trace_intro es e s); auto; cbn [over with_log with_thr s_log s_chans]; auto.
  - intros x X. rewrite !in_app_iff. auto.
  - intros x p. rewrite phase_over. destruct (x =? m); [discriminate|]. rewrite (phase_same s) by reflexivity. auto.
  - intros x. rewrite !answers_app, answers_one, O, !app_nil_r. auto.
  - intros k x K Q D. right. exists k. auto.
Qed.
Lemma tr_deny es e s m code : trace es s -> trace (es ++ [e]) (deny s m code).
Proof.
  intros T. unfold deny. apply (trace_intro es e s); auto; cbn [over with_log with_thr s_log s_chans]; auto.
  - intros x X. rewrite !in_app_iff. left. apply log_send, X.
  - intros x p. rewrite phase_over. destruct (x =? m); [discriminate|]. rewrite (phase_same s) by (apply thr_send). auto.
  - intros k x. rewrite chans_send. auto.
  - intros x. rewrite !answers_app, answers_one, answers_send, !app_nil_r, in_app_iff. intros [H|H]; auto. destruct (s_up s); [|contradiction]. destruct (m =? x); [|contradiction].
    destruct H as [H|[]]. discriminate.
  - intros k x K Q D. right. exists k. rewrite chans_send. auto.
Qed.
Lemma tr_decide es e s k m ok : trace es s -> table_ok s -> In k (s_chans s) -> k_req k = Some m -> k_done k = false ->
  (ok = true -> 0 < k_num k /\ In (OCall m (k_id k)) (s_log s)) -> trace (es ++ [e]) (decide s k m ok).
Proof.
  intros T Tb K Q Nd H. destruct (decide_facts s k m ok Tb K Q) as (D1 & D2 & D3 & D4 & D5 & D6 & D7 & D8 & D9).
  assert (L : incl (s_log s) (s_log (decide s k m ok))).
  { unfold decide. intros x X. destruct ok; [destruct (s_up s); auto; apply log_send; auto|]. cbn. apply log_send, X. }
  set (s1 := decide s k m ok) in *. pose proof T as (T1 & T2 & T3). pose proof (T2 k m K Q) as [C1 C2].
  assert (Le : incl es (es ++ [e])) by (intros x; rewrite in_app_iff; auto).
  apply (trace_intro es e s); auto.
  - intros x p. rewrite (phase_same s) by auto. auto.
  - intros k' x K' Q'. destruct (Z.eq_dec x m) as [->|N].
    + right. apply D9 in K'; auto. destruct K' as (O & U & ->). split; [cbn; eapply reqd_mono; eauto|]. cbn. intros D. destruct (C2 D). auto.
    + left. apply D7; auto. congruence.
  - intros x. destruct (Z.eq_dec x m) as [->|N]; [|rewrite D5; auto]. rewrite D8, in_app_iff. intros [X|X]; auto.
    destruct (s_up s) eqn:U; [|contradiction]. destruct X as [X|[]]. destruct ok; [|discriminate]. destruct (H eq_refl) as [H1 H2]. right.
    destruct C1 as (C1 & C3 & C4). exists (k_num k), (k_id k). unfold allowed. conj; auto. right. exists (accepted_chan k). cbn. conj; auto. apply D9; auto.
  - intros k' x K' Q' D. right. exists k'. conj; auto. apply D7; auto. intros E. destruct Tb as (_ & _ & _ & T4 & _). assert (k' = k) by (apply (T4 k' k m); auto). congruence.
Qed.
Lemma tr_step es s e s' : trace es s -> inv s -> fair s e -> sstep s e = Ok s' -> trace (es ++ [e]) s'.
Proof.
  intros T I Fr H. pose proof I as (R & Tb & G). pose proof T as (T1 & T2 & T3).
  assert (Le : incl es (es ++ [e])) by (intros x; rewrite in_app_iff; auto).
  assert (Last : In e (es ++ [e])) by (rewrite in_app_iff; cbn; auto).
  assert (Same : trace (es ++ [e]) s).
  { apply (trace_intro es e s); auto; [intros x; auto|]. intros k x K Q D. right. exists k. auto. }
  destruct e; cbn [sstep] in H.
  - set (m := s_reqs s) in *. set (s1 := mkSrv (s_up s) (s_chans s) (s_thr s) (m + 1) (s_next s) (s_log s ++ [OReq m d])) in *.
    assert (X : trace (es ++ [SMsg d]) s1).
    { apply (trace_intro es (SMsg d) s); auto; cbn [s1 s_log s_chans]; auto.
      + intros x X. rewrite in_app_iff. auto.
      + intros x. rewrite answers_app, answers_one, app_nil_r. auto.
      + intros k x K Q D. right. exists k. auto. }
    assert (Y : forall q, PT es (s_log s1) m q -> trace (es ++ [SMsg d]) (go s1 m q)).
    { intros q Q. apply (trace_intro es (SMsg d) s); auto; cbn [s1 go with_thr s_log s_chans]; auto.
      + intros x Hx. rewrite in_app_iff. auto.
      + intros x p. rewrite phase_go. destruct (x =? m) eqn:Ex; [|intros E; left; exact E]. intros E. apply Z.eqb_eq in Ex. subst x. right.
        assert (q = p) by congruence. subst q. eapply PT_mono; [exact Le| |exact Q]. intros z; auto.
      + intros x. rewrite answers_app, answers_one, app_nil_r. auto.
      + intros k x K Q' D. right. eauto. }
    destruct d as [q|].
    + destruct (q_number q) as [n|] eqn:E; [|discriminate]. apply ok_inj in H. subst s'. apply Y. cbn. rewrite in_app_iff. right. left. destruct q. cbn in E. subst. reflexivity.
    + apply ok_inj in H. subst s'. unfold deny. destruct (s_up s1) eqn:U.
      * apply (trace_intro es (SMsg None) s); auto; unfold send; rewrite U; cbn [s1 over with_log with_thr s_log s_chans].
        -- intros x X'. rewrite !in_app_iff. auto.
        -- intros x p. rewrite phase_over. destruct (x =? m); [discriminate|]. rewrite (phase_same s) by reflexivity. auto.
        -- auto.
        -- intros x. rewrite !answers_app, !answers_one, !app_nil_r. rewrite in_app_iff. intros [Z'|Z']; auto. destruct (m =? x); [|contradiction]. destruct Z' as [Z'|[]]. discriminate.
        -- intros k x K Q D. right. exists k. auto.
      * apply (trace_intro es (SMsg None) s); auto; unfold send; rewrite U; cbn [s1 over with_log with_thr s_log s_chans].
        -- intros x X'. rewrite !in_app_iff. auto.
        -- intros x p. rewrite phase_over. destruct (x =? m); [discriminate|]. rewrite (phase_same s) by reflexivity. auto.
        -- auto.
        -- intros x. rewrite !answers_app, !answers_one, !app_nil_r. auto.
        -- intros k x K Q D. right. exists k. auto.
  - destruct (phase_of s m) as [[]|] eqn:P; try (apply ok_inj in H; subst; exact Same). apply T1 in P. cbn in P.
    destruct (exists_chan s n); apply ok_inj in H; subst s'; [apply tr_deny; auto|apply tr_go; auto].
  - destruct (phase_of s m) as [[]|] eqn:P; try (apply ok_inj in H; subst; exact Same). apply T1 in P. cbn in P.
    destruct v; apply ok_inj in H; subst s'; [apply tr_go; cbn; auto|apply tr_deny; auto|apply tr_over; auto].
  - destruct (phase_of s m) as [[]|] eqn:P; try (apply ok_inj in H; subst; exact Same). apply T1 in P. cbn in P. destruct P as [P1 P2].
    destruct prof; [|apply ok_inj in H; subst s'; apply tr_deny; auto].
    destruct v; apply ok_inj in H; subst s'; [apply tr_deny; auto..|]. apply tr_go; auto. cbn. split; auto. split; auto.
  - destruct (phase_of s m) as [[]|] eqn:P; try (apply ok_inj in H; subst; exact Same). apply T1 in P. cbn in P.
    destruct (n =? 0) eqn:N0; [apply ok_inj in H; subst s'; apply tr_deny; auto|]. apply Z.eqb_neq in N0.
    destruct (chan_at s n) as [k|] eqn:F; apply ok_inj in H; subst s'; [apply tr_deny; auto|].
    apply (trace_intro es (SAdd m) s); auto; cbn [go with_thr s_log s_chans].
    + intros x; auto.
    + intros x p. rewrite phase_go. destruct (x =? m) eqn:X; [|intros E; left; exact E]. intros E. apply Z.eqb_eq in X. subst x. right. apply (f_equal (fun o => match o with Some q => q | None => p end)) in E. cbn in E. subst p.
      cbn. split; auto. eapply reqd_mono; [exact Le| |exact P]. intros z; auto.
    + intros k x [K|K] Q; auto. right. subst k. cbn in Q. assert (m = x) by congruence. subst x. split; cbn; [|discriminate]. eapply reqd_mono; [exact Le| |exact P]. intros z; auto.
    + intros k x K Q D. right. exists k. cbn. auto.
  - destruct (phase_of s m) as [[]|] eqn:P; try (apply ok_inj in H; subst; exact Same). apply T1 in P. cbn in P. destruct P as [P1 P2].
    destruct (n <? 0) eqn:N0; apply ok_inj in H; subst s'.
    + apply tr_go; auto. cbn. split; [eapply reqd_mono; [exact Le| |exact P1]; intros z; auto|]. split; auto. discriminate.
    + apply (trace_intro es (SCall m) s); auto; cbn [with_log go with_thr s_log s_chans].
      * intros x X. rewrite in_app_iff. auto.
      * intros x p. rewrite (phase_same (go s m (QIn n c true))) by reflexivity. rewrite phase_go. destruct (x =? m) eqn:X; [|intros E; left; exact E]. intros E. apply Z.eqb_eq in X. subst x. right.
        apply (f_equal (fun o => match o with Some q => q | None => p end)) in E. cbn in E. subst p. cbn. split; [eapply reqd_mono; [exact Le| |exact P1]; intros z Hz; rewrite in_app_iff; auto|].
        split; auto. intros _. apply Z.ltb_ge in N0. split; [lia|]. rewrite in_app_iff. cbn. auto.
      * intros x. rewrite answers_app, answers_one, app_nil_r. auto.
      * intros k x K Q D. right. exists k. auto.
  - destruct (phase_of s m) as [[]|] eqn:P; try (apply ok_inj in H; subst; exact Same). pose proof (T1 _ _ P) as P'. cbn in P'. destruct P' as (P1 & P2 & P3).
    destruct (chan_id s c) as [k|] eqn:F; [|discriminate]. apply chan_id_some in F. destruct F as [F1 F2].
    specialize (G m) as Gm. unfold good in Gm. rewrite P in Gm. destruct Gm as (V & k0 & G1 & G2 & G3 & G4 & G5 & G6 & G7).
    assert (k0 = k) by (apply (id_inj s); auto; congruence). subst k0.
    assert (Ov : forall s2 m2, trace (es ++ [SRet m ok]) s2 -> trace (es ++ [SRet m ok]) (over s2 m2)).
    { intros s2 m2 (X1 & X2 & X3). unfold over, trace. conj.
      + intros x p. fold (over s2 m2). rewrite phase_over. destruct (x =? m2); [discriminate|]. intros E. apply X1 in E. eapply PT_mono; [| |exact E]; [intros z; auto|]. intros z Hz. cbn. rewrite in_app_iff. auto.
      + intros k1 x K1 Q1. eapply CT_mono; [| |apply (X2 k1 x K1 Q1)]; [intros z; auto|]. intros z Hz. cbn. rewrite in_app_iff. auto.
      + intros x. cbn [with_log s_log with_thr]. rewrite answers_app, answers_one, app_nil_r. intros A. destruct (X3 x A) as (n1 & c1 & Y1 & Y2 & Y3 & Y4 & Y5). exists n1, c1. cbn. rewrite !in_app_iff in *. conj; auto. }
    destruct (k_defer k) eqn:D; apply ok_inj in H; subst s'; apply Ov; [exact Same|].
    assert (Nd : k_done k = false) by (destruct (k_done k); auto; specialize (G5 eq_refl); congruence).
    apply tr_decide; auto. intros O. apply andb_true_iff in O. destruct O as [_ O]. subst called. rewrite G3, G2. auto.
  - destruct (chan_id s c) as [k|] eqn:F; [|discriminate]. apply chan_id_some in F. destruct F as [F1 F2]. destruct Fr as (m & n & P).
    pose proof (T1 _ _ P) as P'. cbn in P'. destruct P' as (P1 & P2 & P3). specialize (G m) as Gm. unfold good in Gm. rewrite P in Gm. destruct Gm as (V & k0 & G1 & G2 & G3 & G4 & G5 & G6 & G7).
    assert (k0 = k) by (apply (id_inj s); auto; congruence). subst k0. apply ok_inj in H. subst s'.
    set (k' := mkChan (k_id k) (k_num k) (k_req k) true (k_done k)).
    assert (U : forall x, In x (update (s_chans s) k') <-> x = k' \/ (In x (s_chans s) /\ x <> k)) by (intros x; apply (in_update s); auto).
    apply (trace_intro es (SDefer c) s); auto; cbn [with_chans s_log s_chans]; auto.
    + intros x; auto.
    + intros k1 x K1 Q1. apply U in K1. destruct K1 as [->|[K1 _]]; auto. right. cbn in Q1. assert (x = m) by congruence. subst x.
      split; cbn; [rewrite G3; eapply reqd_mono; [exact Le| |exact P1]; intros z; auto|]. intros _. rewrite G3, G2. auto.
    + intros k1 x K1 Q1 D. right. assert (X : k1 = k \/ k1 <> k) by (destruct (Z.eq_dec (k_id k1) (k_id k)); [left; apply (id_inj s); auto|right; congruence]).
      destruct X as [->|X]; [exists k'|exists k1]; rewrite U; cbn; auto.
  - destruct (chan_id s c) as [k|] eqn:F; [|discriminate]. apply chan_id_some in F. destruct F as [F1 F2]. destruct Fr as (k0 & K0 & E0 & Df & Nd & Hf).
    assert (k0 = k) by (apply (id_inj s); auto; congruence). subst k0. destruct (s_up s); apply ok_inj in H; subst s'; [|exact Same].
    destruct (k_req k) as [m|] eqn:Q; [|exfalso; destruct Tb as (_ & _ & _ & _ & T5); rewrite T5 in Df; auto; discriminate].
    apply tr_decide; auto. intros _. destruct (T2 k m F1 Q) as [_ C2]. auto.
  - destruct (exists_chan s n || (n <=? 0)); [apply ok_inj in H; subst; exact Same|]. destruct (chan_at s n); apply ok_inj in H; subst s'; [exact Same|].
    apply (trace_intro es (SLocal n) s); auto; cbn.
    + intros x; auto.
    + intros k x [K|K] Q; auto. subst k. discriminate.
    + intros k x K Q D. right. exists k. auto.
  - apply ok_inj in H. subst s'. apply (trace_intro es (SClose n) s); auto; cbn.
    + intros x; auto.
    + intros k x K Q. apply in_drop in K. tauto.
    + intros k x K Q D. destruct (Z.eq_dec (k_num k) n) as [E|E]; [left; rewrite E; auto|]. right. exists k. rewrite in_drop. auto.
  - apply ok_inj in H. subst s'. apply (trace_intro es SDown s); auto; cbn.
    + intros x; auto.
    + intros k x K Q D. right. exists k. auto.
Qed.
Lemma tr_run es2 : forall es s s', trace es s -> inv s -> fairly s es2 -> srun s es2 = Ok s' -> trace (es ++ es2) s'.
Proof.
  induction es2 as [|e es2 IH]; intros es s s' T I F H; cbn [srun] in H.
  - apply ok_inj in H. subst. rewrite app_nil_r. exact T.
  - destruct F as (F1 & F2 & F3). destruct (inv_step s e I F1 F2) as (s1 & E & I1). rewrite E in H. cbn in H.
    replace (es ++ e :: es2) with ((es ++ [e]) ++ es2) by (rewrite <- app_assoc; reflexivity). apply (IH _ s1); auto. eapply tr_step; eauto.
Qed.
Lemma reasons_thm es s m : fairly srv0 es -> srun srv0 es = Ok s -> In ROk (answers m (s_log s)) ->
  exists n c, In (OReq m (Some (mkQ (Some n) true))) (s_log s) /\ 0 < n /\ allowed es m /\ In (OCall m c) (s_log s) /\
    (In (SClose n) es \/ exists k, In k (s_chans s) /\ k_num k = n /\ k_req k = Some m /\ k_done k = true).
Proof.
  intros F H A. assert (T : trace ([] ++ es) s); [|apply T, A]. apply (tr_run es [] srv0); auto; [|exact inv0].
  unfold trace, srv0, phase_of, answers. cbn. conj; intros; contradiction || discriminate.
Qed.
Lemma apart_thm es s m m' : fairly srv0 es -> srun srv0 es = Ok s -> (forall n, ~ In (SClose n) es) ->
  In ROk (answers m (s_log s)) -> In ROk (answers m' (s_log s)) -> m <> m' ->
  exists k k', In k (s_chans s) /\ In k' (s_chans s) /\ k_req k = Some m /\ k_req k' = Some m' /\ k_num k <> k_num k'.
Proof.
  intros F H N A A' Ne. destruct (reasons_thm es s m F H A) as (n & c & _ & _ & _ & _ & [X|(k & K1 & K2 & K3 & K4)]); [exfalso; eapply N; eauto|].
  destruct (reasons_thm es s m' F H A') as (n' & c' & _ & _ & _ & _ & [X|(k' & K1' & K2' & K3' & K4')]); [exfalso; eapply N; eauto|].
  exists k, k'. conj; auto. intros E. destruct (inv_run es srv0 inv0 F) as (s1 & E1 & I). rewrite H in E1. apply ok_inj in E1. subst s1. destruct I as (_ & T & _).
  assert (k = k') by (apply (num_inj s); auto). congruence.
Qed.

Definition plain (n : Z) : sev := SMsg (Some (mkQ (Some n) true)).
Definition until_handler (m n : Z) : list sev := [plain n; SCheck m; SFilter m FPass; SProfile m PStart; SAdd m; SCall m].
Lemma number_witness : exists es, srun srv0 es = UB /\ es = [SMsg (Some (mkQ None true))].
Proof. eexists. split; [|reflexivity]. reflexivity. Qed.
Lemma refuse_witness : exists es s, srun srv0 es = Ok s /\ fairly srv0 es /\ pending s 0 /\ sstep s (SNotify 0 false) <> UB /\ srun s [SNotify 0 false; SRet 0 true] = UB.
Proof.
  exists (until_handler 0 3 ++ [SDefer 0]). eexists. split; [vm_compute; reflexivity|]. conj.
  - cbn -[sstep]. do 6 (split; [exact Logic.I|]; split; [cbn; try exact Logic.I; try congruence|]; intros s H; vm_compute in H; apply ok_inj in H; subst s).
    split; [exists 0, 3; vm_compute; reflexivity|]. split; [exact Logic.I|]. intros; exact Logic.I.
  - eexists. cbn. split; [left; reflexivity|]. auto.
  - vm_compute. discriminate.
  - vm_compute. reflexivity.
Qed.
Lemma close_witness : exists es s, srun srv0 es = Ok s /\ fairly srv0 es /\ srun s [SClose 3; SRet 0 true] = UB.
Proof.
  exists (until_handler 0 3). eexists. split; [vm_compute; reflexivity|]. split; [|vm_compute; reflexivity].
  cbn -[sstep]. do 6 (split; [exact Logic.I|]; split; [cbn; try exact Logic.I; try congruence|]; intros s H; vm_compute in H; apply ok_inj in H; subst s). exact Logic.I.
Qed.

Lemma busy_thm s m n p : phase_of s m = Some (QCheck n p) -> s_up s = true -> n = 0 \/ (0 < n /\ exists k, In k (s_chans s) /\ k_num k = n) ->
  exists s', sstep s (SCheck m) = Ok s' /\ answers m (s_log s') = answers m (s_log s) ++ [RErr 554] /\ phase_of s' m = None /\ s_chans s' = s_chans s.
Proof.
  intros P U H. cbn [sstep]. rewrite P.
  assert (E : exists_chan s n = true).
  { unfold exists_chan. rewrite U. destruct H as [->|(H & k & K & N)]; [reflexivity|]. replace (n <? 0) with false by (symmetry; apply Z.ltb_ge; lia). cbn.
    destruct (n =? 0); [reflexivity|]. destruct (chan_at s n) eqn:F; [reflexivity|]. apply find_none with (x := k) in F; auto. apply Z.eqb_neq in F. contradiction. }
  rewrite E. eexists. split; [reflexivity|]. unfold deny. rewrite phase_over, Z.eqb_refl. cbn [over with_log with_thr s_log s_chans].
  rewrite answers_app, answers_send, answers_one, U, Z.eqb_refl, app_nil_r, chans_send. auto.
Qed.
