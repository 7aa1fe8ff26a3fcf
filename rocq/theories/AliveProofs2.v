(** What the ALIVE check sees when it gives up, and that it does. *)
From Verif Require Import Base AliveModel AliveSpec AliveProofs.

(** ** What was seen when the connection is given up *)
Record AJ (s : ast) : Prop := mkAJ {
  j_prog : forall d, a_data s = Some d -> d_progress d = true -> In OAsked (a_log s);
  j_chan : In (OChannel true) (a_log s) -> exists d, a_data s = Some d;
  j_check : forall d, a_data s = Some d -> d_conn d = true -> In (OChannel true) (a_log s) -> ~ In ODrop (a_log s) -> d_event d = ECheck /\ d_chan d = true;
  j_made : forall d, a_data s = Some d -> d_chan d = true -> In (OChannel true) (a_log s);
  j_conn : forall d, a_data s = Some d -> d_conn d = false -> a_closed s = true \/ 1 <= count_of gives_up (a_log s)
}.
Lemma AJ0 : forall n, AJ (a0 n).
Proof. intros n. constructor; cbn; try discriminate. intros []. Qed.

Definition justified (l1 : list aobs) : Prop :=
  quiet l1 = true /\ exists n, enabled_with l1 = Some n /\ (In (OChannel true) l1 -> n <= unanswered l1) /\ (~ In (OChannel true) l1 -> In OAsked l1).

(** The log grows, and what gives up is the first thing a step adds. *)
Lemma trigger_log : forall s d, AI s -> a_data s = Some d -> d_conn d = true -> forall n, a_up s = true ->
  exists o, gives_up o = true /\ a_log (trigger_failure s (with_tries d n)) = a_log s ++ [o; ORelease].
Proof.
  intros s d H D DC n U. destruct (i_refs s H d D) as (_ & R2 & _). unfold trigger_failure. rewrite R2, DC. cbn [with_tries with_event d_handler a_up]. rewrite U.
  destruct (d_handler d); [exists OFail|exists OShut]; cbn [free_reference note a_log]; rewrite <- app_assoc; split; reflexivity.
Qed.
Lemma tries_id : forall d, with_tries d (d_tries d) = d.
Proof. now destruct d. Qed.
Lemma in_snoc : forall (x : aobs) l r, (forall y, In y r -> y <> x) -> In x (l ++ r) -> In x l.
Proof. intros x l r H Q. apply in_app_iff in Q. destruct Q as [Q|Q]; [exact Q|]. exfalso. now apply (H x Q). Qed.

Definition plainl (l : list aobs) : Prop := forallb (fun o => negb (gives_up o)) l = true.
Inductive grows (s : ast) : ast -> Prop :=
| g_plain : forall s' new, a_log s' = a_log s ++ new -> plainl new -> grows s s'
| g_up : forall s' o, gives_up o = true -> a_log s' = a_log s ++ [o; ORelease] -> justified (a_log s) -> grows s s'.

Lemma chan_data : forall s d, AI s -> a_data s = Some d -> d_conn d = true -> d_chan d = false -> ~ In (OChannel true) (a_log s).
Proof. intros s d H D DC C. destruct (i_pend s H d D DC) as (_ & _ & P). now destruct (P C). Qed.

Lemma step_grows : forall s e, AI s -> AJ s -> grows s (astep s e).
Proof.
  intros s e H J. assert (ID : grows s s) by (apply (g_plain s s []); [now rewrite app_nil_r|reflexivity]).
  destruct e as [now period count handler|now|ok| |n|n| | |]; cbn [astep].
  - destruct (a_up s); [|exact ID]. unfold enable. destruct (_ || _); [apply (g_plain s _ [ORefused]); reflexivity|].
    destruct (a_data s); [apply (g_plain s _ [ORefused]); reflexivity|apply (g_plain s _ [OEnabled count]); reflexivity].
  - destruct (a_data s) as [d|] eqn:D; [|exact ID]. destruct (d_event d) eqn:EV; try exact ID.
    assert (DC : d_conn d = true) by (destruct (conn_dec d) as [X|X]; [exact X|]; destruct (i_refs s H d D) as (_ & _ & _ & R); destruct (R X); congruence).
    destruct (i_event s H d D) as [_ E2]. specialize (E2 EV). pose proof (chan_data s d H D DC E2) as NC.
    unfold create_channel. rewrite E2. destruct (a_up s) eqn:U; cbn [negb]; [|apply (g_plain s _ [ODrop]); reflexivity].
    destruct (d_progress d) eqn:PR; cbn [negb]; [|apply (g_plain s _ [OAsked]); reflexivity].
    destruct (d_seen d <? a_bytes s) eqn:SB; [apply (g_plain s _ [OLook]); reflexivity|]. apply Z.ltb_ge in SB.
    assert (JU : justified (a_log s)).
    { destruct (i_seen s H d D) as [S1 S2]. split; [rewrite S2; apply Z.eqb_eq; lia|]. destruct (i_count s H d D) as [C1 _]. exists (d_count d).
      split; [exact C1|]. split; [contradiction|]. intros _. exact (j_prog s J d D PR). }
    destruct (d_maxfail d <=? now - d_started d).
    + rewrite <- (tries_id d) at 1. destruct (trigger_log s d H D DC (d_tries d) U) as (o & G & L). now apply (g_up s _ o).
    + cbv zeta. destruct (_ =? 0); [|apply (g_plain s _ [OLook]); reflexivity].
      destruct (trigger_log s d H D DC (d_tries d - 1) U) as (o & G & L). now apply (g_up s _ o).
  - destruct (a_data s) as [d|] eqn:D; [|exact ID]. destruct (a_asked s); [|exact ID]. unfold channel_created. destruct (d_conn d); cbn [negb].
    + destruct ok; cbn [negb]; [apply (g_plain s _ [OChannel true; OLook])|apply (g_plain s _ [OChannel false])]; reflexivity.
    + apply (g_plain s _ []); [cbn; now rewrite app_nil_r|reflexivity].
  - destruct (a_data s) as [d|] eqn:D; [|exact ID]. destruct (d_event d) eqn:EV; try exact ID.
    assert (DC : d_conn d = true) by (destruct (conn_dec d) as [X|X]; [exact X|]; destruct (i_refs s H d D) as (_ & _ & _ & R); destruct (R X); congruence).
    destruct (i_event s H d D) as [E1 _]. specialize (E1 EV).
    unfold do_check. rewrite E1. cbn [andb]. destruct (a_up s) eqn:U; cbn [negb]; [|apply (g_plain s _ [ODrop]); reflexivity].
    destruct (d_seen d <? a_bytes s) eqn:SB; [apply (g_plain s _ [OLook]); reflexivity|]. apply Z.ltb_ge in SB.
    destruct (d_count d <=? a_pending s) eqn:CP.
    + apply Z.leb_le in CP. rewrite <- (tries_id d) at 1. destruct (trigger_log s d H D DC (d_tries d) U) as (o & G & L). apply (g_up s _ o); auto.
      destruct (i_seen s H d D) as [S1 S2]. destruct (i_count s H d D) as [C1 _]. destruct (i_pend s H d D DC) as (P1 & P2 & P3).
      split; [rewrite S2; apply Z.eqb_eq; lia|]. exists (d_count d). split; [exact C1|]. split; [lia|]. intros NC. exfalso. now apply NC, (j_made s J d D).
    + destruct (a_open s); [apply (g_plain s _ [OLook; OPing])|apply (g_plain s _ [ODrop])]; reflexivity.
  - destruct (_ && _); [apply (g_plain s _ [OGot n]); reflexivity|exact ID].
  - destruct (_ && _); [apply (g_plain s _ [OGot n; OReply]); reflexivity|exact ID].
  - apply (g_plain s _ []); [cbn; now rewrite app_nil_r|reflexivity].
  - apply (g_plain s _ []); [cbn; now rewrite app_nil_r|reflexivity].
  - destruct (_ || _); [exact ID|]. destruct (a_data s) as [d|]; [destruct (a_hook s); [apply (g_plain s _ [ORelease]); reflexivity|]|];
      (apply (g_plain s _ []); [cbn; now rewrite app_nil_r|reflexivity]).
Qed.

(** Each step keeps [AJ]; [new] is what it adds to the log. *)
Lemma keep_J : forall s s' new, AJ s -> a_log s' = a_log s ++ new ->
  (forall d', a_data s' = Some d' -> d_progress d' = true -> (exists d, a_data s = Some d /\ d_progress d = true) \/ In OAsked new) ->
  (forall d, a_data s = Some d -> exists d', a_data s' = Some d') ->
  (In (OChannel true) new -> exists d', a_data s' = Some d') ->
  (forall d', a_data s' = Some d' -> d_conn d' = true -> In (OChannel true) (a_log s') -> ~ In ODrop (a_log s') ->
     (exists d, a_data s = Some d /\ d_conn d = true /\ d_event d' = d_event d /\ d_chan d' = d_chan d /\ In (OChannel true) (a_log s)) \/ (d_event d' = ECheck /\ d_chan d' = true)) ->
  (forall d', a_data s' = Some d' -> d_chan d' = true -> (exists d, a_data s = Some d /\ d_chan d = true) \/ In (OChannel true) new) ->
  (forall d', a_data s' = Some d' -> d_conn d' = false -> (exists d, a_data s = Some d /\ d_conn d = false) \/ a_closed s' = true \/ 1 <= count_of gives_up new) ->
  (a_closed s = true -> a_closed s' = true) ->
  AJ s'.
Proof.
  intros s s' new J L A1 A2 A3 A4 A5 A6 A7. constructor.
  - intros d' D P. rewrite L. apply in_app_iff. destruct (A1 d' D P) as [(d & D0 & P0)|X]; [left; now apply (j_prog s J d)|now right].
  - rewrite L. intros Q. apply in_app_iff in Q. destruct Q as [Q|Q]; [|now apply A3]. destruct (j_chan s J Q) as (d & D). now apply (A2 d).
  - intros d' D C Q N. destruct (A4 d' D C Q N) as [(d & D0 & C0 & E & K & Q0)|X]; [|exact X]. rewrite E, K. apply (j_check s J d D0 C0 Q0).
    intros X. apply N. rewrite L. apply in_app_iff. now left.
  - intros d' D C. rewrite L. apply in_app_iff. destruct (A5 d' D C) as [(d & D0 & C0)|X]; [left; now apply (j_made s J d)|now right].
  - intros d' D C. rewrite L, count_app. assert (N : forall l, 0 <= count_of gives_up l) by (intros l; unfold count_of, zlen; lia).
    destruct (A6 d' D C) as [(d & D0 & C0)|[X|X]]; [|now left|right; specialize (N (a_log s)); lia].
    destruct (j_conn s J d D0 C0) as [X|X]; [left; auto|right; specialize (N new); lia].
Qed.
Lemma trigger_J : forall s d n, AI s -> AJ s -> a_data s = Some d -> d_conn d = true -> a_up s = true -> AJ (trigger_failure s (with_tries d n)).
Proof.
  intros s d n H J D DC U. destruct (i_refs s H d D) as (_ & R2 & _). unfold trigger_failure. rewrite R2, DC. cbn [with_tries with_event d_handler a_up]. rewrite U.
  destruct (d_handler d); [apply (keep_J s _ [OFail; ORelease] J)|apply (keep_J s _ [OShut; ORelease] J)]; cbn [free_reference note a_log a_data a_closed];
   try (rewrite <- app_assoc; reflexivity); rewrite ?D; try (intros; eauto; fail);
   try (intros d' Q; injection Q as <-; cbn; try discriminate; eauto; intros; right; right; unfold count_of, zlen; cbn; lia).
Qed.
Lemma step_J : forall s e, AI s -> AJ s -> AJ (astep s e).
Proof.
  intros s e H J. destruct e as [now period count handler|now|ok| |n|n| | |]; cbn [astep].
  - destruct (a_up s); [|exact J]. unfold enable.
    assert (G : AJ (note s [ORefused])).
    { apply (keep_J s _ [ORefused] J); cbn [note a_log a_data a_closed]; eauto.
      - intros [Q|[]]; discriminate.
      - intros d D C Q N. left. exists d. conj; auto. apply (in_snoc _ _ [ORefused]) in Q; auto. intros y [<-|[]]. discriminate. }
    destruct (_ || _); [exact G|]. destruct (a_data s) as [d|] eqn:D; [exact G|].
    apply (keep_J s _ [OEnabled count] J); cbn [note a_log a_data a_closed]; rewrite ?D; eauto; try (intros d' Q; injection Q as <-; cbn; try discriminate).
    intros _ Q. apply (in_snoc _ _ [OEnabled count]) in Q; [|intros y [<-|[]]; discriminate]. destruct (j_chan s J Q) as (d' & D'). congruence.
  - destruct (a_data s) as [d|] eqn:D; [|exact J]. destruct (d_event d) eqn:EV; try exact J.
    assert (DC : d_conn d = true) by (destruct (conn_dec d) as [X|X]; [exact X|]; destruct (i_refs s H d D) as (_ & _ & _ & R); destruct (R X); congruence).
    destruct (i_event s H d D) as [_ E2]. specialize (E2 EV). pose proof (chan_data s d H D DC E2) as NC.
    assert (K : forall s' d' o, a_log s' = a_log s ++ [o] -> a_data s' = Some d' -> a_closed s' = a_closed s -> o <> OChannel true -> d_conn d' = true -> d_chan d' = false ->
              (d_progress d' = true -> d_progress d = true \/ o = OAsked) -> AJ s').
    { intros s' d' o L D' C O Q1 Q2 Q3. apply (keep_J s s' [o] J L); rewrite ?D'; try (intros; eauto; fail).
      - intros x Q P. injection Q as <-. destruct (Q3 P) as [X|X]; [left; eauto|right; now left].
      - intros x Q _ X. exfalso. rewrite L in X. apply (in_snoc _ _ [o]) in X; auto. intros y [<-|[]]. exact O.
      - intros x Q. injection Q as <-. congruence.
      - intros x Q. injection Q as <-. congruence.
    }
    unfold create_channel. rewrite E2. destruct (a_up s) eqn:U; cbn [negb]; [|eapply K; try reflexivity; cbn; auto; discriminate].
    destruct (d_progress d) eqn:PR; cbn [negb]; [|eapply K; try reflexivity; cbn; auto; discriminate].
    destruct (d_seen d <? a_bytes s); [eapply K; try reflexivity; cbn; auto; discriminate|].
    destruct (d_maxfail d <=? now - d_started d); [rewrite <- (tries_id d) at 1; now apply trigger_J|].
    cbv zeta. destruct (_ =? 0); [now apply trigger_J|]. eapply K; try reflexivity; cbn; auto; discriminate.
  - destruct (a_data s) as [d|] eqn:D; [|exact J]. destruct (a_asked s) eqn:AS; [|exact J]. unfold channel_created. destruct (conn_dec d) as [DC|DC]; rewrite DC; cbn [negb].
    + pose proof (i_asked s H d D DC AS) as CF. pose proof (chan_data s d H D DC CF) as NC. destruct ok; cbn [negb].
      * apply (keep_J s _ [OChannel true; OLook] J); cbn [note a_log a_data a_closed]; rewrite ?D; eauto; try (intros d' Q; injection Q as <-; cbn; try discriminate; auto). congruence.
      * apply (keep_J s _ [OChannel false] J); cbn [note with_data with_event a_log a_data a_closed]; rewrite ?D; eauto; try (intros d' Q; injection Q as <-; cbn; try discriminate; eauto).
        intros _ Q. exfalso. apply (in_snoc _ _ [OChannel false]) in Q; auto. intros y [<-|[]]. discriminate.
    + apply (keep_J s _ [] J); cbn [a_log a_data a_closed]; rewrite ?app_nil_r, ?D; eauto; try contradiction. intros d' Q C X N. injection Q as <-. congruence.
  - destruct (a_data s) as [d|] eqn:D; [|exact J]. destruct (d_event d) eqn:EV; try exact J.
    assert (DC : d_conn d = true) by (destruct (conn_dec d) as [X|X]; [exact X|]; destruct (i_refs s H d D) as (_ & _ & _ & R); destruct (R X); congruence).
    destruct (i_event s H d D) as [E1 _]. specialize (E1 EV). pose proof (j_made s J d D E1) as MD.
    assert (K : forall s' d' new, a_log s' = a_log s ++ new -> a_data s' = Some d' -> a_closed s' = a_closed s -> d_conn d' = true -> d_chan d' = true -> d_progress d' = d_progress d ->
              (d_event d' = ECheck \/ In ODrop new) -> AJ s').
    { intros s' d' new L D' C Q1 Q2 Q3 Q4. apply (keep_J s s' new J L); rewrite ?D'; try (intros; eauto; fail).
      - intros x Q P. injection Q as <-. left. exists d. split; congruence.
      - intros x Q _ _ N. injection Q as <-. right. split; [|exact Q2]. destruct Q4 as [X|X]; [exact X|]. exfalso. apply N. rewrite L. apply in_app_iff. now right.
      - intros x Q. injection Q as <-. congruence.
    }
    unfold do_check. rewrite E1. cbn [andb]. destruct (a_up s) eqn:U; cbn [negb]; [|eapply K; try reflexivity; cbn; auto].
    destruct (d_seen d <? a_bytes s); [eapply K; try reflexivity; cbn; auto|].
    destruct (d_count d <=? a_pending s); [rewrite <- (tries_id d) at 1; now apply trigger_J|].
    destruct (a_open s); eapply K; try reflexivity; cbn; auto.
  - destruct (_ && _); [|exact J]. apply (keep_J s _ [OGot n] J); cbn [note a_log a_data a_closed]; eauto.
    + intros [Q|[]]; discriminate.
    + intros d D C Q N. left. exists d. conj; auto. apply (in_snoc _ _ [OGot n]) in Q; auto. intros y [<-|[]]. discriminate.
  - destruct (_ && _); [|exact J]. apply (keep_J s _ [OGot n; OReply] J); cbn [note a_log a_data a_closed]; eauto.
    + intros [Q|[Q|[]]]; discriminate.
    + intros d D C Q N. left. exists d. conj; auto. apply (in_snoc _ _ [OGot n; OReply]) in Q; auto. intros y [<-|[<-|[]]]; discriminate.
  - apply (keep_J s _ [] J); cbn [a_log a_data a_closed]; rewrite ?app_nil_r; eauto; try contradiction. intros d D C Q N. left. exists d. conj; auto.
  - apply (keep_J s _ [] J); cbn [a_log a_data a_closed]; rewrite ?app_nil_r; eauto; try contradiction. intros d D C Q N. left. exists d. conj; auto.
  - destruct (_ || _); [exact J|]. destruct (a_data s) as [d|] eqn:D; [destruct (a_hook s)|].
    + apply (keep_J s _ [ORelease] J); cbn [free_reference note with_event a_log a_data a_closed]; rewrite ?D; eauto; try (intros d' Q; injection Q as <-; cbn; try discriminate; eauto).
    + apply (keep_J s _ [] J); cbn [a_log a_data a_closed]; rewrite ?app_nil_r, ?D; eauto; try contradiction. intros d' Q C X N. left. exists d'. injection Q as <-. conj; auto.
    + apply (keep_J s _ [] J); cbn [a_log a_data a_closed]; rewrite ?app_nil_r, ?D; eauto; try contradiction; discriminate.
Qed.
Lemma run_J : forall es s, AI s -> AJ s -> AJ (arun s es).
Proof. induction es as [|e es IH]; intros s H J; [exact J|]. cbn. apply IH; [now apply step_AI|now apply step_J]. Qed.
