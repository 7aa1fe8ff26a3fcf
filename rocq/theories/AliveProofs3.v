(** The properties of the ALIVE check. *)
From Verif Require Import Base AliveModel AliveSpec AliveProofs AliveProofs2.

Lemma reach : forall b es, AI (arun (a0 b) es) /\ AJ (arun (a0 b) es).
Proof. intros b es. split; [apply run_AI, AI0|apply run_J; [apply AI0|apply AJ0]]. Qed.

(** ** No false alarm *)
Definition alljust (l : list aobs) : Prop := forall l1 o l2, l = l1 ++ o :: l2 -> gives_up o = true -> justified l1.
Lemma just_plain : forall new l, alljust l -> plainl new -> alljust (l ++ new).
Proof.
  induction new as [|x new IH]; intros l H P; [now rewrite app_nil_r|]. unfold plainl in P. cbn in P. apply andb_true_iff in P. destruct P as [P1 P2].
  replace (l ++ x :: new) with ((l ++ [x]) ++ new) by (rewrite <- app_assoc; reflexivity). apply IH; [|exact P2].
  intros l1 o l2 E G. destruct (exists_last (l := o :: l2)) as (r & z & R); [discriminate|]. rewrite R, app_assoc in E. apply app_inj_tail in E. destruct E as [E1 E2]. subst z.
  destruct r as [|y r]; [|injection R as <- R; apply (H l1 o r); [exact E1|exact G]].
  injection R as -> ->. rewrite G in P1. discriminate.
Qed.
Lemma just_up : forall l o, alljust l -> justified l -> alljust (l ++ [o; ORelease]).
Proof.
  intros l o H J. replace (l ++ [o; ORelease]) with ((l ++ [o]) ++ [ORelease]) by (rewrite <- app_assoc; reflexivity). apply just_plain; [|reflexivity].
  intros l1 p l2 E G. destruct (exists_last (l := p :: l2)) as (r & z & R); [discriminate|]. rewrite R, app_assoc in E. apply app_inj_tail in E. destruct E as [E1 E2]. subst z.
  destruct r as [|y r]; [|injection R as <- R; apply (H l1 p r); [exact E1|exact G]].
  rewrite app_nil_r in E1. now subst l1.
Qed.
Lemma run_just : forall es s, AI s -> AJ s -> alljust (a_log s) -> alljust (a_log (arun s es)).
Proof.
  induction es as [|e es IH]; intros s H J A; [exact A|]. cbn. apply IH; [now apply step_AI|now apply step_J|].
  destruct (step_grows s e H J) as [s' new L P|s' o G L Q]; rewrite L; [now apply just_plain|now apply just_up].
Qed.
Lemma alarm_thm : forall b es l1 o l2, a_log (arun (a0 b) es) = l1 ++ o :: l2 -> gives_up o = true -> justified l1.
Proof.
  intros b es l1 o l2 E G. refine (run_just es (a0 b) (AI0 b) (AJ0 b) _ l1 o l2 E G). intros [|] ? ? Q; discriminate.
Qed.

(** ** At most once *)
Lemma once_thm : forall b es, let s := arun (a0 b) es in
  count_of is_enabled (a_log s) <= 1 /\ count_of gives_up (a_log s) <= 1 /\ count_of is_release (a_log s) <= 1 /\
  a_refs s = count_of is_enabled (a_log s) - count_of is_release (a_log s) /\
  (a_closed s = true \/ 1 <= count_of gives_up (a_log s) -> a_refs s = 0).
Proof.
  intros b es s. destruct (reach b es) as [H J]. fold s in H, J. destruct (a_data s) as [d|] eqn:D.
  - destruct (i_count s H d D) as [_ C]. destruct (i_refs s H d D) as (R1 & _ & R3 & _). destruct (i_once s H d D) as [O1 O2].
    rewrite C, R1, R3. destruct (d_conn d) eqn:DC; conj; try lia. intros [Q|Q].
    + destruct (i_closed s H Q) as [_ X]. rewrite (X d D) in DC. discriminate.
    + rewrite O2 in Q by reflexivity. lia.
  - destruct (i_none s H D) as (R & _ & _ & _ & _ & G & Q & _ & E & _). rewrite R, G, Q, E. conj; lia.
Qed.

(** ** A peer that does not answer is found *)
Lemma silent_step : forall s e, AI s -> AJ s -> a_up s = true -> a_open s = true -> In (OChannel true) (a_log s) -> ~ In ODrop (a_log s) ->
  count_of gives_up (a_log s) = 0 -> silent e = true ->
  let s' := astep s e in
  count_of gives_up (a_log s') = 1 \/
  (a_up s' = true /\ a_open s' = true /\ In (OChannel true) (a_log s') /\ ~ In ODrop (a_log s') /\ count_of gives_up (a_log s') = 0 /\
   enabled_with (a_log s') = enabled_with (a_log s) /\
   if is_check e then
     match enabled_with (a_log s) with
     | Some n => (unanswered (a_log s) < n /\ unanswered (a_log s') = unanswered (a_log s) + 1 /\ quiet (a_log s') = true) \/
                 (quiet (a_log s) = false /\ quiet (a_log s') = true /\ unanswered (a_log s') = unanswered (a_log s))
     | None => False
     end
   else unanswered (a_log s') = unanswered (a_log s) /\ quiet (a_log s') = quiet (a_log s)).
Proof.
  intros s e H J U OP CH ND G SI s'. destruct (j_chan s J CH) as (d & D). destruct (conn_dec d) as [DC|DC].
  2:{ exfalso. destruct (j_conn s J d D DC) as [Q|Q]; [destruct (i_closed s H Q); congruence|lia]. }
  destruct (j_check s J d D DC CH ND) as [EV CT]. destruct (i_count s H d D) as [C1 _]. destruct (i_pend s H d D DC) as (P1 & P2 & _). destruct (i_seen s H d D) as [S1 S2].
  assert (ND' : forall r, ~ In ODrop r -> ~ In ODrop (a_log s ++ r)) by (intros r X Q; apply in_app_iff in Q; tauto).
  destruct e; try discriminate; subst s'; cbn [astep is_check]; rewrite ?U, ?D, ?EV.
  - right. unfold enable. rewrite D. assert (X : astep s (AEnable now period count handler) = note s [ORefused]) by (cbn; rewrite U; unfold enable; rewrite D; destruct (_ || _); reflexivity).
    replace (if (period <=? 0) || (count <? 0) then note s [ORefused] else note s [ORefused]) with (note s [ORefused]) by (destruct (_ || _); reflexivity).
    cbn [note a_up a_open a_log]. rewrite count_app, enabled_app, unanswered_app, quiet_app, C1. cbn. conj; auto; try lia.
    + apply in_app_iff. now left.
    + apply ND'. intros [Q|[]]. discriminate.
  - right. conj; auto.
  - unfold do_check. rewrite U, CT. cbn [negb andb]. destruct (d_seen d <? a_bytes s) eqn:SB.
    + right. apply Z.ltb_lt in SB. cbn [note with_data a_up a_open a_log]. rewrite count_app, enabled_app, unanswered_app, quiet_app, C1. cbn. conj; auto; try lia.
      * apply in_app_iff. now left.
      * apply ND'. intros [Q|[]]. discriminate.
    + apply Z.ltb_ge in SB. destruct (d_count d <=? a_pending s) eqn:CP.
      * left. rewrite <- (tries_id d) at 1. destruct (trigger_log s d H D DC (d_tries d) U) as (o & GU & L). rewrite L, count_app, G. unfold count_of. cbn. now rewrite GU.
      * right. apply Z.leb_gt in CP. rewrite OP. cbn [note a_up a_open a_log]. rewrite count_app, enabled_app, unanswered_app, quiet_app, C1. cbn. unfold unanswered, count_of. cbn. conj; auto; try lia.
        -- apply in_app_iff. now left.
        -- apply ND'. intros [Q|[Q|[]]]; discriminate.
        -- unfold count_of in G. lia.
        -- left. unfold unanswered, count_of in P2. unfold zlen in *. cbn. conj; auto; lia.
Qed.
Lemma up_mono : forall es s, AI s -> AJ s -> count_of gives_up (a_log s) = 1 -> count_of gives_up (a_log (arun s es)) = 1.
Proof.
  induction es as [|e es IH]; intros s H J G; [exact G|]. cbn. apply IH; [now apply step_AI|now apply step_J|].
  pose proof (step_grows s e H J) as GR. pose proof (step_AI s e H) as H'. remember (astep s e) as s1 eqn:S1. clear S1. destruct GR as [s' new L P|s' o GO L Q]; rewrite L, count_app, G.
  - cut (count_of gives_up new = 0); [lia|]. clear - P. induction new as [|x new IH]; [reflexivity|]. unfold plainl in *. cbn in P. apply andb_true_iff in P. destruct P as [P1 P2].
    unfold count_of in *. cbn. destruct (gives_up x); [discriminate|auto].
  - exfalso. assert (X : count_of gives_up (a_log s') <= 1).
    { destruct (a_data s') as [d|] eqn:D; [apply (i_once _ H' d D)|]. destruct (i_none _ H' D) as (_ & _ & _ & _ & _ & Y & _). lia. }
    rewrite L, count_app, G in X. unfold count_of in X. cbn in X. rewrite GO in X. unfold zlen in X. cbn in X. lia.
Qed.
Lemma silent_run : forall es s n, AI s -> AJ s -> a_up s = true -> a_open s = true -> In (OChannel true) (a_log s) -> ~ In ODrop (a_log s) ->
  count_of gives_up (a_log s) = 0 -> (forall e, In e es -> silent e = true) -> enabled_with (a_log s) = Some n ->
  Z.max 0 (n - unanswered (a_log s)) + (if quiet (a_log s) then 1 else 2) <= checks es ->
  count_of gives_up (a_log (arun s es)) = 1.
Proof.
  induction es as [|e es IH]; intros s n H J U OP CH ND G SI EN B.
  - exfalso. unfold checks, zlen in B. cbn in B. destruct (quiet (a_log s)); lia.
  - cbn. pose proof (step_AI s e H) as H'. pose proof (step_J s e H J) as J'.
    destruct (silent_step s e H J U OP CH ND G (SI e (or_introl eq_refl))) as [X|(U' & OP' & CH' & ND' & G' & EN' & X)]; [now apply up_mono|].
    assert (SI' : forall x, In x es -> silent x = true) by (intros x Q; apply SI; now right).
    apply (IH (astep s e) n H' J' U' OP' CH' ND' G' SI'); [congruence|]. unfold checks in *. cbn [filter] in B. destruct (is_check e).
    + rewrite EN in X. replace (zlen (e :: filter is_check es)) with (1 + zlen (filter is_check es)) in B by (unfold zlen; cbn [length]; lia).
      destruct X as [(X1 & X2 & X3)|(X1 & X2 & X3)]; rewrite X2 || rewrite X3; rewrite ?X3, ?X2; [|rewrite X1 in B]; destruct (quiet (a_log s)); lia.
    + destruct X as [X1 X2]. now rewrite X1, X2.
Qed.
Lemma detected_thm : forall b es1 es2 n, let s := arun (a0 b) es1 in
  a_up s = true -> a_open s = true -> In (OChannel true) (a_log s) -> ~ In ODrop (a_log s) -> enabled_with (a_log s) = Some n ->
  (forall e, In e es2 -> silent e = true) -> Z.max 0 (n - unanswered (a_log s)) + 2 <= checks es2 ->
  count_of gives_up (a_log (arun (a0 b) (es1 ++ es2))) = 1.
Proof.
  intros b es1 es2 n s U OP CH ND EN SI B. destruct (reach b es1) as [H J]. fold s in H, J. unfold arun. rewrite fold_left_app. fold (arun (a0 b) es1). fold s. fold (arun s es2).
  destruct (Z.eq_dec (count_of gives_up (a_log s)) 1) as [G|G]; [now apply up_mono|].
  apply (silent_run es2 s n H J U OP CH ND); auto; [|destruct (quiet (a_log s)); lia].
  destruct (j_chan s J CH) as (d & D). destruct (i_once s H d D) as [O _]. assert (0 <= count_of gives_up (a_log s)) by (unfold count_of, zlen; lia). lia.
Qed.

(** ** The channel that is never answered for *)
Record WT (now0 p c : Z) (s : ast) : Prop := mkWT {
  w_up : a_up s = true; w_data : exists d, a_data s = Some d /\ d_event d = ECreate /\ d_conn d = true /\ d_chan d = false /\ d_started d = now0 /\ d_maxfail d = Z.max 3 ((c * p) / 1000000) }.
Definition asked_data (s : ast) : bool := match a_data s with Some d => d_progress d | None => false end.
Definition seen_all (s : ast) : bool := match a_data s with Some d => a_bytes s <=? d_seen d | None => false end.
Lemma wait_step : forall now0 p c s e, AI s -> AJ s -> WT now0 p c s -> waiting e = true ->
  (WT now0 p c (astep s e) /\
    forall t, e = ACreate t -> asked_data (astep s e) = true /\ (seen_all s = true -> seen_all (astep s e) = true) /\
      (asked_data s = true -> seen_all (astep s e) = true) /\
      (asked_data s = true -> seen_all s = true -> t - now0 < Z.max 3 ((c * p) / 1000000))) \/
  count_of gives_up (a_log (astep s e)) = 1.
Proof.
  intros now0 p c s e H J [U (d & D & EV & DC & CF & ST & MF)] W. destruct (i_once s H d D) as [_ O2]. specialize (O2 DC).
  destruct e; try discriminate; cbn [astep]; rewrite ?U, ?D, ?EV.
  - left. unfold enable. rewrite D. split; [|discriminate].
    replace (if (period <=? 0) || (count <? 0) then note s [ORefused] else note s [ORefused]) with (note s [ORefused]) by (destruct (_ || _); reflexivity).
    constructor; cbn; auto. exists d. conj; auto.
  - unfold create_channel. rewrite U, CF. cbn [negb]. destruct (d_progress d) eqn:PR; cbn [negb].
    + destruct (d_seen d <? a_bytes s) eqn:SB.
      * left. split; [constructor; cbn; auto; eexists; split; [reflexivity|]; cbn; conj; auto|]. intros t Q. unfold asked_data, seen_all. rewrite D. cbn. conj; auto.
        -- intros _. apply Z.leb_refl.
        -- intros _. apply Z.leb_refl.
        -- intros _ Q2. apply Z.leb_le in Q2. apply Z.ltb_lt in SB. lia.
      * apply Z.ltb_ge in SB. destruct (d_maxfail d <=? now - d_started d) eqn:TM.
        -- right. rewrite <- (tries_id d) at 1. destruct (trigger_log s d H D DC (d_tries d) U) as (o & GU & L). rewrite L, count_app, O2. unfold count_of. cbn. now rewrite GU.
        -- apply Z.leb_gt in TM. cbv zeta. destruct (_ =? 0).
           ++ right. destruct (trigger_log s d H D DC (d_tries d - 1) U) as (o & GU & L). rewrite L, count_app, O2. unfold count_of. cbn. now rewrite GU.
           ++ left. split; [constructor; cbn; auto; eexists; split; [reflexivity|]; cbn; conj; auto|]. intros t Q. injection Q as <-. unfold asked_data, seen_all. rewrite D. cbn. conj; auto.
              ** intros _. apply Z.leb_le. lia.
              ** intros _ _. rewrite <- MF. lia.
    + left. split; [constructor; cbn; auto; eexists; split; [reflexivity|]; cbn; conj; auto|]. intros t Q. unfold asked_data, seen_all. rewrite D. cbn. rewrite PR. conj; auto; discriminate.
  - left. split; [|discriminate]. constructor; eauto. exists d. conj; auto.
  - left. split; [|discriminate]. cbn [andb]. destruct (0 <? n); (constructor; cbn; auto; exists d; conj; auto).
Qed.
Lemma wait_run : forall es now0 p c s, AI s -> AJ s -> WT now0 p c s -> (forall e, In e es -> waiting e = true) ->
  WT now0 p c (arun s es) \/ count_of gives_up (a_log (arun s es)) = 1.
Proof.
  induction es as [|e es IH]; intros now0 p c s H J W A; [now left|]. cbn.
  destruct (wait_step now0 p c s e H J W (A e (or_introl eq_refl))) as [[W' _]|G].
  - apply IH; auto; [now apply step_AI|now apply step_J|]. intros x Q. apply A. now right.
  - right. apply up_mono; [now apply step_AI|now apply step_J|exact G].
Qed.
Lemma create_thm : forall b now0 p c h es t1 t2 t3, 0 < p -> 0 <= c -> (forall e, In e es -> waiting e = true) ->
  let lim := now0 + Z.max 3 ((c * p) / 1000000) in lim <= t1 -> lim <= t2 -> lim <= t3 ->
  count_of gives_up (a_log (arun (a0 b) (AEnable now0 p c h :: es ++ [ACreate t1; ACreate t2; ACreate t3]))) = 1.
Proof.
  intros b now0 p c h es t1 t2 t3 PP CC A lim T1 T2 T3. change (AEnable now0 p c h :: es ++ [ACreate t1; ACreate t2; ACreate t3]) with ([AEnable now0 p c h] ++ es ++ [ACreate t1; ACreate t2; ACreate t3]).
  unfold arun. rewrite !fold_left_app. set (s0 := fold_left astep [AEnable now0 p c h] (a0 b)). fold (arun s0 es).
  assert (H0 : AI s0) by (apply (run_AI [AEnable now0 p c h]), AI0). assert (J0 : AJ s0) by (apply (run_J [AEnable now0 p c h]); [apply AI0|apply AJ0]).
  assert (W0 : WT now0 p c s0).
  { unfold s0. cbn [fold_left astep]. cbn [a_up a0]. unfold enable. replace ((p <=? 0) || (c <? 0)) with false by (symmetry; apply orb_false_iff; split; [apply Z.leb_gt|apply Z.ltb_ge]; lia).
    cbn. constructor; cbn; auto. eexists. split; [reflexivity|]. cbn. conj; reflexivity. }
  set (s := arun s0 es). assert (H : AI s) by now apply run_AI. assert (J : AJ s) by now apply run_J.
  change (fold_left astep [ACreate t1; ACreate t2; ACreate t3] s) with (arun s [ACreate t1; ACreate t2; ACreate t3]).
  destruct (wait_run es now0 p c s0 H0 J0 W0 A) as [W|G]; [|now apply up_mono]. fold s in W.
  change (arun s [ACreate t1; ACreate t2; ACreate t3]) with (arun (astep s (ACreate t1)) [ACreate t2; ACreate t3]).
  pose proof (step_AI s (ACreate t1) H) as H1. pose proof (step_J s (ACreate t1) H J) as J1.
  destruct (wait_step now0 p c s (ACreate t1) H J W eq_refl) as [[W1 K1]|G]; [|now apply up_mono]. destruct (K1 t1 eq_refl) as (K11 & _).
  set (s1 := astep s (ACreate t1)) in *. change (arun s1 [ACreate t2; ACreate t3]) with (arun (astep s1 (ACreate t2)) [ACreate t3]).
  pose proof (step_AI s1 (ACreate t2) H1) as H2. pose proof (step_J s1 (ACreate t2) H1 J1) as J2.
  destruct (wait_step now0 p c s1 (ACreate t2) H1 J1 W1 eq_refl) as [[W2 K2]|G]; [|now apply up_mono]. destruct (K2 t2 eq_refl) as (K21 & _ & K23 & _).
  set (s2 := astep s1 (ACreate t2)) in *. change (arun s2 [ACreate t3]) with (astep s2 (ACreate t3)).
  destruct (wait_step now0 p c s2 (ACreate t3) H2 J2 W2 eq_refl) as [[W3 K3]|G]; [|exact G]. destruct (K3 t3 eq_refl) as (_ & _ & _ & K34).
  specialize (K34 K21 (K23 K11)). subst lim. lia.
Qed.

(** ** The check that stops without a word *)
Definition stopped (s : ast) : Prop := exists d, a_data s = Some d /\ d_event d = ENone /\ a_asked s = false.
Lemma stopped_step : forall s e, stopped s -> stopped (astep s e) /\ count_of gives_up (a_log (astep s e)) = count_of gives_up (a_log s).
Proof.
  intros s e (d & D & E & A). assert (ID : stopped s) by (exists d; auto).
  destruct e as [now period count handler|now|ok| |n|n| | |]; cbn [astep]; rewrite ?D, ?E, ?A; auto.
  - destruct (a_up s); [|auto]. unfold enable. rewrite D. replace (if (period <=? 0) || (count <? 0) then note s [ORefused] else note s [ORefused]) with (note s [ORefused]) by (destruct (_ || _); reflexivity).
    split; [exists d; auto|]. cbn. rewrite count_app. cbn. lia.
  - destruct (_ && _); [|auto]. split; [exists d; auto|]. cbn. rewrite count_app. cbn. lia.
  - destruct (_ && _); [|auto]. split; [exists d; auto|]. cbn. rewrite count_app. cbn. lia.
  - split; [exists d; auto|reflexivity].
  - split; [exists d; auto|reflexivity].
  - destruct (_ || _); [auto|]. destruct (a_hook s); [|split; [exists d; auto|reflexivity]]. split; [eexists; cbn; auto|]. cbn. rewrite count_app. cbn. lia.
Qed.
Lemma stopped_run : forall es s, stopped s -> count_of gives_up (a_log (arun s es)) = count_of gives_up (a_log s).
Proof. induction es as [|e es IH]; intros s S0; [reflexivity|]. change (arun s (e :: es)) with (arun (astep s e) es). destruct (stopped_step s e S0) as [S1 E]. rewrite IH; auto. Qed.
Lemma stopped_from : forall b es1 es2, stopped (arun (a0 b) es1) -> count_of gives_up (a_log (arun (a0 b) (es1 ++ es2))) = count_of gives_up (a_log (arun (a0 b) es1)).
Proof. intros b es1 es2 S0. unfold arun at 1. rewrite fold_left_app. now apply stopped_run. Qed.

(** ** Enabled once *)
Lemma enabled_mono : forall es s n, enabled_with (a_log s) = Some n -> AI s -> AJ s -> enabled_with (a_log (arun s es)) = Some n.
Proof.
  induction es as [|e es IH]; intros s n E H J; [exact E|]. cbn. apply IH; [|now apply step_AI|now apply step_J].
  destruct (step_grows s e H J) as [s' new L P|s' o GO L Q]; rewrite L, enabled_app, E; reflexivity.
Qed.
Lemma again_thm : forall b es now p c h, let s := arun (a0 b) es in
  a_up s = true -> count_of is_enabled (a_log s) = 1 -> a_log (astep s (AEnable now p c h)) = a_log s ++ [ORefused].
Proof.
  intros b es now p c h s U C. destruct (reach b es) as [H J]. fold s in H, J. destruct (a_data s) as [d|] eqn:D.
  - cbn [astep]. rewrite U. unfold enable. rewrite D. destruct (_ || _); reflexivity.
  - destruct (i_none s H D) as (_ & _ & _ & _ & _ & _ & _ & _ & E & _). lia.
Qed.

Lemma pinged_thm : forall b es l1 o l2, a_log (arun (a0 b) es) = l1 ++ o :: l2 -> gives_up o = true ->
  (forall n, enabled_with l1 = Some n -> 0 < n) -> In (OChannel true) l1 -> In OPing l1.
Proof.
  intros b es l1 o l2 E G N C. destruct (alarm_thm b es l1 o l2 E G) as (_ & n & EN & P & _). specialize (N n EN). specialize (P C).
  assert (Q : 0 < count_of is_ping l1) by (unfold unanswered in P; assert (0 <= count_of is_reply l1) by (unfold count_of, zlen; lia); lia).
  unfold count_of in Q. destruct (filter is_ping l1) as [|x r] eqn:F; [discriminate|]. assert (X : In x (filter is_ping l1)) by (rewrite F; now left).
  apply filter_In in X. destruct X as [X1 X2]. now destruct x.
Qed.

(** ** Witnesses *)
Definition w_refused : list aev := [AEnable 0 1000000 3 true; ACreate 1; ABytes 50; ACreated false].
Lemma refused_witness : In (OEnabled 3) (a_log (arun (a0 0) w_refused)) /\ a_up (arun (a0 0) w_refused) = true /\ In (OChannel false) (a_log (arun (a0 0) w_refused)) /\
  forall es2, count_of gives_up (a_log (arun (a0 0) (w_refused ++ es2))) = 0.
Proof.
  split; [vm_compute; tauto|]. split; [reflexivity|]. split; [vm_compute; tauto|]. intros es2. rewrite stopped_from; [reflexivity|].
  eexists. split; [reflexivity|]. split; reflexivity.
Qed.
Definition w_closed : list aev := [AEnable 0 1000000 3 true; ACreate 1; ABytes 50; ACreated true; ACheck; AChanDown; ACheck].
Lemma closed_witness : In (OEnabled 3) (a_log (arun (a0 0) w_closed)) /\ a_up (arun (a0 0) w_closed) = true /\ In (OChannel true) (a_log (arun (a0 0) w_closed)) /\
  forall es2, count_of gives_up (a_log (arun (a0 0) (w_closed ++ es2))) = 0.
Proof.
  split; [vm_compute; tauto|]. split; [reflexivity|]. split; [vm_compute; tauto|]. intros es2. rewrite stopped_from; [reflexivity|].
  eexists. split; [reflexivity|]. split; reflexivity.
Qed.
Definition w_again : list aev := [AEnable 0 1000000 1 true; ACreate 1; ABytes 50; ACreated true; ACheck; ACheck].
Lemma again_witness : a_up (arun (a0 0) w_again) = true /\ In OFail (a_log (arun (a0 0) w_again)) /\ a_refs (arun (a0 0) w_again) = 0 /\
  forall now p c h, a_log (astep (arun (a0 0) w_again) (AEnable now p c h)) = a_log (arun (a0 0) w_again) ++ [ORefused].
Proof.
  split; [reflexivity|]. split; [vm_compute; tauto|]. split; [reflexivity|]. intros now p c h. apply again_thm; reflexivity.
Qed.
