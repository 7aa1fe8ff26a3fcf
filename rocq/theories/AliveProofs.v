(** Lemmas about the ALIVE check. *)
From Verif Require Import Base AliveModel AliveSpec.
Ltac conj := repeat match goal with |- _ /\ _ => split end.

Lemma count_app : forall p a b, count_of p (a ++ b) = count_of p a + count_of p b.
Proof. intros p a b. unfold count_of, zlen. rewrite filter_app, app_length. lia. Qed.
Lemma unanswered_app : forall a b, unanswered (a ++ b) = unanswered a + unanswered b.
Proof. intros a b. unfold unanswered. rewrite !count_app. lia. Qed.
Lemma quiet_app : forall a b, quiet (a ++ b) = fold_left quiet_step b (quiet a).
Proof. intros a b. unfold quiet. now rewrite fold_left_app. Qed.
Lemma enabled_app : forall a b, enabled_with (a ++ b) = match enabled_with a with Some n => Some n | None => enabled_with b end.
Proof. induction a as [|[] a IH]; intros b; cbn; auto. Qed.

Record AI (s : ast) : Prop := mkAI {
  i_none : a_data s = None -> a_refs s = 0 /\ a_hook s = false /\ a_asked s = false /\ a_pending s = 0 /\ enabled_with (a_log s) = None /\
           count_of gives_up (a_log s) = 0 /\ count_of is_release (a_log s) = 0 /\ unanswered (a_log s) = 0 /\ count_of is_enabled (a_log s) = 0 /\ ~ In (OChannel true) (a_log s);
  i_count : forall d, a_data s = Some d -> enabled_with (a_log s) = Some (d_count d) /\ count_of is_enabled (a_log s) = 1;
  i_refs : forall d, a_data s = Some d -> a_refs s = (if d_conn d then 1 else 0) /\ a_hook s = d_conn d /\
           count_of is_release (a_log s) = (if d_conn d then 0 else 1) /\ (d_conn d = false -> d_event d = ENone /\ d_chan d = false);
  i_once : forall d, a_data s = Some d -> count_of gives_up (a_log s) <= 1 /\ (d_conn d = true -> count_of gives_up (a_log s) = 0);
  i_pend : forall d, a_data s = Some d -> d_conn d = true -> 0 <= a_pending s /\ a_pending s = unanswered (a_log s) /\ (d_chan d = false -> a_pending s = 0 /\ ~ In (OChannel true) (a_log s));
  i_event : forall d, a_data s = Some d -> (d_event d = ECheck -> d_chan d = true) /\ (d_event d = ECreate -> d_chan d = false);
  i_asked : forall d, a_data s = Some d -> d_conn d = true -> a_asked s = true -> d_chan d = false;
  i_seen : forall d, a_data s = Some d -> d_seen d <= a_bytes s /\ quiet (a_log s) = (d_seen d =? a_bytes s);
  i_closed : a_closed s = true -> a_up s = false /\ forall d, a_data s = Some d -> d_conn d = false
}.
Lemma AI0 : forall n, AI (a0 n).
Proof. intros n. constructor; cbn; try discriminate. intros _. conj; try reflexivity. intros []. Qed.

Ltac obs := rewrite ?count_app, ?unanswered_app, ?quiet_app, ?enabled_app, ?in_app_iff.
Ltac zl := solve [repeat match goal with
  | Q : @eq bool _ _ -> _ |- _ => clear Q | Q : @eq bool _ _ |- _ => clear Q | Q : @eq evkind _ _ -> _ |- _ => clear Q | Q : forall _, _ |- _ => clear Q end; lia].
(** Closes what each step leaves, from the invariant of the state before. *)
Ltac fin :=
  constructor; cbn [free_reference note with_data with_event with_tries with_seen a_data a_log a_refs a_hook a_asked a_pending a_bytes a_closed a_up d_conn d_event d_chan d_seen d_count];
  try match goal with D : a_data ?s = Some _ |- _ => rewrite ?D end; try match goal with |- Some _ = None -> _ => discriminate end;
  [intros x Q; injection Q as <-; cbn; obs; cbn; match goal with C1 : enabled_with _ = _, C2 : count_of is_enabled _ = _ |- _ => rewrite C1, ?C2; split; reflexivity end
  |intros x Q; injection Q as <-; cbn; obs; unfold count_of in *; cbn; conj; first [assumption | congruence | discriminate | (intros; split; congruence) | zl | (intros; split; auto; congruence) |
     match goal with DC : d_conn ?d = _, R : _ = (if d_conn ?d then _ else _) |- _ => rewrite DC in R; zl end |
     match goal with |- context [d_conn ?d] => destruct (d_conn d); first [zl|congruence] end]
  |intros x Q; injection Q as <-; cbn; obs; unfold count_of in *; cbn; split;
     [zl | first [discriminate | (intros QC; match goal with O2 : _ = true -> _ |- _ => specialize (O2 QC); zl | O2 : true = true -> _ |- _ => specialize (O2 eq_refl); zl end)]]
  |intros x Q; injection Q as <-; cbn; obs; try discriminate; intros QC;
     let P1 := fresh "P" in let P2 := fresh "P" in let P3 := fresh "P" in let P4 := fresh "P" in let P5 := fresh "P" in let Q2 := fresh "Q" in
     match goal with P : _ = true -> 0 <= _ /\ _ |- _ => destruct (P ltac:(first [exact QC | assumption | reflexivity])) as (P1 & P2 & P3) end;
     unfold unanswered, count_of in *; cbn; split; [zl|split;
       [first [zl | (destruct P3 as [P4 P5]; [congruence|]; zl)]
       |first [discriminate | (intros Q2; congruence) | (intros Q2; destruct P3 as [P4 P5]; [congruence|]; clear Q2; split; [zl|]; first [assumption | (intros [Q3|Q3]; [auto|clear - Q3; cbn in Q3; intuition discriminate])])]]]
  |intros x Q; injection Q as <-; cbn; split; first [discriminate | congruence | auto]
  |intros x Q; injection Q as <-; cbn; first [discriminate | congruence | (intros; congruence) | auto]
  |intros x Q; injection Q as <-; cbn; obs; cbn; split; [zl|];
     first [assumption | (symmetry; apply Z.eqb_eq; zl) | (symmetry; apply Z.eqb_neq; zl)]
  |intros Q; try match goal with CL : _ = true -> _ = false /\ d_conn _ = false |- _ => destruct (CL ltac:(first [exact Q|assumption])) end;
     first [congruence | (split; [first [reflexivity|assumption|congruence]|]; intros x Q'; injection Q' as <-; cbn; first [reflexivity|assumption|congruence])]].
Lemma conn_dec : forall d, d_conn d = true \/ d_conn d = false.
Proof. intros d. destruct (d_conn d); auto. Qed.
Lemma step_AI : forall s e, AI s -> AI (astep s e).
Proof.
  intros s e H. pose proof (i_none s H) as N. destruct (a_data s) as [d|] eqn:D.
  2:{ specialize (N eq_refl). destruct N as (N1 & N2 & N3 & N4 & N5 & N6 & N7 & N8 & N9 & N10).
      destruct e as [now period count handler|now|ok| |n|n| | |]; cbn [astep]; rewrite ?D; try exact H.
      - destruct (a_up s) eqn:U; [|exact H]. unfold enable. rewrite D. destruct ((period <=? 0) || (count <? 0)) eqn:B.
        + constructor; cbn [note a_data a_log a_refs a_hook a_asked a_pending a_bytes a_closed a_up]; try (intros d Q; congruence).
          * intros _. obs. cbn. rewrite N5. conj; auto; try lia. intros [Q|Q]; [auto|clear - Q; cbn in Q; intuition discriminate].
          * intros Q. destruct (i_closed s H Q) as [Q1 Q2]. split; [congruence|]. intros x Q3. congruence.
        + constructor; cbn [note a_data a_log a_refs a_hook a_asked a_pending a_bytes a_closed a_up]; try discriminate.
          * intros d Q. injection Q as <-. obs. cbn. rewrite N5. split; [reflexivity|]. unfold count_of in *. cbn. lia.
          * intros d Q. injection Q as <-. obs. cbn. unfold count_of in *; cbn; conj; try lia; try discriminate.
          * intros d Q. injection Q as <-. obs. cbn. unfold count_of in *. cbn. lia.
          * intros d Q. injection Q as <-. obs. cbn. intros _. conj; auto; try lia. intros _. split; [auto|]. intros [Q|Q]; [auto|clear - Q; cbn in Q; intuition discriminate].
          * intros d Q. injection Q as <-. cbn. split; [discriminate|auto].
          * intros d Q. injection Q as <-. cbn. congruence.
          * intros d Q. injection Q as <-. obs. cbn. split; [lia|]. now rewrite Z.eqb_refl.
          * intros Q. destruct (i_closed s H Q) as [Q1 Q2]. congruence.
      - destruct (a_up s && (0 <? n)) eqn:B; [|exact H].
        constructor; cbn [note a_data a_log a_refs a_hook a_asked a_pending a_bytes a_closed a_up]; try (intros d Q; congruence).
        + intros _. obs. cbn. rewrite N5. conj; auto; try lia. intros [Q|Q]; [auto|clear - Q; cbn in Q; intuition discriminate].
        + intros Q. destruct (i_closed s H Q) as [Q1 Q2]. split; [congruence|]. intros x Q3. congruence.
      - replace (0 <? a_pending s) with false by (rewrite N4; reflexivity). rewrite andb_false_r. exact H.
      - constructor; cbn [note a_data a_log a_refs a_hook a_asked a_pending a_bytes a_closed a_up]; try (intros d Q; congruence); try (intros _; conj; auto; fail).
        intros Q. destruct (i_closed s H Q) as [Q1 Q2]. split; [congruence|]. intros x Q3. congruence.
      - constructor; cbn [note a_data a_log a_refs a_hook a_asked a_pending a_bytes a_closed a_up]; try (intros d Q; congruence); try (intros _; conj; auto; fail).
        intros Q. split; [reflexivity|]. intros d Q'. congruence.
      - destruct (a_up s || a_closed s) eqn:B; [exact H|]. apply orb_false_iff in B. destruct B.
        constructor; cbn [note a_data a_log a_refs a_hook a_asked a_pending a_bytes a_closed a_up]; try (intros d Q; congruence); try (intros _; conj; auto; fail).
        intros Q. split; [assumption|]. intros d Q'. congruence. }
  clear N. destruct (i_count s H d D) as [C1 C2]. destruct (i_refs s H d D) as (R1 & R2 & R3 & R4). destruct (i_once s H d D) as [O1 O2].
  pose proof (i_pend s H d D) as P. destruct (i_event s H d D) as [E1 E2]. pose proof (i_asked s H d D) as K. destruct (i_seen s H d D) as [S1 S2].
  assert (CL : a_closed s = true -> a_up s = false /\ d_conn d = false) by (intros Q; destruct (i_closed s H Q) as [Q1 Q2]; auto).
  (* trigger_failure *)
  assert (TF : forall n, d_conn d = true -> AI (trigger_failure s (with_tries d n))).
  { intros n DC. rewrite DC in *. specialize (P eq_refl). specialize (O2 eq_refl). destruct P as (P1 & P2 & P3). unfold trigger_failure. rewrite R2. cbn [with_tries with_event d_handler a_up].
    destruct (d_handler d) eqn:DH; [|destruct (a_up s) eqn:U];
    (constructor; cbn [free_reference note with_event with_tries a_data a_log a_refs a_hook a_asked a_pending a_bytes a_closed a_up d_conn d_event d_chan d_seen d_count]; try discriminate;
     [intros x Q; injection Q as <-; cbn; obs; cbn; rewrite C1; split; [reflexivity|zl]
     |intros x Q; injection Q as <-; cbn; obs; cbn; rewrite ?R3; unfold count_of in *; cbn; conj; auto; zl
     |intros x Q; injection Q as <-; cbn; obs; unfold count_of in *; cbn; split; [zl|discriminate]
     |intros x Q; injection Q as <-; cbn; discriminate
     |intros x Q; injection Q as <-; cbn; split; discriminate
     |intros x Q; injection Q as <-; cbn; discriminate
     |intros x Q; injection Q as <-; cbn; obs; cbn; split; auto
     |intros Q; destruct (CL Q); split; [congruence|]; intros x Q'; injection Q' as <-; reflexivity]). }
  assert (TF' : d_conn d = true -> AI (trigger_failure s d)). { intros DC. generalize (TF (d_tries d) DC). unfold with_tries. now destruct d. }
  destruct e as [now period count handler|now|ok| |n|n| | |]; cbn [astep]; rewrite ?D.
  - destruct (a_up s) eqn:U; [|exact H]. unfold enable. rewrite D. assert (G : AI (note s [ORefused])) by fin.
    destruct (_ || _); exact G.
  - destruct (d_event d) eqn:EV; try exact H. assert (DC : d_conn d = true) by (destruct (d_conn d); [reflexivity|]; destruct (R4 eq_refl); congruence). specialize (E2 eq_refl).
    unfold create_channel. rewrite E2. destruct (a_up s) eqn:U; cbn [negb]; [|fin].
    destruct (d_progress d) eqn:PR; cbn [negb]; [|fin].
    destruct (d_seen d <? a_bytes s) eqn:SB; [fin|]. 
    apply Z.ltb_ge in SB. destruct (d_maxfail d <=? now - d_started d); [now apply TF'|]. cbv zeta. destruct (d_tries (with_tries d (d_tries d - 1)) =? 0); [now apply TF|]. fin.
  - destruct (a_asked s) eqn:AS; [|exact H]. unfold channel_created. destruct (conn_dec d) as [DC|DC]; rewrite DC; cbn [negb]; [|fin].
    specialize (K DC eq_refl). destruct ok; cbn [negb]; fin.
  - destruct (d_event d) eqn:EV; try exact H. assert (DC : d_conn d = true) by (destruct (d_conn d); [reflexivity|]; destruct (R4 eq_refl); congruence). specialize (E1 eq_refl).
    unfold do_check. rewrite E1. cbn [andb]. destruct (a_up s) eqn:U; cbn [negb]; [|fin].
    destruct (d_seen d <? a_bytes s) eqn:SB; [fin|]. 
    apply Z.ltb_ge in SB. destruct (d_count d <=? a_pending s); [now apply TF'|]. destruct (a_open s) eqn:OP; fin.
  - destruct (a_up s && (0 <? n)) eqn:B; [|exact H]. apply andb_true_iff in B. destruct B as [U B]. apply Z.ltb_lt in B. fin.
  - destruct (a_up s && (0 <? n) && (0 <? a_pending s) && a_open s) eqn:B; [|exact H]. apply andb_true_iff in B. destruct B as [B OP]. apply andb_true_iff in B. destruct B as [B PP]. apply andb_true_iff in B. destruct B as [U B]. apply Z.ltb_lt in B, PP. fin.
  - fin.
  - fin.
  - destruct (a_up s || a_closed s) eqn:B; [exact H|]. apply orb_false_iff in B. destruct B as [U CC]. rewrite R2. destruct (conn_dec d) as [DC|DC]; rewrite DC; fin.
Qed.
Lemma run_AI : forall es s, AI s -> AI (arun s es).
Proof. induction es as [|e es IH]; intros s H; [exact H|]. cbn. apply IH. now apply step_AI. Qed.
