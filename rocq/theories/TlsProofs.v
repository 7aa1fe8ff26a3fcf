(** Proofs about TLS. *)
From Verif Require Import Base TlsModel TlsSpec FlowModel CodecModel.
Ltac conj := repeat match goal with |- _ /\ _ => split end.

(** * The listener *)
Lemma lrun_snoc l e : lrun (l ++ [e]) = lstep (lrun l) e.
Proof. unfold lrun. rewrite fold_left_app. reflexivity. Qed.
Lemma lrun_app l l' : lrun (l ++ l') = fold_left lstep l' (lrun l).
Proof. unfold lrun. apply fold_left_app. Qed.

(** The state while the flag is set: nothing changes. *)
Definition flagged (s : lst) : Prop := l_flag s = true /\ l_io s = Ssl /\ l_stage s = LNormal.
Lemma flagged_step s e : flagged s -> flagged (lstep s e) /\
  exists new, l_log (lstep s e) = l_log s ++ new /\ ~ In LProceed new /\ ~ In (LChecked false) new /\ Forall (fun o => ~ in_clear o) new.
Proof.
  intros (F & I0 & T). unfold lstep.
  assert (K : flagged s /\ exists new, l_log s = l_log s ++ new /\ ~ In LProceed new /\ ~ In (LChecked false) new /\ Forall (fun o => ~ in_clear o) new).
  { split; [split; auto|]. exists []. rewrite app_nil_r. conj; auto. }
  assert (N : forall o, o <> LProceed -> o <> LChecked false -> ~ in_clear o -> flagged (lnote s [o]) /\ exists new, l_log (lnote s [o]) = l_log s ++ new /\ ~ In LProceed new /\ ~ In (LChecked false) new /\ Forall (fun o => ~ in_clear o) new).
  { intros o A A' B. split; [split; auto|]. exists [o]. cbn [l_log lnote]. conj; auto; intros [C|[]]; auto. }
  destruct (l_up s) eqn:U; cbn [negb]; [|exact K].
  destruct e.
  - rewrite T, F, orb_true_r. cbn [orb]. apply N; [discriminate|discriminate|intros [?|?]; discriminate].
  - rewrite T. destruct some; [|exact K]. apply N; [discriminate|discriminate|]. rewrite I0. intros [?|?]; discriminate.
  - apply N; [discriminate|discriminate|]. rewrite I0. intros [?|?]; discriminate.
  - split; [split; auto|]. exists []. cbn [l_log]. rewrite app_nil_r. conj; auto.
Qed.
Lemma flagged_run l : forall s, flagged s -> flagged (fold_left lstep l s) /\
  exists new, l_log (fold_left lstep l s) = l_log s ++ new /\ ~ In LProceed new /\ ~ In (LChecked false) new /\ Forall (fun o => ~ in_clear o) new.
Proof.
  induction l as [|e l IH]; intros s H; cbn [fold_left].
  - split; auto. exists []. rewrite app_nil_r. conj; auto.
  - destruct (flagged_step s e H) as (H1 & n1 & L1 & P1 & Q1 & F1). destruct (IH _ H1) as (H2 & n2 & L2 & P2 & Q2 & F2).
    split; auto. exists (n1 ++ n2). rewrite L2, L1, app_assoc. conj; auto.
    + intro X. apply in_app_or in X. tauto.
    + intro X. apply in_app_or in X. tauto.
    + apply Forall_app. auto.
Qed.

(** Before it. *)
Definition LI (s : lst) : Prop :=
  (l_flag s = true -> flagged s) /\
  (l_flag s = false -> (l_stage s = LHandshake -> l_io s = Ssl) /\ (l_mask s = true -> False) /\ (l_stage s <> LNormal -> In LProceed (l_log s))).
Lemma accepted_LI s post : l_flag s = false -> l_io s = Ssl -> l_mask s = false -> LI (accepted s post).
Proof.
  intros F I0 M. unfold accepted. destruct post as [[]|]; split; cbn [l_flag l_io l_mask l_stage l_log]; intros H; try discriminate; try congruence;
    unfold flagged; cbn [l_flag l_io l_mask l_stage]; conj; auto; intros; congruence.
Qed.
Lemma step_LI s e : LI s -> LI (lstep s e).
Proof.
  intros [A B]. destruct (l_flag s) eqn:F.
  { destruct (flagged_step s e (A eq_refl)) as [H _]. split; intros G; [exact H|]. destruct H as [H _]. congruence. }
  destruct (B eq_refl) as (B1 & B2 & B3). clear A B.
  assert (K : LI s) by (split; intro G; [congruence|conj; auto]).
  unfold lstep. destruct (l_up s) eqn:U; cbn [negb]; [|exact K].
  assert (N : forall o, LI (lnote s o)).
  { intro o. split; cbn [l_flag lnote l_stage l_io l_mask l_log]; intro G; [congruence|conj; auto].
    intro X. apply in_or_app. left. auto. }
  destruct e.
  - destruct (l_stage s) eqn:T; [| |exact K];
      (destruct (l_mask s || l_flag s || negb ready); [apply N|]; destruct (negb accept); [apply N|];
       destruct (negb own && negb (cert && key)); [apply N|];
       split; cbn [l_flag l_stage l_io l_mask l_log]; intro G; [congruence|]; conj; auto;
       try discriminate; intros _; apply in_or_app; right; left; reflexivity).
  - destruct (l_stage s) eqn:T.
    + destruct some; auto.
    + destruct prepared; split; cbn [l_flag l_stage l_io l_mask l_log]; intro G; try congruence; conj; auto; try discriminate; try congruence.
      intros _. apply B3. discriminate.
    + assert (M : l_mask s = false) by (destruct (l_mask s); [destruct (B2 eq_refl)|reflexivity]).
      destruct a; auto.
      * apply accepted_LI; auto.
      * apply accepted_LI; auto.
      * split; cbn [l_flag l_stage l_io l_mask l_log]; intro G; [congruence|]. conj; auto; congruence.
  - apply N.
  - split; cbn [l_flag l_stage l_io l_mask l_log]; intro G; [congruence|]. conj; auto.
Qed.
Lemma run_LI l : LI (lrun l).
Proof.
  induction l as [|e l IH] using rev_ind.
  - unfold lrun, l0. cbn [fold_left]. split; cbn [l_flag l_stage l_mask l_log]; intro G; [discriminate|]. conj; auto; congruence.
  - rewrite lrun_snoc. apply step_LI. exact IH.
Qed.

Lemma once_thm : forall l l', l_flag (lrun l) = true ->
  l_flag (lrun (l ++ l')) = true /\
  exists new, l_log (lrun (l ++ l')) = l_log (lrun l) ++ new /\ ~ In LProceed new /\ Forall (fun o => ~ in_clear o) new.
Proof.
  intros l l' H. destruct (run_LI l) as [A _]. rewrite lrun_app.
  destruct (flagged_run l' _ (A H)) as ((F & _) & new & L & P & _ & C). split; auto. exists new. auto.
Qed.

Lemma secured_more log new : secured log -> ~ In (LChecked false) new -> Forall (fun o => ~ in_clear o) new -> secured (log ++ new).
Proof.
  intros (l1 & l2 & c & l3 & E & C & Q & F) H G. exists l1, l2, c, (l3 ++ new). conj; auto.
  - rewrite E. rewrite <- app_assoc. cbn [app]. rewrite <- app_assoc. cbn [app]. rewrite <- app_assoc. reflexivity.
  - intro X. apply in_app_or in X. tauto.
  - apply Forall_app. auto.
Qed.
Lemma secured_at log c : In LProceed log -> c = [] \/ c = [LChecked true] -> secured (log ++ LHandshaken :: c).
Proof.
  intros H C. destruct (in_split _ _ H) as (l1 & l2 & E). exists l1, l2, c, []. conj; auto.
  rewrite E, app_nil_r. rewrite <- app_assoc. reflexivity.
Qed.
Lemma secure_thm : forall l, never_zero l -> l_flag (lrun l) = true -> secured (l_log (lrun l)).
Proof.
  intros l. induction l as [|e l IH] using rev_ind; intros Z0 F; [discriminate|].
  assert (Z1 : never_zero l) by (intros a b c X; apply (Z0 a b c); apply in_or_app; auto).
  pose proof (run_LI l) as [A B]. rewrite lrun_snoc in *. destruct (l_flag (lrun l)) eqn:F0.
  { destruct (flagged_step _ e (A eq_refl)) as (_ & new & L & P & Q & C). rewrite L. apply secured_more; auto. }
  destruct (B eq_refl) as (B1 & B2 & B3). clear A B. remember (lrun l) as s eqn:Es. clear Es.
  unfold lstep in *. destruct (l_up s); cbn [negb] in *; [|congruence].
  destruct e; cbn [l_flag lnote] in F; try congruence.
  - destruct (l_stage s); [| |congruence];
      (destruct (l_mask s || l_flag s || negb ready); [cbn [l_flag lnote] in F; congruence|]; destruct (negb accept); [cbn [l_flag lnote] in F; congruence|];
       destruct (negb own && negb (cert && key)); cbn [l_flag lnote] in F; congruence).
  - destruct (l_stage s) eqn:T.
    + destruct some; cbn [l_flag lnote] in F; congruence.
    + destruct prepared; cbn [l_flag] in F; congruence.
    + specialize (B3 ltac:(discriminate)). destruct a; cbn [l_flag] in F; try congruence.
      * unfold accepted in *. destruct post as [[]|]; cbn [l_flag lnote l_log] in *; try congruence.
        -- rewrite <- app_assoc. cbn [app]. apply secured_at; auto.
        -- apply secured_at; auto.
      * destruct (Z0 some prepared post). apply in_or_app. right. left. reflexivity.
Qed.
Definition zero_run : list lev :=
  [EStart true true false true true; EReadable true true AOne None; EReadable true true AZero (Some true)].
Lemma zero_thm : exists l, l_flag (lrun l) = true /\ l_up (lrun l) = true /\ ~ In LHandshaken (l_log (lrun l)).
Proof. exists zero_run. cbn. conj; auto. intros [?|[?|[]]]; discriminate. Qed.

(** What goes in the clear after proceed. *)
Definition guarded (log : list lobs) : Prop := exists a b, log = a ++ LProceed :: b /\ ~ In LHandFailed b.
Definition safe (log : list lobs) : Prop :=
  forall a b d, log = a ++ LProceed :: b ++ LRead Clear :: d -> In LHandFailed b.
Lemma lobs_dec : forall x y : lobs, {x = y} + {x <> y}.
Proof. repeat decide equality. Qed.
Lemma safe_snoc log o : safe log -> (o = LRead Clear -> ~ guarded log) -> safe (log ++ [o]).
Proof.
  intros S0 H a b d E. destruct d as [|x d] using rev_ind.
  - replace (a ++ LProceed :: b ++ [LRead Clear]) with ((a ++ LProceed :: b) ++ [LRead Clear]) in E by (rewrite <- app_assoc; reflexivity).
    apply app_inj_tail in E. destruct E as [E O]. destruct (in_dec lobs_dec LHandFailed b) as [Y|N]; auto.
    exfalso. apply (H O). exists a, b. auto.
  - clear IHd. replace (a ++ LProceed :: b ++ LRead Clear :: d ++ [x]) with ((a ++ LProceed :: b ++ LRead Clear :: d) ++ [x]) in E
      by (rewrite <- app_assoc; cbn [app]; rewrite <- app_assoc; reflexivity).
    apply app_inj_tail in E. destruct E as [E _]. apply (S0 a b d E).
Qed.
Lemma guarded_snoc log o : o <> LProceed -> guarded (log ++ [o]) -> o <> LHandFailed /\ guarded log.
Proof.
  intros N (a & b & E & H). destruct b as [|x b] using rev_ind.
  - apply app_inj_tail in E. destruct E as [_ E]. congruence.
  - clear IHb. replace (a ++ LProceed :: b ++ [x]) with ((a ++ LProceed :: b) ++ [x]) in E by (rewrite <- app_assoc; reflexivity).
    apply app_inj_tail in E. destruct E as [E O]. subst x. split.
    + intro X. apply H. apply in_or_app. right. left. auto.
    + exists a, b. split; auto. intro X. apply H. apply in_or_app. auto.
Qed.
Definition GI (s : lst) : Prop := safe (l_log s) /\ (guarded (l_log s) -> l_up s = true -> l_stage s = LNormal -> l_io s = Ssl) /\ (l_stage s = LHandshake -> l_io s = Ssl).
Lemma GI_note s o up st i fl m : GI s -> o <> LProceed -> (o = LRead Clear -> ~ guarded (l_log s)) ->
  (guarded (l_log s) -> o <> LHandFailed -> up = true -> st = LNormal -> i = Ssl) -> (st = LHandshake -> i = Ssl) ->
  GI (mkL up st i fl m (l_log s ++ [o])).
Proof.
  intros (A & B & C) N H K J. split; [|split]; cbn [l_log l_up l_stage l_io]; auto.
  - apply safe_snoc; auto.
  - intros G U T. destruct (guarded_snoc _ _ N G) as [X Y]. auto.
Qed.
Lemma GI_accepted s post : GI s -> l_io s = Ssl -> GI (accepted s post).
Proof.
  intros K I0. unfold accepted. destruct post as [[]|].
  - apply GI_note; auto; try discriminate.
  - apply GI_note; auto; try discriminate.
  - destruct K as (A & B & C). split; [|split]; cbn [l_log l_up l_stage l_io]; auto.
Qed.
Lemma step_GI s e : GI s -> GI (lstep s e).
Proof.
  intros K. pose proof K as (A & B & C). unfold lstep. destruct (l_up s) eqn:U; cbn [negb]; [|exact K].
  destruct e.
  - assert (N : forall o, o = LRefuse \/ o = LError -> GI (lnote s [o])).
    { intros o O. unfold lnote. apply GI_note; auto; try (destruct O; subst; discriminate). }
    assert (P : forall i fl m, GI (mkL true LPrepare i fl m (l_log s ++ [LProceed]))).
    { intros. split; [|split]; cbn [l_log l_up l_stage l_io]; try discriminate. apply safe_snoc; auto; discriminate. }
    destruct (l_stage s) eqn:T; [| |exact K];
      (destruct (l_mask s || l_flag s || negb ready); [apply N; auto|]; destruct (negb accept); [apply N; auto|];
       destruct (negb own && negb (cert && key)); [apply N; auto|apply P]).
  - destruct (l_stage s) eqn:T.
    + destruct some; [|exact K]. unfold lnote. rewrite U, T. apply GI_note; auto; try discriminate.
      intros X G. injection X as X. rewrite (B G eq_refl eq_refl) in X. discriminate.
    + destruct prepared; split; [|split| |split]; cbn [l_log l_up l_stage l_io]; auto; discriminate.
    + destruct a; auto.
      * apply GI_accepted; [|apply C; auto]. unfold lnote. rewrite U, T. apply GI_note; auto; discriminate.
      * apply GI_accepted; [exact K|apply C; auto].
      * apply GI_note; auto; try discriminate. intros _ X. congruence.
  - unfold lnote. apply GI_note; auto; try discriminate.
  - split; [|split]; cbn [l_log l_up l_stage l_io]; auto.
Qed.
Lemma clear_thm : forall l a b d, l_log (lrun l) = a ++ LProceed :: b ++ LRead Clear :: d -> In LHandFailed b.
Proof.
  intro l. assert (H : GI (lrun l)).
  { induction l as [|e l IH] using rev_ind; [|rewrite lrun_snoc; apply step_GI; exact IH].
    split; [|split]; cbn [lrun fold_left l0 l_log l_up l_stage l_io]; try discriminate.
    - intros a b d E. destruct a; discriminate.
    - intros (a & b & E & _). destruct a; discriminate. }
  destruct H as [H _]. exact H.
Qed.
Definition downgrade_run : list lev :=
  [EStart true true false true true; EReadable true true AOne None; EReadable true true AFail None; EReadable true true AOne None].
Lemma downgrade_thm : exists l, l_up (lrun l) = true /\ l_log (lrun l) = [LProceed; LHandFailed; LRead Clear].
Proof. exists downgrade_run. vm_compute. auto. Qed.
Lemma write_thm : exists l, l_flag (lrun l) = true /\ l_log (lrun l) = [LProceed; LWrite Clear; LHandshaken].
Proof.
  exists [EStart true true false true true; EWrite; EReadable true true AOne None; EReadable true true AOne None]. vm_compute. auto.
Qed.

(** * The initiator *)
Lemma act_no_notify n k n' o ok : activation n k = Some (n', o, ok) -> forall w b, ~ In (TNotify w b) o.
Proof.
  unfold activation. intros E w b. destruct (negb (k_ctx k && k_ssl k)).
  { injection E as <- <- <-. auto. }
  destruct (connect _ (k_conn k)) as [[n1 [|]]|]; try discriminate.
  - destruct (negb (k_cert k)). { injection E as <- <- <-. intros [X|[]]; discriminate. }
    destruct (k_post k) as [[]|]; injection E as <- <- <-; intros X; repeat destruct X as [X|X]; discriminate || auto.
  - injection E as <- <- <-. auto.
Qed.
Lemma told_thm : forall c k o n l, start_tls c k = Some (o, n, l) ->
  exists l' w ok x, l = l' ++ [TNotify w ok] /\ about w o n = Some x /\ forall w b, ~ In (TNotify w b) l'.
Proof.
  intros c k o n l E.
  assert (S1 : forall c' b, Some (c', @None iconn, [TNotify Old b]) = Some (o, n, l) -> exists l' w ok x, l = l' ++ [TNotify w ok] /\ about w o n = Some x /\ forall w b, ~ In (TNotify w b) l').
  { intros c' b X. injection X as <- <- <-. exists [], Old, b, c'. conj; auto. }
  unfold start_tls in E. destruct (ic_up c); cbn [negb] in E; [|apply (S1 _ _ E)].
  destruct (ic_flag c); [apply (S1 _ _ E)|]. destruct (k_chan k); cbn [negb] in E; [|apply (S1 _ _ E)].
  destruct (k_reply k) as [[]|]; try apply (S1 _ _ E).
  destruct (k_new k); cbn [negb] in E; [|apply (S1 _ _ E)].
  destruct (activation _ k) as [[[n1 o1] [|]]|] eqn:A; try discriminate.
  - destruct (k_greet k); cbn [negb] in E; injection E as <- <- <-; eexists _, New, _, _; conj; try reflexivity; apply (act_no_notify _ _ _ _ _ A).
  - injection E as <- <- <-. eexists _, New, _, _. conj; try reflexivity. apply (act_no_notify _ _ _ _ _ A).
Qed.

Lemma connect_ok n l n' : connect n l = Some (n', true) -> n' = n /\ In CDone l.
Proof.
  induction l as [|[] l IH]; cbn [connect]; intros E; try discriminate.
  - injection E as <-. split; auto. left. reflexivity.
  - destruct (IH E). split; auto. right. auto.
Qed.
Lemma act_ok n k n' o : activation n k = Some (n', o, true) ->
  ic_io n' = Ssl /\ In CDone (k_conn k) /\ k_cert k = true /\ In THandshaken o /\ ~ In (TChecked false) o /\ (k_post k <> None -> In (TChecked true) o).
Proof.
  unfold activation. intros E. destruct (negb (k_ctx k && k_ssl k)); [discriminate|].
  destruct (connect _ (k_conn k)) as [[n1 [|]]|] eqn:C; try discriminate.
  destruct (connect_ok _ _ _ C) as [-> D]. destruct (k_cert k); cbn [negb] in E; [|discriminate].
  destruct (k_post k) as [[]|]; try discriminate; injection E as <- <-; cbn [ic_io In]; conj; auto; try discriminate; try congruence.
  - intros [?|[?|[]]]; discriminate.
  - intros [?|[]]; discriminate.
Qed.
Lemma ok_thm : forall c k o n l w x, (ic_flag c = true -> ic_io c = Ssl) -> start_tls c k = Some (o, n, l) -> In (TNotify w true) l -> about w o n = Some x ->
  ic_flag x = true /\ ic_io x = Ssl /\
  (ic_flag c = false -> In THandshaken l /\ k_cert k = true /\ ~ In (TChecked false) l /\ (k_post k <> None -> In (TChecked true) l) /\ ic_seq_off x = false /\ ic_watched x = true).
Proof.
  intros c k o n l w x Hc E N Ax.
  assert (S1 : forall c', Some (c', @None iconn, [TNotify Old false]) = Some (o, n, l) -> False).
  { intros c' X. injection X as <- <- <-. destruct N as [N|[]]. discriminate. }
  unfold start_tls in E. destruct (ic_up c); cbn [negb] in E; [|destruct (S1 _ E)].
  destruct (ic_flag c) eqn:F.
  { injection E as <- <- <-. destruct N as [N|[]]. injection N as <-. cbn [about] in Ax. injection Ax as <-. conj; auto; discriminate. }
  destruct (k_chan k); cbn [negb] in E; [|destruct (S1 _ E)].
  destruct (k_reply k) as [[]|]; try destruct (S1 _ E).
  destruct (k_new k); cbn [negb] in E; [|destruct (S1 _ E)].
  destruct (activation _ k) as [[[n1 o1] [|]]|] eqn:A; try discriminate.
  - pose proof (act_no_notify _ _ _ _ _ A) as NN. destruct (act_ok _ _ _ _ A) as (A1 & A2 & A3 & A4 & A5 & A6).
    assert (SQ : ic_seq_off n1 = false).
    { revert A. unfold activation. destruct (negb (k_ctx k && k_ssl k)); [discriminate|]. destruct (connect _ (k_conn k)) as [[n2 [|]]|] eqn:C; try discriminate.
      destruct (connect_ok _ _ _ C) as [-> _]. destruct (negb (k_cert k)); [discriminate|]. destruct (k_post k) as [[]|]; intros X; try discriminate; injection X as <- _; reflexivity. }
    destruct (k_greet k); cbn [negb] in E; injection E as <- <- <-.
    + apply in_app_or in N. destruct N as [N|[N|[]]]; [destruct (NN _ _ N)|]. injection N as <-. cbn [about] in Ax. injection Ax as <-.
      cbn [ic_flag ic_io ic_seq_off ic_watched]. conj; auto. intros _. conj; auto.
      * apply in_or_app. auto.
      * intros X. apply in_app_or in X. destruct X as [X|[X|[]]]; [tauto|discriminate].
      * intros X. apply in_or_app. left. auto.
    + apply in_app_or in N. destruct N as [N|[N|[]]]; [destruct (NN _ _ N)|discriminate].
  - pose proof (act_no_notify _ _ _ _ _ A) as NN. injection E as <- <- <-.
    apply in_app_or in N. destruct N as [N|[N|[]]]; [destruct (NN _ _ N)|discriminate].
Qed.

(** A failure notified with the connection there was. *)
Lemma same_thm : forall c k o n l, start_tls c k = Some (o, n, l) -> In (TNotify Old false) l -> (replaced k = false -> k_new k = true) ->
  n = None /\ ic_up o = ic_up c /\ ic_io o = ic_io c /\ ic_flag o = ic_flag c /\ ic_watched o = ic_watched c /\ ic_closes o = ic_closes c /\ ic_data o = ic_data c.
Proof.
  intros c k o n l E N R. unfold start_tls in E.
  destruct (ic_up c) eqn:U; cbn [negb] in E; [|injection E as <- <- <-; conj; auto].
  destruct (ic_flag c) eqn:F; [injection E as <- <- <-; destruct N as [N|[]]; discriminate|].
  unfold replaced in R.
  destruct (k_chan k); cbn [negb andb] in *; [|injection E as <- <- <-; conj; auto].
  destruct (k_reply k) as [[]|]; try (injection E as <- <- <-; conj; auto; fail).
  destruct (k_new k); cbn [negb] in E; [|specialize (R eq_refl); discriminate].
  exfalso. destruct (activation _ k) as [[[n1 o1] [|]]|] eqn:A; try discriminate; pose proof (act_no_notify _ _ _ _ _ A) as NN.
  - destruct (k_greet k); cbn [negb] in E; injection E as <- <- <-; apply in_app_or in N; destruct N as [N|[N|[]]]; try destruct (NN _ _ N); discriminate.
  - injection E as <- <- <-. apply in_app_or in N. destruct N as [N|[N|[]]]; [destruct (NN _ _ N)|discriminate].
Qed.
Definition refusal : tk := mkTK true (Some TErr) true true true [CDone] true None true true true.
Lemma refused_thm : exists c k o l, usable c /\ start_tls c k = Some (o, None, l) /\ l = [TNotify Old false] /\ ic_up o = true /\ ic_watched o = true /\ ic_seq_off o = true.
Proof. exists fresh_conn, refusal. eexists _, _. split; [split; auto|]. split; [reflexivity|]. conj; reflexivity. Qed.

(** What a channel receives while no SEQ frame is sent. *)
Definition SI (st : rrun_st) : Prop :=
  rr_log st = [] /\ rw_consumed (rr_win st) = 0 /\ rw_window (rr_win st) = 4096 /\ rw_expected (rr_win st) = rr_total st /\ 0 <= rr_total st <= 4096.
Lemma SI_step st e : seq_off e -> SI st -> SI (rstep st e).
Proof.
  intros H (A & B & C & D & E). unfold rstep. destruct (rr_up st); [|split; auto].
  destruct e as [off seqno csize|d].
  - destruct H as [-> Hn]. unfold recv_data. cbn [update_incoming].
    unfold check_incoming_seqno. rewrite B, C.
    destruct ((if 0 <=? seqno then u32 (seqno - 0 + csize) <=? 4096 else two32 - 0 + seqno + csize <=? 4096)) eqn:Q.
    + destruct (rw_expected (rr_win st) =? seqno) eqn:X; unfold SI; cbn [rr_log rr_win rr_total rw_consumed rw_window rw_expected]; conj; auto; try lia.
      * apply Z.eqb_eq in X. rewrite D. rewrite D in X. assert (Z.leb 0 seqno = true) by lia. rewrite H in Q.
        unfold u32, two31, two32 in *. rewrite (Z.mod_small (rr_total st + csize)) by lia. reflexivity.
      * apply Z.eqb_eq in X. rewrite D in X. assert (Z.leb 0 seqno = true) by lia. rewrite H in Q.
        unfold u32, two31, two32 in *. rewrite (Z.mod_small (seqno - 0 + csize)) in Q by lia. lia.
    + unfold SI. cbn [rr_log rr_win rr_total]. conj; auto; lia.
  - unfold set_window, SI. cbn [rr_log rr_win rr_total]. destruct (0 <? d); cbn [rw_consumed rw_window rw_expected]; conj; auto; lia.
Qed.
Lemma stall_thm : forall es, Forall seq_off es -> rr_log (rrun es) = [] /\ rr_total (rrun es) <= 4096.
Proof.
  intros es H. assert (K : SI (rrun es)).
  { unfold rrun. assert (S0 : SI rr0) by (unfold SI, rr0, rwin0; cbn; conj; auto; lia). revert H S0. generalize rr0 as st.
    induction es as [|e es IH]; intros st H S0; cbn [fold_left]; auto. inversion H; subst. apply IH; auto. apply SI_step; auto. }
  destruct K as (A & B & C & D & E). split; auto. lia.
Qed.

(** A failure notified with the new connection. *)
Lemma connect_false n l n' : connect n l = Some (n', false) -> ic_flag n' = ic_flag n /\ ic_watched n' = ic_watched n /\ (ic_up n' = true -> In CError l).
Proof.
  induction l as [|[] l IH]; cbn [connect]; intros E; try discriminate.
  - destruct (IH E) as (A & B & C). conj; auto. intro X. right. auto.
  - injection E as <-. cbn [ic_flag ic_watched ic_up down]. conj; auto. discriminate.
  - injection E as <-. cbn [ic_flag ic_watched ic_up]. conj; auto. intros _. left. reflexivity.
Qed.
Lemma failed_thm : forall c k o n l x, start_tls c k = Some (o, n, l) -> In (TNotify New false) l -> n = Some x ->
  ic_up o = false /\ ic_flag x = false /\ ic_watched x = false /\
  (In (TChecked false) l -> ic_up x = false) /\
  (k_ctx k = true -> k_ssl k = true -> ~ In CError (k_conn k) -> ~ In THandshaken l -> ic_up x = false).
Proof.
  intros c k o n l x E N X. subst n. unfold start_tls in E.
  destruct (ic_up c); cbn [negb] in E; [|discriminate].
  destruct (ic_flag c) eqn:F; [discriminate|]. destruct (k_chan k); cbn [negb] in E; [|discriminate].
  destruct (k_reply k) as [[]|]; try discriminate. destruct (k_new k); cbn [negb] in E; [|discriminate].
  cbn [ic_flag ic_data] in E. destruct (activation _ k) as [[[n1 o1] b]|] eqn:A; [|discriminate].
  pose proof (act_no_notify _ _ _ _ _ A) as NN.
  assert (F1 : ic_flag n1 = false /\ ic_watched n1 = false /\ (In (TChecked false) o1 -> ic_up n1 = false) /\
    (b = true -> ~ In (TChecked false) o1 /\ In THandshaken o1) /\
    (k_ctx k = true -> k_ssl k = true -> ~ In CError (k_conn k) -> ~ In THandshaken o1 -> ic_up n1 = false)).
  { revert A. unfold activation. destruct (k_ctx k && k_ssl k) eqn:CS; cbn [negb].
    2:{ intros Q. injection Q as <- <- <-. cbn [ic_flag ic_watched In]. conj; auto; try tauto; try discriminate. intros A1 A2. rewrite A1, A2 in CS. discriminate. }
    destruct (connect _ (k_conn k)) as [[n2 [|]]|] eqn:C; try discriminate.
    - destruct (connect_ok _ _ _ C) as [-> _]. destruct (k_cert k); cbn [negb].
      + destruct (k_post k) as [[]|]; intros Q; injection Q as <- <- <-; cbn [ic_flag ic_watched ic_up down In]; conj; auto; try tauto; intros; try discriminate.
        all: try (split; auto; intros [?|[?|[]]]; discriminate). all: try (split; auto; intros [?|[]]; discriminate).
        all: try (destruct H as [H|[H|[]]]; discriminate). all: try (destruct H as [H|[]]; discriminate).
      + intros Q. injection Q as <- <- <-. cbn [ic_flag ic_watched ic_up In]. conj; auto; try discriminate; try tauto. intros [?|[]]; discriminate.
    - destruct (connect_false _ _ _ C) as (A1 & A2 & A3). intros Q. injection Q as <- <- <-. cbn [ic_flag ic_watched] in *. conj; auto; try discriminate; try (intros []).
      all: intros; destruct (ic_up n2); auto; exfalso; match goal with H : ~ In CError _ |- _ => apply H; auto end. }
  destruct F1 as (F1 & F2 & F3 & F4 & F5). destruct b.
  - destruct (F4 eq_refl) as [F4a F4b]. destruct (k_greet k); cbn [negb] in E; injection E as <- <- <-.
    + exfalso. apply in_app_or in N. destruct N as [N|[N|[]]]; [destruct (NN _ _ N)|discriminate].
    + cbn [ic_up down]. conj; auto.
      * destruct (k_gup k); auto.
      * destruct (k_gup k); auto.
      * intros Y. apply in_app_or in Y. destruct Y as [Y|[Y|[]]]; [tauto|discriminate].
      * intros _ _ _ Y. destruct Y. apply in_or_app. auto.
  - injection E as <- <- <-. cbn [ic_up down]. conj; auto.
    + intros Y. apply in_app_or in Y. destruct Y as [Y|[Y|[]]]; [auto|discriminate].
    + intros A1 A2 A3 Y. apply F5; auto. intro Q. apply Y. apply in_or_app. auto.
Qed.
Definition bad_handshake : tk := mkTK true (Some TProceed) true true true [CWant; CError] true None true true true.
Lemma failed_wit : exists c k o x l, usable c /\ start_tls c k = Some (o, Some x, l) /\ l = [TNotify New false] /\ ic_up x = true /\ ic_io x = Clear /\ ic_watched x = false /\ ic_up o = false.
Proof. exists fresh_conn, bad_handshake. eexists _, _, _. split; [split; auto|]. split; [reflexivity|]. conj; reflexivity. Qed.

(** * The synchronous call and auto TLS *)
Lemma notified_last l' w ok : notified (l' ++ [TNotify w ok]) = (w, ok).
Proof. unfold notified. rewrite rev_app_distr. reflexivity. Qed.
Lemma sync_thm : forall c k message o n l w ok, ic_up c = true -> ic_flag c = false -> start_tls c k = Some (o, n, l) -> In (TNotify w ok) l ->
  sync c k message SWaiting = Ok (mkSR (Some w) ok o n).
Proof.
  intros c k message o n l w ok U F E N. unfold sync. rewrite U, F. cbn [negb]. rewrite E.
  destruct (told_thm _ _ _ _ _ E) as (l' & w' & ok' & x & -> & _ & NN). rewrite notified_last.
  apply in_app_or in N. destruct N as [N|[N|[]]]; [destruct (NN _ _ N)|]. injection N as <- <-. reflexivity.
Qed.
Definition tls_conn : iconn := mkIC true Ssl true false true true true.
Lemma again_thm : exists c k, ic_up c = true /\ ic_flag c = true /\ start_tls c k = Some (c, None, [TNotify Old true]) /\
  (forall message w, sync c k message w = Ok (mkSR None false (down c) None)).
Proof. exists tls_conn, refusal. conj; try reflexivity. Qed.
Definition stalled : tk := mkTK true (Some TProceed) true true true [] true None true true true.
Lemma sync_ok_thm : forall c k message w r, (ic_flag c = true -> ic_io c = Ssl) -> sync c k message w = Ok r -> sr_ok r = true ->
  exists w x, sr_conn r = Some w /\ about w (sr_old r) (sr_new r) = Some x /\ ic_flag x = true /\ ic_io x = Ssl.
Proof.
  intros c k message w r C E O. unfold sync in E.
  destruct (ic_up c) eqn:U; cbn [negb] in E; [|injection E as <-; discriminate].
  destruct (ic_flag c) eqn:F; [injection E as <-; discriminate|].
  destruct (match w with STimeout released => message && released && replaced k | _ => false end); [discriminate|].
  destruct (start_tls c k) as [[[o n] l]|] eqn:S0; [|injection E as <-; discriminate].
  destruct (told_thm _ _ _ _ _ S0) as (l' & w' & ok & y & L & Y & NN). rewrite L, notified_last in E.
  assert (LO : forall a b v, sr_ok (lost a b v) = false) by (intros a b v; destruct v; reflexivity).
  destruct w; injection E as <-; rewrite ?LO in O; try discriminate. cbn [sr_ok] in O. subst ok.
  exists w', y. split; [reflexivity|]. split; [exact Y|].
  assert (I : In (TNotify w' true) l) by (rewrite L; apply in_or_app; right; left; reflexivity).
  assert (C' : ic_flag c = true -> ic_io c = Ssl) by (rewrite F; discriminate).
  destruct (ok_thm _ _ _ _ _ _ _ C' S0 I Y) as (X1 & X2 & _). auto.
Qed.
Lemma released_thm : exists c k w, usable c /\ sync c k true w = UB.
Proof. exists fresh_conn, stalled, (STimeout true). split; [split; auto|reflexivity]. Qed.
Lemma late_thm : exists c k l, usable c /\ start_tls c k = Some (down (mkIC true Clear false true true false false), Some (mkIC true Ssl true false true true true), l) /\ In (TNotify New true) l /\
  sync c k true SLate = Ok (mkSR None false (down (mkIC true Clear false true true false false)) (Some (mkIC false Ssl true false true true true))).
Proof.
  exists fresh_conn, (mkTK true (Some TProceed) true true true [CDone] true None true true true). eexists.
  split; [split; auto|]. split; [reflexivity|]. split; [right; left; reflexivity|reflexivity].
Qed.

Lemma auto_thm : forall c k w x, (ic_flag c = true -> ic_io c = Ssl) -> auto_tls false c k w = Ok (Some x) -> ic_up x = true ->
  ic_flag x = true /\ ic_io x = Ssl /\ (ic_flag c = false -> exists o n l, start_tls c k = Some (o, n, l) /\ In THandshaken l /\ k_cert k = true /\ ~ In (TChecked false) l).
Proof.
  intros c k w x Hc E U. unfold auto_tls in E. destruct (ic_flag c) eqn:F.
  { injection E as <-. conj; auto. discriminate. }
  unfold sync in E. destruct (ic_up c) eqn:Uc; cbn [negb] in E.
  2:{ cbn [obind sr_conn sr_old] in E. rewrite Uc in E. cbn [negb] in E. injection E as <-. congruence. }
  rewrite F in E. cbn [andb] in E.
  replace (match w with STimeout _ => false | _ => false end) with false in E by (destruct w; reflexivity).
  destruct (start_tls c k) as [[[o n] l]|] eqn:S0.
  2:{ cbn [obind sr_conn] in E. discriminate. }
  destruct (told_thm _ _ _ _ _ S0) as (l' & w' & ok & y & L & Y & NN). rewrite L, notified_last in E.
  assert (Q : obind (Ok (mkSR (Some w') ok o n)) (fun r => match sr_conn r with
    | None => Ok None
    | Some x => match match x with Old => Some (sr_old r) | New => sr_new r end with
      | None => Ok None
      | Some n => if negb (ic_up n) then Ok (Some n) else if negb false && negb (ic_flag n) then Ok (Some (down n)) else Ok (Some n)
      end
    end) = Ok (Some x)).
  { destruct w; [exact E| |]; exfalso; destruct w'; cbn [obind lost sr_conn] in E; discriminate. }
  clear E. cbn [obind sr_conn sr_old sr_new] in Q. fold (about w' o n) in Q. rewrite Y in Q.
  destruct (ic_up y) eqn:Uy; cbn [negb andb] in Q; [|injection Q as <-; congruence].
  destruct (ic_flag y) eqn:Fy; cbn [negb] in Q; [|injection Q as <-; discriminate].
  injection Q as <-. destruct ok.
  - assert (N : In (TNotify w' true) l) by (rewrite L; apply in_or_app; right; left; reflexivity).
    destruct (ok_thm c k o n l w' y ltac:(intro Z0; congruence) S0 N Y) as (A & B & C). conj; auto.
    intros _. destruct (C F) as (C1 & C2 & C3 & _). exists o, n, l. auto.
  - exfalso. assert (N : In (TNotify w' false) l) by (rewrite L; apply in_or_app; right; left; reflexivity).
    destruct w'.
    + cbn [about] in Y. injection Y as <-. clear L NN. revert S0 N Fy. unfold start_tls. rewrite Uc, F. cbn [negb].
      destruct (k_chan k); cbn [negb]; [|intros Q; injection Q as <- <- <-; cbn; congruence].
      destruct (k_reply k) as [[]|]; try (intros Q; injection Q as <- <- <-; cbn; congruence).
      destruct (k_new k); cbn [negb]; [|intros Q; injection Q as <- <- <-; cbn; congruence].
      destruct (activation _ k) as [[[n1 o1] [|]]|] eqn:A; try discriminate; pose proof (act_no_notify _ _ _ _ _ A) as NN.
      * destruct (k_greet k); cbn [negb]; intros Q; injection Q as <- <- <-; intros N; apply in_app_or in N; destruct N as [N|[N|[]]]; try destruct (NN _ _ N); discriminate.
      * intros Q; injection Q as <- <- <-; intros N; apply in_app_or in N; destruct N as [N|[N|[]]]; [destruct (NN _ _ N)|discriminate].
    + cbn [about] in Y. destruct (failed_thm _ _ _ _ _ _ S0 N Y) as (_ & A & _). congruence.
Qed.

(** * Certificates and digests *)
Lemma beqb_eq a : forall b, bytes_eqb a b = true <-> a = b.
Proof.
  induction a as [|x a IH]; intros [|y b]; cbn [bytes_eqb]; split; intro H; try discriminate; auto.
  - apply andb_true_iff in H. destruct H as [H1 H2]. apply Z.eqb_eq in H1. apply IH in H2. congruence.
  - injection H as -> ->. rewrite Z.eqb_refl. cbn [andb]. apply IH. reflexivity.
Qed.
Lemma until_id b : ~ In 0 b -> until_nul b = b.
Proof.
  induction b as [|x b IH]; cbn [until_nul In]; intro H; auto. destruct (x =? 0) eqn:E; [apply Z.eqb_eq in E; tauto|]. rewrite IH; tauto.
Qed.
Lemma verify_thm : forall tls ssl vok cn s, ~ In 0 cn -> zlen cn < 512 -> ~ In 0 s ->
  (verify_cert tls ssl vok (Some (Some cn)) (Some s) = Ok true <-> tls = true /\ ssl = true /\ vok = true /\ cn = s).
Proof.
  intros tls ssl vok cn s N L Ns. unfold verify_cert.
  destruct tls; cbn [negb]; [|split; [discriminate|intros (? & _); discriminate]].
  destruct ssl; cbn [negb]; [|split; [discriminate|intros (_ & ? & _); discriminate]].
  destruct vok; cbn [negb]; [|split; [discriminate|intros (_ & _ & ? & _); discriminate]].
  rewrite firstn_all2 by (unfold zlen in L; lia). rewrite !until_id by auto. split; intro H.
  - conj; auto. apply beqb_eq. congruence.
  - destruct H as (_ & _ & _ & ->). f_equal. apply beqb_eq. reflexivity.
Qed.

Lemma put_ok buf pos data : (pos + length data <= length buf)%nat -> put_at buf pos data = Ok (firstn pos buf ++ data ++ skipn (pos + length data) buf).
Proof. intros H. unfold put_at. apply Nat.leb_le in H. rewrite H. reflexivity. Qed.
Lemma hex_digit d : 0 <= d < 16 -> hex d = nth (Z.to_nat d) digits 0.
Proof.
  intros H. assert (E : d = Z.of_nat (Z.to_nat d)) by lia. assert (L : (Z.to_nat d < 16)%nat) by lia. rewrite E at 1. revert L. generalize (Z.to_nat d). intros n L.
  do 16 (destruct n as [|n]; [reflexivity|]). lia.
Qed.
Lemma byte_pair b : is_byte b -> [hex (b / 16); hex (b mod 16)] = pair_of b.
Proof.
  intros H. unfold is_byte in H. unfold pair_of. rewrite !hex_digit; auto.
  - apply Z.mod_pos_bound. lia.
  - split; [apply Z.div_pos; lia|apply Z.div_lt_upper_bound; lia].
Qed.
Lemma pair_length b : length (pair_of b) = 2%nat.
Proof. reflexivity. Qed.
Lemma colons_length l : length (colons l) = (3 * length l - 1)%nat.
Proof.
  induction l as [|b [|c l] IH]; auto. change (colons (b :: c :: l)) with (pair_of b ++ 58 :: colons (c :: l)). rewrite app_length. cbn [length]. rewrite IH, pair_length. cbn [length]. lia.
Qed.
Lemma translate_ok l : Forall is_byte l -> forall pre n, (l <> [] -> n = (3 * length l)%nat) ->
  translate (pre ++ repeat 0 (n + 1)) (length pre) l = Ok (pre ++ colons l ++ repeat 0 (n + 1 - length (colons l))).
Proof.
  induction l as [|b l IH]; intros F pre n N; cbn [translate].
  - cbn [colons length app]. rewrite Nat.sub_0_r. reflexivity.
  - inversion F as [|? ? Fb Fl]; subst. specialize (N ltac:(discriminate)). rewrite (byte_pair b Fb). destruct l as [|c l].
    + cbn [app]. rewrite put_ok by (rewrite !app_length, repeat_length, pair_length; cbn [length] in *; lia).
      cbn [obind translate]. rewrite firstn_app, Nat.sub_diag, firstn_all. cbn [firstn]. rewrite app_nil_r.
      rewrite skipn_app. rewrite (skipn_all2 pre) by (rewrite app_length; lia). cbn [app].
      replace (length pre + length (pair_of b ++ [0%Z]) - length pre)%nat with 3%nat by (rewrite app_length, pair_length; cbn [length]; lia).
      cbn [length] in N. subst n. cbn [colons]. rewrite pair_length, <- app_assoc. reflexivity.
    + cbn [app]. rewrite put_ok by (rewrite !app_length, repeat_length, pair_length; cbn [length] in *; lia).
      cbn [obind]. rewrite firstn_app, Nat.sub_diag, firstn_all. cbn [firstn]. rewrite app_nil_r.
      rewrite skipn_app. rewrite (skipn_all2 pre) by (rewrite app_length; lia). cbn [app].
      replace (length pre + length (pair_of b ++ [58; 0]%Z) - length pre)%nat with 4%nat by (rewrite app_length, pair_length; cbn [length]; lia).
      set (m := (3 * length (c :: l))%nat). assert (Hn : n = (3 + m)%nat) by (unfold m; cbn [length] in *; lia).
      replace (pre ++ (pair_of b ++ [58; 0]) ++ skipn 4 (repeat 0 (n + 1))) with ((pre ++ pair_of b ++ [58]) ++ repeat 0 (m + 1)).
      2:{ rewrite Hn. replace (3 + m + 1)%nat with (S (S (S (S m)))) by lia. rewrite Nat.add_1_r. cbn [repeat skipn]. rewrite <- !app_assoc. reflexivity. }
      replace (length pre + 3)%nat with (length (pre ++ pair_of b ++ [58])) by (rewrite !app_length, pair_length; cbn [length]; lia).
      rewrite (IH Fl _ m) by auto. change (colons (b :: c :: l)) with (pair_of b ++ 58 :: colons (c :: l)).
      assert (X : (n + 1 - length (pair_of b ++ 58%Z :: colons (c :: l)) = m + 1 - length (colons (c :: l)))%nat) by (rewrite app_length, pair_length; cbn [length]; lia).
      rewrite X. rewrite <- !app_assoc. reflexivity.
Qed.
Lemma digit_pos d : 0 <= d < 16 -> nth (Z.to_nat d) digits 0 <> 0 /\ nth (Z.to_nat d) digits 0 <> 58.
Proof.
  intros H. assert (L : (Z.to_nat d < 16)%nat) by lia. revert L. generalize (Z.to_nat d). intros n L.
  do 16 (destruct n as [|n]; [cbn; lia|]). lia.
Qed.
Lemma digit_inj a b : 0 <= a < 16 -> 0 <= b < 16 -> nth (Z.to_nat a) digits 0 = nth (Z.to_nat b) digits 0 -> a = b.
Proof.
  intros Ha Hb E. assert (Ea : a = Z.of_nat (Z.to_nat a)) by lia. assert (Eb : b = Z.of_nat (Z.to_nat b)) by lia.
  assert (La : (Z.to_nat a < 16)%nat) by lia. assert (Lb : (Z.to_nat b < 16)%nat) by lia. rewrite Ea, Eb. f_equal.
  apply (proj1 (NoDup_nth digits 0)); auto. repeat constructor; cbn; intros X; repeat destruct X as [X|X]; try discriminate; auto.
Qed.
Lemma pair_facts b : is_byte b -> 0 <= b / 16 < 16 /\ 0 <= b mod 16 < 16.
Proof. unfold is_byte. intros H. split; [split; [apply Z.div_pos; lia|apply Z.div_lt_upper_bound; lia]|apply Z.mod_pos_bound; lia]. Qed.
Lemma colons_nonul l : Forall is_byte l -> ~ In 0 (colons l).
Proof.
  assert (P : forall b, is_byte b -> ~ In 0 (pair_of b)).
  { intros b H. destruct (pair_facts b H) as [A B]. unfold pair_of. cbn [In].
    destruct (digit_pos _ A). destruct (digit_pos _ B). intros [X|[X|[]]]; congruence. }
  induction l as [|b [|c l] IH]; intros F; auto.
  - inversion F; subst. apply P. auto.
  - inversion F; subst. change (colons (b :: c :: l)) with (pair_of b ++ 58 :: colons (c :: l)). intros X. apply in_app_or in X. destruct X as [X|[X|X]]; [apply (P b); auto|discriminate|apply IH; auto].
Qed.
Lemma until_app a n : ~ In 0 a -> until_nul (a ++ repeat 0 n) = a.
Proof.
  induction a as [|x a IH]; cbn [app until_nul In]; intro H.
  - destruct n; reflexivity.
  - destruct (x =? 0) eqn:E; [apply Z.eqb_eq in E; tauto|]. rewrite IH; tauto.
Qed.
Lemma octal_thm : forall l, Forall is_byte l -> octal l = Ok (colons l).
Proof.
  intros l F. unfold octal. pose proof (translate_ok l F [] (3 * length l) ltac:(auto)) as T. cbn [app length] in T. rewrite T.
  cbn [obind]. f_equal. apply until_app. apply colons_nonul. exact F.
Qed.
Lemma pair_inj b c : is_byte b -> is_byte c -> pair_of b = pair_of c -> b = c.
Proof.
  intros Hb Hc E. destruct (pair_facts b Hb) as [B1 B2]. destruct (pair_facts c Hc) as [C1 C2]. unfold pair_of in E. injection E as E1 E2.
  apply digit_inj in E1; auto. apply digit_inj in E2; auto. rewrite (Z.div_mod b 16), (Z.div_mod c 16), E1, E2 by lia. reflexivity.
Qed.
Lemma colons_inj l : forall m, Forall is_byte l -> Forall is_byte m -> colons l = colons m -> l = m.
Proof.
  induction l as [|b l IH]; intros m Fl Fm E.
  - destruct m as [|c [|d m]]; auto; discriminate.
  - destruct m as [|c m]; [destruct l; discriminate|]. inversion Fl; subst. inversion Fm; subst.
    assert (P : pair_of b = pair_of c /\ (l = [] <-> m = [])).
    { pose proof (colons_length (b :: l)) as L1. pose proof (colons_length (c :: m)) as L2. rewrite E in L1. split.
      - pose proof (f_equal (firstn 2) E) as E2. destruct l, m; exact E2.
      - cbn [length] in L1, L2. split; intros ->; cbn [length] in *; [destruct m|destruct l]; auto; cbn [length] in *; lia. }
    destruct P as [P Q]. f_equal; [apply pair_inj; auto|].
    destruct l as [|x l]; [symmetry; apply Q; auto|]. destruct m as [|y m]; [destruct Q as [_ Q]; discriminate (Q eq_refl)|].
    apply IH; auto. change (colons (b :: x :: l)) with (pair_of b ++ 58 :: colons (x :: l)) in E. change (colons (c :: y :: m)) with (pair_of c ++ 58 :: colons (y :: m)) in E.
    rewrite P in E. apply app_inv_head in E. congruence.
Qed.
