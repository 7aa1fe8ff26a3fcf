From Verif Require Import Base AsyncModel AsyncSpec AsyncProofs HashModel HashSpec.

(** ** Waiting for changes *)
Definition is_call (e : aev) : bool := match e with EPop _ | ETimed _ _ => true | _ => false end.
Definition is_batch (e : aev) : bool := match e with EBatch _ _ => true | _ => false end.
Definition slack (q : aqueue) : Z := zlen (aq_data q) - waiting q.

Lemma slack_signal q k : slack (signal q k) = slack q.
Proof.
  unfold slack, signal, waiting. destruct (pick k (aq_blocked q)) as [[w b]|] eqn:E; [|reflexivity].
  apply pick_len in E. unfold zlen in *. cbn. rewrite app_length. cbn. lia.
Qed.
Lemma slack_signal_waiters q k : slack (signal_waiters q k) = slack q.
Proof. unfold signal_waiters. destruct (0 <? aq_waiters q); [apply slack_signal|reflexivity]. Qed.
Lemma slack_unlocked q x : slack (unlocked_push q x) = slack q + 1.
Proof. unfold slack, unlocked_push, waiting, zlen. cbn [aq_data length aq_blocked aq_woken]. lia. Qed.
Lemma slack_push q x k : x <> 0 -> slack (astep q (EPush x k)) = slack q + 1.
Proof.
  intros N. cbn [astep]. unfold nonnull. replace (x =? 0) with false by lia. cbn. unfold push.
  now rewrite slack_signal_waiters, slack_unlocked.
Qed.
Lemma slack_run q k : slack q <= slack (astep q (ERun k)).
Proof.
  cbn [astep]. unfold pop_resume. destruct (pick k (aq_woken q)) as [[w r]|] eqn:E; [|lia].
  apply pick_len in E. destruct (take _ (wt_id w)) eqn:T.
  - apply take_some in T as (x & r' & E' & ->). unfold slack, waiting, zlen in *. cbn in *.
    apply (f_equal (@length Z)) in E'. rewrite rev_length in *. cbn in E'. lia.
  - destruct (wt_timed w); unfold slack, waiting, zlen; cbn; rewrite ?app_length; cbn; lia.
Qed.

Definition qok (h : vhash) : Prop := match h_q h with Some q => awake q | None => True end.
Lemma qok_queue h e : is_batch e = false -> qok h -> qok (h_queue h e).
Proof.
  unfold qok, h_queue. destruct (h_q h) as [q|] eqn:E; cbn; [|rewrite E; auto].
  intros B A. apply awake_step; [|exact A]. now destruct e.
Qed.
Definition pos_notif (h : vhash) : Prop := forall i n, nth_error (h_notif h) i = Some (Some n) -> 0 <= n.
Lemma nth_set A i (l : list A) a j : nth_error (set_nth i l a) j =
  if Nat.eqb i j then match nth_error l j with Some _ => Some a | None => None end else nth_error l j.
Proof.
  revert i j. induction l as [|x l IH]; intros [|i] [|j]; cbn; try reflexivity.
  - now destruct (Nat.eqb i j).
  - apply IH.
Qed.
Lemma queue_fields h e : h_notif (h_queue h e) = h_notif h /\ h_freed (h_queue h e) = h_freed h /\ h_refs (h_queue h e) = h_refs h
  /\ h_in (h_queue h e) = h_in h.
Proof. unfold h_queue. destruct (h_q h); auto. Qed.
Lemma waiting_pos q : 0 <= waiting q.
Proof. unfold waiting, zlen. lia. Qed.

Record winv (h : vhash) : Prop := { wi_q : qok h; wi_n : pos_notif h }.
Lemma pos_app h l : pos_notif h -> (l = [None] \/ l = []) -> forall i n, nth_error (h_notif h ++ l) i = Some (Some n) -> 0 <= n.
Proof.
  intros P L i n E. destruct (Nat.ltb i (length (h_notif h))) eqn:Q.
  - apply Nat.ltb_lt in Q. rewrite nth_error_app1 in E by exact Q. now apply (P i).
  - apply Nat.ltb_ge in Q. rewrite nth_error_app2 in E by exact Q.
    destruct L as [-> | ->]; destruct (i - length (h_notif h))%nat as [|[|m]]; cbn in E; discriminate.
Qed.
Lemma if_none (b : bool) : (if b then [@None Z] else []) = [None] \/ (if b then [@None Z] else []) = [].
Proof. destruct b; auto. Qed.
Lemma winv_step h e h' : winv h -> hstep h e = Ok h' -> winv h'.
Proof.
  unfold hstep. intros [Q P] E. destruct (h_freed h) eqn:R; [discriminate|]. injection E as <-.
  destruct e as [k v kd vd|k|k| |k|k|k| | | |i|i k|t us|i| |k|k]; try (split; [exact Q|exact P]).
  - split; [exact Q|]. intros i n. apply pos_app; auto.
  - split; [exact Q|]. intros i n. apply pos_app; auto using if_none.
  - split; [exact Q|]. intros i n. apply pos_app; auto using if_none.
  - split; [exact Q|]. intros i n. apply pos_app; auto using if_none.
  - split; [exact Q|]. intros i n. apply pos_app; auto using if_none.
  - unfold h_unref. destruct (negb (h_refs h - 1 =? 0)); split; try exact Q; try exact P. exact I.
  - destruct (pick i (h_dead h)) as [[e r]|]; split; try exact Q; exact P.
  - unfold h_notify. destruct (nth_error (h_notif h) i) as [[n|]|] eqn:N; [| |split; auto].
    + destruct (0 <? n) eqn:N0; [|split; auto].
      split; [apply qok_queue; [reflexivity|exact Q]|].
      intros j m. destruct (queue_fields (set_notif h i (n - 1)) (EPush 1 k)) as (-> & _). cbn. rewrite nth_set.
      destruct (Nat.eqb i j); [|apply P]. destruct (nth_error (h_notif h) j); [|discriminate]. intros X. injection X as <-. lia.
    + split; [exact Q|]. intros j m. cbn. rewrite nth_set. destruct (Nat.eqb i j); [|apply P].
      destruct (nth_error (h_notif h) j); [|discriminate]. intros X. injection X as <-.
      unfold qok in Q. destruct (h_q h) as [q|]; [|lia]. destruct Q as (-> & _). apply waiting_pos.
  - destruct (0 <=? us); split; try exact Q; try exact P. unfold qok, h_enter. cbn. unfold qok in Q.
    destruct (h_q h); [exact Q|]. split; [reflexivity|]. cbn. congruence.
  - unfold h_wait. destruct (pick i (h_in h)) as [[[t us] r]|]; [|split; auto].
    split; [apply qok_queue; [now destruct (0 <? us)|exact Q]|].
    intros j m. match goal with |- context [h_queue ?x ?y] => destruct (queue_fields x y) as (-> & _) end. apply P.
  - destruct (0 <? h_out h); [|split; auto]. unfold h_unref. cbn. destruct (negb (h_refs h - 1 =? 0)); split; try exact Q; try exact P. exact I.
  - split; [now apply qok_queue|]. intros j m. destruct (queue_fields h (EWake k)) as (-> & _). apply P.
  - split; [now apply qok_queue|]. intros j m. destruct (queue_fields h (ERun k)) as (-> & _). apply P.
Qed.
Lemma winv_run es : forall h h', winv h -> hrun h es = Ok h' -> winv h'.
Proof.
  induction es as [|e es IH]; cbn; intros h h' H E; [now injection E as <-|].
  destruct (hstep h e) as [h1|] eqn:S; [|discriminate]. cbn in E. apply IH with h1; [|exact E]. now apply winv_step with h e.
Qed.
Lemma winv_h0 : winv h0.
Proof. split; [exact I|]. intros [|i] n; cbn; discriminate. Qed.

(** There are items, or pushes left of the [i]-th notification, for all who
    wait. *)
Definition covered (i : nat) (h : vhash) : Prop := forall q, h_q h = Some q ->
  match nth_error (h_notif h) i with
  | Some (Some n) => 0 <= slack q + n
  | Some None => True
  | None => False
  end.
Lemma covered_queue i h e : covered i h -> (forall q, slack q <= slack (astep q e)) -> covered i (h_queue h e).
Proof.
  unfold covered, h_queue. intros C S. destruct (h_q h) as [q|] eqn:E; [|rewrite E; discriminate].
  cbn. intros q' X. injection X as <-. specialize (C q eq_refl). destruct (nth_error (h_notif h) i) as [[n|]|]; auto.
  specialize (S q). lia.
Qed.
Lemma covered_app i h h' l : covered i h -> h_q h' = h_q h -> h_notif h' = h_notif h ++ l -> covered i h'.
Proof.
  unfold covered. intros C -> -> q E. specialize (C q E).
  destruct (nth_error (h_notif h) i) eqn:N; [|contradiction].
  rewrite nth_error_app1 by (apply nth_error_Some; congruence). now rewrite N.
Qed.
Lemma covered_same i h h' : covered i h -> h_q h' = h_q h -> h_notif h' = h_notif h -> covered i h'.
Proof. unfold covered. now intros C -> ->. Qed.
Lemma covered_step i h e h' : winv h -> match e with HEWait _ => False | _ => True end ->
  (exists o, nth_error (h_notif h) i = Some o) -> covered i h -> hstep h e = Ok h' ->
  (exists o, nth_error (h_notif h') i = Some o) /\ covered i h'.
Proof.
  unfold hstep. intros [Q P] W (o & O) C E. destruct (h_freed h) eqn:R; [discriminate|]. injection E as <-.
  assert (AP : forall l, exists o, nth_error (h_notif h ++ l) i = Some o).
  { intros l. exists o. rewrite nth_error_app1; [exact O|]. apply nth_error_Some. congruence. }
  destruct e as [k v kd vd|k|k| |k|k|k| | | |j|j k|t us|j| |k|k].
  - split; [apply AP|]. eapply covered_app; [exact C|reflexivity..].
  - split; [exists o; exact O|]. eapply covered_same; [exact C|reflexivity..].
  - split; [exists o; exact O|]. eapply covered_same; [exact C|reflexivity..].
  - split; [exists o; exact O|]. eapply covered_same; [exact C|reflexivity..].
  - split; [apply AP|]. eapply covered_app; [exact C|reflexivity..].
  - split; [apply AP|]. eapply covered_app; [exact C|reflexivity..].
  - split; [apply AP|]. eapply covered_app; [exact C|reflexivity..].
  - split; [apply AP|]. eapply covered_app; [exact C|reflexivity..].
  - split; [exists o; exact O|]. eapply covered_same; [exact C|reflexivity..].
  - unfold h_unref. destruct (negb (h_refs h - 1 =? 0)); split; try (exists o; exact O).
    + eapply covered_same; [exact C|reflexivity..].
    + intros q. discriminate.
  - destruct (pick j (h_dead h)) as [[e r]|]; (split; [exists o; exact O|]; eapply covered_same; [exact C|reflexivity..]).
  - unfold h_notify. destruct (nth_error (h_notif h) j) as [[n|]|] eqn:N.
    + destruct (0 <? n) eqn:N0; [|split; [exists o; exact O|exact C]].
      match goal with |- context [h_queue ?x ?y] => destruct (queue_fields x y) as (F & _) end.
      split.
      { rewrite F. cbn. rewrite nth_set. destruct (Nat.eqb j i); rewrite O; eauto. }
      unfold covered. rewrite F. cbn [set_notif h_notif]. unfold h_queue. cbn [h_q set_notif]. destruct (h_q h) as [q|] eqn:HQ; [|cbn; rewrite HQ; discriminate].
      cbn [h_q]. intros q' X. assert (q' = astep q (EPush 1 k)) as -> by congruence. clear X. specialize (C q HQ). rewrite nth_set. rewrite O in *.
      pose proof (slack_push q 1 k ltac:(lia)) as S.
      destruct (Nat.eqb j i) eqn:J.
      * apply Nat.eqb_eq in J as ->. rewrite O in N. injection N as ->. rewrite S. lia.
      * destruct o as [m|]; [|exact I]. rewrite S. lia.
    + split.
      { cbn. rewrite nth_set. destruct (Nat.eqb j i); rewrite O; eauto. }
      intros q. cbn. intros HQ. specialize (C q HQ). rewrite nth_set. rewrite O in *. rewrite HQ.
      unfold qok in Q. rewrite HQ in Q. destruct Q as (Q & _).
      destruct (Nat.eqb j i) eqn:J; [|exact C].
      unfold slack. rewrite Q. unfold zlen. lia.
    + split; [exists o; exact O|exact C].
  - destruct (0 <=? us); [|split; [exists o; exact O|]; eapply covered_same; [exact C|reflexivity..]].
    split; [exists o; exact O|]. unfold covered, h_enter. cbn. intros q X.
    destruct (h_q h) as [q1|] eqn:HQ.
    + apply C. congruence.
    + injection X as <-. rewrite O. destruct o as [n|]; [|exact I]. apply P in O. cbn. lia.
  - destruct W.
  - destruct (0 <? h_out h); [|split; [exists o; exact O|exact C]].
    unfold h_unref. cbn. destruct (negb (h_refs h - 1 =? 0)); split; try (exists o; exact O).
    + eapply covered_same; [exact C|reflexivity..].
    + intros q. discriminate.
  - destruct (queue_fields h (EWake k)) as (F & _). split; [rewrite F; eauto|].
    apply covered_queue; [exact C|]. intros q. cbn. rewrite slack_signal. lia.
  - destruct (queue_fields h (ERun k)) as (F & _). split; [rewrite F; eauto|].
    apply covered_queue; [exact C|]. intros q. apply slack_run.
Qed.
Lemma covered_run i es : forall h h', winv h -> no_waits es ->
  (exists o, nth_error (h_notif h) i = Some o) -> covered i h -> hrun h es = Ok h' -> covered i h'.
Proof.
  unfold no_waits. induction es as [|e es IH]; cbn; intros h h' V W O C E; [now injection E as <-|].
  inversion W as [|? ? We Wes]; subst. destruct (hstep h e) as [h1|] eqn:S; [|discriminate]. cbn in E.
  destruct (covered_step i h e h1 V We O C S) as (O1 & C1).
  apply (IH h1 h'); auto. now apply winv_step with h e.
Qed.
Lemma run_notified es1 es2 h h' i q : hrun h0 es1 = Ok h -> hrun h es2 = Ok h' ->
  nth_error (h_notif h) i = Some None -> no_waits es2 -> nth_error (h_notif h') i = Some (Some 0) ->
  h_q h' = Some q -> aq_woken q = [] -> aq_blocked q = [].
Proof.
  intros E1 E2 N W N' HQ WK. pose proof (winv_run es1 _ _ winv_h0 E1) as V.
  assert (C : covered i h') .
  { apply (covered_run i es2 h); eauto. intros q0 _. now rewrite N. }
  specialize (C q HQ). rewrite N' in C.
  pose proof (winv_run es2 _ _ V E2) as [Q _]. unfold qok in Q. rewrite HQ in Q. destruct Q as (_ & A).
  unfold slack, waiting, zlen in C. rewrite WK in *. destruct (aq_blocked q) as [|w b] eqn:B; [reflexivity|].
  specialize (A ltac:(congruence)). cbn [length] in *. lia.
Qed.

(** ** References: who is inside of lock_until_changed has one *)
Lemma log_grows q e : exists w, aq_log (astep q e) = aq_log q ++ w.
Proof.
  destruct e as [x k|x k|xs k|t|t us|k|k]; cbn [astep].
  - destruct (nonnull x); [|exists []; now rewrite app_nil_r]. unfold push.
    destruct (signal_waiters_data (unlocked_push q x) k) as (_ & -> & _). cbn. eauto.
  - destruct (nonnull x); [|exists []; now rewrite app_nil_r]. unfold priority_push.
    match goal with |- context [signal_waiters ?a ?b] => destruct (signal_waiters_data a b) as (_ & -> & _) end. cbn. eauto.
  - unfold batch. match goal with |- context [signal_waiters ?a ?b] => destruct (signal_waiters_data a b) as (_ & -> & _) end.
    generalize (filter nonnull xs) as l. intros l. revert q. induction l as [|x l IH]; intros q; cbn; [exists []; now rewrite app_nil_r|].
    destruct (IH (unlocked_push q x)) as (w & ->). cbn. rewrite <- app_assoc. eauto.
  - unfold pop_enter. destruct (take _ t) eqn:T; [|exists []; cbn; now rewrite app_nil_r].
    apply take_some in T as (x & r & _ & ->). cbn. eauto.
  - destruct (0 <? us); [|cbn; eauto]. unfold pop_enter. destruct (take _ t) eqn:T; [|exists []; cbn; now rewrite app_nil_r].
    apply take_some in T as (x & r & _ & ->). cbn. eauto.
  - destruct (signal_data q k) as (_ & -> & _). exists []. now rewrite app_nil_r.
  - unfold pop_resume. destruct (pick k (aq_woken q)) as [[w r]|]; [|exists []; now rewrite app_nil_r].
    destruct (take _ (wt_id w)) eqn:T.
    + apply take_some in T as (x & r' & _ & ->). cbn. eauto.
    + destruct (wt_timed w); cbn; [eauto|exists []; now rewrite app_nil_r].
Qed.
Lemma waits_len q e : zlen (waits_of (aq_log q) (aq_log (astep q e))) = rets (aq_log (astep q e)) - rets (aq_log q).
Proof.
  destruct (log_grows q e) as (w & ->). rewrite rets_app. unfold waits_of.
  rewrite skipn_app, Nat.sub_diag, skipn_all. cbn [skipn app].
  replace (rets (aq_log q) + rets w - rets (aq_log q)) with (rets w) by lia.
  induction w as [|o w IH]; [reflexivity|]. unfold rets, zlen in *. cbn [flat_map filter]. rewrite app_length.
  destruct o; cbn [length]; lia.
Qed.
Definition nwait (h : vhash) : Z := match h_q h with Some q => aq_waiters q | None => 0 end.
Lemma queue_count h e : h_q h <> None ->
  nwait (h_queue h e) + h_out (h_queue h e) = nwait h + h_out h + calls [e] + nulls [e].
Proof.
  unfold nwait, h_queue. destruct (h_q h) as [q|]; [|congruence]. intros _. cbn [h_q h_out].
  rewrite waits_len. pose proof (calls_step q e). lia.
Qed.
(** References taken and dropped by the users. *)
Definition held (es : list hev) : Z :=
  fold_left (fun n e => match e with HERef => n + 1 | HEUnref => n - 1 | _ => n end) es 1.
Definition refs_ok (n : Z) (h : vhash) : Prop :=
  (h_q h = None -> h_in h = []) /\ h_refs h = n + zlen (h_in h) + nwait h + h_out h.
Definition held1 (n : Z) (e : hev) : Z := match e with HERef => n + 1 | HEUnref => n - 1 | _ => n end.
Lemma refs_queue n h e : refs_ok n h -> calls [e] = 0 -> nulls [e] = 0 -> refs_ok n (h_queue h e).
Proof.
  intros (A & B) C D. destruct (h_q h) eqn:HQ.
  - pose proof (queue_count h e ltac:(congruence)). destruct (queue_fields h e) as (_ & _ & R & N). unfold refs_ok. rewrite R, N.
    split; [|lia]. unfold h_queue. rewrite HQ. discriminate.
  - unfold h_queue. rewrite HQ. split; [auto|exact B].
Qed.
Lemma refs_step n h e h' : refs_ok n h -> hstep h e = Ok h' -> h_freed h' = false -> refs_ok (held1 n e) h'.
Proof.
  unfold hstep. intros RO E F. destruct (h_freed h) eqn:R; [discriminate|]. injection E as <-.
  pose proof RO as (A & B).
  destruct e as [k v kd vd|k|k| |k|k|k| | | |i|i k|t us|i| |k|k]; cbn [held1]; try exact RO.
  - unfold refs_ok, nwait in *. cbn in *. split; [exact A|lia].
  - unfold h_unref in *. destruct (negb (h_refs h - 1 =? 0)); [|cbn in F; discriminate].
    unfold refs_ok, nwait in *. cbn in *. split; [exact A|lia].
  - destruct (pick i (h_dead h)) as [[e r]|]; exact RO.
  - unfold h_notify in *. destruct (nth_error (h_notif h) i) as [[m|]|]; [| |exact RO].
    + destruct (0 <? m); [|exact RO]. apply refs_queue; [exact RO|reflexivity|reflexivity].
    + exact RO.
  - destruct (0 <=? us); [|exact RO]. unfold refs_ok, nwait, h_enter in *. cbn in *. unfold zlen in *. rewrite app_length. cbn.
    destruct (h_q h); cbn in *; split; try discriminate; try lia.
  - unfold h_wait in *. destruct (pick i (h_in h)) as [[[t us] r]|] eqn:P; [|exact RO].
    assert (N0 : h_in h <> []) by (intros Z0; rewrite Z0 in P; destruct i; discriminate).
    apply pick_len in P.
    set (h1 := mkH _ _ _ _ _ _ r _ _ _) in *.
    assert (Q1 : h_q h1 <> None) by (cbn; intros X; apply N0; auto).
    pose proof (queue_count h1 (if 0 <? us then ETimed t us else EPop t) Q1) as C.
    destruct (queue_fields h1 (if 0 <? us then ETimed t us else EPop t)) as (_ & _ & R1 & R2).
    unfold refs_ok. rewrite R1, R2. split.
    + unfold h_queue. destruct (h_q h1) eqn:X; [discriminate|]. cbn in X. congruence.
    + assert (CN : calls [if 0 <? us then ETimed t us else EPop t] + nulls [if 0 <? us then ETimed t us else EPop t] = 1).
      { unfold calls, nulls. destruct (0 <? us) eqn:U; cbn; rewrite ?U; reflexivity. }
      unfold nwait in *. cbn in *. unfold zlen in *. rewrite P in B. cbn [length] in B. lia.
  - destruct (0 <? h_out h) eqn:O; [|exact RO]. unfold h_unref in *. cbn [h_refs] in *.
    destruct (negb (h_refs h - 1 =? 0)); [|cbn in F; discriminate].
    unfold refs_ok, nwait in *. cbn in *. split; [exact A|lia].
  - apply refs_queue; auto.
  - apply refs_queue; auto.
Qed.
Lemma freed_final es : forall h h', h_freed h = true -> hrun h es = Ok h' -> es = [].
Proof. intros h h' F E. destruct es as [|e es]; [reflexivity|]. cbn in E. unfold hstep in E. rewrite F in E. discriminate. Qed.
Lemma refs_run es : forall n h h', refs_ok n h -> hrun h es = Ok h' -> h_freed h' = false -> refs_ok (fold_left held1 es n) h'.
Proof.
  induction es as [|e es IH]; cbn; intros n h h' H E F; [now injection E as <-|].
  destruct (hstep h e) as [h1|] eqn:S; [|discriminate]. cbn in E.
  destruct (h_freed h1) eqn:F1.
  - pose proof (freed_final es h1 h' F1 E) as ->. cbn in E. injection E as <-. congruence.
  - apply IH with h1; auto. now apply refs_step with h.
Qed.
Lemma run_refs es h : hrun h0 es = Ok h -> h_freed h = false -> refs_ok (held es) h.
Proof. intros E F. apply (refs_run es 1 h0); auto. split; [auto|reflexivity]. Qed.

(** ** Counterexamples *)
Lemma stolen : exists es h q, hrun h0 es = Ok h /\ h_q h = Some q /\
  changes (h_log h) = 1 /\ Forall (eq (Some 0)) (h_notif h) /\
  nth_error es 1 = Some (HEWait 0) /\ nth_error es 2 = Some (HEInsert 5 7 false false) /\
  aq_blocked q = [mkWt 1 false] /\ aq_woken q = [] /\ told (h_log h) 1 = [].
Proof.
  exists [HEEnter 1 0; HEWait 0; HEInsert 5 7 false false; HENotify 0 0; HENotify 0 0; HEEnter 2 0; HEWait 0; HERun 0].
  eexists. eexists. split; [cbv; reflexivity|]. cbn. repeat split; repeat constructor.
Qed.
Lemma gap : exists es h q, hrun h0 es = Ok h /\ h_q h = Some q /\
  es = [HEInsert 5 7 false false; HENotify 0 0; HEExists 5; HEEnter 1 0; HERemove 5; HENotify 1 0; HEWait 0] /\
  Forall (eq (Some 0)) (h_notif h) /\ h_tab h = [] /\
  aq_blocked q = [mkWt 1 false] /\ aq_woken q = [] /\ told (h_log h) 1 = [].
Proof.
  eexists. eexists. eexists. split; [|split; [|split; [reflexivity|]]]; [cbv; reflexivity|cbv; reflexivity|].
  cbn. repeat split; repeat constructor.
Qed.
Lemma stale : exists es1 es2 h1 h2, hrun h0 es1 = Ok h1 /\ hrun h1 es2 = Ok h2 /\
  es2 = [HEEnter 1 0; HEWait 0] /\ changes (h_log h2) = changes (h_log h1) /\
  Forall (eq (Some 0)) (h_notif h1) /\ told (h_log h1) 1 = [1] /\ told (h_log h2) 1 = [1; 1].
Proof.
  exists [HEEnter 1 0; HEWait 0; HEInsert 5 7 false false; HEInsert 6 8 false false; HENotify 0 0; HENotify 1 0;
          HENotify 0 0; HENotify 1 0; HERun 0; HELeave].
  eexists. eexists. eexists. split; [cbv; reflexivity|]. split; [|split; [reflexivity|]]; [cbv; reflexivity|].
  cbn. repeat split; repeat constructor.
Qed.
Lemma locked_clear : exists es h e, hrun h0 es = Ok h /\ In (HCleanup e true) (h_log h) /\ h_freed h = false /\ he_vd e = true.
Proof.
  exists [HEInsert 5 7 false true; HEClear]. eexists. eexists. split; [cbv; reflexivity|]. cbn. split; [right; right; left; reflexivity|]. auto.
Qed.
(** Only clear and the last unref call destroy functions with the table locked. *)
Definition locks (e : hev) : bool := match e with HEClear => true | _ => false end.
Definition no_locked (log : list hobs) : Prop := forall e, ~ In (HCleanup e true) log.
Lemma no_locked_app a b : no_locked a -> no_locked b -> no_locked (a ++ b).
Proof. unfold no_locked. intros A B e I. apply in_app_iff in I as [I|I]; [now apply (A e)|now apply (B e)]. Qed.
Lemma no_locked_waits a b : no_locked (waits_of a b).
Proof.
  intros e I. unfold waits_of in I. apply in_flat_map in I as (o & _ & I). destruct o; cbn in I; intuition discriminate.
Qed.
Lemma no_locked_queue h e : no_locked (h_log h) -> no_locked (h_log (h_queue h e)).
Proof. unfold h_queue. destruct (h_q h); [|auto]. cbn. intros N. apply no_locked_app; [exact N|apply no_locked_waits]. Qed.
Lemma no_locked_step h e h' : hstep h e = Ok h' -> locks e = false -> h_freed h' = false -> no_locked (h_log h) -> no_locked (h_log h').
Proof.
  unfold hstep. destruct (h_freed h) eqn:R; [discriminate|]. intros E L F N. injection E as <-.
  destruct e as [k v kd vd|k|k| |k|k|k| | | |i|i k|t us|i| |k|k]; try discriminate; try exact N;
    try (apply no_locked_app; [exact N|]; intros e0 I; cbn in I; intuition discriminate).
  - apply no_locked_app; [exact N|]. intros e0 I. cbn in I. destruct I as [I|I]; [discriminate|].
    destruct (hsome (hfind k (h_tab h))); cbn in I; intuition discriminate.
  - apply no_locked_app; [exact N|]. intros e0 I. apply in_app_iff in I as [I|[I|I]]; try discriminate.
    + apply in_map_iff in I as (x & X & _). discriminate.
    + destruct (hsome (hfind k (h_tab h))); cbn in I; intuition discriminate.
  - apply no_locked_app; [exact N|]. intros e0 I. apply in_app_iff in I as [I|[I|I]]; try discriminate.
    + apply in_map_iff in I as (x & X & _). discriminate.
    + destruct (hsome (hfind k (h_tab h))); cbn in I; intuition discriminate.
  - unfold h_unref in *. destruct (negb (h_refs h - 1 =? 0)); [exact N|cbn in F; discriminate].
  - destruct (pick i (h_dead h)) as [[e0 r]|]; [|exact N]. apply no_locked_app; [exact N|]. intros e1 I. cbn in I. intuition discriminate.
  - unfold h_notify in *. destruct (nth_error (h_notif h) i) as [[m|]|]; try exact N. destruct (0 <? m); [|exact N].
    now apply no_locked_queue.
  - destruct (0 <=? us); [exact N|]. apply no_locked_app; [exact N|]. intros e0 I. cbn in I. intuition discriminate.
  - unfold h_wait in *. destruct (pick i (h_in h)) as [[[t us] r]|]; [|exact N]. now apply no_locked_queue.
  - destruct (0 <? h_out h); [|exact N]. unfold h_unref in *. cbn [h_refs] in *.
    destruct (negb (h_refs h - 1 =? 0)); [exact N|cbn in F; discriminate].
  - now apply no_locked_queue.
  - now apply no_locked_queue.
Qed.
Lemma no_locked_run es : forall h h', hrun h es = Ok h' -> Forall (fun e => e <> HEClear) es -> h_freed h' = false ->
  no_locked (h_log h) -> no_locked (h_log h').
Proof.
  induction es as [|e es IH]; cbn; intros h h' E NC F N; [now injection E as <-|].
  inversion NC as [|? ? Ne Nes]; subst. destruct (hstep h e) as [h1|] eqn:S; [|discriminate]. cbn in E.
  destruct (h_freed h1) eqn:F1.
  - pose proof (freed_final es h1 h' F1 E) as ->. cbn in E. injection E as <-. congruence.
  - apply (IH h1 h' E Nes F). apply (no_locked_step h e h1 S); auto. now destruct e.
Qed.
Lemma run_unlocked es h : hrun h0 es = Ok h -> Forall (fun e => e <> HEClear) es -> h_freed h = false ->
  forall e, ~ In (HCleanup e true) (h_log h).
Proof. intros E NC F. apply (no_locked_run es h0 h E NC F). intros e []. Qed.
