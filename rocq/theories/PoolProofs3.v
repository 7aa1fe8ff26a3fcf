From Coq Require Import Permutation.
From Verif Require Import Base AsyncModel AsyncSpec AsyncProofs TimeModel TimeSpec TimeProofs PoolModel PoolSpec PoolProofs PoolProofs2.

Lemma ok_inj A (a b : A) : Ok a = Ok b -> a = b.
Proof. congruence. Qed.

(** ** The number of threads *)
Lemma add_size p n made : size p <= size (add_internal p n made) <= size p + Z.max 0 n.
Proof.
  unfold size, add_internal, zlen. fields. rewrite app_length, zseq_len. destruct (0 <? n) eqn:E; lia.
Qed.
Lemma resize_size p t now later made p' : resize p t now later made = Ok p' ->
  tp_conf p' = tp_conf p /\ size p' <= Z.max (size p) (tc_max (tp_conf p) + tc_add (tp_conf p) - 1).
Proof.
  unfold resize. destruct (negb _ || _ || _); [intros H; injection H as <-; split; [auto|lia]|].
  destruct (timeval_substract now (tp_last p)) as [[[d b] l]|]; [|discriminate]. cbn [obind].
  destruct (_ && _ && _ && _) eqn:C.
  { intros H. injection H as <-. split; [reflexivity|]. pose proof (add_size p (tc_add (tp_conf p)) made) as A.
    change (size (say (with_last (add_internal p (tc_add (tp_conf p)) made) later) _)) with (size (add_internal p (tc_add (tp_conf p)) made)).
    change (zlen (tp_threads p)) with (size p) in C. lia. }
  destruct (_ && _ && _ && _ && _); intros H; injection H as <-; (split; [reflexivity|]);
    change (size p <= Z.max (size p) (tc_max (tp_conf p) + tc_add (tp_conf p) - 1)); lia.
Qed.
Lemma filter_le {A} (f : A -> bool) l : zlen (filter f l) <= zlen l.
Proof. unfold zlen. induction l as [|x l IH]; cbn; [lia|]. destruct (f x); cbn; lia. Qed.
Lemma size_step p e p' : pstep p e = Ok p' -> by_hand e = false ->
  tp_conf p' = tp_conf p /\ size p' <= Z.max (size p) (tc_max (tp_conf p) + tc_add (tp_conf p) - 1).
Proof.
  intros H B.
  assert (SAME : forall q, tp_conf q = tp_conf p -> tp_threads q = tp_threads p ->
            tp_conf q = tp_conf p /\ size q <= Z.max (size p) (tc_max (tp_conf p) + tc_add (tp_conf p) - 1)).
  { intros q C T. split; [auto|]. unfold size. rewrite T. lia. }
  destruct e as [|k|t now later made k|k|k|k|n made|n|c now| | |k]; cbn [pstep] in H; try discriminate B.
  - destruct (tp_stopping p); injection H as <-; apply SAME; reflexivity.
  - destruct (0 <? tp_subm p); injection H as <-; apply SAME; reflexivity.
  - unfold thread_step in H.
    destruct (holds p t); [injection H as <-; apply SAME; reflexivity|].
    destruct (state_of (tp_run p) t) as [s|]; [|injection H as <-; apply SAME; reflexivity].
    assert (RZ : forall s', (let! q := resize p t now later made in Ok (goto q t s')) = Ok p' ->
              tp_conf p' = tp_conf p /\ size p' <= Z.max (size p) (tc_max (tp_conf p) + tc_add (tp_conf p) - 1)).
    { intros s' E. destruct (resize p t now later made) as [q|] eqn:R; [|discriminate]. cbn in E. injection E as <-.
      apply resize_size in R. exact R. }
    destruct s as [| |x|n|n| | |w].
    + injection H as <-. apply SAME; reflexivity.
    + injection H as <-. apply SAME; reflexivity.
    + destruct (x =? 0).
      { destruct (tp_exit p); [injection H as <-; apply SAME; reflexivity|]. destruct (hold_free p); [eauto|injection H as <-; apply SAME; reflexivity]. }
      destruct (x =? 3).
      { destruct (joining p); [injection H as <-; apply SAME; reflexivity|]. injection H as <-. destruct (tp_stopped p); apply SAME; reflexivity. }
      destruct (x =? 2).
      { destruct (joining p || negb (hold_free p)); injection H as <-; [apply SAME; reflexivity|]. split; [reflexivity|].
        unfold size, goto, with_run. fields. pose proof (filter_le (fun i => negb (i =? t)) (tp_threads p)). lia. }
      destruct (x =? 1).
      { destruct (tp_stopping p); [|discriminate]. injection H as <-. apply SAME; reflexivity. }
      injection H as <-. apply SAME; reflexivity.
    + destruct (tp_exit p); [injection H as <-; apply SAME; reflexivity|]. destruct (hold_free p); [eauto|injection H as <-; apply SAME; reflexivity].
    + injection H as <-. apply SAME; reflexivity.
    + destruct (_ || tp_exit p); [injection H as <-; apply SAME; reflexivity|]. destruct (hold_free p); [eauto|injection H as <-; apply SAME; reflexivity].
    + injection H as <-. apply SAME; reflexivity.
    + injection H as <-. destruct (state_of (tp_run p) w); apply SAME; reflexivity.
  - injection H as <-; apply SAME; reflexivity.
  - injection H as <-; apply SAME; reflexivity.
  - injection H as <-. destruct (tp_hold p) as [[h n]|]; apply SAME; reflexivity.
  - injection H as <-. destruct (_ && _); apply SAME; reflexivity.
  - injection H as <-. destruct (hold_free p); apply SAME; reflexivity.
  - injection H as <-. apply SAME; reflexivity.
  - injection H as <-. destruct (_ && _); apply SAME; reflexivity.
Qed.
Lemma size_run es : forall p p', prun p es = Ok p' -> forallb (fun e => negb (by_hand e)) es = true ->
  size p' <= Z.max (size p) (tc_max (tp_conf p) + tc_add (tp_conf p) - 1).
Proof.
  induction es as [|e es IH]; intros p p' R B; cbn [prun forallb] in *.
  - injection R as <-. lia.
  - destruct (pstep p e) as [q|] eqn:E; [|discriminate]. cbn in R. apply andb_prop in B as (B1 & B2).
    destruct (size_step p e q E) as (C & S); [now destruct (by_hand e)|]. specialize (IH q p' R B2). rewrite C in IH. lia.
Qed.

(** ** Stop beacons *)
Definition ftwo (t : Z) (s : tstate) : list Z := match s with TGot x => if x =? 2 then [t] else [] | _ => [] end.
Definition twos (l : list Z) : Z := zlen (filter (fun x => x =? 2) l).
Definition left (p : tpool) : Z := match tp_hold p with Some (_, n) => n | None => 0 end.
Lemma two_collect l : zlen (filter (fun e => match snd e with TGot x => x =? 2 | _ => false end) l) = zlen (collect ftwo l).
Proof.
  unfold zlen. induction l as [|[t s] l IH]; cbn [filter collect flat_map]; [auto|]. fold (collect ftwo l).
  rewrite app_length. cbn [fst snd]. destruct s; cbn [ftwo length]; auto. destruct (x =? 2); cbn [length]; lia.
Qed.
Lemma outstanding_eq p : outstanding p = twos (aq_data (tp_q p)) + zlen (collect ftwo (tp_run p)) + left p.
Proof. unfold outstanding. now rewrite two_collect. Qed.

Lemma two_set l t s s' : NoDup (map fst l) -> state_of l t = Some s ->
  zlen (collect ftwo (set_state l t s')) = zlen (collect ftwo l) - zlen (ftwo t s) + zlen (ftwo t s').
Proof.
  intros N S. destruct (collect_set _ ftwo l t s s' N S) as (r & A & B). apply Permutation_length in A, B.
  unfold zlen. rewrite app_length in A, B. lia.
Qed.
Lemma twos_rev r : twos (rev r) = twos r.
Proof. unfold twos, zlen. induction r as [|x r IH]; cbn [rev]; [auto|]. rewrite filter_app, app_length. cbn [filter]. destruct (x =? 2); cbn [length]; lia. Qed.

Definition slack (p : tpool) : Z := size p - outstanding p.

Lemma slack_frame p q : tp_q q = tp_q p -> tp_run q = tp_run p -> tp_hold q = tp_hold p -> tp_threads q = tp_threads p -> slack q = slack p.
Proof. intros A B C D. unfold slack, size, outstanding. now rewrite A, B, C, D. Qed.
Lemma slack_goto p t s s' q : NoDup (map fst (tp_run p)) -> state_of (tp_run p) t = Some s -> ftwo t s = [] -> ftwo t s' = [] ->
  tp_q q = tp_q p -> tp_run q = set_state (tp_run p) t s' -> tp_hold q = tp_hold p -> tp_threads q = tp_threads p -> slack q = slack p.
Proof.
  intros N S F F' A B C D. unfold slack, size. rewrite !outstanding_eq. unfold left. rewrite A, B, C, D.
  rewrite (two_set _ _ _ _ N S), F, F'. cbn. lia.
Qed.
Lemma slack_push p x k : 0 < x -> slack (p_queue p (EPush x k)) = slack p - (if x =? 2 then 1 else 0).
Proof.
  intros X. destruct (q_push_shape (tp_q p) x k X) as (L & D & _). unfold slack, size. rewrite !outstanding_eq.
  unfold p_queue, left. cbn [tp_q tp_run tp_hold tp_threads]. rewrite L, results_app, D. cbn [flat_map app fold_left].
  unfold twos, zlen. cbn [filter]. destruct (x =? 2); cbn [length]; lia.
Qed.
Lemma slack_wake p k : slack (p_queue p (EWake k)) = slack p.
Proof.
  unfold slack, size. rewrite !outstanding_eq. unfold p_queue, left. cbn [tp_q tp_run tp_hold tp_threads].
  change (astep (tp_q p) (EWake k)) with (signal (tp_q p) k). destruct (signal_data (tp_q p) k) as (-> & -> & _).
  rewrite results_same. cbn [fold_left]. reflexivity.
Qed.
Lemma slack_resume p k : pinv p -> slack (p_queue p (ERun k)) = slack p.
Proof.
  intros I. unfold slack, size. rewrite !outstanding_eq. unfold p_queue, left. cbn [tp_q tp_run tp_hold tp_threads].
  change (astep (tp_q p) (ERun k)) with (pop_resume (tp_q p) k). unfold pop_resume.
  destruct (pick k (aq_woken (tp_q p))) as [[w b]|] eqn:P; [|rewrite results_same; reflexivity].
  apply pick_perm in P.
  assert (S : state_of (tp_run p) (wt_id w) = Some TWait).
  { apply waiting_state; [auto|]. rewrite P, map_app. apply in_app_iff. right. cbn. auto. }
  assert (T : wt_timed w = true).
  { pose proof (v_timed p I) as V. rewrite P in V. apply Forall_app in V as (_ & V). now inversion V. }
  destruct (take _ (wt_id w)) as [q'|] eqn:TK.
  - apply take_some in TK as (x & r & E & ->). cbn [aq_log aq_data] in *. rewrite results_app. cbn [flat_map fold_left app fst snd].
    rewrite (two_set _ _ _ _ (v_ids p I) S). rewrite <- (twos_rev (aq_data (tp_q p))), E, twos_rev. cbn [ftwo].
    unfold twos. cbn [filter]. destruct (x =? 2); unfold zlen; cbn [length]; lia.
  - rewrite T. cbn [aq_log aq_data] in *. rewrite results_app. cbn [flat_map fold_left app fst snd].
    rewrite (two_set _ _ _ _ (v_ids p I) S). cbn. lia.
Qed.
Lemma slack_enter p t : pinv p -> state_of (tp_run p) t = Some TStart -> slack (p_queue (goto p t TWait) (ETimed t 100000)) = slack p.
Proof.
  intros I S. unfold slack, size. rewrite !outstanding_eq. unfold p_queue, left, goto, with_run. cbn [tp_q tp_run tp_hold tp_threads].
  change (astep (tp_q p) (ETimed t 100000)) with (pop_enter (tp_q p) t true). unfold pop_enter.
  assert (IT : In t (map fst (tp_run p))) by (apply state_in in S; now apply (in_map fst) in S).
  pose proof (v_ids p I) as N.
  destruct (take _ t) as [q'|] eqn:TK.
  - apply take_some in TK as (x & r & E & ->). cbn [aq_log aq_data] in *. rewrite results_app. cbn [flat_map fold_left app fst snd].
    rewrite (two_set _ t TWait (TGot x)), (two_set _ _ _ _ N S); [|now rewrite set_state_ids|now apply state_of_set].
    rewrite <- (twos_rev (aq_data (tp_q p))), E, twos_rev. cbn [ftwo].
    unfold twos. cbn [filter]. destruct (x =? 2); unfold zlen; cbn [length]; lia.
  - cbn [aq_log aq_data] in *. rewrite results_same. cbn [flat_map fold_left]. rewrite (two_set _ _ _ _ N S). cbn. lia.
Qed.
Lemma collect_two_start ids : collect ftwo (map (fun t => (t, TStart)) ids) = [].
Proof. now apply collect_start. Qed.
Lemma slack_add p n made : slack p <= slack (add_internal p n made).
Proof.
  unfold slack. pose proof (add_size p n made). rewrite !outstanding_eq. unfold add_internal at 2 3 4, left. fields.
  rewrite collect_app, collect_two_start, app_nil_r. lia.
Qed.
Lemma slack_remove p t n : hold_free p = true -> tp_hold (remove_internal p t n) <> None -> outstanding p = 0 -> 1 <= slack (remove_internal p t n).
Proof.
  intros H N O. unfold slack. rewrite outstanding_eq in *. unfold remove_internal, with_hold in *. fields. cbn [tp_hold] in N.
  unfold size, left in *. fields. set (m := Z.max 0 _) in *. destruct (0 <? m) eqn:E; [|congruence].
  unfold hold_free in H. destruct (tp_hold p); [discriminate|]. lia.
Qed.
Lemma remove_none p t n : hold_free p = true -> tp_hold (remove_internal p t n) = None -> slack (remove_internal p t n) = slack p.
Proof.
  intros H N. apply slack_frame; auto. rewrite N. unfold hold_free in H. now destruct (tp_hold p).
Qed.
Lemma resize_slack p t now later made p' : pinv p -> hold_free p = true -> resize p t now later made = Ok p' ->
  1 <= slack p -> (tp_hold p' <> None -> outstanding p = 0) -> 1 <= slack p'.
Proof.
  intros I F. unfold resize. destruct (negb _ || _ || _); [intros H; injection H as <-; auto|].
  destruct (timeval_substract now (tp_last p)) as [[[d b] l]|]; [|discriminate]. cbn [obind].
  destruct (_ && _ && _ && _) eqn:C.
  { intros H. injection H as <-. intros S _. rewrite (slack_frame (add_internal p (tc_add (tp_conf p)) made)) by reflexivity.
    pose proof (slack_add p (tc_add (tp_conf p)) made). lia. }
  destruct (_ && _ && _ && _ && _); intros H; injection H as <-; intros S A.
  - rewrite (slack_frame (remove_internal p t (tc_rem (tp_conf p)))) by reflexivity. cbn [tp_hold say with_last] in A.
    destruct (tp_hold (remove_internal p t (tc_rem (tp_conf p)))) eqn:E.
    + apply slack_remove; auto. congruence. apply A. congruence.
    + now rewrite remove_none.
  - rewrite (slack_frame p) by reflexivity. auto.
Qed.
Lemma hold_none p : hold_free p = true <-> tp_hold p = None.
Proof. unfold hold_free. destruct (tp_hold p); split; congruence. Qed.

Lemma slack_step p e p' : pinv p -> pstep p e = Ok p' -> (tp_hold p = None -> tp_hold p' <> None -> outstanding p = 0) ->
  1 <= slack p -> 1 <= slack p'.
Proof.
  intros I H A S. pose proof (v_ids p I) as N.
  assert (SAME : forall q, tp_q q = tp_q p -> tp_run q = tp_run p -> tp_hold q = tp_hold p -> tp_threads q = tp_threads p -> 1 <= slack q).
  { intros q Q1 Q2 Q3 Q4. now rewrite (slack_frame p q). }
  destruct e as [|k|t now later made k|k|k|k|n made|n|c now| | |k]; cbn [pstep] in H.
  - destruct (tp_stopping p); injection H as <-; apply SAME; reflexivity.
  - destruct (0 <? tp_subm p); apply ok_inj in H; subst p'; [|auto]. pose proof (v_sub p I) as (T & _).
    rewrite slack_push by lia. replace (4 + tp_tasks p =? 2) with false by lia. rewrite (slack_frame p) by reflexivity. lia.
  - unfold thread_step in H.
    destruct (holds p t); [injection H as <-; auto|].
    destruct (state_of (tp_run p) t) as [s|] eqn:ST; [|injection H as <-; auto].
    assert (GO : forall s' q, tp_run q = set_state (tp_run p) t s' -> ftwo t s = [] -> ftwo t s' = [] -> tp_q q = tp_q p ->
              tp_hold q = tp_hold p -> tp_threads q = tp_threads p -> 1 <= slack q).
    { intros s' q Q2 F F' Q1 Q3 Q4. now rewrite (slack_goto p t s s' q). }
    assert (RZ : forall s', ftwo t s = [] -> ftwo t s' = [] -> hold_free p = true ->
              (let! q := resize p t now later made in Ok (goto q t s')) = Ok p' -> 1 <= slack p').
    { intros s' F F' HF E. destruct (resize p t now later made) as [q|] eqn:R; [|discriminate]. cbn in E. injection E as <-.
      assert (IQ : pinv q) by (eapply inv_resize; eauto). destruct (resize_run _ _ _ _ _ _ R) as (ids & RR).
      rewrite (slack_goto q t s s' (goto q t s')); try reflexivity; auto; [|apply (v_ids q IQ)|rewrite RR; now apply state_of_app].
      apply (resize_slack p t now later made q I HF R S). intros HN. apply A; [now apply hold_none|]. exact HN. }
    destruct s as [| |x|n|n| | |w].
    + injection H as <-. now rewrite slack_enter.
    + injection H as <-. auto.
    + destruct (x =? 0) eqn:E0.
      { assert (x = 0) by lia; subst x.
        destruct (tp_exit p); [injection H as <-; eapply GO; reflexivity|].
        destruct (hold_free p) eqn:HF; [eapply (RZ TStart); eauto|injection H as <-; auto]. }
      destruct (x =? 3) eqn:E3.
      { assert (x = 3) by lia; subst x. destruct (joining p); [injection H as <-; auto|]. injection H as <-.
        destruct (tp_stopped p); eapply GO; reflexivity. }
      destruct (x =? 2) eqn:E2.
      { assert (x = 2) by lia; subst x. destruct (joining p || negb (hold_free p)); injection H as <-; [auto|].
        assert (IT : In t (tp_threads p)).
        { destruct (v_list p I) as (ended & P & _). rewrite P. apply in_app_iff. right. eapply collect_in; [exact ST|]. cbn. auto. }
        pose proof (filter_out_nodup _ t (v_thr p I) IT) as FP. apply Permutation_length in FP. cbn [length] in FP.
        unfold slack, size in *. rewrite outstanding_eq in *. unfold goto, with_run, left in *. fields.
        rewrite (two_set _ _ _ _ N ST). cbn [ftwo Z.eqb Pos.eqb]. unfold zlen in *. cbn [length]. lia. }
      destruct (x =? 1) eqn:E1.
      { destruct (tp_stopping p); [|discriminate]. injection H as <-. assert (x = 1) by lia; subst x.
        pose proof (collect_drop _ ftwo (tp_run p) t (TGot 1) N ST) as CD. cbn in CD. apply Permutation_length in CD.
        unfold slack, size in *. rewrite outstanding_eq in *. unfold with_run, left in *. fields. unfold zlen in *. lia. }
      injection H as <-. eapply GO; try reflexivity; cbn; rewrite ?E2; auto. now destruct (tc_preempt (tp_conf p)).
    + destruct (tp_exit p); [injection H as <-; eapply GO; reflexivity|]. destruct (hold_free p) eqn:HF; [eapply (RZ (TRun n)); eauto|injection H as <-; auto].
    + injection H as <-. eapply GO; reflexivity.
    + destruct (_ || tp_exit p); [injection H as <-; eapply GO; reflexivity|]. destruct (hold_free p) eqn:HF; [eapply (RZ TStart); eauto|injection H as <-; auto].
    + injection H as <-. rewrite slack_push by lia. cbn [Z.eqb Pos.eqb].
      pose proof (collect_drop _ ftwo (tp_run p) t TPush3 N ST) as CD. cbn in CD. apply Permutation_length in CD.
      unfold slack, size in *. rewrite outstanding_eq in *. unfold with_run, left in *. fields. unfold zlen in *. lia.
    + injection H as <-. destruct (state_of (tp_run p) w); [auto|]. eapply GO; reflexivity.
  - injection H as <-. now rewrite slack_wake.
  - injection H as <-. now rewrite slack_resume.
  - injection H as <-. destruct (tp_hold p) as [[h n]|] eqn:HD; [|auto]. rewrite slack_push by lia. cbn [Z.eqb Pos.eqb].
    pose proof (v_hold p I h n HD) as P. unfold slack in *. rewrite outstanding_eq in *. unfold left, with_hold, size in *. fields.
    rewrite HD in *. destruct (1 <? n) eqn:E; lia.
  - injection H as <-. destruct (hold_free p); [|auto]. pose proof (slack_add p n made). lia.
  - destruct (hold_free p && (0 <? n)) eqn:E; injection H as <-; [|auto]. apply andb_prop in E as (HF & _).
    destruct (tp_hold (remove_internal p (-1) n)) eqn:HD.
    + apply slack_remove; auto; [congruence|]. apply A; [now apply hold_none|congruence].
    + now rewrite remove_none.
  - injection H as <-. destruct (hold_free p); [|auto]. apply SAME; reflexivity.
  - injection H as <-. destruct (hold_free p); [|auto]. apply SAME; reflexivity.
  - injection H as <-. apply SAME; reflexivity.
  - injection H as <-. destruct (_ && _); [|auto]. rewrite slack_push by lia. cbn [Z.eqb Pos.eqb]. rewrite (slack_frame p) by reflexivity. lia.
Qed.
Lemma slack_run es : forall p p', pinv p -> prun p es = Ok p' -> alone p es -> 1 <= slack p -> 1 <= slack p'.
Proof.
  induction es as [|e es IH]; intros p p' I R A S; cbn [prun alone] in *.
  - now injection R as <-.
  - destruct (pstep p e) as [q|] eqn:E; [|discriminate]. cbn in R. destruct (A q eq_refl) as (A1 & A2).
    apply (IH q p'); auto; [eapply inv_step; eauto|eapply slack_step; eauto].
Qed.
Lemma outstanding_pos p : pinv p -> 0 <= outstanding p.
Proof.
  intros I. rewrite outstanding_eq. unfold left, twos, zlen. destruct (tp_hold p) as [[h n]|] eqn:E; [|lia].
  pose proof (v_hold p I h n E). lia.
Qed.
Lemma min_run n made es p : prun (tp0 n made) es = Ok p -> alone (tp0 n made) es -> 1 <= Z.min n made -> 1 <= size p.
Proof.
  intros R A N. pose proof (inv_init n made) as I.
  assert (1 <= slack p).
  { eapply slack_run; eauto. unfold slack. rewrite outstanding_eq. unfold tp0, size, add_internal, left. cbn [tp_q tp_run tp_hold tp_threads app aq0 aq_data].
    rewrite collect_two_start. unfold zlen. rewrite zseq_len. replace (0 <? n) with true by lia. cbn. lia. }
  pose proof (outstanding_pos p (inv_run _ _ _ I R)). unfold slack in *. lia.
Qed.
