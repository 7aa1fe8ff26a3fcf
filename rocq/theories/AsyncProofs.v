From Coq Require Import Permutation.
From Verif Require Import Base AsyncModel AsyncSpec.

Lemma pick_perm A k (l : list A) a r : pick k l = Some (a, r) -> Permutation l (a :: r).
Proof.
  unfold pick. destruct (nth_error l k) as [b|] eqn:E.
  - apply nth_error_split in E as (l1 & l2 & -> & <-).
    assert (S1 : skipn (S (length l1)) (l1 ++ b :: l2) = l2).
    { replace (S (length l1)) with (length (l1 ++ [b])) by (rewrite app_length; cbn; lia).
      replace (l1 ++ b :: l2) with ((l1 ++ [b]) ++ l2) by (rewrite <- app_assoc; reflexivity).
      now rewrite skipn_app, Nat.sub_diag, skipn_all. }
    rewrite S1, firstn_app, Nat.sub_diag, firstn_all. cbn [firstn]. rewrite app_nil_r.
    intros H. injection H as -> <-. symmetry. apply Permutation_middle.
  - destruct l; [discriminate|]. intros H. injection H as -> ->. reflexivity.
Qed.
Lemma pick_none A k (l : list A) : pick k l = None <-> l = [].
Proof.
  unfold pick. split.
  - destruct (nth_error l k); [discriminate|]. now destruct l.
  - intros ->. now destruct k.
Qed.
Lemma pick_len A k (l : list A) a r : pick k l = Some (a, r) -> length l = S (length r).
Proof. intros H. apply pick_perm in H. now apply Permutation_length in H. Qed.

(** ** The ideal line *)
Lemma signal_data q k : aq_data (signal q k) = aq_data q /\ aq_log (signal q k) = aq_log q
  /\ aq_waiters (signal q k) = aq_waiters q.
Proof. unfold signal. destruct (pick k (aq_blocked q)) as [[w b]|]; auto. Qed.
Lemma signal_waiters_data q k : aq_data (signal_waiters q k) = aq_data q /\ aq_log (signal_waiters q k) = aq_log q
  /\ aq_waiters (signal_waiters q k) = aq_waiters q.
Proof. unfold signal_waiters. destruct (0 <? aq_waiters q); auto using signal_data. Qed.

Definition good_line (q : aqueue) : Prop := line (aq_log q) (rev (aq_data q)).

Lemma good_signal q k : good_line q -> good_line (signal_waiters q k).
Proof. unfold good_line. destruct (signal_waiters_data q k) as (-> & -> & _). auto. Qed.
Lemma good_unlocked q x : good_line q -> good_line (unlocked_push q x).
Proof. unfold good_line, unlocked_push. cbn [aq_log aq_data rev]. apply ln_push. Qed.
Lemma good_fold xs : forall q, good_line q -> good_line (fold_left unlocked_push xs q).
Proof. induction xs as [|x xs IH]; intros q H; cbn [fold_left]; auto using good_unlocked. Qed.
Lemma take_some q t q' : take q t = Some q' -> exists x r, rev (aq_data q) = x :: r /\
  q' = mkAQ (rev r) (aq_waiters q - 1) (aq_blocked q) (aq_woken q) (aq_log q ++ [AGot t x]).
Proof.
  unfold take. destruct (rev (aq_data q)) as [|x r]; [discriminate|]. intros H. injection H as <-. eauto.
Qed.
Lemma take_none q t : take q t = None -> aq_data q = [].
Proof.
  unfold take. destruct (rev (aq_data q)) as [|x r] eqn:E; [|discriminate]. intros _.
  rewrite <- (rev_involutive (aq_data q)), E. reflexivity.
Qed.
Lemma good_take q t q' : good_line q -> take q t = Some q' -> good_line q'.
Proof.
  unfold good_line. intros H T. apply take_some in T as (x & r & E & ->). cbn [aq_log aq_data].
  rewrite rev_involutive. rewrite E in H. now apply ln_got.
Qed.
Lemma good_step q e : good_line q -> good_line (astep q e).
Proof.
  intros H. destruct e as [x k|x k|xs k|t|t us|k|k]; cbn [astep].
  - destruct (nonnull x); [|assumption]. apply good_signal, good_unlocked, H.
  - destruct (nonnull x); [|assumption]. apply good_signal. unfold good_line. cbn [aq_log aq_data].
    rewrite rev_app_distr. cbn. now apply ln_first.
  - apply good_signal, good_fold, H.
  - unfold pop_enter. destruct (take _ t) eqn:T; [|exact H].
    eapply good_take; [|exact T]. exact H.
  - destruct (0 <? us).
    + unfold pop_enter. destruct (take _ t) eqn:T; [|exact H].
      eapply good_take; [|exact T]. exact H.
    + unfold good_line. cbn. now apply ln_null.
  - unfold good_line. destruct (signal_data q k) as (-> & -> & _). exact H.
  - unfold pop_resume. destruct (pick k (aq_woken q)) as [[w r]|]; [|exact H].
    destruct (take _ (wt_id w)) eqn:T.
    + eapply good_take; [|exact T]. exact H.
    + destruct (wt_timed w); [|exact H]. unfold good_line. cbn. now apply ln_null.
Qed.
Lemma good_run es : forall q, good_line q -> good_line (arun q es).
Proof. induction es as [|e es IH]; intros q H; cbn; [exact H|]. apply IH. now apply good_step. Qed.
Lemma run_line es : line (aq_log (arun aq0 es)) (rev (aq_data (arun aq0 es))).
Proof. apply good_run. constructor. Qed.

Lemma put_in_app a b : put_in (a ++ b) = put_in a ++ put_in b.
Proof. apply flat_map_app. Qed.
Lemma given_app a b : given (a ++ b) = given a ++ given b.
Proof. apply flat_map_app. Qed.
Lemma line_perm log l : line log l -> Permutation (put_in log) (given log ++ l).
Proof.
  induction 1; rewrite ?put_in_app, ?given_app; cbn [put_in given flat_map]; rewrite ?app_nil_r; auto.
  - rewrite app_assoc. now apply Permutation_app_tail.
  - apply Permutation_trans with (x :: put_in log); [symmetry; apply Permutation_cons_append|].
    apply Permutation_trans with (x :: given log ++ l); [now constructor|]. apply Permutation_middle.
  - rewrite <- app_assoc. exact IHline.
Qed.
Definition is_first (o : aobs) : bool := match o with AFirst _ => true | _ => false end.
Lemma line_order log l : line log l -> existsb is_first log = false -> put_in log = given log ++ l.
Proof.
  induction 1; intros N; rewrite ?existsb_app in N; cbn in N;
    rewrite ?put_in_app, ?given_app; cbn [put_in given flat_map]; rewrite ?app_nil_r; auto.
  - rewrite orb_false_r in N. rewrite (IHline N). now rewrite app_assoc.
  - rewrite orb_true_r in N. discriminate.
  - rewrite orb_false_r in N. rewrite <- app_assoc. apply (IHline N).
  - rewrite orb_false_r in N. auto.
Qed.
Lemma fold_unlocked_log xs : forall q, existsb is_first (aq_log (fold_left unlocked_push xs q)) = existsb is_first (aq_log q).
Proof.
  induction xs as [|x xs IH]; intros q; cbn [fold_left]; [reflexivity|].
  rewrite IH. cbn. rewrite existsb_app. cbn. now rewrite orb_false_r.
Qed.
Lemma no_first_run es : no_priority es -> existsb is_first (aq_log (arun aq0 es)) = false.
Proof.
  intros H. unfold arun.
  enough (G : forall q, existsb is_first (aq_log q) = false -> existsb is_first (aq_log (fold_left astep es q)) = false) by now apply G.
  induction H as [|e es He Hes IH]; intros q Q; cbn [fold_left]; [exact Q|]. apply IH.
  destruct e as [x k|x k|xs k|t|t us|k|k]; cbn [astep].
  - destruct (nonnull x); [|exact Q]. unfold push. destruct (signal_waiters_data (unlocked_push q x) k) as (_ & -> & _).
    cbn. rewrite existsb_app, Q. reflexivity.
  - destruct He.
  - unfold batch. destruct (signal_waiters_data (fold_left unlocked_push (filter nonnull xs) q) k) as (_ & -> & _).
    now rewrite fold_unlocked_log.
  - unfold pop_enter. destruct (take _ t) eqn:T; [|exact Q]. apply take_some in T as (x & r & _ & ->).
    cbn. rewrite existsb_app, Q. reflexivity.
  - destruct (0 <? us).
    + unfold pop_enter. destruct (take _ t) eqn:T; [|exact Q]. apply take_some in T as (x & r & _ & ->).
      cbn. rewrite existsb_app, Q. reflexivity.
    + cbn. rewrite existsb_app, Q. reflexivity.
  - destruct (signal_data q k) as (_ & -> & _). exact Q.
  - unfold pop_resume. destruct (pick k (aq_woken q)) as [[w r]|]; [|exact Q].
    destruct (take _ (wt_id w)) eqn:T.
    + apply take_some in T as (x & r' & _ & ->). cbn. rewrite existsb_app, Q. reflexivity.
    + destruct (wt_timed w); [|exact Q]. cbn. rewrite existsb_app, Q. reflexivity.
Qed.

(** ** Wake ups *)
Definition waiting (q : aqueue) : Z := zlen (aq_blocked q) + zlen (aq_woken q).
Definition awake (q : aqueue) : Prop :=
  aq_waiters q = waiting q /\ (aq_blocked q <> [] -> (length (aq_data q) <= length (aq_woken q))%nat).

Lemma signal_spec q k : aq_waiters q = waiting q -> aq_waiters (signal_waiters q k) = waiting (signal_waiters q k)
  /\ (aq_blocked q <> [] -> (length (aq_woken (signal_waiters q k)) = S (length (aq_woken q)))%nat)
  /\ (aq_blocked q = [] -> signal_waiters q k = q).
Proof.
  unfold signal_waiters, waiting. intros W. destruct (0 <? aq_waiters q) eqn:P.
  - unfold signal. destruct (pick k (aq_blocked q)) as [[w b]|] eqn:E.
    + apply pick_len in E. cbn. unfold zlen in *. rewrite app_length. cbn. split; [lia|].
      split; [lia|]. intros Z0. rewrite Z0 in E. discriminate.
    + apply pick_none in E. split; [exact W|]. split; [congruence|auto].
  - split; [exact W|]. split; [|auto]. intros N. destruct (aq_blocked q) eqn:E; [congruence|]. unfold zlen in *. cbn [length] in *. lia.
Qed.
Lemma awake_signal q k (n : nat) : (n <= 1)%nat -> aq_waiters q = waiting q ->
  (aq_blocked q <> [] -> (length (aq_data q) <= n + length (aq_woken q))%nat) -> awake (signal_waiters q k).
Proof.
  intros Hn W H. destruct (signal_spec q k W) as (A & B & C). split; [exact A|].
  destruct (signal_waiters_data q k) as (-> & _ & _).
  destruct (aq_blocked q) eqn:E.
  - rewrite C by reflexivity. congruence.
  - intros _. rewrite B by congruence. specialize (H ltac:(congruence)). lia.
Qed.
Lemma awake_push_any q x k (d : list Z) : d = x :: aq_data q \/ d = aq_data q ++ [x] -> awake q -> forall o,
  awake (signal_waiters (mkAQ d (aq_waiters q) (aq_blocked q) (aq_woken q) o) k).
Proof.
  intros D (W & H) o. apply awake_signal with (n := 1%nat); [lia|exact W|]. cbn. intros N. specialize (H N).
  destruct D as [-> | ->]; [cbn; lia|]. rewrite app_length. cbn. lia.
Qed.
Lemma awake_enter q t b : awake q -> awake (pop_enter q t b).
Proof.
  intros (W & H). unfold pop_enter. destruct (take _ t) eqn:T.
  - apply take_some in T as (x & r & E & ->). cbn in *. split; cbn.
    + unfold waiting in *. cbn. lia.
    + intros N. specialize (H N). rewrite rev_length. apply (f_equal (@length Z)) in E. rewrite rev_length in E. cbn in E. lia.
  - apply take_none in T. cbn in *. split; cbn.
    + unfold waiting, zlen in *. cbn. rewrite app_length. cbn. lia.
    + intros _. rewrite T. cbn. lia.
Qed.
Lemma awake_step q e : match e with EBatch xs _ => (length xs <= 1)%nat | _ => True end -> awake q -> awake (astep q e).
Proof.
  intros S A. destruct e as [x k|x k|xs k|t|t us|k|k]; cbn [astep].
  - destruct (nonnull x); [|exact A]. unfold push, unlocked_push. apply awake_push_any with (x := x); auto.
  - destruct (nonnull x); [|exact A]. unfold priority_push. apply awake_push_any with (x := x); auto.
  - unfold batch. destruct xs as [|x [|y xs]]; [| |cbn in S; lia].
    + cbn. destruct A as (W & H). apply awake_signal with (n := 0%nat); [lia|exact W|]. intros N. specialize (H N). lia.
    + cbn [filter]. destruct (nonnull x); cbn [fold_left].
      * unfold unlocked_push. apply awake_push_any with (x := x); auto.
      * destruct A as (W & H). apply awake_signal with (n := 0%nat); [lia|exact W|]. intros N. specialize (H N). lia.
  - now apply awake_enter.
  - destruct (0 <? us); [now apply awake_enter|]. exact A.
  - destruct A as (W & H). unfold signal. destruct (pick k (aq_blocked q)) as [[w b]|] eqn:E; [|split; auto].
    assert (N0 : aq_blocked q <> []) by (intros Z0; rewrite Z0 in E; destruct k; discriminate).
    apply pick_len in E. split; unfold waiting, zlen in *; cbn; rewrite ?app_length; cbn; [lia|].
    intros N. specialize (H N0). lia.
  - destruct A as (W & H). unfold pop_resume. destruct (pick k (aq_woken q)) as [[w r]|] eqn:E; [|split; auto].
    apply pick_len in E. destruct (take _ (wt_id w)) eqn:T.
    + apply take_some in T as (x & r' & E' & ->). cbn in *. split; unfold waiting, zlen in *; cbn; [lia|].
      intros N. specialize (H N). rewrite rev_length. apply (f_equal (@length Z)) in E'. rewrite rev_length in E'. cbn in E'. lia.
    + apply take_none in T. cbn in *. destruct (wt_timed w); split; unfold waiting, zlen in *; cbn; rewrite ?app_length, ?T; cbn; lia.
Qed.
Lemma awake_run es : small_batches es -> awake (arun aq0 es).
Proof.
  intros H. unfold arun. enough (G : forall q, awake q -> awake (fold_left astep es q)).
  { apply G. split; [reflexivity|]. cbn. congruence. }
  induction H as [|e es He Hes IH]; intros q Q; cbn [fold_left]; auto using awake_step.
Qed.
Lemma run_awake es : small_batches es -> aq_blocked (arun aq0 es) <> [] -> aq_data (arun aq0 es) <> [] -> aq_woken (arun aq0 es) <> [].
Proof.
  intros S B D W. destruct (awake_run es S) as (_ & H). specialize (H B). rewrite W in H.
  destruct (aq_data (arun aq0 es)); [congruence|]. cbn in H. lia.
Qed.

(** A woken thread that gets the mutex with an item in the queue takes the
    first of the line. *)
Lemma resume_takes q k x r : rev (aq_data q) = x :: r -> aq_woken q <> [] ->
  exists w, In w (aq_woken q) /\ aq_log (pop_resume q k) = aq_log q ++ [AGot (wt_id w) x] /\ rev (aq_data (pop_resume q k)) = r.
Proof.
  intros E N. unfold pop_resume. destruct (pick k (aq_woken q)) as [[w b]|] eqn:P.
  - exists w. split.
    + apply pick_perm in P. apply Permutation_sym in P. eapply Permutation_in; [exact P|]. now left.
    + unfold take. cbn [aq_data]. rewrite E. cbn. now rewrite rev_involutive.
  - apply pick_none in P. congruence.
Qed.

(** ** The counter of waiters, batches included *)
Lemma fold_unlocked_frame xs : forall q, aq_waiters (fold_left unlocked_push xs q) = aq_waiters q
  /\ aq_blocked (fold_left unlocked_push xs q) = aq_blocked q /\ aq_woken (fold_left unlocked_push xs q) = aq_woken q.
Proof. induction xs as [|x xs IH]; intros q; cbn [fold_left]; [auto|]. destruct (IH (unlocked_push q x)) as (-> & -> & ->). auto. Qed.
Lemma waiters_step q e : aq_waiters q = waiting q -> aq_waiters (astep q e) = waiting (astep q e).
Proof.
  intros W. destruct e as [x k|x k|xs k|t|t us|k|k]; cbn [astep].
  - destruct (nonnull x); [|exact W]. now apply signal_spec.
  - destruct (nonnull x); [|exact W]. now apply signal_spec.
  - apply signal_spec. unfold waiting. destruct (fold_unlocked_frame (filter nonnull xs) q) as (-> & -> & ->). exact W.
  - unfold pop_enter. destruct (take _ t) eqn:T.
    + apply take_some in T as (x & r & E & ->). unfold waiting in *. cbn. lia.
    + unfold waiting, zlen in *. cbn. rewrite app_length. cbn. lia.
  - destruct (0 <? us); [|exact W]. unfold pop_enter. destruct (take _ t) eqn:T.
    + apply take_some in T as (x & r & E & ->). unfold waiting in *. cbn. lia.
    + unfold waiting, zlen in *. cbn. rewrite app_length. cbn. lia.
  - unfold signal. destruct (pick k (aq_blocked q)) as [[w b]|] eqn:E; [|exact W].
    apply pick_len in E. unfold waiting, zlen in *. cbn. rewrite app_length. cbn. lia.
  - unfold pop_resume. destruct (pick k (aq_woken q)) as [[w r]|] eqn:E; [|exact W].
    apply pick_len in E. destruct (take _ (wt_id w)) eqn:T.
    + apply take_some in T as (x & r' & E' & ->). unfold waiting, zlen in *. cbn. lia.
    + destruct (wt_timed w); unfold waiting, zlen in *; cbn; rewrite ?app_length; cbn; lia.
Qed.
Lemma waiters_run es : forall q, aq_waiters q = waiting q -> aq_waiters (arun q es) = waiting (arun q es).
Proof. induction es as [|e es IH]; intros q W; cbn; [exact W|]. apply IH. now apply waiters_step. Qed.

(** Calls that have not returned. *)
Definition rets (log : list aobs) : Z :=
  zlen (filter (fun o => match o with AGot _ _ | ANull _ => true | _ => false end) log).
Definition nulls (es : list aev) : Z :=
  zlen (filter (fun e => match e with ETimed _ us => negb (0 <? us) | _ => false end) es).
Lemma rets_app a b : rets (a ++ b) = rets a + rets b.
Proof. unfold rets, zlen. rewrite filter_app, app_length. lia. Qed.
Lemma zlen_app_f A (f : A -> bool) a b : zlen (filter f (a ++ b)) = zlen (filter f a) + zlen (filter f b).
Proof. unfold zlen. rewrite filter_app, app_length. lia. Qed.
Lemma rets_unlocked xs : forall q, rets (aq_log (fold_left unlocked_push xs q)) = rets (aq_log q).
Proof.
  induction xs as [|x xs IH]; intros q; cbn [fold_left]; [reflexivity|]. rewrite IH. cbn. rewrite rets_app. cbn. lia.
Qed.
Lemma calls_step q e : aq_waiters (astep q e) + rets (aq_log (astep q e))
  = aq_waiters q + rets (aq_log q) + calls [e] + nulls [e].
Proof.
  destruct e as [x k|x k|xs k|t|t us|k|k]; cbn [astep].
  - destruct (nonnull x); [|cbn; lia]. unfold push. destruct (signal_waiters_data (unlocked_push q x) k) as (_ & -> & ->).
    cbn. rewrite rets_app. cbn. lia.
  - destruct (nonnull x); [|cbn; lia]. unfold priority_push.
    match goal with |- context [signal_waiters ?q k] => destruct (signal_waiters_data q k) as (_ & -> & ->) end.
    cbn. rewrite rets_app. cbn. lia.
  - unfold batch. destruct (signal_waiters_data (fold_left unlocked_push (filter nonnull xs) q) k) as (_ & -> & ->).
    rewrite rets_unlocked. destruct (fold_unlocked_frame (filter nonnull xs) q) as (-> & _). cbn. lia.
  - unfold pop_enter. destruct (take _ t) eqn:T.
    + apply take_some in T as (x & r & E & ->). cbn. rewrite rets_app. cbn. lia.
    + cbn. lia.
  - unfold calls, nulls. cbn [filter]. destruct (0 <? us); cbn [negb].
    + unfold pop_enter. destruct (take _ t) eqn:T.
      * apply take_some in T as (x & r & E & ->). cbn. rewrite rets_app. cbn. lia.
      * cbn. lia.
    + cbn. rewrite rets_app. cbn. lia.
  - destruct (signal_data q k) as (_ & -> & ->). cbn. lia.
  - unfold pop_resume. destruct (pick k (aq_woken q)) as [[w r]|] eqn:E; [|cbn; lia].
    destruct (take _ (wt_id w)) eqn:T.
    + apply take_some in T as (x & r' & E' & ->). cbn. rewrite rets_app. cbn. lia.
    + destruct (wt_timed w); cbn; rewrite ?rets_app; cbn; lia.
Qed.
Lemma calls_run es : forall q, aq_waiters (arun q es) + rets (aq_log (arun q es))
  = aq_waiters q + rets (aq_log q) + calls es + nulls es.
Proof.
  induction es as [|e es IH]; intros q; cbn [arun fold_left].
  - cbn. lia.
  - change (fold_left astep es (astep q e)) with (arun (astep q e) es). rewrite IH, calls_step.
    change (e :: es) with ([e] ++ es). unfold calls, nulls. rewrite !zlen_app_f. lia.
Qed.
Lemma run_waiters es : aq_waiters (arun aq0 es) = calls es - returns (aq_log (arun aq0 es)) es.
Proof. pose proof (calls_run es aq0) as H. cbn in H. unfold returns. unfold rets, nulls in H. lia. Qed.
