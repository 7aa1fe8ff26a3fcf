From Coq Require Import Permutation.
From Verif Require Import Base QueueModel QueueSpec.

Lemma qline_step q e q' : qline (q_log q) (q_items q) -> qstep q e = Ok q' -> qline (q_log q') (q_items q').
Proof.
  unfold qstep. intros H. destruct (q_freed q); [discriminate|].
  destruct e as [x|x| | | | |]; intros E; injection E as <-.
  - destruct (x =? 0) eqn:Z0; cbn; [apply Z.eqb_eq in Z0 as ->; now constructor|]. apply Z.eqb_neq in Z0. now constructor.
  - destruct (x =? 0) eqn:Z0; cbn; [apply Z.eqb_eq in Z0 as ->; now constructor|]. apply Z.eqb_neq in Z0. now constructor.
  - cbn. destruct (q_items q); cbn; now constructor.
  - cbn. destruct (q_items q); cbn; now constructor.
  - cbn. destruct (q_items q); cbn; now constructor.
  - cbn [q_log q_items q_put]. now apply qn_length.
  - destruct (u32 (zlen (q_items q)) =? 0); cbn; exact H.
Qed.
Lemma qline_run es : forall q q', qline (q_log q) (q_items q) -> qrun q es = Ok q' -> qline (q_log q') (q_items q').
Proof.
  induction es as [|e es IH]; cbn; intros q q' H E; [now injection E as <-|].
  destruct (qstep q e) eqn:S; [|discriminate]. cbn in E. eauto using qline_step.
Qed.
Lemma run_qline es q : qrun q0 es = Ok q -> qline (q_log q) (q_items q).
Proof. apply qline_run. constructor. Qed.
Lemma run_ok es : no_free es -> forall q, q_freed q = false -> exists q', qrun q es = Ok q' /\ q_freed q' = false.
Proof.
  unfold no_free. induction es as [|e es IH]; intros N q F; cbn; [eauto|].
  assert (exists q1, qstep q e = Ok q1 /\ q_freed q1 = false) as (q1 & -> & F1).
  { unfold qstep. rewrite F. destruct e as [x|x| | | | |]; try (eexists; split; [reflexivity|]; cbn; auto; destruct (x =? 0); exact F).
    exfalso. apply N. now left. }
  cbn. apply IH; [|exact F1]. intros I. apply N. now right.
Qed.
Lemma qline_nonnull log l : qline log l -> ~ In 0 l.
Proof.
  induction 1; cbn in *; auto.
  - rewrite in_app_iff. cbn. intuition congruence.
  - intuition congruence.
Qed.
Lemma q_put_in_app a b : q_put_in (a ++ b) = q_put_in a ++ q_put_in b.
Proof. apply flat_map_app. Qed.
Lemma q_given_app a b : q_given (a ++ b) = q_given a ++ q_given b.
Proof. apply flat_map_app. Qed.
Lemma qline_perm log l : qline log l -> Permutation (q_put_in log) (q_given log ++ l).
Proof.
  induction 1; rewrite ?q_put_in_app, ?q_given_app; cbn [q_put_in q_given flat_map]; rewrite ?app_nil_r in *; auto.
  - rewrite app_assoc. now apply Permutation_app_tail.
  - apply Permutation_trans with (x :: q_put_in log); [symmetry; apply Permutation_cons_append|].
    apply Permutation_trans with (x :: q_given log ++ l); [now constructor|]. apply Permutation_middle.
  - apply qline_nonnull in H. destruct (x =? 0) eqn:Z0; [apply Z.eqb_eq in Z0 as ->; cbn in H; tauto|].
    cbn. rewrite <- app_assoc. exact IHqline.
Qed.
Definition is_qhead (o : qobs) : bool := match o with OHead _ true => true | _ => false end.
Lemma qline_order log l : qline log l -> existsb is_qhead log = false -> q_put_in log = q_given log ++ l.
Proof.
  induction 1; intros N; rewrite ?existsb_app in N; cbn [existsb is_qhead] in N; rewrite ?orb_false_r, ?orb_true_r in N;
    rewrite ?q_put_in_app, ?q_given_app; cbn [q_put_in q_given flat_map]; rewrite ?app_nil_r in *; auto.
  - rewrite (IHqline N). now rewrite app_assoc.
  - discriminate.
  - apply qline_nonnull in H. destruct (x =? 0) eqn:Z0; [apply Z.eqb_eq in Z0 as ->; cbn in H; tauto|].
    cbn. rewrite <- app_assoc. exact (IHqline N).
Qed.
Lemma no_head_run es : no_head es -> forall q q', existsb is_qhead (q_log q) = false -> qrun q es = Ok q' -> existsb is_qhead (q_log q') = false.
Proof.
  unfold no_head. induction es as [|e es IH]; cbn [qrun]; intros N q q' Q E; [now injection E as <-|].
  destruct (qstep q e) as [q1|] eqn:S; [|discriminate]. cbn in E. eapply IH; [|clear E|exact E].
  - intros x I. apply (N x). now right.
  - unfold qstep in S. destruct (q_freed q); [discriminate|].
    destruct e as [x|x| | | | |]; injection S as <-; try (cbn; rewrite existsb_app, Q; reflexivity).
    + destruct (x =? 0); cbn; rewrite existsb_app, Q; reflexivity.
    + exfalso. apply (N x). now left.
    + destruct (u32 (zlen (q_items q)) =? 0); exact Q.
Qed.
Lemma run_order es q : no_head es -> qrun q0 es = Ok q -> q_put_in (q_log q) = q_given (q_log q) ++ q_items q.
Proof. intros N E. apply qline_order; [now apply run_qline with es|]. now apply (no_head_run es N q0). Qed.

(** free keeps a queue with items. *)
Lemma free_step q q' : q_freed q = false -> zlen (q_items q) < two32 -> qstep q QFree = Ok q' ->
  (q_freed q' = true <-> q_items q = []) /\ q_items q' = q_items q.
Proof.
  unfold qstep. intros F L E. rewrite F in E. injection E as <-. unfold u32. rewrite Z.mod_small by (unfold zlen in *; lia).
  destruct (zlen (q_items q) =? 0) eqn:Z0; cbn; destruct (q_items q) as [|x l]; unfold zlen in Z0; cbn in Z0;
    try discriminate; intuition congruence.
Qed.
