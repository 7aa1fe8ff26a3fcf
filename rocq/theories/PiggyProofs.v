(** Proofs about the content of start replies. *)
From Verif Require Import Base PiggyModel PiggySpec.
From Coq Require Import Permutation.
Lemma given_app a b : given (a ++ b) = given a ++ given b.
Proof. induction a as [|[| | ? []| | |] a IH]; cbn; rewrite ?IH; reflexivity. Qed.
Lemma stored_app a b : stored (a ++ b) = stored a ++ stored b.
Proof. induction a as [|[| | ? []| | |] a IH]; cbn; rewrite ?IH; reflexivity. Qed.
Lemma lost_app a b : lost (a ++ b) = lost a ++ lost b.
Proof. induction a as [|[| | ? []| | |] a IH]; cbn; rewrite ?IH; reflexivity. Qed.
Record ginv (s : pg) : Prop := mkGI {
  gi_stored : stored (g_log s) = seq 0 (g_next s);
  gi_perm : Permutation (stored (g_log s)) (given (g_log s) ++ lost (g_log s) ++ waiting s)
}.
Lemma ginv_step s e : ginv s -> ginv (gstep s e).
Proof.
  intros [A B]. destruct e as [|t|t m| | | |b]; cbn [gstep]; try (constructor; assumption).
  - unfold waiting in B. constructor; cbn [g_log g_next g_stored waiting]; rewrite !stored_app; destruct (g_stored s) as [i|]; cbn [stored app]; rewrite ?app_nil_r.
    + rewrite A, seq_S. reflexivity.
    + rewrite A, seq_S. reflexivity.
    + rewrite !given_app, !lost_app. cbn. rewrite !app_nil_r. rewrite B. rewrite <- !app_assoc. reflexivity.
    + rewrite !given_app, !lost_app. cbn. rewrite !app_nil_r. rewrite B, app_nil_r, <- app_assoc. reflexivity.
  - unfold waiting in B. constructor; cbn [take g_log g_next g_stored waiting]; rewrite !stored_app; cbn [stored]; rewrite ?app_nil_r; [exact A|].
    rewrite given_app, lost_app. cbn [lost]. rewrite B. destruct (g_stored s) as [i|]; cbn; rewrite ?app_nil_r; [|reflexivity]. rewrite <- app_assoc. apply Permutation_app_head. apply Permutation_app_comm.
  - destruct (g_pc s) as [|[|p]] eqn:P.
    + destruct (g_open s && _); constructor; assumption.
    + destruct (g_stored s) as [i|] eqn:Q; [|constructor; [exact A|]; exact B].
      unfold waiting in B. rewrite Q in B. rewrite A in B.
      assert (X : forall w o, (o = OHandler i \/ (exists t, o = OWaiter t i) \/ o = ODropped i) -> ginv (mkG None (g_next s) w (g_open s) (g_handler s) 2 ((g_log s ++ []) ++ [o]))).
      { intros w o H. rewrite app_nil_r. constructor; cbn [g_log g_next g_stored waiting].
        - rewrite stored_app, A. destruct H as [->|[[t ->]| ->]]; cbn; apply app_nil_r.
        - rewrite stored_app, given_app, lost_app, A.
          assert (E : stored [o] = [] /\ given [o] = [i] /\ lost [o] = []) by (destruct H as [->|[[t ->]| ->]]; auto). destruct E as (-> & -> & ->). rewrite !app_nil_r, B. rewrite <- app_assoc. apply Permutation_app_head, Permutation_app_comm. }
      unfold deliver. cbn [take with_pc g_stored g_next g_wait g_open g_handler g_pc g_log].
      destruct (g_wait s) as [|[t m] w]; [|destruct (m =? 0)]; try (destruct (g_handler s)); apply X; eauto.
    + constructor; assumption.
Qed.
Lemma ginv_run es s : ginv s -> ginv (grun s es).
Proof. revert s. induction es as [|e es IH]; intros s G; [exact G|]. apply IH, ginv_step, G. Qed.
Theorem once_thm h es : let s := grun (g0 h) es in NoDup (given (g_log s)) /\ Permutation (stored (g_log s)) (given (g_log s) ++ lost (g_log s) ++ waiting s).
Proof.
  intros s. assert (G : ginv s) by (apply ginv_run; constructor; reflexivity). destruct G as [A B]. split; [|exact B].
  assert (N : NoDup (given (g_log s) ++ lost (g_log s) ++ waiting s)) by (rewrite <- B, A; apply seq_NoDup).
  revert N. generalize (lost (g_log s) ++ waiting s). generalize (given (g_log s)). induction l as [|a l IH]; intros m N; [constructor|]. inversion N as [|? ? N1 N2]; subst. constructor; [|apply (IH m); exact N2]. intros H. apply N1. apply in_or_app. auto.
Qed.
Theorem get_thm h es t : let s := grun (g0 h) es in
  (forall i, g_stored s = Some i -> ~ In i (given (g_log s)) /\ g_log (gstep s (GGet t)) = g_log s ++ [OGet t (Some i)]) /\
  forall u, g_log (gstep (gstep s (GGet t)) (GGet u)) = g_log (gstep s (GGet t)) ++ [OGet u None].
Proof.
  intros s. assert (G : ginv s) by (apply ginv_run; constructor; reflexivity). split.
  - intros i H. split; [|cbn; rewrite H; reflexivity]. destruct G as [A B]. intros X.
    assert (N : NoDup (given (g_log s) ++ lost (g_log s) ++ waiting s)) by (rewrite <- B, A; apply seq_NoDup). unfold waiting in N. rewrite H in N.
    apply in_split in X. destruct X as (a & b & E). rewrite E, <- app_assoc in N. cbn in N. apply NoDup_remove_2 in N. apply N. rewrite !in_app_iff. cbn. auto 10.
  - intros u. reflexivity.
Qed.
Theorem waiter_thm : exists es, ~ In GReply es /\ In (GWait 7 0) es /\ In (OWaiter 7 0) (g_log (grun (g0 true) es)).
Proof. exists [GSet; GWait 7 0; GCreator; GCreator]. split; [cbn; intuition discriminate|]. vm_compute. auto. Qed.

(** Nothing is dropped while there is a handler. *)
Lemma dropped_step : forall s e, g_handler s = true -> (forall i, ~ In (ODropped i) (g_log s)) -> (forall b, e = GHandler b -> b = true) ->
  g_handler (gstep s e) = true /\ forall i, ~ In (ODropped i) (g_log (gstep s e)).
Proof.
  intros s e H L B. destruct e as [|t|t m| | | |b]; cbn [gstep]; try (split; [exact H|exact L]).
  - split; [exact H|]. intros i Q. cbn in Q. rewrite in_app_iff in Q. destruct Q as [Q|Q]; [exact (L i Q)|].
    destruct (g_stored s); cbn in Q; repeat (destruct Q as [Q|Q]; [discriminate|]); contradiction.
  - split; [exact H|]. intros i Q. cbn in Q. rewrite in_app_iff in Q. destruct Q as [Q|[Q|[]]]; [exact (L i Q)|discriminate].
  - destruct (g_pc s) as [|[|n]]; [|destruct (g_stored s) as [j|]|]; try (split; [exact H|exact L]).
    + destruct (g_open s && _); split; [exact H|exact L|exact H|exact L].
    + unfold deliver. cbn. rewrite H. destruct (g_wait s) as [|[t m] w]; [|destruct (m =? 0)]; (split; [first [exact H|reflexivity]|]); intros i Q; cbn in Q; rewrite app_nil_r in Q;
        apply in_app_iff in Q; (destruct Q as [Q|[Q|[]]]; [exact (L i Q)|discriminate]).
  - split; [now apply (B b)|exact L].
Qed.
Lemma dropped_thm : forall es, (forall b, In (GHandler b) es -> b = true) -> forall i, ~ In (ODropped i) (g_log (grun (g0 true) es)).
Proof.
  assert (G : forall es s, g_handler s = true -> (forall i, ~ In (ODropped i) (g_log s)) -> (forall b, In (GHandler b) es -> b = true) ->
    forall i, ~ In (ODropped i) (g_log (grun s es))).
  { induction es as [|e es IH]; intros s H L B; [exact L|]. cbn [grun]. destruct (dropped_step s e H L) as [H1 L1]; [intros b ->; apply B; now left|].
    apply IH; auto. intros b Q. apply B. now right. }
  intros es B. apply G; auto.
Qed.
