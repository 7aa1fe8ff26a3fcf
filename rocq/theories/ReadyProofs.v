(** Proofs about the ready set of the sequencer. *)
From Verif Require Import Base ReadyModel ReadySpec.

Definition yinv (s : yst) : Prop :=
  0 <= y_pend s /\ 0 <= y_avail s /\
  (0 < y_pend s -> 0 < y_avail s -> y_ready s = true \/ y_reader s <> RdIdle) /\
  (y_adder s = true -> 0 < y_avail s -> y_ready s = true) /\
  (y_seq s <> SqIdle -> y_ready s = true) /\
  (forall c p, y_seq s = SqAfter c p -> p = false /\ (c = true -> 0 < y_pend s)).

Ltac ysplit := repeat match goal with
  | |- context[if ?b then _ else _] => destruct b eqn:?
  | |- context[match y_reader ?s with _ => _ end] => destruct (y_reader s) eqn:?
  | |- context[match y_seq ?s with _ => _ end] => destruct (y_seq s) eqn:?
  end.

Lemma ystep_inv s e : yinv s -> (match e with YSeqFrame _ => y_adder s = false | YSend _ _ p => p = false | _ => True end) -> yinv (ystep s e).
Proof.
  intros (I1 & I2 & I3 & I4 & I5 & I6) He. destruct s as [pend avail ready adder reader sq]. cbn [y_pend y_avail y_ready y_adder y_reader y_seq] in *.
  destruct e; cbn [ystep y_pend y_avail y_ready y_adder y_reader y_seq] in *.
  - destruct adder; [unfold yinv; auto 10|]. unfold yinv; cbn. repeat split; auto; try (apply (I6 _ _ H)).
    + intros Hp Ha. destruct (Z.eqb_spec avail 0); [lia|]. rewrite orb_true_r. auto.
    + intros _ Ha. destruct (Z.eqb_spec avail 0); [lia|]. apply orb_true_r.
    + intros Hs. rewrite (I5 Hs). reflexivity.
  - destruct adder; [|unfold yinv; auto 10]. unfold yinv; cbn. repeat split; auto; try lia; try discriminate.
    all: try (destruct (I6 _ _ H); auto).
  - subst adder. destruct reader; try (unfold yinv; cbn; auto 10; fail).
    destruct (Z.ltb_spec 0 n); [|unfold yinv; cbn; auto 10].
    unfold yinv; cbn. repeat split; auto; try lia; try discriminate; try (right; discriminate); try (apply (I6 _ _ H0)).
  - destruct reader; try (unfold yinv; cbn; auto 10; fail). unfold yinv; cbn. repeat split; auto; try (apply (I6 _ _ H)).
    intros Hp Ha. destruct (Z.ltb_spec 0 pend); [|lia]. right; discriminate.
  - destruct reader; try (unfold yinv; cbn; auto 10; fail). destruct adder; [unfold yinv; cbn; auto 10|].
    unfold yinv; cbn. repeat split; auto; try (apply (I6 _ _ H)).
  - destruct sq; try (unfold yinv; cbn; auto 10; fail).
    destruct (adder || negb ready) eqn:E; [unfold yinv; cbn; auto 10|].
    apply orb_false_elim in E. destruct E as (-> & E). destruct ready; [|discriminate].
    destruct (Z.eqb_spec avail 0); unfold yinv; cbn; repeat split; auto; try lia; try discriminate; try congruence.
  - subst paused. destruct sq; try (unfold yinv; cbn; auto 10; fail).
    assert (ready = true) as -> by (apply I5; discriminate).
    destruct (Z.eqb_spec pend 0).
    { unfold yinv; cbn. repeat split; auto; try congruence. }
    destruct ((0 <=? k) && (k <=? avail)) eqn:E; [|unfold yinv; cbn; auto 10].
    unfold yinv; cbn. repeat split; auto; try lia; try congruence.
  - destruct sq as [| |c p]; try (unfold yinv; cbn; auto 10; fail). destruct adder; [unfold yinv; cbn; auto 10|].
    destruct (I6 c p eq_refl) as (-> & Hc). assert (ready = true) as -> by (apply I5; discriminate).
    unfold yinv; cbn. repeat split; try discriminate; try congruence; try lia.
    + destruct c; lia.
    + intros Hp Ha. left. destruct (Z.eqb_spec avail 0); [lia|].
      destruct c; cbn [andb orb]; [|reflexivity]. destruct (Z.eqb_spec (Z.max 0 (pend - 1)) 0); [lia|]. reflexivity.
Qed.

Theorem not_forgotten es : calm yst0 es ->
  let s := yrun es in
  0 < y_pend s -> 0 < y_avail s -> y_ready s = true \/ y_reader s <> RdIdle.
Proof.
  intros H. cbv zeta. assert (I : yinv (yrun es)).
  { unfold yrun. assert (I0 : yinv yst0) by (unfold yinv, yst0; cbn; repeat split; try lia; congruence).
    revert H I0. generalize yst0 as s. induction es as [|e es IH]; intros s H I; cbn [fold_left]; [exact I|].
    destruct H as (He & H). apply IH; [exact H|]. apply ystep_inv; assumption. }
  apply I.
Qed.

(** Spinning. *)
Definition zinv (s : yst) : Prop :=
  0 <= y_pend s /\ y_reader s = RdIdle /\
  (y_ready s = true -> 0 < y_pend s \/ y_adder s = true) /\
  (forall c p, y_seq s = SqAfter c p -> p = false).

Lemma zstep_inv s e : zinv s -> match e with YSeqFrame _ => False | YSend _ _ p => p = false | _ => True end -> zinv (ystep s e).
Proof.
  intros (I1 & I2 & I3 & I4) He. destruct s as [pend avail ready adder reader sq]. cbn [y_pend y_avail y_ready y_adder y_reader y_seq] in *.
  subst reader. destruct e; cbn [ystep y_pend y_avail y_ready y_adder y_reader y_seq] in *; try contradiction.
  - destruct adder; unfold zinv; cbn; auto 10.
  - destruct adder; unfold zinv; cbn; repeat split; auto; try lia.
  - unfold zinv; cbn; auto 10.
  - unfold zinv; cbn; auto 10.
  - destruct sq; try (unfold zinv; cbn; auto 10; fail). destruct (adder || negb ready) eqn:E; [unfold zinv; cbn; auto 10|].
    apply orb_false_elim in E. destruct E as (-> & E). destruct ready; [|discriminate].
    destruct (avail =? 0); unfold zinv; cbn; repeat split; auto; try discriminate.
  - subst paused. destruct sq; try (unfold zinv; cbn; auto 10; fail).
    destruct (pend =? 0); [unfold zinv; cbn; repeat split; auto; congruence|].
    destruct ((0 <=? k) && (k <=? avail)); unfold zinv; cbn; repeat split; auto; congruence.
  - destruct sq as [| |c p]; try (unfold zinv; cbn; auto 10; fail). destruct adder; [unfold zinv; cbn; auto 10|].
    unfold zinv; cbn. repeat split; auto; try congruence; [destruct c; lia|].
    destruct c; cbn [andb orb].
    + destruct (Z.eqb_spec (Z.max 0 (pend - 1)) 0); cbn [orb]; [discriminate|]. intros _. left. lia.
    + destruct (avail =? 0); [discriminate|]. cbn [orb]. destruct p; [discriminate|]. exact I3.
Qed.

Theorem no_spin es :
  Forall (fun e => match e with YSeqFrame _ => False | YSend _ _ p => p = false | _ => True end) es ->
  let s := yrun es in
  y_ready s = true -> 0 < y_pend s \/ y_adder s = true.
Proof.
  intros H. cbv zeta. assert (I : zinv (yrun es)).
  { unfold yrun. assert (I0 : zinv yst0) by (unfold zinv, yst0; cbn; repeat split; try lia; congruence).
    revert H I0. generalize yst0 as s. induction es as [|e es IH]; intros s H I; cbn [fold_left]; [exact I|].
    inversion H; subst. apply IH; [assumption|]. apply zstep_inv; assumption. }
  apply I.
Qed.
