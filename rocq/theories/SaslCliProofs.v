(** SASL, the initiator: the notifications. *)
From Verif Require Import Base SaslModel SaslCliModel SaslCliSpec.

Ltac conj := repeat match goal with |- _ /\ _ => split end.

Lemma do_steps_inv : forall l s s' n ok, do_steps s l = Some (s', n, ok) ->
  (s' = s /\ n = [] \/ s' = notify s NErr /\ n = [NErr] /\ ok = false /\ exists t, In t l /\ t_reply t = RBad) /\
  (ok = true -> exists l1 t l2, l = l1 ++ t :: l2 /\ Forall goes_on l1 /\ (listener_says t \/ library_says t)).
Proof.
  intros l. induction l as [|t l IH]; intros s s' n ok E; cbn [do_steps] in E; [discriminate|].
  assert (NEXT : (t_reply t = RBlob false true \/ t_reply t = REmpty) ->
    match t_rc t, t_out t with
        | RMore, _ | _, true => if t_sent t then do_steps s l else Some (s, [], false)
        | ROk, false => Some (s, [], true)
        | _, false => Some (s, [], false)
        end = Some (s', n, ok) ->
    (s' = s /\ n = [] \/ s' = notify s NErr /\ n = [NErr] /\ ok = false /\ exists t', In t' (t :: l) /\ t_reply t' = RBad) /\
    (ok = true -> exists l1 t' l2, t :: l = l1 ++ t' :: l2 /\ Forall goes_on l1 /\ (listener_says t' \/ library_says t'))).
  { clear E. intros R E.
    assert (CASES : ((t_rc t = RMore \/ t_out t = true) /\ (if t_sent t then do_steps s l else Some (s, [], false)) = Some (s', n, ok))
                 \/ (t_rc t = ROk /\ t_out t = false /\ Some (s, [], true) = Some (s', n, ok))
                 \/ Some (s, @nil status, false) = Some (s', n, ok)).
    { destruct (t_rc t), (t_out t); auto. }
    clear E. destruct CASES as [[G E]|[[G1 [G2 E]]|E]].
    - destruct (t_sent t) eqn:S; [|injection E as <- <- <-; split; [left; auto|discriminate]].
      destruct (IH _ _ _ _ E) as [A B]. split.
      + destruct A as [A|[A1 [A2 [A3 [x [X Y]]]]]]; [left; exact A|right; conj; auto]. exists x. split; [right; exact X|exact Y].
      + intro O. destruct (B O) as [l1 [x [l2 [-> [F X]]]]]. exists (t :: l1), x, l2. conj; auto.
        constructor; [unfold goes_on; auto|exact F].
    - injection E as <- <- <-. split; [left; auto|]. intros _. exists [], t, l. conj; auto. right. unfold library_says. auto.
    - injection E as <- <- <-. split; [left; auto|discriminate]. }
  destruct (t_reply t) as [| | |c k|] eqn:R.
  - injection E as <- <- <-. split; [left; auto|discriminate].
  - injection E as <- <- <-. split; [left; auto|discriminate].
  - injection E as <- <- <-. split; [right; conj; auto; exists t; split; [left; reflexivity|exact R]|discriminate].
  - destruct c.
    + injection E as <- <- <-. split; [left; auto|]. intros _. exists [], t, l. conj; auto. left. exists k. exact R.
    + destruct k; [auto|]. injection E as <- <- <-. split; [left; auto|discriminate].
  - auto.
Qed.

Lemma err_not : forall s, i_authenticated (notify s NErr) = false.
Proof. reflexivity. Qed.
Lemma meq : forall m, mech_eqb m m = true.
Proof. intros []; reflexivity. Qed.

Theorem told_thm : forall s k s' l,
  start_auth s k = Some (s', l) ->
  (exists st, last l NErr = st /\ l <> [] /\ (st = NOk <-> i_authenticated s' = true)) /\
  ((forall t, In t (k_turns k) -> t_reply t <> RBad) -> told s' l) /\ (length l <= 2)%nat.
Proof.
  intros s k s' l E.
  assert (FAIL : forall x, Some (notify x NErr, [NErr]) = Some (s', l) ->
     (exists st, last l NErr = st /\ l <> [] /\ (st = NOk <-> i_authenticated s' = true)) /\
     ((forall t, In t (k_turns k) -> t_reply t <> RBad) -> told s' l) /\ (length l <= 2)%nat).
  { intros x X. injection X as <- <-.
    assert (Y : NErr = NOk <-> i_authenticated (notify x NErr) = true) by (split; discriminate).
    conj; [exists NErr; conj; auto; discriminate|intros _; exists NErr; split; [reflexivity|exact Y]|cbn; lia]. }
  unfold start_auth in E.
  destruct (negb (k_up k)); [exact (FAIL _ E)|]. destruct (negb (k_sasl k)); [exact (FAIL _ E)|].
  destruct (i_authenticated s); [exact (FAIL _ E)|]. destruct (negb (sanity s (k_mech k))); [exact (FAIL _ E)|].
  destruct (negb (k_init k)); [exact (FAIL _ E)|]. destruct (k_first k); [exact (FAIL _ E)|exact (FAIL _ E)|].
  destruct (negb (k_chan k)); [exact (FAIL _ E)|]. destruct (negb (k_ref k)); [exact (FAIL _ E)|].
  destruct (do_steps (add_chan s (k_mech k)) (k_turns k)) as [[[s1 n] ok]|] eqn:D; [|discriminate].
  destruct (do_steps_inv _ _ _ _ _ D) as [A _].
  destruct ok.
  - destruct A as [[-> ->]|[_ [_ [X _]]]]; [|discriminate]. cbn [app] in E. injection E as <- <-.
    assert (Y : NOk = NOk <-> i_authenticated (notify (settle (add_chan s (k_mech k)) (k_mech k)) NOk) = true).
    { split; [|reflexivity]. intros _. unfold i_authenticated. cbn [notify settle add_chan i_flag i_method i_chans existsb].
      rewrite meq. reflexivity. }
    conj; [exists NOk; conj; auto; try discriminate; apply Y|intros _; exists NOk; split; [reflexivity|exact Y]|cbn; lia].
  - injection E as <- <-.
    assert (Y : NErr = NOk <-> i_authenticated (notify (if k_still k then drop_chan s1 else s1) NErr) = true) by (split; discriminate).
    destruct A as [[-> ->]|[-> [-> [_ [t [X R]]]]]]; cbn [app].
    + conj; [exists NErr; conj; auto; try discriminate; apply Y|intros _; exists NErr; split; [reflexivity|exact Y]|cbn; lia].
    + conj; [exists NErr; conj; auto; try discriminate; apply Y|intro NB; destruct (NB t X R)|cbn; lia].
Qed.

Theorem ok_thm : forall s k s' l,
  start_auth s k = Some (s', l) -> In NOk l ->
  exists l1 t l2, k_turns k = l1 ++ t :: l2 /\ Forall goes_on l1 /\ (listener_says t \/ library_says t).
Proof.
  intros s k s' l E I.
  assert (FAIL : forall x, Some (notify x NErr, [NErr]) = Some (s', l) -> False).
  { intros x X. injection X as <- <-. destruct I as [X|[]]. discriminate. }
  unfold start_auth in E.
  destruct (negb (k_up k)); [destruct (FAIL _ E)|]. destruct (negb (k_sasl k)); [destruct (FAIL _ E)|].
  destruct (i_authenticated s); [destruct (FAIL _ E)|]. destruct (negb (sanity s (k_mech k))); [destruct (FAIL _ E)|].
  destruct (negb (k_init k)); [destruct (FAIL _ E)|]. destruct (k_first k); [destruct (FAIL _ E)|destruct (FAIL _ E)|].
  destruct (negb (k_chan k)); [destruct (FAIL _ E)|]. destruct (negb (k_ref k)); [destruct (FAIL _ E)|].
  destruct (do_steps (add_chan s (k_mech k)) (k_turns k)) as [[[s1 n] ok]|] eqn:D; [|discriminate].
  destruct (do_steps_inv _ _ _ _ _ D) as [A B]. destruct ok; [exact (B eq_refl)|].
  exfalso. injection E as <- <-. destruct A as [[-> ->]|[-> [-> _]]]; cbn [app] in I.
  - destruct I as [X|[]]. discriminate.
  - destruct I as [X|[X|[]]]; discriminate.
Qed.

Theorem again_thm : forall s k, i_authenticated s = true -> exists s', start_auth s k = Some (s', [NErr]) /\ i_authenticated s' = false.
Proof.
  intros s k A. unfold start_auth. exists (notify s NErr). split; [|reflexivity].
  destruct (negb (k_up k)); [reflexivity|]. destruct (negb (k_sasl k)); [reflexivity|]. rewrite A. reflexivity.
Qed.

(** The queue of the synchronous call. *)
Lemma queue_inv : forall l q, (Z.of_nat (notifications l) + (if q_done q then 0 else 1) <= q_refs q) -> qrun q l <> UB.
Proof.
  intros l. induction l as [|e l IH]; intros q R; cbn [qrun]; [discriminate|].
  destruct e; cbn [qstep].
  - unfold notifications in R. cbn [filter length] in R. fold (notifications l) in R.
    destruct (Z.leb_spec (q_refs q) 0); [exfalso; destruct (q_done q); lia|]. cbn [obind].
    apply IH; cbn [q_refs q_done]. unfold notifications in *. destruct (q_done q); lia.
  - change (notifications (QMain :: l)) with (notifications l) in R. destruct (q_done q) eqn:D.
    + cbn [obind]. apply IH. rewrite D; exact R.
    + destruct (Z.eqb_spec (q_items q) 0); [cbn [obind]; apply IH; rewrite D; exact R|].
      destruct (Z.leb_spec (q_refs q) 0); [exfalso; lia|]. cbn [obind].
      apply IH; cbn [q_refs q_done]; lia.
  - change (notifications (QTimeout :: l)) with (notifications l) in R. destruct (q_done q) eqn:D.
    + cbn [obind]. apply IH. rewrite D; exact R.
    + destruct (Z.eqb_spec (q_items q) 0); cbn [obind]; apply IH; cbn [q_refs q_done]; try rewrite D; lia.
Qed.
Theorem queue_thm : forall l, (notifications l <= 1)%nat -> qrun q0 l <> UB.
Proof. intros l H. apply queue_inv. cbn [q0 q_done q_refs]. lia. Qed.

(** A user with an auth id and a password, and a listener whose reply is not a blob. *)
Definition user : ist := mkI false true false true false None [] false.
Definition bad_call : call := mkCall true true MPlain true FBlob true true [mkT RBad ROther false false] true.
Lemma twice_witness : exists s', start_auth user bad_call = Some (s', [NErr; NErr]).
Proof. eexists. reflexivity. Qed.
Lemma sync_witness : exists s k s' l q,
  start_auth s k = Some (s', l) /\ notifications q = length l /\ qrun q0 q = UB.
Proof.
  exists user, bad_call. eexists. exists [NErr; NErr], [QNotify; QMain; QNotify]. conj; reflexivity.
Qed.
(** A listener that says complete at once, to DIGEST-MD5, which is to check the listener. *)
Definition trusting : call := mkCall true true MDigest true FBlob true true [mkT (RBlob true false) RMore false false] true.
Lemma trusting_witness : exists s k s', start_auth s k = Some (s', [NOk]) /\ i_authenticated s' = true /\
  forall t, In t (k_turns k) -> t_rc t <> ROk.
Proof.
  exists user, trusting. eexists. conj; [reflexivity|reflexivity|]. intros t [<-|[]]. discriminate.
Qed.
Lemma deauth_witness : exists s k s' l, i_authenticated s = true /\ start_auth s k = Some (s', l) /\ i_authenticated s' = false.
Proof.
  exists (mkI true true false true false (Some MPlain) [MPlain] true), bad_call. eexists. eexists. conj; reflexivity.
Qed.

Theorem given_thm : forall s k s' l, start_auth s k = Some (s', l) -> In NOk l ->
  k_up k = true /\ k_sasl k = true /\ i_authenticated s = false /\ given s (k_mech k).
Proof.
  intros s k s' l E I. unfold start_auth in E.
  assert (F : forall x, Some (x, [NErr]) = Some (s', l) -> False).
  { intros x X. injection X as _ <-. destruct I as [I|[]]. discriminate. }
  destruct (k_up k); cbn [negb] in E; [|exfalso; eauto].
  destruct (k_sasl k); cbn [negb] in E; [|exfalso; eauto].
  destruct (i_authenticated s); [exfalso; eauto|].
  destruct (sanity s (k_mech k)) eqn:Y; cbn [negb] in E; [|exfalso; eauto].
  split; [reflexivity|]. split; [reflexivity|]. split; [reflexivity|].
  unfold sanity in Y. unfold given. destruct (k_mech k).
  all: first [exact Y | apply andb_prop; exact Y | apply orb_prop; exact Y].
Qed.
