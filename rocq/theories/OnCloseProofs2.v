(** Proofs about the handlers called when a connection is closed: what the log
    says. *)
From Verif Require Import Base OnCloseModel OnCloseSpec OnCloseProofs.
From Coq Require Import Permutation Sorting.Sorted.

Lemma crun_ind (P : ocs -> Prop) : (forall s e s', inv s -> P s -> cstep s e = Ok s' -> P s') ->
  forall es s s', inv s -> P s -> crun s es = Ok s' -> P s'.
Proof.
  intros St. induction es as [|e es IH]; intros s s' V H R; cbn in R; [apply ok_inj in R; subst; exact H|].
  destruct (cstep s e) as [r|] eqn:E; [|discriminate]. cbn in R. apply (IH r s'); [eapply inv_step; eauto|eapply St; eauto|exact R].
Qed.

(** Facts about one state *)
Lemma taken_nodup s : inv s -> NoDup (ids (taken (oc_log s)) ++ removed (oc_log s)).
Proof.
  intros V. pose proof (Permutation_NoDup (v_part _ V) (v_nd _ V)) as N. apply NoDup_app_remove_l in N. apply NoDup_app_remove_l in N. exact N.
Qed.
Lemma calls_nodup s : inv s -> NoDup (calls (oc_log s)).
Proof.
  intros V. pose proof (taken_nodup s V) as N. apply NoDup_app_remove_r in N. apply (Permutation_NoDup (v_tkn _ V)) in N.
  apply NoDup_app_remove_l in N. apply NoDup_app_remove_l in N. apply NoDup_app_remove_r in N. exact N.
Qed.
Lemma calls_taken s id : inv s -> In id (calls (oc_log s)) -> In id (ids (taken (oc_log s))).
Proof. intros V I. apply (Permutation_in id (Permutation_sym (v_tkn _ V))). rewrite !in_app_iff. auto. Qed.
Lemma calls_not_removed s id : inv s -> In id (calls (oc_log s)) -> ~ In id (removed (oc_log s)).
Proof. intros V I J. apply (NoDup_app_disj _ _ id (taken_nodup s V)); [apply calls_taken; auto|exact J]. Qed.
Lemma taken_installed s id : inv s -> In id (ids (taken (oc_log s))) -> In id (ids (installed (oc_log s))).
Proof. intros V I. apply (Permutation_in id (Permutation_sym (v_part _ V))). rewrite !in_app_iff. auto. Qed.
Lemma inst_inj s h h' : inv s -> In h (installed (oc_log s)) -> In h' (installed (oc_log s)) -> i_id h = i_id h' -> h = h'.
Proof.
  intros V. pose proof (v_nd _ V) as N. revert N. generalize (installed (oc_log s)). induction l as [|x l IH]; [intros _ []|].
  cbn. intros N I J E. inversion N as [|? ? N1 N2]; subst. destruct I as [->|I]; destruct J as [<-|J]; auto.
  - exfalso. apply N1. rewrite E. apply in_map, J.
  - exfalso. apply N1. rewrite <- E. apply in_map, I.
Qed.
Lemma in_lists s h : inv s -> In h (installed (oc_log s)) ->
  In h (olist (list_of s (i_full h))) \/ In (i_id h) (ids (taken (oc_log s))) \/ In (i_id h) (removed (oc_log s)).
Proof.
  intros V I. assert (J : In (i_id h) (ids (installed (oc_log s)))) by (apply in_map, I).
  apply (Permutation_in _ (v_part _ V)) in J. rewrite !in_app_iff in J. destruct J as [J|[J|[J|J]]]; auto; left;
  apply in_map_iff in J; destruct J as (x & E & J).
  - destruct (v_plain _ V x J) as [J1 J2]. rewrite (inst_inj s x h V J1 I E) in *. rewrite J2. exact J.
  - destruct (v_full _ V x J) as [J1 J2]. rewrite (inst_inj s x h V J1 I E) in *. rewrite J2. exact J.
Qed.
Lemma listed_fresh s full h : inv s -> In h (olist (list_of s full)) -> In h (installed (oc_log s)) /\ i_full h = full.
Proof. intros V I. destruct full; [apply (v_full _ V)|apply (v_plain _ V)]; exact I. Qed.
Lemma listed_not_taken s full h : inv s -> In h (olist (list_of s full)) -> ~ In (i_id h) (ids (taken (oc_log s))).
Proof.
  intros V I J. pose proof (Permutation_NoDup (v_part _ V) (v_nd _ V)) as N. destruct full; cbn in I.
  - apply NoDup_app_remove_l in N. apply (NoDup_app_disj _ _ (i_id h) N); [apply in_map, I|]. apply in_app_iff. auto.
  - apply (NoDup_app_disj _ _ (i_id h) N); [apply in_map, I|]. rewrite !in_app_iff. auto.
Qed.

(** Each observation, given those before it *)
Definition expected (a : list cobs) (o : cobs) : Prop :=
  match o with
  | ORem f d (Some id) => exists h, In h (installed a) /\ i_id h = id /\ i_full h = true /\ i_fn h = f /\ i_data h = d
  | ORem f d None => forall h, In h (installed a) -> i_full h = true -> i_fn h = f -> i_data h = d ->
                     In h (taken a) \/ In (i_id h) (removed a)
  | OTake h => In h (installed a) /\ exists t, In (OClosed t) a
  | OCall id => exists h, In h (taken a) /\ i_id h = id
  | _ => True
  end.
Definition logged (s : ocs) : Prop :=
  (forall a o b, oc_log s = a ++ o :: b -> expected a o) /\
  (oc_closers s <> [] -> exists t, In (OClosed t) (oc_log s)).

Lemma expected_snoc l o : (forall a x b, l = a ++ x :: b -> expected a x) -> expected l o ->
  forall a x b, l ++ [o] = a ++ x :: b -> expected a x.
Proof. intros H E a x b Q. apply snoc_cases in Q. destruct Q as [(-> & -> & _)|(b' & -> & _)]; [exact E|eapply H; reflexivity]. Qed.
Lemma taken_in s id : inv s -> In id (ids (taken (oc_log s))) -> exists h, In h (taken (oc_log s)) /\ i_id h = id.
Proof. intros V I. apply in_map_iff in I. destruct I as (h & E & I). eauto. Qed.

Lemma logged_unref s k : logged s -> logged (unref_conn s k).
Proof.
  intros [A B]. unfold unref_conn. destruct (_ =? 0); [|split; assumption]. split; cbn.
  - apply expected_snoc; [exact A|exact Logic.I].
  - intros N. destruct (B N) as [t I]. exists t. apply in_app_iff. auto.
Qed.
Lemma closers_to_nil (l : list (Z * phase)) t p : closer_to l t p <> [] -> l <> [].
Proof. destruct l; [intros H; exact H|discriminate]. Qed.
Lemma logged_step s e s' : inv s -> logged s -> cstep s e = Ok s' -> logged s'.
Proof.
  intros V [A B] H. unfold cstep in H. destruct (oc_freed s && active s e); [discriminate|]. apply ok_inj in H. subst s'. destruct e.
  - unfold install, with_list. destruct full; cbn; (split; cbn; [apply expected_snoc; [exact A|exact Logic.I]|]);
    intros N; destruct (B N) as [t I]; exists t; apply in_app_iff; auto.
  - unfold remove. assert (K : forall o, oc_closers s <> [] -> exists t, In (OClosed t) (oc_log s ++ [ORem fn data o])).
    { intros o N. destruct (B N) as [t I]. exists t. apply in_app_iff. auto. }
    assert (NF : (forall h, In h (olist (oc_full s)) -> ~ (i_fn h = fn /\ i_data h = data)) -> expected (oc_log s) (ORem fn data None)).
    { intros T h I F E1 E2. destruct (in_lists s h V I) as [J|[J|J]]; [|left|auto].
      - rewrite F in J. cbn in J. exfalso. apply (T h J). auto.
      - destruct (taken_in s _ V J) as (x & X & Q). rewrite <- (inst_inj s x h V (v_taken _ V x X) I Q). exact X. }
    destruct (oc_full s) as [l|] eqn:L; [|split; cbn; [apply expected_snoc; [exact A|]; apply NF; intros h []|apply K]].
    pose proof (take_match_spec fn data l) as T. destruct (take_match fn data l) as [[id r]|].
    + destruct T as (a & h & b & -> & -> & E & E1 & E2). split; cbn; [|apply K].
      apply expected_snoc; [exact A|]. cbn. exists h. destruct (v_full _ V h) as [I1 I2]; [rewrite L; cbn; apply in_app_iff; cbn; auto|]. auto.
    + split; cbn; [|apply K]. apply expected_snoc; [exact A|]. apply NF. exact T.
  - unfold close_conn. destruct (phase_of s t); [split; assumption|]. destruct (oc_conn s); [|split; assumption].
    split; cbn; [apply expected_snoc; [exact A|exact Logic.I]|]. intros _. exists t. apply in_app_iff. cbn. auto.
  - unfold closer_step. destruct (phase_of s t) as [p|] eqn:P; [|split; assumption].
    assert (C : exists u, In (OClosed u) (oc_log s)).
    { apply B. destruct (phase_split s t p V P) as (a & b & Q & _). rewrite Q. destruct a; discriminate. }
    assert (K : forall q, logged (with_closers s (closer_to (oc_closers s) t q))) by (intros q; split; [exact A|intros _; exact C]).
    assert (K2 : forall o, exists u, In (OClosed u) (oc_log s ++ [o])) by (intros o; destruct C as [u I]; exists u; apply in_app_iff; auto).
    destruct p as [full|full|full|h| |].
    + destruct (list_of s full); apply K.
    + destruct (oc_exit s); apply K.
    + destruct (list_of s full) as [[|h r]|] eqn:L; try apply K.
      assert (I : In h (installed (oc_log s))) by (apply (listed_fresh s full h V); rewrite L; left; reflexivity).
      unfold with_list, with_log. destruct full; (split; cbn; [apply expected_snoc; [exact A|cbn; auto]|intros _; apply K2]).
    + destruct ok; [split; [exact A|intros _; exact C]|]. split; cbn; [apply expected_snoc; [exact A|exact Logic.I]|intros _; apply K2].
    + split; cbn; [apply expected_snoc; [exact A|exact Logic.I]|intros _; apply K2].
    + apply logged_unref. split; [exact A|intros _; exact C].
  - unfold note_step. destruct (note_of s id) as [[]|] eqn:N; [| |split; assumption].
    + apply logged_unref. split; cbn; [apply expected_snoc; [exact A|exact Logic.I]|].
      intros M. destruct (B M) as [t I]. exists t. apply in_app_iff. auto.
    + split; cbn; [apply expected_snoc; [exact A|]|].
      * cbn. destruct (note_split s id false V N) as (a & h & b & Q & I & _). apply taken_in; [exact V|].
        apply (Permutation_in _ (Permutation_sym (v_tkn _ V))). rewrite !in_app_iff. right. left. rewrite Q, waiting_app. cbn.
        rewrite I. apply in_app_iff. cbn. auto.
      * intros M. destruct (B M) as [t I]. exists t. apply in_app_iff. auto.
  - split; assumption.
  - apply logged_unref. split; assumption.
  - split; assumption.
  - split; assumption.
Qed.
Lemma logged_run es s : crun oc0 es = Ok s -> inv s /\ logged s.
Proof.
  intros R. split; [exact (inv_run es oc0 s inv0 R)|]. apply (crun_ind logged logged_step es oc0 s inv0); [|exact R].
  split; [|intros N; exfalso; apply N; reflexivity]. intros [|? a] o b H; discriminate H.
Qed.

Lemma once_thm es s : crun oc0 es = Ok s -> NoDup (calls (oc_log s)) /\
  forall a id b, oc_log s = a ++ OCall id :: b -> (exists h, In h (installed a) /\ i_id h = id) /\ (exists t, In (OClosed t) a) /\ ~ In id (removed a).
Proof.
  intros R. destruct (logged_run es s R) as [V [A _]]. split; [apply calls_nodup, V|]. intros a id b Q.
  destruct (A _ _ _ Q) as (h & I & E).
  assert (J : exists c d, a = c ++ OTake h :: d).
  { unfold taken in I. apply in_flat_map in I. destruct I as (o & Io & Ih). destruct o; try (destruct Ih; fail).
    destruct Ih as [->|[]]. apply in_split in Io. exact Io. }
  destruct J as (c & d & ->). rewrite <- app_assoc in Q. cbn in Q. destruct (A _ _ _ Q) as [H1 [t H2]]. conj.
  - exists h. rewrite installed_app, in_app_iff. auto.
  - exists t. apply in_app_iff. auto.
  - intros X. apply (calls_not_removed s id V); rewrite Q.
    + rewrite app_comm_cons, app_assoc. rewrite !calls_app, !in_app_iff. cbn. auto.
    + rewrite app_comm_cons, app_assoc. rewrite (removed_app (c ++ OTake h :: d)), in_app_iff. auto.
Qed.
Lemma removed_thm es s : crun oc0 es = Ok s -> forall a f d id b, oc_log s = a ++ ORem f d (Some id) :: b ->
  (exists h, In h (installed a) /\ i_id h = id /\ i_full h = true /\ i_fn h = f /\ i_data h = d) /\ ~ In id (calls (oc_log s)).
Proof.
  intros R a f d id b Q. destruct (logged_run es s R) as [V [A _]]. split; [exact (A _ _ _ Q)|].
  intros I. apply (calls_not_removed s id V I). rewrite Q, removed_app, in_app_iff. right. left. reflexivity.
Qed.
Lemma not_found_thm es s : crun oc0 es = Ok s -> forall a f d b, oc_log s = a ++ ORem f d None :: b ->
  forall h, In h (installed a) -> i_full h = true -> i_fn h = f -> i_data h = d -> In h (taken a) \/ In (i_id h) (removed a).
Proof. intros R a f d b Q. destruct (logged_run es s R) as [V [A _]]. exact (A _ _ _ Q). Qed.

(** Every handler installed before the connection is closed *)
Definition before (p : phase) (full : bool) : bool :=
  match p with
  | PCheck f | PExit f | PLoop f => negb f || full
  | PGot h => negb (i_full h) || full
  | PSock | PUnref => false
  end.
Definition served (s : ocs) : Prop := oc_exit s = false -> forall a t b, oc_log s = a ++ OClosed t :: b ->
  forall h, In h (installed a) -> In h (olist (list_of s (i_full h))) -> exists u p, In (u, p) (oc_closers s) /\ before p (i_full h) = true.
Lemma served_keep s s' o : served s -> (oc_exit s' = false -> oc_exit s = false) -> oc_log s' = oc_log s ++ o ->
  (forall x, In x o -> forall t, x <> OClosed t) ->
  (forall h, In h (installed (oc_log s)) -> In h (olist (list_of s' (i_full h))) -> In h (olist (list_of s (i_full h)))) ->
  (forall h u p, In h (installed (oc_log s)) -> In h (olist (list_of s' (i_full h))) -> In (u, p) (oc_closers s) -> before p (i_full h) = true ->
     exists u' p', In (u', p') (oc_closers s') /\ before p' (i_full h) = true) -> served s'.
Proof.
  intros S X L O I C E a t b Q h Ih Il.
  assert (D : exists b', oc_log s = a ++ OClosed t :: b').
  { rewrite L in Q. clear L. revert b Q. induction o as [|x o IH] using rev_ind; intros b Q; [rewrite app_nil_r in Q; eauto|].
    rewrite app_assoc in Q. apply snoc_cases in Q. destruct Q as [(_ & Q & _)|(b' & Q & _)].
    - exfalso. apply (O x) with (t := t); [apply in_app_iff; cbn; auto|auto].
    - apply (IH (fun y Hy => O y (in_or_app _ _ _ (or_introl Hy))) b' Q). }
  destruct D as [b' D].
  assert (J : In h (installed (oc_log s))) by (rewrite D, installed_app, in_app_iff; auto).
  destruct (S (X E) a t b' D h Ih (I h J Il)) as (u & p & U & P). eapply C; eauto.
Qed.
Lemma served_frame s s' o : served s -> (oc_exit s' = false -> oc_exit s = false) -> oc_log s' = oc_log s ++ o ->
  (forall x, In x o -> forall t, x <> OClosed t) -> oc_plain s' = oc_plain s -> oc_full s' = oc_full s -> oc_closers s' = oc_closers s -> served s'.
Proof.
  intros S X L O A B C. apply (served_keep s s' o S X L O).
  - intros h _ I. destruct (i_full h); cbn in *; [rewrite B in I|rewrite A in I]; exact I.
  - intros h u p _ _ I P. exists u, p. rewrite C. auto.
Qed.
Ltac noclosed := intros x X u; cbn in X; repeat (destruct X as [<-|X]; [discriminate|]); destruct X.
Lemma served_unref s k : served s -> served (unref_conn s k).
Proof.
  intros S. unfold unref_conn. destruct (_ =? 0).
  - apply (served_frame s _ [OFree]); auto. noclosed.
  - apply (served_frame s _ []); auto; cbn; rewrite app_nil_r; reflexivity.
Qed.
Lemma served_go s t p p' o s' : inv s -> served s -> phase_of s t = Some p ->
  oc_exit s' = oc_exit s -> oc_log s' = oc_log s ++ o -> (forall x, In x o -> forall t, x <> OClosed t) ->
  oc_closers s' = closer_to (oc_closers s) t p' ->
  (forall h, In h (olist (list_of s' (i_full h))) -> In h (olist (list_of s (i_full h)))) ->
  (forall full, before p full = true -> before p' full = true \/ olist (list_of s' full) = []) -> served s'.
Proof.
  intros V S P X L O C I B. destruct (phase_split s t p V P) as (a & b & Q & A1 & A2). rewrite Q, closer_to_split in C by assumption.
  apply (served_keep s s' o S); auto; [congruence|]. intros h u q _ Il Iu Bq. rewrite Q, in_app_iff in Iu. rewrite C. destruct Iu as [Iu|[Iu|Iu]].
  - exists u, q. rewrite in_app_iff. auto.
  - injection Iu as <- <-. destruct (B _ Bq) as [B'|B']; [|rewrite B' in Il; destruct Il].
    exists t, p'. rewrite in_app_iff. cbn. auto.
  - exists u, q. rewrite in_app_iff. cbn. auto.
Qed.

Lemma served_step s e s' : inv s -> served s -> cstep s e = Ok s' -> served s'.
Proof.
  intros V S H. unfold cstep in H. destruct (oc_freed s && active s e); [discriminate|]. apply ok_inj in H. subst s'. destruct e.
  - unfold install. set (h0 := mkI _ _ _ _). apply (served_keep s _ [OInst h0]); auto.
    + destruct full; auto.
    + destruct full; reflexivity.
    + noclosed.
    + assert (N : forall h, In h (installed (oc_log s)) -> h0 <> h).
      { intros h I E. apply (v_lt _ V) in I. rewrite <- E in I. cbn in I. lia. }
      intros h I Il. specialize (N h I). unfold with_list, list_of in *. destruct full; destruct (i_full h); cbn in *; auto.
      * destruct last; cbn in Il; [apply in_app_iff in Il; cbn in Il|]; destruct (oc_full s); cbn in *; tauto.
      * apply in_app_iff in Il. cbn in Il. destruct (oc_plain s); cbn in *; tauto.
    + intros h u p _ _ I B. exists u, p. unfold with_list. destruct full; cbn; auto.
  - unfold remove. destruct (oc_full s) as [l|] eqn:L; [|apply (served_frame s _ [ORem fn data None]); auto; noclosed].
    pose proof (take_match_spec fn data l) as T. destruct (take_match fn data l) as [[id r]|];
      [|apply (served_frame s _ [ORem fn data None]); auto; noclosed].
    destruct T as (a & h & b & -> & -> & E & E1 & E2). apply (served_keep s _ [ORem fn data (Some id)]); auto; [noclosed| |].
    + intros x _ Il. unfold list_of in *. destruct (i_full x); cbn in *; auto. rewrite L. cbn. apply in_app_iff in Il. apply in_app_iff. cbn. tauto.
    + intros x u p _ _ I B. exists u, p. auto.
  - unfold close_conn. destruct (phase_of s t); [exact S|]. destruct (oc_conn s); [|exact S].
    intros E a u b Q h Ih Il. cbn in Q, E, Il. apply snoc_cases in Q. destruct Q as [(-> & _ & _)|(b' & Q & _)].
    + exists t, (PCheck false). cbn. rewrite in_app_iff. cbn. auto.
    + destruct (S E a u b' Q h Ih) as (v & p & Iv & Bv); [destruct (i_full h); exact Il|]. exists v, p. cbn. rewrite in_app_iff. auto.
  - unfold closer_step. destruct (phase_of s t) as [[full|full|full|h| |]|] eqn:P; [| | | | | |exact S].
    + destruct (list_of s full) eqn:L; (eapply (served_go s t _ _ []); [exact V|exact S|exact P|reflexivity|cbn; rewrite app_nil_r; reflexivity|noclosed|reflexivity|intros h I; exact I|]).
      * intros f B. left. exact B.
      * intros f B. destruct full, f; cbn in *; try discriminate B; try (left; reflexivity); right; rewrite L; reflexivity.
    + destruct (oc_exit s) eqn:E.
      { intros X. unfold with_closers in X. cbn in X. congruence. }
      eapply (served_go s t _ _ []); [exact V|exact S|exact P|reflexivity|cbn; rewrite app_nil_r; reflexivity|noclosed|reflexivity|intros h I; exact I|].
      intros f B. left. exact B.
    + assert (K : olist (list_of s full) = [] -> served (with_closers s (closer_to (oc_closers s) t (after full)))).
      { intros N. eapply (served_go s t _ _ []); [exact V|exact S|exact P|reflexivity|cbn; rewrite app_nil_r; reflexivity|noclosed|reflexivity|intros h I; exact I|].
        intros f B. destruct full, f; cbn in *; auto. }
      destruct (list_of s full) as [[|h r]|] eqn:L; try (apply K; reflexivity).
      assert (F : i_full h = full) by (apply (listed_fresh s full h V); rewrite L; left; reflexivity).
      eapply (served_go s t _ (PGot h) [OTake h]); [exact V|exact S|exact P|destruct full; reflexivity|destruct full; reflexivity|noclosed|destruct full; reflexivity| |].
      * intros x I. unfold with_log, with_list, list_of in *. destruct full, (i_full x); cbn in *; auto; rewrite L; cbn; auto.
      * intros f B. left. cbn. rewrite F. exact B.
    + destruct ok.
      * eapply (served_go s t _ (PLoop (i_full h)) []); [exact V|exact S|exact P|reflexivity|cbn; rewrite app_nil_r; reflexivity|noclosed|reflexivity|intros x I; exact I|].
        intros f B. left. exact B.
      * eapply (served_go s t _ (PLoop (i_full h)) [OLost h]); [exact V|exact S|exact P|reflexivity|reflexivity|noclosed|reflexivity|intros x I; exact I|].
        intros f B. left. exact B.
    + eapply (served_go s t _ PUnref [OSock]); [exact V|exact S|exact P|reflexivity|reflexivity|noclosed|reflexivity|intros x I; exact I|].
      intros f B. discriminate B.
    + apply served_unref. destruct (phase_split s t _ V P) as (a & b & Q & A1 & A2).
      apply (served_keep s _ []); auto; [cbn; rewrite app_nil_r; reflexivity|].
      intros h u p _ _ I B. cbn. exists u, p. rewrite Q in I. rewrite Q, end_closer_split by assumption.
      apply in_app_iff in I. rewrite in_app_iff. destruct I as [I|[I|I]]; auto. injection I as <- <-. discriminate B.
  - unfold note_step. destruct (note_of s id) as [[]|]; [| |exact S].
    + apply served_unref. apply (served_frame s _ [OEnd id]); auto. noclosed.
    + apply (served_frame s _ [OCall id]); auto. noclosed.
  - apply (served_frame s _ []); auto; cbn; rewrite app_nil_r; reflexivity.
  - apply served_unref, S.
  - intros X. discriminate X.
  - apply (served_frame s _ []); auto; cbn; rewrite app_nil_r; reflexivity.
Qed.
Lemma served0 : served oc0.
Proof. intros _ [|? a] t b H; discriminate H. Qed.
Lemma exit_unref s k : oc_exit (unref_conn s k) = oc_exit s.
Proof. unfold unref_conn. destruct (_ =? 0); reflexivity. Qed.
Lemma exit_step s e s' : e <> CExit -> cstep s e = Ok s' -> oc_exit s' = oc_exit s.
Proof.
  intros N H. unfold cstep in H. destruct (oc_freed s && active s e); [discriminate|]. apply ok_inj in H. subst s'. destruct e; try reflexivity.
  - unfold install, with_list. destruct full; reflexivity.
  - unfold remove. destruct (oc_full s) as [l|]; [|reflexivity]. destruct (take_match fn data l) as [[]|]; reflexivity.
  - unfold close_conn. destruct (phase_of s t); [reflexivity|]. destruct (oc_conn s); reflexivity.
  - unfold closer_step. destruct (phase_of s t) as [[full|full|full|h| |]|]; try reflexivity.
    + destruct (list_of s full); reflexivity.
    + destruct (oc_exit s) eqn:E; cbn; exact E.
    + destruct (list_of s full) as [[|h r]|]; try reflexivity. destruct full; reflexivity.
    + destruct ok; reflexivity.
    + rewrite exit_unref. reflexivity.
  - unfold note_step. destruct (note_of s id) as [[]|]; try reflexivity. rewrite exit_unref. reflexivity.
  - apply exit_unref.
  - congruence.
Qed.
Lemma exit_run es s s' : ~ In CExit es -> crun s es = Ok s' -> oc_exit s' = oc_exit s.
Proof.
  revert s. induction es as [|e es IH]; intros s N R; cbn in R; [apply ok_inj in R; subst; reflexivity|].
  destruct (cstep s e) as [r|] eqn:E; [|discriminate]. cbn in R. rewrite (IH r); [|intros X; apply N; right; exact X|exact R].
  apply (exit_step s e); [|exact E]. intros X. apply N. left. auto.
Qed.
Lemma losts_nil l : (forall h, ~ In (OLost h) l) -> losts l = [].
Proof.
  induction l as [|o l IH]; [reflexivity|]. intros H. unfold losts in *. cbn [flat_map]. rewrite IH; [|intros h I; apply (H h); right; exact I].
  destruct o; try reflexivity. exfalso. apply (H h). left. reflexivity.
Qed.
Lemma all_thm es s : crun oc0 es = Ok s -> ~ In CExit es -> quiet s -> (forall h, ~ In (OLost h) (oc_log s)) ->
  forall a t b, oc_log s = a ++ OClosed t :: b -> forall h, In h (installed a) -> ~ In (i_id h) (removed (oc_log s)) ->
  In (i_id h) (calls (oc_log s)) /\ In (i_id h) (ends (oc_log s)).
Proof.
  intros R N [C M] L a t b Q h I X. destruct (logged_run es s R) as [V _].
  assert (S : served s) by (apply (crun_ind served served_step es oc0 s inv0 served0 R)).
  assert (J : In h (installed (oc_log s))) by (rewrite Q, installed_app, in_app_iff; auto).
  assert (K : In (i_id h) (calls (oc_log s))).
  { destruct (in_lists s h V J) as [D|[D|D]]; [| |contradiction].
    - destruct (S (exit_run es oc0 s N R) a t b Q h I D) as (u & p & U & _). rewrite C in U. destruct U.
    - apply (Permutation_in _ (v_tkn _ V)) in D. rewrite C, M, (losts_nil _ L), app_nil_r in D. exact D. }
  split; [exact K|]. apply (Permutation_in _ (v_run _ V)) in K. rewrite M in K. exact K.
Qed.

(** A handler installed when the connection is already closed *)
Definition over (s : ocs) : Prop := oc_conn s = false /\ oc_closers s = [].
Lemma over_unref s k : over s -> over (unref_conn s k) /\ taken (oc_log (unref_conn s k)) = taken (oc_log s).
Proof.
  intros [A B]. unfold unref_conn. destruct (_ =? 0); (split; [split; assumption|]); cbn; rewrite ?taken_app; cbn; rewrite ?app_nil_r; reflexivity.
Qed.
Lemma over_step s e s' : over s -> e <> CReconnect -> cstep s e = Ok s' -> over s' /\ taken (oc_log s') = taken (oc_log s).
Proof.
  intros [A B] N H. assert (O : over s) by (split; assumption).
  unfold cstep in H. destruct (oc_freed s && active s e); [discriminate|]. apply ok_inj in H. subst s'. destruct e.
  - unfold install, with_list. destruct full; (split; [split; assumption|]); cbn; rewrite taken_app; cbn; apply app_nil_r.
  - unfold remove, with_log, with_list. destruct (oc_full s) as [l|]; [destruct (take_match fn data l) as [[]|]|];
    (split; [split; assumption|]); cbn; rewrite taken_app; cbn; apply app_nil_r.
  - unfold close_conn. destruct (phase_of s t); [auto|]. rewrite A. auto.
  - unfold closer_step, phase_of. rewrite B. cbn. auto.
  - unfold note_step. destruct (note_of s id) as [[]|]; [| |auto].
    + destruct (over_unref (with_log (with_notes s (filter (fun e => negb (i_id (fst e) =? id)) (oc_notes s))) [OEnd id]) 0) as [O1 O2]; [split; assumption|].
      split; [exact O1|]. rewrite O2. cbn. rewrite taken_app. cbn. apply app_nil_r.
    + split; [split; assumption|]. cbn. rewrite taken_app. cbn. apply app_nil_r.
  - auto.
  - apply over_unref, O.
  - auto.
  - congruence.
Qed.
Lemma over_run es s s' : over s -> ~ In CReconnect es -> crun s es = Ok s' -> taken (oc_log s') = taken (oc_log s).
Proof.
  revert s. induction es as [|e es IH]; intros s O N R; cbn in R; [apply ok_inj in R; subst; reflexivity|].
  destruct (cstep s e) as [r|] eqn:E; [|discriminate]. cbn in R. destruct (over_step s e r O) as [O1 O2]; [intros X; apply N; left; auto|exact E|].
  rewrite (IH r O1); [exact O2|intros X; apply N; right; exact X|exact R].
Qed.
Lemma late_never s full h : inv s -> over s -> In h (olist (list_of s full)) ->
  forall es s', ~ In CReconnect es -> crun s es = Ok s' -> ~ In (i_id h) (calls (oc_log s')).
Proof.
  intros V O I es s' N R J. apply (listed_not_taken s full h V I). rewrite <- (over_run es s s' O N R).
  apply (calls_taken s' _ (inv_run es s s' V R) J).
Qed.
Definition late_events : list cev :=
  [CClose 1; CStep 1 true; CStep 1 true; CStep 1 true; CStep 1 true; CInst true true 7 8].
Lemma late_thm : exists es s h, crun oc0 es = Ok s /\ ~ In CExit es /\ oc_conn s = false /\ quiet s /\ In h (installed (oc_log s)) /\
  removed (oc_log s) = [] /\
  forall more s', ~ In CReconnect more -> crun s more = Ok s' -> ~ In (i_id h) (calls (oc_log s')).
Proof.
  exists late_events. eexists. exists (mkI 0 true 7 8). split; [vm_compute; reflexivity|]. split; [cbn; intuition discriminate|].
  split; [reflexivity|]. split; [split; reflexivity|]. split; [cbn; auto|]. split; [reflexivity|].
  match goal with |- forall more s', _ -> crun ?s more = _ -> _ => set (st := s) end.
  assert (V : inv st) by (apply (inv_run late_events oc0); [exact inv0|vm_compute; reflexivity]).
  intros more s' N R. refine (late_never st true (mkI 0 true 7 8) V _ _ more s' N R); [split; reflexivity|left; reflexivity].
Qed.
