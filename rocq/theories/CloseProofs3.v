(** Each request is answered once. *)
From Verif Require Import Base CloseModel CloseSpec CloseProofs CloseProofs2.

Definition valid (s : kst) (m : Z) : Prop := 0 <= m < k_reqs s.
Definition good (s : kst) (m : Z) : Prop :=
  match at_r s m with
  | Some (RFake | RFakeRef) => answers m (k_log s) = [AOk] \/ (answers m (k_log s) = [] /\ k_up s = false)
  | Some (RFinish false) => answers m (k_log s) = [] /\ k_up s = false
  | Some _ => answers m (k_log s) = []
  | None => valid s m -> (exists a, answers m (k_log s) = [a]) \/ (answers m (k_log s) = [] /\ (In (ODefer m) (k_log s) \/ k_up s = false))
  end.
Definition fresh (s : kst) : Prop := forall m, ~ valid s m -> answers m (k_log s) = [].
Lemma good_frame s s' m : good s m -> at_r s' m = at_r s m -> answers m (k_log s') = answers m (k_log s) -> (k_up s = false -> k_up s' = false) ->
  (In (ODefer m) (k_log s) -> In (ODefer m) (k_log s')) -> (valid s' m -> valid s m) -> good s' m.
Proof.
  unfold good. intros G -> -> U D V. destruct (at_r s m) as [[]|]; try tauto; try (destruct b; tauto); try (destruct ok; tauto).
Qed.


Lemma answers_reply s m a m' : answers m' (k_log (reply s m a)) = answers m' (k_log s) ++ (if k_up s then if m =? m' then [a] else [] else []).
Proof. unfold reply. destruct (k_up s); [|rewrite app_nil_r; reflexivity]. fields. rewrite answers_app, answers_cons, answers_nil, app_nil_r. reflexivity. Qed.
Lemma reply_resp s m a : k_resp (reply s m a) = k_resp s.
Proof. unfold reply. destruct (k_up s); reflexivity. Qed.
Lemma reply_reqs s m a : k_reqs (reply s m a) = k_reqs s.
Proof. unfold reply. destruct (k_up s); reflexivity. Qed.
Lemma reply_up s m a : k_up (reply s m a) = k_up s.
Proof. unfold reply. destruct (k_up s) eqn:U; fields; congruence. Qed.
Lemma in_reply s m a o : In o (k_log s) -> In o (k_log (reply s m a)).
Proof. unfold reply. destruct (k_up s); fields; [|auto]. intros. apply in_or_app. auto. Qed.
Ltac ans := unfold drop_r, valid, decided, removed in *; fields; rewrite ?reply_resp, ?reply_reqs, ?reply_up, ?answers_app, ?answers_reply, ?answers_cons, ?answers_nil, ?app_nil_r in *; fields;
  rewrite ?reply_resp, ?reply_reqs, ?reply_up, ?answers_app, ?answers_reply, ?answers_cons, ?answers_nil, ?app_nil_r in *.
Lemma mutex_same s : k_mutex s = None -> with_mutex s None = s.
Proof. destruct s. cbn. intros ->. reflexivity. Qed.
Lemma good_step s e s' : (forall m, good s m) -> fresh s -> inv s -> known s -> calm s e -> kstep s e = Ok s' -> (forall m, good s' m) /\ fresh s' /\ known s'.
Proof.
  intros G F I K C E.
  assert (Same : s = s' -> (forall m, good s' m) /\ fresh s' /\ known s') by (intros <-; auto).
  assert (Quiet : forall l, k_resp s' = k_resp s -> k_reqs s' = k_reqs s -> k_log s' = k_log s ++ l -> (forall m, answers m l = []) -> (forall m, In (ODefer m) l -> False) -> (k_up s = false -> k_up s' = false) ->
    (forall m, good s' m) /\ fresh s' /\ known s').
  { intros l E1 E2 E3 E4 E5 E6. conj.
    - intros m. apply (good_frame s s' m (G m)); unfold valid; rewrite ?at_r_look, ?E1, ?E2, ?E3, ?answers_app, ?E4, ?app_nil_r; auto. intros. apply in_or_app; auto.
    - intros m V. unfold valid in V. rewrite E2 in V. rewrite E3, answers_app, E4, app_nil_r. auto.
    - intros m. rewrite E2, E3. intros H. apply in_app_or in H. destruct H as [H|H]; [auto|destruct (E5 m H)]. }
  Ltac quiet := match goal with Q : forall l, _ -> _ -> k_log ?s' = k_log ?s ++ l -> _ |- _ => first [apply (Q []); fields; try rewrite app_nil_r; auto; fail | eapply Q; fields; [reflexivity|reflexivity|reflexivity|intros; reflexivity|intros ? [?|[]]; discriminate|intros; fields; congruence]] end.
  assert (Move : forall m l, (forall x, x <> m -> look (k_resp s') x = look (k_resp s) x) -> k_reqs s' = k_reqs s -> k_log s' = k_log s ++ l -> (forall x, x <> m -> answers x l = []) ->
    (forall x, In (ODefer x) l -> x = m) -> (k_up s = false -> k_up s' = false) -> valid s m -> good s' m -> (forall m, good s' m) /\ fresh s' /\ known s').
  { intros m l E1 E2 E3 E4 E5 E6 V Gm. conj.
    - intros x. destruct (Z.eq_dec x m) as [->|N]; [exact Gm|]. apply (good_frame s s' x (G x)); unfold valid; rewrite ?at_r_look, ?E1, ?E2, ?E3, ?answers_app, ?E4, ?app_nil_r; auto. intros. apply in_or_app; auto.
    - intros x V'. unfold valid in V'. rewrite E2 in V'. rewrite E3, answers_app. destruct (Z.eq_dec x m) as [->|N]; [contradiction|]. rewrite E4, app_nil_r; auto.
    - intros x. rewrite E2, E3. intros H. apply in_app_or in H. destruct H as [H|H]; [auto|]. rewrite (E5 x H). exact V. }
  assert (Go : forall m p, k_resp s' = (m, p) :: less (k_resp s) m -> forall x, x <> m -> look (k_resp s') x = look (k_resp s) x).
  { intros m p -> x N. rewrite look_put. apply Z.eqb_neq in N. rewrite N. reflexivity. }
  assert (Gone : forall m, k_resp s' = less (k_resp s) m -> forall x, x <> m -> look (k_resp s') x = look (k_resp s) x).
  { intros m -> x N. rewrite look_less. apply Z.eqb_neq in N. rewrite N. reflexivity. }
  assert (Ans0 : forall m a x, x <> m -> answers x [OAnswer m a; OEnd m] = []).
  { intros m a x N. rewrite !answers_cons, answers_nil. destruct (m =? x) eqn:X; [lia|reflexivity]. }
  assert (Ans1 : forall m a x, x <> m -> answers x [OAnswer m a] = []).
  { intros m a x N. rewrite !answers_cons, answers_nil. destruct (m =? x) eqn:X; [lia|reflexivity]. }
  (* a request that is answered and ends *)
  assert (Final : forall m a, valid s m -> answers m (k_log s) = [] -> s' = end_r (reply s m a) m -> (forall m, good s' m) /\ fresh s' /\ known s').
  { intros m a V N ->. apply (Move m ((if k_up s then [OAnswer m a] else []) ++ [OEnd m])).
    - apply Gone. fields. rewrite reply_resp. reflexivity.
    - fields. rewrite reply_reqs. reflexivity.
    - unfold reply. destruct (k_up s); fields; rewrite ?app_assoc_reverse; reflexivity.
    - intros x Nx. rewrite answers_app. destruct (k_up s); rewrite ?Ans1 by auto; reflexivity.
    - intros x H. destruct (k_up s); cbn in H; firstorder discriminate.
    - fields. rewrite reply_up. auto.
    - exact V.
    - unfold good. rewrite at_r_look. fields. rewrite look_less, Z.eqb_refl. intros _. rewrite answers_app, answers_reply, N, reply_up. rewrite Z.eqb_refl, answers_cons, answers_nil, !app_nil_r. cbn [app].
      destruct (k_up s); eauto. }
  assert (Decided2 : forall m v, valid s m -> answers m (k_log s) = [] -> decided (with_mutex s None) m v = s' -> (forall m, good s' m) /\ fresh s' /\ known s').
  { intros m v V N X. unfold decided in X. destruct v; subst s'.
    - apply (Move m []); auto; [eapply Go; reflexivity|fields; rewrite app_nil_r; reflexivity|intros x []|]. unfold good. rewrite at_r_look. fields. rewrite look_put, Z.eqb_refl. auto.
    - apply (Move m ((if k_up s then [OAnswer m (AErr 550)] else []) ++ [OEnd m])).
      + apply Gone. fields. rewrite reply_resp. reflexivity.
      + fields. rewrite reply_reqs. reflexivity.
      + unfold reply. fields. destruct (k_up s); fields; rewrite ?app_assoc_reverse; reflexivity.
      + intros x Nx. rewrite answers_app. destruct (k_up s); rewrite ?Ans1 by auto; reflexivity.
      + intros x H. destruct (k_up s); cbn in H; firstorder discriminate.
      + fields. rewrite reply_up. auto.
      + exact V.
      + unfold good. rewrite at_r_look. fields. rewrite look_less, Z.eqb_refl. intros _. rewrite answers_app, answers_reply, reply_up. fields. rewrite N. rewrite Z.eqb_refl, answers_cons, answers_nil, !app_nil_r. cbn [app].
        destruct (k_up s); eauto. }
  destruct e; cbn [kstep resp_step clo_step] in E.
  - destruct (k_up s) eqn:U; [|apply Same; congruence]. assert (Fr : answers (k_reqs s) (k_log s) = []) by (apply F; unfold valid; lia).
    assert (R0 : 0 <= k_reqs s) by apply I.
    assert (Old : forall x, x <> k_reqs s -> look (k_resp s') x = look (k_resp s) x -> answers x (k_log s') = answers x (k_log s) -> k_reqs s' = k_reqs s + 1 -> (In (ODefer x) (k_log s) -> In (ODefer x) (k_log s')) -> good s' x).
    { intros x Nx E1 E2 E3 E4. apply (good_frame s s' x (G x)); rewrite ?at_r_look; auto; [congruence|]. unfold valid. rewrite E3. lia. }
    destruct d as [[]|]; [|discriminate|]; apply ok_inj in E; subst s'; conj.
    + intros x. destruct (Z.eq_dec x (k_reqs s)) as [->|N].
      * unfold good. rewrite at_r_look. fields. rewrite look_put, Z.eqb_refl. exact Fr.
      * apply Old; auto. eapply Go; [fields; reflexivity|auto].
    + intros x V. unfold valid in V. fields. apply F. unfold valid. lia.
    + intros x H. fields. specialize (K x H). lia.
    + intros x. destruct (Z.eq_dec x (k_reqs s)) as [->|N].
      * unfold good. rewrite at_r_look. unfold reply. fields. rewrite ?U. fields. rewrite look_less, Z.eqb_refl. intros _. rewrite !answers_app, !answers_cons, !answers_nil, Fr, Z.eqb_refl. cbn. eauto.
      * apply Old; auto. 
        -- apply (Gone (k_reqs s)); auto.
        -- unfold reply. fields. rewrite ?U. fields. rewrite app_assoc_reverse, answers_app. cbn [app]. rewrite Ans0 by auto. apply app_nil_r.
        -- intros H. unfold reply. fields. rewrite ?U. fields. rewrite !in_app_iff. auto.
    + intros x V. unfold valid, reply in *. fields. rewrite ?U in *. fields. rewrite app_assoc_reverse, answers_app. cbn [app]. rewrite Ans0 by lia. rewrite app_nil_r. apply F. unfold valid. lia.
    + intros x. unfold reply. fields. rewrite ?U. fields. rewrite !in_app_iff. intros [[H|H]|H]; [|firstorder discriminate..]. specialize (K x H). lia.
  - destruct (at_r s m) as [[]|] eqn:P; try (apply Same; congruence). pose proof (i_valid s I m _ P) as V. pose proof (G m) as Gm. unfold good in Gm. rewrite P in Gm.
    destruct (k_up s && k_in s); apply ok_inj in E; [|eapply Final; eauto]. subst s'.
    apply (Move m []); auto; [eapply Go; reflexivity|fields; rewrite app_nil_r; reflexivity|intros x []|]. unfold good. rewrite at_r_look. fields. rewrite look_put, Z.eqb_refl. auto.
  - destruct (at_r s m) as [[]|] eqn:P; try (apply Same; congruence). pose proof (i_valid s I m _ P) as V. pose proof (G m) as Gm. unfold good in Gm. rewrite P in Gm.
    destruct (k_in s); [|discriminate]. apply ok_inj in E. subst s'.
    apply (Move m []); auto; [eapply Go; reflexivity|fields; rewrite app_nil_r; reflexivity|intros x []|]. unfold good. rewrite at_r_look. fields. rewrite look_put, Z.eqb_refl. auto.
  - destruct (at_r s m) as [[]|] eqn:P; try (apply Same; congruence). pose proof (i_valid s I m _ P) as V. pose proof (G m) as Gm. unfold good in Gm. rewrite P in Gm.
    destruct (k_mutex s) eqn:M; [apply Same; congruence|]. destruct (k_being s) eqn:B.
    + apply ok_inj in E. subst s'. apply (Move m (if k_up s then [OAnswer m AOk] else [])); auto.
      * eapply Go. fields. rewrite reply_resp. reflexivity.
      * fields. rewrite reply_reqs. reflexivity.
      * fields. unfold reply. destruct (k_up s); fields; rewrite ?app_nil_r; reflexivity.
      * intros x N. destruct (k_up s); auto.
      * intros x H. destruct (k_up s); cbn in H; firstorder discriminate.
      * fields. rewrite reply_up. auto.
      * unfold good. rewrite at_r_look. fields. rewrite reply_resp, look_put, Z.eqb_refl, answers_reply, reply_up, Gm, Z.eqb_refl. destruct (k_up s); auto.
    + rewrite not_freed in E by (apply (i_touch s I m _ P Logic.I)). fold (drop_r s m) in E. destruct h.
      * apply ok_inj in E. subst s'. apply (Move m [ODefer m; OEnd m]); auto.
        -- apply Gone. reflexivity.
        -- intros x H. cbn in H. firstorder congruence.
        -- unfold good. rewrite at_r_look. unfold drop_r. fields. rewrite look_less, Z.eqb_refl. intros _. right. rewrite answers_app, Gm. split; [reflexivity|left]. apply in_or_app. right. left. reflexivity.
      * rewrite go_drop in E. apply ok_inj in E. subst s'. apply (Move m [OAsk m]); auto.
        -- eapply Go. reflexivity.
        -- intros x H. cbn in H. firstorder congruence.
        -- unfold good. rewrite at_r_look. fields. rewrite look_put, Z.eqb_refl, answers_app, Gm. reflexivity.
      * rewrite go_drop in E. apply ok_inj in E. subst s'. apply (Move m [OAsk m]); auto.
        -- eapply Go. reflexivity.
        -- intros x H. cbn in H. firstorder congruence.
        -- unfold good. rewrite at_r_look. fields. rewrite look_put, Z.eqb_refl, answers_app, Gm. reflexivity.
      * rewrite decided_drop in E. apply ok_inj in E. eapply (Decided2 m v); eauto. rewrite mutex_same by exact M. exact E.
  - destruct (at_r s m) as [[]|] eqn:P; try (apply Same; congruence). pose proof (i_valid s I m _ P) as V. pose proof (G m) as Gm. unfold good in Gm. rewrite P in Gm.
    destruct (freed s); [discriminate|]. apply ok_inj in E. eapply Decided2; eauto.
  - destruct (at_r s m) as [[]|] eqn:P; try (apply Same; congruence). pose proof (i_valid s I m _ P) as V. pose proof (G m) as Gm. unfold good in Gm. rewrite P in Gm.
    destruct (k_wait s); apply ok_inj in E; subst s'.
    + apply (Move m []); auto; [eapply Go; reflexivity|fields; rewrite app_nil_r; reflexivity|intros x []|]. unfold good. rewrite at_r_look. fields. rewrite look_put, Z.eqb_refl. auto.
    + apply (Move m [OEnd m]); auto; [eapply Gone; reflexivity|intros x [H|[]]; discriminate|]. unfold good. rewrite at_r_look. fields. rewrite look_less, Z.eqb_refl. intros _. rewrite answers_app, answers_cons, answers_nil, !app_nil_r. destruct Gm as [Gm|[G1 G2]]; eauto.
  - destruct (at_r s m) as [[]|] eqn:P; try (apply Same; congruence). pose proof (i_valid s I m _ P) as V. pose proof (G m) as Gm. unfold good in Gm. rewrite P in Gm.
    destruct (k_wrefs s =? 0); [discriminate|]. apply ok_inj in E; subst s'.
    apply (Move m [OEnd m]); auto; [eapply Gone; reflexivity|intros x [H|[]]; discriminate|]. unfold good. rewrite at_r_look. fields. rewrite look_less, Z.eqb_refl. intros _. rewrite answers_app, answers_cons, answers_nil, !app_nil_r. destruct Gm as [Gm|[G1 G2]]; eauto.
  - destruct (at_r s m) as [[]|] eqn:P; try (apply Same; congruence). pose proof (i_valid s I m _ P) as V. pose proof (G m) as Gm. unfold good in Gm. rewrite P in Gm.
    destruct (freed s); [discriminate|]. destruct (k_mutex s); [apply Same; congruence|]. fields. destruct (k_out s <=? 0).
    + apply ok_inj in E; subst s'. apply (Move m []); auto; [eapply Go; reflexivity|fields; rewrite app_nil_r; reflexivity|intros x []|]. unfold good. rewrite at_r_look. fields. rewrite look_put, Z.eqb_refl. auto.
    + destruct (k_up s) eqn:U; apply ok_inj in E; subst s'.
      * apply (Quiet []); auto; [fields; rewrite app_nil_r; reflexivity|discriminate].
      * apply (Move m []); auto; [eapply Go; reflexivity|fields; rewrite app_nil_r; reflexivity|intros x []|]. unfold good. rewrite at_r_look. fields. rewrite look_put, Z.eqb_refl. auto.
  - destruct (at_r s m) as [[]|] eqn:P; try (apply Same; congruence). pose proof (i_valid s I m _ P) as V. pose proof (G m) as Gm. unfold good in Gm. rewrite P in Gm.
    destruct (freed s); [discriminate|]. destruct (k_mutex s); [apply Same; congruence|]. apply ok_inj in E; subst s'. destruct ok.
    + apply (Move m ((if k_up s then [OAnswer m AOk] else []) ++ [OEnd m])).
      * apply Gone. fields. rewrite reply_resp. reflexivity.
      * fields. rewrite reply_reqs. reflexivity.
      * unfold reply. destruct (k_up s); fields; rewrite ?app_assoc_reverse; reflexivity.
      * intros x Nx. rewrite answers_app. destruct (k_up s); rewrite ?Ans1 by auto; reflexivity.
      * intros x H. destruct (k_up s); cbn in H; firstorder discriminate.
      * fields. rewrite reply_up. auto.
      * exact V.
      * unfold good. rewrite at_r_look. fields. rewrite look_less, Z.eqb_refl. intros _. rewrite answers_app, answers_reply, Gm, reply_up. rewrite Z.eqb_refl, answers_cons, answers_nil, !app_nil_r. cbn [app].
        destruct (k_up s); eauto.
    + apply (Move m [OEnd m]); auto; [eapply Gone; reflexivity|intros x [H|[]]; discriminate|]. unfold good. rewrite at_r_look. fields. rewrite look_less, Z.eqb_refl. intros _. rewrite answers_app, answers_cons, answers_nil, !app_nil_r. destruct Gm as [G1 G2]; eauto.
  - destruct C as ((D1 & D2 & D3) & N & W). rewrite D3, (not_freed s N) in E. pose proof (K m D1) as V. destruct v; apply ok_inj in E; subst s'.
    + apply (Move m []); auto; [eapply Go; reflexivity|fields; rewrite app_nil_r; reflexivity|intros x []|]. unfold good. rewrite at_r_look. fields. rewrite look_put, Z.eqb_refl. auto.
    + apply (Move m (if k_up s then [OAnswer m (AErr 550)] else [])); auto.
      * intros x Nx. rewrite reply_resp. reflexivity.
      * apply reply_reqs.
      * unfold reply. destruct (k_up s); fields; rewrite ?app_nil_r; reflexivity.
      * intros x Nx. destruct (k_up s); auto.
      * intros x H. destruct (k_up s); cbn in H; firstorder discriminate.
      * rewrite reply_up. auto.
      * unfold good. rewrite at_r_look, reply_resp, <- at_r_look, D3, answers_reply, D2, reply_up, Z.eqb_refl. intros _. destruct (k_up s); [left; exists (AErr 550); reflexivity|]. right. split; [reflexivity|auto].
  - destruct (at_c s t) eqn:P; [apply Same; congruence|]. destruct (freed s); [discriminate|]. destruct (flagged s); apply ok_inj in E; subst s'; quiet.
  - destruct (at_c s t) as [[]|] eqn:P; try (apply Same; congruence); repeat (match type of E with context [if ?b then _ else _] => destruct b eqn:? | context [match ?b with _ => _ end] => destruct b eqn:? end; try discriminate; try (apply Same; congruence));
      try (apply Same; congruence); apply ok_inj in E; subst s'; quiet.
  - destruct (at_c s t) as [[]|] eqn:P; try (apply Same; congruence); cbv zeta in E; repeat (match type of E with context [if ?b then _ else _] => destruct b eqn:? | context [match ?b with _ => _ end] => destruct b eqn:? end; try discriminate; try (apply Same; congruence));
      try (apply Same; congruence); apply ok_inj in E; subst s'; quiet.
  - destruct f; try (apply Same; congruence); (destruct (k_up s && k_sent s); [|apply Same; congruence]; apply ok_inj in E; subst s'; quiet).
  - destruct (freed s); [discriminate|]. destruct (k_being s || negb (k_up s)); apply ok_inj in E; subst s'; quiet.
  - destruct (k_up s && (0 <? k_out s)); [|apply Same; congruence]. apply ok_inj in E; subst s'; quiet.
  - apply ok_inj in E; subst s'; quiet.
Qed.
