(** SASL, the listener: what every run keeps, and who is authenticated. *)
From Verif Require Import Base SaslModel SaslSpec SaslProofs.

Ltac conj := repeat match goal with |- _ /\ _ => split end.

Record inv (h : handlers) (s : sst) : Prop := {
  v_neg : forall g, s_data s = Some (Some g) -> s_neg s = Some (g_mech g);
  v_known : forall g, s_data s = Some (Some g) -> known h s g;
  v_freed : forall a, In a (s_freed s) -> (a < s_next s)%nat;
  v_mem : forall g, s_data s = Some (Some g) -> mem s g;
  v_flag : s_flag s = true -> justified h (s_log s) /\ s_mask s = true /\ s_method s = s_neg s;
  v_mask : forall m r, In (OComplete m r) (s_log s) -> s_mask s = true;
  v_after : forall l1 m r l2, s_log s = l1 ++ OComplete m r :: l2 -> forall m', ~ In (OSession m') l2 }.

Lemma split_app : forall (a b l1 l2 : list sobs) x, a ++ b = l1 ++ x :: l2 ->
  (exists t, a = l1 ++ x :: t /\ l2 = t ++ b) \/ (exists t, b = t ++ x :: l2 /\ l1 = a ++ t).
Proof.
  intros a. induction a as [|y a IH]; intros b l1 l2 x E.
  - right. exists l1. split; [exact E|reflexivity].
  - destruct l1 as [|z l1]; cbn [app] in E.
    + left. injection E as -> E. exists a. split; [reflexivity|congruence].
    + injection E as -> E. destruct (IH _ _ _ _ E) as [[t [A B]]|[t [A B]]].
      * left. exists t. split; [rewrite A; reflexivity|assumption].
      * right. exists t. split; [assumption|rewrite B; reflexivity].
Qed.

Definition quiet (o : sobs) : Prop := match o with OSession _ | OComplete _ _ | OClear => False | _ => True end.
Lemma justified_more : forall h l d, ~ In OClear d -> justified h l -> justified h (l ++ d).
Proof.
  intros h l d Q [l1 [m [r [l2 [E [N V]]]]]]. exists l1, m, r, (l2 ++ d). conj; auto.
  - rewrite E, <- app_assoc. reflexivity.
  - intro X. apply in_app_or in X. destruct X; contradiction.
Qed.
Lemma after_more : forall l d,
  (forall o, In o d -> forall m, o <> OSession m) \/ (forall m r, ~ In (OComplete m r) l) ->
  (forall l1 m r l2, l = l1 ++ OComplete m r :: l2 -> forall m', ~ In (OSession m') l2) ->
  (forall l1 m r l2, d = l1 ++ OComplete m r :: l2 -> forall m', ~ In (OSession m') l2) ->
  (forall l1 m r l2, l ++ d = l1 ++ OComplete m r :: l2 -> forall m', ~ In (OSession m') l2).
Proof.
  intros l d H A B l1 m r l2 E m' X. destruct (split_app _ _ _ _ _ E) as [[t [E1 E2]]|[t [E1 E2]]].
  - subst l2. apply in_app_or in X. destruct X as [X|X]; [exact (A _ _ _ _ E1 _ X)|].
    destruct H as [H|H]; [exact (H _ X m' eq_refl)|]. apply (H m r). rewrite E1. apply in_or_app. right. left. reflexivity.
  - exact (B _ _ _ _ E1 _ X).
Qed.
Lemma single_after : forall (o : sobs) l1 m r l2, [o] = l1 ++ OComplete m r :: l2 -> l2 = [].
Proof.
  intros o l1 m r l2 E. destruct l1 as [|x l1]; cbn [app] in E; injection E as E1 E2; [congruence|].
  destruct l1; discriminate.
Qed.

(** One more observation that is not a session, a completion or a clear. *)
Lemma inv_note : forall h s o, quiet o -> inv h s -> inv h (note s [o]).
Proof.
  intros h s o Q []. constructor; cbn [note s_data s_neg s_freed s_next s_flag s_mask s_method s_log]; auto.
  - intros g D S pw P. destruct (v_known0 g D S pw P) as [M [c [I E]]]. split; [exact M|]. exists c. split; [|exact E].
    cbn [s_log note]. rewrite since_said; [apply in_or_app; left; exact I|]. intros m ->. exact Q.
  - intro F. destruct (v_flag0 F) as [J M]. split; [|exact M]. apply justified_more; [|exact J].
    intros [->|[]]. exact Q.
  - intros m r X. apply in_app_or in X. destruct X as [X|[->|[]]]; [eauto|destruct Q].
  - apply after_more; auto.
    + left. intros x [<-|[]] m ->. exact Q.
    + intros l1 m r l2 E m' X. rewrite (single_after _ _ _ _ _ E) in X. destruct X.
Qed.

Lemma inv_goes : forall h s g s' g',
  s_data s = Some (Some g) -> inv h s -> goes h s g s' g' -> inv h s'.
Proof.
  intros h s g s' g' D I G. pose proof (v_neg _ _ I g D) as N. destruct I. destruct G.
  specialize (go_data D). destruct go_log as [d [L F]].
  assert (Q : Forall quiet d).
  { rewrite Forall_forall in *. intros o X. destruct (F o X) as [c ->]. exact Logic.I. }
  assert (M : mem s' g') by auto.
  constructor; auto.
  - intros g1 D1. rewrite go_data in D1. injection D1 as <-. rewrite go_neg, go_mech. exact N.
  - intros g1 D1. rewrite go_data in D1. injection D1 as <-. auto.
  - exact (proj1 M).
  - intros g1 D1. rewrite go_data in D1. injection D1 as <-. exact M.
  - intro X. rewrite go_flag in X. destruct (v_flag0 X) as [J [MK ME]]. conj.
    + rewrite L. apply justified_more; [|exact J]. intro Y. rewrite Forall_forall in Q. exact (Q _ Y).
    + rewrite go_mask. exact MK.
    + rewrite go_neg. destruct go_method as [E|E]; rewrite E; [exact ME|]. symmetry. exact N.
  - intros m r X. rewrite go_mask. rewrite L in X. apply in_app_or in X. destruct X as [X|X]; [eauto|].
    rewrite Forall_forall in Q. destruct (Q _ X).
  - rewrite L. rewrite Forall_forall in Q. apply after_more; auto.
    + left. intros o X m ->. exact (Q _ X).
    + intros l1 m r l2 E. exfalso. apply (Q (OComplete m r)). rewrite E. apply in_or_app. right. left. reflexivity.
Qed.

(** The step of a session, with what is seen when it completes. *)
Lemma ops_vouched : forall h s g l s' g' last resp,
  s_data s = Some (Some g) -> inv h s -> contract (g_mech g) g' l last resp ROk -> ops h s g l None = (s', g', last) ->
  vouched h (g_mech g) resp (since (s_log s')) /\ s_method s' = Some (g_mech g).
Proof.
  intros h s g l s' g' last resp D I [O C] E. pose proof (v_neg _ _ I g D) as N. specialize (C eq_refl).
  pose proof (ops_ok h l s g None s' g' last N O E) as G.
  assert (SEC : secret (g_mech g) -> value (g_password g') <> None -> resp = value (g_password g') ->
    (exists c pw, In (OSaid (g_mech g) c (HPassword pw)) (since (s_log s')) /\ says h (g_mech g) c = HPassword pw /\ resp = Some pw) /\
    s_method s' = Some (g_mech g)).
  { intros S P R. destruct (value (g_password g')) as [pw|] eqn:PW; [|contradiction P; reflexivity].
    rewrite <- (go_mech _ _ _ _ _ G) in S.
    destruct (go_known _ _ _ _ _ G (v_known _ _ I g D) S pw PW) as [M [c [X Y]]].
    rewrite (go_mech _ _ _ _ _ G) in M, X, Y. split; [|exact M]. exists c, pw. conj; auto. }
  assert (CHK : last = Some GOk -> (exists l', l = l' ++ [GCall (ask_of (g_mech g))]) -> ask_of (g_mech g) <> AskProp PRealm ->
    (exists l' c r, since (s_log s') = l' ++ [OSaid (g_mech g) c r] /\ says h (g_mech g) c = r /\ r <> HDeny) /\
    s_method s' = Some (g_mech g)).
  { intros L [l' EL] AN. subst l last. rewrite ops_app in E. destruct (ops h s g l' None) as [[s1 g1] r1] eqn:E1.
    rewrite Forall_app in O. destruct O as [O1 O2]. inversion O2 as [|x y O3 _]; subst.
    pose proof (ops_ok h l' s g None s1 g1 r1 N O1 E1) as G1.
    assert (M1 : g_mech g1 = g_mech g) by apply (go_mech _ _ _ _ _ G1).
    cbn [ops] in E. destruct (op h s1 g1 (GCall (ask_of (g_mech g)))) as [[s2 g2] r2] eqn:E2. injection E as <- <- ->.
    rewrite <- M1 in O3.
    assert (N1 : s_neg s1 = Some (g_mech g1)) by (rewrite (go_neg _ _ _ _ _ G1), M1; exact N).
    rewrite M1 in O3. rewrite <- M1 in O3 at 1.
    destruct (op_ok h s1 g1 (GCall (ask_of (g_mech g))) s2 g2 (Some GOk) N1 O3 E2) as [_ Y].
    destruct (Y eq_refl (or_introl (ex_intro _ _ (Logic.conj eq_refl AN)))) as [MM [c [L [ND _]]]].
    rewrite M1 in *. split; [|exact MM]. exists (since (s_log s1)), c, (says h (g_mech g) c). conj; auto.
    rewrite L. apply since_said. discriminate. }
  destruct (g_mech g) eqn:M; cbn [vouched]; cbv iota beta in C.
  - apply CHK; [apply C|apply C|discriminate].
  - apply CHK; [apply C|apply C|discriminate].
  - apply CHK; [apply C|apply C|discriminate].
  - apply SEC; [left; reflexivity|apply C|apply C].
  - apply SEC; [right; reflexivity|apply C|apply C].
Qed.

Lemma inv_complete : forall h s g resp,
  s_data s = Some (Some g) -> inv h s -> vouched h (g_mech g) resp (since (s_log s)) -> s_method s = Some (g_mech g) ->
  inv h (note (complete s) [OComplete (g_mech g) resp]).
Proof.
  intros h s g resp D I V M. pose proof (v_neg _ _ I g D) as N. destruct I.
  constructor; cbn [note complete s_data s_neg s_freed s_next s_flag s_mask s_method s_log]; auto.
  - intros g1 D1 S pw P. destruct (v_known0 g1 D1 S pw P) as [M1 [c [X E]]]. split; [exact M1|]. exists c. split; [|exact E].
    cbn [s_log note complete]. rewrite since_said; [apply in_or_app; left; exact X|discriminate].
  - intros _. conj; [|reflexivity|congruence]. exists (s_log s), (g_mech g), resp, []. conj; auto.
  - apply after_more; auto.
    + left. intros x [<-|[]] m. discriminate.
    + intros l1 m r l2 E m' X. rewrite (single_after _ _ _ _ _ E) in X. destruct X.
Qed.

Lemma inv_clear : forall h s, inv h s -> inv h (clear s).
Proof.
  intros h s []. constructor; cbn [clear s_data s_neg s_freed s_next s_flag s_mask s_method s_log]; auto.
  - intros g D S pw P. destruct (v_known0 g D S pw P) as [M [c [X E]]]. split; [exact M|]. exists c. split; [|exact E].
    cbn [s_log clear]. rewrite since_said; [apply in_or_app; left; exact X|discriminate].
  - discriminate.
  - intros m r X. apply in_app_or in X. destruct X as [X|[X|[]]]; [eauto|discriminate].
  - apply after_more; auto.
    + left. intros x [<-|[]] m. discriminate.
    + intros l1 m r l2 E m' X. rewrite (single_after _ _ _ _ _ E) in X. destruct X.
Qed.

Lemma places_fast : forall g a, In a (places g) -> exists p v, fast g p = Some (a, v).
Proof.
  intros g a H. unfold places in H.
  assert (P : forall p, In a (place (fast g p)) -> exists q v, fast g q = Some (a, v)).
  { intros p X. destruct (fast g p) as [[b w]|] eqn:F; [|destruct X]. destruct X as [<-|[]]. exists p, w. exact F. }
  repeat (apply in_app_or in H; destruct H as [H|H]); [apply (P PAuthid)|apply (P PAuthzid)|apply (P PPassword)|apply (P PToken)|apply (P PRealm)]; exact H.
Qed.
Lemma data_freed : forall h s a, inv h s -> In a (s_freed s ++ data_places (s_data s)) -> (a < s_next s)%nat.
Proof.
  intros h s a I X. apply in_app_or in X. destruct X as [X|X]; [exact (v_freed _ _ I a X)|].
  destruct (s_data s) as [[g|]|] eqn:D; cbn [data_places] in X; try destruct X.
  destruct (places_fast g a X) as [p [v F]]. exact (proj1 (proj1 (proj2 (v_mem _ _ I g D)) p a v F)).
Qed.

Lemma inv_drop : forall h s d, (forall g, d <> Some (Some g)) -> inv h s -> inv h (with_data s d (data_places (s_data s))).
Proof.
  intros h s d ND I. pose proof (fun a => data_freed h s a I) as F. destruct I.
  constructor; cbn [with_data s_data s_neg s_freed s_next s_flag s_mask s_method s_log]; auto; intros g E; destruct (ND g E).
Qed.

Lemma inv_session : forall h s m, s_mask s = false -> inv h s -> inv h (new_session s m).
Proof.
  intros h s m MK I. pose proof (fun a => data_freed h s a I) as F. destruct I.
  constructor; cbn [new_session with_data s_data s_neg s_freed s_next s_flag s_mask s_method s_log]; auto.
  - intros g E. injection E as <-. reflexivity.
  - intros g E S pw P. injection E as <-. discriminate.
  - intros g E. injection E as <-. unfold mem. conj; auto.
    + intros [] a v X; discriminate.
    + intros [] q a v w X; discriminate.
  - intro X. destruct (v_flag0 X) as [_ [Y _]]. congruence.
  - intros m' r X. apply in_app_or in X. destruct X as [X|[X|[]]]; [eauto|discriminate].
  - apply after_more; auto.
    + right. intros m' r X. specialize (v_mask0 m' r X). congruence.
    + intros l1 m' r l2 E m'' X. rewrite (single_after _ _ _ _ _ E) in X. destruct X.
Qed.

(** What an iteration does. *)
Lemma iterate_ok : forall h s b l r s' ok reply,
  inv h s ->
  (forall g, s_data s = Some (Some g) ->
     let '(_, g', last) := ops h s g l None in contract (g_mech g) g' l last (resp_of b) r) ->
  iterate h s b l r = Ok (s', ok, reply) ->
  inv h s' /\ s_chans s' = s_chans s.
Proof.
  intros h s b l r s' ok reply I C E.
  assert (STEP : match s_data s with
      | None => UB
      | Some None => UB
      | Some (Some g) =>
          let '(s, g, _) := ops h s g l None in
          match r with
          | RMore => Ok (note s [OContinue], true, true)
          | RAuthError => Ok (note s [OError 535], false, true)
          | ROk => Ok (note (complete s) [OComplete (g_mech g) (resp_of b)], true, true)
          | ROther => Ok (note s [OError 454], false, true)
          end
      end = Ok (s', ok, reply) -> inv h s' /\ s_chans s' = s_chans s).
  { clear E. intro E. destruct (s_data s) as [[g|]|] eqn:D; try discriminate.
    specialize (C g eq_refl). destruct (ops h s g l None) as [[s1 g1] last] eqn:OP.
    pose proof (v_neg _ _ I g D) as N.
    pose proof (ops_ok h l s g None s1 g1 last N (proj1 C) OP) as G.
    pose proof (inv_goes _ _ _ _ _ D I G) as I1. pose proof (go_chans _ _ _ _ _ G) as CH.
    destruct r; injection E as <- <- <-; (split; [|exact CH]).
    - apply inv_note; [exact Logic.I|exact I1].
    - destruct (ops_vouched h s g l s1 g1 last (resp_of b) D I C OP) as [V M].
      rewrite (go_mech _ _ _ _ _ G). pose proof (go_data _ _ _ _ _ G D) as D1. rewrite <- (go_mech _ _ _ _ _ G) in V, M.
      rewrite <- (go_mech _ _ _ _ _ G). apply inv_complete; assumption.
    - apply inv_note; [exact Logic.I|exact I1].
    - apply inv_note; [exact Logic.I|exact I1]. }
  destruct b; cbn [iterate] in E; [exact (STEP E)| | |exact (STEP E)].
  - injection E as <- <- <-. split; [|reflexivity]. apply inv_note; [exact Logic.I|]. apply inv_clear. exact I.
  - injection E as <- <- <-. split; [|reflexivity]. apply inv_note; [exact Logic.I|]. apply inv_drop; [discriminate|exact I].
Qed.

Lemma inv_same : forall h s s',
  s_data s' = s_data s -> s_neg s' = s_neg s -> s_freed s' = s_freed s -> s_next s' = s_next s -> s_flag s' = s_flag s ->
  s_mask s' = s_mask s -> s_method s' = s_method s -> s_log s' = s_log s -> inv h s -> inv h s'.
Proof.
  intros h s s' A B C D E F G H []. constructor; unfold known, mem in *; rewrite ?A, ?B, ?C, ?D, ?E, ?F, ?G, ?H; auto.
Qed.

Lemma obind_ok : forall (A B : Type) (x : outcome A) (f : A -> outcome B) b, obind x f = Ok b -> exists a, x = Ok a /\ f a = Ok b.
Proof. intros A B [a|] f b E; [exists a; split; [reflexivity|exact E]|discriminate]. Qed.

Lemma step_inv : forall h s e s', inv h s -> library h s e -> sstep h s e = Ok s' -> inv h s'.
Proof.
  intros h s e s' I L E. destruct e as [ch m bg b l r|ch b l r|ch]; cbn [sstep] in E.
  - destruct (has_chan s ch || s_mask s) eqn:R.
    { injection E as <-. apply inv_note; [exact Logic.I|exact I]. }
    apply orb_false_iff in R. destruct R as [_ MK].
    destruct bg; cbn [library] in L.
    + injection E as <-. apply inv_note; [exact Logic.I|exact I].
    + injection E as <-. apply inv_note; [exact Logic.I|]. apply inv_drop; [discriminate|exact I].
    + apply obind_ok in E. destruct E as [[[s1 ok] rep] [E1 E2]].
      destruct (iterate_ok h (new_session s m) b l r s1 ok rep (inv_session h s m MK I)) as [I1 _]; [|exact E1|].
      * intros g D. cbn [new_session with_data s_data] in D. injection D as <-. exact L.
      * destruct ok; injection E2 as <-; [apply (inv_same h s1); auto|]. apply inv_note; [exact Logic.I|exact I1].
  - destruct (has_chan s ch); cbn [negb] in E; [|injection E as <-; exact I].
    apply obind_ok in E. destruct E as [[[s1 ok] rep] [E1 E2]].
    destruct (iterate_ok h s b l r s1 ok rep I) as [I1 _]; [|exact E1|].
    + intros g D. cbn [library] in L. rewrite D in L. exact L.
    + destruct rep; [injection E2 as <-; exact I1|discriminate].
  - injection E as <-. apply (inv_same h (note s [OClosed ch])); try reflexivity. apply inv_note; [exact Logic.I|exact I].
Qed.

Lemma inv0 : forall h, inv h sasl0.
Proof.
  intros h. constructor; cbn [sasl0 s_data s_neg s_freed s_next s_flag s_mask s_method s_log]; try discriminate; auto.
  - intros a H. destruct H.
  - intros l1 m r l2 E. destruct l1; discriminate.
Qed.
Lemma run_inv : forall h l s s', inv h s -> faithful h s l -> srun h s l = Ok s' -> inv h s'.
Proof.
  intros h l. induction l as [|e l IH]; intros s s' I F E; cbn [srun] in E.
  - injection E as <-. exact I.
  - destruct F as [L F]. apply obind_ok in E. destruct E as [s1 [E1 E2]]. rewrite E1 in F.
    exact (IH s1 s' (step_inv h s e s1 I L E1) F E2).
Qed.

Theorem authenticated_thm : forall h l s,
  faithful h sasl0 l -> srun h sasl0 l = Ok s -> is_authenticated s = true -> justified h (s_log s).
Proof.
  intros h l s F E A. pose proof (run_inv h l sasl0 s (inv0 h) F E) as I.
  unfold is_authenticated in A. apply andb_true_iff in A. apply (v_flag _ _ I). apply A.
Qed.
Theorem once_thm : forall h l s,
  faithful h sasl0 l -> srun h sasl0 l = Ok s ->
  forall l1 m r l2, s_log s = l1 ++ OComplete m r :: l2 -> forall m', ~ In (OSession m') l2.
Proof. intros h l s F E. exact (v_after _ _ (run_inv h l sasl0 s (inv0 h) F E)). Qed.
