(** Proofs about the PULL API: the references, the races and the masks. *)
From Verif Require Import Base PullModel PullSpec PullProofs PullProofs2.

Definition refs_at (l : list event) (e : nat) : Z := match find_event l e with Some x => e_refs x | None => 0 end.
Definition ids (l : list event) : list nat := map e_id l.
Record good (s : pst) : Prop := mkGood {
  gd_dup : NoDup (ids (p_events s));
  gd_old : forall x, In x (p_events s) -> (e_id x < p_next s)%nat;
  gd_pos : forall x, In x (p_events s) -> 0 < e_refs x;
  gd_own : forall e, refs_at (p_events s) e = owned s e;
  gd_held : forall e, 0 <= held e (p_log s);
  gd_free : forall e, freed e (p_log s) = if alive s e then 0 else if (e <? p_next s)%nat then 1 else 0;
  gd_push : forall h g n, In (mkCall h (SPush g n)) (p_calls s) -> g = p_gen s /\ p_queue s <> None }.

Lemma held_app : forall e l m, held e (l ++ m) = held e l + held e m.
Proof. intros e l m. induction l as [|o l IH]; cbn [held app]; lia. Qed.
Lemma find_in : forall l e x, find_event l e = Some x -> In x l /\ e_id x = e.
Proof. intros l e x F. unfold find_event in F. apply find_some in F. destruct F as [A B]. apply Nat.eqb_eq in B. auto. Qed.
Lemma find_alive : forall l e, existsb (fun x => Nat.eqb (e_id x) e) l = match find_event l e with Some _ => true | None => false end.
Proof.
  intros l e. unfold find_event. induction l as [|x l IH]; [reflexivity|]. cbn [existsb find]. destruct (Nat.eqb (e_id x) e); [reflexivity|exact IH].
Qed.
Lemma find_app : forall l m e, find_event (l ++ m) e = match find_event l e with Some x => Some x | None => find_event m e end.
Proof. intros l m e. unfold find_event. induction l as [|x l IH]; [reflexivity|]. cbn [app find]. destruct (Nat.eqb (e_id x) e); auto. Qed.
Lemma find_drop : forall l a e, find_event (drop_event l a) e = if Nat.eqb a e then None else find_event l e.
Proof.
  intros l a e. unfold find_event, drop_event. induction l as [|x l IH]; cbn [filter find]; [destruct (Nat.eqb a e); reflexivity|].
  destruct (Nat.eqb (e_id x) a) eqn:X; cbn [negb].
  - apply Nat.eqb_eq in X. rewrite IH, X. destruct (Nat.eqb a e); reflexivity.
  - cbn [find]. destruct (Nat.eqb (e_id x) e) eqn:Y; [|exact IH]. apply Nat.eqb_eq in Y. apply Nat.eqb_neq in X.
    destruct (Nat.eqb a e) eqn:W; [|reflexivity]. apply Nat.eqb_eq in W. congruence.
Qed.
Lemma find_count : forall l a d e, find_event (count_event l a d) e =
  match find_event l e with Some x => Some (if Nat.eqb a e then mkE (e_id x) (e_hap x) (e_conn x) (e_refs x + d) else x) | None => None end.
Proof.
  intros l a d e. unfold find_event, count_event. induction l as [|x l IH]; [reflexivity|]. cbn [map find].
  destruct (Nat.eqb (e_id x) a) eqn:X; cbn [e_id].
  - apply Nat.eqb_eq in X. rewrite X in *. destruct (Nat.eqb a e); [rewrite X; reflexivity|exact IH].
  - destruct (Nat.eqb (e_id x) e) eqn:Y; [|exact IH]. apply Nat.eqb_eq in Y. rewrite <- Y, (Nat.eqb_sym a), X. reflexivity.
Qed.
Lemma ids_count : forall l a d, ids (count_event l a d) = ids l.
Proof. intros l a d. unfold ids, count_event. rewrite map_map. apply map_ext. intros x. destruct (Nat.eqb (e_id x) a); reflexivity. Qed.
Lemma nodup_filter : forall (f : event -> bool) l, NoDup (ids l) -> NoDup (ids (filter f l)).
Proof.
  intros f l. unfold ids. induction l as [|x l IH]; intros N; [constructor|]. cbn [filter map] in *. inversion N as [|? ? X Y]; subst.
  destruct (f x); [|auto]. cbn [map]. constructor; [|auto]. intros I. apply X. apply in_map_iff in I. destruct I as [y [A B]]. apply filter_In in B. destruct B as [B _]. rewrite <- A. apply in_map. exact B.
Qed.

(** Releasing one reference. *)
Lemma unref_ok : forall l e, NoDup (ids l) -> (forall x, In x l -> 0 < e_refs x) -> 0 < refs_at l e ->
  exists l' o, unref l e = Ok (l', o) /\ NoDup (ids l') /\ (forall x, In x l' -> 0 < e_refs x) /\
    (forall x, In x l' -> In (e_id x) (ids l)) /\
    (forall a, refs_at l' a = refs_at l a - if Nat.eqb e a then 1 else 0) /\
    (forall a, find_event l a = None -> find_event l' a = None) /\
    (forall a, freed a o = match find_event l a, find_event l' a with Some _, None => 1 | _, _ => 0 end) /\
    (forall f, (forall e, f (PFree e) = false) -> num f o = 0) /\ (forall a, held a o = 0).
Proof.
  intros l e N P R. unfold refs_at in R. destruct (find_event l e) as [x|] eqn:F; [|lia]. unfold unref. rewrite F.
  destruct (find_in _ _ _ F) as [I IE]. destruct (e_refs x - 1 =? 0) eqn:Z0.
  - apply Z.eqb_eq in Z0. exists (drop_event l e), [PFree e]. conj; try reflexivity.
    + apply nodup_filter. exact N.
    + intros y Y. apply filter_In in Y. apply P, Y.
    + intros y Y. apply filter_In in Y. apply in_map, Y.
    + intros a. unfold refs_at. rewrite find_drop. destruct (Nat.eqb e a) eqn:X; [apply Nat.eqb_eq in X; subst a; rewrite F|]; lia.
    + intros a A. rewrite find_drop, A. destruct (Nat.eqb e a); reflexivity.
    + intros a. unfold freed. cbn [num]. rewrite find_drop. destruct (Nat.eqb e a) eqn:X.
      * apply Nat.eqb_eq in X. subst a. rewrite F. reflexivity.
      * destruct (find_event l a); reflexivity.
    + intros f FF. cbn [num]. rewrite FF. reflexivity.
  - apply Z.eqb_neq in Z0. exists (count_event l e (-1)), []. conj; try reflexivity.
    + rewrite ids_count. exact N.
    + intros y Y. unfold count_event in Y. apply in_map_iff in Y. destruct Y as [z [A B]]. destruct (Nat.eqb (e_id z) e) eqn:X.
      * apply Nat.eqb_eq in X. assert (z = x).
        { assert (find_event l (e_id z) = Some z); [|congruence].
          clear - N B. unfold find_event, ids in *. induction l as [|w l IH]; [destruct B|]. cbn [find map] in *. inversion N as [|? ? U V]; subst.
          destruct B as [->|B]; [rewrite Nat.eqb_refl; reflexivity|]. destruct (Nat.eqb (e_id w) (e_id z)) eqn:X; [|auto].
          apply Nat.eqb_eq in X. exfalso. apply U. rewrite X. apply in_map. exact B. }
        subst z y. cbn [e_refs]. specialize (P x B). lia.
      * subst y. apply P. exact B.
    + intros y Y. rewrite <- (ids_count l e (-1)). apply in_map. exact Y.
    + intros a. unfold refs_at. rewrite find_count. destruct (find_event l a) eqn:FA; [destruct (Nat.eqb e a); cbn [e_refs]; lia|].
      destruct (Nat.eqb e a) eqn:X; [apply Nat.eqb_eq in X; congruence|lia].
    + intros a A. rewrite find_count, A. reflexivity.
    + intros a. unfold freed. cbn [num]. rewrite find_count. destruct (find_event l a); reflexivity.
Qed.
Lemma freed_app : forall a l m, freed a (l ++ m) = freed a l + freed a m.
Proof. intros. apply num_app. Qed.

Lemma release_ok : forall q l, NoDup (ids l) -> (forall x, In x l -> 0 < e_refs x) ->
  (forall a, num (fun x : nat * hap => Nat.eqb (fst x) a) q <= refs_at l a) ->
  exists l' o, release l q = Ok (l', o) /\ NoDup (ids l') /\ (forall x, In x l' -> 0 < e_refs x) /\
    (forall x, In x l' -> In (e_id x) (ids l)) /\
    (forall a, refs_at l' a = refs_at l a - num (fun x => Nat.eqb (fst x) a) q) /\
    (forall a, find_event l a = None -> find_event l' a = None) /\
    (forall a, freed a o = match find_event l a, find_event l' a with Some _, None => 1 | _, _ => 0 end) /\ (forall a, held a o = 0) /\ (forall a, lost a o = 0).
Proof.
  induction q as [|[e h] q IH]; intros l N P C.
  - exists l, []. conj; try reflexivity; auto; try (intros a; destruct (find_event l a); reflexivity).
    + intros x I. apply in_map. exact I.
    + intros a. cbn [num]. lia.
  - pose proof (C e) as C1. cbn [num fst] in C1. rewrite Nat.eqb_refl in C1. pose proof (num_pos _ (fun x : nat * hap => Nat.eqb (fst x) e) q) as NP.
    destruct (unref_ok l e N P ltac:(lia)) as [l1 [o1 [E1 [N1 [P1 [S1 [R1 [F1 [FR1 [L1 H1]]]]]]]]]].
    destruct (IH l1 N1 P1) as [l2 [o2 [E2 [N2 [P2 [S2 [R2 [F2 [FR2 [H2 L2]]]]]]]]]].
    { intros a. specialize (C a). cbn [num fst] in C. rewrite R1. destruct (Nat.eqb e a); lia. }
    exists l2, (PDrop e h :: o1 ++ o2). cbn [release]. rewrite E1. cbn [obind]. rewrite E2. cbn [obind]. conj; auto.
    + intros x I. specialize (S2 x I). unfold ids in S2. apply in_map_iff in S2. destruct S2 as [y [A B]]. rewrite <- A. apply S1. exact B.
    + intros a. rewrite R2, R1. cbn [num fst]. destruct (Nat.eqb e a); lia.
    + intros a. change (freed a (PDrop e h :: o1 ++ o2)) with (0 + freed a (o1 ++ o2)). rewrite freed_app, FR1, FR2. specialize (F1 a). specialize (F2 a).
      destruct (find_event l a), (find_event l1 a), (find_event l2 a); try reflexivity; try (discriminate (F1 eq_refl)); try discriminate (F2 eq_refl).
    + intros a. cbn [held delta]. rewrite held_app, H1, H2. lia.
    + intros a. unfold lost. cbn [num]. rewrite num_app, L1 by reflexivity. specialize (L2 a). unfold lost in L2. rewrite L2. lia.
Qed.

Lemma refs_pos : forall s e, good s -> alive s e = true <-> 0 < owned s e.
Proof.
  intros s e G. unfold alive. rewrite find_alive, <- (gd_own s G e). unfold refs_at. destruct (find_event (p_events s) e) as [x|] eqn:F; [|split; [discriminate|lia]].
  split; [|auto]. intros _. apply (gd_pos s G), (find_in _ _ _ F).
Qed.
Lemma owned_ge : forall s e, 0 <= held e (p_log s) -> held e (p_log s) <= owned s e /\
  num (fun x : nat * hap => Nat.eqb (fst x) e) (queued s) <= owned s e /\ num (has e) (p_calls s) <= owned s e.
Proof.
  intros s e H. unfold owned, queued, lost.
  pose proof (num_pos _ (has e) (p_calls s)). pose proof (num_pos _ (fun x : nat * hap => Nat.eqb (fst x) e) (match p_queue s with Some q => q | None => [] end)).
  pose proof (num_pos _ (fun o => match o with PLeak x _ => Nat.eqb x e | _ => false end) (p_log s)). lia.
Qed.

Lemma nodup_snoc : forall (l : list nat) x, NoDup l -> ~ In x l -> NoDup (l ++ [x]).
Proof.
  intros l x N I. induction N as [|y l Y N IH]; cbn [app]; [constructor; [intros []|constructor]|].
  constructor; [|apply IH; intros J; apply I; right; exact J]. intros J. apply in_app_or in J. destruct J as [J|[->|[]]]; [contradiction|]. apply I. left. reflexivity.
Qed.
Lemma num_after_has : forall e h, num (has e) (after h) = 0.
Proof. intros. apply num_after. reflexivity. Qed.
Lemma quiet_log : forall o, Forall (fun x => match x with PPull _ _ | PRef _ | PUnref _ | PLeak _ _ | PFree _ => False | _ => True end) o ->
  forall e, held e o = 0 /\ lost e o = 0 /\ freed e o = 0.
Proof.
  intros o F e. induction F as [|x o X F [A [B C]]]; [conj; reflexivity|]. unfold lost, freed in *. cbn [held num]. rewrite A, B, C. destruct x; try destruct X; conj; reflexivity.
Qed.
Lemma lost_app : forall a l m, lost a (l ++ m) = lost a l + lost a m.
Proof. intros. apply num_app. Qed.

Lemma good_put : forall s i c x, nth_error (p_calls s) i = Some c -> good s ->
  forall h g n, In (mkCall h (SPush g n)) (put_call (p_calls s) i x) -> (g = p_gen s /\ p_queue s <> None) \/ In (mkCall h (SPush g n)) x.
Proof. intros s i c x N G h g n I. apply (put_in _ _ _ _ _ N) in I. destruct I as [I|I]; [left; apply (gd_push s G h g n I)|auto]. Qed.
Lemma after_push : forall x h g n, ~ In (mkCall h (SPush g n)) (after x).
Proof. intros x h g n I. unfold after in I. destruct (h_kind x); try (destruct I; fail). destruct I as [I|[]]. discriminate. Qed.

Lemma step_good : forall s e, good s -> allowed s e -> exists s', pstep s e = Ok s' /\ good s'.
Proof.
  intros s e G A.
  assert (TOT : exists s', pstep s e = Ok s').
  { destruct e as [| |h|i ok|b| |e|e|m|i f]; cbn [pstep].
    - destruct (p_queue s); eauto.
    - destruct (p_queue s) as [q|] eqn:Q; [|eauto]. destruct A as [A1 A2]. rewrite A1. cbn [Nat.ltb Nat.leb].
      destruct (release_ok q (p_events s) (gd_dup s G) (gd_pos s G)) as [l [o [E _]]].
      { intros a. rewrite (gd_own s G). pose proof (owned_ge s a (gd_held s G a)) as [_ [X _]]. unfold queued in X. rewrite Q in X. exact X. }
      rewrite E. cbn [obind]. eauto.
    - eauto.
    - destruct (nth_error (p_calls s) i) as [[h st]|] eqn:N; [|eauto]. cbn [c_hap c_stage]. destruct st as [|n|g n|].
      + destruct (filtered _ _); [eauto|]. destruct (p_queue s); eauto.
      + destruct (p_queue s); eauto.
      + destruct (gd_push s G h g n (nth_error_In _ _ N)) as [-> Q]. destruct (p_queue s); [|contradiction]. rewrite Nat.eqb_refl. eauto.
      + eauto.
    - destruct (p_queue s) as [[|[e h] q]|]; eauto.
    - destruct (p_wait s); [eauto|]. destruct (p_queue s) as [[|[e h] q]|]; eauto.
    - cbn [allowed] in A. pose proof (owned_ge s e (gd_held s G e)) as [X _].
      assert (B : alive s e = true) by (apply (refs_pos s e G); lia). unfold alive in B. rewrite find_alive in B. destruct (find_event (p_events s) e); [eauto|discriminate].
    - cbn [allowed] in A. pose proof (owned_ge s e (gd_held s G e)) as [X _].
      destruct (unref_ok (p_events s) e (gd_dup s G) (gd_pos s G)) as [l [o [E _]]]; [rewrite (gd_own s G); lia|]. rewrite E. cbn [obind]. eauto.
    - destruct (p_queue s); eauto.
    - eauto. }
  destruct TOT as [s' E]. exists s'. split; [exact E|]. apply cases in E.
  pose proof G as [DUP OLD POS OWN HELD FREE PUSH].
  assert (Q0 : forall o cs cl q, Forall (fun x => match x with PPull _ _ | PRef _ | PUnref _ | PLeak _ _ | PFree _ => False | _ => True end) o ->
     (forall a, num (has a) cs + num (fun x : nat * hap => Nat.eqb (fst x) a) (match q with Some q => q | None => [] end) =
                num (has a) (p_calls s) + num (fun x : nat * hap => Nat.eqb (fst x) a) (match p_queue s with Some q => q | None => [] end)) ->
     (forall h g n, In (mkCall h (SPush g n)) cs -> g = p_gen s /\ q <> None) ->
     forall k m r a w, good (mkP q (p_gen s) k m r a cl cs (p_events s) (p_next s) w (p_log s ++ o))).
  { intros o cs cl q F NB PP k m r a w. split; state; auto.
    - intros e0. rewrite OWN. unfold owned. state. rewrite held_app, lost_app. destruct (quiet_log o F e0) as [X1 [X2 X3]]. rewrite X1, X2. specialize (NB e0). lia.
    - intros e0. rewrite held_app. destruct (quiet_log o F e0) as [X1 [X2 X3]]. rewrite X1, Z.add_0_r. auto.
    - intros e0. rewrite freed_app, FREE. destruct (quiet_log o F e0) as [X1 [X2 X3]]. rewrite X3, Z.add_0_r. reflexivity. }
  assert (Q1 : forall cs cl q,
     (forall a, num (has a) cs + num (fun x : nat * hap => Nat.eqb (fst x) a) (match q with Some q => q | None => [] end) =
                num (has a) (p_calls s) + num (fun x : nat * hap => Nat.eqb (fst x) a) (match p_queue s with Some q => q | None => [] end)) ->
     (forall h g n, In (mkCall h (SPush g n)) cs -> g = p_gen s /\ q <> None) ->
     forall k m r a w, good (mkP q (p_gen s) k m r a cl cs (p_events s) (p_next s) w (p_log s))).
  { intros cs cl q X Y k m r a w. specialize (Q0 [] cs cl q (Forall_nil _) X Y k m r a w). rewrite app_nil_r in Q0. exact Q0. }
  destruct E.
  - exact G.
  - (* init *) split; state; auto.
    + intros e. rewrite OWN. unfold owned. state. rewrite H. reflexivity.
    + intros h g n I. destruct (PUSH h g n I) as [_ X]. contradiction.
  - (* cleanup *)
    destruct (release_ok q (p_events s) DUP POS) as [l' [o' [E1 [N1 [P1 [S1 [R1 [F1 [FR1 [H2 L1]]]]]]]]]].
    { intros a. rewrite OWN. pose proof (owned_ge s a (HELD a)) as [_ [X _]]. unfold queued in X. rewrite H in X. exact X. }
    rewrite H1 in E1. injection E1 as <- <-. cbn [allowed] in A. destruct A as [A1 A2].
    split; state; auto.
    + intros x I. specialize (S1 x I). unfold ids in S1. apply in_map_iff in S1. destruct S1 as [y [<- Y]]. auto.
    + intros e. rewrite R1, OWN. unfold owned. state. rewrite H, held_app, lost_app, H2, L1. cbn [num]. lia.
    + intros e. rewrite held_app, H2, Z.add_0_r. auto.
    + intros e. rewrite freed_app, FREE, FR1. unfold alive. state. rewrite !find_alive. specialize (F1 e).
      destruct (find_event (p_events s) e) as [x|] eqn:FE.
      * destruct (find_in _ _ _ FE) as [X1 X2]. specialize (OLD x X1). rewrite X2 in OLD. apply Nat.ltb_lt in OLD. rewrite OLD. destruct (find_event l e); reflexivity.
      * rewrite (F1 eq_refl). destruct (e <? p_next s)%nat; reflexivity.
    + intros h g n I. specialize (A2 _ I). discriminate.
  - (* occur *) apply Q0.
    + constructor; [exact Logic.I|]. apply Forall_forall. intros x X. apply repeat_spec in X. subst x. exact Logic.I.
    + intros a. rewrite num_app, num_repeat. cbn [has c_stage]. lia.
    + intros x g n I. apply in_app_or in I. destruct I as [I|I]; [apply (PUSH x g n I)|]. apply repeat_spec in I. discriminate.
  - (* skip *) apply Q0.
    + unfold unreported. destruct (h_kind h); repeat constructor.
    + intros a. rewrite (num_put _ _ _ _ _ H), num_after_has. cbn [has c_stage]. lia.
    + intros x g n I. destruct (good_put _ _ _ _ H G _ _ _ I) as [X|X]; [exact X|]. exfalso. exact (after_push _ _ _ _ X).
  - (* make *)
    assert (NONE : find_event (p_events s) (p_next s) = None).
    { destruct (find_event (p_events s) (p_next s)) as [x|] eqn:F; [|reflexivity]. destruct (find_in _ _ _ F) as [X1 X2]. specialize (OLD x X1). lia. }
    assert (HS : forall a, num (has a) [mkCall h st] = if Nat.eqb (p_next s) a then 1 else 0).
    { intros a. subst st. unfold has. cbn [num c_stage]. destruct (h_kind h); destruct (Nat.eqb (p_next s) a); reflexivity. }
    split; state; auto.
    + unfold ids. rewrite map_app. cbn [map e_id]. apply nodup_snoc; [exact DUP|].
      intros I. apply in_map_iff in I. destruct I as [x [X1 X2]]. specialize (OLD x X2). lia.
    + intros x I. apply in_app_or in I. destruct I as [I|[<-|[]]]; [specialize (OLD x I); lia|cbn [e_id]; lia].
    + intros x I. apply in_app_or in I. destruct I as [I|[<-|[]]]; [auto|cbn [e_refs]; lia].
    + intros e. unfold refs_at. rewrite find_app. unfold find_event at 2. cbn [find e_id]. unfold owned. state. rewrite (num_put _ _ _ _ _ H), HS. cbn [has c_stage].
      specialize (OWN e). unfold refs_at, owned in OWN. destruct (Nat.eqb (p_next s) e) eqn:X.
      * apply Nat.eqb_eq in X. subst e. rewrite NONE in *. cbn [e_refs]. lia.
      * destruct (find_event (p_events s) e); lia.
    + intros e. unfold alive. state. rewrite find_alive, find_app. unfold find_event at 2. cbn [find e_id]. rewrite FREE. unfold alive. rewrite find_alive.
      destruct (Nat.eqb (p_next s) e) eqn:X.
      * apply Nat.eqb_eq in X. subst e. rewrite NONE, Nat.ltb_irrefl. reflexivity.
      * apply Nat.eqb_neq in X. destruct (find_event (p_events s) e); [reflexivity|].
        destruct (e <? p_next s)%nat eqn:Y, (e <? S (p_next s))%nat eqn:W; try reflexivity; apply Nat.ltb_lt in Y || apply Nat.ltb_ge in Y; apply Nat.ltb_lt in W || apply Nat.ltb_ge in W; lia.
    + intros x g n I. destruct (good_put _ _ _ _ H G _ _ _ I) as [X|[X|[]]]; [exact X|]. rewrite H1. injection X as -> X. subst st. destruct (h_kind x); try discriminate; injection X as -> _; split; congruence.
  - (* leak *) split; state; auto.
    + intros e. rewrite OWN. unfold owned. state. rewrite (num_put _ _ _ _ _ H), held_app, lost_app. cbn [held delta has c_stage num]. unfold lost at 3. cbn [num]. destruct (Nat.eqb n e); lia.
    + intros e. rewrite held_app. cbn [held delta]. specialize (HELD e). lia.
    + intros e. rewrite freed_app, FREE. unfold freed. cbn [num]. rewrite Z.add_0_r. reflexivity.
    + intros x g m I. destruct (good_put _ _ _ _ H G _ _ _ I) as [X|[]]. exact X.
  - (* defer *) apply Q0.
    + repeat constructor.
    + intros a. rewrite (num_put _ _ _ _ _ H). cbn [num has c_stage]. lia.
    + intros x g m I. destruct (good_put _ _ _ _ H G _ _ _ I) as [X|[X|[]]]; [exact X|]. injection X as _ <- _. split; [reflexivity|congruence].
  - (* push *) apply Q0.
    + repeat constructor.
    + intros a. rewrite (num_put _ _ _ _ _ H), num_after_has, num_app, H0. cbn [num has c_stage fst]. lia.
    + intros x g m I. destruct (good_put _ _ _ _ H G _ _ _ I) as [X|X]; [split; [apply X|discriminate]|]. exfalso. exact (after_push _ _ _ _ X).
  - (* reg *) apply Q1.
    + intros a. rewrite (num_put _ _ _ _ _ H). cbn [num has c_stage]. lia.
    + intros x g m I. destruct (good_put _ _ _ _ H G _ _ _ I) as [X|[]]. exact X.
  - (* wait *) apply Q1; [intros a; rewrite H; reflexivity|]. intros x g m I. split; [apply (PUSH _ _ _ I)|discriminate].
  - (* take *) split; state; auto.
    + intros x. rewrite OWN. unfold owned. state. rewrite H0, held_app, lost_app. cbn [held delta num fst]. unfold lost at 3. cbn [num]. destruct (Nat.eqb n x); lia.
    + intros x. rewrite held_app. cbn [held delta]. specialize (HELD x). destruct (Nat.eqb n x); lia.
    + intros x. rewrite freed_app, FREE. unfold freed. cbn [num]. rewrite Z.add_0_r. reflexivity.
    + intros x g m I. split; [apply (PUSH _ _ _ I)|discriminate].
  - (* ref *) split; state; auto.
    + rewrite ids_count. exact DUP.
    + intros y Y. unfold count_event in Y. apply in_map_iff in Y. destruct Y as [z [<- Z1]]. specialize (OLD z Z1). destruct (Nat.eqb (e_id z) e); exact OLD.
    + intros y Y. unfold count_event in Y. apply in_map_iff in Y. destruct Y as [z [<- Z1]]. specialize (POS z Z1). destruct (Nat.eqb (e_id z) e); cbn [e_refs]; lia.
    + intros a. specialize (OWN a). unfold refs_at, owned in *. state. rewrite find_count, held_app, lost_app. cbn [held delta]. unfold lost at 2. cbn [num].
      destruct (Nat.eqb e a) eqn:X; [apply Nat.eqb_eq in X; subst a; rewrite H in *; cbn [e_refs]; lia|]. destruct (find_event (p_events s) a); lia.
    + intros a. rewrite held_app. cbn [held delta]. specialize (HELD a). destruct (Nat.eqb e a); lia.
    + intros a. rewrite freed_app, FREE. unfold freed, alive. state. cbn [num]. rewrite !find_alive, find_count. destruct (find_event (p_events s) a); lia.
  - (* unref *)
    cbn [allowed] in A. pose proof (owned_ge s e (HELD e)) as [X _].
    destruct (unref_ok (p_events s) e DUP POS) as [l1 [o1 [E1 [N1 [P1 [S1 [R1 [F1 [FR1 [L1 H2]]]]]]]]]]; [rewrite OWN; lia|].
    rewrite H in E1. injection E1 as <- <-. split; state; auto.
    + intros x I. specialize (S1 x I). unfold ids in S1. apply in_map_iff in S1. destruct S1 as [y [<- Y]]. auto.
    + intros a. rewrite R1, OWN. unfold owned. state. rewrite held_app, lost_app. cbn [held delta]. rewrite H2. unfold lost at 3. cbn [num]. rewrite L1 by reflexivity. destruct (Nat.eqb e a); lia.
    + intros a. rewrite held_app. cbn [held delta]. rewrite H2. specialize (HELD a). destruct (Nat.eqb e a) eqn:Y; [apply Nat.eqb_eq in Y; subst a|]; lia.
    + intros a. rewrite freed_app, FREE. change (freed a (PUnref e :: o)) with (0 + freed a o). rewrite FR1. unfold alive. state. rewrite !find_alive. specialize (F1 a).
      destruct (find_event (p_events s) a) as [x|] eqn:FE.
      * destruct (find_in _ _ _ FE) as [X1 X2]. specialize (OLD x X1). rewrite X2 in OLD. apply Nat.ltb_lt in OLD. rewrite OLD. destruct (find_event l a); reflexivity.
      * rewrite (F1 eq_refl). destruct (a <? p_next s)%nat; reflexivity.
  - apply Q1; auto.
  - apply Q1; auto.
Qed.

Lemma good0 : good p0.
Proof. split; cbn; auto; try (intros x []; fail); try constructor; try lia. Qed.
Lemma polite_run : forall l s, good s -> polite s l -> exists s', prun s l = Ok s' /\ good s'.
Proof.
  induction l as [|e l IH]; intros s G P.
  - exists s. split; [reflexivity|exact G].
  - destruct P as [A P]. destruct (step_good s e G A) as [s1 [E1 G1]]. rewrite E1 in P. destruct (IH s1 G1 P) as [s2 [E2 G2]].
    exists s2. cbn [prun]. rewrite E1. cbn [obind]. auto.
Qed.
Theorem safe_thm : forall l, polite p0 l -> exists s, prun p0 l = Ok s.
Proof. intros l P. destruct (polite_run l p0 good0 P) as [s [E _]]. eauto. Qed.
Theorem life_thm : forall l s e, polite p0 l -> prun p0 l = Ok s ->
  (alive s e = true <-> 0 < owned s e) /\ 0 <= held e (p_log s) /\ freed e (p_log s) <= 1 /\
  (freed e (p_log s) = 1 <-> (e < p_next s)%nat /\ owned s e = 0).
Proof.
  intros l s e P R. destruct (polite_run l p0 good0 P) as [s' [E G]]. rewrite R in E. injection E as <-.
  pose proof (refs_pos s e G) as RP. pose proof (gd_free s G e) as FR. pose proof (gd_held s G e) as HE.
  assert (OP : 0 <= owned s e) by (pose proof (owned_ge s e HE); lia).
  split; [exact RP|]. split; [exact HE|]. split; [rewrite FR; destruct (alive s e); [lia|destruct (e <? p_next s)%nat; lia]|].
  rewrite FR. destruct (alive s e).
  - assert (0 < owned s e) by (apply RP; reflexivity). split; [discriminate|lia].
  - assert (owned s e = 0) by (destruct (Z.eq_dec (owned s e) 0); [assumption|]; assert (false = true) by (apply RP; lia); discriminate).
    destruct (e <? p_next s)%nat eqn:X; [apply Nat.ltb_lt in X|apply Nat.ltb_ge in X]; split; try lia; auto.
Qed.

(** Cleanup with a handler or a reader in it. *)
Lemma race_thm : exists l, prun p0 l = UB /\ forall e x, In e l -> e <> Ref x /\ e <> Unref x.
Proof.
  exists [Init; Occur (mkH 1 KFrame 1); Step 0 true; Cleanup; Step 0 true]. split; [reflexivity|].
  intros e x I. cbn [In] in I. repeat (destruct I as [<-|I]; [split; discriminate|]). destruct I.
Qed.
Lemma waiter_thm : exists l, prun p0 l = UB /\ forall e, In e l -> e = Init \/ e = Next true \/ e = Cleanup.
Proof.
  exists [Init; Next true; Cleanup]. split; [reflexivity|]. intros e I. cbn [In] in I. destruct I as [<-|[<-|[<-|[]]]]; auto.
Qed.
Lemma noconn_thm : exists l s h, polite p0 l /\ prun p0 l = Ok s /\ h_kind h = KFrame /\ pulled (this h) (p_log s) = 1 /\
  p_events s = [mkE 0 h false 1].
Proof.
  exists [Init; Occur (mkH 1 KFrame 1); Step 0 false; Step 0 true; Next true]. eexists. exists (mkH 1 KFrame 1).
  split; [cbn; tauto|]. conj; vm_compute; reflexivity.
Qed.

(** C150. *)
Theorem filter_thm : forall l k, filtered l (type k) = true <-> exists m, In m l /\ m_on m = true /\ Z.testbit (m_bits m) (bit k) = true.
Proof.
  assert (S : forall m k, is_set m (type k) = m_on m && Z.testbit (m_bits m) (bit k)).
  { intros m k. unfold is_set, type. rewrite Z.shiftl_1_l. f_equal.
    assert (B : 0 <= bit k) by (destruct k; cbn; lia).
    replace (Z.land (m_bits m) (2 ^ bit k)) with (if Z.testbit (m_bits m) (bit k) then 2 ^ bit k else 0).
    - destruct (Z.testbit (m_bits m) (bit k)); [|reflexivity]. apply Z.ltb_lt. apply Z.pow_pos_nonneg; lia.
    - apply Z.bits_inj'. intros n N. rewrite Z.land_spec, Z.pow2_bits_eqb by exact B.
      destruct (Z.eqb_spec (bit k) n) as [<-|X].
      + destruct (Z.testbit (m_bits m) (bit k)); [rewrite Z.pow2_bits_true by exact B; reflexivity|rewrite Z.bits_0; reflexivity].
      + rewrite andb_false_r. destruct (Z.testbit (m_bits m) (bit k)); [apply Z.pow2_bits_false; exact X|apply Z.bits_0]. }
  intros l k. unfold filtered. rewrite existsb_exists. split; intros [m [I X]]; exists m.
  - rewrite S in X. apply andb_prop in X. tauto.
  - rewrite S. destruct X as [-> ->]. auto.
Qed.
Theorem masks_thm : forall m e n, 0 <= n ->
  Z.testbit (m_bits (mask_add m e)) n = Z.testbit (m_bits m) n || Z.testbit e n /\
  Z.testbit (m_bits (mask_remove m e)) n = Z.testbit (m_bits m) n && negb (Z.testbit e n) /\
  (forall b, m_on (mask_enable m b) = b /\ m_bits (mask_enable m b) = m_bits m) /\
  m_on (mask_add m e) = m_on m /\ m_on (mask_remove m e) = m_on m /\ m_id (mask_add m e) = m_id m /\ m_id (mask_remove m e) = m_id m /\ forall b, m_id (mask_enable m b) = m_id m.
Proof.
  intros m e n N. unfold mask_add, mask_remove, mask_enable. cbn [m_bits m_on m_id]. conj; try reflexivity.
  - apply Z.lor_spec.
  - rewrite Z.land_spec, Z.lnot_spec by exact N. reflexivity.
  - intros b. auto.
Qed.
Lemma install_ids : forall l m, NoDup (map m_id l) -> NoDup (map m_id (fst (install l m))).
Proof.
  intros l m N. unfold install. destruct (existsb _ l) eqn:E; cbn [fst]; [exact N|]. rewrite map_app. cbn [map]. apply nodup_snoc; [exact N|].
  intros I. apply in_map_iff in I. destruct I as [x [X1 X2]].
  assert (existsb (fun x => Nat.eqb (m_id x) (m_id m)) l = true); [|congruence]. apply existsb_exists. exists x. split; [exact X2|apply Nat.eqb_eq; exact X1].
Qed.
Lemma change_ids : forall l i f, map m_id (change_at l i f) = map m_id l.
Proof.
  intros l i f. unfold change_at. rewrite map_map. apply map_ext. intros m. destruct (Nat.eqb (m_id m) i); [destruct f; reflexivity|reflexivity].
Qed.
Theorem ids_thm : forall l s, prun p0 l = Ok s -> NoDup (map m_id (p_masks s)).
Proof.
  apply (run_inv (fun _ s => NoDup (map m_id (p_masks s)))); [constructor|].
  intros l s e s' _ I E. apply cases in E. destruct E; state; try exact I; try constructor.
  - apply install_ids. exact I.
  - rewrite change_ids. exact I.
Qed.
(** What is not reported is masked, or the API is not active. *)
Theorem skip_thm : forall s e s' h, pstep s e = Ok s' -> skipped (this h) (p_log s) < skipped (this h) (p_log s') ->
  p_queue s = None \/ exists m, In m (p_masks s) /\ m_on m = true /\ Z.testbit (m_bits m) (bit (h_kind h)) = true.
Proof.
  intros s e s' h E L. apply cases in E. unfold skipped in L. destruct E; state; rewrite ?num_app in L; cbn [num] in L; try lia.
  - rewrite (release_log _ _ _ _ _ H1) in L by reflexivity. lia.
  - rewrite num_repeat in L. lia.
  - destruct H0 as [H0|H0]; [|auto]. right. destruct (this h h0) eqn:T.
    + apply this_eq in T. subst h0. apply filter_thm in H0. exact H0.
    + exfalso. pose proof (proj2 (proj2 (proj2 (skip_log h0 (this h))))) as X. unfold skipped in X. rewrite T in X. lia.
  - rewrite (unref_log _ _ _ _ _ H) in L by reflexivity. lia.
Qed.
Theorem masked_thm : forall s i ok h, nth_error (p_calls s) i = Some (mkCall h SCall) ->
  (exists m, In m (p_masks s) /\ m_on m = true /\ Z.testbit (m_bits m) (bit (h_kind h)) = true) ->
  exists s', pstep s (Step i ok) = Ok s' /\ p_log s' = p_log s ++ unreported h /\ p_queue s' = p_queue s.
Proof.
  intros s i ok h N M. apply filter_thm in M. cbn [pstep]. rewrite N. cbn [c_hap c_stage]. rewrite M. eexists. split; [reflexivity|]. split; reflexivity.
Qed.

Theorem bit_thm : forall j k, bit j = bit k -> j = k.
Proof. intros j k E. destruct j, k; try reflexivity; discriminate. Qed.
Theorem install_thm : forall l m, (snd (install l m) = true <-> ~ In (m_id m) (map m_id l)) /\
  (snd (install l m) = true -> fst (install l m) = l ++ [m]) /\ (snd (install l m) = false -> fst (install l m) = l).
Proof.
  intros l m. unfold install. destruct (existsb _ l) eqn:E; cbn [fst snd]; (split; [|split; [intros X|intros X]; try discriminate; reflexivity]).
  - apply existsb_exists in E. destruct E as [x [A B]]. apply Nat.eqb_eq in B. split; [discriminate|]. intros X. exfalso. apply X. rewrite <- B. apply in_map. exact A.
  - split; [|auto]. intros _ I. apply in_map_iff in I. destruct I as [x [X1 X2]].
    assert (existsb (fun x => Nat.eqb (m_id x) (m_id m)) l = true); [|congruence]. apply existsb_exists. exists x. split; [exact X2|apply Nat.eqb_eq; exact X1].
Qed.
Theorem change_thm : forall l i f x, In x (change_at l i f) <-> exists m, In m l /\ x = if Nat.eqb (m_id m) i then change f m else m.
Proof.
  intros l i f x. unfold change_at. rewrite in_map_iff. split; intros [m [A B]]; exists m; auto.
Qed.
Theorem once_pushed_thm : forall l s h, natural l -> inits l <= 1 -> prun p0 l = Ok s ->
  calls (this h) (p_log s) <= 1 /\ pushed (this h) (p_log s) <= 1.
Proof.
  intros l s h N I R. pose proof (once_thm l s h N I R) as X. split; [exact X|].
  pose proof (account_thm (this h) l s R) as A. unfold skipped, leaked, inflight in A.
  pose proof (num_pos _ (fun o => match o with PSkip h0 => this h h0 | _ => false end) (p_log s)).
  pose proof (num_pos _ (fun o => match o with PLeak _ h0 => this h h0 | _ => false end) (p_log s)).
  pose proof (num_pos _ (fun c => waiting c && this h (c_hap c)) (p_calls s)). lia.
Qed.
