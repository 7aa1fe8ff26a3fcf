From Coq Require Import Permutation.
From Verif Require Import Base TimeModel TimeSpec TimeProofs HashModel EventModel EventSpec EventProofs EventProofs2.
Ltac conj := repeat match goal with |- _ /\ _ => split end.

Definition held (run : list vstate) : list Z :=
  flat_map (fun v => match v with VCall _ _ _ a | VRun _ _ _ a => [a] | _ => [] end) run.
Definition now_ok (now : tval) : Prop := normal now /\ Z.abs (tv_sec now) < B60.
Definition rinv (s : evs) (rn pn : option Z) : Prop :=
  match ev_run s with
  | [] => rn = None /\ pn = None /\ ev_flag s = false
  | [VLoop i len now] => rn = None /\ pn = None /\ ev_flag s = true /\ now_ok now /\ 0 <= i
  | [VCall i len now a] => rn = None /\ ev_flag s = true /\ now_ok now /\ 0 <= i /\
      exists n d t, info (ev_mem s) a = Some (n, d, t) /\ pn = Some n /\ micros t <= micros now
  | [VRun i len now a] => pn = None /\ ev_flag s = true /\ now_ok now /\ 0 <= i /\
      exists n d t, info (ev_mem s) a = Some (n, d, t) /\ rn = Some n /\ micros t <= micros now
  | [VDone] => rn = None /\ pn = None /\ ev_flag s = true
  | _ => False
  end.
Record vinv (sm : Prop) (s : evs) : Prop := mkVI {
  v_good : good (ev_mem s) (ev_list s ++ held (ev_run s));
  v_list : NoDup (ev_list s);
  v_log : exists rn pn, linv sm (info (ev_mem s)) (ev_list s) rn pn (ev_count s) (ev_log s) /\ rinv s rn pn
}.

Lemma ev0_inv sm : vinv sm ev0.
Proof.
  constructor; [|constructor|].
  - constructor; [constructor| |]; cbn; tauto.
  - exists None, None. split; [|cbn; auto]. constructor; cbn; try discriminate; try tauto.
    + split; [lia|tauto].
    + intros a o b H. destruct a; discriminate.
    + intros a b id n H. destruct a; discriminate.
Qed.

Lemma del_first_perm f (l : list Z) x : find f l = Some x -> Permutation l (x :: del_first f l).
Proof.
  induction l as [|y l IH]; cbn; [discriminate|]. destruct (f y); intros H; [injection H as ->; reflexivity|].
  rewrite (IH H) at 1. apply perm_swap.
Qed.
Lemma find_self l a : In a l -> find (fun x => x =? a) l = Some a.
Proof.
  induction l as [|y l IH]; cbn; [tauto|]. intros [->|I]; [now rewrite Z.eqb_refl|].
  destruct (y =? a) eqn:E; [f_equal; lia|auto].
Qed.
Lemma del_none f l : find f l = None -> del_first f l = l.
Proof. induction l as [|y l IH]; cbn; [reflexivity|]. destruct (f y); [discriminate|]. intros H. now rewrite IH. Qed.
Lemma exists_self l a : existsb (fun y => y =? a) l = true <-> In a l.
Proof.
  rewrite existsb_exists. split; [intros (x & I & E)|exists a; split; [assumption|lia]]. now replace a with x by lia.
Qed.
Lemma exists_perm l l' a : Permutation l l' -> existsb (fun y => y =? a) l = existsb (fun y => y =? a) l'.
Proof.
  intros P. apply eq_true_iff_eq. rewrite !exists_self. split; intros H; eapply Permutation_in; try exact H; [exact P|now apply Permutation_sym].
Qed.
Lemma info_in m a : In a (map e_addr m) -> exists n d t b, blk m a = Some b /\ info m a = Some (n, d, t) /\
  e_no b = n /\ e_delay b = d /\ e_next b = t.
Proof. intros I. destruct (blk_some m a I) as [b B]. unfold info. rewrite B. cbn. unfold facts. eauto 10. Qed.
Lemma rn_bound sm s rn pn : linv sm (info (ev_mem s)) (ev_list s) rn pn (ev_count s) (ev_log s) -> rinv s rn pn ->
  match rn with Some m => m < ev_count s | None => True end.
Proof.
  intros L R. destruct rn as [m|]; [|exact I]. unfold rinv in R.
  destruct (ev_run s) as [|v [|]]; [destruct R; discriminate| |destruct v; contradiction].
  destruct v.
  - destruct R; discriminate.
  - destruct R; discriminate.
  - destruct R as (_ & _ & _ & _ & n & d & t & IA & E & _). injection E as <-. destruct (l_fact _ _ _ _ _ _ _ L _ _ _ _ IA) as (c & H1 & _).
    apply (proj2 (l_count _ _ _ _ _ _ _ L) _ H1).
  - destruct R; discriminate.
Qed.
(** What a thread relies on does not change with the rest. *)
Lemma rinv_move s s' rn pn : ev_run s' = ev_run s -> ev_flag s' = ev_flag s ->
  (forall a, In a (held (ev_run s)) -> info (ev_mem s') a = info (ev_mem s) a) -> rinv s rn pn -> rinv s' rn pn.
Proof.
  unfold rinv. intros -> -> H R. destruct (ev_run s) as [|v [|]]; [exact R| |destruct v; contradiction].
  destruct v; try exact R.
  - destruct R as (A & B & C & D & n & d & t & IA & E). do 4 (split; [assumption|]). exists n, d, t. rewrite H; [auto|now left].
  - destruct R as (A & B & C & D & n & d & t & IA & E). do 4 (split; [assumption|]). exists n, d, t. rewrite H; [auto|now left].
Qed.

Definition small (sm : Prop) (e : vev) : Prop := match e with WNew a _ _ _ => sm -> 0 <= a < two31 | _ => True end.

Lemma run_one s rn pn v k : rinv s rn pn -> nth_error (ev_run s) k = Some v -> k = 0%nat /\ ev_run s = [v].
Proof.
  unfold rinv. intros R N. destruct (ev_run s) as [|x [|]]; [destruct k; discriminate| |destruct x; contradiction].
  destruct k as [|k]; [|destruct k; discriminate]. cbn in N. injection N as ->. auto.
Qed.

Lemma step_new sm s a delay pos now : vinv sm s -> event_ok (WNew a delay pos now) -> small sm (WNew a delay pos now) ->
  exists s', vstep s (WNew a delay pos now) = Ok s' /\ vinv sm s'.
Proof.
  intros [G ND (rn & pn & L & R)] (N & SC & D) SM. cbn in SM. cbn [vstep].
  destruct (blk (ev_mem s) a) as [b|] eqn:BL; [eexists; split; [reflexivity|]; constructor; eauto|].
  destruct (a =? 0).
  { eexists. split; [reflexivity|]. constructor; cbn [ev_mem ev_list ev_run]; [exact G|exact ND|].
    exists rn, pn. split; [apply linv_quiet; [exact L|exact I]|]. eapply rinv_move; [| | |exact R]; auto. }
  destruct (stamp_any now delay N) as (t & E & A1 & A2 & A3 & A4); [unfold sensible; lia|lia|].
  rewrite E. cbn [obind]. eexists. split; [reflexivity|].
  assert (NI : ~ In a (ev_list s ++ held (ev_run s))). { apply blk_none in BL. intros I. apply BL. now apply (g_has _ _ G). }
  assert (P : Permutation (firstn pos (ev_list s) ++ a :: skipn pos (ev_list s)) (a :: ev_list s)).
  { rewrite <- Permutation_middle. now rewrite firstn_skipn. }
  assert (INF : forall x, info (ev_mem s ++ [mkE (ev_count s) a delay t 1]) x = if x =? a then Some (ev_count s, delay, t) else info (ev_mem s) x).
  { intros x. unfold info, blk. clear -BL. unfold blk in BL. induction (ev_mem s) as [|y m IH]; cbn.
    - rewrite (Z.eqb_sym a). now destruct (x =? a).
    - cbn in BL. destruct (e_addr y =? a) eqn:Y; [discriminate|]. specialize (IH BL).
      destruct (e_addr y =? x) eqn:X; [now replace (x =? a) with false by lia|exact IH]. }
  constructor; cbn [ev_mem ev_list ev_run ev_count ev_log].
  - eapply (good_perm _ (a :: ev_list s ++ held (ev_run s))).
    { apply Permutation_sym. change (a :: ev_list s ++ held (ev_run s)) with ((a :: ev_list s) ++ held (ev_run s)). now apply Permutation_app_tail. }
    destruct G as [G1 G2 G3]. constructor.
    + rewrite map_app. cbn. apply (Permutation_NoDup (l := a :: map e_addr (ev_mem s))); [apply Permutation_cons_append|].
      constructor; [now apply blk_none|exact G1].
    + intros e H. rewrite cnt_cons. apply in_snoc in H. destruct H as [H| ->].
      * destruct (G2 _ H) as [R1 R2]. replace (a =? e_addr e) with false; [lia|]. symmetry. apply Z.eqb_neq. intros ->.
        apply blk_none in BL. apply BL. now apply in_map.
      * cbn. rewrite Z.eqb_refl. assert (cnt a (ev_list s ++ held (ev_run s)) = 0); [|lia].
        pose proof (cnt_nonneg a (ev_list s ++ held (ev_run s))). pose proof (cnt_pos a (ev_list s ++ held (ev_run s))).
        destruct (Z.eq_dec (cnt a (ev_list s ++ held (ev_run s))) 0); [assumption|]. exfalso. apply NI. apply H0. lia.
    + intros x [<-|H]; rewrite map_app; apply in_or_app; [right; now left|left; auto].
  - apply (Permutation_NoDup (Permutation_sym P)). constructor; [|exact ND]. intros X. apply NI. apply in_or_app. now left.
  - exists rn, pn. split.
    + eapply linv_ext; [exact INF|]. eapply linv_new; try eassumption; try (unfold B60; lia).
      * unfold info. now rewrite BL.
      * intros X. apply NI. apply in_or_app. now left.
      * eapply rn_bound; eassumption.
    + eapply rinv_move; [| | |exact R]; try reflexivity. cbn [ev_mem]. intros x X. rewrite INF.
      replace (x =? a) with false; [reflexivity|]. symmetry. apply Z.eqb_neq. intros ->. apply NI. apply in_or_app. now right.
Qed.

Lemma step_remove sm s id : vinv sm s -> exists s', vstep s (WRemove id) = Ok s' /\ vinv sm s'.
Proof.
  intros [G ND (rn & pn & L & R)]. cbn [vstep]. destruct (find (fun a => s32 a =? id) (ev_list s)) as [a|] eqn:FI.
  2: { eexists. split; [reflexivity|]. constructor; cbn [ev_mem ev_list ev_run]; [exact G|exact ND|].
       exists rn, pn. split; [apply linv_quiet; [exact L|exact I]|]. eapply rinv_move; [| | |exact R]; auto. }
  pose proof (find_some _ _ FI) as [IN ID]. pose proof (del_first_perm _ _ _ FI) as P.
  destruct (info_in (ev_mem s) a) as (n & d & t & b & BL & IA & NO & _); [apply (g_has _ _ G), in_or_app; now left|].
  rewrite BL. set (l' := del_first (fun a => s32 a =? id) (ev_list s)) in *.
  destruct (good_unref (ev_mem s) (l' ++ held (ev_run s)) a) as (m & U & G' & INF).
  { eapply good_perm; [|exact G]. change (a :: l' ++ held (ev_run s)) with ((a :: l') ++ held (ev_run s)). now apply Permutation_app_tail. }
  rewrite U. cbn [obind]. eexists. split; [reflexivity|]. rewrite NO.
  assert (NI : ~ In a l'). { eapply Permutation_NoDup in ND; [|exact P]. now apply NoDup_cons_iff in ND. }
  constructor; cbn [ev_mem ev_list ev_run ev_count ev_log].
  - exact G'.
  - eapply Permutation_NoDup in ND; [|exact P]. now apply NoDup_cons_iff in ND.
  - exists rn, pn. split.
    + assert (id = s32 a) as -> by lia. eapply linv_ext; [|eapply linv_remove; eassumption]. exact INF.
    + eapply rinv_move; [| | |exact R]; try reflexivity. cbn [ev_mem]. intros x X. rewrite INF.
      destruct (x =? a) eqn:XA; [|reflexivity]. assert (x = a) by lia. subst x.
      replace (existsb (fun y => y =? a) (l' ++ held (ev_run s))) with true; [reflexivity|]. symmetry. apply exists_self, in_or_app. now right.
Qed.

Lemma step_own sm s k : vinv sm s -> exists s', vstep s (WStep k) = Ok s' /\ vinv sm s'.
Proof.
  intros V. pose proof V as [G ND (rn & pn & L & R)]. cbn [vstep]. destruct (nth_error (ev_run s) k) as [v|] eqn:N; [|eauto].
  destruct (run_one _ _ _ _ _ R N) as [-> RUN]. unfold rinv in R. unfold set_run. rewrite RUN in *. clear N.
  assert (DONE : rn = None -> pn = None -> ev_flag s = true -> held [v] = [] ->
          vinv sm (mkEV (ev_mem s) (ev_list s) (ev_flag s) (set_nth 0 [v] VDone) (ev_count s) (ev_exit s) (ev_log s ++ []))).
  { intros -> -> FL H. rewrite H in G. rewrite app_nil_r. constructor; cbn [ev_mem ev_list ev_run ev_count ev_log set_nth]; [exact G|exact ND|].
    exists None, None. split; [exact L|]. cbn. auto. }
  destruct v as [i len now|i len now a|i len now a|].
  - destruct R as (-> & -> & FL & NO & I0). destruct (i <? len) eqn:IL; cbn [negb]; [|eauto].
    destruct (nth_error (ev_list s) (Z.to_nat i)) as [a|] eqn:NT; [|eauto].
    assert (IN : In a (ev_list s)) by (eapply nth_error_In; eassumption).
    destruct (info_in (ev_mem s) a) as (n & d & t & b & BL & IA & E1 & E2 & E3); [apply (g_has _ _ G), in_or_app; now left|].
    rewrite BL, E3. destruct (l_fact _ _ _ _ _ _ _ L _ _ _ _ IA) as (c & _ & _ & _ & NT' & _).
    assert (GR : good (upd (ev_mem s) a (add_ref 1)) (a :: ev_list s)).
    { apply good_ref; [cbn in G; now rewrite app_nil_r in G|]. apply (g_has _ _ G), in_or_app. now left. }
    rewrite due_spec; [|apply NO|exact NT']. destruct (micros t <=? micros now) eqn:DU.
    + eexists. split; [reflexivity|]. rewrite app_nil_r. constructor; cbn [ev_mem ev_list ev_run ev_count ev_log set_nth].
      * cbn. eapply good_perm; [|exact GR]. apply Permutation_cons_append.
      * exact ND.
      * exists None, (Some n). split.
        -- eapply linv_ext; [intros; apply info_ref|]. eapply linv_pick; eassumption.
        -- cbn. conj. all: auto. all: try apply NO. exists n, d, t. rewrite info_ref. repeat split; auto. lia.
    + destruct (good_unref _ _ _ GR) as (m & U & G' & INF). rewrite U. cbn [obind]. eexists. split; [reflexivity|].
      rewrite app_nil_r. constructor; cbn [ev_mem ev_list ev_run ev_count ev_log set_nth].
      * cbn. now rewrite app_nil_r.
      * exact ND.
      * exists None, None. split; [|cbn; repeat split; auto; try apply NO; lia].
        eapply linv_ext; [|exact L]. intros x. rewrite INF, info_ref.
        replace (existsb (fun y => y =? a) (ev_list s)) with true; [now rewrite andb_false_r|]. symmetry. now apply exists_self.
  - destruct R as (-> & FL & NO & I0 & n & d & t & IA & -> & DU).
    destruct (info_in (ev_mem s) a) as (n' & d' & t' & b & BL & IA' & E1 & E2 & E3); [apply (g_has _ _ G), in_or_app; right; now left|].
    rewrite IA in IA'. injection IA' as <- <- <-. rewrite BL, E1.
    eexists. split; [reflexivity|]. constructor; cbn [ev_mem ev_list ev_run ev_count ev_log set_nth]; [exact G|exact ND|].
    exists (Some n), None. split; [eapply linv_start; eassumption|]. cbn. conj. all: auto. all: try apply NO. exists n, d, t. auto.
  - eauto.
  - destruct R as (-> & -> & FL). eexists. split; [reflexivity|].
    constructor; cbn [ev_mem ev_list ev_run ev_count ev_log firstn skipn app]; [exact G|exact ND|].
    exists None, None. split; [exact L|]. cbn. auto.
Qed.

Lemma step_return sm s k r : vinv sm s -> exists s', vstep s (WReturn k r) = Ok s' /\ vinv sm s'.
Proof.
  intros V. pose proof V as [G ND (rn & pn & L & R)]. cbn [vstep]. destruct (nth_error (ev_run s) k) as [v|] eqn:N; [|eauto].
  destruct v as [i len now|i len now a|i len now a|]; [eauto|eauto| |eauto].
  destruct (run_one _ _ _ _ _ R N) as [-> RUN]. unfold rinv in R. unfold set_run. rewrite RUN in *. clear N.
  destruct R as (-> & FL & NO & I0 & n & d & t & IA & -> & DU).
  destruct (info_in (ev_mem s) a) as (n' & d' & t' & b & BL & IA' & E1 & E2 & E3); [apply (g_has _ _ G), in_or_app; right; now left|].
  rewrite IA in IA'. injection IA' as <- <- <-. rewrite BL, E1, E2, E3. destruct r.
  - (* does not want to be called again *)
    assert (GM : exists m l', (if existsb (fun x => x =? a) (ev_list s) then unref (ev_mem s) a else Ok (ev_mem s)) = Ok m /\
      l' = del_first (fun x => x =? a) (ev_list s) /\ good m (a :: l') /\ (forall x, info m x = info (ev_mem s) x) /\
      NoDup l' /\ ~ In a l' /\ (forall x, In x (ev_list s) <-> In x l' \/ (x = a /\ In a (ev_list s)))).
    { destruct (existsb (fun x => x =? a) (ev_list s)) eqn:EX.
      - apply exists_self in EX. pose proof (del_first_perm _ _ _ (find_self _ _ EX)) as P.
        set (l' := del_first (fun x => x =? a) (ev_list s)) in *.
        destruct (good_unref (ev_mem s) (l' ++ [a]) a) as (m & U & G' & INF).
        { eapply good_perm; [|exact G]. change (a :: l' ++ [a]) with ((a :: l') ++ [a]). now apply Permutation_app_tail. }
        exists m, l'. split; [exact U|]. split; [reflexivity|]. split; [eapply good_perm; [|exact G']; apply Permutation_sym, Permutation_cons_append|].
        split. { intros x. rewrite INF. replace (existsb (fun y => y =? a) (l' ++ [a])) with true; [now rewrite andb_false_r|].
                 symmetry. apply exists_self, in_or_app. right. now left. }
        pose proof (Permutation_NoDup P ND) as ND'. apply NoDup_cons_iff in ND'. split; [tauto|]. split; [tauto|].
        intros x. split.
        + intros H. eapply Permutation_in in H; [|exact P]. destruct H; [right; auto|now left].
        + intros [H|[-> H]]; [|exact H]. eapply Permutation_in; [apply Permutation_sym, P|]. now right.
      - assert (NI : ~ In a (ev_list s)) by (intros X; apply exists_self in X; congruence).
        exists (ev_mem s), (ev_list s). split; [reflexivity|]. split.
        { symmetry. apply del_none. destruct (find (fun x => x =? a) (ev_list s)) as [y|] eqn:FI; [|reflexivity].
          apply find_some in FI. destruct FI as [X Y]. exfalso. apply NI. now replace a with y by lia. }
        split; [eapply good_perm; [|exact G]; apply Permutation_sym, Permutation_cons_append|]. split; [reflexivity|]. split; [exact ND|]. split; [exact NI|].
        intros x. split; [now left|]. intros [H|[-> H]]; exact H. }
    destruct GM as (m & l' & -> & <- & GM & INM & ND' & NI & INL). cbn [obind].
    destruct (good_unref _ _ _ GM) as (m' & U & G' & INF). rewrite U. cbn [obind]. eexists. split; [reflexivity|].
    constructor; cbn [ev_mem ev_list ev_run ev_count ev_log set_nth].
    + cbn. now rewrite app_nil_r.
    + exact ND'.
    + exists None, None. split; [|cbn; repeat split; auto; apply NO].
      eapply linv_ext; [|eapply linv_last; eassumption]. intros x. rewrite INF, INM.
      replace (existsb (fun y => y =? a) l') with false; [now rewrite andb_true_r|]. symmetry. apply not_true_is_false. now rewrite exists_self.
  - destruct (l_fact _ _ _ _ _ _ _ L _ _ _ _ IA) as (c & _ & _ & D & NT & BD & _).
    assert (BT : tv_sec t < B60). { unfold now_ok, normal, micros, B60 in *. lia. }
    destruct (stamp_any t d NT) as (t' & ST & _); [unfold sensible, B60 in *; lia|unfold B60 in *; lia|].
    rewrite ST. cbn [obind].
    destruct (good_unref (upd (ev_mem s) a (set_next t')) (ev_list s) a) as (m & U & G' & INF).
    { eapply (good_perm _ (ev_list s ++ [a])); [apply Permutation_sym, Permutation_cons_append|]. destruct G as [G1 G2 G3]. constructor.
      - rewrite upd_addr by reflexivity. exact G1.
      - intros e H. apply in_upd in H. destruct H as (e0 & H & ->). specialize (G2 _ H). destruct (e_addr e0 =? a); exact G2.
      - intros x H. rewrite upd_addr by reflexivity. auto. }
    rewrite U. cbn [obind]. eexists. split; [reflexivity|].
    constructor; cbn [ev_mem ev_list ev_run ev_count ev_log set_nth].
    + cbn. now rewrite app_nil_r.
    + exact ND.
    + exists None, None. split; [|cbn; repeat split; auto; try apply NO; lia].
      assert (IU : forall x, info (upd (ev_mem s) a (set_next t')) x = if x =? a then Some (n, d, t') else info (ev_mem s) x).
      { intros x. unfold info. rewrite blk_upd by reflexivity. destruct (x =? a); [|reflexivity]. rewrite BL. cbn. unfold facts. cbn. congruence. }
      pose proof (linv_again sm _ _ _ _ _ _ _ _ t' L IA BT ST) as LA.
      destruct (existsb (fun y => y =? a) (ev_list s)) eqn:EX.
      * eapply linv_ext; [|exact LA]. intros x. rewrite INF, IU. now rewrite andb_false_r.
      * (* the block is freed; the event had been removed *)
        assert (NI : ~ In a (ev_list s)) by (intros X; apply exists_self in X; congruence).
        destruct LA as [F U' C EN RE NE AP LO AF SM].
        assert (IMP : forall x q, info m x = Some q -> x <> a /\ (if x =? a then Some (n, d, t') else info (ev_mem s) x) = Some q).
        { intros x q. rewrite INF, IU. cbn [negb]. rewrite andb_true_r. destruct (x =? a) eqn:XA; [discriminate|]. split; [lia|assumption]. }
        constructor; try assumption.
        -- intros x n1 d1 t1 H. apply IMP in H. apply F, H.
        -- intros x y n1 d1 t1 d2 t2 H H'. apply IMP in H, H'. eapply U'; [apply H|apply H'].
        -- intros m1 H x d1 t1 X. apply IMP in X. exact (EN _ H _ _ _ (proj2 X)).
        -- intros id m1 H x d1 t1 J X. apply IMP in X. exact (RE _ _ H _ _ _ J (proj2 X)).
        -- intros m1 d1 c1 id H. destruct (NE _ _ _ _ H) as [GO|(x & t1 & J & X & Y)]; [now left|]. right. exists x, t1. split; [exact J|]. split; [exact X|].
           assert (x <> a) by (intros ->; contradiction). rewrite INF, IU. replace (x =? a) with false in * by lia. exact Y.
Qed.

Lemma vstep_inv sm s e : vinv sm s -> event_ok e -> small sm e -> exists s', vstep s e = Ok s' /\ vinv sm s'.
Proof.
  intros V E SM. destruct e as [a delay pos now|id|now|k|k r|].
  - now apply step_new.
  - now apply step_remove.
  - pose proof V as [G ND (rn & pn & L & R)]. cbn [vstep]. eexists. split; [reflexivity|].
    destruct (ev_flag s || (zlen (ev_list s) =? 0) || ev_exit s) eqn:C; [exact V|].
    assert (FL : ev_flag s = false) by (destruct (ev_flag s); [discriminate|reflexivity]).
    unfold rinv in R. rewrite FL in R. assert (RUN : ev_run s = []).
    { destruct (ev_run s) as [|v [|]]; [reflexivity| |destruct v; contradiction]. destruct v; decompose [and] R; discriminate. }
    rewrite RUN in *. destruct R as (-> & -> & _). constructor; cbn [ev_mem ev_list ev_run ev_count ev_log app]; [exact G|exact ND|].
    exists None, None. split; [exact L|]. cbn. repeat split; auto; try apply E. lia.
  - now apply step_own.
  - now apply step_return.
  - cbn [vstep]. eexists. split; [reflexivity|]. destruct V as [G ND (rn & pn & L & R)]. constructor; cbn [ev_mem ev_list ev_run ev_count ev_log]; [exact G|exact ND|].
    exists rn, pn. split; [exact L|]. eapply rinv_move; [| | |exact R]; auto.
Qed.
Lemma vrun_inv sm es : forall s, vinv sm s -> Forall event_ok es -> Forall (small sm) es -> exists s', vrun s es = Ok s' /\ vinv sm s'.
Proof.
  induction es as [|e es IH]; intros s V E S; [exists s; auto|]. inversion E; subst. inversion S; subst.
  destruct (vstep_inv sm s e V) as (s1 & E1 & V1); auto. cbn [vrun]. rewrite E1. cbn [obind]. auto.
Qed.
