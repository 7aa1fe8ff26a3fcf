From Coq Require Import Permutation.
From Verif Require Import Base TimeModel TimeSpec TimeProofs HashModel EventModel EventSpec EventProofs EventProofs2 EventProofs3.
Ltac conj := repeat match goal with |- _ /\ _ => split end.

(** ** A pass over the list *)
Definition due_of (m : list tev) (now : tval) (l : list Z) : list Z :=
  flat_map (fun a => match info m a with Some (n, _, t) => if due now t then [n] else [] | None => [] end) l.
Lemma due_events_of s now : due_events s now = due_of (ev_mem s) now (ev_list s).
Proof. unfold due_events, due_of, info. apply flat_map_ext. intros a. destruct (blk (ev_mem s) a); reflexivity. Qed.
Lemma due_of_ext m m' now l : (forall a, In a l -> info m' a = info m a) -> due_of m' now l = due_of m now l.
Proof.
  unfold due_of. induction l as [|a l IH]; intros H; [reflexivity|]. cbn [flat_map]. rewrite H by now left. rewrite IH; [reflexivity|].
  intros; apply H; now right.
Qed.
Lemma called_app a b : called (a ++ b) = called a ++ called b.
Proof. unfold called. apply flat_map_app. Qed.

Definition pass (target : list Z) (nw : tval) (s : evs) : Prop :=
  match ev_run s with
  | [VLoop i len now] => now = nw /\ exists kept rest, ev_list s = kept ++ rest /\ zlen kept = i /\ i + zlen rest <= len /\
      called (ev_log s) ++ due_of (ev_mem s) now rest = target
  | [VCall i len now a] => now = nw /\ exists kept rest n d t, ev_list s = kept ++ a :: rest /\ zlen kept = i /\ i + 1 + zlen rest <= len /\
      info (ev_mem s) a = Some (n, d, t) /\ called (ev_log s) ++ n :: due_of (ev_mem s) now rest = target
  | [VRun i len now a] => now = nw /\ exists kept rest, ev_list s = kept ++ a :: rest /\ zlen kept = i /\ i + 1 + zlen rest <= len /\
      called (ev_log s) ++ due_of (ev_mem s) now rest = target
  | _ => called (ev_log s) = target
  end.

Lemma zlen_cons {A} (x : A) l : zlen (x :: l) = 1 + zlen l.
Proof. unfold zlen. cbn [length]. lia. Qed.
Lemma unref_info m l a m' : good m (a :: l) -> unref m a = Ok m' ->
  forall x, info m' x = if (x =? a) && negb (existsb (fun y => y =? a) l) then None else info m x.
Proof. intros G U. destruct (good_unref _ _ _ G) as (m1 & U1 & _ & INF). rewrite U in U1. injection U1 as <-. exact INF. Qed.
Lemma upd_other m a f x : (forall e, e_addr (f e) = e_addr e) -> x <> a -> info (upd m a f) x = info m x.
Proof. intros F N. unfold info. rewrite blk_upd by exact F. now replace (x =? a) with false by lia. Qed.
Lemma unref_other m a m' x : unref m a = Ok m' -> x <> a -> info m' x = info m x.
Proof.
  intros U N. unfold unref in U. destruct (blk m a) as [e|]; [|discriminate]. destruct (e_refs e - 1 =? 0); injection U as <-.
  - unfold info. rewrite blk_filter. now replace (x =? a) with false by lia.
  - apply info_ref.
Qed.
Lemma nth_split_at {A} (kept rest : list A) i a : nth_error (kept ++ rest) (Z.to_nat i) = Some a -> zlen kept = i ->
  exists r, rest = a :: r.
Proof.
  intros N E. rewrite nth_error_app2 in N by (unfold zlen in E; lia).
  replace (Z.to_nat i - length kept)%nat with 0%nat in N by (unfold zlen in E; lia).
  destruct rest as [|x r]; [discriminate|]. cbn in N. injection N as ->. eauto.
Qed.
Lemma del_first_mid a kept rest : ~ In a kept -> del_first (fun x => x =? a) (kept ++ a :: rest) = kept ++ rest.
Proof.
  induction kept as [|y k IH]; cbn; intros N; [now rewrite Z.eqb_refl|]. replace (y =? a) with false.
  - f_equal. apply IH. tauto.
  - symmetry. apply Z.eqb_neq. intros ->. tauto.
Qed.

Lemma pass_step target nw s e s' : vinv False s -> own_step e = true -> vstep s e = Ok s' -> pass target nw s -> pass target nw s'.
Proof.
  intros [G ND (rn & pn & L & R)] OW ST P. destruct e as [| | |k|k r|]; try discriminate; cbn [vstep] in ST.
  - destruct (nth_error (ev_run s) k) as [v|] eqn:N; [|injection ST as <-; exact P].
    destruct (run_one _ _ _ _ _ R N) as [-> RUN]. unfold pass in P. unfold rinv in R. unfold set_run in ST. rewrite RUN in *. cbn [set_nth firstn skipn app] in ST.
    destruct v as [i len now|i len now a|i len now a|].
    + destruct R as (-> & -> & FL & NO & I0). destruct P as (-> & kept & rest & EL & LK & LR & T).
      destruct (i <? len) eqn:IL; cbn [negb] in ST.
      2: { injection ST as <-. unfold pass. cbn [ev_run ev_log]. rewrite app_nil_r. pose proof (Zle_0_nat (length rest)).
           destruct rest; [|rewrite zlen_cons in LR; unfold zlen in *; lia]. cbn in T. now rewrite app_nil_r in T. }
      destruct (nth_error (ev_list s) (Z.to_nat i)) as [a|] eqn:NT.
      2: { injection ST as <-. unfold pass. cbn [ev_run ev_log]. rewrite app_nil_r. apply nth_error_None in NT. rewrite EL, app_length in NT.
           unfold zlen in *. destruct rest; [|cbn [length] in *; lia]. cbn in T. now rewrite app_nil_r in T. }
      assert (IN : In a (ev_list s)) by (eapply nth_error_In; eassumption).
      rewrite EL in NT. destruct (nth_split_at _ _ _ _ NT LK) as [r ->]. rewrite zlen_cons in LR.
      destruct (info_in (ev_mem s) a) as (n & d & t & b & BL & IA & E1 & E2 & E3); [apply (g_has _ _ G), in_or_app; now left|].
      rewrite BL, E3 in ST. unfold due_of in T. cbn [flat_map] in T. rewrite IA in T. fold (due_of (ev_mem s) nw r) in T.
      assert (NR : ~ In a r). { rewrite EL in ND. apply NoDup_remove_2 in ND. intros X. apply ND, in_or_app. now right. }
      destruct (due nw t).
      * injection ST as <-. unfold pass. cbn [ev_run ev_log ev_list ev_mem]. rewrite app_nil_r. split; [reflexivity|]. exists kept, r, n, d, t.
        rewrite info_ref. rewrite (due_of_ext (ev_mem s)) by (intros; apply info_ref). conj. all: auto. all: lia.
      * destruct (unref (upd (ev_mem s) a (add_ref 1)) a) as [m|] eqn:U; [|discriminate]. injection ST as <-.
        unfold pass. cbn [ev_run ev_log ev_list ev_mem]. rewrite app_nil_r. split; [reflexivity|]. exists (kept ++ [a]), r.
        split; [now rewrite EL, <- app_assoc|]. split; [rewrite EventProofs2.zlen_app; cbn; lia|]. split; [lia|].
        rewrite <- T. f_equal. apply due_of_ext. intros x X. rewrite (unref_other _ _ _ _ U); [apply info_ref|]. intros ->. contradiction.
    + destruct P as (-> & kept & rest & n & d & t & EL & LK & LR & IA & T). unfold info in IA.
      destruct (blk (ev_mem s) a) as [b|]; [|discriminate]. cbn in IA. unfold facts in IA. injection IA as <- <- <-. injection ST as <-.
      unfold pass. cbn [ev_run ev_log ev_list ev_mem]. split; [reflexivity|]. exists kept, rest. conj. all: auto.
      rewrite called_app, <- app_assoc. exact T.
    + injection ST as <-. unfold pass. rewrite RUN. exact P.
    + injection ST as <-. exact P.
  - destruct (nth_error (ev_run s) k) as [v|] eqn:N; [|injection ST as <-; exact P].
    destruct v as [i len now|i len now a|i len now a|]; try (injection ST as <-; exact P).
    destruct (run_one _ _ _ _ _ R N) as [-> RUN]. unfold pass in P. unfold rinv in R. unfold set_run in ST. rewrite RUN in *. cbn [set_nth] in ST.
    destruct P as (-> & kept & rest & EL & LK & LR & T).
    destruct (blk (ev_mem s) a) as [b|] eqn:BL; [|discriminate].
    rewrite EL in ND. pose proof (NoDup_remove_2 _ _ _ ND) as NI.
    destruct r.
    + destruct (if existsb (fun x => x =? a) (ev_list s) then unref (ev_mem s) a else Ok (ev_mem s)) as [m1|] eqn:U1; [|discriminate].
      cbn [obind] in ST. destruct (unref m1 a) as [m2|] eqn:U2; [|discriminate]. injection ST as <-.
      unfold pass. cbn [ev_run ev_log ev_list ev_mem]. split; [reflexivity|]. exists kept, rest.
      rewrite EL, del_first_mid by (intros X; apply NI, in_or_app; now left). split; [reflexivity|]. split; [exact LK|]. split; [lia|].
      rewrite called_app. cbn [called flat_map]. rewrite app_nil_r, <- T. f_equal. apply due_of_ext. intros x X.
      assert (x <> a) by (intros ->; apply NI, in_or_app; now right). rewrite (unref_other _ _ _ _ U2) by assumption.
      destruct (existsb _ _); [now apply (unref_other _ _ _ _ U1)|now injection U1 as <-].
    + destruct (increase_stamp (e_next b) (e_delay b)) as [t'|]; [|discriminate]. cbn [obind] in ST.
      destruct (unref (upd (ev_mem s) a (set_next t')) a) as [m2|] eqn:U2; [|discriminate]. injection ST as <-.
      unfold pass. cbn [ev_run ev_log ev_list ev_mem]. split; [reflexivity|]. exists (kept ++ [a]), rest.
      split; [now rewrite EL, <- app_assoc|]. split; [rewrite EventProofs2.zlen_app; cbn; lia|]. split; [lia|].
      rewrite called_app. cbn [called flat_map]. rewrite app_nil_r, <- T. f_equal. apply due_of_ext. intros x X.
      assert (x <> a) by (intros ->; apply NI, in_or_app; now right). rewrite (unref_other _ _ _ _ U2) by assumption.
      now apply upd_other.
Qed.

Lemma vrun_app a b : forall s s', vrun s (a ++ b) = Ok s' -> exists m, vrun s a = Ok m /\ vrun m b = Ok s'.
Proof.
  induction a as [|e a IH]; intros s s' H; [exists s; auto|]. cbn [app vrun] in *. destruct (vstep s e) as [s1|]; [|discriminate].
  cbn [obind] in *. eauto.
Qed.
Lemma reach_inv es s : Forall event_ok es -> vrun ev0 es = Ok s -> vinv False s.
Proof.
  intros E H. destruct (vrun_inv False es ev0) as (s1 & H1 & V); [apply ev0_inv|exact E| |].
  - apply Forall_forall. intros e _. destruct e; cbn; tauto.
  - rewrite H in H1. injection H1 as <-. exact V.
Qed.
Lemma pass_run target nw es : forall s s', vinv False s -> forallb own_step es = true -> vrun s es = Ok s' -> pass target nw s ->
  pass target nw s'.
Proof.
  induction es as [|e es IH]; intros s s' V F H P; [injection H as <-; exact P|]. cbn [forallb vrun] in *.
  apply andb_true_iff in F. destruct F as [F1 F]. destruct (vstep_inv False s e V) as (s1 & E1 & V1); try (destruct e; try discriminate; exact I).
  rewrite E1 in H. cbn [obind] in H. exact (IH _ _ V1 F H (pass_step _ _ _ _ _ V F1 E1 P)).
Qed.

Lemma pass_whole before es now s0 s : Forall event_ok (before ++ [WStart now]) -> forallb own_step es = true ->
  vrun ev0 before = Ok s0 -> ev_run s0 = [] -> ev_exit s0 = false ->
  vrun s0 (WStart now :: es) = Ok s -> ev_run s = [] -> called (ev_log s) = called (ev_log s0) ++ due_events s0 now.
Proof.
  intros OK OWN H0 R0 X0 H R. apply Forall_app in OK. destruct OK as [OK1 OK2]. pose proof (reach_inv _ _ OK1 H0) as V.
  inversion OK2 as [|? ? OKN _]; subst.
  destruct (vstep_inv False s0 (WStart now) V OKN I) as (s1 & E1 & V1). cbn [vrun] in H. rewrite E1 in H. cbn [obind] in H.
  assert (P : pass (called (ev_log s0) ++ due_events s0 now) now s1).
  { cbn [vstep] in E1. assert (FL : ev_flag s0 = false).
    { destruct V as [_ _ (rn & pn & _ & RI)]. unfold rinv in RI. rewrite R0 in RI. tauto. }
    rewrite FL, X0, orb_false_r in E1. cbn [orb] in E1. destruct (zlen (ev_list s0) =? 0) eqn:Z0; injection E1 as <-.
    - unfold pass. rewrite R0. unfold due_events. destruct (ev_list s0); [cbn; now rewrite app_nil_r|]. rewrite zlen_cons in Z0. unfold zlen in Z0. lia.
    - unfold pass. cbn [ev_run ev_log ev_list ev_mem]. rewrite R0. cbn [app]. split; [reflexivity|]. exists [], (ev_list s0).
      split; [reflexivity|]. split; [reflexivity|]. split; [lia|]. now rewrite due_events_of. }
  pose proof (pass_run _ _ _ _ _ V1 OWN H P) as Q. unfold pass in Q. rewrite R in Q. exact Q.
Qed.

(** ** The theorems in terms of executions *)
Lemma events_defined es : Forall event_ok es -> exists s, vrun ev0 es = Ok s.
Proof.
  intros E. destruct (vrun_inv False es ev0) as (s1 & H1 & V); [apply ev0_inv|exact E| |eauto].
  apply Forall_forall. intros e _. destruct e; cbn; tauto.
Qed.
Lemma events_apart es s : Forall event_ok es -> vrun ev0 es = Ok s -> apart None (ev_log s).
Proof. intros E H. destruct (reach_inv _ _ E H) as [_ _ (rn & pn & L & _)]. apply (l_apart _ _ _ _ _ _ _ L). Qed.
Lemma events_on_time es s a n now b : Forall event_ok es -> vrun ev0 es = Ok s -> ev_log s = a ++ VStart n now :: b ->
  exists d c id, In (VNew n d c id) a /\ (never_exact c d -> micros c + d * (1 + calls n a) <= micros now).
Proof. intros E H X. destruct (reach_inv _ _ E H) as [_ _ (rn & pn & L & _)]. apply (l_log _ _ _ _ _ _ _ L _ _ _ X). Qed.
Lemma events_last es s a n now b : Forall event_ok es -> vrun ev0 es = Ok s -> ev_log s = a ++ VStart n now :: b -> ~ In (VEnd n true) a.
Proof. intros E H X. destruct (reach_inv _ _ E H) as [_ _ (rn & pn & L & _)]. apply (l_log _ _ _ _ _ _ _ L _ _ _ X). Qed.
Lemma events_removed es s a id n b : Forall event_ok es -> vrun ev0 es = Ok s -> ev_log s = a ++ VRemoved id n :: b ->
  calls n b <= 1 /\ (exists d c, In (VNew n d c id) a) /\ ~ gone n a.
Proof.
  intros E H X. destruct (reach_inv _ _ E H) as [_ _ (rn & pn & L & _)]. split.
  - pose proof (l_after _ _ _ _ _ _ _ L _ _ _ _ X). destruct pn as [m|]; [destruct (m =? n)|]; lia.
  - destruct (l_log _ _ _ _ _ _ _ L _ _ _ X) as (A & B & _). auto.
Qed.
Definition small_addr (e : vev) : Prop := match e with WNew a _ _ _ => 0 <= a < two31 | _ => True end.
Lemma events_right_one es s a id n b m d c : Forall event_ok es -> Forall small_addr es -> vrun ev0 es = Ok s ->
  ev_log s = a ++ VRemoved id n :: b -> In (VNew m d c id) a -> m <> n -> gone m a.
Proof.
  intros E SM H X. destruct (vrun_inv True es ev0) as (s1 & H1 & V); [apply ev0_inv|exact E| |].
  - eapply Forall_impl; [|exact SM]. intros e. destruct e; cbn; tauto.
  - rewrite H in H1. injection H1 as <-. destruct V as [_ _ (rn & pn & L & _)]. destruct (l_log _ _ _ _ _ _ _ L _ _ _ X) as (_ & _ & C). exact (C I m d c).
Qed.
(** Blocks are freed when they are not needed. *)
Lemma events_freed es s : Forall event_ok es -> vrun ev0 es = Ok s -> ev_run s = [] ->
  NoDup (ev_list s) /\ Permutation (map e_addr (ev_mem s)) (ev_list s) /\ Forall (fun e => e_refs e = 1) (ev_mem s).
Proof.
  intros E H R. destruct (reach_inv _ _ E H) as [[G1 G2 G3] ND _]. rewrite R in *. cbn in *. rewrite app_nil_r in *.
  split; [exact ND|]. split.
  - apply NoDup_Permutation; [exact G1|exact ND|]. intros x. split; [|apply G3]. intros X. apply in_map_iff in X. destruct X as (e & <- & X).
    destruct (G2 _ X) as [R1 R2]. apply cnt_pos. lia.
  - apply Forall_forall. intros e X. destruct (G2 _ X) as [R1 R2]. rewrite R1. unfold cnt in *.
    pose proof (proj1 (NoDup_count_occ Z.eq_dec (ev_list s)) ND (e_addr e)). lia.
Qed.

(** ** Executions that go wrong *)
Definition tv (s : Z) : tval := mkTV s 500000.
Definition late : list vev :=
  [WNew 4096 1000000 0 (tv 10); WStart (tv 12); WStep 0; WRemove 4096; WStep 0].
Lemma late_witness : exists es s a b n id now, Forall event_ok es /\ vrun ev0 es = Ok s /\ ev_log s = a ++ VRemoved id n :: b /\
  In (VStart n now) b.
Proof.
  exists late. eexists. exists [VNew 0 1000000 (tv 10) 4096], [VStart 0 (tv 12)], 0, 4096, (tv 12).
  split; [repeat (apply Forall_cons; [cbn; unfold normal; cbn; try lia|]); apply Forall_nil|].
  split; [vm_compute; reflexivity|]. split; [reflexivity|]. now left.
Qed.
Definition clash : list vev :=
  [WNew 4096 1000000 0 (tv 10); WNew 4294971392 2000000 1 (tv 10); WRemove 4096; WRemove 4096].
Lemma clash_witness : exists es s n m id, Forall event_ok es /\ vrun ev0 es = Ok s /\ n <> m /\
  ev_log s = [VNew n 1000000 (tv 10) id; VNew m 2000000 (tv 10) id; VRemoved id n; VRemoved id m].
Proof.
  exists clash. eexists. exists 0, 1, 4096.
  split; [repeat (apply Forall_cons; [cbn; unfold normal; cbn; try lia|]); apply Forall_nil|].
  split; [vm_compute; reflexivity|]. split; [discriminate|reflexivity].
Qed.
Definition early : list vev :=
  [WNew 4096 500000 0 (tv 10); WStart (mkTV 10 500000); WStep 0; WStep 0].
Lemma early_witness : exists es s d c now id, Forall event_ok es /\ vrun ev0 es = Ok s /\ 0 < d /\
  ev_log s = [VNew 0 d c id; VStart 0 now] /\ micros now < micros c + d.
Proof.
  exists early. eexists. exists 500000, (tv 10), (mkTV 10 500000), 4096.
  split; [repeat (apply Forall_cons; [cbn; unfold normal; cbn; try lia|]); apply Forall_nil|].
  split; [vm_compute; reflexivity|]. split; [lia|]. split; [reflexivity|]. unfold micros. cbn. lia.
Qed.
(** Three events that are due; the first is removed while its handler runs, and
    the second is not called. *)
Definition skips : list vev :=
  [WNew 4096 1000000 0 (tv 10); WNew 8192 1000000 1 (tv 10); WNew 12288 1000000 2 (tv 10);
   WStart (tv 12); WStep 0; WStep 0; WRemove 4096; WReturn 0 false; WStep 0; WStep 0; WReturn 0 false; WStep 0; WStep 0].
Lemma skips_witness : exists es s, Forall event_ok es /\ vrun ev0 es = Ok s /\ ev_run s = [] /\ called (ev_log s) = [0; 2] /\
  due_events s (tv 12) = [1; 2] /\ ~ gone 1 (ev_log s).
Proof.
  exists skips. eexists. split; [repeat (apply Forall_cons; [cbn; unfold normal; cbn; try lia|]); apply Forall_nil|].
  split; [vm_compute; reflexivity|]. repeat split; try reflexivity. intros [[id H]|H]; cbn in H; decompose [or] H; discriminate || contradiction.
Qed.
