(** Proofs about the invocations. *)
From Verif Require Import Base HdrModel HdrProofs InvokeModel InvokeSpec.

Definition toldl (l : list (nat * result)) (n : nat) : list result := map snd (filter (fun x => Nat.eqb (fst x) n) l).
Lemma told_l s n : told s n = toldl (v_log s) n. Proof. reflexivity. Qed.
Lemma toldl_app a b n : toldl (a ++ b) n = toldl a n ++ toldl b n.
Proof. unfold toldl. rewrite filter_app, map_app. reflexivity. Qed.
Lemma toldl_same n c : toldl (map (pair n) c) n = c.
Proof. unfold toldl. induction c; cbn; auto. rewrite Nat.eqb_refl. cbn. congruence. Qed.
Lemma toldl_other n m c : n <> m -> toldl (map (pair n) c) m = [].
Proof. intros D. unfold toldl. induction c; cbn; auto. destruct (Nat.eqb_spec n m); congruence. Qed.
Lemma toldl_above l n m : Forall (fun x => fst x < n)%nat l -> (n <= m)%nat -> toldl l m = [].
Proof.
  intros F H. induction F as [|[a r] l A F IH]; cbn; auto. unfold toldl in *. cbn. cbn in A.
  destruct (Nat.eqb_spec a m); [lia|exact IH].
Qed.

Inductive sentpc : pc -> bool -> Prop := sp1 : sentpc PSent false | sp2 : sentpc PDone true.
Inductive phase (n : nat) : slot -> inv -> list nat -> list frame -> list result -> bool -> Prop :=
| ph_q sl u : phase n sl (mkInv PQueued true false) [] [] [] u
| ph_set u : phase n (SData n) (mkInv PSet true false) [] [] [] u
| ph_out p c u : sentpc p c -> phase n (SData n) (mkInv p true c) [n] [] [] u
| ph_task p c u : sentpc p c -> phase n (SData n) (mkInv p true c) [] [FReply n] [] u
| ph_lost p c : sentpc p c -> phase n (SData n) (mkInv p true c) [] [] [] false
| ph_got sl p c u : sentpc p c -> phase n sl (mkInv p false c) [] [] [RGot (FReply n)] u
| ph_failed sl u : phase n sl (mkInv PFailed true false) [] [] [RFailed] u
| ph_freed sl u : phase n sl (mkInv PFreed false false) [] [] [RFailed] u
| ph_nulled sl u : phase n sl (mkInv PNulled false false) [] [] [RFailed] u
| ph_fdone sl u : phase n sl (mkInv PDone false true) [] [] [RFailed] u.

Definition one_result (l : list (nat * result)) (m : nat) : Prop := toldl l m = [RGot (FReply m)] \/ toldl l m = [RFailed].
Definition fresh (s : chan) : Prop := v_invs s = [] /\ v_out s = [] /\ v_tasks s = [] /\ v_log s = [].
Definition busy (s : chan) : Prop :=
  exists past i L cur,
    v_invs s = past ++ [i] /\ v_log s = L ++ map (pair (List.length past)) cur /\
    Forall (fun x => fst x < List.length past)%nat L /\
    (forall m, (m < List.length past)%nat -> one_result L m) /\
    Forall (fun j => sentpc (k_pc j) (k_call j)) past /\
    phase (List.length past) (v_slot s) i (v_out s) (v_tasks s) cur (v_up s).
Definition good (s : chan) : Prop := fresh s \/ busy s.

Lemma upd_last {A} (p : list A) x y : upd_nth (p ++ [x]) (List.length p) y = p ++ [y].
Proof. induction p; cbn; auto. rewrite IHp. reflexivity. Qed.
Lemma nth_last {A} (p : list A) x : nth_error (p ++ [x]) (List.length p) = Some x.
Proof. induction p; cbn; auto. Qed.
Lemma upd_past {A} (p : list A) x n y : (n < List.length p)%nat -> upd_nth (p ++ [x]) n y = upd_nth p n y ++ [x].
Proof. revert n. induction p; cbn; intros n H; [lia|]. destruct n; cbn; auto. rewrite IHp by lia. reflexivity. Qed.
Lemma upd_len {A} (p : list A) n y : List.length (upd_nth p n y) = List.length p.
Proof. revert n. induction p; destruct n; cbn; auto. Qed.
Lemma upd_Forall {A} (P : A -> Prop) (p : list A) n y : Forall P p -> P y -> Forall P (upd_nth p n y).
Proof. intros F Y. revert n. induction F; destruct n; cbn; auto. Qed.
Lemma nth_cases {A} (p : list A) x n j :
  nth_error (p ++ [x]) n = Some j ->
  ((n < List.length p)%nat /\ nth_error p n = Some j) \/ (n = List.length p /\ j = x).
Proof.
  intros H. destruct (Nat.lt_ge_cases n (List.length p)) as [L|L].
  - left. split; auto. rewrite nth_error_app1 in H by auto. exact H.
  - right. rewrite nth_error_app2 in H by auto. destruct (n - List.length p)%nat as [|k] eqn:E.
    + cbn in H. split; [lia|congruence].
    + destruct k; discriminate H.
Qed.
(** The step of an invocation that was sent before the last one. *)
Lemma past_step s past i L cur n d c p :
  v_invs s = past ++ [i] -> v_log s = L ++ map (pair (List.length past)) cur ->
  Forall (fun x => fst x < List.length past)%nat L ->
  (forall m, (m < List.length past)%nat -> one_result L m) ->
  Forall (fun j => sentpc (k_pc j) (k_call j)) past ->
  phase (List.length past) (v_slot s) i (v_out s) (v_tasks s) cur (v_up s) ->
  (n < List.length past)%nat -> sentpc p c ->
  busy (set_inv s n (mkInv p d c)).
Proof.
  intros I G FL O FP P H S1. exists (upd_nth past n (mkInv p d c)), i, L, cur.
  rewrite upd_len. cbn [v_invs v_log v_out v_tasks v_slot v_up set_inv put_invs]. rewrite I, upd_past by auto.
  repeat (split; auto). apply upd_Forall; auto.
Qed.
(** A step of the last one. *)
Lemma last_step s past i L cur s' i' cur' :
  v_invs s = past ++ [i] -> v_log s = L ++ map (pair (List.length past)) cur ->
  Forall (fun x => fst x < List.length past)%nat L ->
  (forall m, (m < List.length past)%nat -> one_result L m) ->
  Forall (fun j => sentpc (k_pc j) (k_call j)) past ->
  v_invs s' = past ++ [i'] -> v_log s' = L ++ map (pair (List.length past)) cur' ->
  phase (List.length past) (v_slot s') i' (v_out s') (v_tasks s') cur' (v_up s') ->
  good s'.
Proof.
  intros I G FL O FP I' G' P'. right. exists past, i', L, cur'. repeat (split; auto).
Qed.
Lemma told_last s past L cur :
  v_log s = L ++ map (pair (List.length past : nat)) cur -> Forall (fun x => fst x < @List.length inv past)%nat L ->
  told s (List.length past) = cur.
Proof. intros G F. rewrite told_l, G, toldl_app, toldl_same, (toldl_above L _ _ F) by lia. reflexivity. Qed.

Lemma call_good s :
  good s -> (forall n, (n < List.length (v_invs s))%nat -> over s n) -> good (fst (call s)).
Proof.
  intros [(I & O & T & G)|(past & i & L & cur & I & G & FL & OR & FP & P)] Hov; right.
  - unfold call. rewrite O. cbn [fst]. exists [], (mkInv PQueued true false), [], [].
    cbn [v_invs v_log v_out v_tasks v_slot v_up put_invs]. rewrite I, O, T, G.
    split; auto. split; auto. split; auto. split; [cbn; intros; lia|]. split; auto. constructor.
  - assert (Hl : over s (List.length past)) by (apply Hov; rewrite I, app_length; cbn; lia).
    destruct Hl as (TN & TF). rewrite (told_last s past L cur G FL) in TN, TF.
    assert (Q : v_out s = [] /\ v_tasks s = [] /\ sentpc (k_pc i) (k_call i) /\
                (cur = [RGot (FReply (List.length past))] \/ cur = [RFailed])).
    { destruct P; try (exfalso; apply TN; reflexivity); cbn [k_pc k_call]; try (repeat split; auto; fail);
        destruct TF as (j & J1 & J2); try (left; reflexivity); rewrite I, nth_last in J1; injection J1 as <-;
        try discriminate J2; repeat split; auto; constructor. }
    destruct Q as (Q1 & Q2 & Q3 & Q4). unfold call. rewrite Q1. cbn [fst].
    exists (past ++ [i]), (mkInv PQueued true false), (L ++ map (pair (List.length past)) cur), [].
    cbn [v_invs v_log v_out v_tasks v_slot v_up put_invs]. rewrite I, Q1, Q2, G, app_length. cbn [List.length].
    split; auto. split; [cbn; rewrite app_nil_r; reflexivity|]. split; [|split; [|split]].
    + apply Forall_app. split. { eapply Forall_impl; [|exact FL]. cbn. intros; lia. }
      apply Forall_forall. intros x X. apply in_map_iff in X. destruct X as (r & <- & _). cbn. lia.
    + intros m M. unfold one_result. rewrite toldl_app. destruct (Nat.eq_dec m (List.length past)) as [->|D].
      * rewrite toldl_same, (toldl_above L _ _ FL) by lia. cbn. destruct Q4 as [-> | ->]; auto.
      * rewrite toldl_other by auto. rewrite app_nil_r. apply OR. lia.
    + apply Forall_app. auto.
    + constructor.
Qed.

Lemma past_pc (past : list inv) n j :
  Forall (fun j => sentpc (k_pc j) (k_call j)) past -> nth_error past n = Some j -> sentpc (k_pc j) (k_call j).
Proof. intros F H. rewrite Forall_forall in F. apply F. eapply nth_error_In; eauto. Qed.

Lemma nth_fresh s n : fresh s -> nth_error (v_invs s) n = None.
Proof. intros (I & _). rewrite I. destruct n; reflexivity. Qed.


Ltac sproj := cbn [v_invs v_log v_out v_tasks v_slot v_up set_inv put_invs put_slot put_out put_tasks tell put_up].
Ltac keep := eexists; split; [reflexivity|]; auto; fail.
Ltac lastw i' cur' FL OR FP :=
  eexists; split; [reflexivity|];
  right; eexists _, i', _, cur'; sproj; rewrite ?upd_last;
  split; [reflexivity|]; split; [|split; [exact FL|split; [exact OR|split; [exact FP|]]]];
  [cbn [map]; rewrite ?app_nil_r; reflexivity|try (constructor; auto; fail)].

Lemma step_good s e :
  good s -> (e = VCall -> forall n, (n < List.length (v_invs s))%nat -> over s n) -> e <> VAnswer -> e <> VPeer ->
  exists s', vstep s e = Ok s' /\ good s'.
Proof.
  intros Hg Hc HA HP.
  assert (Hn : forall n j, nth_error (v_invs s) n = Some j -> busy s).
  { intros n j E. destruct Hg as [Hf|Hb]; auto. rewrite (nth_fresh s n Hf) in E; discriminate. }
  destruct e as [|n|n ok|n| | | |k|]; try congruence; cbn [vstep].
  - eexists. split; [reflexivity|]. apply call_good; auto.
  - destruct (nth_error (v_invs s) n) as [j|] eqn:E; [|keep].
    destruct (Hn n j E) as (past & i & L & cur & I & G & FL & OR & FP & P). clear Hn Hc.
    rewrite I in E. apply nth_cases in E. destruct E as [(E1 & E2)|(-> & ->)].
    + pose proof (past_pc past n j FP E2) as Hj. destruct j as [p d c]; cbn in Hj; destruct Hj; keep.
    + destruct s as [sl iv out tk lg up]. cbn in I, G, P. subst iv lg. destruct P as [| |? ? ? Q|? ? ? Q|? ? Q|? ? ? ? Q| | | |]; try destruct Q; try keep.
      lastw (mkInv PSet true false) (@nil result) FL OR FP.
  - destruct (nth_error (v_invs s) n) as [j|] eqn:E; [|keep].
    destruct (Hn n j E) as (past & i & L & cur & I & G & FL & OR & FP & P). clear Hn Hc.
    rewrite I in E. apply nth_cases in E. destruct E as [(E1 & E2)|(-> & ->)].
    + pose proof (past_pc past n j FP E2) as Hj. destruct j as [p d c]; cbn in Hj; destruct Hj; keep.
    + destruct s as [sl iv out tk lg up]. cbn in I, G, P. subst iv lg. destruct P as [| |? ? ? Q|? ? ? Q|? ? Q|? ? ? ? Q| | | |]; try destruct Q; try keep.
      sproj. destruct (ok && u).
      * lastw (mkInv PSent true false) (@nil result) FL OR FP. apply (ph_out _ PSent false). constructor.
      * lastw (mkInv PFailed true false) [RFailed] FL OR FP.
  - destruct (nth_error (v_invs s) n) as [j|] eqn:E; [|keep].
    destruct (Hn n j E) as (past & i & L & cur & I & G & FL & OR & FP & P). clear Hn Hc.
    rewrite I in E. apply nth_cases in E. destruct E as [(E1 & E2)|(-> & ->)].
    + pose proof (past_pc past n j FP E2) as Hj. destruct j as [p d c]; cbn in Hj; destruct Hj; [|keep].
      eexists. split; [reflexivity|]. right. eapply past_step; eauto. constructor.
    + destruct s as [sl iv out tk lg up]. cbn in I, G, P. subst iv lg. destruct P as [| |? ? ? Q|? ? ? Q|? ? Q|? ? ? ? Q| | | |]; try destruct Q; try keep.
      * lastw (mkInv PDone true true) (@nil result) FL OR FP. apply (ph_out _ PDone true). constructor.
      * lastw (mkInv PDone true true) (@nil result) FL OR FP. apply (ph_task _ PDone true). constructor.
      * lastw (mkInv PDone true true) (@nil result) FL OR FP. apply (ph_lost _ PDone true). constructor.
      * lastw (mkInv PDone false true) [RGot (FReply (List.length past))] FL OR FP. apply (ph_got _ _ PDone true). constructor.
      * lastw (mkInv PFreed false false) [RFailed] FL OR FP.
      * lastw (mkInv PNulled false false) [RFailed] FL OR FP.
      * lastw (mkInv PDone false true) [RFailed] FL OR FP.
  - clear Hn Hc. destruct Hg as [(I & O & T & G)|Hb]; [rewrite O; eexists; split; [reflexivity|]; left; repeat split; auto|].
    pose proof Hb as (past & i & L & cur & I & G & FL & OR & FP & P). assert (Hg : good s) by (right; exact Hb).
    destruct s as [sl iv out tk lg up]. cbn in I, G, P. subst iv lg. clear Hb.
    destruct P as [| |? ? ? Q|? ? ? Q|? ? Q|? ? ? ? Q| | | |]; try keep; sproj.
    destruct u; [|keep]. lastw (mkInv p true c) (@nil result) FL OR FP.
  - clear Hn Hc. destruct Hg as [(I & O & T & G)|Hb]; [rewrite T; destruct k; eexists; split; try reflexivity; left; repeat split; auto|].
    pose proof Hb as (past & i & L & cur & I & G & FL & OR & FP & P). assert (Hg : good s) by (right; exact Hb).
    destruct s as [sl iv out tk lg up]. cbn in I, G, P. subst iv lg. clear Hb.
    destruct P as [| |? ? ? Q|? ? ? Q|? ? Q|? ? ? ? Q| | | |]; destruct k as [|k]; try keep; sproj; cbn [nth_error del_nth];
      try (destruct k; keep).
    destruct u.
    + unfold deliver. sproj. rewrite nth_last. cbn [k_data k_pc k_call]. sproj.
      lastw (mkInv p false c) [RGot (FReply (List.length past))] FL OR FP.
    + lastw (mkInv p true c) (@nil result) FL OR FP.
  - clear Hn Hc. eexists. split; [reflexivity|]. destruct Hg as [(I & O & T & G)|(past & i & L & cur & I & G & FL & OR & FP & P)].
    + left. repeat split; auto.
    + right. exists past, i, L, cur. sproj. repeat (split; auto). destruct P; constructor; auto.
Qed.

Lemma run_good es : forall s, good s -> one_at_a_time s es -> exists s', vrun s es = Ok s' /\ good s'.
Proof.
  induction es as [|e r IH]; intros s Hg HO. { exists s. split; auto. }
  cbn in HO. destruct HO as (Hc & HA & HP & HR). destruct (step_good s e Hg Hc HA HP) as (s1 & E & G1).
  rewrite E in HR. cbn. rewrite E. cbn. apply IH; auto.
Qed.
Lemma good_booted : good booted. Proof. left. repeat split. Qed.

Lemma good_told s n : good s -> told s n = [] \/ told s n = [RGot (FReply n)] \/ told s n = [RFailed].
Proof.
  intros [(I & O & T & G)|(past & i & L & cur & I & G & FL & OR & FP & P)].
  - left. rewrite told_l, G. reflexivity.
  - destruct (lt_eq_lt_dec n (List.length past)) as [[H|H]|H].
    + right. rewrite told_l, G, toldl_app, toldl_other, app_nil_r by lia. apply OR; auto.
    + subst n. rewrite (told_last s past L cur G FL). destruct P; auto.
    + left. rewrite told_l, G, toldl_app, toldl_other, app_nil_r by lia. apply (toldl_above L (List.length past)); auto. lia.
Qed.
Lemma alone_ok es : one_at_a_time booted es ->
  exists s, vrun booted es = Ok s /\
  forall n, told s n = [] \/ told s n = [RGot (FReply n)] \/ told s n = [RFailed].
Proof.
  intros HO. destruct (run_good es booted good_booted HO) as (s & E & G). exists s. split; auto.
  intros n. apply good_told; auto.
Qed.

(** The connection stays up when it is not closed. *)
Lemma step_up s e s' : vstep s e = Ok s' -> e <> VClose -> v_up s' = v_up s.
Proof.
  intros H D. destruct e; cbn in H; try congruence.
  - injection H as <-. unfold call. destruct (v_out s); reflexivity.
  - destruct (nth_error (v_invs s) n) as [[[] ? ?]|]; injection H as <-; reflexivity.
  - destruct (nth_error (v_invs s) n) as [[[] ? ?]|]; try (injection H as <-; reflexivity).
    destruct (ok && v_up s); injection H as <-; reflexivity.
  - destruct (nth_error (v_invs s) n) as [[[] d c]|]; try destruct d; try destruct c; try discriminate H; injection H as <-; reflexivity.
  - destruct (v_out s); try (injection H as <-; reflexivity). destruct (v_up s) eqn:U; injection H as <-; auto.
  - destruct (v_out s); try (injection H as <-; reflexivity). destruct (v_up s) eqn:U; injection H as <-; auto.
  - destruct (v_up s) eqn:U; injection H as <-; auto.
  - destruct (nth_error (v_tasks s) k); [|injection H as <-; reflexivity].
    destruct (v_up s) eqn:U; [|injection H as <-; auto]. unfold deliver in H. sproj. cbn in H.
    destruct (v_slot s); try discriminate. destruct (nth_error (v_invs s) n) as [[? [] ?]|]; try discriminate.
    injection H as <-. auto.
Qed.
Lemma run_up es : forall s s', vrun s es = Ok s' -> stays_up es -> v_up s' = v_up s.
Proof.
  induction es as [|e r IH]; intros s s' H U; cbn in H. { injection H as <-. reflexivity. }
  destruct (vstep s e) as [s1|] eqn:E; [|discriminate]. cbn in H. rewrite (IH s1 s' H).
  - apply (step_up s e s1 E). intros ->. apply U. left. reflexivity.
  - intros X. apply U. right. exact X.
Qed.
Lemma good_still s n : good s -> v_up s = true -> still s -> (n < List.length (v_invs s))%nat ->
  told s n = [RGot (FReply n)] \/ told s n = [RFailed].
Proof.
  intros [(I & O & T & G)|(past & i & L & cur & I & G & FL & OR & FP & P)] U (S1 & S2 & S3) H.
  - rewrite I in H. cbn in H. lia.
  - rewrite I, app_length in H. cbn in H. destruct (Nat.eq_dec n (List.length past)) as [->|D].
    + rewrite (told_last s past L cur G FL). rewrite I in S3. apply Forall_app in S3. destruct S3 as (_ & S3).
      inversion S3; subst. rewrite S1, S2, U in P. inversion P; subst; auto; cbn in *; destruct H2; discriminate.
    + rewrite told_l, G, toldl_app, toldl_other, app_nil_r by lia. apply OR. lia.
Qed.
Lemma alone_told es s n : one_at_a_time booted es -> stays_up es -> vrun booted es = Ok s -> still s ->
  (n < List.length (v_invs s))%nat -> told s n = [RGot (FReply n)] \/ told s n = [RFailed].
Proof.
  intros HO U E ST H. destruct (run_good es booted good_booted HO) as (s' & E' & G).
  rewrite E in E'. injection E' as <-. apply good_still; auto. rewrite (run_up es booted s E U). reflexivity.
Qed.
