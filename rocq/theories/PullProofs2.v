(** Proofs about the PULL API: what is called once, what is answered. *)
From Verif Require Import Base PullModel PullSpec PullProofs.

Lemma this_self : forall h, this h h = true.
Proof. intros h. unfold this. destruct (hap_dec h h); [reflexivity|contradiction]. Qed.
Lemma this_eq : forall h x, this h x = true -> x = h.
Proof. intros h x. unfold this. destruct (hap_dec x h); [auto|discriminate]. Qed.
Lemma this_nodup : forall h l, NoDup l -> num (this h) l <= 1.
Proof.
  intros h l N. induction N as [|x l X N IH]; cbn [num]; [lia|]. destruct (this h x) eqn:T; [|lia].
  apply this_eq in T. subst x. rewrite num_zero; [lia|]. intros y Y. destruct (this h y) eqn:T; [|reflexivity]. apply this_eq in T. subst y. contradiction.
Qed.
Lemma happens_app : forall l m, happens (l ++ m) = happens l ++ happens m.
Proof. intros. apply flat_map_app. Qed.
Lemma nodup_front : forall A (l m : list A), NoDup (l ++ m) -> NoDup l.
Proof. intros A l m. induction l as [|x l IH]; intros N; [constructor|]. cbn [app] in N. inversion N; subst. constructor; [|auto]. intro I. apply H1, in_or_app. auto. Qed.
Lemma natural_front : forall l m, natural (l ++ m) -> natural l.
Proof.
  intros l m [A B]. rewrite happens_app in A, B. split; [exact (nodup_front _ _ _ A)|].
  intros c. specialize (B c). rewrite num_app in B. pose proof (num_pos _ (is_ready c) (happens m)). lia.
Qed.
Lemma inits_front : forall l m, inits (l ++ m) <= 1 -> inits l <= 1.
Proof. intros l m. unfold inits. rewrite num_app. pose proof (num_pos _ (fun e => match e with Init => true | _ => false end) m). lia. Qed.

(** Only the handler of a connection ready sets a close handler. *)
Lemma reg_ready : forall l s, prun p0 l = Ok s -> forall h, In (mkCall h SReg) (p_calls s) -> h_kind h = KReady.
Proof.
  apply (run_inv (fun _ s => forall h, In (mkCall h SReg) (p_calls s) -> h_kind h = KReady)); [intros h []|].
  assert (AF : forall h x, In (mkCall h SReg) (after x) -> h_kind h = KReady).
  { intros h x. unfold after. destruct (h_kind x) eqn:K; intros J; try (destruct J; fail). destruct J as [J|[]]. injection J as <-. exact K. }
  intros l s e s' _ I E. apply cases in E.
  destruct E; state; try exact I; intros x X.
  - apply in_app_or in X. destruct X as [X|X]; [auto|]. apply repeat_spec in X. discriminate.
  - apply (put_in _ _ _ _ _ H) in X. destruct X as [X|X]; eauto.
  - apply (put_in _ _ _ _ _ H) in X. destruct X as [X|[X|[]]]; auto. injection X as -> X. subst st. destruct (h_kind x); discriminate.
  - apply (put_in _ _ _ _ _ H) in X. destruct X as [X|[]]; auto.
  - apply (put_in _ _ _ _ _ H) in X. destruct X as [X|[X|[]]]; auto. discriminate.
  - apply (put_in _ _ _ _ _ H) in X. destruct X as [X|X]; eauto.
  - apply (put_in _ _ _ _ _ H) in X. destruct X as [X|[]]; auto.
Qed.

(** The number of handlers. *)
Definition ready_call (c : nat) (x : call) : bool := is_ready c (c_hap x).
Definition closers (s : pst) (c : nat) : Z := Z.of_nat (count_occ Nat.eq_dec (p_closers s) c).
Definition few (l : list pev) (s : pst) : Prop :=
  Z.of_nat (p_ready s) <= inits l /\ Z.of_nat (p_acc s) <= inits l /\
  (natural l -> inits l <= 1 ->
   (forall c, closers s c + num (ready_call c) (p_calls s) <= num (is_ready c) (happens l)) /\
   (forall h, calls (this h) (p_log s) <= num (this h) (happens l))).

Lemma num_after_ready : forall c h, num (ready_call c) (after h) = if is_ready c h then 1 else 0.
Proof. intros c h. unfold after, ready_call, is_ready. destruct (h_kind h) eqn:K; cbn [num c_hap]; try rewrite K; try reflexivity. destruct (Nat.eqb _ _); reflexivity. Qed.
Lemma calls_nil : forall h o, num (fun o => match o with PCall x => this h x | _ => false end) o = 0 -> forall l, calls (this h) (l ++ o) = calls (this h) l.
Proof. intros h o E l. unfold calls. rewrite num_app, E. lia. Qed.

Lemma remove_count : forall l a b, (count_occ Nat.eq_dec (remove Nat.eq_dec a l) b <= count_occ Nat.eq_dec l b)%nat.
Proof.
  intros l a b. induction l as [|x l IH]; [cbn; lia|]. cbn [remove count_occ]. destruct (Nat.eq_dec a x); [destruct (Nat.eq_dec x b); lia|].
  cbn [count_occ]. destruct (Nat.eq_dec x b); lia.
Qed.
Lemma handlers_one : forall l s h, few l s -> natural (l ++ [Occur h]) -> inits l <= 1 -> (handlers s h <= 1)%nat.
Proof.
  intros l s h [A [B C]] N I. destruct (C (natural_front _ _ N) I) as [D _].
  unfold handlers. specialize (D (h_conn h)). unfold closers in D.
  pose proof (proj2 (natural_front _ _ N) (h_conn h)) as E. pose proof (num_pos _ (ready_call (h_conn h)) (p_calls s)).
  destruct (h_kind h); try lia; destruct (p_main s); lia.
Qed.

Lemma inits_snoc : forall l e, inits (l ++ [e]) = inits l + match e with Init => 1 | _ => 0 end.
Proof. intros. unfold inits. rewrite num_app. cbn [num]. destruct e; lia. Qed.
Lemma happens_snoc : forall l e, happens (l ++ [e]) = happens l ++ match e with Occur h => [h] | _ => [] end.
Proof. intros. rewrite happens_app. unfold happens at 2. cbn [flat_map]. rewrite app_nil_r. reflexivity. Qed.

Lemma few_inv : forall l s, prun p0 l = Ok s -> few l s.
Proof.
  apply run_inv.
  - unfold few, inits, closers. cbn. conj; try lia. intros _ _. split; intros; lia.
  - intros l s e s' RUN F E. pose proof F as F0. destruct F as [A [B C]]. apply cases in E.
    assert (IP : 0 <= inits l) by apply num_pos.
    unfold few. rewrite inits_snoc, happens_snoc.
    assert (K : (p_ready s' = p_ready s \/ e = Init /\ p_ready s' = S (p_ready s)) /\ (p_acc s' = p_acc s \/ e = Init /\ p_acc s' = S (p_acc s))).
    { destruct E; state; auto. }
    destruct K as [K1 K2]. split; [destruct K1 as [K1|[-> K1]]; rewrite K1; [destruct e; lia|lia]|].
    split; [destruct K2 as [K2|[-> K2]]; rewrite K2; [destruct e; lia|lia]|]. clear K1 K2.
    intros N I. specialize (C (natural_front _ _ N)). 
    assert (I1 : inits l <= 1) by (destruct e; lia). destruct (C I1) as [C1 C2]. clear C.
    destruct E; state; cbn [app] in *; rewrite ?app_nil_r; unfold closers in *; state.
    + split; [intros c; specialize (C1 c)|intros x; specialize (C2 x)]; rewrite num_app;
        match goal with |- context [num ?f (match e with Occur _ => _ | _ => _ end)] => pose proof (num_pos _ f (match e with Occur h => [h] | _ => [] end)) end; lia.
    + split; [exact C1|exact C2].
    + split; [exact C1|]. intros h. rewrite calls_nil; [apply C2|]. apply (release_log _ _ _ _ _ H1); reflexivity.
    + pose proof (handlers_one l s h F0 N I1) as HO. split.
      * intros c. rewrite !num_app, num_repeat. cbn [num]. specialize (C1 c). unfold ready_call at 2. cbn [c_hap].
        assert (X : Z.of_nat (count_occ Nat.eq_dec (match h_kind h with KClosed => remove Nat.eq_dec (h_conn h) (p_closers s) | _ => p_closers s end) c) <= Z.of_nat (count_occ Nat.eq_dec (p_closers s) c)).
        { destruct (h_kind h); try lia. pose proof (remove_count (p_closers s) (h_conn h) c). lia. }
        destruct (is_ready c h); lia.
      * intros x. unfold calls in *. rewrite !num_app. cbn [num]. rewrite num_repeat. specialize (C2 x). destruct (this x h); lia.
    + split.
      * intros c. specialize (C1 c). rewrite (num_put _ _ _ _ _ H), num_after_ready. unfold ready_call at 2. cbn [c_hap]. lia.
      * intros x. rewrite calls_nil; [apply C2|]. apply (skip_log h (this x)).
    + split; [|exact C2]. intros c. specialize (C1 c). rewrite (num_put _ _ _ _ _ H). cbn [num]. unfold ready_call at 2 3. cbn [c_hap]. lia.
    + split.
      * intros c. specialize (C1 c). rewrite (num_put _ _ _ _ _ H). cbn [num]. destruct (ready_call c _); lia.
      * intros x. rewrite calls_nil; [apply C2|]. reflexivity.
    + split.
      * intros c. specialize (C1 c). rewrite (num_put _ _ _ _ _ H). cbn [num]. unfold ready_call at 2 3. cbn [c_hap]. lia.
      * intros x. rewrite calls_nil; [apply C2|]. reflexivity.
    + split.
      * intros c. specialize (C1 c). rewrite (num_put _ _ _ _ _ H), num_after_ready. unfold ready_call at 2. cbn [c_hap]. lia.
      * intros x. rewrite calls_nil; [apply C2|]. reflexivity.
    + split; [|exact C2]. intros c. specialize (C1 c). rewrite (num_put _ _ _ _ _ H). cbn [num]. unfold ready_call at 2. cbn [c_hap count_occ].
      destruct (Nat.eq_dec (h_conn h) c) as [X|X]; [|destruct (is_ready c h); lia].
      (* only a handler of ready registers *)
      pose proof F0. assert (Y : is_ready c h = true) by (unfold is_ready; rewrite (reg_ready l s RUN h (nth_error_In _ _ H)); apply Nat.eqb_eq; exact X). rewrite Y. lia.
    + split; [exact C1|exact C2].
    + replace (match e with Occur h0 => [h0] | _ => [] end) with (@nil hap) by (destruct H as [->|[b ->]]; reflexivity). rewrite app_nil_r.
      split; [exact C1|]. intros x. rewrite calls_nil; [apply C2|reflexivity].
    + split; [exact C1|]. intros y. rewrite calls_nil; [apply C2|reflexivity].
    + split; [exact C1|]. intros y. rewrite calls_nil; [apply C2|]. cbn [num]. rewrite (unref_log _ _ _ _ _ H); reflexivity.
    + split; [exact C1|exact C2].
    + split; [exact C1|exact C2].
Qed.

Theorem once_thm : forall l s h, natural l -> inits l <= 1 -> prun p0 l = Ok s -> calls (this h) (p_log s) <= 1.
Proof.
  intros l s h N I R. destruct (few_inv l s R) as [_ [_ C]]. destruct (C N I) as [_ C2]. specialize (C2 h).
  pose proof (this_nodup h _ (proj1 N)). lia.
Qed.

(** A run with the PULL API active all the time. *)
Lemma log_grows : forall s e s', pstep s e = Ok s' -> exists o, p_log s' = p_log s ++ o.
Proof. intros s e s' E. apply cases in E. destruct E; state; eauto; exists []; rewrite app_nil_r; reflexivity. Qed.
Lemma run_grows : forall l s s', prun s l = Ok s' -> exists o, p_log s' = p_log s ++ o.
Proof.
  induction l as [|e l IH]; intros s s' E; cbn [prun] in E.
  - injection E as <-. exists []. rewrite app_nil_r. reflexivity.
  - apply obind_ok in E. destruct E as [s1 [E1 E2]]. destruct (log_grows _ _ _ E1) as [o X]. destruct (IH _ _ E2) as [o' Y].
    exists (o ++ o'). rewrite Y, X, app_assoc. reflexivity.
Qed.
Definition active (l : list pev) (s : pst) : Prop :=
  p_queue s <> None /\ p_main s = true /\ p_ready s = 1%nat /\ p_acc s = 1%nat /\
  (forall c, num (is_closed c) (happens l) = 0 -> closers s c + num (ready_call c) (p_calls s) = num (is_ready c) (happens l)) /\
  (forall P, leaked P (p_log s) = 0) /\
  ((forall e, In e l -> is_install e = false) -> p_masks s = [] /\ forall P, skipped P (p_log s) = 0).

Definition p1 : pst := mkP (Some []) 1 [] true 1 1 [] [] [] 0 0 [].
Lemma init_p1 : pstep p0 Init = Ok p1.
Proof. reflexivity. Qed.
Lemma remove_other : forall l a b, a <> b -> count_occ Nat.eq_dec (remove Nat.eq_dec a l) b = count_occ Nat.eq_dec l b.
Proof.
  intros l a b N. induction l as [|x l IH]; [reflexivity|]. cbn [remove count_occ]. destruct (Nat.eq_dec a x); [destruct (Nat.eq_dec x b); [congruence|exact IH]|].
  cbn [count_occ]. rewrite IH. reflexivity.
Qed.
Lemma change_nil : forall i f, change_at [] i f = [].
Proof. reflexivity. Qed.

Lemma active_step : forall l s e s', prun p0 (Init :: l) = Ok s -> active l s -> e <> Init -> e <> Cleanup -> pstep s e = Ok s' -> active (l ++ [e]) s'.
Proof.
  intros l s e s' RUN [Q [MA [RE [AC [CL [LE SK]]]]]] NI NC E. apply cases in E.
  assert (FRONT : (forall x, In x (l ++ [e]) -> is_install x = false) -> p_masks s = [] /\ forall P, skipped P (p_log s) = 0).
  { intros X. apply SK. intros x I. apply X, in_or_app. auto. }
  assert (LAST : (forall x, In x (l ++ [e]) -> is_install x = false) -> is_install e = false).
  { intros X. apply X, in_or_app. right. left. reflexivity. }
  assert (LK : forall o, (forall P, leaked P o = 0) -> forall P, leaked P (p_log s ++ o) = 0).
  { intros o X P. specialize (X P). specialize (LE P). unfold leaked in *. rewrite num_app. lia. }
  assert (SP : forall o, (forall P, skipped P o = 0) -> (forall P, skipped P (p_log s) = 0) -> forall P, skipped P (p_log s ++ o) = 0).
  { intros o X Y P. specialize (X P). specialize (Y P). unfold skipped in *. rewrite num_app. lia. }
  unfold active. rewrite happens_snoc. clear SK.
  destruct E; try contradiction; state; unfold closers in *; state.
  - assert (X : match e with Occur h => [h] | _ => [] end = []) by (destruct e; try reflexivity; exfalso; exact (H h eq_refl)).
    rewrite X, app_nil_r. conj; auto.
  - conj; auto.
    + intros c Z0. rewrite !num_app, num_repeat. cbn [num]. unfold ready_call at 2. cbn [c_hap]. rewrite num_app in Z0. cbn [num] in Z0.
      pose proof (num_pos _ (is_closed c) (happens l)) as ZP. destruct (is_closed c h) eqn:IC; [lia|].
      rewrite <- CL by lia. unfold is_closed in IC. unfold is_ready, handlers. rewrite RE. destruct (h_kind h) eqn:K; try lia.
      * apply Nat.eqb_neq in IC. rewrite remove_other by exact IC. lia.
      * destruct (Nat.eqb _ _); lia.
    + apply LK. intros P. unfold leaked. cbn [num]. rewrite num_repeat. reflexivity.
    + intros X. destruct (FRONT X) as [X1 X2]. split; [exact X1|]. apply SP; [|exact X2]. intros P. unfold skipped. cbn [num]. rewrite num_repeat. reflexivity.
  - rewrite app_nil_r. conj; auto.
    + intros c Z0. rewrite <- CL by exact Z0. rewrite (num_put _ _ _ _ _ H), num_after_ready. unfold ready_call at 2. cbn [c_hap]. lia.
    + apply LK. intros P. apply (skip_log h P).
    + intros X. destruct (FRONT X) as [X1 X2]. exfalso. destruct H0 as [H0|H0]; [|contradiction]. rewrite X1 in H0. discriminate.
  - rewrite app_nil_r. conj; auto.
    intros c Z0. rewrite <- CL by exact Z0. rewrite (num_put _ _ _ _ _ H). cbn [num]. unfold ready_call at 2 3. cbn [c_hap]. lia.
  - rewrite app_nil_r. conj; auto.
    intros c Z0. rewrite <- CL by exact Z0. rewrite (num_put _ _ _ _ _ H). cbn [num]. unfold ready_call at 2 3. cbn [c_hap]. lia.
    intros X. destruct (FRONT X) as [X1 X2]. split; [exact X1|]. apply SP; [reflexivity|exact X2].
  - rewrite app_nil_r. conj; auto; try discriminate.
    intros c Z0. rewrite <- CL by exact Z0. rewrite (num_put _ _ _ _ _ H), num_after_ready. unfold ready_call at 2. cbn [c_hap]. lia.
    intros X. destruct (FRONT X) as [X1 X2]. split; [exact X1|]. apply SP; [reflexivity|exact X2].
  - rewrite app_nil_r. conj; auto.
    intros c Z0. rewrite <- CL by exact Z0. rewrite (num_put _ _ _ _ _ H). cbn [num count_occ]. unfold ready_call at 2. cbn [c_hap].
    unfold is_ready. rewrite (reg_ready _ s RUN h (nth_error_In _ _ H)). destruct (Nat.eq_dec (h_conn h) c) as [->|X].
    + rewrite Nat.eqb_refl. lia.
    + apply Nat.eqb_neq in X. rewrite X. lia.
  - rewrite app_nil_r. conj; auto; discriminate.
  - assert (X : match e with Occur h => [h] | _ => [] end = []) by (destruct H as [->|[b ->]]; reflexivity).
    rewrite X, app_nil_r. conj; auto; try discriminate.
    intros Y. destruct (FRONT Y) as [X1 X2]. split; [exact X1|]. apply SP; [reflexivity|exact X2].
  - rewrite app_nil_r. conj; auto.
    intros X. destruct (FRONT X) as [X1 X2]. split; [exact X1|]. apply SP; [reflexivity|exact X2].
  - rewrite app_nil_r. conj; auto.
    + apply LK. intros P. unfold leaked. cbn [num]. rewrite (unref_log _ _ _ _ _ H); reflexivity.
    + intros X. destruct (FRONT X) as [X1 X2]. split; [exact X1|]. apply SP; [|exact X2]. intros P. unfold skipped. cbn [num]. rewrite (unref_log _ _ _ _ _ H); reflexivity.
  - rewrite app_nil_r. conj; auto. intros X. specialize (LAST X). discriminate.
  - rewrite app_nil_r. conj; auto. intros X. destruct (FRONT X) as [X1 X2]. rewrite X1. auto.
Qed.

Lemma active_run : forall l s, ~ In Init l -> ~ In Cleanup l -> prun p0 (Init :: l) = Ok s -> active l s.
Proof.
  intros l. induction l as [|e l IH] using rev_ind; intros s A B E.
  - cbn [prun] in E. rewrite init_p1 in E. injection E as <-. unfold active, closers. cbn. conj; auto; discriminate.
  - change (Init :: l ++ [e]) with ((Init :: l) ++ [e]) in E. rewrite run_app in E. apply obind_ok in E. destruct E as [s1 [E1 E2]].
    cbn [prun] in E2. apply obind_ok in E2. destruct E2 as [s2 [E2 E3]]. injection E3 as <-.
    apply (active_step l s1 e s2 E1); auto.
    + apply IH; auto; intro X; [apply A|apply B]; apply in_or_app; auto.
    + intros ->. apply A, in_or_app. right. left. reflexivity.
    + intros ->. apply B, in_or_app. right. left. reflexivity.
Qed.

Lemma calls_grow : forall P l s s', prun s l = Ok s' -> calls P (p_log s) <= calls P (p_log s').
Proof.
  intros P l s s' E. destruct (run_grows l s s' E) as [o ->]. unfold calls. rewrite num_app.
  pose proof (num_pos _ (fun o => match o with PCall h => P h | _ => false end) o). lia.
Qed.

Theorem exactly_thm : forall a h b s,
  natural (a ++ Occur h :: b) -> ~ In Init (a ++ Occur h :: b) -> ~ In Cleanup (a ++ Occur h :: b) ->
  prun p0 (Init :: a ++ Occur h :: b) = Ok s -> p_calls s = [] ->
  (h_kind h = KClosed -> 0 < num (is_ready (h_conn h)) (happens a) /\ num (is_closed (h_conn h)) (happens a) = 0 /\
     forall sa, prun p0 (Init :: a) = Ok sa -> p_calls sa = []) ->
  pushed (this h) (p_log s) + skipped (this h) (p_log s) = 1 /\
  ((forall e, In e (a ++ Occur h :: b) -> is_install e = false) -> pushed (this h) (p_log s) = 1).
Proof.
  intros a h b s N NI NC R DONE CL.
  assert (CALL : calls (this h) (p_log s) = 1).
  { pose proof (account_thm) as _. 
    assert (LE : calls (this h) (p_log s) <= 1).
    { apply (once_thm (Init :: a ++ Occur h :: b)); auto.
      unfold inits. cbn [num]. rewrite num_zero; [lia|]. intros e I. destruct e; try reflexivity. contradiction. }
    change (Init :: a ++ Occur h :: b) with ((Init :: a) ++ Occur h :: b) in R. rewrite run_app in R.
    apply obind_ok in R. destruct R as [sa [R1 R2]]. cbn [prun] in R2. apply obind_ok in R2. destruct R2 as [sb [R2 R3]].
    pose proof (calls_grow (this h) _ _ _ R3) as G.
    assert (AA : active a sa) by (apply active_run; auto; intro X; [apply NI|apply NC]; apply in_or_app; auto).
    destruct AA as [Q [MA [RE [AC [C1 _]]]]].
    cbn [pstep] in R2. injection R2 as <-. cbn [p_log] in G. unfold calls in G at 1. rewrite num_app in G. cbn [num] in G. rewrite num_repeat, this_self in G.
    pose proof (num_pos _ (fun o => match o with PCall x => this h x | _ => false end) (p_log sa)) as PP.
    assert (HH : (1 <= handlers sa h)%nat).
    { unfold handlers. rewrite MA, RE, AC. destruct (h_kind h) eqn:K; try lia.
      destruct (CL eq_refl) as [X1 [X2 X3]]. specialize (C1 (h_conn h) X2). rewrite (X3 sa R1) in C1. cbn [num] in C1. unfold closers in C1. lia. }
    lia. }
  pose proof (active_run _ s NI NC R) as [_ [_ [_ [_ [_ [LK SK]]]]]].
  pose proof (account_thm (this h) _ s R) as AC. rewrite (LK (this h)) in AC. unfold inflight in AC. rewrite DONE in AC. cbn [num] in AC.
  split; [lia|]. intros X. destruct (SK X) as [_ Y]. rewrite (Y (this h)) in AC. lia.
Qed.

(** C149. *)
Lemma yes_inv : forall P, asks P -> forall l s, prun p0 l = Ok s -> skipped P (p_log s) = accepted P (p_log s).
Proof.
  intros P A. apply (run_inv (fun _ s => skipped P (p_log s) = accepted P (p_log s))); [reflexivity|].
  intros l s e s' _ I E. apply cases in E. unfold skipped, accepted in *.
  destruct E; state; rewrite ?num_app; cbn [num]; try exact I; try lia.
  - rewrite !(release_log _ _ _ _ _ H1) by reflexivity. lia.
  - rewrite !num_repeat. lia.
  - unfold unreported. pose proof (A h) as X. destruct (h_kind h); cbn [num]; destruct (P h); try lia.
    all: destruct (X eq_refl) as [Y|Y]; discriminate.
  - rewrite !(unref_log _ _ _ _ _ H) by reflexivity. lia.
Qed.
Lemma out_num : forall P l, num (fun x : nat * hap => P (snd x)) (in_order l) = pushed P l.
Proof.
  intros P l. unfold pushed, in_order. induction l as [|o l IH]; [reflexivity|]. cbn [flat_map num]. rewrite num_app, IH. destruct o; cbn [num snd]; lia.
Qed.
Definition dropped (P : hap -> bool) : list pobs -> Z := num (fun o => match o with PDrop _ h => P h | _ => false end).
Lemma in_num : forall P l, num (fun x : nat * hap => P (snd x)) (out_order l) = pulled P l + dropped P l.
Proof.
  intros P l. unfold pulled, dropped, out_order. induction l as [|o l IH]; [reflexivity|]. cbn [flat_map num]. rewrite num_app, IH. destruct o; cbn [num snd]; lia.
Qed.
Lemma drop_none : forall P l s, ~ In Cleanup l -> prun p0 l = Ok s -> dropped P (p_log s) = 0 /\ leaked P (p_log s) = 0 /\
  (p_queue s = None -> forall c, In c (p_calls s) -> match c_stage c with SDefer _ | SPush _ _ => False | _ => True end).
Proof.
  intros P l. induction l as [|e l IH] using rev_ind; intros s N R.
  - injection R as <-. conj; try reflexivity. intros _ c [].
  - rewrite run_app in R. apply obind_ok in R. destruct R as [s1 [R1 R2]]. cbn [prun] in R2. apply obind_ok in R2. destruct R2 as [s2 [R2 R3]]. injection R3 as <-.
    destruct (IH s1) as [A [B C]]; auto; [intro X; apply N, in_or_app; auto|].
    apply cases in R2. unfold dropped, leaked in *.
    assert (AF : forall h c, In c (after h) -> match c_stage c with SDefer _ | SPush _ _ => False | _ => True end).
    { intros h c. unfold after. destruct (h_kind h); intros J; try (destruct J; fail). destruct J as [<-|[]]. exact Logic.I. }
    destruct R2; state; rewrite ?num_app; cbn [num].
    + auto.
    + conj; auto; discriminate.
    + exfalso. apply N, in_or_app. right. left. reflexivity.
    + rewrite !num_repeat. conj; try lia. intros Q c I. apply in_app_or in I. destruct I as [I|I]; [apply C; auto|]. apply repeat_spec in I. subst c. exact Logic.I.
    + assert (X : num (fun o => match o with PDrop _ h => P h | _ => false end) (unreported h) = 0 /\ num (fun o => match o with PLeak _ h => P h | _ => false end) (unreported h) = 0)
        by (unfold unreported; destruct (h_kind h); split; reflexivity). destruct X as [X1 X2]. rewrite X1, X2.
      conj; try lia. intros Q c I. apply (put_in _ _ _ _ _ H) in I. destruct I as [I|I]; [apply C; auto|eapply AF; exact I].
    + conj; try lia. intros Q. congruence.
    + exfalso. exact (C H0 _ (nth_error_In _ _ H)).
    + conj; try lia. intros Q. congruence.
    + conj; try lia. discriminate.
    + conj; try lia. intros Q c I. apply (put_in _ _ _ _ _ H) in I. destruct I as [I|[]]. apply C; auto.
    + conj; try lia. discriminate.
    + conj; try lia. discriminate.
    + conj; try lia. exact C.
    + rewrite !(unref_log _ _ _ _ _ H) by reflexivity. conj; try lia. exact C.
    + auto.
    + auto.
Qed.
Theorem answered_thm : forall P l s, asks P -> ~ In Cleanup l -> prun p0 l = Ok s ->
  calls P (p_log s) = pulled P (p_log s) + num (fun x => P (snd x)) (queued s) + accepted P (p_log s) + inflight P s.
Proof.
  intros P l s A N R. pose proof (account_thm P l s R) as X. rewrite (yes_inv P A l s R) in X.
  destruct (drop_none P l s N R) as [D [L _]]. rewrite L in X.
  pose proof (fifo_thm l s R) as F. apply (f_equal (num (fun x : nat * hap => P (snd x)))) in F. rewrite num_app, in_num, out_num, D in F. lia.
Qed.
Definition startme : hap := mkH 1 KStart 1.
Lemma dropped_thm : exists l s h, h_kind h = KStart /\ prun p0 l = Ok s /\ p_calls s = [] /\ queued s = [] /\
  calls (this h) (p_log s) = 1 /\ deferred (this h) (p_log s) = 1 /\ pulled (this h) (p_log s) = 0 /\ accepted (this h) (p_log s) = 0.
Proof.
  exists [Init; Occur startme; Step 0 true; Step 0 true; Step 0 true; Cleanup]. eexists. exists startme. conj; vm_compute; reflexivity.
Qed.
Lemma leaked_thm : exists l s h e, h_kind h = KStart /\ prun p0 l = Ok s /\ p_calls s = [] /\ queued s = [] /\
  deferred (this h) (p_log s) = 1 /\ pulled (this h) (p_log s) = 0 /\ accepted (this h) (p_log s) = 0 /\ alive s e = true /\ held e (p_log s) = 0.
Proof.
  exists [Init; Occur startme; Step 0 true; Cleanup; Step 0 true]. eexists. exists startme, 0%nat. conj; vm_compute; reflexivity.
Qed.
Definition reopened : list pev :=
  [Init; Cleanup; Init; Occur (mkH 1 KReady 7); Step 0 true; Step 0 true; Step 0 true; Step 0 true; Step 0 true; Step 0 true; Occur (mkH 2 KClosed 7); Step 0 true; Step 0 true; Step 0 true; Step 0 true].
Lemma twice_thm : exists l s h, natural l /\ prun p0 l = Ok s /\ h_kind h = KClosed /\ pushed (this h) (p_log s) = 2.
Proof.
  exists reopened. eexists. exists (mkH 2 KClosed 7). split; [|conj; vm_compute; reflexivity]. split.
  - cbn. constructor; [intros [X|[]]; discriminate|constructor; [intros []|constructor]].
  - intros c. cbn. destruct c as [|[|[|[|[|[|[|[|c]]]]]]]]; cbn; lia.
Qed.
