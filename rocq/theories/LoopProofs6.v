(** Proofs about the reader loop: the sockets read, the change of the mechanism, and the
    witnesses. *)
From Verif Require Import Base LoopModel LoopSpec LoopProofs LoopProofs2 LoopProofs3 LoopProofs4 LoopProofs5.

(** * The sockets read *)
Definition hit (ready : list nat) (c : nat) : bool := existsb (Nat.eqb c) ready.
(** After some turns the loop is at the pending requests, having read those sockets. *)
Definition reads (s : lst) (l : list nat) : Prop :=
  exists s', reach true s s' /\ l_phase s' = PPending (length (l_queue s)) true /\ same s s' /\ l_log s' = l_log s ++ map LRead l.
Lemma reads_now : forall s n, reads (with_tries s n (PPending (length (l_queue s)) true)) [].
Proof. intros s n. eexists. split; [apply reach_refl|]. split; [reflexivity|]. split; [apply same_refl|]. st. symmetry. apply app_nil_r. Qed.
Lemma reads_step : forall s p o l, tick s true RTimeout = with_phase s p (map LRead o) -> reads (with_phase s p (map LRead o)) l -> reads s (o ++ l).
Proof.
  intros s p o l T [s' [R [P [S0 L]]]]. exists s'. split; [apply reach_one; rewrite T; exact R|]. split; [exact P|]. split; [eapply same_trans; [apply same_phase|exact S0]|].
  rewrite L. st. rewrite map_app, app_assoc. reflexivity.
Qed.
Lemma reads_stop : forall s n, tick s true RTimeout = with_tries s n (PPending (length (l_queue s)) true) -> reads s [].
Proof.
  intros s n T. destruct (reads_now s n) as [s' [R [P [S0 L]]]]. exists s'. split; [apply reach_one; rewrite T; exact R|]. split; [exact P|]. split; [exact S0|]. exact L.
Qed.
Lemma reads_dispatch : forall l s, l_phase s = PDispatch l -> reads s l.
Proof.
  induction l as [|c l IH]; intros s P.
  - apply (reads_stop s 0). unfold tick. rewrite P. reflexivity.
  - apply (reads_step s (PDispatch l) [c]); [unfold tick; rewrite P; reflexivity|]. apply IH. reflexivity.
Qed.
Lemma zlen_filter_pos : forall (f : nat -> bool) l, 0 <= zlen (filter f l).
Proof. intros. unfold zlen. lia. Qed.
Lemma filter_zero : forall (f : nat -> bool) l, zlen (filter f l) = 0 -> filter f l = [].
Proof. intros f l H. destruct (filter f l); [reflexivity|]. unfold zlen in H. cbn [length] in H. lia. Qed.
Lemma reads_con : forall m s i k n ready, l_phase s = PCheck false i k n ready -> peaceful s -> (length (l_con s) - i <= m)%nat ->
  n = k + zlen (filter (hit ready) (skipn i (l_con s))) -> reads s (filter (hit ready) (skipn i (l_con s))).
Proof.
  assert (E : forall s i k n ready, l_phase s = PCheck false i k n ready -> nth_error (l_con s) i = None -> reads s (filter (hit ready) (skipn i (l_con s)))).
  { intros s i k n ready P N. rewrite skipn_all2 by (apply nth_error_None; exact N). apply (reads_stop s 0). unfold tick. rewrite P, N. reflexivity. }
  induction m as [|m IH]; intros s i k n ready P Q L H.
  - eapply E; [exact P|]. apply nth_error_None. lia.
  - destruct (nth_error (l_con s) i) as [c|] eqn:N; [|eapply E; eauto]. pose proof (nth_len _ _ _ N) as NL.
    destruct (n =? k) eqn:NK.
    { apply Z.eqb_eq in NK. rewrite (filter_zero (hit ready) (skipn i (l_con s)) ltac:(lia)). apply (reads_stop s 0). unfold tick. rewrite P, N. assert (X : n =? k = true) by lia. rewrite X. reflexivity. }
    assert (U : l_up s c = true) by (apply Q; apply in_or_app; right; eapply nth_error_In; exact N).
    rewrite (skip_nth _ _ _ N) in *. cbn [filter] in *. destruct (hit ready c) eqn:X; unfold hit in X.
    + apply (reads_step s (PCheck false (S i) (k + 1) n ready) [c]); [unfold tick; rewrite P, N, NK, U, X; reflexivity|].
      exact (IH (with_phase s (PCheck false (S i) (k + 1) n ready) [LRead c]) (S i) (k + 1) n ready eq_refl (same_peace _ _ (same_phase _ _ _) Q) ltac:(st; lia) ltac:(st; unfold zlen in *; cbn [length] in H; lia)).
    + apply (reads_step s (PCheck false (S i) k n ready) []); [unfold tick; rewrite P, N, NK, U, X; reflexivity|].
      exact (IH (with_phase s (PCheck false (S i) k n ready) []) (S i) k n ready eq_refl (same_peace _ _ (same_phase _ _ _) Q) ltac:(st; lia) H).
Qed.
Lemma reads_srv : forall m s i k n ready, l_phase s = PCheck true i k n ready -> peaceful s -> (length (l_srv s) - i <= m)%nat -> 0 < n ->
  n = k + zlen (filter (hit ready) (skipn i (l_srv s))) + zlen (filter (hit ready) (l_con s)) ->
  reads s (filter (hit ready) (skipn i (l_srv s)) ++ filter (hit ready) (l_con s)).
Proof.
  assert (CON : forall s n ready, peaceful s -> n = zlen (filter (hit ready) (l_con s)) -> reads (with_phase s (PCheck false 0 0 n ready) []) (filter (hit ready) (l_con s))).
  { intros s n ready Q H. exact (reads_con _ (with_phase s (PCheck false 0 0 n ready) []) 0%nat 0 n ready eq_refl (same_peace _ _ (same_phase _ _ _) Q) (le_n _) H). }
  assert (E : forall s i k n ready, l_phase s = PCheck true i k n ready -> peaceful s -> nth_error (l_srv s) i = None ->
    n = k + zlen (filter (hit ready) (skipn i (l_srv s))) + zlen (filter (hit ready) (l_con s)) -> reads s (filter (hit ready) (skipn i (l_srv s)) ++ filter (hit ready) (l_con s))).
  { intros s i k n ready P Q N H. rewrite skipn_all2 in * by (apply nth_error_None; exact N). cbn [filter] in *. apply (reads_step s (PCheck false 0 0 (n - k) ready) []).
    - unfold tick. rewrite P, N. reflexivity.
    - apply CON; [exact Q|]. change (zlen (@nil nat)) with 0 in H. lia. }
  induction m as [|m IH]; intros s i k n ready P Q L NP H.
  - eapply E; eauto. apply nth_error_None. lia.
  - destruct (nth_error (l_srv s) i) as [c|] eqn:N; [|eapply E; eauto]. pose proof (nth_len _ _ _ N) as NL.
    assert (U : l_up s c = true) by (apply Q; apply in_or_app; left; eapply nth_error_In; exact N).
    rewrite (skip_nth _ _ _ N) in *. cbn [filter] in *. pose proof (zlen_filter_pos (hit ready) (skipn (S i) (l_srv s))) as Z1. pose proof (zlen_filter_pos (hit ready) (l_con s)) as Z2.
    destruct (hit ready c) eqn:X; unfold hit in X.
    + assert (H2 : n = k + 1 + zlen (filter (hit ready) (skipn (S i) (l_srv s))) + zlen (filter (hit ready) (l_con s))) by (unfold zlen in *; cbn [length] in H; lia).
      destruct (k + 1 =? n) eqn:KN.
      * rewrite (filter_zero (hit ready) (skipn (S i) (l_srv s)) ltac:(lia)). apply (reads_step s (PCheck false 0 0 0 ready) [c]).
        -- unfold tick. rewrite P, N, U. cbn [negb]. cbn zeta. rewrite X, KN. reflexivity.
        -- cbn [app]. exact (reads_con _ (with_phase s (PCheck false 0 0 0 ready) [LRead c]) 0%nat 0 0 ready eq_refl (same_peace _ _ (same_phase _ _ _) Q) (le_n _) ltac:(cbn [skipn]; st; lia)).
      * apply (reads_step s (PCheck true (S i) (k + 1) n ready) [c]); [unfold tick; rewrite P, N, U; cbn [negb]; cbn zeta; rewrite X, KN; reflexivity|].
        exact (IH (with_phase s (PCheck true (S i) (k + 1) n ready) [LRead c]) (S i) (k + 1) n ready eq_refl (same_peace _ _ (same_phase _ _ _) Q) ltac:(st; lia) NP H2).
    + destruct (k =? n) eqn:KN.
      * rewrite (filter_zero (hit ready) (skipn (S i) (l_srv s)) ltac:(lia)). apply (reads_step s (PCheck false 0 0 0 ready) []).
        -- unfold tick. rewrite P, N, U. cbn [negb]. cbn zeta. rewrite X, KN. reflexivity.
        -- cbn [app]. apply CON; [exact Q|lia].
      * apply (reads_step s (PCheck true (S i) k n ready) []); [unfold tick; rewrite P, N, U; cbn [negb]; cbn zeta; rewrite X, KN; reflexivity|].
        exact (IH (with_phase s (PCheck true (S i) k n ready) []) (S i) k n ready eq_refl (same_peace _ _ (same_phase _ _ _) Q) ltac:(st; lia) NP H).
Qed.
Lemma reads_thm : forall s l, reads s l -> exists k, let s' := ticks true k s in l_phase s' = PPending (length (l_queue s)) true /\ l_log s' = l_log s ++ map LRead l.
Proof. intros s l [s' [[k K] [P [_ L]]]]. exists k. rewrite K. auto. Qed.
Theorem select_thm : forall s set n ready, l_phase s = PWait set -> peaceful s -> 0 < n -> n = zlen (filter (fun c => existsb (Nat.eqb c) ready) (l_srv s ++ l_con s)) ->
  exists k, let s' := ticks true k (tick s true (RSelect n ready)) in
    l_phase s' = PPending (length (l_queue s)) true /\ l_log s' = l_log s ++ map LRead (filter (fun c => existsb (Nat.eqb c) ready) (l_srv s ++ l_con s)).
Proof.
  intros s set n ready P Q NP H. unfold tick at 1. rewrite P. change (fun c => existsb (Nat.eqb c) ready) with (hit ready) in *. rewrite filter_app in *.
  destruct (reads_thm _ _ (reads_srv _ (with_phase s (PCheck true 0 0 n ready) []) 0%nat 0 n ready eq_refl (same_peace _ _ (same_phase _ _ _) Q) (le_n _) NP ltac:(cbn [skipn]; st; unfold zlen in *; rewrite app_length in H; lia))) as [k K].
  exists k. cbn zeta in *. cbn [skipn] in K. sti K. rewrite app_nil_r in K. exact K.
Qed.
Theorem events_thm : forall s set l, l_phase s = PWait set ->
  exists k, let s' := ticks true k (tick s true (REvents l)) in l_phase s' = PPending (length (l_queue s)) true /\ l_log s' = l_log s ++ map LRead l.
Proof.
  intros s set l P. unfold tick at 1. rewrite P. destruct (reads_thm _ _ (reads_dispatch l (with_phase s (PDispatch l) []) eq_refl)) as [k K]. exists k. cbn zeta in *. sti K. rewrite app_nil_r in K. exact K.
Qed.
Definition skipped_run : list lev := [WatchListener 1; Watch 2 true; Tick true RTimeout; Tick true RTimeout; Tick true RTimeout; Tick true RTimeout; Tick true RTimeout; Tick true RTimeout;
  Tick true RTimeout; Tick true RTimeout; Tick true RTimeout; Tick true RTimeout; Tick true RTimeout; Tick true RTimeout; Tick true RTimeout; Down 1].
Theorem skipped_thm : exists l s set c, lrun l0 l = Ok s /\ l_phase s = PWait set /\ In c set /\ l_up s c = true /\
  exists k, let s' := ticks true k (tick s true (RSelect 1 [c])) in l_phase s' = PPending (length (l_queue s)) true /\ ~ In (LRead c) (l_log s').
Proof.
  eexists skipped_run, _, [1; 2]%nat, 2%nat. split; [vm_compute; reflexivity|]. split; [reflexivity|]. split; [right; left; reflexivity|]. split; [reflexivity|].
  exists 3%nat. vm_compute. split; [reflexivity|]. intuition discriminate.
Qed.

(** * The change of the mechanism *)
Inductive good : bool -> list item -> Prop :=
| good_nil : good false []
| good_open : good true [IChange]
| good_pair : forall a q, good a q -> good a (IChange :: IReady :: q)
| good_other : forall a i q, is_change i = false -> i <> IReady -> good a q -> good a (i :: q).
Definition goodc (a : bool) (q : list item) : Prop := (a = true /\ q = []) \/ exists r, q = IReady :: r /\ good a r.
Definition fine (a : bool) (s : lst) : Prop := match l_phase s with PStopped => True | PChange _ => goodc a (l_queue s) | _ => good a (l_queue s) end.
Definition readies : list item -> Z := cnt (fun i => match i with IReady => true | _ => false end).
Definition surplus (s : lst) : Z := installed (l_log s) - made (l_log s) - readies (l_queue s).
Lemma good_app : forall a q, good a q -> forall i, a = false -> is_change i = false -> i <> IReady -> good false (q ++ [i]).
Proof.
  intros a q G. induction G as [| |a q G IH|a j q C N G IH]; intros i A CI NI; subst; try discriminate; cbn [app].
  - apply good_other; auto. constructor.
  - apply good_pair; auto.
  - apply good_other; auto.
Qed.
Lemma good_ask : forall a q, good a q -> a = false -> good true (q ++ [IChange]).
Proof. intros a q G. induction G as [| |a q G IH|a j q C N G IH]; intros A; subst; try discriminate; cbn [app]; [constructor|apply good_pair; auto|apply good_other; auto]. Qed.
Lemma good_ready : forall a q, good a q -> a = true -> good false (q ++ [IReady]).
Proof. intros a q G. induction G as [| |a q G IH|a j q C N G IH]; intros A; subst; try discriminate; cbn [app]; [apply good_pair; constructor|apply good_pair; auto|apply good_other; auto]. Qed.
Lemma good_pop : forall a i q, good a (i :: q) -> i <> IReady /\ (i = IChange -> goodc a q) /\ (i <> IChange -> good a q).
Proof.
  intros a i q G. inversion G; subst.
  - conj; [discriminate|intros _; left; auto|congruence].
  - conj; [discriminate|intros _; right; eauto|congruence].
  - conj; auto. intros ->. discriminate.
Qed.
Lemma fine_reg : forall a s i p o, good a (l_queue s) -> (forall b, p <> PChange b) -> fine a (with_phase (fst (register s i)) p o).
Proof. intros a s i p o G NP. pose proof (reg_same s i) as [R _]. unfold fine. st. rewrite R. destruct p; try exact G; [contradiction (NP back); reflexivity|exact Logic.I]. Qed.
Lemma fine_keep : forall a s s', good a (l_queue s) -> l_queue s' = l_queue s -> (forall b, l_phase s' <> PChange b) -> fine a s'.
Proof. intros a s s' G Q NP. unfold fine. rewrite Q. destruct (l_phase s'); try exact G; [contradiction (NP back); reflexivity|exact Logic.I]. Qed.
Lemma fine_good : forall a s, fine a s -> l_phase s <> PStopped -> (forall b, l_phase s <> PChange b) -> good a (l_queue s).
Proof. intros a s F N1 N2. unfold fine in F. destruct (l_phase s); try exact F; congruence. Qed.
Ltac fk G := eapply fine_keep; [exact G|reflexivity|].
Lemma fine_tick : forall a s add r, fine a s -> fine a (tick s add r).
Proof.
  intros a s add r F. unfold tick. destruct (l_phase s) as [| |srv i set|set|l|srv i k n ready|n go|back| |] eqn:P;
    try (assert (G : good a (l_queue s)) by (apply fine_good; [exact F| |intros ?]; rewrite P; discriminate)).
  - unfold first. destruct (l_queue s) as [|i q] eqn:Q; [exact F|]. apply good_pop in G. destruct G as [G1 [G2 G3]].
    pose proof (fine_reg a (with_queue s q) i (if snd (register (with_queue s q) i) then PLoop else PFirst) []) as R. destruct (register (with_queue s q) i) as [t b]. sti R.
    destruct i as [x|x| | | |k f]; try (apply R; [apply G3; discriminate|intros ?; destruct b; discriminate]); try congruence.
    + exact Logic.I.
    + apply G2. reflexivity.
    + apply G3. discriminate.
  - destruct (l_con s), (l_srv s); fk G; discriminate.
  - destruct (nth_error (the_list s srv) i) as [x|] eqn:N; [|fk G; destruct srv; discriminate].
    destruct (negb (l_up s x)); [fk G; discriminate|]. destruct (l_unwatch s x); [fk G; discriminate|]. destruct (l_blocked s x); [fk G; discriminate|]. destruct add; fk G; discriminate.
  - destruct r; try (fk G; discriminate); [destruct (Nat.eqb _ 2); fk G; discriminate|exact Logic.I].
  - destruct l; fk G; discriminate.
  - destruct srv.
    + destruct (nth_error (l_srv s) i) as [x|] eqn:N; [|fk G; discriminate]. destruct (negb (l_up s x)); [fk G; discriminate|].
      match goal with |- context [?a =? ?b] => destruct (a =? b) end; fk G; discriminate.
    + destruct (nth_error (l_con s) i) as [x|] eqn:N; [|fk G; discriminate]. destruct (n =? k); [fk G; discriminate|]. destruct (negb (l_up s x)); [fk G; discriminate|].
      destruct (existsb (Nat.eqb x) ready); fk G; discriminate.
  - destruct n as [|n]; [destruct go; [fk G; discriminate|exact Logic.I]|]. unfold pending. destruct (l_queue s) as [|i q] eqn:Q; [exact F|]. apply good_pop in G. destruct G as [G1 [G2 G3]].
    destruct i as [x|x| | | |k f]; try (apply fine_reg; [apply G3; discriminate|discriminate]); try congruence; unfold fine; st; [apply G3; discriminate|apply G2; reflexivity|apply G3; discriminate].
  - unfold changed_io. unfold fine in F. rewrite P in F. destruct (l_queue s) as [|i q] eqn:Q; [unfold fine; rewrite P, Q; exact F|]. destruct F as [[_ F]|[t [F G]]]; [discriminate|]. injection F as -> ->.
    cbn [register]. apply (fine_keep a (with_queue s t)); [exact G|reflexivity|]. st. intros b. destruct back; discriminate.
  - unfold fine. rewrite P. exact Logic.I.
  - exact F.
Qed.
Definition io_asked (l : list lev) : bool := fold_left (fun a e => match e with Change => true | Installed => false | _ => a end) l false.
Lemma readies_app : forall l m, readies (l ++ m) = readies l + readies m.
Proof. intros. apply cnt_app. Qed.
Lemma readies_pos : forall l, 0 <= readies l.
Proof. intros. apply cnt_pos. Qed.
Definition io_plain (o : lobs) : bool := match o with LMade | LInstalled => false | _ => true end.
Lemma io_none : forall o, forallb io_plain o = true -> installed o = 0 /\ made o = 0.
Proof.
  induction o as [|x o IH]; intros F; [split; reflexivity|]. cbn [forallb] in F. apply andb_true_iff in F. destruct F as [F1 F2]. destruct (IH F2) as [A B].
  unfold installed, made in *. cbn [cnt]. rewrite A, B. destruct x; try discriminate; split; reflexivity.
Qed.
(** The tick in the other phases: nothing installed, and no set made. *)
Lemma plain_tick : forall s add r, (forall b, l_phase s <> PChange b) -> exists o, l_log (tick s add r) = l_log s ++ o /\ forallb io_plain o = true.
Proof.
  intros s add r NC. assert (NIL : l_log s = l_log s ++ []) by (symmetry; apply app_nil_r). assert (FE : forall t k f, forallb io_plain (foreach t k f) = true).
  { intros t k f. unfold foreach. rewrite forallb_app. cbn [forallb io_plain]. destruct f; [|reflexivity]. rewrite !andb_true_r. apply forallb_forall. intros x I. apply in_map_iff in I. destruct I as [y [<- _]]. reflexivity. }
  assert (REG : forall t i p o, forallb io_plain o = true -> exists o', l_log (with_phase (fst (register t i)) p o) = l_log t ++ o' /\ forallb io_plain o' = true).
  { intros t i p o F. unfold register. destruct i as [x|x| | | |k f]; [destruct (l_up t x)| | | | |]; try (exists o; split; [reflexivity|exact F]). exists (LDrop x :: o). st. rewrite <- app_assoc. auto. }
  assert (STOP : forall q, exists o, l_log (stop (with_queue s q)) = l_log s ++ o /\ forallb io_plain o = true).
  { intros q. unfold stop. st. eexists. split; [reflexivity|]. rewrite forallb_app. cbn [forallb io_plain]. rewrite !andb_true_r. apply forallb_forall. intros x I. apply in_map_iff in I. destruct I as [y [<- _]]. reflexivity. }
  unfold tick. destruct (l_phase s) as [| |srv i set|set|l|srv i k n ready|n go|back| |] eqn:P; try (exists []; auto; fail).
  - unfold first. destruct (l_queue s) as [|i q]; [exists []; auto|]. pose proof (REG (with_queue s q) i (if snd (register (with_queue s q) i) then PLoop else PFirst) [] eq_refl) as R.
    destruct (register (with_queue s q) i) as [t b]. sti R. destruct i as [x|x| | | |k f]; try exact R; [apply STOP|exists [LAck]; auto|eexists; split; [reflexivity|apply FE]].
  - destruct (l_con s), (l_srv s); eexists; split; reflexivity.
  - destruct (nth_error (the_list s srv) i) as [x|] eqn:N; [|eexists; split; reflexivity].
    destruct (negb (l_up s x)); [eexists; split; reflexivity|]. destruct (l_unwatch s x); [eexists; split; reflexivity|]. destruct (l_blocked s x); [eexists; split; reflexivity|]. destruct add; eexists; split; reflexivity.
  - destruct r; try (exists []; auto; fail); try (eexists; split; reflexivity); [destruct (Nat.eqb _ 2); exists []; auto|]. pose proof (STOP (l_queue s)) as T. replace (with_queue s (l_queue s)) with s in T by (destruct s; reflexivity). exact T.
  - destruct l; [exists []; auto|eexists; split; reflexivity].
  - destruct srv.
    + destruct (nth_error (l_srv s) i) as [x|] eqn:N; [|eexists; split; reflexivity]. destruct (negb (l_up s x)); [eexists; split; reflexivity|].
      destruct (existsb (Nat.eqb x) ready); match goal with |- context [?a =? ?b] => destruct (a =? b) end; eexists; split; reflexivity.
    + destruct (nth_error (l_con s) i) as [x|] eqn:N; [|exists []; auto]. destruct (n =? k); [exists []; auto|]. destruct (negb (l_up s x)); [eexists; split; reflexivity|].
      destruct (existsb (Nat.eqb x) ready); eexists; split; reflexivity.
  - destruct n as [|n]; [destruct go; [eexists; split; reflexivity|]|].
    + pose proof (STOP (l_queue s)) as T. replace (with_queue s (l_queue s)) with s in T by (destruct s; reflexivity). exact T.
    + unfold pending. destruct (l_queue s) as [|i q]; [exists []; auto|]. destruct i as [x|x| | | |k f]; try (apply (REG (with_queue s q)); reflexivity); eexists; (split; [reflexivity|]); try reflexivity. apply FE.
  - contradiction (NC back). reflexivity.
Qed.
Lemma queue_tick : forall s add r, readies (l_queue (tick s add r)) <= readies (l_queue s).
Proof.
  intros s add r. assert (POP : forall i q, l_queue s = i :: q -> readies q <= readies (l_queue s)) by (intros i q Q; rewrite Q; unfold readies; cbn [cnt]; destruct i; lia).
  unfold tick. destruct (l_phase s) as [| |srv i set|set|l|srv i k n ready|n go|back| |] eqn:P; try apply Z.le_refl.
  - unfold first. destruct (l_queue s) as [|i q] eqn:Q; [rewrite Q; apply Z.le_refl|]. specialize (POP i q eq_refl). pose proof (reg_same (with_queue s q) i) as [R _]. sti R. destruct (register (with_queue s q) i) as [t b]. sti R.
    destruct i; st; rewrite ?R; try exact POP. apply readies_pos.
  - destruct (l_con s), (l_srv s); apply Z.le_refl.
  - destruct (nth_error (the_list s srv) i) as [x|]; [|apply Z.le_refl]. destruct (negb (l_up s x)); [apply Z.le_refl|]. destruct (l_unwatch s x); [apply Z.le_refl|]. destruct (l_blocked s x); [apply Z.le_refl|]. destruct add; apply Z.le_refl.
  - destruct r; try apply Z.le_refl; [destruct (Nat.eqb _ 2); apply Z.le_refl|apply readies_pos].
  - destruct l; apply Z.le_refl.
  - destruct srv.
    + destruct (nth_error (l_srv s) i) as [x|]; [|apply Z.le_refl]. destruct (negb (l_up s x)); [apply Z.le_refl|].
      match goal with |- context [?a =? ?b] => destruct (a =? b) end; apply Z.le_refl.
    + destruct (nth_error (l_con s) i) as [x|]; [|apply Z.le_refl]. destruct (n =? k); [apply Z.le_refl|]. destruct (negb (l_up s x)); [apply Z.le_refl|]. destruct (existsb (Nat.eqb x) ready); apply Z.le_refl.
  - destruct n as [|n]; [destruct go; [apply Z.le_refl|apply readies_pos]|]. unfold pending. destruct (l_queue s) as [|i q] eqn:Q; [rewrite Q; apply Z.le_refl|]. specialize (POP i q eq_refl).
    pose proof (reg_same (with_queue s q) i) as [R _]. sti R. destruct i; st; rewrite ?R; exact POP.
  - unfold changed_io. destruct (l_queue s) as [|i q] eqn:Q; [rewrite Q; apply Z.le_refl|]. specialize (POP i q eq_refl).
    pose proof (reg_same (with_phase (with_queue s q) (l_phase s) [LMade]) i) as [R _]. destruct (register _ i) as [t b]. sti R. st. rewrite R. exact POP.
Qed.
Lemma surplus_tick : forall a s add r, fine a s -> 0 <= surplus s -> 0 <= surplus (tick s add r).
Proof.
  intros a s add r F H. destruct (match l_phase s with PChange _ => true | _ => false end) eqn:PC.
  - destruct (l_phase s) as [| |srv i set|set|l|srv i k n ready|n go|back| |] eqn:P; try discriminate. unfold tick. rewrite P. unfold changed_io. unfold fine in F. rewrite P in F.
    destruct F as [[_ F]|[t [F _]]]; rewrite F; [exact H|]. cbn [register]. unfold surplus in *. rewrite F in H. st. unfold installed, made, readies in *. rewrite !cnt_app. cbn [cnt] in *. lia.
  - assert (NC : forall b, l_phase s <> PChange b) by (intros b P; rewrite P in PC; discriminate).
    destruct (plain_tick s add r NC) as [o [L O]]. destruct (io_none o O) as [O1 O2]. pose proof (queue_tick s add r) as Q. unfold surplus in *. rewrite L. unfold installed, made in *. rewrite !cnt_app. lia.
Qed.
(** calm, from the end of the list. *)
Lemma calm_app : forall l a m, calm a (l ++ m) -> calm a l /\ calm (fold_left (fun a e => match e with Change => true | Installed => false | _ => a end) l a) m.
Proof.
  induction l as [|e l IH]; intros a m H; [split; [exact Logic.I|exact H]|]. cbn [app fold_left] in *. destruct e; cbn [calm] in *; destruct H as [H1 H2]; apply IH in H2; destruct H2 as [H2 H3]; auto.
Qed.
Theorem io_thm : forall l s, lrun l0 l = Ok s -> calm false l -> made (l_log s) <= installed (l_log s).
Proof.
  intros l s R C. assert (INV : fine (io_asked l) s /\ 0 <= surplus s).
  2:{ destruct INV as [_ H]. unfold surplus in H. pose proof (readies_pos (l_queue s)). lia. }
  revert l s R C. apply (run_inv (fun l s => calm false l -> fine (io_asked l) s /\ 0 <= surplus s)).
  - intros _. split; [constructor|vm_compute; discriminate].
  - intros l s e s' _ IH E C. apply calm_app in C. destruct C as [C1 C2]. destruct (IH C1) as [F H]. clear IH. change (fold_left _ l false) with (io_asked l) in C2.
    assert (A : io_asked (l ++ [e]) = match e with Change => true | Installed => false | _ => io_asked l end) by (unfold io_asked; rewrite fold_left_app; reflexivity). rewrite A. clear A.
    assert (PUSH : forall i o, is_change i = false -> i <> IReady -> forallb io_plain o = true -> io_asked l = false -> push s i o = Ok s' -> fine (io_asked l) s' /\ 0 <= surplus s').
    { intros i o X1 X2 X3 X4 X. apply push_ok in X. destruct X as [NS ->]. rewrite X4 in *. destruct (io_none o X3) as [O1 O2]. split.
      - unfold fine in *. st. destruct (l_phase s); try (eapply good_app; eauto; fail); [|congruence]. destruct F as [[F _]|[t [-> F]]]; [discriminate|]. right. exists (t ++ [i]). split; [reflexivity|]. eapply good_app; eauto.
      - unfold surplus in *. st. unfold installed, made, readies in *. rewrite !cnt_app. cbn [cnt]. destruct i; try congruence; lia. }
    destruct e as [x ok|x| |k f| | |x|x|x b|add r|bad]; cbn [lstep calm is_push] in *.
    + destruct (l_up s x && ok); [eapply PUSH; try exact E; try reflexivity; try discriminate; tauto|]. injection E as <-. auto.
    + eapply PUSH; try exact E; try reflexivity; try discriminate; tauto.
    + eapply PUSH; try exact E; try reflexivity; try discriminate; tauto.
    + eapply PUSH; try exact E; try reflexivity; try discriminate; tauto.
    + destruct C2 as [C2 _]. apply push_ok in E. destruct E as [NS ->]. rewrite C2 in F. split.
      * unfold fine in *. st. destruct (l_phase s); try (eapply good_ask; eauto; fail); [|congruence]. destruct F as [[F _]|[t [-> F]]]; [discriminate|]. right. exists (t ++ [IChange]). split; [reflexivity|]. eapply good_ask; eauto.
      * unfold surplus in *. st. unfold installed, made, readies in *. rewrite !cnt_app. cbn [cnt]. lia.
    + destruct C2 as [C2 _]. apply push_ok in E. destruct E as [NS ->]. rewrite C2 in F. split.
      * unfold fine in *. st. destruct (l_phase s); try (eapply good_ready; eauto; fail); [|congruence]. destruct F as [[_ F]|[t [-> F]]]; [rewrite F; right; exists []; split; [reflexivity|constructor]|]. right. exists (t ++ [IReady]). split; [reflexivity|]. eapply good_ready; eauto.
      * unfold surplus in *. st. unfold installed, made, readies in *. rewrite !cnt_app. cbn [cnt]. lia.
    + injection E as <-. auto.
    + injection E as <-. auto.
    + injection E as <-. auto.
    + injection E as <-. split; [apply fine_tick; exact F|eapply surplus_tick; eauto].
    + destruct (l_phase s) eqn:P; injection E as <-; auto. unfold cleanup. destruct (clean bad (l_up s) (l_con s)) as [[k g] u]. destruct (clean bad u (l_srv s)) as [[k2 g2] u2]. split.
      * unfold fine in *. rewrite P in F. exact F.
      * unfold surplus in *. st. unfold installed, made in *. rewrite !cnt_app, !cnt_map, !(cnt_none _ (fun _ => false)) by reflexivity. lia.
Qed.
Theorem early_thm : exists l s, lrun l0 l = Ok s /\ In Change l /\ ~ In Installed l /\ made (l_log s) = 1 /\ installed (l_log s) = 0 /\ l_phase s = PLoop.
Proof. eexists [Change; Tick true RTimeout; Watch 1 true; Tick true RTimeout], _. split; [vm_compute; reflexivity|]. conj; try reflexivity; [left; reflexivity|]. intros H. cbn in H. intuition discriminate. Qed.

(** * The other witnesses *)
Theorem leak_thm : exists l s c, lrun l0 l = Ok s /\ l_phase s = PStopped /\ taken c (l_log s) = 1 /\ dropped c (l_log s) = 0 /\
  forall m s', (forall e, In e m -> is_push e = false) -> lrun s m = Ok s' -> dropped c (l_log s') = 0.
Proof.
  eexists [Stop; Watch 1 true; Tick true RTimeout], _, 1%nat. split; [vm_compute; reflexivity|]. conj; try reflexivity.
  intros m s' H R. match type of R with lrun ?s _ = _ => destruct (still_thm m s eq_refl H) as [t [R2 [_ L]]] end. rewrite R in R2. injection R2 as <-. rewrite L. reflexivity.
Qed.
Theorem late_thm : exists l s, lrun l0 l = Ok s /\ l_phase s = PStopped /\ lrun s [Watch 1 true] = UB.
Proof. eexists [Stop; Tick true RTimeout], _. split; [vm_compute; reflexivity|]. split; reflexivity. Qed.
Theorem stale_thm : exists l s c, lrun l0 l = Ok s /\ l_up s c = true /\ taken c (l_log s) = 1 /\ dropped c (l_log s) = 1 /\ l_phase s <> PStopped /\
  l = [Unwatch c] ++ [Watch c true; Tick true RTimeout; Tick true RTimeout; Tick true RTimeout; Tick true RTimeout].
Proof. eexists _, _, 1%nat. split; [|split; [|split; [|split; [|split]]]]; [|..|reflexivity]; [vm_compute; reflexivity|..]; try reflexivity. discriminate. Qed.
(** What a foreach that was taken for the new mechanism is owed, for ever. *)
Lemma owe_change : forall k s add r, owe k s <= owe k (tick s add r).
Proof.
  intros k s add r. destruct (match l_phase s with PChange _ => true | _ => false end) eqn:PC.
  - destruct (l_phase s) as [| |srv i set|set|l|srv i j n ready|n go|back| |] eqn:P; try discriminate. unfold tick. rewrite P. unfold changed_io. destruct (l_queue s) as [|i q] eqn:Q; [lia|].
    destruct (register _ i) as [t b] eqn:R. pose proof (owe_reg2 k _ _ _ _ R) as B. rewrite owe_phase in B by quiet. rewrite (owe_queue k s i q Q) in B. rewrite owe_phase by quiet.
    pose proof (cnt_pos _ (fun i => match i with IForeach x _ => Nat.eqb x k | _ => false end) [i]) as C. fold (awaited k [i]) in C. lia.
  - rewrite owe_tick; [lia|]. intros b P. rewrite P in PC. discriminate.
Qed.
Lemma owe_step : forall k s e s', lstep s e = Ok s' -> owe k s <= owe k s' /\ (forall f, e <> Foreach k f) -> owe k s <= owe k s'.
Proof. tauto. Qed.
Lemma forever : forall k m s s', lrun s m = Ok s' -> (forall e f, In e m -> e <> Foreach k f) -> asked k (l_log s') = asked k (l_log s) /\ owe k s <= owe k s'.
Proof.
  intros k. induction m as [|e m IH]; intros s s' R H; cbn [lrun] in R; [injection R as <-; split; lia|]. apply obind_ok in R. destruct R as [s1 [R1 R2]].
  destruct (IH s1 s' R2) as [A B]; [intros e' f I; apply H; right; exact I|].
  assert (T : asked k (l_log s1) = asked k (l_log s) /\ owe k s <= owe k s1); [|lia].
  assert (HN : forall f, e <> Foreach k f) by (intros f; apply H; left; reflexivity). clear H IH A B R2.
  assert (PUSH : forall i o, asked k o = awaited k [i] -> asked k o = 0 -> ended k o = 0 -> push s i o = Ok s1 -> asked k (l_log s1) = asked k (l_log s) /\ owe k s <= owe k s1).
  { intros i o X1 X2 X3 X. apply push_ok in X. destruct X as [_ ->]. owing. cbn [cnt] in X1. lia. }
  destruct e as [x ok|x| |j f| | |x|x|x b|add r|bad]; cbn [lstep] in R1; try (eapply PUSH; [| | |exact R1]; reflexivity); try (injection R1 as <-; split; [reflexivity|apply Z.le_refl]).
  - destruct (l_up s x && ok); [eapply PUSH; [| | |exact R1]; reflexivity|]. injection R1 as <-. split; [reflexivity|apply Z.le_refl].
  - assert (J : Nat.eqb j k = false) by (destruct (Nat.eqb_spec j k); [subst; contradiction (HN f); reflexivity|reflexivity]).
    eapply PUSH; [| | |exact R1]; unfold asked, ended, awaited; cbn [cnt]; rewrite ?J; reflexivity.
  - injection R1 as <-. split; [|apply owe_change]. destruct (match l_phase s with PStopped => true | _ => false end) eqn:PS.
    + unfold tick. destruct (l_phase s); try discriminate. reflexivity.
    + assert (PA : forall o, forallb plain o = true -> asked k o = 0).
      { induction o as [|y o IH]; intros F; [reflexivity|]. cbn [forallb] in F. apply andb_true_iff in F. destruct F as [F1 F2]. unfold asked in *. cbn [cnt]. rewrite IH by exact F2. destruct y; try reflexivity; discriminate. }
      destruct (tick_on s add r) as [T|[q [T _]]]; [intros P; rewrite P in PS; discriminate| |].
      * destruct T as [_ [_ [o [T1 T2]]]]. rewrite T1. unfold asked in *. rewrite cnt_app, (PA o T2). lia.
      * rewrite T. unfold stop. st. unfold asked. rewrite !cnt_app, !cnt_map, !(cnt_none _ (fun _ => false)) by reflexivity. cbn [cnt]. lia.
  - destruct (l_phase s); injection R1 as <-; try (split; [reflexivity|apply Z.le_refl]). unfold cleanup. destruct (clean bad (l_up s) (l_con s)) as [[k1 g] u]. destruct (clean bad u (l_srv s)) as [[k2 g2] u2].
    owing. rewrite !cnt_map, !(cnt_none _ (fun _ => false)) by reflexivity. lia.
Qed.
Theorem eaten_thm : exists l s k, lrun l0 l = Ok s /\ In (Foreach k true) l /\ running s /\
  forall m s', (forall e f, In e m -> e <> Foreach k f) -> lrun s m = Ok s' -> ended k (l_log s') = 0.
Proof.
  eexists [Change; Tick true RTimeout; Foreach 7 true; Tick true RTimeout], _, 7%nat. split; [vm_compute; reflexivity|]. split; [right; right; left; reflexivity|]. split; [split; discriminate|].
  intros m s' H R. destruct (forever 7 m _ s' R H) as [A B]. unfold owe in B.
  change (asked 7 (l_log s') = 1) in A. pose proof (cnt_pos _ (fun o => match o with LDone x => Nat.eqb x 7 | _ => false end) (l_log s')) as C. fold (ended 7 (l_log s')) in C.
  pose proof (cnt_pos _ (fun i => match i with IForeach x _ => Nat.eqb x 7 | _ => false end) (l_queue s')) as D. fold (awaited 7 (l_queue s')) in D.
  pose proof (cnt_pos _ (fun i => match i with IForeach x _ => Nat.eqb x 7 | _ => false end) (l_left s')) as E. fold (awaited 7 (l_left s')) in E.
  match type of B with ?x - ?y - ?z - ?w <= _ => assert (x - y - z - w = 1) by (vm_compute; reflexivity) end. lia.
Qed.
Theorem visit_thm : forall s add r k f q, l_queue s = IForeach k f :: q -> (l_phase s = PFirst \/ exists n go, l_phase s = PPending (S n) go) ->
  l_log (tick s add r) = l_log s ++ map (LVisit k) (if f then filter (l_up s) (l_con s ++ l_srv s) else []) ++ [LDone k] /\ l_queue (tick s add r) = q /\ l_con (tick s add r) = l_con s /\ l_srv (tick s add r) = l_srv s.
Proof.
  intros s add r k f q Q P. unfold tick. destruct P as [P|[n [go P]]]; rewrite P; [unfold first|unfold pending]; rewrite Q; st; unfold foreach; st; rewrite filter_app; destruct f; conj; reflexivity.
Qed.
Lemma dead_run : forall m s s', l_phase s = PDead -> lrun s m = Ok s' -> l_phase s' = PDead.
Proof.
  induction m as [|e m IH]; intros s s' P R; cbn [lrun] in R; [injection R as <-; exact P|]. apply obind_ok in R. destruct R as [s1 [R1 R2]]. apply (IH s1); [|exact R2]. clear IH R2.
  assert (PUSH : forall i o, push s i o = Ok s1 -> l_phase s1 = PDead) by (intros i o X; apply push_ok in X; destruct X as [_ ->]; exact P).
  destruct e as [x ok|x| |j f| | |x|x|x b|add r|bad]; cbn [lstep] in R1; try (eapply PUSH; exact R1); try (injection R1 as <-; exact P).
  - destruct (l_up s x && ok); [eapply PUSH; exact R1|]. injection R1 as <-. exact P.
  - injection R1 as <-. unfold tick. rewrite P. exact P.
  - rewrite P in R1. injection R1 as <-. exact P.
Qed.
Theorem dead_thm : exists l s, lrun l0 l = Ok s /\ taken 1 (l_log s) = 1 /\ forall m s', lrun s m = Ok s' -> l_phase s' <> PStopped.
Proof.
  eexists [Watch 1 true; Tick true RTimeout; Tick true RTimeout; Tick true RTimeout; Tick true RTimeout; Tick true RTimeout; Tick true RError;
    Tick true RTimeout; Tick true RTimeout; Tick true RTimeout; Tick true RTimeout; Tick true RError], _. split; [vm_compute; reflexivity|]. split; [reflexivity|].
  intros m s' R. apply dead_run in R; [rewrite R; discriminate|reflexivity].
Qed.
Theorem set_thm : forall s, l_phase s = PLoop -> peaceful s -> l_con s ++ l_srv s <> [] ->
  exists k, let s' := ticks true k s in
    l_phase s' = PWait (filter (fun c => negb (l_blocked s c)) (l_srv s ++ l_con s)) /\ l_con s' = l_con s /\ l_srv s' = l_srv s /\ l_queue s' = l_queue s /\ l_log s' = l_log s.
Proof. intros s P Q N. destruct (build_thm s P Q N) as [k [A [B C]]]. exists k. unfold same in B. cbn zeta. tauto. Qed.
(** No connection is left: the loop waits for requests, and says so. *)
Theorem idle_thm : forall s add r, l_phase s = PLoop -> l_con s = [] -> l_srv s = [] -> l_phase (tick s add r) = PFirst /\ l_log (tick s add r) = l_log s ++ [LIdle].
Proof. intros s add r P A B. unfold tick. rewrite P, A, B. split; reflexivity. Qed.
