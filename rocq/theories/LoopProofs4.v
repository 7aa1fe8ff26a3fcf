(** Proofs about the reader loop: the end, once; what stays watched; the sockets read; the
    change of the mechanism. *)
From Verif Require Import Base LoopModel LoopSpec LoopProofs LoopProofs2 LoopProofs3.

(** * The end *)
Definition stops : list lobs -> Z := cnt (fun o => match o with LStopped => true | _ => false end).
Definition ended_ok (s : lst) : Prop :=
  match l_phase s with
  | PStopped => stops (l_log s) = 1 /\ l_queue s = [] /\ l_con s = [] /\ l_srv s = []
  | _ => stops (l_log s) = 0 /\ l_left s = []
  end.
(** What a tick does to the log, in general. *)
Definition plain (o : lobs) : bool := match o with LStopped | LStop | LTake _ | LAsk _ | LInstalled => false | _ => true end.
Lemma plain_stops : forall o, forallb plain o = true -> stops o = 0.
Proof. induction o as [|x o IH]; intros F; [reflexivity|]. cbn [forallb] in F. apply andb_true_iff in F. destruct F as [F1 F2]. unfold stops. cbn [cnt]. fold (stops o). rewrite IH by exact F2. destruct x; try reflexivity; discriminate. Qed.
Lemma plain_foreach : forall s k f, forallb plain (foreach s k f) = true.
Proof.
  intros s k f. unfold foreach. rewrite forallb_app. cbn [forallb plain]. destruct f; [|reflexivity]. rewrite !andb_true_r.
  apply forallb_forall. intros x I. apply in_map_iff in I. destruct I as [y [<- _]]. reflexivity.
Qed.
(** A tick: either the loop ends, or it goes on, with plain things seen. *)
Definition goes_on (s s' : lst) : Prop := l_phase s' <> PStopped /\ l_left s' = l_left s /\ exists o, l_log s' = l_log s ++ o /\ forallb plain o = true.
Lemma on_phase : forall s p o, p <> PStopped -> forallb plain o = true -> goes_on s (with_phase s p o).
Proof. intros s p o P F. split; [exact P|split; [reflexivity|exists o; auto]]. Qed.
Lemma on_tries : forall s n p, p <> PStopped -> goes_on s (with_tries s n p).
Proof. intros s n p P. split; [exact P|split; [reflexivity|exists []; split; [st; symmetry; apply app_nil_r|reflexivity]]]. Qed.
Lemma on_register : forall s i p o, p <> PStopped -> forallb plain o = true -> goes_on s (with_phase (fst (register s i)) p o).
Proof.
  intros s i p o P F. unfold register. destruct i as [x|x| | | |k f]; [destruct (l_up s x)| | | | |]; try (apply on_phase; auto; fail);
    try (split; [exact P|split; [reflexivity|exists o; split; [reflexivity|exact F]]]; fail).
  split; [exact P|split; [reflexivity|]]. exists (LDrop x :: o). st. rewrite <- app_assoc. auto.
Qed.
Lemma on_queue : forall s q s', goes_on (with_queue s q) s' -> goes_on s s'.
Proof. intros s q s' H. exact H. Qed.
Lemma on_unlink : forall s srv i c p, p <> PStopped -> goes_on s (unlink s srv i c p).
Proof. intros s srv i c p P. split; [exact P|split; [reflexivity|exists [LDrop c]; auto]]. Qed.
Lemma on_flags : forall s u w b s', goes_on (with_flags s u w b) s' -> goes_on s s'.
Proof. intros s u w b s' H. exact H. Qed.
Lemma on_self : forall s, l_phase s <> PStopped -> goes_on s s.
Proof. intros s P. split; [exact P|split; [reflexivity|exists []; split; [symmetry; apply app_nil_r|reflexivity]]]. Qed.
Lemma tick_on : forall s add r, l_phase s <> PStopped ->
  goes_on s (tick s add r) \/ exists q, tick s add r = stop (with_queue s q) /\ (l_queue s = q \/ l_queue s = ITerm :: q).
Proof.
  intros s add r NS. assert (SELF : with_queue s (l_queue s) = s) by (destruct s; reflexivity). unfold tick.
  destruct (l_phase s) as [| |srv i set|set|l|srv i k n ready|n go|back| |] eqn:P.
  - unfold first. destruct (l_queue s) as [|i q] eqn:Q; [left; apply on_self; congruence|].
    pose proof (on_register (with_queue s q) i (if snd (register (with_queue s q) i) then PLoop else PFirst) []) as R.
    destruct (register (with_queue s q) i) as [t b] eqn:E. sti R.
    destruct i as [x|x| | | |k f]; try (left; apply (on_queue s q); apply R; [destruct b; discriminate|reflexivity]).
    + right. exists q. auto.
    + left. apply (on_queue s q), on_phase; [discriminate|reflexivity].
    + left. apply (on_queue s q), on_phase; [discriminate|apply plain_foreach].
  - left. destruct (l_con s), (l_srv s); apply on_phase; try discriminate; reflexivity.
  - left. destruct (nth_error (the_list s srv) i) as [x|] eqn:N; [|apply on_phase; [destruct srv; discriminate|reflexivity]].
    destruct (negb (l_up s x)); [apply on_unlink; discriminate|]. destruct (l_unwatch s x); [eapply on_flags; apply on_unlink; discriminate|].
    destruct (l_blocked s x); [apply on_phase; [discriminate|reflexivity]|]. destruct add; [apply on_phase; [discriminate|reflexivity]|]. eapply on_flags; apply on_unlink; discriminate.
  - destruct r; try (left; apply on_tries; discriminate); try (left; apply on_phase; [discriminate|reflexivity]).
    + left. destruct (Nat.eqb _ 2); apply on_tries; discriminate.
    + right. exists (l_queue s). rewrite SELF. auto.
  - left. destruct l; [apply on_tries; discriminate|apply on_phase; [discriminate|reflexivity]].
  - left. destruct srv.
    + destruct (nth_error (l_srv s) i) as [x|] eqn:N; [|apply on_phase; [discriminate|reflexivity]]. destruct (negb (l_up s x)); [apply on_unlink; discriminate|].
      destruct (existsb (Nat.eqb x) ready); match goal with |- context [?a =? ?b] => destruct (a =? b) end; apply on_phase; try discriminate; reflexivity.
    + destruct (nth_error (l_con s) i) as [x|] eqn:N; [|apply on_tries; discriminate]. destruct (n =? k); [apply on_tries; discriminate|]. destruct (negb (l_up s x)); [apply on_unlink; discriminate|].
      destruct (existsb (Nat.eqb x) ready); apply on_phase; try discriminate; reflexivity.
  - destruct n as [|n]; [destruct go|].
    + left. apply on_phase; [discriminate|reflexivity].
    + right. exists (l_queue s). rewrite SELF. auto.
    + left. unfold pending. destruct (l_queue s) as [|i q] eqn:Q; [apply on_self; congruence|].
      destruct i as [x|x| | | |k f]; try (apply (on_queue s q); apply on_register; [discriminate|reflexivity]); apply (on_queue s q), on_phase; try discriminate; try reflexivity. apply plain_foreach.
  - left. unfold changed_io. destruct (l_queue s) as [|i q] eqn:Q; [apply on_self; congruence|].
    pose proof (on_register (with_phase (with_queue s q) (l_phase s) [LMade]) i (match back with Some n => PPending n true | None => if snd (register (with_phase (with_queue s q) (l_phase s) [LMade]) i) then PLoop else PFirst end) []) as R.
    destruct (register (with_phase (with_queue s q) (l_phase s) [LMade]) i) as [t b] eqn:E. sti R. destruct R as [R1 [R2 [o [R3 R4]]]]; [destruct back; [|destruct b]; discriminate|reflexivity|].
    split; [exact R1|split; [exact R2|]]. exists (LMade :: o). st. sti R3. rewrite R3, <- app_assoc. split; [reflexivity|exact R4].
  - contradiction.
  - left. apply on_self. congruence.
Qed.
Lemma stopped_push : forall s i o s', push s i o = Ok s' -> l_phase s <> PStopped /\ l_phase s' = l_phase s /\ l_left s' = l_left s /\ l_queue s' = l_queue s ++ [i] /\ l_log s' = l_log s ++ o.
Proof. intros s i o s' E. apply push_ok in E. destruct E as [NS ->]. conj; auto. Qed.
Lemma ended_off : forall s, l_phase s <> PStopped -> (ended_ok s <-> stops (l_log s) = 0 /\ l_left s = []).
Proof. intros s NS. unfold ended_ok. destruct (l_phase s); try reflexivity. congruence. Qed.
Lemma stops_app : forall l m, stops (l ++ m) = stops l + stops m.
Proof. intros. apply cnt_app. Qed.
Lemma ended_step : forall s e s', ended_ok s -> lstep s e = Ok s' -> ended_ok s'.
Proof.
  intros s e s' H E.
  assert (PUSH : forall i o, stops o = 0 -> push s i o = Ok s' -> ended_ok s').
  { intros i o F X. apply stopped_push in X. destruct X as [NS [P [L [_ G]]]]. apply (ended_off s NS) in H. apply ended_off; [congruence|]. rewrite L, G, stops_app, F. destruct H; split; [lia|assumption]. }
  destruct e as [x ok|x| |k f| | |x|x|x b|add r|bad]; cbn [lstep] in E; try (eapply PUSH; [|exact E]; reflexivity); try (injection E as <-; exact H).
  - destruct (l_up s x && ok); [eapply PUSH; [|exact E]; reflexivity|]. injection E as <-. exact H.
  - injection E as <-. destruct (l_phase s) eqn:P; try (destruct (tick_on s add r) as [T|[q [T _]]]; [rewrite P; discriminate| |];
      [destruct T as [T1 [T2 [o [T3 T4]]]]; apply ended_off in H; [|rewrite P; discriminate]; apply ended_off; [exact T1|]; rewrite T2, T3, stops_app, (plain_stops o T4); destruct H; split; [lia|assumption]|
       rewrite T; apply ended_off in H; [|rewrite P; discriminate]; unfold ended_ok, stop; st; unfold stops in *; rewrite !cnt_app, !cnt_map, !(cnt_none _ (fun _ => false)) by reflexivity; cbn [cnt]; conj; auto; lia]).
    unfold tick. rewrite P. exact H.
  - destruct (l_phase s) eqn:P; injection E as <-; try exact H. apply ended_off in H; [|rewrite P; discriminate]. unfold ended_ok, cleanup.
    destruct (clean bad (l_up s) (l_con s)) as [[k g] u]. destruct (clean bad u (l_srv s)) as [[k2 g2] u2]. st. rewrite stops_app. unfold stops at 2. rewrite cnt_map, (cnt_none _ (fun _ => false)) by reflexivity. destruct H; split; [lia|assumption].
Qed.
Lemma ended_run : forall l s, lrun l0 l = Ok s -> ended_ok s.
Proof. apply (run_inv (fun _ s => ended_ok s)); [split; reflexivity|]. intros l s e s' _ H E. eapply ended_step; eauto. Qed.
Theorem once_thm : forall l s, lrun l0 l = Ok s ->
  cnt (fun o => match o with LStopped => true | _ => false end) (l_log s) = (match l_phase s with PStopped => 1 | _ => 0 end).
Proof. intros l s R. pose proof (ended_run l s R) as H. unfold ended_ok, stops in H. destruct (l_phase s); tauto. Qed.
Theorem released_thm : forall l s c, lrun l0 l = Ok s -> l_phase s = PStopped -> taken c (l_log s) = dropped c (l_log s) + requested c (l_left s).
Proof.
  intros l s c R P. pose proof (ended_run l s R) as H. unfold ended_ok in H. rewrite P in H. destruct H as [_ [Q [A B]]].
  rewrite (refs_thm l s c R). unfold listed. rewrite Q, A, B. cbn. lia.
Qed.
Theorem left_thm : forall l s, lrun l0 l = Ok s -> l_phase s <> PStopped -> l_left s = [].
Proof. intros l s R P. pose proof (ended_run l s R) as H. apply ended_off in H; tauto. Qed.
(** Nothing changes after the end. *)
Theorem still_thm : forall l s, l_phase s = PStopped -> (forall e, In e l -> is_push e = false) -> exists s', lrun s l = Ok s' /\ l_phase s' = PStopped /\ l_log s' = l_log s.
Proof.
  induction l as [|e l IH]; intros s P H; [exists s; auto|]. assert (T : exists s1, lstep s e = Ok s1 /\ l_phase s1 = PStopped /\ l_log s1 = l_log s).
  { specialize (H e (or_introl eq_refl)). destruct e as [x ok|x| |k f| | |x|x|x b|add r|bad]; try discriminate; cbn [lstep]; rewrite ?P; eexists; (split; [reflexivity|]); st; auto. unfold tick. rewrite P. auto. }
  destruct T as [s1 [E [P1 L1]]]. destruct (IH s1 P1) as [s' [R [P2 L2]]]; [intros e' I; apply H; right; exact I|].
  exists s'. cbn [lrun]. rewrite E. cbn [obind]. conj; auto. congruence.
Qed.

(** * The request to stop that is lost *)
Definition deaf (s : lst) : Prop := existsb is_term (l_queue s) = false /\ l_phase s <> PStopped /\ forall n, l_phase s <> PPending n false.
Lemma deaf_reg : forall s i p o, is_term i = false -> existsb is_term (l_queue s) = false -> (p <> PStopped /\ forall n, p <> PPending n false) -> deaf (with_phase (fst (register s i)) p o).
Proof. intros s i p o T Q [P1 P2]. pose proof (reg_same s i) as [R _]. unfold deaf. st. rewrite R. auto. Qed.
Lemma deaf_tick : forall s add r, deaf s -> r <> RFatal -> deaf (tick s add r).
Proof.
  intros s add r [D1 [D2 D3]] NR. assert (POP : forall i q, l_queue s = i :: q -> is_term i = false /\ existsb is_term q = false).
  { intros i q Q. rewrite Q in D1. cbn [existsb] in D1. apply orb_false_iff in D1. exact D1. }
  unfold tick. destruct (l_phase s) as [| |srv i set|set|l|srv i k n ready|n go|back| |] eqn:P.
  - unfold first. destruct (l_queue s) as [|i q] eqn:Q; [unfold deaf; rewrite P, Q; conj; auto|]. destruct (POP i q eq_refl) as [T1 T2].
    pose proof (deaf_reg (with_queue s q) i (if snd (register (with_queue s q) i) then PLoop else PFirst) [] T1 T2) as R. destruct (register (with_queue s q) i) as [t b]. sti R.
    destruct i as [x|x| | | |k f]; try discriminate; try (apply R; split; [|intros n]; destruct b; discriminate); unfold deaf; st; conj; auto; discriminate.
  - destruct (l_con s), (l_srv s); unfold deaf; st; conj; auto; discriminate.
  - destruct (nth_error (the_list s srv) i) as [x|] eqn:N; [|unfold deaf; st; conj; auto; [|intros n]; destruct srv; discriminate].
    destruct (negb (l_up s x)); [|destruct (l_unwatch s x); [|destruct (l_blocked s x); [|destruct add]]]; unfold deaf, unlink; st; conj; auto; discriminate.
  - destruct r; try contradiction; try (destruct (Nat.eqb _ 2)); unfold deaf; st; conj; auto; discriminate.
  - destruct l; unfold deaf; st; conj; auto; discriminate.
  - destruct srv.
    + destruct (nth_error (l_srv s) i) as [x|] eqn:N; [|unfold deaf; st; conj; auto; discriminate]. destruct (negb (l_up s x)); [unfold deaf, unlink; st; conj; auto; discriminate|].
      match goal with |- context [?a =? ?b] => destruct (a =? b) end; unfold deaf; st; conj; auto; discriminate.
    + destruct (nth_error (l_con s) i) as [x|] eqn:N; [|unfold deaf; st; conj; auto; discriminate]. destruct (n =? k); [unfold deaf; st; conj; auto; discriminate|].
      destruct (negb (l_up s x)); [unfold deaf, unlink; st; conj; auto; discriminate|]. destruct (existsb (Nat.eqb x) ready); unfold deaf; st; conj; auto; discriminate.
  - destruct n as [|n]; [destruct go; [unfold deaf; st; conj; auto; discriminate|contradiction (D3 0%nat); reflexivity]|].
    unfold pending. destruct (l_queue s) as [|i q] eqn:Q; [unfold deaf; rewrite P, Q; conj; auto|]. destruct (POP i q eq_refl) as [T1 T2].
    destruct i as [x|x| | | |k f]; try discriminate; try (apply deaf_reg; [exact T1|exact T2|split; discriminate]); unfold deaf; st; conj; auto; discriminate.
  - unfold changed_io. destruct (l_queue s) as [|i q] eqn:Q; [unfold deaf; rewrite P, Q; conj; auto|]. destruct (POP i q eq_refl) as [T1 T2]. rewrite P.
    pose proof (deaf_reg (with_phase (with_queue s q) (PChange back) [LMade]) i (match back with Some n => PPending n true | None => if snd (register (with_phase (with_queue s q) (PChange back) [LMade]) i) then PLoop else PFirst end) [] T1 T2) as R.
    destruct (register _ i) as [t b]. sti R. apply R. split; [|intros n]; destruct back; try discriminate; destruct b; discriminate.
  - contradiction.
  - unfold deaf. rewrite P. conj; auto.
Qed.
Lemma deaf_step : forall s e s', deaf s -> e <> Stop -> (forall a, e <> Tick a RFatal) -> lstep s e = Ok s' -> deaf s'.
Proof.
  intros s e s' D NS NF E. assert (PUSH : forall i o, is_term i = false -> push s i o = Ok s' -> deaf s').
  { intros i o F X. apply stopped_push in X. destruct X as [X1 [X2 [X3 [X4 X5]]]]. destruct D as [D1 [D2 D3]]. unfold deaf. rewrite X2, X4, existsb_app', D1. cbn [existsb]. rewrite F. auto. }
  destruct e as [x ok|x| |k f| | |x|x|x b|add r|bad]; cbn [lstep] in E; try contradiction; try (eapply PUSH; [|exact E]; reflexivity); try (injection E as <-; exact D).
  - destruct (l_up s x && ok); [eapply PUSH; [|exact E]; reflexivity|]. injection E as <-. exact D.
  - injection E as <-. apply deaf_tick; auto. intros ->. apply (NF add). reflexivity.
  - destruct (l_phase s) eqn:P; injection E as <-; try exact D. destruct D as [D1 _]. unfold deaf, cleanup.
    destruct (clean bad (l_up s) (l_con s)) as [[k g] u]. destruct (clean bad u (l_srv s)) as [[k2 g2] u2]. st. conj; auto; discriminate.
Qed.
Lemma deaf_run : forall l s s', deaf s -> (forall e, In e l -> e <> Stop /\ forall a, e <> Tick a RFatal) -> lrun s l = Ok s' -> l_phase s' <> PStopped.
Proof.
  induction l as [|e l IH]; intros s s' D H R; cbn [lrun] in R; [injection R as <-; apply D|]. apply obind_ok in R. destruct R as [s1 [R1 R2]].
  destruct (H e (or_introl eq_refl)) as [H1 H2]. apply (IH s1); auto; [eapply deaf_step; eauto|]. intros e' I. apply H. right. exact I.
Qed.
Definition lost_run : list lev := [Watch 1 true; Tick true RTimeout; Tick true RTimeout; Tick true RTimeout; Tick true RTimeout; Tick true RTimeout; Stop; Watch 2 true;
  Tick true RTimeout; Tick true RTimeout; Tick true RTimeout; Tick true RTimeout].
Theorem lost_thm : exists l s, lrun l0 l = Ok s /\ In Stop l /\ running s /\ l_queue s = [] /\
  forall m s', (forall e, In e m -> e <> Stop /\ forall a, e <> Tick a RFatal) -> lrun s m = Ok s' -> l_phase s' <> PStopped.
Proof.
  eexists lost_run, _. split; [vm_compute; reflexivity|]. conj.
  - cbn. auto 8.
  - split; vm_compute; discriminate.
  - reflexivity.
  - intros m s' H R. eapply deaf_run; [|exact H|exact R]. split; [reflexivity|split; discriminate].
Qed.
