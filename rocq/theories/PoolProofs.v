From Coq Require Import Permutation.
From Verif Require Import Base AsyncModel AsyncSpec AsyncProofs TimeModel PoolModel PoolSpec.
Ltac conj := repeat match goal with |- _ /\ _ => split end.

(** ** Lists of threads *)
Definition collect {A} (f : Z -> tstate -> list A) (l : list (Z * tstate)) : list A :=
  flat_map (fun e => f (fst e) (snd e)) l.

Lemma state_in l t s : state_of l t = Some s -> In (t, s) l.
Proof.
  unfold state_of. destruct (find _ l) as [e|] eqn:E; [|discriminate]. intros H. injection H as <-.
  apply find_some in E as (I & E). destruct e as [a b]. cbn in *. replace t with a by lia. exact I.
Qed.
Lemma state_none l t : state_of l t = None -> ~ In t (map fst l).
Proof.
  unfold state_of. destruct (find _ l) as [e|] eqn:E; [discriminate|]. intros _ I. apply in_map_iff in I as ([a b] & <- & I).
  pose proof (find_none _ _ E _ I) as N. cbn in N. lia.
Qed.
Lemma set_state_out l t s : ~ In t (map fst l) -> set_state l t s = l.
Proof.
  induction l as [|[a b] l IH]; cbn; [auto|]. intros N. replace (a =? t) with false by lia. f_equal. apply IH. tauto.
Qed.
Lemma drop_out l t : ~ In t (map fst l) -> drop_thread l t = l.
Proof.
  induction l as [|[a b] l IH]; cbn; [auto|]. intros N. replace (a =? t) with false by lia. cbn. f_equal. apply IH. tauto.
Qed.
Lemma set_state_ids l t s : map fst (set_state l t s) = map fst l.
Proof.
  unfold set_state. rewrite map_map. apply map_ext. intros [a b]. cbn. destruct (a =? t) eqn:E; cbn; lia.
Qed.
Lemma state_of_set l t s : In t (map fst l) -> state_of (set_state l t s) t = Some s.
Proof.
  unfold state_of. induction l as [|[a b] l IH]; cbn; [tauto|]. intros I.
  destruct (a =? t) eqn:E; cbn.
  - replace (t =? t) with true by lia. reflexivity.
  - rewrite E. apply IH. destruct I as [I|I]; [lia|exact I].
Qed.
Lemma state_of_app l l' t s : state_of l t = Some s -> state_of (l ++ l') t = Some s.
Proof.
  unfold state_of. induction l as [|[a b] l IH]; cbn; [discriminate|]. destruct (a =? t); auto.
Qed.
Lemma split_thread l t s : NoDup (map fst l) -> state_of l t = Some s ->
  exists a b, l = a ++ (t, s) :: b /\ ~ In t (map fst a) /\ ~ In t (map fst b).
Proof.
  intros N S. apply state_in in S. apply in_split in S as (a & b & ->). exists a, b. split; [reflexivity|].
  rewrite map_app in N. cbn in N. apply NoDup_remove_2 in N. rewrite in_app_iff in N. tauto.
Qed.
Lemma set_split a b t s s' : ~ In t (map fst a) -> ~ In t (map fst b) ->
  set_state (a ++ (t, s) :: b) t s' = a ++ (t, s') :: b.
Proof.
  intros A B. unfold set_state. rewrite map_app. cbn. replace (t =? t) with true by lia.
  fold (set_state a t s') (set_state b t s'). now rewrite !set_state_out.
Qed.
Lemma drop_split a b t s : ~ In t (map fst a) -> ~ In t (map fst b) -> drop_thread (a ++ (t, s) :: b) t = a ++ b.
Proof.
  intros A B. unfold drop_thread. rewrite filter_app. cbn. replace (t =? t) with true by lia. cbn.
  fold (drop_thread a t) (drop_thread b t). now rewrite !drop_out.
Qed.
Lemma collect_app A (f : Z -> tstate -> list A) a b : collect f (a ++ b) = collect f a ++ collect f b.
Proof. apply flat_map_app. Qed.
Lemma collect_mid A (f : Z -> tstate -> list A) a t s b :
  Permutation (collect f (a ++ (t, s) :: b)) (f t s ++ collect f (a ++ b)).
Proof.
  rewrite !collect_app. cbn [collect flat_map fst snd]. fold (collect f b).
  rewrite !app_assoc. apply Permutation_app_tail, Permutation_app_comm.
Qed.
Lemma collect_set A (f : Z -> tstate -> list A) l t s s' : NoDup (map fst l) -> state_of l t = Some s ->
  exists r, Permutation (collect f l) (f t s ++ r) /\ Permutation (collect f (set_state l t s')) (f t s' ++ r).
Proof.
  intros N S. destruct (split_thread l t s N S) as (a & b & -> & A1 & B1). exists (collect f (a ++ b)).
  rewrite (set_split a b t s s' A1 B1). split; apply collect_mid.
Qed.
Lemma collect_drop A (f : Z -> tstate -> list A) l t s : NoDup (map fst l) -> state_of l t = Some s ->
  Permutation (collect f l) (f t s ++ collect f (drop_thread l t)).
Proof.
  intros N S. destruct (split_thread l t s N S) as (a & b & -> & A1 & B1).
  rewrite (drop_split a b t s A1 B1). apply collect_mid.
Qed.
Lemma drop_ids l t : incl (map fst (drop_thread l t)) (map fst l).
Proof.
  intros x I. apply in_map_iff in I as (e & <- & I). apply filter_In in I as (I & _). now apply in_map.
Qed.
Lemma drop_nodup l t : NoDup (map fst l) -> NoDup (map fst (drop_thread l t)).
Proof.
  induction l as [|[a b] l IH]; cbn; [auto|]. intros N. inversion N as [|? ? N1 N2]; subst.
  destruct (negb (a =? t)); cbn; [|auto]. constructor; [|auto]. intros I. apply N1. now apply drop_ids in I.
Qed.
Lemma nodup_app A (a b : list A) : NoDup a -> NoDup b -> (forall x, In x a -> In x b -> False) -> NoDup (a ++ b).
Proof.
  induction a as [|x a IH]; intros NA NB D; cbn; [auto|]. inversion NA; subst. constructor.
  - rewrite in_app_iff. intros [I|I]; [auto|]. apply (D x); cbn; auto.
  - apply IH; auto. intros y I J. apply (D y); cbn; auto.
Qed.
Lemma zseq_in n : forall a x, In x (zseq a n) -> a <= x < a + Z.of_nat n.
Proof. induction n as [|n IH]; intros a x; cbn [zseq In]; [tauto|]. intros [<-|I]; [lia|]. apply IH in I. lia. Qed.
Lemma zseq_nodup n : forall a, NoDup (zseq a n).
Proof. induction n as [|n IH]; intros a; cbn; constructor; auto. intros I. apply zseq_in in I. lia. Qed.
Lemma zseq_len n : forall a, length (zseq a n) = n.
Proof. induction n as [|n IH]; intros a; cbn; auto. Qed.
Lemma zseq_snoc n : forall a, zseq a n ++ [a + Z.of_nat n] = zseq a (S n).
Proof.
  induction n as [|n IH]; intros a; [cbn; do 2 f_equal; lia|]. cbn [zseq app]. f_equal.
  specialize (IH (a + 1)). cbn [zseq] in IH. rewrite <- IH. do 2 f_equal. lia.
Qed.

(** ** Parts of the state of a thread *)
Definition fwait (t : Z) (s : tstate) : list Z := match s with TWait => [t] | _ => [] end.
Definition fgot (t : Z) (s : tstate) : list Z := match s with TGot x => [x] | _ => [] end.
Definition fheld (t : Z) (s : tstate) : list Z :=
  match s with TGot x => if 3 <? x then [x - 4] else [] | TPre n | TRun n => [n] | _ => [] end.
Definition flisted (t : Z) (s : tstate) : list Z := match s with TPush3 => [] | _ => [t] end.
Definition fone (t : Z) (s : tstate) : list Z := match s with TGot x => if x =? 1 then [t] else [] | _ => [] end.
Definition fjoin (t : Z) (s : tstate) : list Z := match s with TJoin w => [w] | _ => [] end.

Definition tasks_in (l : list Z) : list Z := flat_map (fun x => if 3 <? x then [x - 4] else []) l.
Definition ones (l : list Z) : Z := zlen (filter (fun x => x =? 1) l).

Record pinv (p : tpool) : Prop := {
  v_ids : NoDup (map fst (tp_run p));
  v_thr : NoDup (tp_threads p);
  v_lt : forall t, In t (map fst (tp_run p)) \/ In t (tp_threads p) \/ In t (tp_stopped p)
           \/ In t (collect fjoin (tp_run p)) -> 0 <= t < tp_next p;
  v_next : 0 <= tp_next p;
  v_wait : Permutation (map wt_id (aq_blocked (tp_q p) ++ aq_woken (tp_q p))) (collect fwait (tp_run p));
  v_timed : Forall (fun w => wt_timed w = true) (aq_blocked (tp_q p) ++ aq_woken (tp_q p));
  v_awake : awake (tp_q p);
  v_items : Forall (fun x => 0 < x) (aq_data (tp_q p));
  v_got : Forall (fun x => 0 <= x) (collect fgot (tp_run p));
  v_order : submitted (tp_log p) = taken (tp_log p) ++ tasks_in (rev (aq_data (tp_q p)));
  v_tasks : Permutation (taken (tp_log p)) (executed (tp_log p) ++ dropped (tp_log p) ++ collect fheld (tp_run p));
  v_sub : 0 <= tp_tasks p /\ submitted (tp_log p) = zseq 0 (Z.to_nat (tp_tasks p));
  v_drop : dropped (tp_log p) <> [] -> tp_stopping p = true \/ tp_exit p = true;
  v_hold : forall h n, tp_hold p = Some (h, n) -> 0 < n;
  v_list : exists ended, Permutation (tp_threads p) (ended ++ collect flisted (tp_run p))
             /\ zlen ended + ones (aq_data (tp_q p)) + zlen (collect fone (tp_run p)) = tp_beacons p;
  v_beac : 0 < tp_beacons p -> tp_stopping p = true;
  v_stop : forall w, In w (tp_stopped p) \/ In w (collect fjoin (tp_run p)) -> ~ In w (tp_threads p)
}.

Lemma submitted_app a b : submitted (a ++ b) = submitted a ++ submitted b.
Proof. apply flat_map_app. Qed.
Lemma taken_app a b : taken (a ++ b) = taken a ++ taken b.
Proof. apply flat_map_app. Qed.
Lemma executed_app a b : executed (a ++ b) = executed a ++ executed b.
Proof. apply flat_map_app. Qed.
Lemma dropped_app a b : dropped (a ++ b) = dropped a ++ dropped b.
Proof. apply flat_map_app. Qed.
Ltac logs := rewrite ?submitted_app, ?taken_app, ?executed_app, ?dropped_app;
  cbn [submitted taken executed dropped flat_map app]; rewrite ?app_nil_r.

(** Observations that are not about tasks. *)
Definition aside (o : pobs) : Prop := match o with PAdded _ _ _ | PRemoved _ _ _ | PSetAt _ _ => True | _ => False end.

Lemma aside_logs o : Forall aside o -> submitted o = [] /\ taken o = [] /\ executed o = [] /\ dropped o = [].
Proof.
  induction 1 as [|x l H _ (A & B & C & D)]; [auto|]. unfold submitted, taken, executed, dropped in *. cbn [flat_map].
  destruct x; try contradiction; cbn [app]; auto.
Qed.

Lemma inv_frame p c l h sb st ex o : pinv p -> (forall a n, h = Some (a, n) -> 0 < n) ->
  (tp_stopping p = true -> st = true) -> (tp_exit p = true -> ex = true) -> Forall aside o ->
  pinv (mkTP (tp_q p) (tp_threads p) (tp_stopped p) (tp_run p) (tp_next p) (tp_tasks p) c l h sb (tp_beacons p) st ex
             (tp_log p ++ o)).
Proof.
  intros [] H S E O. apply aside_logs in O as (O1 & O2 & O3 & O4).
  constructor; cbn; rewrite ?submitted_app, ?taken_app, ?executed_app, ?dropped_app, ?O1, ?O2, ?O3, ?O4, ?app_nil_r; auto.
  intros D. destruct (v_drop0 D); auto.
Qed.

Lemma collect_start A (f : Z -> tstate -> list A) ids : (forall t, f t TStart = []) -> collect f (map (fun t => (t, TStart)) ids) = [].
Proof. intros F. induction ids as [|i ids IH]; cbn; [auto|]. rewrite F. exact IH. Qed.
Lemma collect_listed ids : collect flisted (map (fun t => (t, TStart)) ids) = ids.
Proof. induction ids as [|i ids IH]; cbn; [auto|]. f_equal. exact IH. Qed.

Lemma inv_add p n made : pinv p -> pinv (add_internal p n made).
Proof.
  intros []. unfold add_internal. set (m := if 0 <? n then _ else 0). assert (0 <= m) by (subst m; destruct (0 <? n); lia).
  assert (F : forall x, In x (zseq (tp_next p) (Z.to_nat m)) -> tp_next p <= x < tp_next p + m)
    by (intros x I; apply zseq_in in I; lia).
  set (ids := zseq (tp_next p) (Z.to_nat m)) in *.
  assert (MF : map fst (map (fun t => (t, TStart)) ids) = ids) by (rewrite map_map; apply map_id).
  assert (ND : NoDup ids) by apply zseq_nodup.
  constructor; cbn [tp_q tp_threads tp_stopped tp_run tp_next tp_tasks tp_hold tp_beacons tp_stopping tp_exit tp_log];
    rewrite ?(map_app fst), ?collect_app, ?(collect_start _ fjoin), ?(collect_start _ fwait), ?(collect_start _ fgot),
      ?(collect_start _ fheld), ?(collect_start _ fone), ?collect_listed, ?MF, ?app_nil_r by reflexivity;
    try assumption.
  - apply nodup_app; auto. intros x I J. apply F in J. assert (0 <= x < tp_next p) by (apply v_lt0; auto). lia.
  - apply nodup_app; auto. intros x I J. apply F in J. assert (0 <= x < tp_next p) by (apply v_lt0; auto). lia.
  - intros t I. rewrite !in_app_iff in I.
    assert (O : In t (map fst (tp_run p)) \/ In t (tp_threads p) \/ In t (tp_stopped p) \/ In t (collect fjoin (tp_run p)) \/ In t ids) by tauto.
    destruct O as [O|[O|[O|[O|O]]]]; [| | | |apply F in O; lia];
      (assert (0 <= t < tp_next p) by (apply v_lt0; auto); lia).
  - lia.
  - destruct v_list0 as (ended & P & E). exists ended. split; [|exact E].
    rewrite app_assoc. now apply Permutation_app_tail.
  - intros w I. rewrite in_app_iff. intros [J|J]; [now apply (v_stop0 w)|].
    apply F in J. assert (0 <= w < tp_next p) by (apply v_lt0; tauto). lia.
Qed.

(** A thread moves on, without touching the queue. *)
Lemma inv_goto p t s s' st' o : pinv p -> state_of (tp_run p) t = Some s ->
  fwait t s = [] -> fwait t s' = [] -> flisted t s = [t] -> flisted t s' = [t] -> fone t s = [] -> fone t s' = [] ->
  fgot t s' = [] -> incl (st' ++ fjoin t s') (tp_stopped p ++ fjoin t s) ->
  submitted o = [] -> taken o = [] -> Permutation (fheld t s) (executed o ++ dropped o ++ fheld t s') ->
  (dropped o <> [] -> tp_stopping p = true \/ tp_exit p = true) ->
  pinv (mkTP (tp_q p) (tp_threads p) st' (set_state (tp_run p) t s') (tp_next p) (tp_tasks p) (tp_conf p) (tp_last p)
             (tp_hold p) (tp_subm p) (tp_beacons p) (tp_stopping p) (tp_exit p) (tp_log p ++ o)).
Proof.
  intros I S W W' L L' O O' G' J SO TO H D. pose proof (v_ids p I) as N. destruct I.
  pose proof (fun A (f : Z -> tstate -> list A) => collect_set A f (tp_run p) t s s' N S) as C.
  assert (JJ : forall w, In w st' \/ In w (collect fjoin (set_state (tp_run p) t s')) ->
            In w (tp_stopped p) \/ In w (collect fjoin (tp_run p))).
  { destruct (C _ fjoin) as (r & C1 & C2). intros w K.
    assert (K' : In w (st' ++ fjoin t s') \/ In w r).
    { destruct K as [K|K]; [left; apply in_app_iff; auto|]. apply (Permutation_in _ C2) in K.
      apply in_app_iff in K as [K|K]; [left; apply in_app_iff; auto|auto]. }
    destruct K' as [K'|K'].
    - apply J in K'. apply in_app_iff in K' as [K'|K']; [auto|]. right.
      apply (Permutation_in _ (Permutation_sym C1)). apply in_app_iff; auto.
    - right. apply (Permutation_in _ (Permutation_sym C1)). apply in_app_iff; auto. }
  constructor; cbn [tp_q tp_threads tp_stopped tp_run tp_next tp_tasks tp_hold tp_beacons tp_stopping tp_exit tp_log];
    rewrite ?set_state_ids; auto.
  - intros w K. apply v_lt0. destruct K as [K|[K|K]]; [auto|auto|]. apply JJ in K. tauto.
  - destruct (C _ fwait) as (r & C1 & C2). rewrite W in C1. rewrite W' in C2. cbn in *.
    rewrite C2, <- C1. exact v_wait0.
  - destruct (C _ fgot) as (r & C1 & C2). rewrite G' in C2. cbn in *. rewrite C2. rewrite C1 in v_got0.
    apply Forall_app in v_got0. tauto.
  - logs. rewrite SO, TO, !app_nil_r. exact v_order0.
  - logs. rewrite TO, app_nil_r. destruct (C _ fheld) as (r & C1 & C2). rewrite C2, v_tasks0, C1, H.
    rewrite <- !app_assoc. apply Permutation_app_head.
    rewrite !app_assoc. do 2 apply Permutation_app_tail. rewrite <- !app_assoc.
    apply Permutation_app_swap_app.
  - logs. rewrite SO, app_nil_r. exact v_sub0.
  - logs. intros K. destruct (dropped (tp_log p)) eqn:E; [auto|]. apply v_drop0. congruence.
  - destruct v_list0 as (ended & P & E). exists ended. split.
    + destruct (C _ flisted) as (r & C1 & C2). rewrite L in C1. rewrite L' in C2. rewrite C2, <- C1. exact P.
    + destruct (C _ fone) as (r & C1 & C2). rewrite O in C1. rewrite O' in C2. cbn in *.
      apply Permutation_length in C1, C2. unfold zlen in *. rewrite C2, <- C1. exact E.
Qed.

(** A push on the queue. *)
Lemma q_push_shape q x k : 0 < x -> let q' := astep q (EPush x k) in
  aq_log q' = aq_log q ++ [APushed x] /\ aq_data q' = x :: aq_data q /\
  Permutation (aq_blocked q' ++ aq_woken q') (aq_blocked q ++ aq_woken q).
Proof.
  intros X. cbn [astep]. unfold nonnull. replace (x =? 0) with false by lia. cbn [negb]. unfold push.
  destruct (signal_waiters_data (unlocked_push q x) k) as (D & L & _). cbv zeta. rewrite D, L. cbn. conj; auto.
  unfold signal_waiters, signal. destruct (0 <? aq_waiters (unlocked_push q x)); [|reflexivity].
  destruct (pick k (aq_blocked (unlocked_push q x))) as [[w b]|] eqn:P; [|reflexivity]. apply pick_perm in P. cbn in *.
  rewrite P. rewrite app_assoc. symmetry. cbn. apply Permutation_cons_append.
Qed.
Lemma results_same old : q_results old old = [].
Proof. unfold q_results. now rewrite skipn_all. Qed.
Lemma results_app old l : q_results old (old ++ l) =
  flat_map (fun o => match o with AGot t x => [(t, x)] | ANull t => [(t, 0)] | _ => [] end) l.
Proof. unfold q_results. now rewrite skipn_app, skipn_all, Nat.sub_diag. Qed.

Definition next_task (x : Z) (p : tpool) : Prop := 3 < x -> x = 4 + tp_tasks p.

(** The push of item [x], with what goes along with it. *)
Lemma inv_push p x k h sb : pinv p -> 0 < x -> (3 < x -> x = 4 + tp_tasks p) ->
  (x = 1 -> tp_stopping p = true) -> (forall a n, h = Some (a, n) -> 0 < n) ->
  pinv (p_queue (mkTP (tp_q p) (tp_threads p) (tp_stopped p) (tp_run p) (tp_next p)
                      (if 3 <? x then tp_tasks p + 1 else tp_tasks p) (tp_conf p) (tp_last p) h sb
                      (if x =? 1 then tp_beacons p + 1 else tp_beacons p) (tp_stopping p) (tp_exit p)
                      (tp_log p ++ if 3 <? x then [PSubmitted (tp_tasks p)] else [])) (EPush x k)).
Proof.
  intros [] X N SP H. unfold p_queue. destruct (q_push_shape (tp_q p) x k X) as (L & D & B).
  cbn [tp_q tp_run tp_log tp_threads tp_stopped tp_next tp_tasks tp_conf tp_last tp_hold tp_subm tp_beacons tp_stopping tp_exit].
  rewrite L, results_app. cbn [flat_map fold_left app]. rewrite app_nil_r.
  assert (AW : awake (astep (tp_q p) (EPush x k))) by (apply awake_step; auto).
  constructor; cbn [tp_q tp_threads tp_stopped tp_run tp_next tp_tasks tp_hold tp_beacons tp_stopping tp_exit tp_log];
    rewrite ?D; auto.
  - rewrite B. exact v_wait0.
  - rewrite B. exact v_timed0.
  - cbn [rev]. logs. unfold tasks_in. rewrite flat_map_app. fold (tasks_in (rev (aq_data (tp_q p)))). cbn [flat_map].
    rewrite v_order0, app_nil_r. destruct (3 <? x) eqn:E; cbn [submitted taken flat_map app]; rewrite ?app_nil_r; [|auto].
    rewrite <- app_assoc. do 3 f_equal. lia.
  - logs. destruct (3 <? x) eqn:E; cbn [taken executed dropped flat_map]; rewrite ?app_nil_r; auto.
  - destruct v_sub0 as (T & E0). logs. destruct (3 <? x) eqn:E; cbn [submitted flat_map app]; rewrite ?app_nil_r; [|auto].
    split; [lia|]. rewrite E0. replace (Z.to_nat (tp_tasks p + 1)) with (S (Z.to_nat (tp_tasks p))) by lia.
    rewrite <- zseq_snoc. do 2 f_equal. lia.
  - logs. destruct (3 <? x); cbn [dropped flat_map app]; rewrite ?app_nil_r; auto.
  - destruct v_list0 as (ended & P & E). exists ended. split; [exact P|]. unfold ones. cbn [filter].
    destruct (x =? 1) eqn:X1; unfold ones, zlen in *; cbn [length]; lia.
  - destruct (x =? 1) eqn:X1; [|auto]. intros _. apply SP. lia.
Qed.

(** A thread enters the queue. *)
Lemma inv_enter p t : pinv p -> state_of (tp_run p) t = Some TStart -> pinv (p_queue (goto p t TWait) (ETimed t 100000)).
Proof.
  intros I S. pose proof (v_ids p I) as N. pose proof (v_awake p I) as A. destruct I.
  pose proof (fun A (f : Z -> tstate -> list A) s' => collect_set A f (tp_run p) t TStart s' N S) as C.
  assert (AW : awake (astep (tp_q p) (ETimed t 100000))) by (apply awake_step; auto).
  unfold p_queue, goto, with_run.
  cbn [tp_q tp_run tp_log tp_threads tp_stopped tp_next tp_tasks tp_conf tp_last tp_hold tp_subm tp_beacons tp_stopping tp_exit].
  change (astep (tp_q p) (ETimed t 100000)) with (pop_enter (tp_q p) t true) in *. unfold pop_enter in *.
  destruct (take _ t) as [q'|] eqn:T.
  - apply take_some in T as (x & r & E & ->). cbn [aq_log aq_data aq_waiters aq_blocked aq_woken] in *.
    rewrite results_app. cbn [flat_map fold_left app fst snd].
    assert (X : 0 < x).
    { rewrite <- (rev_involutive (aq_data (tp_q p))), E in v_items0. cbn in v_items0. apply Forall_app in v_items0 as (_ & X).
      now inversion X. }
    assert (SS : set_state (set_state (tp_run p) t TWait) t (TGot x) = set_state (tp_run p) t (TGot x)).
    { unfold set_state. rewrite map_map. apply map_ext. intros [a b]. cbn. destruct (a =? t) eqn:Q; cbn;
      [replace (t =? t) with true by lia; auto|now rewrite Q]. }
    rewrite SS.
    constructor; cbn [tp_q tp_threads tp_stopped tp_run tp_next tp_tasks tp_hold tp_beacons tp_stopping tp_exit tp_log
      aq_log aq_data aq_waiters aq_blocked aq_woken]; rewrite ?set_state_ids; auto.
    + intros w K. apply v_lt0. destruct (C _ fjoin (TGot x)) as (r' & C1 & C2). cbn in C1, C2. rewrite C2, <- C1 in K. tauto.
    + destruct (C _ fwait (TGot x)) as (r' & C1 & C2). cbn in C1, C2. rewrite C2, <- C1. exact v_wait0.
    + rewrite <- (rev_involutive (aq_data (tp_q p))), E in v_items0. cbn in v_items0. apply Forall_app in v_items0 as (X0 & _). exact X0.
    + destruct (C _ fgot (TGot x)) as (r' & C1 & C2). cbn in C1, C2. rewrite C2. constructor; [lia|]. now rewrite <- C1.
    + rewrite rev_involutive. logs. rewrite v_order0, E. cbn [tasks_in flat_map took fst snd]. unfold took. cbn.
      destruct (3 <? x); cbn; rewrite ?app_nil_r; auto. now rewrite <- app_assoc.
    + destruct (C _ fheld (TGot x)) as (r' & C1 & C2). logs. unfold took. cbn [fst snd flat_map].
      cbn [fheld app] in C1, C2. destruct (3 <? x) eqn:X3; cbn [taken executed dropped flat_map app] in *; rewrite ?app_nil_r.
      * rewrite C2. rewrite v_tasks0, C1. rewrite <- !app_assoc. do 2 apply Permutation_app_head.
        symmetry. apply Permutation_cons_append.
      * rewrite C2, <- C1. exact v_tasks0.
    + logs. unfold took. cbn [fst snd]. destruct (3 <? x); cbn; rewrite ?app_nil_r; auto.
    + logs. unfold took. cbn [fst snd]. destruct (3 <? x); cbn; rewrite ?app_nil_r; auto.
    + destruct v_list0 as (ended & P & E0). exists ended. split.
      * destruct (C _ flisted (TGot x)) as (r' & C1 & C2). cbn in C1, C2. rewrite C2, <- C1. exact P.
      * destruct (C _ fone (TGot x)) as (r' & C1 & C2). cbn in C1, C2. apply Permutation_length in C1, C2.
        assert (ones (aq_data (tp_q p)) = ones (rev r) + (if x =? 1 then 1 else 0)).
        { rewrite <- (rev_involutive (aq_data (tp_q p))), E. cbn [rev]. unfold ones, zlen. rewrite filter_app, app_length. cbn.
          destruct (x =? 1); cbn; lia. }
        unfold zlen in *. destruct (x =? 1); cbn in *; lia.
    + intros w K. apply v_stop0. destruct (C _ fjoin (TGot x)) as (r' & C1 & C2). cbn in C1, C2. rewrite C2, <- C1 in K. tauto.
  - apply take_none in T. cbn [aq_log aq_data aq_waiters aq_blocked aq_woken] in *. rewrite results_same. cbn [flat_map fold_left].
    rewrite app_nil_r.
    constructor; cbn [tp_q tp_threads tp_stopped tp_run tp_next tp_tasks tp_hold tp_beacons tp_stopping tp_exit tp_log
      aq_log aq_data aq_waiters aq_blocked aq_woken]; rewrite ?set_state_ids; auto.
    + intros w K. apply v_lt0. destruct (C _ fjoin TWait) as (r' & C1 & C2). cbn in C1, C2. rewrite C2, <- C1 in K. tauto.
    + destruct (C _ fwait TWait) as (r' & C1 & C2). cbn in C1, C2. rewrite C2, <- C1, <- v_wait0.
      rewrite <- app_assoc. rewrite !map_app. cbn. symmetry. apply Permutation_middle.
    + rewrite <- app_assoc. apply Forall_app in v_timed0 as (T1 & T2). apply Forall_app. split; [auto|]. constructor; auto.
    + destruct (C _ fgot TWait) as (r' & C1 & C2). cbn in C1, C2. now rewrite C2, <- C1.
    + destruct (C _ fheld TWait) as (r' & C1 & C2). cbn in C1, C2. now rewrite C2, <- C1.
    + destruct v_list0 as (ended & P & E0). exists ended. split.
      * destruct (C _ flisted TWait) as (r' & C1 & C2). cbn in C1, C2. rewrite C2, <- C1. exact P.
      * destruct (C _ fone TWait) as (r' & C1 & C2). cbn in C1, C2. apply Permutation_length in C1, C2. unfold zlen in *. lia.
    + intros w K. apply v_stop0. destruct (C _ fjoin TWait) as (r' & C1 & C2). cbn in C1, C2. rewrite C2, <- C1 in K. tauto.
Qed.

(** A thread waiting in the queue. *)
Lemma waiting_state p t : pinv p -> In t (map wt_id (aq_blocked (tp_q p) ++ aq_woken (tp_q p))) ->
  state_of (tp_run p) t = Some TWait.
Proof.
  intros [] I. rewrite v_wait0 in I. apply in_flat_map in I as ([a s] & I & J). cbn in J.
  destruct s; cbn in J; try contradiction. destruct J as [->|[]].
  clear - I v_ids0. unfold state_of. induction (tp_run p) as [|[a b] l IH]; cbn in *; [tauto|].
  inversion v_ids0; subst. destruct (a =? t) eqn:E.
  - destruct I as [I|I]; [injection I as -> ->; auto|]. exfalso. apply H1. replace a with t by lia.
    apply in_map_iff. exists (t, TWait). auto.
  - destruct I as [I|I]; [injection I as -> ->; lia|]. auto.
Qed.
Lemma inv_wake p k : pinv p -> pinv (p_queue p (EWake k)).
Proof.
  intros I. pose proof (v_awake p I) as A. assert (AW : awake (astep (tp_q p) (EWake k))) by (apply awake_step; auto).
  destruct I. unfold p_queue.
  change (astep (tp_q p) (EWake k)) with (signal (tp_q p) k) in *.
  destruct (signal_data (tp_q p) k) as (D & L & _). rewrite L, results_same. cbn [flat_map fold_left]. rewrite app_nil_r.
  assert (B : Permutation (aq_blocked (signal (tp_q p) k) ++ aq_woken (signal (tp_q p) k)) (aq_blocked (tp_q p) ++ aq_woken (tp_q p))).
  { unfold signal. destruct (pick k (aq_blocked (tp_q p))) as [[w b]|] eqn:P; [|reflexivity]. apply pick_perm in P. cbn in *.
    rewrite P. rewrite app_assoc. symmetry. cbn. apply Permutation_cons_append. }
  constructor; cbn [tp_q tp_threads tp_stopped tp_run tp_next tp_tasks tp_hold tp_beacons tp_stopping tp_exit tp_log];
    rewrite ?D; auto; rewrite B; auto.
Qed.
Lemma inv_resume p k : pinv p -> pinv (p_queue p (ERun k)).
Proof.
  intros I. pose proof (v_awake p I) as A. assert (AW : awake (astep (tp_q p) (ERun k))) by (apply awake_step; auto).
  pose proof (v_ids p I) as N. pose proof (waiting_state p) as WS. unfold p_queue.
  change (astep (tp_q p) (ERun k)) with (pop_resume (tp_q p) k) in *. unfold pop_resume in *.
  destruct (pick k (aq_woken (tp_q p))) as [[w b]|] eqn:P.
  2: { rewrite results_same. cbn [flat_map fold_left]. rewrite app_nil_r. destruct p; exact I. }
  apply pick_perm in P.
  assert (S : state_of (tp_run p) (wt_id w) = Some TWait).
  { apply WS; [auto|]. rewrite P. rewrite map_app. apply in_app_iff. right. cbn. auto. }
  destruct I.
  assert (TW : wt_timed w = true).
  { rewrite P in v_timed0. apply Forall_app in v_timed0 as (_ & T). now inversion T. }
  rewrite TW in *.
  pose proof (fun A (f : Z -> tstate -> list A) s' => collect_set A f (tp_run p) (wt_id w) TWait s' N S) as C.
  assert (PB : forall x, Permutation (map wt_id (aq_blocked (tp_q p) ++ b)) (collect fwait (set_state (tp_run p) (wt_id w) (TGot x)))).
  { intros x. destruct (C _ fwait (TGot x)) as (r' & C1 & C2). cbn in C1, C2. rewrite C2.
    rewrite P in v_wait0. rewrite map_app in v_wait0. cbn in v_wait0. rewrite <- Permutation_middle, C1 in v_wait0.
    apply Permutation_cons_inv in v_wait0. now rewrite map_app. }
  assert (TB : Forall (fun w => wt_timed w = true) (aq_blocked (tp_q p) ++ b)).
  { rewrite P in v_timed0. apply Forall_app in v_timed0 as (T1 & T2). apply Forall_app. split; [auto|]. now inversion T2. }
  destruct (take _ (wt_id w)) as [q'|] eqn:T.
  - apply take_some in T as (x & r & E & ->). cbn [aq_log aq_data aq_waiters aq_blocked aq_woken] in *.
    rewrite results_app. cbn [flat_map fold_left app fst snd].
    assert (X : 0 < x).
    { rewrite <- (rev_involutive (aq_data (tp_q p))), E in v_items0. cbn in v_items0. apply Forall_app in v_items0 as (_ & X).
      now inversion X. }
    constructor; cbn [tp_q tp_threads tp_stopped tp_run tp_next tp_tasks tp_hold tp_beacons tp_stopping tp_exit tp_log
      aq_log aq_data aq_waiters aq_blocked aq_woken]; rewrite ?set_state_ids; auto.
    + intros w' K. apply v_lt0. destruct (C _ fjoin (TGot x)) as (r' & C1 & C2). cbn in C1, C2. rewrite C2, <- C1 in K. tauto.
    + rewrite <- (rev_involutive (aq_data (tp_q p))), E in v_items0. cbn in v_items0. apply Forall_app in v_items0 as (X0 & _). exact X0.
    + destruct (C _ fgot (TGot x)) as (r' & C1 & C2). cbn in C1, C2. rewrite C2. constructor; [lia|]. now rewrite <- C1.
    + rewrite rev_involutive. logs. rewrite v_order0, E. cbn [tasks_in flat_map took fst snd]. unfold took. cbn.
      destruct (3 <? x); cbn; rewrite ?app_nil_r; auto. now rewrite <- app_assoc.
    + destruct (C _ fheld (TGot x)) as (r' & C1 & C2). logs. unfold took. cbn [fst snd flat_map].
      cbn [fheld app] in C1, C2. destruct (3 <? x) eqn:X3; cbn [taken executed dropped flat_map app] in *; rewrite ?app_nil_r.
      * rewrite C2. rewrite v_tasks0, C1. rewrite <- !app_assoc. do 2 apply Permutation_app_head.
        symmetry. apply Permutation_cons_append.
      * rewrite C2, <- C1. exact v_tasks0.
    + logs. unfold took. cbn [fst snd]. destruct (3 <? x); cbn; rewrite ?app_nil_r; auto.
    + logs. unfold took. cbn [fst snd]. destruct (3 <? x); cbn; rewrite ?app_nil_r; auto.
    + destruct v_list0 as (ended & P0 & E0). exists ended. split.
      * destruct (C _ flisted (TGot x)) as (r' & C1 & C2). cbn in C1, C2. rewrite C2, <- C1. exact P0.
      * destruct (C _ fone (TGot x)) as (r' & C1 & C2). cbn in C1, C2. apply Permutation_length in C1, C2.
        assert (ones (aq_data (tp_q p)) = ones (rev r) + (if x =? 1 then 1 else 0)).
        { rewrite <- (rev_involutive (aq_data (tp_q p))), E. cbn [rev]. unfold ones, zlen. rewrite filter_app, app_length. cbn.
          destruct (x =? 1); cbn; lia. }
        unfold zlen in *. destruct (x =? 1); cbn in *; lia.
    + intros w' K. apply v_stop0. destruct (C _ fjoin (TGot x)) as (r' & C1 & C2). cbn in C1, C2. rewrite C2, <- C1 in K. tauto.
  - apply take_none in T. cbn [aq_log aq_data aq_waiters aq_blocked aq_woken] in *. rewrite results_app.
    cbn [flat_map fold_left app fst snd]. unfold took. cbn [fst snd Z.ltb Z.compare app]. rewrite app_nil_r.
    constructor; cbn [tp_q tp_threads tp_stopped tp_run tp_next tp_tasks tp_hold tp_beacons tp_stopping tp_exit tp_log
      aq_log aq_data aq_waiters aq_blocked aq_woken]; rewrite ?set_state_ids; auto.
    + intros w' K. apply v_lt0. destruct (C _ fjoin (TGot 0)) as (r' & C1 & C2). cbn in C1, C2. rewrite C2, <- C1 in K. tauto.
    + destruct (C _ fgot (TGot 0)) as (r' & C1 & C2). cbn in C1, C2. rewrite C2. constructor; [lia|]. now rewrite <- C1.
    + destruct (C _ fheld (TGot 0)) as (r' & C1 & C2). cbn in C1, C2. now rewrite C2, <- C1.
    + destruct v_list0 as (ended & P0 & E0). exists ended. split.
      * destruct (C _ flisted (TGot 0)) as (r' & C1 & C2). cbn in C1, C2. rewrite C2, <- C1. exact P0.
      * destruct (C _ fone (TGot 0)) as (r' & C1 & C2). cbn in C1, C2. apply Permutation_length in C1, C2. unfold zlen in *. lia.
    + intros w' K. apply v_stop0. destruct (C _ fjoin (TGot 0)) as (r' & C1 & C2). cbn in C1, C2. rewrite C2, <- C1 in K. tauto.
Qed.
