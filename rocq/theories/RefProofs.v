(** Proofs about references. *)
From Verif Require Import Base RefModel RefSpec.
Ltac conj := repeat match goal with |- _ /\ _ => split end.

(** Sums over threads. *)
Fixpoint sumf (f : th -> Z) (l : list th) : Z := match l with [] => 0 | x :: k => f x + sumf f k end.
Lemma sumf_upd f l i x y : nth_error l i = Some x -> sumf f (upd l i y) = sumf f l - f x + f y.
Proof. revert i. induction l as [|a l IH]; intros [|i]; cbn; try discriminate; intros H; [injection H as <-; lia|]. rewrite (IH _ H). lia. Qed.
Lemma sumf_nn f l : (forall x, 0 <= f x) -> 0 <= sumf f l.
Proof. intros P. induction l; cbn; [lia|]. specialize (P a). lia. Qed.
Lemma sumf_nn2 f l : (forall j x, nth_error l j = Some x -> 0 <= f x) -> 0 <= sumf f l.
Proof. induction l as [|a l IH]; intros P; cbn; [lia|]. pose proof (P 0%nat a eq_refl). specialize (IH (fun j x H => P (S j) x H)). lia. Qed.
Lemma sumf_in f l i x : (forall j x, nth_error l j = Some x -> 0 <= f x) -> nth_error l i = Some x -> f x <= sumf f l.
Proof.
  revert i. induction l as [|a l IH]; intros [|i] P; cbn; try discriminate; intros H.
  - injection H as <-. pose proof (sumf_nn2 f l (fun j x H => P (S j) x H)). lia.
  - pose proof (P 0%nat a eq_refl). specialize (IH i (fun j x H => P (S j) x H) H). lia.
Qed.
Lemma sumf_two f l i j x y : (forall j x, nth_error l j = Some x -> 0 <= f x) -> i <> j -> nth_error l i = Some x -> nth_error l j = Some y -> f x + f y <= sumf f l.
Proof.
  revert i j. induction l as [|a l IH]; intros [|i] [|j] P N; cbn; try discriminate; try congruence; intros H1 H2.
  - injection H1 as <-. pose proof (sumf_in f l j y (fun j x H => P (S j) x H) H2). lia.
  - injection H2 as <-. pose proof (sumf_in f l i x (fun j x H => P (S j) x H) H1). lia.
  - pose proof (P 0%nat a eq_refl). specialize (IH i j (fun j x H => P (S j) x H) ltac:(congruence) H1 H2). lia.
Qed.
Lemma sumf_ext f g l : (forall j x, nth_error l j = Some x -> f x = g x) -> sumf f l = sumf g l.
Proof. induction l as [|a l IH]; intros P; cbn; [reflexivity|]. rewrite (P 0%nat a eq_refl), (IH (fun j x H => P (S j) x H)). reflexivity. Qed.
Lemma nth_upd l i x y j z : nth_error l i = Some x -> nth_error (upd l i y) j = Some z -> (j = i /\ z = y) \/ (j <> i /\ nth_error l j = Some z).
Proof.
  revert i j. induction l as [|a l IH]; intros [|i] [|j]; cbn; try discriminate; intros H1 H2.
  - injection H2 as <-. auto.
  - right. split; [discriminate|exact H2].
  - right. split; [discriminate|exact H2].
  - destruct (IH _ _ H1 H2) as [[-> ->]|[N H]]; [auto|right; split; [congruence|exact H]].
Qed.
Lemma nth_upd_same l i x y : nth_error l i = Some x -> nth_error (upd l i y) i = Some y.
Proof. revert i. induction l as [|a l IH]; intros [|i]; cbn; try discriminate; auto. Qed.
Lemma nth_upd_other l i j y : i <> j -> nth_error (upd l i y) j = nth_error l j.
Proof. revert i j. induction l as [|a l IH]; intros [|i] [|j] N; cbn; auto; congruence. Qed.

Definition pend (p : pc) : Z := match p with PResult | PPeek | PDec _ => 1 | PLoad d => if d =? -1 then 1 else 0 | PStore d _ => if d =? -1 then 1 else 0 | _ => 0 end.
Definition weight (x : th) : Z := t_refs x + pend (t_pc x).
Definition freeing (c : Z) (x : th) : Z := match t_pc x with PFree _ => 1 | PLook => if c =? 0 then 1 else 0 | _ => 0 end.
Definition busy (x : th) : Z := match t_pc x with PIdle => 0 | _ => 1 end.
Definition pc_ok (k : kind) (c : Z) (x : th) : Prop :=
  0 <= t_refs x /\
  match t_pc x with
  | PIdle => True
  | PTest | PInc | PResult => 1 <= t_refs x /\ k <> KFrame
  | PPeek => k <> KFrame
  | PDec b => k <> KFrame /\ (b = true -> c = 1)
  | PFree b => c = 0
  | PLoad d => k = KFrame /\ ((d = 1 /\ 1 <= t_refs x) \/ d = -1)
  | PStore d v => k = KFrame /\ v = c + d /\ ((d = 1 /\ 1 <= t_refs x) \/ d = -1)
  | PLook => k = KFrame
  end.
Definition log_ok (f : bool) (l : list robs) : Prop :=
  (f = true <-> In OFree l) /\
  (forall a b, l = a ++ OFree :: b -> forall t, ~ In (OUse t) b /\ (forall r, ~ In (OGot t r) b) /\ ~ In OFree b) /\
  (forall t, ~ In (OGot t false) l) /\
  (forall a t b, l = a ++ ODone t true :: b -> In OFree a).
Record inv (k : kind) (s : rs) : Prop := mkI {
  i_ok : forall j x, nth_error (r_threads s) j = Some x -> pc_ok k (r_count s) x;
  i_w : sumf weight (r_threads s) = r_count s;
  i_f : sumf (freeing (r_count s)) (r_threads s) = if r_freed s then 0 else if r_count s =? 0 then 1 else 0;
  i_c : r_freed s = true -> r_count s = 0;
  i_b : k = KFrame -> sumf busy (r_threads s) <= 1;
  i_l : log_ok (r_freed s) (r_log s)
}.
Lemma w_nn k c x : pc_ok k c x -> 0 <= weight x.
Proof. unfold pc_ok, weight, pend. destruct (t_pc x); intros; repeat match goal with |- context [if ?b then _ else _] => destruct b end; lia. Qed.
Lemma f_nn c x : 0 <= freeing c x.
Proof. unfold freeing. destruct (t_pc x); try lia. destruct (c =? 0); lia. Qed.
Lemma b_nn x : 0 <= busy x.
Proof. unfold busy. destruct (t_pc x); lia. Qed.

(** Change of thread [t], the counter and the log. *)
Lemma change k s t x x' (c' : Z) (f' : bool) (l' : list robs) : inv k s -> nth_error (r_threads s) t = Some x ->
  pc_ok k c' x' ->
  (forall j y, j <> t -> nth_error (r_threads s) j = Some y -> pc_ok k (r_count s) y -> pc_ok k c' y /\ freeing c' y = freeing (r_count s) y) ->
  weight x' - weight x = c' - r_count s ->
  freeing c' x' - freeing (r_count s) x = (if f' then 0 else if c' =? 0 then 1 else 0) - (if r_freed s then 0 else if r_count s =? 0 then 1 else 0) ->
  (f' = true -> c' = 0) ->
  (k = KFrame -> busy x' <= busy x \/ sumf busy (r_threads s) = 0) ->
  log_ok f' l' ->
  inv k (mkR c' f' (upd (r_threads s) t x') l').
Proof.
  intros J N P Oth W F C B L. destruct J as [J1 J2 J3 J4 J5 J6]. constructor; cbn [r_count r_freed r_threads r_log].
  - intros j y H. destruct (nth_upd _ _ _ _ _ _ N H) as [[-> ->]|[Ne H']]; [exact P|]. destruct (Oth j y Ne H' (J1 j y H')) as [R _]. exact R.
  - rewrite (sumf_upd _ _ _ _ _ N). lia.
  - rewrite (sumf_upd _ _ _ _ _ N).
    assert (E : sumf (freeing c') (r_threads s) - freeing c' x = sumf (freeing (r_count s)) (r_threads s) - freeing (r_count s) x).
    { clear - Oth N J1. assert (E0 : sumf (freeing c') (upd (r_threads s) t (mkT 0 PIdle)) = sumf (freeing (r_count s)) (upd (r_threads s) t (mkT 0 PIdle))).
      { apply sumf_ext. intros j y H. destruct (nth_upd _ _ _ _ _ _ N H) as [[-> ->]|[Ne H']]; [reflexivity|]. destruct (Oth j y Ne H' (J1 j y H')) as [_ R]. exact R. }
      rewrite !(sumf_upd _ _ _ _ _ N) in E0. cbn in E0. lia. }
    rewrite J3 in E. lia.
  - exact C.
  - intros K. specialize (J5 K). specialize (B K). rewrite (sumf_upd _ _ _ _ _ N). pose proof (b_nn x). assert (busy x' <= 1) by (unfold busy; destruct (t_pc x'); lia).
    destruct B as [B|B]; [lia|]. pose proof (sumf_in busy _ _ _ (fun _ y _ => b_nn y) N). lia.
  - exact L.
Qed.
Lemma log_add f l o : log_ok f l -> (f = false \/ forall q, In q o -> exists t, q = ODone t false) -> (forall q, In q o -> (exists t, q = OUse t) \/ (exists t, q = OGot t true) \/ exists t, q = ODone t false) -> log_ok f (l ++ o).
Proof.
  intros (A & B & C & D) F O. assert (NoF : ~ In OFree o) by (intros H; destruct (O _ H) as [[t E]|[[t E]|[t E]]]; discriminate).
  unfold log_ok. conj.
  - rewrite A, in_app_iff. tauto.
  - intros a b E t.
    assert (S : (exists b1, l = a ++ OFree :: b1 /\ b = b1 ++ o) \/ In OFree o).
    { clear - E. revert l E. induction a as [|q a IH]; intros l E.
      - destruct l as [|q' l]; cbn in E; [right; rewrite E; left; reflexivity|]. injection E as <- <-. left. exists l. auto.
      - destruct l as [|q' l]; cbn in E; [right; rewrite E; right; apply in_or_app; right; left; reflexivity|]. injection E as <- E. destruct (IH l E) as [(b1 & -> & ->)|H]; [left; exists b1; auto|auto]. }
    destruct S as [(b1 & E1 & ->)|S]; [|contradiction]. destruct (B a b1 E1 t) as (B1 & B2 & B3).
    assert (Fr : f = true) by (apply A; rewrite E1; apply in_or_app; right; left; reflexivity).
    destruct F as [F|F]; [congruence|]. conj.
    + intros H. apply in_app_or in H. destruct H as [H|H]; [auto|]. destruct (F _ H) as [u U]. discriminate.
    + intros r H. apply in_app_or in H. destruct H as [H|H]; [eapply B2; exact H|]. destruct (F _ H) as [u U]. discriminate.
    + intros H. apply in_app_or in H. tauto.
  - intros t H. apply in_app_or in H. destruct H as [H|H]; [eapply C; exact H|]. destruct (O _ H) as [[u E]|[[u E]|[u E]]]; discriminate.
  - intros a t b E.
    assert (S : (exists b1, l = a ++ ODone t true :: b1) \/ In (ODone t true) o).
    { clear - E. revert l E. induction a as [|q a IH]; intros l E.
      - destruct l as [|q' l]; cbn in E; [right; rewrite E; left; reflexivity|]. injection E as <- <-. left. exists l. auto.
      - destruct l as [|q' l]; cbn in E; [right; rewrite E; right; apply in_or_app; right; left; reflexivity|]. injection E as <- E. destruct (IH l E) as [(b1 & ->)|H]; [left; exists b1; auto|auto]. }
    destruct S as [(b1 & E1)|S]; [eapply D; exact E1|]. destruct (O _ S) as [[u E1]|[[u E1]|[u E1]]]; discriminate.
Qed.
Lemma log_free l t b : log_ok false l -> log_ok true (l ++ [OFree; ODone t b]).
Proof.
  intros (A & B & C & D). assert (N : ~ In OFree l) by (intros H; apply A in H; discriminate). unfold log_ok. conj.
  - split; [intros _; apply in_or_app; right; left; reflexivity|reflexivity].
  - intros a b0 E u.
    assert (S : b0 = [ODone t b]).
    { clear - E N. revert l N E. induction a as [|q a IH]; intros l N E.
      - destruct l as [|q' l]; cbn in E; [injection E as <-; reflexivity|]. injection E as -> _. exfalso. apply N. left. reflexivity.
      - destruct l as [|q' l]; cbn in E.
        + injection E as <- E. destruct a as [|? [|? a]]; discriminate.
        + injection E as <- E. apply (IH l); auto. intros H. apply N. right. exact H. }
    subst b0. conj; [|intros r|]; intros [H|[]]; discriminate.
  - intros u H. apply in_app_or in H. destruct H as [H|[H|[H|[]]]]; try discriminate. eapply C. exact H.
  - intros a u b0 E.
    assert (S : (exists b1, l = a ++ ODone u true :: b1) \/ In OFree a).
    { clear - E. revert l E. induction a as [|q a IH]; intros l E.
      - destruct l as [|q' l]; cbn in E; [discriminate|]. injection E as <- <-. left. exists l. reflexivity.
      - destruct l as [|q' l]; cbn in E; [injection E as <- _; right; left; reflexivity|]. injection E as <- E. destruct (IH l E) as [(b1 & ->)|H]; [left; exists b1; reflexivity|right; right; exact H]. }
    destruct S as [(b1 & E1)|S]; [eapply D; exact E1|exact S].
Qed.
Lemma log_none f l : log_ok f l -> log_ok f (l ++ []).
Proof. rewrite app_nil_r. auto. Qed.

(** Two threads with weight. *)
Lemma others k s t x : inv k s -> nth_error (r_threads s) t = Some x -> 1 <= weight x -> forall c', (k = KFrame -> c' = r_count s) ->
  forall j y, j <> t -> nth_error (r_threads s) j = Some y -> pc_ok k (r_count s) y -> pc_ok k c' y /\ freeing c' y = freeing (r_count s) y.
Proof.
  intros J N W c' K j y Ne H P. destruct J as [J1 J2 J3 J4 J5 J6].
  assert (T : weight x + weight y <= r_count s). { rewrite <- J2. apply (sumf_two _ _ t j); auto. intros i z Z. eapply w_nn. eapply J1. exact Z. }
  destruct P as [P1 P2]. unfold pc_ok, freeing. unfold weight in T, W. destruct (t_pc y) eqn:E; cbn in T, P2; conj; auto; try tauto; try lia.
  - rewrite (K (proj1 P2)). tauto.
  - rewrite (K P2). reflexivity.
Qed.
Lemma same_count k s t : forall j y, j <> t -> nth_error (r_threads s) j = Some y -> pc_ok k (r_count s) y -> pc_ok k (r_count s) y /\ freeing (r_count s) y = freeing (r_count s) y.
Proof. auto. Qed.
(** Alone inside a call. *)
Lemma others_idle s t x : inv KFrame s -> nth_error (r_threads s) t = Some x -> busy x = 1 -> forall c',
  forall j y, j <> t -> nth_error (r_threads s) j = Some y -> pc_ok KFrame (r_count s) y -> pc_ok KFrame c' y /\ freeing c' y = freeing (r_count s) y.
Proof.
  intros J N B c' j y Ne H P. pose proof (i_b _ _ J eq_refl) as B1.
  pose proof (sumf_two busy _ t j x y (fun _ z _ => b_nn z) ltac:(congruence) N H) as T.
  assert (E : t_pc y = PIdle). { unfold busy in T at 2. pose proof (b_nn y). destruct (t_pc y); [reflexivity|lia..]. }
  unfold pc_ok, freeing in *. rewrite E in *. auto.
Qed.
Lemma freed_zero k s t x : inv k s -> nth_error (r_threads s) t = Some x -> r_freed s = true -> t_refs x = 0 /\ t_pc x = PIdle.
Proof.
  intros J N F. destruct J as [J1 J2 J3 J4 J5 J6]. rewrite F in J3. specialize (J4 F).
  pose proof (sumf_in weight _ _ _ (fun j y H => w_nn _ _ _ (J1 j y H)) N) as W. pose proof (sumf_in (freeing (r_count s)) _ _ _ (fun _ y _ => f_nn _ y) N) as G.
  rewrite J2, J4 in W. rewrite J3, J4 in G. pose proof (J1 _ _ N) as [P1 P2]. unfold weight, freeing in *. rewrite J4 in P2.
  destruct (t_pc x) eqn:E; cbn in *; try lia; [split; [lia|reflexivity]|..].
  - destruct P2 as [P2 [[-> P3]| ->]]; cbn in W; lia.
  - destruct P2 as [P2 [P3 [[-> P4]| ->]]]; cbn in W; lia.
Qed.
Lemma owner_live k s t x : inv k s -> nth_error (r_threads s) t = Some x -> 1 <= t_refs x -> r_freed s = false /\ 1 <= r_count s.
Proof.
  intros J N R. split.
  - destruct (r_freed s) eqn:F; [|reflexivity]. destruct (freed_zero _ _ _ _ J N F). lia.
  - pose proof (sumf_in weight _ _ _ (fun j y H => w_nn _ _ _ (i_ok _ _ J j y H)) N) as W. rewrite (i_w _ _ J) in W. unfold weight, pend in W. destruct (t_pc x); repeat match goal with H : context [if ?b then _ else _] |- _ => destruct b end; lia.
Qed.


Ltac fin E F := rewrite ?F; unfold pc_ok, weight, freeing, busy; cbn [t_pc t_refs pend Z.eqb Pos.eqb Z.opp]; rewrite ?E, ?F; cbn [t_pc t_refs pend Z.eqb Pos.eqb Z.opp]; conj; auto; try tauto; try lia; try discriminate.
Ltac added F := rewrite ?F; apply log_add; [assumption|left; reflexivity|intros q [<-|[]]; eauto].
Lemma inv_thread k s t x : inv k s -> nth_error (r_threads s) t = Some x -> exists s', thread_step k s t x = Ok s' /\ inv k s'.
Proof.
  intros J N. pose proof (i_ok _ _ J _ _ N) as P. pose proof (i_l _ _ J) as L. unfold thread_step.
  destruct (t_pc x) eqn:E; [exists s; auto|..].
  all: destruct (r_freed s) eqn:F; [destruct (freed_zero _ _ _ _ J N F) as [_ X]; rewrite E in X; discriminate|].
  all: unfold pc_ok in P; rewrite E in P; destruct P as [P1 P2].
  all: pose proof (sumf_in weight _ _ _ (fun j y H => w_nn _ _ _ (i_ok _ _ J j y H)) N) as W; rewrite (i_w _ _ J) in W; unfold weight in W; rewrite E in W; cbn [pend] in W.
  all: pose proof (sumf_in (freeing (r_count s)) _ _ _ (fun _ y _ => f_nn _ y) N) as G; rewrite (i_f _ _ J), F in G; unfold freeing in G; rewrite E in G.
  all: unfold goto, got, done, put, with_count; cbn [r_count r_freed r_threads r_log]; try rewrite F in L.
  - assert (test k (r_count s) = true) as ->. { unfold test. destruct k; rewrite ?negb_true_iff; try (apply Z.ltb_lt; lia); apply Z.eqb_neq; lia. }
    eexists; split; [reflexivity|]. apply (change k s t x); auto; try (fin E F). rewrite app_nil_r, ?F; exact L.
  - assert (Oth := others k s t x J N ltac:(unfold weight; rewrite E; cbn; lia) (r_count s + 1) ltac:(tauto)).
    assert (C1 : (r_count s + 1 =? 0) = false) by (apply Z.eqb_neq; lia). assert (C0 : (r_count s =? 0) = false) by (apply Z.eqb_neq; lia).
    assert (C2 : (2 <=? r_count s + 1) = true) by (apply Z.leb_le; lia).
    assert (A : inv k (mkR (r_count s + 1) (r_freed s) (upd (r_threads s) t (mkT (t_refs x) PResult)) (r_log s ++ []))).
    { apply (change k s t x); auto; rewrite ?C1, ?C0; try (fin E F). rewrite app_nil_r, ?F; exact L. }
    assert (B : inv k (mkR (r_count s + 1) (r_freed s) (upd (r_threads s) t (mkT (t_refs x + 1) PIdle)) (r_log s ++ [OGot t true]))).
    { apply (change k s t x); auto; rewrite ?C1, ?C0; try (fin E F). added F. }
    rewrite C2. destruct k; eexists; (split; [reflexivity|]); assumption.
  - assert (C2 : (1 <? r_count s) = true) by (apply Z.ltb_lt; lia). rewrite C2. eexists; split; [reflexivity|].
    apply (change k s t x); auto; try (fin E F). added F.
  - assert (C0 : (r_count s <=? 0) = false) by (apply Z.leb_gt; lia). rewrite C0. eexists; split; [reflexivity|].
    apply (change k s t x); auto; try (fin E F). rewrite app_nil_r, ?F; exact L.
  - assert (C0 : (r_count s =? 0) = false) by (apply Z.eqb_neq; lia).
    assert (Oth := others k s t x J N ltac:(unfold weight; rewrite E; cbn; lia) (r_count s - 1) ltac:(tauto)).
    destruct (r_count s - 1 =? 0) eqn:C1; eexists; (split; [reflexivity|]).
    + apply (change k s t x); auto; rewrite ?C1, ?C0; try (fin E F). rewrite app_nil_r, ?F; exact L.
    + assert (b = false). { destruct b; [|reflexivity]. destruct P2 as [_ P2]. rewrite (P2 eq_refl) in C1. discriminate. } subst b.
      apply (change k s t x); auto; rewrite ?C1, ?C0; try (fin E F). added F.
  - rewrite P2 in G. cbn in G. eexists; split; [reflexivity|]. apply (change k s t x); auto; try (fin E F). all: rewrite ?P2; cbn; auto. apply log_free. exact L.
  - eexists; split; [reflexivity|]. apply (change k s t x); auto; try (fin E F). rewrite app_nil_r, ?F; exact L.
  - destruct P2 as (-> & -> & P2). assert (Oth := others_idle s t x J N ltac:(unfold busy; rewrite E; reflexivity) (r_count s + d)).
    assert (C0 : (r_count s =? 0) = false) by (apply Z.eqb_neq; destruct P2 as [[-> P2]| ->]; cbn in W; lia).
    destruct P2 as [[-> P2]| ->]; cbn [Z.eqb Pos.eqb] in *; eexists; (split; [reflexivity|]).
    + assert (C1 : (r_count s + 1 =? 0) = false) by (apply Z.eqb_neq; lia). apply (change KFrame s t x); auto; rewrite ?C1, ?C0; try (fin E F). added F.
    + apply (change KFrame s t x); auto; rewrite ?C0; try (fin E F). rewrite app_nil_r, ?F; exact L.
  - subst k. destruct (r_count s =? 0) eqn:C0; eexists; (split; [reflexivity|]).
    + pose proof (proj1 (Z.eqb_eq _ _) C0). apply (change KFrame s t x); auto; rewrite ?C0; try (fin E F). 1: rewrite C0; reflexivity. rewrite app_nil_r, ?F; exact L.
    + apply (change KFrame s t x); auto; rewrite ?C0; try (fin E F; rewrite ?C0; auto). added F.
Qed.

Lemma inv_step k s e : inv k s -> owned s e -> (k = KFrame -> apart s e) -> exists s', rstep k s e = Ok s' /\ inv k s'.
Proof.
  intros J O A. pose proof (i_l _ _ J) as L. destruct e as [t|t|t|t u|t]; cbn [rstep].
  - destruct O as (x & N & R). rewrite N. destruct (owner_live _ _ _ _ J N R) as [F C]. unfold idle. destruct (t_pc x) eqn:E; try (exists s; auto; fail).
    eexists. split; [reflexivity|]. unfold goto, put. apply (change k s t x); auto.
    + unfold pc_ok. cbn. split; [lia|]. destruct k; cbn; conj; auto; try discriminate.
    + unfold weight. rewrite E. destruct k; cbn; lia.
    + unfold freeing. rewrite E. destruct k; cbn; lia.
    + apply (i_c _ _ J).
    + intros ->. right. specialize (A eq_refl). cbn in A. clear - A. induction (r_threads s) as [|y l IH]; [reflexivity|]. cbn. unfold busy at 1. rewrite (A y (or_introl eq_refl)), IH; [reflexivity|]. intros z H. apply A. right. exact H.
    + rewrite app_nil_r. exact L.
  - destruct O as (x & N & R). rewrite N. destruct (owner_live _ _ _ _ J N R) as [F C]. unfold idle. destruct (t_pc x) eqn:E; try (exists s; auto; fail).
    eexists. split; [reflexivity|]. unfold put. apply (change k s t x); auto.
    + unfold pc_ok. cbn. split; [lia|]. destruct k; cbn; conj; auto; try discriminate.
    + unfold weight. rewrite E. destruct k; cbn; lia.
    + unfold freeing. rewrite E. destruct k; cbn; lia.
    + apply (i_c _ _ J).
    + intros ->. right. specialize (A eq_refl). cbn in A. clear - A. induction (r_threads s) as [|y l IH]; [reflexivity|]. cbn. unfold busy at 1. rewrite (A y (or_introl eq_refl)), IH; [reflexivity|]. intros z H. apply A. right. exact H.
    + rewrite app_nil_r. exact L.
  - destruct O as (x & N & R). rewrite N. destruct (owner_live _ _ _ _ J N R) as [F C]. rewrite F. eexists. split; [reflexivity|]. unfold put. apply (change k s t x); auto; try lia.
    + exact (i_ok _ _ J _ _ N).
    + rewrite F in *. apply log_add; [assumption|left; reflexivity|intros q [<-|[]]; eauto].
  - destruct O as (x & N & R). rewrite N. destruct (nth_error (r_threads s) u) as [y|] eqn:U; [|exists s; auto]. destruct (Nat.eqb t u) eqn:Q; cbn [orb]; [exists s; auto|]. apply Nat.eqb_neq in Q.
    destruct (owner_live _ _ _ _ J N R) as [F C]. unfold idle. destruct (t_pc x) eqn:E; cbn [negb]; try (exists s; auto; fail). eexists. split; [reflexivity|]. unfold put. cbn [r_count r_freed r_threads r_log].
    pose proof (i_ok _ _ J _ _ U) as [PU1 PU2]. rewrite !app_nil_r. set (l := upd _ u _).
    assert (NU : nth_error (upd (r_threads s) t (mkT (t_refs x - 1) PIdle)) u = Some y) by (rewrite nth_upd_other by exact Q; exact U).
    constructor; cbn [r_count r_freed r_threads r_log]; subst l.
    + intros j z H. destruct (nth_upd _ _ _ _ _ _ NU H) as [[-> ->]|[Ne H']].
      * unfold pc_ok. cbn [t_refs t_pc]. split; [lia|]. destruct (t_pc y); auto; try (split; [lia|tauto]). all: intuition lia.
      * destruct (nth_upd _ _ _ _ _ _ N H') as [[-> ->]|[Ne' H'']]; [unfold pc_ok; cbn; split; [lia|exact Logic.I]|]. exact (i_ok _ _ J _ _ H'').
    + rewrite (sumf_upd _ _ _ _ _ NU), (sumf_upd _ _ _ _ _ N), (i_w _ _ J). unfold weight. cbn. rewrite E. cbn. lia.
    + rewrite (sumf_upd _ _ _ _ _ NU), (sumf_upd _ _ _ _ _ N), (i_f _ _ J). unfold freeing. cbn. rewrite E. lia.
    + apply (i_c _ _ J).
    + intros K. rewrite (sumf_upd _ _ _ _ _ NU), (sumf_upd _ _ _ _ _ N). pose proof (i_b _ _ J K). unfold busy in *. cbn. rewrite E. lia.
    + exact L.
  - destruct (nth_error (r_threads s) t) as [x|] eqn:N; [|exists s; auto]. apply inv_thread; auto.
Qed.
Lemma inv_run k es s : inv k s -> balanced k s es -> (k = KFrame -> one_by_one k s es) -> exists s', rrun k s es = Ok s' /\ inv k s'.
Proof.
  revert s. induction es as [|e es IH]; intros s J B O; [exists s; auto|]. destruct B as [B1 B2].
  destruct (inv_step k s e J B1) as (s1 & E1 & J1). { intros K. destruct (O K) as [O1 _]. exact O1. }
  cbn [rrun]. rewrite E1. cbn [obind]. apply IH; [exact J1|apply B2; exact E1|intros K; destruct (O K) as [_ O2]; apply O2; exact E1].
Qed.
Lemma inv0 k n : inv k (r0 n).
Proof.
  assert (W : forall f, f (mkT 0 PIdle) = 0 -> sumf f (repeat (mkT 0 PIdle) n) = 0). { intros f H. induction n; cbn; [reflexivity|]. rewrite H, IHn. reflexivity. }
  constructor; cbn [r0 r_count r_freed r_threads r_log].
  - intros [|j] x H; cbn in H; [injection H as <-; split; cbn; [lia|exact Logic.I]|]. apply nth_error_In in H. apply repeat_spec in H. subst x. split; cbn; [lia|exact Logic.I].
  - cbn [sumf]. rewrite W by reflexivity. reflexivity.
  - cbn [sumf]. rewrite W by reflexivity. reflexivity.
  - discriminate.
  - intros _. cbn [sumf]. rewrite W by reflexivity. cbn. lia.
  - unfold log_ok. cbn. conj; try tauto.
    + split; [discriminate|tauto].
    + intros [|? a] b E; discriminate.
    + intros [|? a] t b E; discriminate.
Qed.
Lemma inv_sound k s : inv k s -> sound s.
Proof.
  intros J. destruct (i_l _ _ J) as (A & B & C & D). unfold sound. conj; auto. split.
  - intros F x H. apply In_nth_error in H. destruct H as [j H]. exact (freed_zero _ _ _ _ J H F).
  - intros R. pose proof (i_w _ _ J) as W. pose proof (i_f _ _ J) as G.
    assert (Z1 : sumf weight (r_threads s) = 0 /\ sumf (freeing (r_count s)) (r_threads s) = 0).
    { clear - R. unfold at_rest in R. induction (r_threads s) as [|x l IH]; [split; reflexivity|]. destruct (R x (or_introl eq_refl)) as [R1 R2]. destruct IH as [I1 I2]; [intros y H; apply R; right; exact H|].
      cbn. rewrite I1, I2. unfold weight, freeing. rewrite R1, R2. split; reflexivity. }
    destruct Z1 as [Z1 Z2]. rewrite Z1 in W. rewrite Z2, <- W in G. destruct (r_freed s); [reflexivity|discriminate].
Qed.
Theorem sound_thm k n es : k <> KFrame -> balanced k (r0 n) es -> exists s, rrun k (r0 n) es = Ok s /\ sound s.
Proof. intros K B. destruct (inv_run k es (r0 n) (inv0 k n) B) as (s & E & J); [congruence|]. exists s. split; [exact E|eapply inv_sound; exact J]. Qed.
Theorem frame_thm n es : balanced KFrame (r0 n) es -> one_by_one KFrame (r0 n) es -> exists s, rrun KFrame (r0 n) es = Ok s /\ sound s.
Proof. intros B O. destruct (inv_run KFrame es (r0 n) (inv0 KFrame n) B) as (s & E & J); [auto|]. exists s. split; [exact E|eapply inv_sound; exact J]. Qed.
Theorem null_thm n es s a t b : balanced KCtx (r0 n) es -> rrun KCtx (r0 n) es = Ok s -> r_log s = a ++ ODone t true :: b -> In OFree a.
Proof.
  intros B E L. destruct (inv_run KCtx es (r0 n) (inv0 KCtx n) B) as (s' & E' & J); [discriminate|]. rewrite E in E'. injection E' as <-.
  destruct (i_l _ _ J) as (_ & _ & _ & D). eapply D. exact L.
Qed.

(** Witnesses. *)
Ltac own := first [exact Logic.I | (eexists; split; [vm_compute; reflexivity|cbn; lia])].
Ltac walk := repeat (split; [own|let s := fresh in let H := fresh in intros s H; vm_compute in H; first [discriminate H | injection H as <-]]); exact Logic.I.
Theorem frame_race : exists es, balanced KFrame (r0 1) es /\ rrun KFrame (r0 1) es = UB.
Proof.
  exists [ERef 0; EStep 0; EStep 0; EGive 0 1; ERef 0; ERef 1; EStep 0; EStep 1; EStep 0; EStep 1;
          EUnref 0; EStep 0; EStep 0; EStep 0; EUnref 0; EStep 0; EStep 0; EStep 0; EUnref 1; EStep 1; EStep 1; EStep 1; EStep 1; EUse 1].
  split; [|reflexivity]. walk.
Qed.
Theorem ctx_race : exists es s, balanced KCtx (r0 1) es /\ rrun KCtx (r0 1) es = Ok s /\ In OFree (r_log s) /\ forall t, ~ In (ODone t true) (r_log s).
Proof.
  exists [ERef 0; EStep 0; EGive 0 1; EUnref 0; EUnref 1; EStep 0; EStep 1; EStep 0; EStep 1; EStep 1].
  eexists. split; [walk|]. split; [vm_compute; reflexivity|]. split; [cbn; auto|]. intros t H. cbn in H. repeat (destruct H as [H|H]; [discriminate|]). exact H.
Qed.
Definition window (k : kind) : list act :=
  match k with
  | KQueue => [ERef 1; EStep 1; ERef 2; EStep 2; EUnref 0; EStep 0; EStep 1; EStep 2; EStep 2; EStep 0]
  | KFeeder => [ERef 2; EStep 2; EUnref 0; EStep 0; EStep 2; EStep 0]
  | KConn => [EUnref 0; EStep 0; ERef 1; EStep 1; ERef 2; EStep 2; EStep 2; EStep 0]
  | _ => [EUnref 0; EStep 0; ERef 1; EStep 1; ERef 2; EStep 2; EStep 0]
  end.
Theorem asked_race k : k = KConn \/ k = KChan \/ k = KQueue \/ k = KFeeder ->
  exists es s, asking k (r0 2) es /\ rrun k (r0 2) es = Ok s /\ In (OGot 2 true) (r_log s) /\ owner s 2 /\ r_freed s = true.
Proof.
  intros K. exists (window k). destruct K as [->|[->|[->| ->]]]; (eexists; split; [cbv [window]; walk|split; [vm_compute; reflexivity|split; [cbn; tauto|split; [own|reflexivity]]]]).
Qed.
Theorem refused_race k : k = KConn \/ k = KChan \/ k = KQueue ->
  exists es s, asking k (r0 1) es /\ rrun k (r0 1) es = Ok s /\ In (OGot 1 false) (r_log s) /\ r_freed s = false /\ r_count s = 1 /\ forall x, In x (r_threads s) -> t_refs x = 0.
Proof.
  intros K. exists (match k with KQueue => [ERef 1; EStep 1; EUnref 0; EStep 0; EStep 1; EStep 1] | KConn => [EUnref 0; EStep 0; ERef 1; EStep 1; EStep 1] | _ => [EUnref 0; EStep 0; ERef 1; EStep 1] end).
  destruct K as [->|[->| ->]]; (eexists; split; [walk|split; [vm_compute; reflexivity|split; [cbn; tauto|split; [reflexivity|split; [reflexivity|cbn; intros x [<-|[<-|[]]]; reflexivity]]]]]).
Qed.
