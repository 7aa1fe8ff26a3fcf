(** The references and the memory of the context. *)
From Verif Require Import Base HdrModel HdrProofs CtxModel CtxSpec CtxProofs CtxProofs2.

Fixpoint sum (l : list thread) : Z := match l with [] => 0 | x :: r => t_own x + sum r end.
Lemma total_sum : forall s, total s = sum (x_thr s).
Proof. intros s. unfold total. induction (x_thr s) as [|x l IH]; cbn; [reflexivity|]. rewrite IH. reflexivity. Qed.
Lemma sum_upd : forall l t x y, nth_error l t = Some x -> sum (upd_nth l t y) = sum l - t_own x + t_own y.
Proof.
  induction l as [|a l IH]; intros [|t] x y H; try discriminate; cbn in *.
  - injection H as ->. lia.
  - rewrite (IH _ _ y H). lia.
Qed.
Lemma sum_ge0 : forall l, (forall t x, nth_error l t = Some x -> 0 <= t_own x) -> 0 <= sum l.
Proof. induction l as [|a l IH]; intros H; cbn; [lia|]. specialize (H 0%nat a eq_refl) as A. assert (0 <= sum l) by (apply IH; intros t x; apply (H (S t))). lia. Qed.
Lemma sum_one : forall l t x, (forall t x, nth_error l t = Some x -> 0 <= t_own x) -> nth_error l t = Some x -> t_own x <= sum l.
Proof.
  induction l as [|a l IH]; intros [|t] x P H; try discriminate; cbn in *; specialize (P 0%nat a eq_refl) as A; assert (P' : forall t x, nth_error l t = Some x -> 0 <= t_own x) by (intros u; apply (P (S u))).
  - injection H as ->. pose proof (sum_ge0 l P'). lia.
  - specialize (IH t x P' H). lia.
Qed.
Lemma sum_two : forall l t u x y, (forall t x, nth_error l t = Some x -> 0 <= t_own x) -> t <> u -> nth_error l t = Some x -> nth_error l u = Some y -> t_own x + t_own y <= sum l.
Proof.
  induction l as [|a l IH]; intros [|t] [|u] x y P D H K; try discriminate; try lia; cbn in *; specialize (P 0%nat a eq_refl) as A; assert (P' : forall t x, nth_error l t = Some x -> 0 <= t_own x) by (intros w; apply (P (S w))).
  - injection H as ->. pose proof (sum_one l u y P' K). lia.
  - injection K as ->. pose proof (sum_one l t x P' H). lia.
  - specialize (IH t u x y P' ltac:(lia) H K). lia.
Qed.
Lemma sum_zero : forall l, (forall t x, nth_error l t = Some x -> t_own x = 0) -> sum l = 0.
Proof. induction l as [|a l IH]; intros H; cbn; [reflexivity|]. rewrite (H 0%nat a eq_refl). rewrite IH; [reflexivity|]. intros t x. apply (H (S t)). Qed.

Definition busy (p : pc) : bool := match p with PIdle | PDealloc _ => false | _ => true end.
Definition is_dealloc (p : pc) : bool := match p with PDealloc _ => true | _ => false end.
Definition is_last (p : pc) : bool := match p with PUnref true => true | _ => false end.

Record mem (s : xst) : Prop := mkMem {
  m_own : forall t x, nth_error (x_thr s) t = Some x -> 0 <= t_own x;
  m_busy : forall t x, nth_error (x_thr s) t = Some x -> busy (t_pc x) = true -> 0 < t_own x;
  m_ref : x_mem s = true -> x_ref s = sum (x_thr s);
  m_gone : x_mem s = false -> sum (x_thr s) = 0;
  m_dealloc : forall t, at_ s t is_dealloc -> x_mem s = true /\ x_ref s = 0;
  m_two : forall t u, at_ s t is_dealloc -> at_ s u is_dealloc -> t = u;
  m_zero : x_mem s = true -> x_ref s = 0 -> exists t, at_ s t is_dealloc;
  m_last : forall t, at_ s t is_last -> x_ref s = 1;
  m_null : forall t x, nth_error (x_thr s) t = Some x -> t_ptr x = false -> x_mem s = false;
  m_freed : times is_freed (x_log s) = if x_mem s then 0%nat else 1%nat
}.

Lemma at_upd : forall s s' t y u b, x_thr s' = upd_nth (x_thr s) t y -> at_ s' u b -> (u = t /\ b (t_pc y) = true) \/ (u <> t /\ at_ s u b).
Proof. intros s s' t y u b T (z & H & K). rewrite T in H. apply nth_upd_inv in H. destruct H as [[-> ->]|[V H]]; [auto|]. right. split; [exact V|]. exists z. auto. Qed.
Lemma at_keep : forall s s' t y u b, x_thr s' = upd_nth (x_thr s) t y -> u <> t -> at_ s u b -> at_ s' u b.
Proof. intros s s' t y u b T V (z & H & K). exists z. rewrite T, nth_upd_other; auto. Qed.

(** A step of a thread that does not change the references. *)
Lemma mem_move : forall s s' t x y, mem s -> nth_error (x_thr s) t = Some x -> x_thr s' = upd_nth (x_thr s) t y ->
  x_mem s' = x_mem s -> x_ref s' = x_ref s -> times is_freed (x_log s') = times is_freed (x_log s) ->
  t_own y = t_own x -> t_ptr y = t_ptr x \/ t_ptr y = true -> (busy (t_pc y) = true -> 0 < t_own x) -> is_dealloc (t_pc y) = false -> is_dealloc (t_pc x) = false ->
  (is_last (t_pc y) = true -> x_ref s = 1) -> mem s'.
Proof.
  intros s s' t x y I N T M R L A A' B C C' D. destruct I as [I1 I2 I3 I4 I5 I6 I7 I8 I9 I10].
  split; rewrite ?M, ?R, ?L, ?T; auto.
  - intros u z H. apply nth_upd_inv in H. destruct H as [[-> ->]|[V H]]; [rewrite A; eauto|eauto].
  - intros u z H K. apply nth_upd_inv in H. destruct H as [[-> ->]|[V H]]; [rewrite A; auto|eauto].
  - intros Q. rewrite (sum_upd _ _ x) by exact N. rewrite A. rewrite I3 by exact Q. lia.
  - intros Q. rewrite (sum_upd _ _ x) by exact N. rewrite A. rewrite I4 by exact Q. lia.
  - intros u H. apply (at_upd s _ t y) in H; [|exact T]. destruct H as [[-> H]|[V H]]; [congruence|eapply I5; eauto].
  - intros u v H K. apply (at_upd s _ t y) in H; [|exact T]. apply (at_upd s _ t y) in K; [|exact T]. destruct H as [[-> H]|[V H]]; [congruence|]. destruct K as [[-> K]|[V' K]]; [congruence|]. eauto.
  - intros Q Z. destruct (I7 Q Z) as [u H]. exists u. apply (at_keep s _ t y); auto. intros ->. apply (at_pc_inv _ _ x) in H; [congruence|exact N].
  - intros u H. apply (at_upd s _ t y) in H; [|exact T]. destruct H as [[-> H]|[V H]]; [auto|eapply I8; eauto].
  - intros u z H K. apply nth_upd_inv in H. destruct H as [[-> ->]|[V H]]; [|eapply I9; eauto]. destruct A' as [A'|A']; [|congruence]. rewrite A' in K. eapply I9; eauto.
Qed.

Lemma mem_tr : forall seq s s', mem s -> tr true seq s s' -> mem s'.
Proof.
  intros seq s s' I T.
  assert (G : forall t x, nth_error (x_thr s) t = Some x -> x_mem s = true -> 0 < t_own x -> 0 < x_ref s).
  { intros t x N M O. rewrite (m_ref _ I M). pose proof (sum_one (x_thr s) t x (m_own _ I) N). lia. }
  assert (G2 : forall t u x y, nth_error (x_thr s) t = Some x -> nth_error (x_thr s) u = Some y -> t <> u -> x_mem s = true -> 0 < t_own x -> 0 < t_own y -> 2 <= x_ref s).
  { intros t u x y N N' V M O O'. rewrite (m_ref _ I M). pose proof (sum_two (x_thr s) t u x y (m_own _ I) V N N'). lia. }
  assert (GB : forall t x, nth_error (x_thr s) t = Some x -> is_last (t_pc x) = true -> 0 < t_own x) by (intros t x N H; apply (m_busy _ I t x N); destruct (t_pc x) as [| | | | | | | | | |b| |]; try discriminate H; reflexivity).
  destruct T as [t x N O M P|t x N O M P R|t x N O M P R|t x N O M P|t x r N O Q M P X|f M|f M|t x r N M P E|t x r N M P X|t x r N M P X|t x r N M P|t x r N M P|t x r N M P E|t x r N M P E|t x r N M P C|t x r i l f N M P C L|t x r i l N M P C L|t x N M P|t x last N M P Z|t x last N M P Z|t x last N M P L|t x u y N N' D O P P'|t x N O P];
  try specialize (O eq_refl).
  - (* ref *) assert (ND : is_dealloc (t_pc x) = false) by (destruct P as [-> | (r & i & f & ->)]; reflexivity).
    assert (NL : is_last (t_pc x) = false) by (destruct P as [-> | (r & i & f & ->)]; reflexivity).
    pose proof (G t x N M O) as Gx. destruct I as [I1 I2 I3 I4 I5 I6 I7 I8 I9 I10].
    split; cbn [x_mem x_ref x_log x_thr thr put_thr put_ref]; auto.
    + intros u z H. apply nth_upd_inv in H. destruct H as [[-> ->]|[V H]]; [cbn; lia|eauto].
    + intros u z H K. apply nth_upd_inv in H. destruct H as [[-> ->]|[V H]]; [cbn; lia|eauto].
    + intros _. rewrite (sum_upd _ _ x) by exact N. cbn. rewrite I3 by exact M. lia.
    + congruence.
    + intros u H. apply (at_upd s _ t (set_own (t_own x + 1) x)) in H; [|reflexivity]. destruct H as [[-> H]|[V H]]; [cbn in H; congruence|]. destruct (I5 u H). lia.
    + intros u v H K. apply (at_upd s _ t (set_own (t_own x + 1) x)) in H; [|reflexivity]. apply (at_upd s _ t (set_own (t_own x + 1) x)) in K; [|reflexivity].
      destruct H as [[-> H]|[V H]]; [cbn in H; congruence|]. destruct K as [[-> K]|[V' K]]; [cbn in K; congruence|]. eauto.
    + intros _ Z. lia.
    + intros u H. apply (at_upd s _ t (set_own (t_own x + 1) x)) in H; [|reflexivity]. destruct H as [[-> H]|[V H]]; [cbn in H; congruence|].
      pose proof (I8 u H). destruct H as (z & H & K). specialize (GB u z H K). specialize (G2 u t z x H N V M GB O). lia.
    + intros u z H K. apply nth_upd_inv in H. destruct H as [[-> ->]|[V H]]; [cbn in K; eapply I9; eauto|eapply I9; eauto].
  - specialize (G t x N M O). lia.
  - eapply (mem_move _ _ t x); [eassumption|eassumption|reflexivity|..]; cbn; rewrite ?P; auto. destruct (Z.eqb_spec (x_ref s) 1); [auto|discriminate].
  - eapply (mem_move _ _ t x); [eassumption|eassumption|reflexivity|..]; cbn; rewrite ?P; auto; discriminate.
  - eapply (mem_move _ _ t x); [eassumption|eassumption|reflexivity|..]; cbn; rewrite ?P; auto; discriminate.
  - destruct I as [I1 I2 I3 I4 I5 I6 I7 I8 I9 I10]. split; cbn [x_mem x_ref x_log x_thr install see put_clean]; auto. rewrite times_app. cbn. lia.
  - destruct I as [I1 I2 I3 I4 I5 I6 I7 I8 I9 I10]. unfold remove. destruct (x_clean s); (split; cbn [x_mem x_ref x_log x_thr see put_clean]; auto; rewrite times_app; cbn; lia).
  - eapply (mem_move _ _ t x); [eassumption|eassumption|reflexivity|..]; cbn; rewrite ?P; auto; try discriminate. intros _. apply (m_busy _ I t x N). rewrite P. reflexivity.
  - eapply (mem_move _ _ t x); [eassumption|eassumption|reflexivity|..]; cbn; rewrite ?P; auto; try discriminate.
  - eapply (mem_move _ _ t x); [eassumption|eassumption|reflexivity|..]; cbn; rewrite ?P; auto; try discriminate. intros _. apply (m_busy _ I t x N). rewrite P. reflexivity.
  - eapply (mem_move _ _ t x); [eassumption|eassumption|reflexivity|..]; cbn; rewrite ?P; auto; try discriminate. intros _. apply (m_busy _ I t x N). rewrite P. reflexivity.
  - eapply (mem_move _ _ t x); [eassumption|eassumption|reflexivity|..]; cbn; rewrite ?P, ?times_app; cbn; auto; try discriminate. intros _. apply (m_busy _ I t x N). rewrite P. reflexivity.
  - eapply (mem_move _ _ t x); [eassumption|eassumption|reflexivity|..]; cbn; rewrite ?P; auto; try discriminate. intros _. apply (m_busy _ I t x N). rewrite P. reflexivity.
  - eapply (mem_move _ _ t x); [eassumption|eassumption|reflexivity|..]; cbn; rewrite ?P; auto; try discriminate. intros _. apply (m_busy _ I t x N). rewrite P. reflexivity.
  - eapply (mem_move _ _ t x); [eassumption|eassumption|reflexivity|..]; cbn; rewrite ?P, ?times_app; cbn; auto; try discriminate. intros _. apply (m_busy _ I t x N). rewrite P. reflexivity.
  - eapply (mem_move _ _ t x); [eassumption|eassumption|reflexivity|..]; cbn; rewrite ?times_app; cbn; auto; try discriminate.
    + intros _. apply (m_busy _ I t x N). destruct P as [[-> _]|(j & g & -> & _)]; reflexivity.
    + destruct P as [[-> _]|(j & g & -> & _)]; reflexivity.
  - eapply (mem_move _ _ t x); [eassumption|eassumption|reflexivity|..]; cbn; rewrite ?times_app; cbn; auto; try discriminate.
    + intros _. apply (m_busy _ I t x N). destruct P as [[-> _]|(j & g & -> & _)]; reflexivity.
    + destruct P as [[-> _]|(j & g & -> & _)]; reflexivity.
  - eapply (mem_move _ _ t x); [eassumption|eassumption|reflexivity|..]; cbn; rewrite ?P; auto; try discriminate.
  - (* zero *) assert (B : 0 < t_own x) by (apply (m_busy _ I t x N); destruct P as [[-> _]|[[-> _]| ->]]; reflexivity).
    set (y := mkT (PDealloc last) (t_own x - 1) (t_ptr x)). destruct I as [I1 I2 I3 I4 I5 I6 I7 I8 I9 I10].
    assert (ND : forall u, ~ at_ s u is_dealloc) by (intros u H; destruct (I5 u H); lia).
    split; cbn [x_mem x_ref x_log x_thr thr put_thr put_ref]; auto.
    + intros u z H. apply nth_upd_inv in H. destruct H as [[-> ->]|[V H]]; [cbn; lia|eauto].
    + intros u z H K. apply nth_upd_inv in H. destruct H as [[-> ->]|[V H]]; [discriminate K|eauto].
    + intros _. rewrite (sum_upd _ _ x) by exact N. cbn. rewrite I3 by exact M. lia.
    + congruence.
    + intros u v H K. apply (at_upd s _ t y) in H; [|reflexivity]. apply (at_upd s _ t y) in K; [|reflexivity].
      destruct H as [[-> H]|[V H]]; [|destruct (ND u H)]. destruct K as [[-> K]|[V' K]]; [reflexivity|destruct (ND v K)].
    + intros _ _. exists t. exists y. split; [|reflexivity]. apply nth_upd_same. eapply nth_lt; eauto.
    + intros u H. apply (at_upd s _ t y) in H; [|reflexivity]. destruct H as [[-> H]|[V H]]; [discriminate|].
      destruct H as (z & H & K). specialize (GB u z H K). specialize (G2 u t z x H N V M GB B). lia.
    + intros u z H K. apply nth_upd_inv in H. destruct H as [[-> ->]|[V H]]; [cbn in K; eapply I9; eauto|eapply I9; eauto].
  - (* less *) assert (B : 0 < t_own x) by (apply (m_busy _ I t x N); destruct P as [[-> _]|[[-> _]| ->]]; reflexivity).
    pose proof (G t x N M B) as Gx. set (y := mkT PIdle (t_own x - 1) (if last then false else t_ptr x)).
    assert (NL : last = false). { destruct last; [|reflexivity]. assert (at_ s t is_last) as A by (exists x; split; [exact N|]; destruct P as [[_ P]|[[_ P]| ->]]; try discriminate P; reflexivity). apply (m_last _ I) in A. lia. }
    assert (NX : is_dealloc (t_pc x) = false) by (destruct P as [[-> _]|[[-> _]| ->]]; reflexivity).
    destruct I as [I1 I2 I3 I4 I5 I6 I7 I8 I9 I10]. assert (ND : forall u, ~ at_ s u is_dealloc) by (intros u H; destruct (I5 u H); lia).
    split; cbn [x_mem x_ref x_log x_thr thr put_thr put_ref]; auto.
    + intros u z H. apply nth_upd_inv in H. destruct H as [[-> ->]|[V H]]; [cbn; lia|eauto].
    + intros u z H K. apply nth_upd_inv in H. destruct H as [[-> ->]|[V H]]; [discriminate K|eauto].
    + intros _. rewrite (sum_upd _ _ x) by exact N. cbn. rewrite I3 by exact M. lia.
    + congruence.
    + intros u H. apply (at_upd s _ t y) in H; [|reflexivity]. destruct H as [[-> H]|[V H]]; [discriminate|destruct (ND u H)].
    + intros u v H K. apply (at_upd s _ t y) in H; [|reflexivity]. destruct H as [[-> H]|[V H]]; [discriminate|destruct (ND u H)].
    + intros _ Z'. lia.
    + intros u H. apply (at_upd s _ t y) in H; [|reflexivity]. destruct H as [[-> H]|[V H]]; [discriminate|]. specialize (I8 u H). lia.
    + intros u z H K. apply nth_upd_inv in H. destruct H as [[-> ->]|[V H]]; [|eapply I9; eauto]. subst y. rewrite NL in K. cbn in K. eapply I9; eauto.
  - (* dealloc *) assert (A : at_ s t is_dealloc) by (exists x; split; [exact N|rewrite P; reflexivity]).
    set (y := mkT PIdle (t_own x) (if last then false else t_ptr x)). destruct (m_dealloc _ I t A) as [_ Z].
    assert (NA : forall u z, nth_error (x_thr s) u = Some z -> t_own z = 0).
    { intros u z H. pose proof (m_own _ I u z H). destruct (Z.eq_dec (t_own z) 0); [assumption|]. specialize (G u z H M ltac:(lia)). lia. }
    destruct I as [I1 I2 I3 I4 I5 I6 I7 I8 I9 I10].
    split; cbn [x_mem x_ref x_log x_thr thr put_thr put_mem see]; auto; try discriminate.
    + intros u z H. apply nth_upd_inv in H. destruct H as [[-> ->]|[V H]]; [cbn; eauto|eauto].
    + intros u z H K. apply nth_upd_inv in H. destruct H as [[-> ->]|[V H]]; [discriminate K|eauto].
    + intros _. rewrite (sum_upd _ _ x) by exact N. cbn. rewrite <- I3 by exact M. lia.
    + intros u H. apply (at_upd s _ t y) in H; [|reflexivity]. destruct H as [[-> H]|[V H]]; [discriminate|]. destruct V. eauto.
    + intros u v H K. apply (at_upd s _ t y) in H; [|reflexivity]. apply (at_upd s _ t y) in K; [|reflexivity].
      destruct H as [[-> H]|[V H]]; [discriminate|]. destruct K as [[-> K]|[V' K]]; [discriminate|]. eauto.
    + intros u H. apply (at_upd s _ t y) in H; [|reflexivity]. destruct H as [[-> H]|[V H]]; [discriminate|]. eauto.
    + rewrite times_app. cbn. rewrite I10, M. reflexivity.
  - (* give *) set (a := set_own (t_own x - 1) x). set (b := mkT PIdle (t_own y + 1) true).
    assert (HM : x_mem s = true). { destruct (x_mem s) eqn:M; [reflexivity|]. pose proof (m_gone _ I M). pose proof (sum_one (x_thr s) t x (m_own _ I) N). lia. }
    assert (N2 : nth_error (x_thr (thr s t a)) u = Some y) by (rewrite thr_other; auto).
    assert (Z : forall v c, at_ (thr (thr s t a) u b) v c -> c PIdle = false -> at_ s v c /\ v <> t /\ v <> u).
    { intros v c H K. apply (at_upd (thr s t a) _ u b) in H; [|reflexivity]. destruct H as [[-> H]|[V H]]; [cbn in H; congruence|].
      apply (at_upd s _ t a) in H; [|reflexivity]. destruct H as [[-> H]|[V' H]]; [cbn in H; rewrite P in H; congruence|auto]. }
    assert (W : forall v z, nth_error (x_thr (thr (thr s t a) u b)) v = Some z -> (v = u /\ z = b) \/ (v = t /\ z = a) \/ (v <> u /\ v <> t /\ nth_error (x_thr s) v = Some z)).
    { intros v z H. unfold thr in H. cbn in H. apply nth_upd_inv in H. destruct H as [[-> ->]|[V H]]; [auto|]. apply nth_upd_inv in H. destruct H as [[-> ->]|[V' H]]; auto. }
    assert (SS : sum (x_thr (thr (thr s t a) u b)) = sum (x_thr s)).
    { unfold thr at 1. cbn [x_thr put_thr]. rewrite (sum_upd _ _ y) by exact N2. unfold thr. cbn [x_thr put_thr]. rewrite (sum_upd _ _ x) by exact N. unfold a, b. cbn. lia. }
    destruct I as [I1 I2 I3 I4 I5 I6 I7 I8 I9 I10]. split; rewrite ?SS; cbn [x_mem x_ref x_log thr put_thr]; auto.
    + intros v z H. apply W in H. destruct H as [[-> ->]|[[-> ->]|(V & V' & H)]]; [unfold b; cbn; specialize (I1 u y N'); lia|unfold a; cbn; lia|eauto].
    + intros v z H K. apply W in H. destruct H as [[-> ->]|[[-> ->]|(V & V' & H)]]; [discriminate K|cbn in K; rewrite P in K; discriminate K|eauto].
    + intros v H. apply Z in H; [|reflexivity]. destruct H as [H _]. eauto.
    + intros v w H K. apply Z in H; [|reflexivity]. apply Z in K; [|reflexivity]. destruct H as [H _], K as [K _]. eauto.
    + intros _ Q. destruct (I7 HM Q) as [v H]. exists v. assert (v <> t /\ v <> u) as [V V'].
      { split; intros ->; [apply (at_pc_inv _ _ x) in H|apply (at_pc_inv _ _ y) in H]; auto; [rewrite P in H|rewrite P' in H]; discriminate. }
      eapply (at_keep (thr s t a)); [reflexivity|exact V'|]. eapply (at_keep s); [reflexivity|exact V|exact H].
    + intros v H. apply Z in H; [|reflexivity]. destruct H as [H _]. eauto.
    + intros v z H K. apply W in H. destruct H as [[-> ->]|[[-> ->]|(V & V' & H)]]; [discriminate K|exact (I9 t x N K)|exact (I9 v z H K)].
  - eapply (mem_move _ _ t x); [eassumption|eassumption|reflexivity|..]; cbn; rewrite ?P; auto; try discriminate.
Qed.
Lemma mem_x0 : forall lmx n, mem (x0 lmx n).
Proof.
  intros lmx n. assert (Z : forall t b, at_ (x0 lmx n) t b -> b PIdle = true) by (intros t b (x & H & K); apply x0_idle in H; destruct H as [H _]; rewrite H in K; exact K).
  split; try (intros; match goal with H : at_ _ _ _ |- _ => apply Z in H; discriminate end).
  - intros t x H. apply x0_idle in H. lia.
  - intros t x H K. apply x0_idle in H. destruct H as [H _]. rewrite H in K. discriminate.
  - intros _. cbn. rewrite (sum_zero (repeat _ n)); [reflexivity|]. intros t x H. apply nth_error_In, repeat_spec in H. subst. reflexivity.
  - discriminate.
  - cbn. lia.
  - intros t x H K. apply x0_idle in H. destruct H as (_ & _ & H). congruence.
  - reflexivity.
Qed.
Lemma mem_run : forall lmx n es s, owners (x0 lmx n) es -> xrun (x0 lmx n) es = Ok s -> mem s.
Proof. intros lmx n es s O R. apply (kept_by mem true false (mem_tr false) es (x0 lmx n) s); auto; try discriminate. apply mem_x0. Qed.

(** The context is released once, when there are no references; it is when all
    were given back. *)
Theorem released_once : forall lmx n es s, owners (x0 lmx n) es -> xrun (x0 lmx n) es = Ok s ->
  times is_freed (x_log s) = (if x_mem s then 0%nat else 1%nat) /\ (x_mem s = false -> total s = 0) /\ (x_mem s = true -> x_ref s = total s) /\
  (all_idle s -> total s = 0 -> x_mem s = false).
Proof.
  intros lmx n es s O R. pose proof (mem_run _ _ _ _ O R) as I. rewrite total_sum. split; [apply (m_freed _ I)|]. split; [apply (m_gone _ I)|]. split; [apply (m_ref _ I)|].
  intros A T. destruct (x_mem s) eqn:M; [|reflexivity]. destruct (m_zero _ I M) as [t (x & N & H)]; [rewrite (m_ref _ I M); exact T|].
  specialize (A t _ (nth_pc _ _ _ N)). rewrite A in H. discriminate.
Qed.
(** A pointer is only set to NULL if the context was released. *)
Theorem null_released : forall lmx n es s t x, owners (x0 lmx n) es -> xrun (x0 lmx n) es = Ok s -> nth_error (x_thr s) t = Some x -> t_ptr x = false -> x_mem s = false.
Proof. intros lmx n es s t x O R N P. exact (m_null _ (mem_run _ _ _ _ O R) t x N P). Qed.
