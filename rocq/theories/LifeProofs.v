(** Proofs about the life of channel pools. *)
From Verif Require Import Base LifeModel LifeSpec.

Lemma nth_put {A} (l : list A) i j x : nth_error (put l i x) j = if Nat.eqb i j then (match nth_error l i with Some _ => Some x | None => None end) else nth_error l j.
Proof. revert i j; induction l as [|y l IH]; intros [|i] [|j]; cbn; auto. destruct (Nat.eqb i j); auto. Qed.
Lemma put_length {A} (l : list A) i x : length (put l i x) = length l.
Proof. revert i; induction l; intros [|i]; cbn; auto. Qed.
Lemma hasn_in l c : hasn l c = true <-> In c l.
Proof.
  unfold hasn. rewrite existsb_exists. split; [intros (x & I & E); apply Nat.eqb_eq in E; subst; auto|].
  intros I. exists c. split; auto. apply Nat.eqb_refl.
Qed.
Lemma hasn_out l c : hasn l c = false <-> ~ In c l.
Proof. rewrite <- hasn_in. destruct (hasn l c); split; intros; congruence. Qed.
Lemma drop_in l c x : In x (drop l c) <-> In x l /\ x <> c.
Proof.
  unfold drop. rewrite filter_In. rewrite Bool.negb_true_iff, Nat.eqb_neq. intuition.
Qed.
Lemma drop_nodup l c : NoDup l -> NoDup (drop l c).
Proof. apply NoDup_filter. Qed.

Definition bq (q : pl) (c : nat) : Z := if q_live q && hasn (q_list q) c then 1 else 0.
Lemma held_put l p q q' c : nth_error l p = Some q -> held (put l p q') c = held l c - bq q c + bq q' c.
Proof.
  revert p; induction l as [|y l IH]; intros [|p]; cbn; try discriminate.
  - intros H. inversion H; subst. unfold bq. lia.
  - intros H. rewrite (IH p H). lia.
Qed.
Lemma held_nonneg l c : 0 <= held l c.
Proof. induction l as [|q l IH]; cbn; [lia|]. destruct (q_live q && hasn (q_list q) c); lia. Qed.
Lemma held_app l l' c : held (l ++ l') c = held l c + held l' c.
Proof. induction l as [|q l IH]; cbn; [lia|]. rewrite IH. lia. Qed.
Lemma held_in l p q c : nth_error l p = Some q -> q_live q = true -> In c (q_list q) -> 1 <= held l c.
Proof.
  revert p; induction l as [|y l IH]; intros [|p]; cbn; try discriminate.
  - intros H L I. inversion H; subst. rewrite L. apply hasn_in in I. rewrite I. cbn [andb]. pose proof (held_nonneg l c). lia.
  - intros H L I. pose proof (IH p H L I). destruct (q_live y && hasn (q_list y) c); lia.
Qed.

(** * The count of references, with those in transit *)
Definition chinv (ex : nat -> Z) (s : lst) : Prop :=
  forall c h, nth_error (l_chs s) c = Some h -> h_refs h = owners s c h + ex c /\ (h_freed h = false -> 1 <= h_refs h) /\ (h_freed h = true -> h_refs h = 0).
Definition plinv (s : lst) : Prop := forall p q, nth_error (l_pools s) p = Some q -> NoDup (q_list q) /\ (forall c, In c (q_list q) -> (c < length (l_chs s))%nat).
Definition inv (ex : nat -> Z) (s : lst) : Prop := chinv ex s /\ plinv s.
Definition one (c x : nat) : Z := if Nat.eqb c x then 1 else 0.
Lemma inv_ext ex ex' s : (forall c, ex c = ex' c) -> inv ex s -> inv ex' s.
Proof. intros E [A B]. split; auto. intros c h N. rewrite <- E. apply A; auto. Qed.

(** A change of one channel. *)
Lemma inv_set ex s c h h' d : inv ex s -> nth_error (l_chs s) c = Some h ->
  h_refs h' = h_refs h - (if h_conn h then 1 else 0) - h_app h + (if h_conn h' then 1 else 0) + h_app h' + d ->
  (h_freed h' = false -> 1 <= h_refs h') -> (h_freed h' = true -> h_refs h' = 0) ->
  inv (fun x => ex x + d * one c x) (set_ch s c h').
Proof.
  intros [A B] N R F1 F2. split.
  - intros x hx NX. cbn [l_chs set_ch] in NX. rewrite nth_put in NX. unfold one. destruct (Nat.eqb c x) eqn:E.
    + apply Nat.eqb_eq in E. subst x. rewrite N in NX. inversion NX; subst hx. destruct (A c h N) as (A1 & _). unfold owners in *. cbn [l_pools set_ch]. split; [lia|auto].
    + destruct (A x hx NX) as (A1 & A2). unfold owners in *. cbn [l_pools set_ch]. split; [lia|auto].
  - intros p q NP. cbn in NP. destruct (B p q NP) as (B1 & B2). split; auto. cbn. rewrite put_length. auto.
Qed.
Lemma unref_fact ex s c s' : inv ex s -> unref s c = LOk s' ->
  inv (fun x => ex x - one c x) s' /\ l_pools s' = l_pools s /\ l_lock s' = l_lock s /\ (forall x, x <> c -> nth_error (l_chs s') x = nth_error (l_chs s) x) /\
  exists h h', nth_error (l_chs s) c = Some h /\ nth_error (l_chs s') c = Some h' /\ h_freed h = false /\ h_refs h' = h_refs h - 1 /\
    h_pool h' = h_pool h /\ h_conn h' = h_conn h /\ h_app h' = h_app h /\ h_ready h' = h_ready h /\ h_accept h' = h_accept h /\ h_uses h' = h_uses h /\ h_freed h' = (h_refs h' =? 0).
Proof.
  intros I. unfold unref, with_ch. destruct (nth_error (l_chs s) c) as [h|] eqn:N; [|discriminate]. destruct (h_freed h) eqn:F; [discriminate|].
  destruct I as [A B]. destruct (A c h N) as (A1 & A2 & _). specialize (A2 F).
  assert (SAME : forall h', (forall x, x <> c -> nth_error (put (l_chs s) c h') x = nth_error (l_chs s) x) /\ nth_error (put (l_chs s) c h') c = Some h').
  { intros h'. split; [|rewrite nth_put, Nat.eqb_refl, N; auto]. intros x X. rewrite nth_put. destruct (Nat.eqb c x) eqn:E; auto. apply Nat.eqb_eq in E; congruence. }
  set (g := w_refs h (h_refs h - 1)). cbn [h_refs w_refs]. 
  assert (GO : forall fr s1, fr = (h_refs h - 1 =? 0) -> s1 = set_ch s c (if fr then w_freed g else g) ->
    inv (fun x => ex x - one c x) s1 /\ l_pools s1 = l_pools s /\ l_lock s1 = l_lock s /\ (forall x, x <> c -> nth_error (l_chs s1) x = nth_error (l_chs s) x) /\
    exists h0 h', Some h = Some h0 /\ nth_error (l_chs s1) c = Some h' /\ h_freed h0 = false /\ h_refs h' = h_refs h0 - 1 /\
    h_pool h' = h_pool h0 /\ h_conn h' = h_conn h0 /\ h_app h' = h_app h0 /\ h_ready h' = h_ready h0 /\ h_accept h' = h_accept h0 /\ h_uses h' = h_uses h0 /\ h_freed h' = (h_refs h' =? 0)).
  { intros fr s1 EF ->. split; [|split; [reflexivity|split; [reflexivity|split; [apply SAME|]]]].
    - apply inv_ext with (ex := fun x => ex x + (-1) * one c x); [intros; ring|]. symmetry in EF. destruct fr; (eapply inv_set; [split; eassumption|exact N| | |]); cbn; try lia; try congruence.
    - exists h. eexists. split; [auto|]. split; [apply SAME|]. destruct fr; cbn; rewrite ?F, <- ?EF; auto 12. }
  destruct (h_refs g =? 0) eqn:Z0.
  - unfold chan_free. intros H.
    assert (E : s' = set_ch s c (w_freed g)).
    { assert (PP : forall h1 h2, put (put (l_chs s) c h1) c h2 = put (l_chs s) c h2).
      { intros. clear. revert c; induction (l_chs s); intros [|c]; cbn; auto. rewrite IHl. auto. }
      destruct (h_pool g); [unfold with_pl in H; destruct (nth_error _ n); [|discriminate]; destruct (q_live p); [|discriminate];
        destruct (l_lock _); [discriminate|]; destruct (hasn (q_list p) c); [discriminate|]|]; injection H as <-; unfold set_ch; cbn; rewrite PP; reflexivity. }
    apply (GO true); auto.
  - intros H. injection H as <-. apply (GO false); auto.
Qed.
Lemma set_lock_inv ex s b : inv ex s -> inv ex (set_lock s b).
Proof. intros [A B]. split; auto. Qed.

Lemma close_fact ex s c s' : inv ex s -> close_ch s c = LOk s' ->
  inv ex s' /\ l_pools s' = l_pools s /\ l_lock s' = l_lock s /\ (forall x, x <> c -> nth_error (l_chs s') x = nth_error (l_chs s) x) /\
  exists h h', nth_error (l_chs s) c = Some h /\ nth_error (l_chs s') c = Some h' /\ h_freed h = false /\ h_pool h' = h_pool h /\ h_app h' = h_app h /\ h_uses h' = h_uses h /\
    h_conn h' = (h_conn h && negb (h_accept h)).
Proof.
  intros I. unfold close_ch, with_ch. destruct (nth_error (l_chs s) c) as [h|] eqn:N; [|discriminate]. destruct (h_freed h) eqn:F; [discriminate|].
  destruct (h_conn h) eqn:C; cbn [negb].
  - destruct (h_uses h && l_lock s); [discriminate|]. destruct (h_accept h) eqn:AC.
    + intros H. assert (I1 : inv (fun x => ex x + 1 * one c x) (set_ch s c (w_closed h))).
      { destruct I as [A B]. destruct (A c h N) as (A1 & A2 & A3). eapply inv_set; [split; eassumption|exact N| | |]; cbn; rewrite ?C; auto; lia. }
      destruct (unref_fact _ _ _ _ I1 H) as (I2 & P & L & O & h1 & h2 & N1 & N2 & F1 & _ & Q1 & Q2 & Q3 & _ & Q5 & Q6 & _).
      cbn [l_chs set_ch] in N1. rewrite nth_put, Nat.eqb_refl, N in N1. injection N1 as <-.
      split; [eapply inv_ext; [|exact I2]; intros; ring|]. split; [auto|]. split; [auto|]. split.
      * intros x X. rewrite (O x X). cbn. rewrite nth_put. destruct (Nat.eqb c x) eqn:E; auto. apply Nat.eqb_eq in E; congruence.
      * exists h, h2. rewrite C, AC. cbn in Q1, Q2, Q3, Q6. rewrite Q2. auto 10.
    + intros H. injection H as <-. split; auto. split; auto. split; auto. split; auto. exists h, h. rewrite C, AC. cbn. auto 10.
  - intros H. injection H as <-. split; auto. split; auto. split; auto. split; auto. exists h, h. rewrite C. cbn. auto 10.
Qed.
Lemma no_pool_fact ex s c s' : inv ex s -> no_pool s c = LOk s' ->
  inv ex s' /\ l_pools s' = l_pools s /\ l_lock s' = l_lock s /\ (forall x, x <> c -> nth_error (l_chs s') x = nth_error (l_chs s) x) /\
  exists h, nth_error (l_chs s) c = Some h /\ h_freed h = false /\ nth_error (l_chs s') c = Some (w_pool h None).
Proof.
  intros I. unfold no_pool, with_ch. destruct (nth_error (l_chs s) c) as [h|] eqn:N; [|discriminate]. destruct (h_freed h) eqn:F; [discriminate|]. intros H. injection H as <-.
  split; [|split; [auto|split; [auto|split]]].
  - apply inv_ext with (ex := fun x => ex x + 0 * one c x); [intros; ring|]. destruct I as [A B]. destruct (A c h N) as (A1 & A2 & A3). eapply inv_set; [split; eassumption|exact N| | |]; cbn; auto; lia.
  - intros x X. cbn. rewrite nth_put. destruct (Nat.eqb c x) eqn:E; auto. apply Nat.eqb_eq in E; congruence.
  - exists h. cbn. rewrite nth_put, Nat.eqb_refl, N. auto.
Qed.
(** A change of the list of one pool. *)
Lemma inv_pool ex s p q q' : inv ex s -> nth_error (l_pools s) p = Some q -> NoDup (q_list q') -> (forall c, In c (q_list q') -> (c < length (l_chs s))%nat) ->
  inv (fun x => ex x + bq q x - bq q' x) (set_pl s p q').
Proof.
  intros [A B] N ND RG. split.
  - intros c h NC. cbn in NC. destruct (A c h NC) as (A1 & A2). unfold owners in *. cbn [l_pools set_pl]. rewrite (held_put _ _ _ _ _ N). split; [lia|auto].
  - intros p' q1 NP. cbn in *. rewrite nth_put in NP. destruct (Nat.eqb p p') eqn:E.
    + rewrite N in NP. injection NP as <-. auto.
    + apply (B p' q1 NP).
Qed.
Lemma bq_drop q c x : q_live q = true -> In c (q_list q) -> bq q x - bq (mkQ true (drop (q_list q) c)) x = one c x.
Proof.
  intros L I. unfold bq, one. rewrite L. cbn [q_live q_list andb]. destruct (Nat.eqb c x) eqn:E.
  - apply Nat.eqb_eq in E. subst x. apply hasn_in in I. rewrite I. assert (hasn (drop (q_list q) c) c = false) by (apply hasn_out; rewrite drop_in; tauto). rewrite H. lia.
  - apply Nat.eqb_neq in E. destruct (hasn (q_list q) x) eqn:H1.
    + assert (hasn (drop (q_list q) c) x = true) by (apply hasn_in; rewrite drop_in; apply hasn_in in H1; auto). rewrite H. lia.
    + assert (hasn (drop (q_list q) c) x = false) by (apply hasn_out; rewrite drop_in; apply hasn_out in H1; tauto). rewrite H. lia.
Qed.
Lemma unlink_fact ex s p q c : inv ex s -> nth_error (l_pools s) p = Some q -> q_live q = true -> In c (q_list q) ->
  inv (fun x => ex x + one c x) (unlink s p c) /\ unlink s p c = set_pl s p (mkQ true (drop (q_list q) c)).
Proof.
  intros I N L IC. unfold unlink. rewrite N, L. split; [|reflexivity]. eapply inv_ext; [|eapply inv_pool; [exact I|exact N| |]].
  - intros x. pose proof (bq_drop q c x L IC). cbn beta. lia.
  - cbn. apply drop_nodup. apply I in N. tauto.
  - cbn. intros x X. apply drop_in in X. destruct I as [_ B]. destruct (B p q N) as [_ R]. apply R. tauto.
Qed.

(** What [take_out] does. *)
Definition others (s s' : lst) (p : nat) : Prop := forall p', p' <> p -> nth_error (l_pools s') p' = nth_error (l_pools s) p'.
Lemma set_pl_others s p q : others s (set_pl s p q) p.
Proof. intros p' X. cbn. rewrite nth_put. destruct (Nat.eqb p p') eqn:E; auto. apply Nat.eqb_eq in E; congruence. Qed.
Lemma set_pl_here s p q q' : nth_error (l_pools s) p = Some q -> nth_error (l_pools (set_pl s p q')) p = Some q'.
Proof. intros N. cbn. rewrite nth_put, Nat.eqb_refl, N. auto. Qed.
Lemma take_out_fact ex s p c q s' : inv ex s -> nth_error (l_pools s) p = Some q -> q_live q = true -> In c (q_list q) -> take_out s p c = LOk s' ->
  inv ex s' /\ nth_error (l_pools s') p = Some (mkQ true (drop (q_list q) c)) /\ others s s' p /\ l_lock s' = l_lock s /\
  (forall x, x <> c -> nth_error (l_chs s') x = nth_error (l_chs s) x) /\
  exists h h', nth_error (l_chs s) c = Some h /\ nth_error (l_chs s') c = Some h' /\ h_pool h' = None /\ h_app h' = h_app h /\ h_uses h' = h_uses h /\ h_conn h' = (h_conn h && negb (h_accept h)).
Proof.
  intros I N L IC. unfold take_out. destruct (unlink_fact ex s p q c I N L IC) as (I1 & E1). rewrite E1 in *.
  destruct (no_pool _ c) as [s2| |] eqn:E2; try discriminate. cbn [lbind]. destruct (no_pool_fact _ _ _ _ I1 E2) as (I2 & P2 & L2 & O2 & h & N2 & F2 & N2').
  destruct (close_ch s2 c) as [s3| |] eqn:E3; try discriminate. cbn [lbind]. destruct (close_fact _ _ _ _ I2 E3) as (I3 & P3 & L3 & O3 & h3 & h3' & N3 & N3' & F3 & Q3 & A3 & U3 & C3).
  intros E4. destruct (unref_fact _ _ _ _ I3 E4) as (I4 & P4 & L4 & O4 & h4 & h4' & N4 & N4' & F4 & _ & Q4 & C4 & A4 & _ & _ & U4 & _).
  split; [eapply inv_ext; [|exact I4]; intros; ring|]. split; [rewrite P4, P3, P2; eapply set_pl_here; eauto|]. split; [intros p' X; rewrite P4, P3, P2; apply set_pl_others; auto|].
  split; [rewrite L4, L3, L2; reflexivity|]. split; [intros x X; rewrite O4, O3, O2 by auto; auto|].
  assert (h3 = w_pool h None) by congruence. assert (h4 = h3') by congruence. subst. exists h, h4'. cbn in *.
  split; auto. split; auto. split; [congruence|]. split; [congruence|]. split; congruence.
Qed.
Lemma let_one_fact ex s p c q s' : inv ex s -> nth_error (l_pools s) p = Some q -> q_live q = true -> In c (q_list q) ->
  lbind (no_pool (unlink s p c) c) (fun s => unref s c) = LOk s' ->
  inv ex s' /\ nth_error (l_pools s') p = Some (mkQ true (drop (q_list q) c)) /\ others s s' p /\ l_lock s' = l_lock s /\
  (forall x, x <> c -> nth_error (l_chs s') x = nth_error (l_chs s) x) /\
  exists h h', nth_error (l_chs s) c = Some h /\ nth_error (l_chs s') c = Some h' /\ h_pool h' = None /\ h_app h' = h_app h /\ h_uses h' = h_uses h /\ h_conn h' = h_conn h.
Proof.
  intros I N L IC. destruct (unlink_fact ex s p q c I N L IC) as (I1 & E1). rewrite E1 in *.
  destruct (no_pool _ c) as [s2| |] eqn:E2; try discriminate. cbn [lbind]. destruct (no_pool_fact _ _ _ _ I1 E2) as (I2 & P2 & L2 & O2 & h & N2 & F2 & N2').
  intros E4. destruct (unref_fact _ _ _ _ I2 E4) as (I4 & P4 & L4 & O4 & h4 & h4' & N4 & N4' & F4 & _ & Q4 & C4 & A4 & _ & _ & U4 & _).
  split; [eapply inv_ext; [|exact I4]; intros; ring|]. split; [rewrite P4, P2; eapply set_pl_here; eauto|]. split; [intros p' X; rewrite P4, P2; apply set_pl_others; auto|].
  split; [rewrite L4, L2; reflexivity|]. split; [intros x X; rewrite O4, O2 by auto; auto|].
  assert (h4 = w_pool h None) by congruence. subst. exists h, h4'. cbn in *. auto 10.
Qed.

Lemma drop_mid kept c r : NoDup (kept ++ c :: r) -> drop (kept ++ c :: r) c = kept ++ r.
Proof.
  intros ND. unfold drop. rewrite filter_app. cbn [filter]. rewrite Nat.eqb_refl. cbn [negb].
  assert (K : forall l, ~ In c l -> filter (fun x => negb (Nat.eqb c x)) l = l).
  { induction l as [|y l IH]; intros H; cbn; auto. destruct (Nat.eqb c y) eqn:E; [apply Nat.eqb_eq in E; subst; exfalso; apply H; left; auto|]. cbn. rewrite IH; auto. intros X; apply H; right; auto. }
  apply NoDup_remove_2 in ND. rewrite !K; auto; intros X; apply ND; apply in_or_app; auto.
Qed.
Lemma left_over_ext f g l n : (forall x, In x l -> f x = g x) -> left_over f l n = left_over g l n.
Proof.
  revert n; induction l as [|c r IH]; intros [|n] H; cbn; auto. rewrite (H c (or_introl eq_refl)). destruct (g c); [|f_equal]; apply IH; intros; apply H; right; auto.
Qed.
Lemma left_over_incl f l n : incl (left_over f l n) l.
Proof.
  revert n; induction l as [|c r IH]; intros [|n] x; cbn; auto. destruct (f c); [intros I; right; eapply IH; eauto|]. intros [E|I]; [left; auto|right; eapply IH; eauto].
Qed.
(** What is seen of a channel taken out. *)
Definition taken (h h' : chn) : Prop := h_pool h' = None /\ h_app h' = h_app h /\ h_uses h' = h_uses h /\ h_conn h' = (h_conn h && negb (h_accept h)).

Lemma rem_loop_fact todo : forall n ex s p kept s', inv ex s -> nth_error (l_pools s) p = Some (mkQ true (kept ++ todo)) -> rem_loop s p todo n = LOk s' ->
  inv ex s' /\ nth_error (l_pools s') p = Some (mkQ true (kept ++ left_over (ready_in s) todo n)) /\ others s s' p /\ l_lock s' = l_lock s /\
  (forall x, (~ In x todo \/ In x (left_over (ready_in s) todo n)) -> nth_error (l_chs s') x = nth_error (l_chs s) x) /\
  (forall x, In x todo -> ~ In x (left_over (ready_in s) todo n) -> exists h h', nth_error (l_chs s) x = Some h /\ nth_error (l_chs s') x = Some h' /\ taken h h').
Proof.
  induction todo as [|c r IH]; intros n ex s p kept s' I N H.
  - destruct n; cbn in H; injection H as <-; cbn; (split; [auto|split; [auto|split; [intros ? ?; auto|split; [auto|split; [auto|intros x []]]]]]).
  - destruct n as [|n].
    { cbn in H. injection H as <-. cbn. split; [auto|split; [auto|split; [intros ? ?; auto|split; [auto|split; [auto|intros x X Y; contradiction]]]]]. }
    cbn [rem_loop] in H. unfold with_ch in H. destruct (nth_error (l_chs s) c) as [h|] eqn:NC; [|discriminate]. destruct (h_freed h); [discriminate|].
    assert (ND : NoDup (kept ++ c :: r)) by (destruct I as [_ B]; apply (B p _ N)).
    assert (NR : ~ In c r) by (intros X; apply NoDup_remove_2 in ND; apply ND; apply in_or_app; auto).
    cbn [left_over]. assert (RC : ready_in s c = h_ready h) by (unfold ready_in; rewrite NC; auto). rewrite RC. destruct (h_ready h) eqn:R.
    + destruct (take_out s p c) as [s1| |] eqn:T; try discriminate. cbn [lbind] in H.
      destruct (take_out_fact ex s p c _ s1 I N eq_refl ltac:(cbn; apply in_or_app; right; left; auto) T) as (I1 & N1 & O1 & L1 & C1 & h0 & h1 & NA & NB & TK).
      cbn [q_list] in N1. rewrite (drop_mid kept c r ND) in N1. destruct (IH n ex s1 p kept s' I1 N1 H) as (I2 & N2 & O2 & L2 & C2 & T2).
      assert (EX : left_over (ready_in s1) r n = left_over (ready_in s) r n).
      { apply left_over_ext. intros x X. unfold ready_in. rewrite C1; auto. intros ->; contradiction. }
      rewrite EX in *. split; auto. split; auto. split; [intros p' X; rewrite O2, O1; auto|]. split; [congruence|].
      split.
      * intros x [X|X].
        -- rewrite C2 by (left; intros Y; apply X; right; auto). apply C1. intros ->. apply X. left; auto.
        -- rewrite C2 by (right; auto). apply C1. intros ->. apply left_over_incl in X. contradiction.
      * intros x [->|X] Y.
        -- exists h0, h1. split; auto. split; auto. rewrite C2; auto.
        -- destruct (T2 x X Y) as (g & g' & G & G' & GT). exists g, g'. rewrite <- C1; auto. intros ->; contradiction.
    + assert (N' : nth_error (l_pools s) p = Some (mkQ true ((kept ++ [c]) ++ r))) by (rewrite <- app_assoc; auto).
      destruct (IH (S n) ex s p (kept ++ [c]) s' I N' H) as (I2 & N2 & O2 & L2 & C2 & T2). split; auto. split; [rewrite <- app_assoc in N2; auto|]. split; auto. split; auto. split.
      * intros x [X|[->|X]]; apply C2; [left; intros Y; apply X; right; auto|left; auto|right; auto].
      * intros x [->|X] Y; [exfalso; apply Y; left; auto|]. apply T2; auto. intros Z; apply Y; right; auto.
Qed.

Lemma lbind_assoc r f g : lbind (lbind r f) g = lbind r (fun s => lbind (f s) g).
Proof. destruct r; auto. Qed.
Definition let_went (h h' : chn) : Prop := h_pool h' = None /\ h_app h' = h_app h /\ h_uses h' = h_uses h /\ h_conn h' = h_conn h.
Lemma let_go_fact todo : forall ex s p s', inv ex s -> nth_error (l_pools s) p = Some (mkQ true todo) -> let_go s p todo = LOk s' ->
  inv ex s' /\ nth_error (l_pools s') p = Some (mkQ true []) /\ others s s' p /\ l_lock s' = l_lock s /\
  (forall x, ~ In x todo -> nth_error (l_chs s') x = nth_error (l_chs s) x) /\
  (forall x, In x todo -> exists h h', nth_error (l_chs s) x = Some h /\ nth_error (l_chs s') x = Some h' /\ let_went h h').
Proof.
  induction todo as [|c r IH]; intros ex s p s' I N H.
  - cbn in H. injection H as <-. split; [auto|split; [auto|split; [intros ? ?; auto|split; [auto|split; [auto|intros x []]]]]].
  - cbn [let_go] in H. rewrite <- lbind_assoc in H. destruct (lbind (no_pool (unlink s p c) c) (fun s => unref s c)) as [s1| |] eqn:T; try discriminate. cbn [lbind] in H.
    assert (ND : NoDup (c :: r)) by (destruct I as [_ B]; apply (B p _ N)).
    destruct (let_one_fact ex s p c _ s1 I N eq_refl (or_introl eq_refl) T) as (I1 & N1 & O1 & L1 & C1 & h0 & h1 & NA & NB & TK).
    pose proof (drop_mid [] c r ND) as DM. cbn [app] in DM. cbn [q_list] in N1. rewrite DM in N1. destruct (IH ex s1 p s' I1 N1 H) as (I2 & N2 & O2 & L2 & C2 & T2). inversion ND; subst.
    split; auto. split; auto. split; [intros p' X; rewrite O2, O1; auto|]. split; [congruence|]. split.
    + intros x X. rewrite C2, C1; auto; [intros ->; apply X; left; auto|intros Y; apply X; right; auto].
    + intros x [->|X].
      * exists h0, h1. split; auto. split; auto. rewrite C2; auto.
      * destruct (T2 x X) as (g & g' & G & G' & GT). exists g, g'. rewrite <- C1; auto. intros ->; contradiction.
Qed.

Lemma NoDup_app_add (l : list nat) c : NoDup l -> ~ In c l -> NoDup (l ++ [c]).
Proof. intros N I. apply NoDup_rev in N. rewrite <- (rev_involutive (l ++ [c])). apply NoDup_rev. rewrite rev_app_distr. cbn. constructor; auto. rewrite <- in_rev. auto. Qed.
Definition z0 : nat -> Z := fun _ => 0.
Lemma held_range s c : plinv s -> (length (l_chs s) <= c)%nat -> held (l_pools s) c = 0.
Proof.
  intros B L. assert (K : forall l, (forall q, In q l -> ~ In c (q_list q)) -> held l c = 0).
  { induction l as [|q l IH]; intros H; cbn; auto. assert (hasn (q_list q) c = false) by (apply hasn_out; apply H; left; auto). rewrite H0, Bool.andb_false_r, IH; auto. intros; apply H; right; auto. }
  apply K. intros q I X. apply In_nth_error in I. destruct I as [p N]. destruct (B p q N) as [_ R]. specialize (R c X). lia.
Qed.
Lemma new_inv s : inv z0 s -> inv z0 (new_chan s None).
Proof.
  intros [A B]. split.
  - intros c h N. cbn in N. unfold owners. cbn [l_pools new_chan]. destruct (Nat.lt_ge_cases c (length (l_chs s))) as [L|L].
    + rewrite nth_error_app1 in N by auto. apply (A c h N).
    + rewrite nth_error_app2 in N by auto. rewrite (held_range s c B L). destruct (c - length (l_chs s))%nat as [|k]; [|destruct k; discriminate]. injection N as <-. cbn. unfold z0. split; [lia|split; [lia|discriminate]].
  - intros p q N. cbn in N. destruct (B p q N) as [B1 B2]. split; auto. intros c I. cbn. rewrite app_length. specialize (B2 c I). lia.
Qed.
Lemma add_one_fact s p s' : inv z0 s -> add_one s p = LOk s' ->
  inv z0 s' /\ exists q, nth_error (l_pools s) p = Some q /\ q_live q = true /\ s' = set_pl (new_chan s (Some p)) p (mkQ true (q_list q ++ [length (l_chs s)])).
Proof.
  intros [A B]. unfold add_one, with_pl. destruct (nth_error (l_pools s) p) as [q|] eqn:N; [|discriminate]. destruct (q_live q) eqn:L; [|discriminate]. intros H. injection H as <-.
  split; [|eauto]. destruct (B p q N) as [B1 B2].
  assert (BQ : forall c, bq (mkQ true (q_list q ++ [length (l_chs s)])) c = bq q c + one (length (l_chs s)) c).
  { intros c. unfold bq, one. rewrite L. cbn [q_live q_list andb]. unfold hasn. rewrite existsb_app. cbn [existsb]. rewrite (Nat.eqb_sym c (length (l_chs s))).
    destruct (existsb (Nat.eqb c) (q_list q)) eqn:E; destruct (Nat.eqb (length (l_chs s)) c) eqn:F; cbn; try lia.
    apply Nat.eqb_eq in F. subst c. apply hasn_in in E. apply B2 in E. lia. }
  split.
  - intros c h NC. cbn in NC. unfold owners. cbn [l_pools set_pl new_chan]. rewrite (held_put _ _ _ _ _ N), BQ. destruct (Nat.lt_ge_cases c (length (l_chs s))) as [X|X].
    + rewrite nth_error_app1 in NC by auto. destruct (A c h NC) as (A1 & A2). unfold owners in A1. unfold one. destruct (Nat.eqb (length (l_chs s)) c) eqn:F; [apply Nat.eqb_eq in F; lia|]. split; [lia|auto].
    + rewrite nth_error_app2 in NC by auto. rewrite (held_range s c B X). destruct (c - length (l_chs s))%nat as [|k] eqn:D; [|destruct k; discriminate]. injection NC as <-. cbn [h_conn h_app h_refs h_freed]. unfold z0, one.
      assert (c = length (l_chs s)) by lia. subst c. rewrite Nat.eqb_refl. split; [lia|split; [lia|discriminate]].
  - intros p' q' NP. cbn in *. rewrite nth_put in NP. rewrite app_length. cbn. destruct (Nat.eqb p p') eqn:E.
    + rewrite N in NP. injection NP as <-. cbn [q_list]. split.
      * apply NoDup_app_add; auto. intros X. apply B2 in X. lia.
      * intros c X. apply in_app_or in X. destruct X as [X|[<-|[]]]; [apply B2 in X; lia|lia].
    + destruct (B p' q' NP) as [C1 C2]. split; auto. intros c X. specialize (C2 c X). lia.
Qed.

Lemma unlock_inv r s' : unlock r = LOk s' -> exists s, r = LOk s /\ s' = set_lock s false.
Proof. destruct r; try discriminate. cbn. intros H. injection H as <-. eauto. Qed.
Lemma live_eta q : q_live q = true -> q = mkQ true (q_list q).
Proof. destruct q as [b l]; cbn; intros ->; auto. Qed.
Lemma add_channels_inv n : forall s p s', inv z0 s -> add_channels s p n = LOk s' -> inv z0 s'.
Proof.
  induction n as [|n IH]; intros s p s' I H; cbn in H; [injection H as <-; auto|]. destruct (add_one s p) as [s1| |] eqn:E; try discriminate. cbn in H.
  destruct (add_one_fact s p s1 I E) as [I1 _]. eapply IH; eauto.
Qed.
Lemma new_pool_inv s : inv z0 s -> inv z0 (mkL (l_chs s) (l_pools s ++ [mkQ true []]) (l_lock s)).
Proof.
  intros [A B]. split.
  - intros c h N. cbn in N. unfold owners. cbn [l_pools]. rewrite held_app. cbn. destruct (A c h N) as [A1 A2]. unfold owners in A1. split; [lia|auto].
  - intros p q N. cbn in *. destruct (Nat.lt_ge_cases p (length (l_pools s))) as [L|L].
    + rewrite nth_error_app1 in N by auto. apply (B p q N).
    + rewrite nth_error_app2 in N by auto. destruct (p - length (l_pools s))%nat as [|k]; [|destruct k; discriminate]. injection N as <-. cbn. split; [constructor|intros ? []].
Qed.

(** What close and remove do, when they return. *)
Lemma remove_fact s p n s' : inv z0 s -> lstep s (LRemove p n) = LOk s' ->
  exists q, nth_error (l_pools s) p = Some q /\ q_live q = true /\ inv z0 s' /\
  nth_error (l_pools s') p = Some (mkQ true (left_over (ready_in s) (q_list q) n)) /\ others s s' p /\ l_lock s' = false /\
  (forall x, (~ In x (q_list q) \/ In x (left_over (ready_in s) (q_list q) n)) -> nth_error (l_chs s') x = nth_error (l_chs s) x) /\
  (forall x, In x (q_list q) -> ~ In x (left_over (ready_in s) (q_list q) n) -> exists h h', nth_error (l_chs s) x = Some h /\ nth_error (l_chs s') x = Some h' /\ taken h h').
Proof.
  intros I. cbn [lstep]. unfold with_pl. destruct (nth_error (l_pools s) p) as [q|] eqn:N; [|discriminate]. destruct (q_live q) eqn:L; [|discriminate]. intros H.
  apply unlock_inv in H. destruct H as (s1 & H & ->). exists q. split; auto. split; auto.
  destruct (rem_loop_fact (q_list q) n z0 (set_lock s true) p [] s1 (set_lock_inv _ _ _ I) ltac:(cbn; rewrite N; f_equal; apply live_eta; auto) H) as (I1 & N1 & O1 & L1 & C1 & T1).
  split; [apply set_lock_inv; auto|]. split; [exact N1|]. split; [exact O1|]. split; [auto|]. split; [exact C1|exact T1].
Qed.
Lemma close_pool_fact s p s' : inv z0 s -> lstep s (LClosePool p) = LOk s' ->
  exists q, nth_error (l_pools s) p = Some q /\ q_live q = true /\ inv z0 s' /\
  nth_error (l_pools s') p = Some (mkQ false []) /\ others s s' p /\ l_lock s' = false /\
  (forall x, ~ In x (q_list q) -> nth_error (l_chs s') x = nth_error (l_chs s) x) /\
  (forall x, In x (q_list q) -> exists h h', nth_error (l_chs s) x = Some h /\ nth_error (l_chs s') x = Some h' /\ h_pool h' = None /\ h_app h' = h_app h /\ h_uses h' = h_uses h /\
     h_conn h' = (h_conn h && negb (negb (hasn (left_over (ready_in s) (q_list q) (length (q_list q))) x) && h_accept h))).
Proof.
  intros I. cbn [lstep]. unfold with_pl at 1. destruct (nth_error (l_pools s) p) as [q|] eqn:N; [|discriminate]. destruct (q_live q) eqn:L; [|discriminate]. intros H.
  destruct (rem_loop (set_lock s true) p (q_list q) (length (q_list q))) as [s1| |] eqn:E1; try discriminate. cbn [lbind] in H.
  destruct (rem_loop_fact (q_list q) _ z0 (set_lock s true) p [] s1 (set_lock_inv _ _ _ I) ltac:(cbn; rewrite N; f_equal; apply live_eta; auto) E1) as (I1 & N1 & O1 & L1 & C1 & T1).
  unfold with_pl in H. cbn [app] in N1. rewrite N1 in H. cbn [q_live q_list] in H.
  set (rest := left_over (ready_in (set_lock s true)) (q_list q) (length (q_list q))) in *.
  destruct (let_go s1 p rest) as [s2| |] eqn:E2; try discriminate. cbn [lbind] in H. injection H as <-.
  destruct (let_go_fact rest z0 s1 p s2 I1 N1 E2) as (I2 & N2 & O2 & L2 & C2 & T2).
  assert (INC : incl rest (q_list q)) by apply left_over_incl.
  exists q. split; auto. split; auto. split.
  { apply inv_ext with (ex := fun x => z0 x + bq (mkQ true []) x - bq (mkQ false []) x); [intros x; reflexivity|]. apply inv_pool; [apply set_lock_inv; exact I2|exact N2|constructor|intros ? []]. }
  split; [apply (set_pl_here _ _ _ _ N2)|]. split; [intros p' X; rewrite (set_pl_others (set_lock s2 false) p _ p' X); cbn; rewrite O2, O1; auto|]. split; [auto|]. split.
  - intros x X. cbn. rewrite C2, C1; auto.
  - intros x X. change (ready_in s) with (ready_in (set_lock s true)). fold rest. cbn [l_chs set_pl set_lock]. destruct (hasn rest x) eqn:HR.
    + apply hasn_in in HR. destruct (T2 x HR) as (h & h' & G & G' & W1 & W2 & W3 & W4). rewrite C1 in G by auto. exists h, h'. cbn [negb andb]. rewrite Bool.andb_true_r. auto 10.
    + apply hasn_out in HR. destruct (T1 x X HR) as (h & h' & G & G' & W1 & W2 & W3 & W4). exists h, h'. cbn [negb andb]. rewrite C2 by auto. auto 10.
Qed.
Lemma detach_fact s p c s' : inv z0 s -> lstep s (LDetach p c) = LOk s' ->
  exists q h, nth_error (l_pools s) p = Some q /\ q_live q = true /\ nth_error (l_chs s) c = Some h /\ h_freed h = false /\ inv z0 s' /\ (l_lock s = false -> l_lock s' = false) /\
  nth_error (l_pools s') p = Some (mkQ true (drop (q_list q) c)) /\ others s s' p /\ (forall x, x <> c -> nth_error (l_chs s') x = nth_error (l_chs s) x) /\
  exists h', nth_error (l_chs s') c = Some h' /\ h_pool h' = h_pool h /\ h_app h' = h_app h.
Proof.
  intros I. cbn [lstep]. unfold with_pl, with_ch. destruct (nth_error (l_pools s) p) as [q|] eqn:N; [|discriminate]. destruct (q_live q) eqn:L; [|discriminate].
  destruct (nth_error (l_chs s) c) as [h|] eqn:NC; [|discriminate]. destruct (h_freed h) eqn:F; [discriminate|]. destruct (hasn (q_list q) c) eqn:H1.
  - intros H. apply unlock_inv in H. destruct H as (s1 & H & ->). destruct (unref (set_lock s true) c) as [s2| |] eqn:E; try discriminate. cbn [lbind] in H. injection H as <-.
    destruct (unref_fact z0 _ _ _ (set_lock_inv _ _ _ I) E) as (I2 & P2 & L2 & O2 & h1 & h2 & N1 & N2 & F1 & _ & Q1 & _ & Q3 & _).
    assert (N3 : nth_error (l_pools s2) p = Some q) by (rewrite P2; auto). apply hasn_in in H1.
    destruct (unlink_fact _ s2 p q c I2 N3 L H1) as (I3 & E3). rewrite E3 in *. cbn in N1. rewrite NC in N1. injection N1 as <-.
    exists q, h. split; auto. split; auto. split; auto. split; auto. split; [apply set_lock_inv; eapply inv_ext; [|exact I3]; intros; ring|]. split; auto.
    split; [apply (set_pl_here _ _ _ _ N3)|]. split; [intros p' X; cbn [l_pools set_lock]; rewrite (set_pl_others s2 p _ p' X), P2; auto|]. split; [intros x X; apply (O2 x X)|]. exists h2. auto.
  - intros H. injection H as <-. exists q, h. repeat (split; auto). rewrite N. f_equal. rewrite (live_eta q L) at 1. f_equal. symmetry. unfold drop. apply hasn_out in H1. clear - H1.
    induction (q_list q) as [|y l IH]; cbn; auto. destruct (Nat.eqb c y) eqn:E; [apply Nat.eqb_eq in E; subst; exfalso; apply H1; left; auto|]. cbn. rewrite IH; auto. intros X; apply H1; right; auto. eexists; eauto.
Qed.
Lemma step_inv s o s' : inv z0 s -> lstep s o = LOk s' -> inv z0 s'.
Proof.
  intros I. destruct o; intros H.
  - apply (add_channels_inv n _ _ _ (new_pool_inv s I) H).
  - apply (add_channels_inv n _ _ _ I H).
  - cbn in H. injection H as <-. apply new_inv; auto.
  - cbn in H. unfold with_pl, with_ch in H. destruct (nth_error (l_pools s) p) as [q|] eqn:N; [|discriminate]. destruct (q_live q) eqn:L; [|discriminate].
    destruct (nth_error (l_chs s) c) as [h|] eqn:NC; [|discriminate]. destruct (h_freed h) eqn:F; [discriminate|]. destruct (hasn (q_list q) c) eqn:H1; injection H as <-; auto.
    assert (I1 : inv (fun x => z0 x + 1 * one c x) (set_ch s c (w_refs h (h_refs h + 1)))).
    { destruct I as [A B]. destruct (A c h NC) as (A1 & A2 & A3). specialize (A2 F). eapply inv_set; [split; eassumption|exact NC| | |]; cbn; try lia; try congruence. }
    destruct I as [A B]. destruct (B p q N) as [B1 B2]. apply hasn_out in H1. eapply inv_ext; [|eapply (inv_pool _ _ p q); [exact I1|exact N| |]].
    + intros x. unfold bq, one, z0. rewrite L. cbn [q_live q_list andb]. unfold hasn. rewrite existsb_app. cbn [existsb]. rewrite (Nat.eqb_sym x c).
      destruct (existsb (Nat.eqb x) (q_list q)) eqn:E; destruct (Nat.eqb c x) eqn:G; cbn; try lia. apply Nat.eqb_eq in G. subst x. apply hasn_in in E. contradiction.
    + cbn. apply NoDup_app_add; auto.
    + cbn. rewrite put_length. intros x X. apply in_app_or in X. destruct X as [X|[<-|[]]]; auto. apply nth_error_Some. congruence.
  - destruct (detach_fact s p c s' I H) as (q & h & _ & _ & _ & _ & I1 & _). auto.
  - destruct (remove_fact s p n s' I H) as (q & _ & _ & I1 & _). auto.
  - destruct (close_pool_fact s p s' I H) as (q & _ & _ & I1 & _). auto.
  - cbn in H. destruct (close_fact z0 s c s' I H) as [I1 _]. auto.
  - cbn in H. unfold with_ch in H. destruct (nth_error (l_chs s) c) as [h|] eqn:N; [|discriminate]. destruct (h_freed h) eqn:F; [discriminate|]. injection H as <-.
    apply inv_ext with (ex := fun x => z0 x + 0 * one c x); [intros; unfold z0; ring|]. destruct I as [A B]. destruct (A c h N) as (A1 & A2 & A3). specialize (A2 F). eapply inv_set; [split; eassumption|exact N| | |]; cbn; try lia; congruence.
  - cbn in H. unfold with_ch in H at 1. destruct (nth_error (l_chs s) c) as [h|] eqn:N; [|discriminate]. destruct (h_freed h) eqn:F; [discriminate|].
    assert (I1 : inv (fun x => z0 x + 1 * one c x) (set_ch s c (w_app h (h_app h - 1)))).
    { destruct I as [A B]. destruct (A c h N) as (A1 & A2 & A3). specialize (A2 F). eapply inv_set; [split; eassumption|exact N| | |]; cbn; try lia; congruence. }
    destruct (unref_fact _ _ _ _ I1 H) as [I2 _]. eapply inv_ext; [|exact I2]. intros; unfold z0; ring.
  - cbn in H. unfold with_ch in H. destruct (nth_error (l_chs s) c) as [h|] eqn:N; [|discriminate]. destruct (h_freed h) eqn:F; [discriminate|]. injection H as <-.
    apply inv_ext with (ex := fun x => z0 x + 0 * one c x); [intros; unfold z0; ring|]. destruct I as [A B]. destruct (A c h N) as (A1 & A2 & A3). specialize (A2 F). eapply inv_set; [split; eassumption|exact N| | |]; cbn; try lia; congruence.
Qed.
Lemma inv0 : inv z0 lst0.
Proof. split; [intros [|c] h N; discriminate|intros [|p] q N; discriminate]. Qed.
Lemma run_inv os : forall s s', inv z0 s -> lrun s os = LOk s' -> inv z0 s'.
Proof. induction os as [|o os IH]; intros s s' I H; cbn in H; [injection H as <-; auto|]. destruct (lstep s o) as [s1| |] eqn:E; try discriminate. cbn in H. eapply IH; [eapply step_inv; eauto|exact H]. Qed.

(** ** References *)
Theorem run_counted os s : lrun lst0 os = LOk s -> counted s.
Proof.
  intros H c h N. destruct (run_inv os _ _ inv0 H) as [A B]. destruct (A c h N) as (A1 & A2 & A3). unfold z0 in A1. split; [lia|]. split.
  - intros F. specialize (A3 F). lia.
  - intros Z. destruct (h_freed h) eqn:F; auto. specialize (A2 eq_refl). lia.
Qed.

(** ** No memory freed is used *)
Definition nonneg (s : lst) : Prop := forall c h, nth_error (l_chs s) c = Some h -> 0 <= h_app h.
Definition ptrs (s : lst) : Prop := forall c h p, nth_error (l_chs s) c = Some h -> h_freed h = false -> h_pool h = Some p -> alive_pl s p.
Definition good (s : lst) : Prop := inv z0 s /\ nonneg s /\ l_lock s = false /\ ptrs s.

Lemma owners_nonneg s c h : 0 <= h_app h -> 0 <= owners s c h.
Proof. intros A. unfold owners. pose proof (held_nonneg (l_pools s) c). destruct (h_conn h); lia. Qed.
Lemma unref_ok s c h : nth_error (l_chs s) c = Some h -> h_freed h = false ->
  (h_refs h <> 1 \/ h_pool h = None \/ exists p, h_pool h = Some p /\ alive_pl s p /\ l_lock s = false /\ ~ member s p c) -> exists s', unref s c = LOk s'.
Proof.
  intros N F H. unfold unref, with_ch. rewrite N, F. cbn [h_refs w_refs]. destruct (h_refs h - 1 =? 0) eqn:Z0; [|eauto]. apply Z.eqb_eq in Z0.
  destruct H as [H|[H|(p & H & (q & NQ & LQ) & LK & NM)]]; [lia| |]; unfold chan_free; cbn [h_pool w_refs]; rewrite H; [eauto|].
  unfold with_pl. cbn [l_pools set_ch l_lock]. rewrite NQ, LQ, LK. destruct (hasn (q_list q) c) eqn:HN; [|eauto]. apply hasn_in in HN. exfalso. apply NM. exists q. auto.
Qed.
Lemma alive_of ex s c h : inv ex s -> 1 <= ex c -> nth_error (l_chs s) c = Some h -> 0 <= h_app h -> h_freed h = false.
Proof. intros [A B] E N G. destruct (A c h N) as (A1 & A2 & A3). pose proof (owners_nonneg s c h G). destruct (h_freed h); auto. specialize (A3 eq_refl). lia. Qed.
Lemma one_same c : one c c = 1.
Proof. unfold one. rewrite Nat.eqb_refl. auto. Qed.
Lemma in_range s p q c : plinv s -> nth_error (l_pools s) p = Some q -> In c (q_list q) -> exists h, nth_error (l_chs s) c = Some h.
Proof. intros B N I. destruct (B p q N) as [_ R]. specialize (R c I). apply nth_error_Some in R. destruct (nth_error (l_chs s) c); [eauto|congruence]. Qed.
Lemma take_out_ok s p c q h : inv z0 s -> nonneg s -> nth_error (l_pools s) p = Some q -> q_live q = true -> In c (q_list q) -> nth_error (l_chs s) c = Some h -> h_uses h = false ->
  exists s', take_out s p c = LOk s'.
Proof.
  intros I G N L IC NC U. unfold take_out. destruct (unlink_fact z0 s p q c I N L IC) as (I1 & E1). rewrite E1 in *.
  assert (F : h_freed h = false) by (eapply alive_of; [exact I1| |exact NC|eapply G; eauto]; unfold z0; rewrite one_same; lia).
  set (s1 := set_pl s p (mkQ true (drop (q_list q) c))) in *. destruct (no_pool s1 c) as [s2| |] eqn:E2; [|unfold no_pool, with_ch in E2; cbn in E2; rewrite NC, F in E2; discriminate..].
  cbn [lbind]. destruct (no_pool_fact _ _ _ _ I1 E2) as (I2 & P2 & L2 & O2 & h0 & N2 & F2 & N2'). cbn in N2. rewrite NC in N2. injection N2 as <-.
  assert (CL : exists s3, close_ch s2 c = LOk s3).
  { unfold close_ch, with_ch. rewrite N2'. cbn [h_freed w_pool h_conn h_uses h_accept]. rewrite F, U. cbn [andb]. destruct (h_conn h); cbn [negb]; [|eauto]. destruct (h_accept h); [|eauto].
    eapply unref_ok; [cbn; rewrite nth_put, Nat.eqb_refl, N2'; reflexivity|exact F|right; left; reflexivity]. }
  destruct CL as [s3 E3]. rewrite E3. cbn [lbind]. destruct (close_fact _ _ _ _ I2 E3) as (I3 & P3 & L3 & O3 & h3 & h3' & N3 & N3' & F3 & Q3 & A3 & U3 & C3).
  rewrite N2' in N3. injection N3 as <-. eapply unref_ok; [exact N3'| |right; left; rewrite Q3; reflexivity].
  eapply alive_of; [exact I3| |exact N3'|rewrite A3; cbn; eapply G; eauto]. unfold z0. rewrite one_same. lia.
Qed.
Lemma let_one_ok s p c q h : inv z0 s -> nonneg s -> nth_error (l_pools s) p = Some q -> q_live q = true -> In c (q_list q) -> nth_error (l_chs s) c = Some h ->
  exists s', lbind (no_pool (unlink s p c) c) (fun s => unref s c) = LOk s'.
Proof.
  intros I G N L IC NC. destruct (unlink_fact z0 s p q c I N L IC) as (I1 & E1). rewrite E1 in *.
  assert (F : h_freed h = false) by (eapply alive_of; [exact I1| |exact NC|eapply G; eauto]; unfold z0; rewrite one_same; lia).
  set (s1 := set_pl s p (mkQ true (drop (q_list q) c))) in *. destruct (no_pool s1 c) as [s2| |] eqn:E2; [|unfold no_pool, with_ch in E2; cbn in E2; rewrite NC, F in E2; discriminate..].
  cbn [lbind]. destruct (no_pool_fact _ _ _ _ I1 E2) as (I2 & P2 & L2 & O2 & h0 & N2 & F2 & N2'). cbn in N2. rewrite NC in N2. injection N2 as <-.
  eapply unref_ok; [exact N2'|exact F|right; left; reflexivity].
Qed.
Lemma rem_loop_ok todo : forall n s p kept, inv z0 s -> nonneg s -> nth_error (l_pools s) p = Some (mkQ true (kept ++ todo)) ->
  (forall c h, In c todo -> nth_error (l_chs s) c = Some h -> h_uses h = false) -> exists s', rem_loop s p todo n = LOk s' /\ nonneg s'.
Proof.
  induction todo as [|c r IH]; intros [|n] s p kept I G N U; cbn [rem_loop]; eauto.
  assert (IC : In c (kept ++ c :: r)) by (apply in_or_app; right; left; auto).
  destruct (in_range s p _ c (proj2 I) N IC) as [h NC].
  assert (F : h_freed h = false).
  { destruct I as [A B]. destruct (A c h NC) as (A1 & A2 & A3). destruct (h_freed h); auto. specialize (A3 eq_refl). unfold z0, owners in A1. pose proof (held_in _ _ _ c N eq_refl IC). specialize (G c h NC). destruct (h_conn h); lia. }
  unfold with_ch. rewrite NC, F. assert (ND : NoDup (kept ++ c :: r)) by (destruct I as [_ B]; apply (B p _ N)).
  assert (NR : ~ In c r) by (intros X; apply NoDup_remove_2 in ND; apply ND; apply in_or_app; auto).
  destruct (h_ready h).
  - destruct (take_out_ok s p c _ h I G N eq_refl IC NC (U c h (or_introl eq_refl) NC)) as [s1 E1]. rewrite E1. cbn [lbind].
    destruct (take_out_fact z0 s p c _ s1 I N eq_refl IC E1) as (I1 & N1 & O1 & L1 & C1 & h0 & h1 & NA & NB & TK & TA & _). cbn [q_list] in N1. rewrite (drop_mid kept c r ND) in N1.
    apply (IH n s1 p kept); auto.
    + intros x hx NX. destruct (Nat.eq_dec x c) as [->|X]; [rewrite NB in NX; injection NX as <-; rewrite TA; eapply G; eauto|rewrite C1 in NX by auto; eapply G; eauto].
    + intros x hx X NX. rewrite C1 in NX by (intros ->; contradiction). eapply U; [right; exact X|exact NX].
  - apply (IH (S n) s p (kept ++ [c])); auto; [rewrite <- app_assoc; auto|]. intros x hx X. apply U. right; auto.
Qed.
Lemma let_go_ok todo : forall s p, inv z0 s -> nonneg s -> nth_error (l_pools s) p = Some (mkQ true todo) -> exists s', let_go s p todo = LOk s' /\ nonneg s'.
Proof.
  induction todo as [|c r IH]; intros s p I G N; cbn [let_go]; eauto. rewrite <- lbind_assoc.
  destruct (in_range s p _ c (proj2 I) N (or_introl eq_refl)) as [h NC].
  destruct (let_one_ok s p c _ h I G N eq_refl (or_introl eq_refl) NC) as [s1 E1]. rewrite E1. cbn [lbind].
  assert (ND : NoDup (c :: r)) by (destruct I as [_ B]; apply (B p _ N)).
  destruct (let_one_fact z0 s p c _ s1 I N eq_refl (or_introl eq_refl) E1) as (I1 & N1 & O1 & L1 & C1 & h0 & h1 & NA & NB & TK & TA & _).
  pose proof (drop_mid [] c r ND) as DM. cbn [app] in DM. cbn [q_list] in N1. rewrite DM in N1. apply IH; auto.
  intros x hx NX. destruct (Nat.eq_dec x c) as [->|X]; [rewrite NB in NX; injection NX as <-; rewrite TA; eapply G; eauto|rewrite C1 in NX by auto; eapply G; eauto].
Qed.

Lemma add_channels_good n : forall s p, good s -> alive_pl s p -> exists s', add_channels s p n = LOk s' /\ good s'.
Proof.
  induction n as [|n IH]; intros s p G A; cbn [add_channels]; eauto. destruct G as (I & NN & LK & PT). destruct A as (q & NQ & LQ).
  destruct (add_one s p) as [s1| |] eqn:E; [|unfold add_one, with_pl in E; rewrite NQ, LQ in E; discriminate..]. cbn [lbind].
  destruct (add_one_fact s p s1 I E) as (I1 & q' & NQ' & LQ' & E1). rewrite NQ in NQ'. injection NQ' as <-.
  assert (AP : forall p', alive_pl s p' -> alive_pl s1 p').
  { intros p' (x & X & XL). subst s1. cbn [new_chan]. destruct (Nat.eq_dec p' p) as [->|D]; [exists (mkQ true (q_list q ++ [length (l_chs s)])); split; auto; eapply set_pl_here; eauto|].
    exists x. split; auto. rewrite set_pl_others by auto. auto. }
  assert (CH : forall c h, nth_error (l_chs s1) c = Some h -> nth_error (l_chs s) c = Some h \/ (h_app h = 0 /\ h_pool h = Some p)).
  { intros c h NC. subst s1. cbn in NC. destruct (Nat.lt_ge_cases c (length (l_chs s))) as [L|L]; [rewrite nth_error_app1 in NC by auto; auto|].
    rewrite nth_error_app2 in NC by auto. destruct (c - length (l_chs s))%nat as [|k]; [|destruct k; discriminate]. injection NC as <-. auto. }
  apply IH; [|apply AP; exists q; auto]. split; auto. split; [intros c h NC; destruct (CH c h NC) as [X|[X _]]; [eapply NN; eauto|lia]|]. split; [subst s1; auto|].
  intros c h p' NC F HP. destruct (CH c h NC) as [X|[_ X]]; [apply AP; eapply PT; eauto|]. rewrite X in HP. injection HP as <-. apply AP. exists q; auto.
Qed.
(** Changes of one channel. *)
Lemma set_good s s' c : good s -> inv z0 s' -> l_lock s' = false -> l_pools s' = l_pools s -> (forall x, x <> c -> nth_error (l_chs s') x = nth_error (l_chs s) x) ->
  (exists h h', nth_error (l_chs s) c = Some h /\ h_freed h = false /\ nth_error (l_chs s') c = Some h' /\ h_pool h' = h_pool h /\ 0 <= h_app h') -> good s'.
Proof.
  intros (I & NN & LK & PT) I' LK' P O (h & h' & N & F & N' & HP & HA). split; auto. split; [|split; auto].
  - intros x hx NX. destruct (Nat.eq_dec x c) as [->|X]; [rewrite N' in NX; injection NX as <-; auto|rewrite O in NX by auto; eapply NN; eauto].
  - intros x hx p NX FX PX. unfold alive_pl. rewrite P. destruct (Nat.eq_dec x c) as [->|X]; [rewrite N' in NX; injection NX as <-; rewrite HP in PX; eapply PT; eauto|rewrite O in NX by auto; eapply PT; eauto].
Qed.
Lemma put_other {A} (l : list A) c h x : x <> c -> nth_error (put l c h) x = nth_error l x.
Proof. intros X. rewrite nth_put. destruct (Nat.eqb c x) eqn:E; auto. apply Nat.eqb_eq in E; congruence. Qed.
Lemma put_same {A} (l : list A) c h h0 : nth_error l c = Some h0 -> nth_error (put l c h) c = Some h.
Proof. intros N. rewrite nth_put, Nat.eqb_refl, N. auto. Qed.
Lemma last_not_member s c h p : nth_error (l_chs s) c = Some h -> inv z0 s -> 0 <= h_app h -> h_refs h = 1 -> (h_conn h = true \/ 0 < h_app h) -> ~ member s p c.
Proof.
  intros N [A B] HA R H (q & NQ & LQ & IQ). destruct (A c h N) as (A1 & _). unfold z0, owners in A1. pose proof (held_in _ _ _ c NQ LQ IQ). destruct H as [H|H]; [rewrite H in A1|destruct (h_conn h)]; lia.
Qed.
Lemma step_good s o : good s -> fair s o -> exists s', lstep s o = LOk s' /\ good s'.
Proof.
  intros G FR. pose proof G as (I & NN & LK & PT). destruct o; cbn [fair] in FR.
  - cbn [lstep]. apply add_channels_good.
    + split; [apply new_pool_inv; auto|]. split; [exact NN|]. split; [exact LK|]. intros c h p NC F HP. destruct (PT c h p NC F HP) as (q & NQ & LQ). exists q. split; auto. cbn. rewrite nth_error_app1; auto. apply nth_error_Some. congruence.
    + exists (mkQ true []). cbn. rewrite nth_error_app2, Nat.sub_diag by lia. auto.
  - cbn [lstep]. apply add_channels_good; auto.
  - eexists. split; [reflexivity|]. split; [apply new_inv; auto|].
    assert (CH : forall c h, nth_error (l_chs (new_chan s None)) c = Some h -> nth_error (l_chs s) c = Some h \/ (h_app h = 0 /\ h_pool h = None)).
    { intros c h NC. cbn in NC. destruct (Nat.lt_ge_cases c (length (l_chs s))) as [L|L]; [rewrite nth_error_app1 in NC by auto; auto|].
      rewrite nth_error_app2 in NC by auto. destruct (c - length (l_chs s))%nat as [|k]; [|destruct k; discriminate]. injection NC as <-. auto. }
    split; [intros c h NC; destruct (CH c h NC) as [X|[X _]]; [eapply NN; eauto|lia]|]. split; [auto|]. intros c h p NC F HP. destruct (CH c h NC) as [X|[_ X]]; [eapply PT; eauto|congruence].
  - destruct FR as ((q & NQ & LQ) & h & NC & F). assert (E : exists s', lstep s (LAttach p c) = LOk s' /\ nonneg s' /\ l_lock s' = false /\ ptrs s').
    { cbn [lstep]. unfold with_pl, with_ch. rewrite NQ, LQ, NC, F. destruct (hasn (q_list q) c); [eauto|]. eexists. split; [reflexivity|]. split; [|split; [auto|]].
      - intros x hx NX. cbn in NX. destruct (Nat.eq_dec x c) as [->|X]; [rewrite (put_same _ _ _ _ NC) in NX; injection NX as <-; cbn; eapply NN; eauto|rewrite put_other in NX by auto; eapply NN; eauto].
      - intros x hx p' NX FX PX. assert (AL : alive_pl s p').
        { cbn in NX. destruct (Nat.eq_dec x c) as [->|X]; [rewrite (put_same _ _ _ _ NC) in NX; injection NX as <-; cbn in PX; eapply PT; eauto|rewrite put_other in NX by auto; eapply PT; eauto]. }
        destruct AL as (y & Y & YL). unfold alive_pl. cbn [l_pools set_pl set_ch]. destruct (Nat.eq_dec p' p) as [->|D]; [eexists; split; [eapply put_same; eauto|auto]|exists y; rewrite put_other; auto]. }
    destruct E as (s' & E & G'). exists s'. split; auto. split; [eapply step_inv; eauto|auto].
  - destruct FR as ((q & NQ & LQ) & (h & NC & F) & FD). assert (E : exists s', lstep s (LDetach p c) = LOk s').
    { cbn [lstep]. unfold with_pl, with_ch. rewrite NQ, LQ, NC, F. destruct (hasn (q_list q) c) eqn:HN; [|eauto]. apply hasn_in in HN.
      destruct (unref_ok (set_lock s true) c h NC F) as [s1 E1]; [|rewrite E1; cbn; eauto].
      destruct (h_pool h) as [p'|] eqn:HP; auto. left. assert (2 <= owners s c h) by (apply FD; auto; [exists q; auto|congruence]). destruct I as [A B]. destruct (A c h NC) as (A1 & _). unfold z0 in A1. lia. }
    destruct E as (s' & E). exists s'. split; auto. destruct (detach_fact s p c s' I E) as (q1 & h1 & N1 & L1 & NC1 & F1 & I1 & LK1 & NP & OT & CO & h2 & N2 & P2 & A2).
    split; auto. split; [|split; auto].
    + intros x hx NX. destruct (Nat.eq_dec x c) as [->|X]; [rewrite N2 in NX; injection NX as <-; rewrite A2; eapply NN; eauto|rewrite CO in NX by auto; eapply NN; eauto].
    + intros x hx p' NX FX PX. assert (AL : alive_pl s p') by (destruct (Nat.eq_dec x c) as [->|X]; [rewrite N2 in NX; injection NX as <-; rewrite P2 in PX; eapply PT; eauto|rewrite CO in NX by auto; eapply PT; eauto]).
      destruct AL as (y & Y & YL). destruct (Nat.eq_dec p' p) as [->|D]; [eexists; split; [exact NP|auto]|exists y; rewrite OT; auto].
  - destruct FR as ((q & NQ & LQ) & FU).
    destruct (rem_loop_ok (q_list q) n (set_lock s true) p [] (set_lock_inv _ _ _ I) NN) as (s1 & E1 & NN1).
    { cbn. rewrite NQ. f_equal. apply live_eta; auto. } { intros c h IC NC. eapply FU; [exists q; eauto|exact NC]. }
    assert (E : lstep s (LRemove p n) = LOk (set_lock s1 false)) by (cbn [lstep]; unfold with_pl; rewrite NQ, LQ, E1; reflexivity).
    exists (set_lock s1 false). split; auto. destruct (remove_fact s p n _ I E) as (q1 & N1 & L1 & I1 & NP & OT & _ & CO & CT). rewrite NQ in N1. injection N1 as <-.
    split; auto. split; [exact NN1|]. split; [auto|]. intros x hx p' NX FX PX.
    assert (AL : alive_pl s p').
    { destruct (in_dec Nat.eq_dec x (q_list q)) as [Y|Y]; [destruct (in_dec Nat.eq_dec x (left_over (ready_in s) (q_list q) n)) as [Z|Z]|].
      - rewrite CO in NX by auto. eapply PT; eauto.
      - destruct (CT x Y Z) as (g & g' & G1 & G2 & G3 & _). rewrite G2 in NX. injection NX as <-. congruence.
      - rewrite CO in NX by auto. eapply PT; eauto. }
    destruct AL as (y & Y & YL). destruct (Nat.eq_dec p' p) as [->|D]; [eexists; split; [exact NP|auto]|exists y; rewrite OT; auto].
  - destruct FR as ((q & NQ & LQ) & FU & FP).
    assert (NQ' : nth_error (l_pools (set_lock s true)) p = Some (mkQ true ([] ++ q_list q))) by (cbn; rewrite NQ; f_equal; apply live_eta; auto).
    destruct (rem_loop_ok (q_list q) (length (q_list q)) (set_lock s true) p [] (set_lock_inv _ _ _ I) NN NQ') as (s1 & E1 & NN1).
    { intros c h IC NC. eapply FU; [exists q; eauto|exact NC]. }
    destruct (rem_loop_fact (q_list q) _ z0 (set_lock s true) p [] s1 (set_lock_inv _ _ _ I) NQ' E1) as (I1 & N1 & _). cbn [app] in N1.
    destruct (let_go_ok _ s1 p I1 NN1 N1) as (s2 & E2 & NN2).
    assert (E : lstep s (LClosePool p) = LOk (set_pl (set_lock s2 false) p (mkQ false []))) by (cbn [lstep]; unfold with_pl; rewrite NQ, LQ, E1; cbn [lbind]; rewrite N1; cbn [q_live q_list]; rewrite E2; reflexivity).
    eexists. split; [exact E|]. destruct (close_pool_fact s p _ I E) as (q1 & NQ1 & L1 & I2 & NP & OT & _ & CO & CT). rewrite NQ in NQ1. injection NQ1 as <-.
    split; auto. split; [exact NN2|]. split; [auto|]. intros x hx p' NX FX PX. destruct (in_dec Nat.eq_dec x (q_list q)) as [Y|Y].
    + destruct (CT x Y) as (g & g' & G1 & G2 & G3 & _). rewrite G2 in NX. injection NX as <-. congruence.
    + rewrite CO in NX by auto. destruct (PT x hx p' NX FX PX) as (y & Y1 & YL). destruct (Nat.eq_dec p' p) as [->|D].
      * exfalso. destruct (FP x hx NX FX PX) as (z & Z1 & _ & Z3). rewrite NQ in Z1. injection Z1 as <-. contradiction.
      * exists y. rewrite OT; auto.
  - destruct FR as (h & NC & F). cbn [lstep]. assert (E : exists s', close_ch s c = LOk s').
    { unfold close_ch, with_ch. rewrite NC, F, LK, Bool.andb_false_r. destruct (h_conn h) eqn:HC; cbn [negb]; [|eauto]. destruct (h_accept h); [|eauto].
      eapply unref_ok; [cbn; eapply put_same; eauto|exact F|]. cbn [h_refs w_closed h_pool]. destruct (Z.eq_dec (h_refs h) 1) as [R|R]; auto. right. destruct (h_pool h) as [p|] eqn:HP; auto. right. exists p. split; auto.
      split; [exact (PT c h p NC F HP)|]. split; [exact LK|]. exact (last_not_member s c h p NC I (NN c h NC) R (or_introl HC)). }
    destruct E as (s' & E). exists s'. split; auto. destruct (close_fact z0 s c s' I E) as (I1 & P1 & L1 & O1 & h1 & h1' & N1 & N1' & F1 & Q1 & A1 & _).
    apply (set_good s s' c G I1); auto; [congruence|]. exists h1, h1'. repeat (split; auto). rewrite A1. eapply NN; eauto.
  - destruct FR as (h & NC & F). assert (E : lstep s (LRef c) = LOk (set_ch s c (w_app (w_refs h (h_refs h + 1)) (h_app h + 1)))) by (cbn; unfold with_ch; rewrite NC, F; auto).
    eexists. split; [exact E|]. apply (set_good s _ c G (step_inv _ _ _ I E)); auto; [intros x X; apply put_other; auto|]. exists h. eexists. split; auto. split; auto. split; [eapply put_same; eauto|]. split; auto. cbn. specialize (NN c h NC). lia.
  - destruct FR as (h & NC & F & HA). assert (E : exists s', lstep s (LUnref c) = LOk s').
    { cbn [lstep]. unfold with_ch. rewrite NC, F. eapply unref_ok; [cbn; eapply put_same; eauto|exact F|]. cbn [h_refs w_app h_pool]. destruct (Z.eq_dec (h_refs h) 1) as [R|R]; auto. right. destruct (h_pool h) as [p|] eqn:HP; auto. right. exists p. split; auto.
      split; [exact (PT c h p NC F HP)|]. split; [exact LK|]. exact (last_not_member s c h p NC I (NN c h NC) R (or_intror HA)). }
    destruct E as (s' & E). exists s'. split; auto. pose proof (step_inv _ _ _ I E) as I1. cbn [lstep] in E. unfold with_ch in E at 1. rewrite NC, F in E.
    assert (I0 : inv (fun x => z0 x + 1 * one c x) (set_ch s c (w_app h (h_app h - 1)))).
    { destruct I as [A B]. destruct (A c h NC) as (A1 & A2 & A3). specialize (A2 F). eapply inv_set; [split; eassumption|exact NC| | |]; cbn; try lia; congruence. }
    destruct (unref_fact _ _ _ _ I0 E) as (_ & P1 & L1 & O1 & h1 & h1' & N1 & N1' & F1 & _ & Q1 & _ & A1 & _). cbn in N1. rewrite (put_same _ _ _ _ NC) in N1. injection N1 as <-.
    apply (set_good s s' c G I1); auto; [rewrite L1; auto|intros x X; rewrite O1 by auto; apply put_other; auto|]. exists h, h1'. repeat (split; auto). rewrite A1. cbn. lia.
  - destruct FR as (h & NC & F). assert (E : lstep s (LMark c ready accept uses) = LOk (set_ch s c (w_marks h (ready && h_conn h) accept uses))) by (cbn; unfold with_ch; rewrite NC, F; auto).
    eexists. split; [exact E|]. apply (set_good s _ c G (step_inv _ _ _ I E)); auto; [intros x X; apply put_other; auto|]. exists h. eexists. split; auto. split; auto. split; [eapply put_same; eauto|]. split; auto. cbn. eapply NN; eauto.
Qed.
Theorem run_fair os : fair_all lst0 os -> exists s, lrun lst0 os = LOk s.
Proof.
  assert (K : forall os s, good s -> fair_all s os -> exists s', lrun s os = LOk s').
  { clear. induction os as [|o os IH]; intros s G FR; cbn [lrun]; eauto. destruct FR as [F1 F2]. destruct (step_good s o G F1) as (s1 & E & G1). rewrite E. cbn [lbind]. apply IH; auto. }
  apply K. split; [exact inv0|]. split; [intros [|c] h N; discriminate|]. split; [reflexivity|]. intros [|c] h p N; discriminate.
Qed.

(** ** What the calls do to the pool *)
Lemma add_num n : forall s p s', inv z0 s -> alive_pl s p -> add_channels s p n = LOk s' -> get_num s' p = get_num s p + Z.of_nat n /\ others s s' p.
Proof.
  induction n as [|n IH]; intros s p s' I A H; cbn [add_channels] in H; [injection H as <-; split; [lia|intros ? ?; auto]|].
  destruct (add_one s p) as [s1| |] eqn:E; try discriminate. cbn [lbind] in H. destruct (add_one_fact s p s1 I E) as (I1 & q & NQ & LQ & E1).
  assert (NP : nth_error (l_pools s1) p = Some (mkQ true (q_list q ++ [length (l_chs s)]))) by (subst s1; eapply set_pl_here; eauto).
  destruct (IH s1 p s' I1 ltac:(eexists; split; [exact NP|auto]) H) as [G O]. split.
  - rewrite G. unfold get_num. rewrite NP, NQ. cbn [q_list]. unfold zlen. rewrite app_length. cbn. lia.
  - intros p' X. rewrite O by auto. subst s1. rewrite set_pl_others by auto. reflexivity.
Qed.
Theorem new_num os s n s' : lrun lst0 os = LOk s -> lstep s (LNew n) = LOk s' ->
  get_num s' (length (l_pools s)) = Z.of_nat n /\ alive_pl s' (length (l_pools s)) /\ (forall p, (p < length (l_pools s))%nat -> nth_error (l_pools s') p = nth_error (l_pools s) p).
Proof.
  intros R H. pose proof (run_inv os _ _ inv0 R) as I. cbn [lstep] in H. set (s1 := mkL (l_chs s) (l_pools s ++ [mkQ true []]) (l_lock s)) in *.
  assert (N1 : nth_error (l_pools s1) (length (l_pools s)) = Some (mkQ true [])) by (cbn; rewrite nth_error_app2, Nat.sub_diag by lia; auto).
  destruct (add_num n s1 _ s' (new_pool_inv s I) ltac:(eexists; split; [exact N1|auto]) H) as [G O]. split; [rewrite G; unfold get_num; rewrite N1; cbn; lia|]. split.
  - clear G O. assert (K : forall n s p s', alive_pl s p -> add_channels s p n = LOk s' -> alive_pl s' p).
    { clear. induction n as [|n IH]; intros s p s' A H; cbn [add_channels] in H; [injection H as <-; auto|]. unfold add_one, with_pl in H. destruct A as (q & NQ & LQ). rewrite NQ, LQ in H. cbn [lbind] in H. eapply IH; [|exact H].
      eexists. split; [eapply set_pl_here; eauto|auto]. }
    eapply K; [|exact H]. eexists; split; [exact N1|auto].
  - intros p L. rewrite O by lia. cbn. rewrite nth_error_app1; auto.
Qed.
Theorem add_more os s p n s' : lrun lst0 os = LOk s -> alive_pl s p -> lstep s (LAdd p n) = LOk s' ->
  get_num s' p = get_num s p + Z.of_nat n /\ (forall p', p' <> p -> nth_error (l_pools s') p' = nth_error (l_pools s) p').
Proof. intros R A H. apply (add_num n s p s' (run_inv os _ _ inv0 R) A H). Qed.
Theorem run_remove os s p n s' : lrun lst0 os = LOk s -> lstep s (LRemove p n) = LOk s' ->
  exists l, nth_error (l_pools s) p = Some (mkQ true l) /\ nth_error (l_pools s') p = Some (mkQ true (left_over (ready_in s) l n)) /\
  (forall p', p' <> p -> nth_error (l_pools s') p' = nth_error (l_pools s) p') /\
  (forall c, (~ In c l \/ In c (left_over (ready_in s) l n)) -> nth_error (l_chs s') c = nth_error (l_chs s) c) /\
  (forall c, In c l -> ~ In c (left_over (ready_in s) l n) -> exists h h', nth_error (l_chs s) c = Some h /\ nth_error (l_chs s') c = Some h' /\ h_pool h' = None /\ h_conn h' = (h_conn h && negb (h_accept h))).
Proof.
  intros R H. destruct (remove_fact s p n s' (run_inv os _ _ inv0 R) H) as (q & NQ & LQ & _ & NP & O & _ & C & T). exists (q_list q). rewrite (live_eta q LQ) in NQ. split; auto. split; auto. split; auto. split; auto.
  intros c X Y. destruct (T c X Y) as (h & h' & G1 & G2 & G3 & _ & _ & G4). exists h, h'. auto.
Qed.
Theorem run_close os s p s' : lrun lst0 os = LOk s -> lstep s (LClosePool p) = LOk s' ->
  exists l, nth_error (l_pools s) p = Some (mkQ true l) /\ ~ alive_pl s' p /\
  (forall p', p' <> p -> nth_error (l_pools s') p' = nth_error (l_pools s) p') /\
  (forall c, ~ In c l -> nth_error (l_chs s') c = nth_error (l_chs s) c) /\
  (forall c, In c l -> exists h h', nth_error (l_chs s) c = Some h /\ nth_error (l_chs s') c = Some h' /\ h_pool h' = None /\ h_conn h' = (h_conn h && negb (h_ready h && h_accept h))).
Proof.
  intros R H. pose proof (run_inv os _ _ inv0 R) as I. destruct (close_pool_fact s p s' I H) as (q & NQ & LQ & _ & NP & O & _ & C & T). exists (q_list q). rewrite (live_eta q LQ) in NQ. split; auto.
  split; [intros (x & X & XL); rewrite NP in X; injection X as <-; discriminate|]. split; auto. split; auto. intros c X. destruct (T c X) as (h & h' & G1 & G2 & G3 & _ & _ & G4). exists h, h'. split; auto. split; auto. split; auto. rewrite G4. f_equal. f_equal. f_equal.
  assert (ND : NoDup (q_list q)) by (destruct I as [_ B]; apply (B p _ NQ)).
  assert (K : forall l n, NoDup l -> (length l <= n)%nat -> In c l -> (In c (left_over (ready_in s) l n) <-> ready_in s c = false)).
  { clear. induction l as [|x l IH]; intros n ND L I; [destruct I|]. inversion ND; subst. destruct n as [|n]; [cbn in L; lia|]. cbn [left_over]. cbn in L. destruct (ready_in s x) eqn:E.
    - destruct I as [->|I]; [|apply IH; auto; lia]. rewrite E. split; [intros Y; apply left_over_incl in Y; contradiction|discriminate].
    - destruct I as [->|I]; [split; auto; left; auto|]. split.
      + intros [->|Y]; auto. apply (IH (S n)) in I; auto; [apply I; auto|lia].
      + intros Y. right. apply (IH (S n)); auto; lia. }
  specialize (K (q_list q) (length (q_list q)) ND (le_n _) X). assert (RC : ready_in s c = h_ready h) by (unfold ready_in; rewrite G1; auto). rewrite RC in K.
  destruct (hasn (left_over (ready_in s) (q_list q) (length (q_list q))) c) eqn:HN; destruct (h_ready h); auto; exfalso.
  - apply hasn_in in HN. apply K in HN. discriminate.
  - apply hasn_out in HN. apply HN. apply K. auto.
Qed.
