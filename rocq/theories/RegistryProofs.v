From Coq Require Permutation.
From Verif Require Import Base RegistryModel RegistrySpec.
Ltac conj := repeat match goal with |- _ /\ _ => split end.

Lemma ok_inj {A : Type} (a b : A) : Ok a = Ok b -> a = b. Proof. congruence. Qed.
Definition half : Z := 1073741823.
(** Number visited after [i] others, on the initiator side. *)
Definition odd_at (i : Z) : Z := 1 + 2 * ((i + 1) mod half).
Fixpoint visits (l : list robs) : list Z :=
  match l with
  | [] => []
  | OVisit n :: k => n :: visits k
  | _ :: k => visits k
  end.
Lemma visits_app a b : visits (a ++ b) = visits a ++ visits b.
Proof. induction a as [|[] a IH]; cbn; congruence. Qed.
Lemma visits_in n l : In n (visits l) <-> In (OVisit n) l.
Proof.
  induction l as [|o l IH]; [tauto|]. destruct o; cbn; rewrite ?IH; intuition; try congruence; try (left; congruence).
Qed.

(** Numbers of a side. *)
Lemma next_odd k : 0 <= k < half -> next_no true (1 + 2 * k) = Ok (1 + 2 * ((k + 1) mod half)).
Proof.
  intros H. unfold next_no, two31. replace (1 + 2 * k + 2 <? 2147483648) with true by (unfold half in H; lia).
  f_equal. unfold MAX_CHANNELS_NO.
  destruct (Z.eq_dec k (half - 1)) as [E|E].
  - subst k. reflexivity.
  - unfold half in *. rewrite Z.rem_mod_nonneg by lia. rewrite Z.mod_small by lia. rewrite (Z.mod_small (k + 1)) by lia.
    replace (1 + 2 * k + 2 =? 0) with false by lia. lia.
Qed.
Lemma next_even n : 0 < n < 2147483646 -> Z.odd n = false -> next_no false n = Ok (n + 2).
Proof.
  intros H O. unfold next_no, two31, MAX_CHANNELS_NO.
  assert (n <> 2147483645) by (intros ->; discriminate).
  replace (n + 2 <? 2147483648) with true by lia. rewrite Z.rem_mod_nonneg by lia. rewrite Z.mod_small by lia.
  replace (n + 2 =? 0) with false by lia. reflexivity.
Qed.
Lemma next_end : next_no false 2147483646 = UB. Proof. reflexivity. Qed.

(** Steps and the search. *)
Definition noted (r : reg) (t : Z) (r' : reg) : Prop := exists n,
  next_no (rg_init r) (rg_last r) = Ok n /\ rg_last r' = n /\ rg_chans r' = rg_chans r /\ rg_init r' = rg_init r /\
  rg_up r' = rg_up r /\ rg_next r' = rg_next r /\
  ((exists_chan r n = true /\ rg_log r' = rg_log r ++ [OVisit n] /\ rg_thr r' = rg_thr r /\ rg_hold r' = Some t) \/
   (exists_chan r n = false /\ rg_log r' = rg_log r ++ [OVisit n; OGiven t n (rg_chans r)] /\
    rg_thr r' = thr_to (rg_thr r) t (TNum n) /\ rg_hold r' = None)).
Lemma try_noted r t r' : try_next r t = Ok r' -> noted r t r'.
Proof.
  unfold try_next, noted. intros H. destruct (next_no (rg_init r) (rg_last r)) as [n|]; [|discriminate].
  cbn [obind] in H. exists n. destruct (exists_chan r n) eqn:E; injection H as <-; conj; try reflexivity;
    [left|right]; conj; reflexivity || exact E.
Qed.
Lemma step_cases r e r' : rstep r e = Ok r' ->
  (exists t, e = RTry t /\ thr_of r t = None /\ (held_by r t = true \/ locked r = false /\ rg_up r = true) /\ noted r t r') \/
  (rg_last r' = rg_last r /\ rg_init r' = rg_init r /\ (e <> RDown -> rg_up r' = rg_up r) /\
   exists o, rg_log r' = rg_log r ++ o /\ visits o = [] /\ (forall t n u, ~ In (OGiven t n u) o)).
Proof.
  assert (A0 : forall o (l : list robs), o = [] \/ (exists t, o = [ORefused t]) \/ (exists t n c, o = [OCreated t n c]) \/
    (exists n c, o = [OClosed n c]) -> visits o = [] /\ (forall t n u, ~ In (OGiven t n u) o)).
  { intros o _ [->|[(t & ->)|[(t & n & c & ->)|(n & c & ->)]]]; cbn; split; auto; intros; intuition discriminate. }
  intros H. destruct e as [t|t n|t|t ok|t|t|n|]; cbn [rstep] in H.
  - destruct (thr_of r t) eqn:T.
    { injection H as <-. right. conj; auto. exists []. rewrite app_nil_r. split; [auto|]. apply A0; auto. exact []. }
    destruct (held_by r t) eqn:E.
    { left. exists t. conj; auto. apply try_noted. exact H. }
    destruct (locked r) eqn:L.
    { injection H as <-. right. conj; auto. exists []. rewrite app_nil_r. split; [auto|]. apply A0; auto. exact []. }
    destruct (rg_up r) eqn:U.
    { left. exists t. conj; auto. apply try_noted. exact H. }
    injection H as <-. right. conj; auto. eexists. split; [reflexivity|]. apply A0; eauto. exact [].
  - right. destruct (thr_of r t).
    { injection H as <-. conj; auto. exists []. rewrite app_nil_r. split; [auto|]. apply A0; auto. exact []. }
    destruct (held_by r t || (n =? 0)).
    { injection H as <-. conj; auto. exists []. rewrite app_nil_r. split; [auto|]. apply A0; auto. exact []. }
    destruct (exists_chan r n); injection H as <-; conj; auto; eexists; (split; [reflexivity|]); apply A0; eauto; exact [].
  - right. destruct (thr_of r t) as [[n|n c|n c]|]; try (injection H as <-; conj; auto; exists []; rewrite app_nil_r; split; [auto|]; apply A0; auto; exact []).
    destruct (locked r); [|destruct (chan_at r n)]; injection H as <-; conj; auto.
    + exists []. rewrite app_nil_r. split; [auto|]. apply A0; auto. exact [].
    + eexists. split; [reflexivity|]. apply A0; eauto. exact [].
    + exists []. cbn. rewrite app_nil_r. split; [auto|]. split; auto.
  - right. destruct (thr_of r t) as [[n|n c|n c]|]; try (injection H as <-; conj; auto; exists []; rewrite app_nil_r; split; [auto|]; apply A0; auto; exact []).
    destruct ok; injection H as <-; conj; auto; eexists; (split; [reflexivity|]); apply A0; eauto; try exact [].
    right; right; left. eauto.
  - right. destruct (thr_of r t) as [[n|n c|n c]|]; try (injection H as <-; conj; auto; exists []; rewrite app_nil_r; split; [auto|]; apply A0; auto; exact []).
    injection H as <-; conj; auto. eexists. split; [reflexivity|]. apply A0; eauto. exact [].
  - right. destruct (thr_of r t) as [[n|n c|n c]|]; try (injection H as <-; conj; auto; exists []; rewrite app_nil_r; split; [auto|]; apply A0; auto; exact []).
    injection H as <-; conj; auto. eexists. split; [reflexivity|]. apply A0; eauto. exact [].
  - right. destruct (chan_at r n); injection H as <-; conj; auto.
    + eexists. split; [reflexivity|]. apply A0; eauto. exact []. right; right; right. eauto.
    + exists []. rewrite app_nil_r. split; [auto|]. apply A0; auto. exact [].
  - right. injection H as <-. conj; auto; [congruence|]. exists []. cbn. rewrite app_nil_r. split; [auto|]. split; auto.
Qed.

(** The initiator. *)
Definition oinv (r : reg) : Prop :=
  rg_init r = true /\ exists k : nat, visits (rg_log r) = map (fun i => odd_at (Z.of_nat i)) (seq 0 k) /\
  rg_last r = odd_at (Z.of_nat k - 1).
Lemma odd_at_next i : next_no true (odd_at i) = Ok (odd_at (i + 1)).
Proof.
  unfold odd_at. rewrite next_odd by (apply Z.mod_pos_bound; reflexivity). f_equal. f_equal. f_equal.
  rewrite Zplus_mod_idemp_l. f_equal.
Qed.
Lemma oinv_step r e r' : oinv r -> rstep r e = Ok r' -> oinv r'.
Proof.
  intros (I & k & V & L) H. destruct (step_cases _ _ _ H) as [(t & _ & _ & _ & n & N & L' & _ & I' & _ & _ & K)|(L' & I' & _ & o & O & V' & _)].
  - split; [congruence|]. exists (Datatypes.S k). rewrite I, L, odd_at_next in N. injection N as N. split.
    + rewrite seq_S, map_app, <- V. cbn [map plus].
      replace (Z.of_nat k - 1 + 1) with (Z.of_nat k) in N by lia.
      destruct K as [(_ & -> & _)|(_ & -> & _)]; rewrite visits_app; cbn [visits]; rewrite N; reflexivity.
    + rewrite L'. rewrite <- N. f_equal. lia.
  - split; [congruence|]. exists k. split; [|congruence]. rewrite O, visits_app, V', app_nil_r. exact V.
Qed.
Lemma oinv_run es : forall r r', oinv r -> rrun r es = Ok r' -> oinv r'.
Proof.
  induction es as [|e es IH]; cbn [rrun]; intros r r' I H; [injection H as <-; auto|].
  destruct (rstep r e) as [r1|] eqn:E; [|discriminate]. eapply IH; [eapply oinv_step; eauto|exact H].
Qed.
Lemma oinv0 : oinv (reg0 true). Proof. split; [reflexivity|]. exists 0%nat. split; reflexivity. Qed.
Lemma step_defined_odd r e : oinv r -> exists r', rstep r e = Ok r'.
Proof.
  intros (I & k & V & L). destruct e as [t|t n|t|t ok|t|t|n|]; cbn [rstep].
  - destruct (thr_of r t); [eauto|].
    assert (exists r', try_next r t = Ok r').
    { unfold try_next. rewrite I, L, odd_at_next. cbn [obind]. eauto. }
    destruct (held_by r t); [auto|]. destruct (locked r); [eauto|]. destruct (rg_up r); eauto.
  - destruct (thr_of r t); [eauto|]. destruct (held_by r t || (n =? 0)); [eauto|]. destruct (exists_chan r n); eauto.
  - destruct (thr_of r t) as [[]|]; eauto. destruct (locked r); eauto. destruct (chan_at r n); eauto.
  - destruct (thr_of r t) as [[]|]; eauto. destruct ok; eauto.
  - destruct (thr_of r t) as [[]|]; eauto.
  - destruct (thr_of r t) as [[]|]; eauto.
  - destruct (chan_at r n); eauto.
  - eauto.
Qed.
Lemma run_defined_odd es : forall r, oinv r -> exists r', rrun r es = Ok r'.
Proof.
  induction es as [|e es IH]; intros r I; cbn [rrun]; [eauto|].
  destruct (step_defined_odd r e I) as (r1 & E). rewrite E. cbn [obind]. apply IH. eapply oinv_step; eauto.
Qed.
Lemma initiator_defined es : exists r, rrun (reg0 true) es = Ok r.
Proof. apply run_defined_odd, oinv0. Qed.

Lemma odd_at_mine i : mine true (odd_at i).
Proof.
  unfold mine, odd_at. pose proof (Z.mod_pos_bound (i + 1) half eq_refl) as B. split; [unfold half in *; lia|].
  rewrite Z.add_comm, Z.add_1_r, Z.odd_succ. rewrite Z.even_mul. reflexivity.
Qed.
Lemma odd_at_eq i j : odd_at i = odd_at j -> (i - j) mod half = 0.
Proof.
  unfold odd_at. intros H. assert (E : (i + 1) mod half = (j + 1) mod half) by lia.
  replace (i - j) with ((i + 1) - (j + 1)) by lia. rewrite Zminus_mod, E, Z.sub_diag. reflexivity.
Qed.
Lemma odd_between i j m : 0 <= i < j -> odd_at i = odd_at j -> mine true m -> m <> odd_at i ->
  exists x, i < x < j /\ odd_at x = m.
Proof.
  intros L E (B & O) N. pose proof (odd_at_eq _ _ (eq_sym E)) as D.
  apply Z.mod_divide in D; [|discriminate]. destruct D as (q & D). assert (0 < q) by (unfold half in D; nia).
  pose proof (Zmod_odd m) as O0. rewrite O in O0.
  pose proof (Z.div_mod m 2 ltac:(lia)) as M. set (p := m / 2) in *.
  assert (P : 0 <= p < half) by (unfold half; lia).
  set (d := (p - (i + 1)) mod half). pose proof (Z.mod_pos_bound (p - (i + 1)) half eq_refl) as BD. fold d in BD.
  assert (DM : (i + d + 1) mod half = p).
  { unfold d. replace (i + (p - (i + 1)) mod half + 1) with ((i + 1) + (p - (i + 1)) mod half) by lia.
    rewrite Zplus_mod_idemp_r. replace (i + 1 + (p - (i + 1))) with p by lia. apply Z.mod_small. exact P. }
  exists (i + d). split.
  - assert (d <> 0). { intros Z0. rewrite Z0, Z.add_0_r in DM. apply N. unfold odd_at. rewrite DM. lia. }
    unfold half in *. nia.
  - unfold odd_at. rewrite DM. lia.
Qed.

Lemma nth_at (k i : nat) : (i < k)%nat -> nth_error (map (fun i => odd_at (Z.of_nat i)) (seq 0 k)) i = Some (odd_at (Z.of_nat i)).
Proof.
  intros H. rewrite nth_error_map. rewrite (nth_error_nth' _ 0%nat) by (rewrite seq_length; exact H).
  rewrite seq_nth by exact H. reflexivity.
Qed.
Lemma some_inj {A : Type} (a b : A) : Some a = Some b -> a = b. Proof. congruence. Qed.
Lemma visits_between es r a n b c m : rrun (reg0 true) es = Ok r -> visits (rg_log r) = a ++ n :: b ++ n :: c ->
  mine true m -> m <> n -> In m b.
Proof.
  intros H E M N. destruct (oinv_run _ _ _ oinv0 H) as (_ & k & V & _). rewrite V in E. clear V.
  set (l := map _ _) in E.
  assert (LK : length l = k) by (unfold l; rewrite map_length, seq_length; reflexivity).
  assert (LE : length l = (length a + 1 + length b + 1 + length c)%nat) by (rewrite E, app_length; cbn; rewrite app_length; cbn; lia).
  pose proof (nth_at k (length a) ltac:(lia)) as A. pose proof (nth_at k (length a + 1 + length b) ltac:(lia)) as B.
  fold l in A, B. rewrite E in A, B.
  rewrite nth_error_app2 in A by lia. rewrite Nat.sub_diag in A. cbn [nth_error] in A.
  rewrite nth_error_app2 in B by lia. replace (length a + 1 + length b - length a)%nat with (Datatypes.S (length b)) in B by lia. cbn [nth_error] in B.
  rewrite nth_error_app2 in B by lia. rewrite Nat.sub_diag in B. cbn [nth_error] in B.
  apply some_inj in A. apply some_inj in B.
  destruct (odd_between (Z.of_nat (length a)) (Z.of_nat (length a + 1 + length b)) m) as (x & X & XE); [lia|congruence|exact M|congruence|].
  pose proof (nth_at k (Z.to_nat x) ltac:(lia)) as Q. fold l in Q. rewrite E in Q.
  rewrite nth_error_app2 in Q by lia.
  replace (Z.to_nat x - length a)%nat with (Datatypes.S (Z.to_nat x - length a - 1)) in Q by lia. cbn [nth_error] in Q.
  rewrite nth_error_app1 in Q by lia. rewrite Z2Nat.id in Q by lia. rewrite XE in Q. eapply nth_error_In; exact Q.
Qed.

(** A number given has just been visited. *)
Definition glog (l : list robs) : Prop := forall a t n u b, l = a ++ OGiven t n u :: b ->
  exists a', a = a' ++ [OVisit n] /\ True.
Lemma glog_run es : forall r r', glog (rg_log r) -> rrun r es = Ok r' -> glog (rg_log r').
Proof.
  induction es as [|e es IH]; cbn [rrun]; intros r r' I H; [injection H as <-; auto|].
  destruct (rstep r e) as [r1|] eqn:E; [|discriminate]. refine (IH _ _ _ H). clear IH H.
  destruct (step_cases _ _ _ E) as [(t & _ & _ & _ & n & N & L' & _ & I' & _ & _ & K)|(_ & _ & _ & o & O & _ & G)].
  - destruct K as [(_ & -> & _)|(_ & -> & _)]; intros a t' n' u b X.
    + destruct b as [|y b] using rev_ind.
      * apply app_inj_tail in X. destruct X as (_ & X). discriminate.
      * rewrite app_comm_cons, app_assoc in X. apply app_inj_tail in X. destruct X as (X & _). eapply I. exact X.
    + change (rg_log r ++ [OVisit n; OGiven t n (rg_chans r)]) with (rg_log r ++ [OVisit n] ++ [OGiven t n (rg_chans r)]) in X.
      rewrite app_assoc in X. destruct b as [|y b] using rev_ind.
      * apply app_inj_tail in X. destruct X as (X & Y). injection Y as <- <- <-. eauto.
      * rewrite app_comm_cons, app_assoc in X. apply app_inj_tail in X. destruct X as (X & _). clear IHb.
        destruct b as [|z b] using rev_ind.
        -- apply app_inj_tail in X. destruct X as (_ & X). discriminate.
        -- rewrite app_comm_cons, app_assoc in X. apply app_inj_tail in X. destruct X as (X & _). eapply I. exact X.
  - rewrite O. clear O E. induction o as [|y o IHo] using rev_ind; [rewrite app_nil_r; exact I|].
    assert (G' : forall t n u, ~ In (OGiven t n u) o) by (intros t n u X; apply (G t n u), in_or_app; auto).
    specialize (IHo G'). intros a t n u b X. rewrite app_assoc in X. destruct b as [|z b] using rev_ind.
    + apply app_inj_tail in X. destruct X as (_ & X). subst y. exfalso. eapply G. apply in_or_app. right. left. reflexivity.
    + rewrite app_comm_cons, app_assoc in X. apply app_inj_tail in X. destruct X as (X & _). eapply IHo. exact X.
Qed.
Lemma given_between es r a t n u b t' u' c m : rrun (reg0 true) es = Ok r ->
  rg_log r = a ++ OGiven t n u :: b ++ OGiven t' n u' :: c -> mine true m -> m <> n -> In (OVisit m) b.
Proof.
  intros H E M N. assert (G : glog (rg_log r)).
  { eapply glog_run; [|exact H]. intros a0 t0 n0 u0 b0 X. destruct a0; discriminate. }
  destruct (G _ _ _ _ _ E) as (a' & Ea & _).
  assert (E2 : rg_log r = (a ++ OGiven t n u :: b) ++ OGiven t' n u' :: c) by (rewrite E, <- app_assoc; reflexivity).
  destruct (G _ _ _ _ _ E2) as (b' & Eb & _). clear E2.
  assert (exists b0, b = b0 ++ [OVisit n]) as (b0 & ->).
  { destruct b as [|y b _] using rev_ind.
    - apply app_inj_tail in Eb. destruct Eb as (_ & X). discriminate.
    - rewrite app_comm_cons, app_assoc in Eb. apply app_inj_tail in Eb. destruct Eb as (_ & ->). eauto. }
  apply in_or_app. left. apply visits_in. eapply visits_between with (n := n) (a := visits a') (c := visits c); eauto.
  rewrite E, Ea. rewrite ?visits_app. cbn. rewrite ?visits_app. cbn. rewrite <- ?app_assoc. reflexivity.
Qed.

(** The listener. *)
Definition einv (r : reg) : Prop :=
  rg_init r = false /\ mine false (rg_last r) /\
  (forall n, In n (visits (rg_log r)) -> mine false n /\ n <= rg_last r) /\ NoDup (visits (rg_log r)).
Lemma even_next n n' : mine false n -> next_no false n = Ok n' -> mine false n' /\ n < n'.
Proof.
  intros (B & O) H. destruct (Z.eq_dec n 2147483646) as [->|D]; [discriminate|].
  rewrite next_even in H; [|lia|exact O]. apply ok_inj in H. subst n'. unfold mine.
  assert (n <> 2147483645) by (intros ->; discriminate). conj; try lia.
  rewrite Z.odd_add, O. reflexivity.
Qed.
Lemma nodup_snoc {A : Type} (l : list A) x : NoDup l -> ~ In x l -> NoDup (l ++ [x]).
Proof.
  intros D N. apply (Permutation.Permutation_NoDup (l := x :: l)).
  - apply Permutation.Permutation_cons_append.
  - constructor; auto.
Qed.
Lemma einv_step r e r' : einv r -> rstep r e = Ok r' -> einv r'.
Proof.
  intros (I & M & V & D) H. destruct (step_cases _ _ _ H) as [(t & _ & _ & _ & n & N & L' & _ & I' & _ & _ & K)|(L' & I' & _ & o & O & V' & _)].
  - rewrite I in N. destruct (even_next _ _ M N) as (M' & L).
    assert (E : visits (rg_log r') = visits (rg_log r) ++ [n]).
    { destruct K as [(_ & -> & _)|(_ & -> & _)]; rewrite visits_app; reflexivity. }
    unfold einv. rewrite E, I', L'. conj; auto.
    + intros x X. apply in_app_or in X. destruct X as [X|[<-|[]]]; [|split; auto; lia].
      destruct (V x X). split; [auto|lia].
    + apply nodup_snoc; auto. intros X. destruct (V _ X). lia.
  - unfold einv. rewrite O, visits_app, V', app_nil_r, I', L'. auto.
Qed.
Lemma einv_run es : forall r r', einv r -> rrun r es = Ok r' -> einv r'.
Proof.
  induction es as [|e es IH]; cbn [rrun]; intros r r' I H; [injection H as <-; auto|].
  destruct (rstep r e) as [r1|] eqn:E; [|discriminate]. eapply IH; [eapply einv_step; eauto|exact H].
Qed.
Lemma einv0 : einv (reg0 false).
Proof. split; [reflexivity|]. split; [split; [cbn; lia|reflexivity]|]. split; [intros n []|constructor]. Qed.

Lemma given_distinct es r a t n u b t' u' c : rrun (reg0 false) es = Ok r ->
  rg_log r <> a ++ OGiven t n u :: b ++ OGiven t' n u' :: c.
Proof.
  intros H E. assert (G : glog (rg_log r)).
  { eapply glog_run; [|exact H]. intros a0 t0 n0 u0 b0 X. destruct a0; discriminate. }
  destruct (G _ _ _ _ _ E) as (a' & Ea & _).
  assert (E2 : rg_log r = (a ++ OGiven t n u :: b) ++ OGiven t' n u' :: c) by (rewrite E, <- app_assoc; reflexivity).
  destruct (G _ _ _ _ _ E2) as (b' & Eb & _). clear E2.
  assert (exists b0, b = b0 ++ [OVisit n]) as (b0 & ->).
  { destruct b as [|y b _] using rev_ind.
    - apply app_inj_tail in Eb. destruct Eb as (_ & X). discriminate.
    - rewrite app_comm_cons, app_assoc in Eb. apply app_inj_tail in Eb. destruct Eb as (_ & ->). eauto. }
  destruct (einv_run _ _ _ einv0 H) as (_ & _ & _ & D). rewrite E, Ea in D.
  rewrite !visits_app in D. cbn in D. rewrite !visits_app in D. cbn in D. rewrite <- !app_assoc in D. cbn in D.
  apply NoDup_remove_2 in D. apply D. apply in_or_app. right. apply in_or_app. right. left. reflexivity.
Qed.

(** Every number given. *)
Lemma given_mine init es r t n u : rrun (reg0 init) es = Ok r -> In (OGiven t n u) (rg_log r) -> mine init n.
Proof.
  intros H X. assert (G : glog (rg_log r)).
  { eapply glog_run; [|exact H]. intros a0 t0 n0 u0 b0 Y. destruct a0; discriminate. }
  apply in_split in X. destruct X as (a & b & E). destruct (G _ _ _ _ _ E) as (a' & -> & _).
  assert (V : In n (visits (rg_log r))).
  { rewrite E, !visits_app. apply in_or_app. left. apply in_or_app. right. left. reflexivity. }
  destruct init.
  - destruct (oinv_run _ _ _ oinv0 H) as (_ & k & W & _). rewrite W in V. apply in_map_iff in V.
    destruct V as (i & <- & _). apply odd_at_mine.
  - destruct (einv_run _ _ _ einv0 H) as (_ & _ & W & _). apply (W n V).
Qed.
Lemma given_unused init es : ~ In RDown es -> forall r t n u, rrun (reg0 init) es = Ok r -> In (OGiven t n u) (rg_log r) ->
  ~ In n (map fst u).
Proof.
  intros ND. assert (K : forall es r r', ~ In RDown es -> rg_up r = true -> rrun r es = Ok r' ->
    (mine (rg_init r) (rg_last r)) ->
    (forall t n u, In (OGiven t n u) (rg_log r) -> ~ In n (map fst u)) -> forall t n u, In (OGiven t n u) (rg_log r') -> ~ In n (map fst u)).
  { clear. induction es as [|e es IH]; cbn [rrun]; intros r r' ND U H M G; [injection H as <-; auto|].
    destruct (rstep r e) as [r1|] eqn:E; [|discriminate]. cbn [obind] in H.
    assert (ND' : ~ In RDown es) by (intros X; apply ND; right; exact X).
    assert (NE : e <> RDown) by (intros ->; apply ND; left; reflexivity).
    destruct (step_cases _ _ _ E) as [(t & _ & _ & _ & n & N & L' & _ & I' & U' & _ & K)|(L' & I' & U' & o & O & _ & G')].
    - assert (M' : mine (rg_init r1) (rg_last r1)).
      { rewrite I', L'. destruct (rg_init r).
        - destruct M as (B & O). pose proof (Zmod_odd (rg_last r)) as Q. rewrite O in Q.
          pose proof (Z.div_mod (rg_last r) 2 ltac:(lia)) as DM. rewrite Q in DM. rewrite DM in N.
          rewrite (Z.add_comm _ 1), next_odd in N by (unfold half; lia). apply ok_inj in N. subst n.
          replace ((rg_last r / 2 + 1) mod half) with (((rg_last r / 2) + 1) mod half) by reflexivity.
          apply (odd_at_mine (rg_last r / 2)).
        - apply (even_next _ _ M N). }
      apply (IH r1); auto; try congruence.
      destruct K as [(_ & -> & _)|(X & -> & _)]; intros t0 n0 u0 Y; apply in_app_or in Y; destruct Y as [Y|Y]; try (apply (G _ _ _ Y)).
      + destruct Y as [Y|[]]. discriminate.
      + destruct Y as [Y|[Y|[]]]; [discriminate|]. injection Y as <- <- <-.
        rewrite I', L' in M'. destruct M' as (B & _). unfold exists_chan in X. rewrite U in X.
        replace (n <? 0) with false in X by lia. replace (n =? 0) with false in X by lia. cbn [negb orb] in X.
        unfold chan_at in X. intros Y. apply in_map_iff in Y. destruct Y as ((n1 & c1) & E1 & Y). cbn in E1. subst n1.
        destruct (find (fun e : Z * Z => fst e =? n) (rg_chans r)) eqn:F; [discriminate|].
        apply (find_none _ _ F) in Y. cbn in Y. lia.
    - apply (IH r1); auto.
      + rewrite U'; auto.
      + rewrite I', L'. exact M.
      + rewrite O. intros t0 n0 u0 Y. apply in_app_or in Y. destruct Y as [Y|Y]; [apply (G _ _ _ Y)|]. exfalso. eapply G'. exact Y. }
  intros r t n u H X. eapply (K es (reg0 init) r ND eq_refl H); [|intros t0 n0 u0 []|exact X].
  destruct init; unfold mine; cbn; split; auto; lia.
Qed.

(** The search ends. *)
Definition free_odd (r : reg) (m : Z) : Prop := mine true m /\ ~ In m (map fst (rg_chans r)).
Lemma search r t k : rg_init r = true -> rg_up r = true -> thr_of r t = None -> (locked r = false \/ held_by r t = true) ->
  forall i, rg_last r = odd_at i -> ~ In (odd_at (i + Z.of_nat (Datatypes.S k))) (map fst (rg_chans r)) ->
  exists j r' vs n, (j <= Datatypes.S k)%nat /\ rrun r (repeat (RTry t) j) = Ok r' /\
    rg_log r' = rg_log r ++ vs ++ [OGiven t n (rg_chans r)] /\ locked r' = false.
Proof.
  revert r. induction k as [|k IH]; intros r I U T Hd i L F.
  - assert (ST : rstep r (RTry t) = try_next r t).
    { cbn [rstep]. rewrite T, U. destruct (held_by r t); [reflexivity|]. destruct Hd as [->|]; [reflexivity|discriminate]. }
    assert (X : exists_chan r (odd_at (i + 1)) = false).
    { destruct (odd_at_mine (i + 1)) as (B & _). unfold exists_chan. rewrite U.
      replace (odd_at (i + 1) <? 0) with false by lia. replace (odd_at (i + 1) =? 0) with false by lia. cbn [negb orb].
      unfold chan_at. destruct (find _ (rg_chans r)) as [e|] eqn:G; [|reflexivity]. exfalso. apply F.
      apply find_some in G. destruct G as (G & G'). apply in_map_iff. exists e. split; [|exact G]. change (Z.of_nat 1) with 1. lia. }
    exists 1%nat. unfold try_next in ST. rewrite I, L, odd_at_next in ST. cbn [obind] in ST. rewrite X in ST.
    eexists. exists [OVisit (odd_at (i + 1))], (odd_at (i + 1)). split; [lia|]. cbn [repeat rrun]. rewrite ST. cbn [obind].
    split; [reflexivity|]. split; reflexivity.
  - assert (ST : rstep r (RTry t) = try_next r t).
    { cbn [rstep]. rewrite T, U. destruct (held_by r t); [reflexivity|]. destruct Hd as [->|]; [reflexivity|discriminate]. }
    unfold try_next in ST. rewrite I, L, odd_at_next in ST. cbn [obind] in ST.
    destruct (exists_chan r (odd_at (i + 1))).
    + match type of ST with _ = Ok ?r1 => destruct (IH r1) with (i := i + 1) as (j & r' & vs & n & J & R & LG & LK) end;
        [reflexivity|exact U|exact T|right; apply Z.eqb_refl|reflexivity| |].
      * cbn [rg_chans]. replace (i + 1 + Z.of_nat (Datatypes.S k)) with (i + Z.of_nat (Datatypes.S (Datatypes.S k))) by lia. exact F.
      * exists (Datatypes.S j), r', (OVisit (odd_at (i + 1)) :: vs), n. split; [lia|]. cbn [repeat rrun]. rewrite ST. cbn [obind].
        split; [exact R|]. split; [|exact LK]. rewrite LG. cbn [rg_log rg_chans]. rewrite <- app_assoc. reflexivity.
    + exists 1%nat. eexists. exists [OVisit (odd_at (i + 1))], (odd_at (i + 1)). split; [lia|]. cbn [repeat rrun]. rewrite ST. cbn [obind].
      split; [reflexivity|]. split; reflexivity.
Qed.
Lemma search_ends es r t m : rrun (reg0 true) es = Ok r -> rg_up r = true -> thr_of r t = None -> locked r = false ->
  mine true m -> ~ In m (map fst (rg_chans r)) ->
  exists j r' vs n, Z.of_nat j <= 1073741823 /\ rrun r (repeat (RTry t) j) = Ok r' /\
    rg_log r' = rg_log r ++ vs ++ [OGiven t n (rg_chans r)] /\ locked r' = false.
Proof.
  intros H U T LK (B & O) F. destruct (oinv_run _ _ _ oinv0 H) as (I & k & _ & L).
  set (i := Z.of_nat k - 1) in L.
  pose proof (Zmod_odd m) as O0. rewrite O in O0. pose proof (Z.div_mod m 2 ltac:(lia)) as M. set (p := m / 2) in *.
  assert (P : 0 <= p < half) by (unfold half; lia).
  set (d := (p - (i + 2)) mod half). pose proof (Z.mod_pos_bound (p - (i + 2)) half eq_refl) as BD. fold d in BD.
  destruct (search r t (Z.to_nat d) I U T (or_introl LK) i L) as (j & r' & vs & n & J & R & LG & LK').
  - replace (odd_at (i + Z.of_nat (Datatypes.S (Z.to_nat d)))) with m; [exact F|].
    unfold odd_at. replace (i + Z.of_nat (Datatypes.S (Z.to_nat d)) + 1) with ((i + 2) + d) by lia.
    unfold d. rewrite Zplus_mod_idemp_r. replace (i + 2 + (p - (i + 2))) with p by lia. rewrite Z.mod_small by exact P. lia.
  - exists j, r', vs, n. split; [unfold half in BD; lia|]. auto.
Qed.

(** The listener can go past the last number. *)
Definition cycle : list rev_ := [RTry 1; RAdd 1; RFail 1].
Fixpoint cycles (k : nat) : list rev_ := match k with O => [] | Datatypes.S k => cycle ++ cycles k end.
Definition idle (r : reg) : Prop := rg_init r = false /\ rg_up r = true /\ rg_chans r = [] /\ rg_hold r = None /\ rg_thr r = [].
Lemma cycle_run r rest : idle r -> mine false (rg_last r) -> rg_last r < 2147483646 ->
  exists r', rrun r (cycle ++ rest) = rrun r' rest /\ idle r' /\ rg_last r' = rg_last r + 2.
Proof.
  intros (I & U & C & Hd & T) (B & O) L. destruct r as [init up last ch hold thr nx log].
  cbn [rg_init rg_up rg_chans rg_hold rg_thr rg_last] in *. subst.
  pose proof (next_even last ltac:(lia) O) as N.
  exists (mkReg false true (last + 2) [] None [] (nx + 1) ((log ++ [OVisit (last + 2); OGiven 1 (last + 2) []]) ++ [ORefused 1])).
  split; [|split; [unfold idle; cbn; auto|reflexivity]].
  assert (R1 : rstep (mkReg false true last [] None [] nx log) (RTry 1) =
    Ok (mkReg false true (last + 2) [] None [(1, TNum (last + 2))] nx (log ++ [OVisit (last + 2); OGiven 1 (last + 2) []]))).
  { cbn [rstep]. unfold thr_of, held_by, locked. cbn [rg_thr rg_hold rg_up find option_map]. unfold try_next. cbn [rg_init rg_last].
    rewrite N. cbn [obind]. unfold exists_chan. cbn [rg_up]. replace (last + 2 <? 0) with false by lia.
    replace (last + 2 =? 0) with false by lia. reflexivity. }
  assert (R2 : forall log', rstep (mkReg false true (last + 2) [] None [(1, TNum (last + 2))] nx log') (RAdd 1) =
    Ok (mkReg false true (last + 2) [(last + 2, nx)] None [(1, TAdded (last + 2) nx)] (nx + 1) log')) by reflexivity.
  assert (R3 : forall log', rstep (mkReg false true (last + 2) [(last + 2, nx)] None [(1, TAdded (last + 2) nx)] (nx + 1) log') (RFail 1) =
    Ok (mkReg false true (last + 2) [] None [] (nx + 1) (log' ++ [ORefused 1]))).
  { intros log'. cbn [rstep]. unfold thr_of. cbn [rg_thr find option_map snd fst]. rewrite Z.eqb_refl. cbn [option_map snd].
    unfold with_chans, drop_chan. cbn [rg_chans filter fst]. rewrite Z.eqb_refl. reflexivity. }
  unfold cycle. cbn [app rrun]. rewrite R1. cbn [obind]. rewrite R2. cbn [obind]. rewrite R3. reflexivity.
Qed.
Lemma cycles_run k : forall r rest, idle r -> mine false (rg_last r) -> rg_last r + 2 * Z.of_nat k <= 2147483646 ->
  exists r', rrun r (cycles k ++ rest) = rrun r' rest /\ idle r' /\ rg_last r' = rg_last r + 2 * Z.of_nat k.
Proof.
  induction k as [|k IH]; intros r rest I M L.
  - exists r. split; [reflexivity|]. split; [auto|lia].
  - cbn [cycles]. rewrite <- app_assoc. destruct (cycle_run r (cycles k ++ rest) I M ltac:(lia)) as (r1 & E & I1 & L1).
    destruct (IH r1 rest I1) as (r2 & E2 & I2 & L2).
    + rewrite L1. destruct M as (B & O). split; [lia|]. rewrite Z.odd_add, O. reflexivity.
    + lia.
    + exists r2. split; [congruence|]. split; [auto|lia].
Qed.
Lemma listener_witness : exists es, rrun (reg0 false) es = UB.
Proof.
  assert (X : exists k : nat, Z.of_nat k = 1073741822) by (exists (Z.to_nat 1073741822); apply Z2Nat.id; lia).
  destruct X as (k & K).
  destruct (cycles_run k (reg0 false) [RTry 1]) as (r & E & (I & U & C & Hd & T) & L).
  - unfold idle; cbn; auto.
  - split; [cbn; lia|reflexivity].
  - cbn [reg0 rg_last]. lia.
  - exists (cycles k ++ [RTry 1]). rewrite E. cbn [rrun rstep]. unfold thr_of, held_by, locked. rewrite T, Hd, U. cbn [find option_map].
    unfold try_next. rewrite I. replace (rg_last r) with 2147483646 by (rewrite L; cbn [reg0 rg_last]; lia). reflexivity.
Qed.
