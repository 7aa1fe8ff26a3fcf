(** Proofs about the notification of channels. *)
From Coq Require Import Sorted.
From Verif Require Import Base ListenModel ListenSpec ListenProofs.

Lemma ncalls_app n a b : ncalls n (a ++ b) = ncalls n a ++ ncalls n b.
Proof. apply flat_map_app. Qed.
Lemma added_app a b : added (a ++ b) = added a ++ added b.
Proof. apply flat_map_app. Qed.
Lemma live_app a e : live (a ++ [e]) = live_step (live a) e.
Proof. unfold live. rewrite fold_left_app. reflexivity. Qed.

(** How many items are not greater than [h]. *)
Definition cnt (h : nat) (l : list nat) : nat := length (filter (fun x => Nat.leb x h) l).
Lemma cnt_app h a b : cnt h (a ++ b) = (cnt h a + cnt h b)%nat.
Proof. unfold cnt. rewrite filter_app, app_length. reflexivity. Qed.

Lemma remove_filter h l : StronglySorted lt l -> remove_ptr h l = filter (fun x => negb (Nat.eqb x h)) l.
Proof.
  induction 1 as [|x l Hs IH Hf]; [reflexivity|]. cbn [remove_ptr filter].
  destruct (Nat.eqb_spec x h) as [->|Hn]; cbn [negb].
  - clear IH Hs. induction Hf as [|y l Hy Hf IH]; [reflexivity|]. cbn [filter].
    destruct (Nat.eqb_spec y h); [lia|]. cbn [negb]. f_equal. exact IH.
  - rewrite IH. reflexivity.
Qed.
Lemma sorted_filter (f : nat -> bool) l : StronglySorted lt l -> StronglySorted lt (filter f l).
Proof.
  induction 1 as [|x l Hs IH Hf]; [constructor|]. cbn [filter]. destruct (f x); [|exact IH].
  constructor; [exact IH|]. rewrite Forall_forall in *. intros y Hy. apply filter_In in Hy. apply Hf, Hy.
Qed.
Lemma sorted_snoc l x : StronglySorted lt l -> Forall (fun y => (y < x)%nat) l -> StronglySorted lt (l ++ [x]).
Proof.
  induction 1 as [|y l Hs IH Hf]; intro H; [repeat constructor|]. cbn [app]. inversion H; subst.
  constructor; [apply IH; assumption|]. rewrite Forall_app. split; [exact Hf|repeat constructor; assumption].
Qed.
Lemma cnt_filter (f : nat -> bool) h l : (cnt h (filter f l) <= cnt h l)%nat.
Proof.
  unfold cnt. induction l as [|x l IH]; [auto|]. cbn [filter]. destruct (f x); cbn [filter];
    destruct (Nat.leb x h); cbn [length]; lia.
Qed.
Lemma cnt_nth h l i x : StronglySorted lt l -> nth_error l i = Some x -> (cnt h l <= i)%nat -> (h < x)%nat.
Proof.
  intro Hs. revert i. induction Hs as [|y l Hs IH Hf]; intros i Hn Hc; [destruct i; discriminate Hn|].
  unfold cnt in Hc. cbn [filter] in Hc. destruct (Nat.leb_spec y h) as [L|L].
  - cbn [length] in Hc. destruct i as [|i]; [lia|]. cbn [nth_error] in Hn. apply (IH i Hn). unfold cnt. lia.
  - destruct i as [|i]; cbn [nth_error] in Hn; [injection Hn as ->; exact L|].
    apply nth_error_In in Hn. rewrite Forall_forall in Hf. specialize (Hf _ Hn). lia.
Qed.
Lemma nth_cnt l i x : StronglySorted lt l -> nth_error l i = Some x -> cnt x l = S i.
Proof.
  intro Hs. revert i. induction Hs as [|y l Hs IH Hf]; intros i Hn; [destruct i; discriminate Hn|].
  unfold cnt. cbn [filter]. destruct i as [|i]; cbn [nth_error] in Hn.
  - injection Hn as ->. rewrite Nat.leb_refl. cbn [length]. f_equal.
    clear IH Hs. induction Hf as [|z l Hz Hf IH]; [reflexivity|]. cbn [filter].
    destruct (Nat.leb_spec z x); [lia|]. exact IH.
  - pose proof (nth_error_In _ _ Hn) as Hi. rewrite Forall_forall in Hf. specialize (Hf _ Hi).
    destruct (Nat.leb_spec y x); [|lia]. cbn [length]. f_equal. exact (IH i Hn).
Qed.

(** A log that grew: where its cut points are. *)
Lemma split_snoc {E} (log a b : list E) e x : log ++ [e] = a ++ x :: b ->
  (x = e /\ b = [] /\ a = log) \/ (exists b', b = b' ++ [e] /\ log = a ++ x :: b').
Proof.
  intro H. destruct (rev b) as [|y r] eqn:Hr.
  - assert (b = []) by (rewrite <- (rev_involutive b), Hr; reflexivity). subst b.
    apply app_inj_tail in H as [<- <-]. left. auto.
  - assert (Hb : b = rev r ++ [y]) by (rewrite <- (rev_involutive b), Hr; reflexivity).
    rewrite Hb in H. change (x :: rev r ++ [y]) with ((x :: rev r) ++ [y]) in H. rewrite app_assoc in H.
    apply app_inj_tail in H as [H <-]. right. exists (rev r). auto.
Qed.

(** Until [h] is removed (after having been installed) it is live. *)
Lemma live_removed k log h : added log = seq 0 k -> In h (live log) ->
  forall a b, log = a ++ VRem h :: b -> ~ In (VAdd h) a.
Proof.
  intros Hk Hl a b Hb Ha. subst log.
  assert (Hnb : ~ In h (added b)).
  { rewrite added_app in Hk. cbn in Hk. fold (added b) in Hk.
    assert (Hx : In h (added a)) by (apply in_flat_map; exists (VAdd h); split; [exact Ha|left; reflexivity]).
    pose proof (seq_NoDup k 0) as Hd. rewrite <- Hk in Hd. intro Hy.
    clear -Hx Hd Hy. induction (added a) as [|z l IH]; [destruct Hx|]. cbn [app] in Hd. inversion Hd; subst.
    destruct Hx as [->|Hx]; [apply H1, in_or_app; right; exact Hy|exact (IH Hx H2)]. }
  assert (G : forall l0, ~ In h l0 -> ~ In h (added b) -> ~ In h (fold_left live_step b l0)).
  { clear. induction b as [|e b IH]; intros l0 H1 H2; [exact H1|]. cbn [fold_left].
    apply IH.
    - destruct e; cbn [live_step]; try exact H1.
      + rewrite in_app_iff. intros [H|[H|[]]]; [exact (H1 H)|]. subst. apply H2. left. reflexivity.
      + intro H. apply filter_In in H. exact (H1 (proj1 H)).
    - intro H. apply H2. change (e :: b) with ([e] ++ b). rewrite added_app. apply in_or_app. right. exact H. }
  unfold live in Hl. rewrite fold_left_app in Hl. cbn [fold_left live_step] in Hl.
  refine (G _ _ Hnb Hl). intro H. apply filter_In in H. destruct H as (_ & H). rewrite Nat.eqb_refl in H. discriminate H.
Qed.

(** What may be observed. *)
Definition nmay (pre : list nev) (e : nev) : Prop :=
  match e with
  | VAdd h => ~ In h (added pre)
  | VRem _ => True
  | VGlobal n => ~ In (VStart n) pre
  | VStart n => ~ In (VStart n) pre /\ ~ In (VEnd n) pre
  | VCall n h => In (VStart n) pre /\ ~ In (VEnd n) pre /\ In (VAdd h) pre /\
      Forall (fun x => (x < h)%nat) (ncalls n pre) /\
      (forall a b, pre = a ++ VRem h :: b -> In (VAdd h) a -> In (VStart n) a)
  | VEnd n => In (VStart n) pre /\ ~ In (VEnd n) pre /\
      (forall a b, pre = a ++ VStart n :: b -> no_removal b -> ncalls n pre = live pre)
  end.

Definition pend (s : nst) (n h : nat) : list nat := ncalls n (n_log s) ++ (if n_copy s n then [h] else []).
Definition ninv_n (s : nst) (n : nat) : Prop :=
  match n_pc s n with
  | NIdle => ncalls n (n_log s) = [] /\ ~ In (VStart n) (n_log s) /\ ~ In (VEnd n) (n_log s) /\ n_copy s n = false
  | NCall i h =>
      In (VStart n) (n_log s) /\ ~ In (VEnd n) (n_log s) /\ In (VAdd h) (n_log s) /\ (h < n_next s)%nat /\
      (exists l, pend s n h = l ++ [h] /\ Forall (fun x => (x < h)%nat) l) /\
      (cnt h (n_hs s) <= S i)%nat /\
      (forall a b, n_log s = a ++ VStart n :: b -> no_removal b ->
         (S i <= length (n_hs s))%nat /\ pend s n h = firstn (S i) (n_hs s)) /\
      (n_copy s n = true -> forall a b, n_log s = a ++ VRem h :: b -> In (VAdd h) a -> In (VStart n) a)
  | NDone => In (VStart n) (n_log s) /\ In (VEnd n) (n_log s)
  end.
Definition ninv (s : nst) : Prop :=
  added (n_log s) = seq 0 (n_next s) /\ live (n_log s) = n_hs s /\ StronglySorted lt (n_hs s) /\
  Forall (fun x => (x < n_next s)%nat) (n_hs s) /\ each nmay (n_log s) /\ forall n, ninv_n s n.

Lemma live_added log h : In h (live log) -> In (VAdd h) log.
Proof.
  unfold live. assert (G : forall l0, In h (fold_left live_step log l0) -> In h l0 \/ In (VAdd h) log).
  { induction log as [|e log IH]; intros l0 H; [left; exact H|]. cbn [fold_left] in H.
    destruct (IH _ H) as [G|G]; [|right; right; exact G].
    destruct e; cbn [live_step] in G; try (left; exact G).
    - apply in_app_iff in G as [G|[->|[]]]; [left; exact G|right; left; reflexivity].
    - apply filter_In in G. left. apply G. }
  intro H. destruct (G [] H) as [[]|G1]; exact G1.
Qed.

(** Events that do not concern notification [n] and are no removal or addition. *)
Definition foreign (n : nat) (e : nev) : Prop :=
  match e with
  | VAdd _ | VRem _ => False
  | VGlobal _ => True
  | VStart n' | VCall n' _ | VEnd n' => n' <> n
  end.

Lemma in_snoc_neq {E} (log : list E) e x : x <> e -> (In x (log ++ [e]) <-> In x log).
Proof. intro H. rewrite in_app_iff. split; [intros [G|[G|[]]]; [exact G|congruence]|auto]. Qed.

(** Appending such an event keeps what is known of [n]. *)
Lemma ninv_foreign s n pc cp hs e :
  ninv_n s n -> foreign n e -> pc n = n_pc s n -> cp n = n_copy s n -> hs = n_hs s ->
  ninv_n (mkN (n_next s) hs pc cp (n_log s ++ [e])) n.
Proof.
  intros H He Hp Hc ->. unfold ninv_n, pend in *. cbn [n_pc n_log n_copy n_hs n_next]. rewrite Hp, Hc.
  assert (E1 : ncalls n (n_log s ++ [e]) = ncalls n (n_log s)).
  { rewrite ncalls_app. destruct e; cbn in He; try contradiction; cbn; try apply app_nil_r.
    destruct (Nat.eqb_spec n0 n); [contradiction|]. apply app_nil_r. }
  assert (E2 : In (VStart n) (n_log s ++ [e]) <-> In (VStart n) (n_log s)).
  { apply in_snoc_neq. intro X. subst e. exact (He eq_refl). }
  assert (E3 : In (VEnd n) (n_log s ++ [e]) <-> In (VEnd n) (n_log s)).
  { apply in_snoc_neq. intro X. subst e. exact (He eq_refl). }
  destruct (n_pc s n) as [|i h|]; rewrite ?E1, ?E2, ?E3; [exact H| |exact H].
  destruct H as (H1 & H2 & H3 & H4 & H5 & H6 & H7 & H8). conj; auto.
  - apply in_or_app. left. exact H3.
  - intros a b Hs Hr. apply split_snoc in Hs as [(X & _)|(b' & -> & Hs)]; [subst e; destruct (He eq_refl)|].
    apply (H7 a b' Hs). intros x Hx. apply (Hr x), in_or_app. left. exact Hx.
  - intros Hcp a b Hs Ha. apply split_snoc in Hs as [(X & _)|(b' & -> & Hs)]; [subst e; destruct He|].
    exact (H8 Hcp a b' Hs Ha).
Qed.

(** The test of the loop. *)
Lemma notify_at_inv s n i :
  added (n_log s) = seq 0 (n_next s) -> live (n_log s) = n_hs s -> StronglySorted lt (n_hs s) ->
  Forall (fun x => (x < n_next s)%nat) (n_hs s) -> each nmay (n_log s) -> (forall m, m <> n -> ninv_n s m) ->
  In (VStart n) (n_log s) -> ~ In (VEnd n) (n_log s) -> n_copy s n = false ->
  (forall h, nth_error (n_hs s) i = Some h -> Forall (fun x => (x < h)%nat) (ncalls n (n_log s))) ->
  (forall a b, n_log s = a ++ VStart n :: b -> no_removal b ->
     (i <= length (n_hs s))%nat /\ ncalls n (n_log s) = firstn i (n_hs s)) ->
  ninv (notify_at s n i).
Proof.
  intros I1 I2 I3 I4 I5 I6 J1 J2 J3 J4 J5. unfold notify_at. destruct (nth_error (n_hs s) i) as [h|] eqn:Hn.
  - split; [exact I1|]. split; [exact I2|]. split; [exact I3|]. split; [exact I4|]. split; [exact I5|].
    intro m. destruct (Nat.eq_dec m n) as [->|Hm].
    + unfold ninv_n, pend. cbn [n_pc n_log n_copy n_hs n_next]. unfold set_npc, set_copy. rewrite Nat.eqb_refl.
      pose proof (nth_error_In _ _ Hn) as Hin.
      split; [exact J1|]. split; [exact J2|]. split; [apply live_added; rewrite I2; exact Hin|].
      split; [rewrite Forall_forall in I4; exact (I4 _ Hin)|].
      split; [exists (ncalls n (n_log s)); split; [reflexivity|exact (J4 _ eq_refl)]|].
      split; [rewrite (nth_cnt _ _ _ I3 Hn); lia|].
      split.
      * intros a b Hs Hr. destruct (J5 a b Hs Hr) as (G1 & G2). split.
        -- assert (i < length (n_hs s))%nat by (apply nth_error_Some; rewrite Hn; discriminate). lia.
        -- rewrite G2. symmetry. apply nth_firstn. exact Hn.
      * intros _ a b Hs Ha. exfalso. refine (live_removed _ _ h I1 _ a b Hs Ha). rewrite I2. exact Hin.
    + pose proof (I6 m Hm) as H. unfold ninv_n, pend in *. cbn [n_pc n_log n_copy n_hs n_next].
      unfold set_npc, set_copy. destruct (Nat.eqb_spec m n); [contradiction|]. exact H.
  - assert (K : nmay (n_log s) (VEnd n)).
    { cbn [nmay]. split; [exact J1|]. split; [exact J2|]. intros a b Hs Hr. destruct (J5 a b Hs Hr) as (G1 & G2).
      rewrite G2, I2. apply nth_none. exact Hn. }
    unfold ninv. cbn [n_log n_hs n_next].
    split; [rewrite added_app, I1; cbn; apply app_nil_r|]. split; [rewrite live_app, I2; reflexivity|].
    split; [exact I3|]. split; [exact I4|]. split; [apply each_snoc; assumption|].
    intro m. destruct (Nat.eq_dec m n) as [->|Hm].
    + unfold ninv_n. cbn [n_pc n_log]. unfold set_npc. rewrite Nat.eqb_refl. split.
      * apply in_or_app. left. exact J1.
      * apply in_or_app. right. left. reflexivity.
    + apply ninv_foreign; auto.
      * cbn. congruence.
      * unfold set_npc. destruct (Nat.eqb_spec m n); [contradiction|reflexivity].
Qed.

Lemma nstep_inv s o : ninv s -> ninv (nstep s o).
Proof.
  intros (I1 & I2 & I3 & I4 & I5 & I6). destruct o as [[|]|h|n zero global|n|n]; cbn [nstep].
  - (* a handler is installed *)
    assert (Hf : ~ In (n_next s) (added (n_log s))) by (rewrite I1, in_seq; lia).
    split; [cbn [n_log n_next]; rewrite added_app, I1, seq_S; reflexivity|].
    split; [cbn [n_log n_hs]; rewrite live_app, I2; reflexivity|].
    split; [apply sorted_snoc; assumption|].
    split; [cbn [n_hs n_next]; rewrite Forall_app; split; [eapply Forall_impl; [|exact I4]; cbn; lia|repeat constructor]|].
    split; [cbn [n_log]; apply each_snoc; [exact I5|exact Hf]|].
    intro n. pose proof (I6 n) as H. unfold ninv_n, pend in *. cbn [n_pc n_log n_copy n_hs n_next].
    assert (E1 : ncalls n (n_log s ++ [VAdd (n_next s)]) = ncalls n (n_log s)) by (rewrite ncalls_app; apply app_nil_r).
    assert (E2 : In (VStart n) (n_log s ++ [VAdd (n_next s)]) <-> In (VStart n) (n_log s)) by (apply in_snoc_neq; discriminate).
    assert (E3 : In (VEnd n) (n_log s ++ [VAdd (n_next s)]) <-> In (VEnd n) (n_log s)) by (apply in_snoc_neq; discriminate).
    destruct (n_pc s n) as [|i h|]; rewrite ?E1, ?E2, ?E3; [exact H| |exact H].
    destruct H as (H1 & H2 & H3 & H4 & H5 & H6 & H7 & H8).
    split; [exact H1|]. split; [exact H2|]. split; [apply in_or_app; left; exact H3|]. split; [lia|].
    split; [exact H5|].
    split; [rewrite cnt_app; unfold cnt at 2; cbn [filter]; destruct (Nat.leb_spec (n_next s) h); [lia|cbn; lia]|].
    split.
    + intros a b Hs Hr. apply split_snoc in Hs as [(X & _)|(b' & -> & Hs)]; [discriminate X|].
      assert (Hr' : no_removal b') by (intros x Hx; apply (Hr x), in_or_app; left; exact Hx).
      destruct (H7 a b' Hs Hr') as (G1 & G2). rewrite app_length. split; [lia|].
      rewrite G2, firstn_app. replace (S i - length (n_hs s))%nat with O by lia. cbn [firstn]. symmetry. apply app_nil_r.
    + intros Hcp a b Hs Ha. apply split_snoc in Hs as [(X & _)|(b' & -> & Hs)]; [discriminate X|]. exact (H8 Hcp a b' Hs Ha).
  - exact (Logic.conj I1 (Logic.conj I2 (Logic.conj I3 (Logic.conj I4 (Logic.conj I5 I6))))).
  - (* a handler is removed *)
    rewrite (remove_filter h _ I3).
    split; [cbn [n_log n_next]; rewrite added_app, I1; cbn; apply app_nil_r|].
    split; [cbn [n_log n_hs]; rewrite live_app, I2; reflexivity|].
    split; [apply sorted_filter; exact I3|].
    split; [cbn [n_hs n_next]; rewrite Forall_forall in *; intros x Hx; apply filter_In in Hx; apply I4, Hx|].
    split; [cbn [n_log]; apply each_snoc; [exact I5|exact Logic.I]|].
    intro n. pose proof (I6 n) as H. unfold ninv_n, pend in *. cbn [n_pc n_log n_copy n_hs n_next].
    assert (E1 : ncalls n (n_log s ++ [VRem h]) = ncalls n (n_log s)) by (rewrite ncalls_app; apply app_nil_r).
    assert (E2 : In (VStart n) (n_log s ++ [VRem h]) <-> In (VStart n) (n_log s)) by (apply in_snoc_neq; discriminate).
    assert (E3 : In (VEnd n) (n_log s ++ [VRem h]) <-> In (VEnd n) (n_log s)) by (apply in_snoc_neq; discriminate).
    destruct (n_pc s n) as [|i h'|]; rewrite ?E1, ?E2, ?E3; [exact H| |exact H].
    destruct H as (H1 & H2 & H3 & H4 & H5 & H6 & H7 & H8).
    split; [exact H1|]. split; [exact H2|]. split; [apply in_or_app; left; exact H3|]. split; [exact H4|].
    split; [exact H5|].
    split; [pose proof (cnt_filter (fun x => negb (Nat.eqb x h)) h' (n_hs s)); lia|].
    split.
    + intros a b Hs Hr. apply split_snoc in Hs as [(X & _)|(b' & -> & Hs)]; [discriminate X|].
      exfalso. apply (Hr h), in_or_app. right. left. reflexivity.
    + intros Hcp a b Hs Ha. apply split_snoc in Hs as [(X & _ & ->)|(b' & -> & Hs)]; [exact H1|]. exact (H8 Hcp a b' Hs Ha).
  - (* a notification starts *)
    pose proof (I6 n) as Hn. unfold ninv_n in Hn. destruct (n_pc s n) as [|i h|] eqn:Hp;
      try exact (Logic.conj I1 (Logic.conj I2 (Logic.conj I3 (Logic.conj I4 (Logic.conj I5 I6))))).
    destruct Hn as (N1 & N2 & N3 & Hc).
    set (g := if negb zero && global then [VGlobal n] else []).
    set (s0 := mkN (n_next s) (n_hs s) (n_pc s) (n_copy s) (n_log s ++ g)).
    assert (S0 : added (n_log s0) = seq 0 (n_next s0) /\ live (n_log s0) = n_hs s0 /\ each nmay (n_log s0) /\
                 (forall m, ninv_n s0 m)).
    { unfold s0, g. destruct (negb zero && global).
      - cbn [n_log n_hs n_next]. split; [rewrite added_app, I1; cbn; apply app_nil_r|].
        split; [rewrite live_app, I2; reflexivity|]. split; [apply each_snoc; [exact I5|exact N2]|].
        intro m. apply ninv_foreign; auto. exact Logic.I.
      - cbn [n_log n_hs n_next]. rewrite app_nil_r. destruct s; cbn in *. auto. }
    destruct S0 as (S1 & S2 & S3 & S4).
    rewrite app_assoc. change (n_log s ++ g) with (n_log s0).
    pose proof (S4 n) as Hn. unfold ninv_n in Hn. cbn [n_pc s0] in Hn. rewrite Hp in Hn. destruct Hn as (M1 & M2 & M3 & _).
    assert (Q : ncalls n (n_log s0 ++ [VStart n]) = []) by (rewrite ncalls_app, M1; reflexivity).
    apply notify_at_inv; cbn [n_log n_hs n_next n_pc n_copy].
    + rewrite added_app, S1. cbn. apply app_nil_r.
    + rewrite live_app, S2. reflexivity.
    + exact I3.
    + exact I4.
    + apply each_snoc; [exact S3|exact (Logic.conj M2 M3)].
    + intros m Hm. apply (ninv_foreign s0); auto. cbn. congruence.
    + apply in_or_app. right. left. reflexivity.
    + rewrite in_app_iff. intros [H|[H|[]]]; [exact (M3 H)|discriminate H].
    + exact Hc.
    + intros h _. rewrite Q. constructor.
    + intros a b _ _. rewrite Q. split; [lia|reflexivity].
  - (* the handler is called *)
    pose proof (I6 n) as Hn. unfold ninv_n, pend in Hn. destruct (n_pc s n) as [|i h|] eqn:Hp;
      try exact (Logic.conj I1 (Logic.conj I2 (Logic.conj I3 (Logic.conj I4 (Logic.conj I5 I6))))).
    destruct (n_copy s n) eqn:Hc;
      [|exact (Logic.conj I1 (Logic.conj I2 (Logic.conj I3 (Logic.conj I4 (Logic.conj I5 I6)))))].
    destruct Hn as (H1 & H2 & H3 & H4 & (l & H5 & H5') & H6 & H7 & H8).
    apply app_inj_tail in H5 as [H5 _]. subst l.
    unfold ninv. cbn [n_log n_hs n_next].
    split; [rewrite added_app, I1; cbn; apply app_nil_r|]. split; [rewrite live_app, I2; reflexivity|].
    split; [exact I3|]. split; [exact I4|].
    split; [apply each_snoc; [exact I5|exact (Logic.conj H1 (Logic.conj H2 (Logic.conj H3 (Logic.conj H5' (H8 eq_refl)))))]|].
    intro m. destruct (Nat.eq_dec m n) as [->|Hm].
    + unfold ninv_n, pend. cbn [n_pc n_log n_copy n_hs n_next]. unfold set_copy. rewrite Nat.eqb_refl, Hp, app_nil_r.
      assert (E1 : ncalls n (n_log s ++ [VCall n h]) = ncalls n (n_log s) ++ [h]).
      { rewrite ncalls_app. unfold ncalls at 2. cbn. rewrite Nat.eqb_refl. reflexivity. }
      assert (E2 : In (VStart n) (n_log s ++ [VCall n h]) <-> In (VStart n) (n_log s)) by (apply in_snoc_neq; discriminate).
      assert (E3 : In (VEnd n) (n_log s ++ [VCall n h]) <-> In (VEnd n) (n_log s)) by (apply in_snoc_neq; discriminate).
      rewrite E1, E2, E3.
      split; [exact H1|]. split; [exact H2|]. split; [apply in_or_app; left; exact H3|]. split; [exact H4|].
      split; [exists (ncalls n (n_log s)); split; [reflexivity|exact H5']|].
      split; [exact H6|]. split; [|discriminate].
      intros a b Hs Hr. apply split_snoc in Hs as [(X & _)|(b' & -> & Hs)]; [discriminate X|].
      apply (H7 a b' Hs). intros x Hx. apply (Hr x), in_or_app. left. exact Hx.
    + apply ninv_foreign; auto.
      * cbn. congruence.
      * unfold set_copy. destruct (Nat.eqb_spec m n); [contradiction|reflexivity].
  - (* it returns *)
    pose proof (I6 n) as Hn. unfold ninv_n, pend in Hn. destruct (n_pc s n) as [|i h|] eqn:Hp;
      try exact (Logic.conj I1 (Logic.conj I2 (Logic.conj I3 (Logic.conj I4 (Logic.conj I5 I6))))).
    destruct (n_copy s n) eqn:Hc;
      [exact (Logic.conj I1 (Logic.conj I2 (Logic.conj I3 (Logic.conj I4 (Logic.conj I5 I6)))))|].
    destruct Hn as (H1 & H2 & H3 & H4 & (l & H5 & H5') & H6 & H7 & H8). rewrite app_nil_r in H5, H7.
    apply notify_at_inv; auto.
    intros h' Hn'. pose proof (cnt_nth h _ _ _ I3 Hn' H6) as Hlt.
    rewrite H5, Forall_app. split; [eapply Forall_impl; [|exact H5']; cbn; lia|repeat constructor; exact Hlt].
Qed.

Lemma nrun_inv ops : ninv (nrun ops).
Proof.
  unfold nrun. assert (H : forall s, ninv s -> ninv (fold_left nstep ops s)).
  { induction ops as [|o r IH]; intros s Hs; [exact Hs|]. cbn [fold_left]. apply IH, nstep_inv, Hs. }
  apply H. unfold ninv. cbn. split; [reflexivity|]. split; [reflexivity|]. split; [constructor|]. split; [constructor|].
  split; [apply each_nil|]. intro n. unfold ninv_n. cbn. repeat split; auto.
Qed.

Lemma each_sorted n log : each nmay log -> StronglySorted lt (ncalls n log).
Proof.
  induction log as [|e log IH] using rev_ind; intro H; [constructor|].
  assert (H1 : each nmay log).
  { intros pre x post Hx. apply (H pre x (post ++ [e])). rewrite Hx, <- app_assoc. reflexivity. }
  rewrite ncalls_app. pose proof (H log e [] eq_refl) as He.
  destruct e; cbn; try (rewrite app_nil_r; exact (IH H1)).
  destruct (Nat.eqb_spec n0 n) as [->|]; cbn; [|rewrite app_nil_r; exact (IH H1)].
  apply sorted_snoc; [exact (IH H1)|apply He].
Qed.

Lemma sorted_nodup l : StronglySorted lt l -> NoDup l.
Proof.
  induction 1 as [|x l Hs IH Hf]; [constructor|]. constructor; [|exact IH].
  intro Hi. rewrite Forall_forall in Hf. specialize (Hf _ Hi). lia.
Qed.

Lemma in_ncalls n h log : In h (ncalls n log) <-> In (VCall n h) log.
Proof.
  unfold ncalls. rewrite in_flat_map. split.
  - intros (e & He & Hi). destruct e; try destruct Hi. destruct (Nat.eqb_spec n0 n) as [->|]; [|destruct Hi].
    destruct Hi as [->|[]]. exact He.
  - intro H. exists (VCall n h). split; [exact H|]. rewrite Nat.eqb_refl. left. reflexivity.
Qed.

(** One notification: at most once each, in the order of installation. *)
Lemma notify_once ops n :
  let log := n_log (nrun ops) in
  (exists k, added log = seq 0 k) /\ StronglySorted lt (ncalls n log) /\ NoDup (ncalls n log) /\
  (forall pre h post, log = pre ++ VCall n h :: post -> In (VAdd h) pre /\ In (VStart n) pre /\ ~ In (VEnd n) pre) /\
  (forall pre post, log = pre ++ VStart n :: post -> ~ In (VStart n) pre).
Proof.
  cbv zeta. destruct (nrun_inv ops) as (I1 & _ & _ & _ & I5 & _).
  split; [exists (n_next (nrun ops)); exact I1|].
  pose proof (each_sorted n _ I5) as Hs. split; [exact Hs|]. split; [exact (sorted_nodup _ Hs)|]. split.
  - intros pre h post Hl. pose proof (I5 _ _ _ Hl) as (M1 & M2 & M3 & _). auto.
  - intros pre post Hl. exact (proj1 (I5 _ _ _ Hl)).
Qed.

Lemma notify_all ops n a b c :
  n_log (nrun ops) = a ++ VStart n :: b ++ VEnd n :: c -> no_removal b ->
  ncalls n b = live (a ++ VStart n :: b).
Proof.
  intros Hl Hr. destruct (nrun_inv ops) as (_ & _ & _ & _ & I5 & _).
  assert (Hl' : n_log (nrun ops) = (a ++ VStart n :: b) ++ VEnd n :: c) by (rewrite Hl, <- app_assoc; reflexivity).
  destruct (I5 _ _ _ Hl') as (_ & _ & K). rewrite <- (K a b eq_refl Hr).
  rewrite ncalls_app. assert (Hz : ncalls n a = []).
  { pose proof (I5 _ _ _ Hl) as (Hs & _). destruct (ncalls n a) as [|h r] eqn:Hn; [reflexivity|]. exfalso.
    assert (Hi : In (VCall n h) a) by (apply in_ncalls; rewrite Hn; left; reflexivity).
    apply in_split in Hi as (p & q & ->). apply Hs.
    assert (Hl2 : n_log (nrun ops) = p ++ VCall n h :: (q ++ VStart n :: b ++ VEnd n :: c)) by (rewrite Hl, <- app_assoc; reflexivity).
    destruct (I5 _ _ _ Hl2) as (G & _). apply in_or_app. left. exact G. }
  rewrite Hz. reflexivity.
Qed.

Lemma notify_removed ops n h a b c :
  n_log (nrun ops) = a ++ VRem h :: b ++ VCall n h :: c -> In (VAdd h) a -> In (VStart n) a.
Proof.
  intros Hl Ha. destruct (nrun_inv ops) as (_ & _ & _ & _ & I5 & _).
  assert (Hl' : n_log (nrun ops) = (a ++ VRem h :: b) ++ VCall n h :: c) by (rewrite Hl, <- app_assoc; reflexivity).
  destruct (I5 _ _ _ Hl') as (_ & _ & _ & _ & K). exact (K a b eq_refl Ha).
Qed.

(** A handler that removes itself: the next one is not called. *)
Lemma notify_skips : exists ops n h a b c,
  n_log (nrun ops) = a ++ VStart n :: b ++ VEnd n :: c /\
  In h (live a) /\ ~ In (VRem h) (n_log (nrun ops)) /\ ~ In h (ncalls n b).
Proof.
  exists [QAdd true; QAdd true; QStart 0 false false; QCall 0; QRem 0; QRet 0], 0%nat, 1%nat,
    [VAdd 0; VAdd 1], [VCall 0 0; VRem 0], [].
  vm_compute. split; [reflexivity|]. split; [right; left; reflexivity|]. split.
  - intros [H|[H|[H|[H|[H|[H|[]]]]]]]; discriminate H.
  - intros [H|[]]. discriminate H.
Qed.

(** A handler called after it was removed. *)
Lemma notify_late : exists ops n h a b c,
  n_log (nrun ops) = a ++ VRem h :: b ++ VCall n h :: c /\ In (VAdd h) a.
Proof.
  exists [QAdd true; QStart 0 false false; QRem 0; QCall 0], 0%nat, 0%nat, [VAdd 0; VStart 0], [], [].
  vm_compute. split; [reflexivity|left; reflexivity].
Qed.
