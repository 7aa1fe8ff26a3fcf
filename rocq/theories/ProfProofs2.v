(** The memory of the profiles is safe. *)
From Verif Require Import Base HdrModel HdrProofs ProfModel ProfSpec ProfProofs.

Definition okph (b : bool) (tab : list (Z * nat)) (lock : option Z) (t : Z) (p : ph) : Prop :=
  match p with
  | XSet i _ _ | XSetD i _ | VSet i _ _ | VSetD i _ => lock = Some t /\ In i (map snd tab)
  | UDrop i => lock = Some t
  | GRead _ i => lock = Some t /\ In i (map snd tab)
  | RUpd i _ _ | D1 i | DC i => b = true /\ In i (map snd tab)
  | GNext _ => lock = Some t
  | _ => True
  end.
Definition locked (p : ph) : bool := match p with XSet _ _ _ | XSetD _ _ | VSet _ _ _ | VSetD _ _ | UDrop _ | GNext _ | GRead _ _ => true | _ => false end.
Definition owned (s : pst) : Prop := forall t, s_lock s = Some t -> exists p, In (t, p) (s_thr s) /\ locked p = true.
Definition safe (b : bool) (s : pst) : Prop :=
  refs s /\ (forall t p, In (t, p) (s_thr s) -> okph b (s_tab s) (s_lock s) t p) /\ owned s /\ s_list s = map snd (s_tab s).
Definition allowed (b : bool) (s : pst) (e : pev) : Prop :=
  if b then match e with ECall _ (CUnreg _) => False | _ => True end else plain s e.

Lemma thr_unique : forall (l : list (Z * ph)) t x y, NoDup (map fst l) -> In (t, x) l -> In (t, y) l -> x = y.
Proof.
  induction l as [|(a, z) l IH]; intros t x y N X Y; [contradiction|]. cbn in N. inversion N as [|? ? H1 H2]; subst.
  destruct X as [X|X], Y as [Y|Y]; try congruence; [| |eapply IH; eauto]; exfalso; apply H1; apply in_map_iff.
  - injection X as -> ->. exists (t, y). auto.
  - injection Y as -> ->. exists (t, x). auto.
Qed.
Lemma tab_live : forall s i, refs s -> In i (map snd (s_tab s)) -> exists w, nth_error (s_heap s) i = Some (Some w).
Proof.
  intros s i (_ & _ & _ & H) K. apply tabc_in in K. specialize (H i). unfold count in H.
  destruct (nth_error (s_heap s) i) as [[w|]|]; [eauto|lia|lia].
Qed.
Lemma hold_live : forall s t p i, refs s -> In (t, p) (s_thr s) -> holds p = Some i -> exists w, nth_error (s_heap s) i = Some (Some w).
Proof.
  intros s t p i (_ & _ & _ & H) K E. apply (thrc_in _ _ _ i) in K; auto. specialize (H i). unfold count in H.
  destruct (nth_error (s_heap s) i) as [[w|]|]; [eauto|lia|lia].
Qed.
Lemma idx_live : forall b s t p i, safe b s -> phase_of s t = Some p -> idx p = Some i -> exists w, nth_error (s_heap s) i = Some (Some w).
Proof.
  intros b s t p i (R & O & _) P E. apply phase_in in P. pose proof (O _ _ P) as K.
  destruct (holds p) as [j|] eqn:Hp.
  - assert (j = i) by (destruct p; cbn in *; congruence). subst j. eapply hold_live; eauto.
  - apply tab_live; auto. destruct p; cbn in *; try discriminate; injection E as ->; tauto.
Qed.
(* a step that keeps the table, the list and the lock *)
Lemma safe_goes : forall b s t p q s', safe b s -> phase_of s t = Some p -> refs s' ->
  s_tab s' = s_tab s -> s_list s' = s_list s -> s_lock s' = s_lock s -> s_thr s' = (t, q) :: others (s_thr s) t ->
  locked q = locked p -> (okph b (s_tab s) (s_lock s) t p -> okph b (s_tab s) (s_lock s) t q) -> safe b s'.
Proof.
  intros b s t p q s' (R & O & W & L) P R' T S0 K H E Q. split; [auto|]. split; [|split].
  - rewrite H, T, K. intros u x [[= <- <-]|X]; [apply Q; apply O; apply phase_in; auto|]. apply others_in in X. apply O. tauto.
  - intros u U. rewrite K in U. rewrite H. destruct (W u U) as (x & X & LX). destruct (Z.eq_dec u t) as [->|D].
    + exists q. split; [left; auto|]. rewrite E. rewrite <- (thr_unique _ _ _ _ (proj1 R) X (phase_in _ _ _ P)). auto.
    + exists x. split; [right; apply others_in; auto|auto].
  - rewrite S0, T. auto.
Qed.
Lemma safe_ends : forall b s t p s', safe b s -> phase_of s t = Some p -> refs s' ->
  s_tab s' = s_tab s -> s_list s' = s_list s -> s_lock s' = (if locked p then None else s_lock s) -> s_thr s' = others (s_thr s) t -> safe b s'.
Proof.
  intros b s t p s' (R & O & W & L) P R' T S0 K H. pose proof (O _ _ (phase_in _ _ _ P)) as OP. split; [auto|]. split; [|split].
  - rewrite H, T, K. intros u x X. apply others_in in X. destruct X as (X & D). cbn in D. specialize (O _ _ X).
    destruct (locked p) eqn:E; auto. assert (s_lock s = Some t) by (destruct p; try discriminate; cbn in OP; tauto).
    destruct x; cbn in *; auto; exfalso; try (destruct O as (O & _)); congruence.
  - intros u U. rewrite K in U. rewrite H. destruct (locked p) eqn:E; [discriminate|]. destruct (W u U) as (x & X & LX).
    exists x. split; auto. apply others_in. split; auto. cbn. intros ->.
    rewrite (thr_unique _ _ _ _ (proj1 R) X (phase_in _ _ _ P)) in LX. congruence.
  - rewrite S0, T. auto.
Qed.
Lemma safe_same : forall b s s', safe b s -> s_heap s' = s_heap s -> s_tab s' = s_tab s -> s_list s' = s_list s -> s_lock s' = s_lock s -> s_thr s' = s_thr s -> safe b s'.
Proof.
  intros b s s' (R & O & W & L) H T S0 K V. split; [eapply refs_same; eauto|]. unfold owned. rewrite T, S0, K, V. auto.
Qed.

Ltac sg := eapply safe_goes; [eassumption|eassumption|eassumption|reflexivity|reflexivity|reflexivity|reflexivity|reflexivity|cbn; try tauto].
Ltac se := eapply safe_ends; [eassumption|eassumption|eassumption|reflexivity|reflexivity|reflexivity|reflexivity].
Lemma adv_safe : forall b s t p r, safe b s -> phase_of s t = Some p -> exists s', adv s t p r = Ok s' /\ safe b s'.
Proof.
  intros b s t p r Sf P. pose proof (proj1 Sf) as R. pose proof (proj1 (proj2 Sf) _ _ (phase_in _ _ _ P)) as OP.
  assert (LV : forall i, idx p = Some i -> exists w, deref s i = Ok w)
    by (intros i E; destruct (idx_live b s t p i Sf P E) as (w & Hw); exists w; apply nth_deref; auto).
  assert (ex : exists s', adv s t p r = Ok s').
  { destruct (idx p) as [i|] eqn:E.
    - destruct (LV i eq_refl) as (w & Hw). destruct p; cbn in E; try discriminate; injection E as ->; cbn -[goes ends see put_lock]; unfold unref, write; rewrite ?Hw; cbn -[goes ends see put_lock];
        try (do 5 (destruct k as [|k]; [eauto; fail|]); eauto; fail); try (destruct (p_ref w - 1 =? 0); cbn; eauto; fail); eauto.
      + destruct e; [|destruct st; [destruct (s_glob s) as [(?, ?)|]|]]; cbn; eauto.
      + destruct (p_recv w); cbn; eauto. rewrite ?Hw. cbn. destruct (p_ref w - 1 =? 0); cbn; eauto.
      + destruct (p_recv w); cbn; eauto. rewrite ?Hw. cbn. destruct (p_ref w - 1 =? 0); cbn; eauto.
    - destruct p; cbn in E; try discriminate. cbn. destruct (nth_error (s_list s) k); eauto. }
  destruct ex as (s' & A). exists s'. split; auto. pose proof (adv_refs _ _ _ _ _ R P A) as R'.
  destruct p; cbn -[write unref goes ends see put_lock] in A.
  - do 5 (destruct k as [|k]; [mon; injection A as <-; sg|]). mon. injection A as <-. se.
  - mon. injection A as <-. sg.
  - mon. injection A as <-. se.
  - mon. injection A as <-. sg.
  - mon. injection A as <-. se.
  - mon. injection A as <-. se.
  - mon. injection A as <-. sg.
  - mon. injection A as <-. sg.
  - mon. injection A as <-. sg.
  - destruct e; [|destruct st; [destruct (s_glob s) as [(?, ?)|]|]]; mon; injection A as <-; sg.
  - mon. injection A as <-. se.
  - mon. injection A as <-. sg.
  - mon. injection A as <-. sg.
  - mon. injection A as <-. se.
  - mon. destruct (p_recv w); mon; injection A as <-; [sg|se].
  - mon. destruct (p_recv w); mon; injection A as <-; [sg|se].
  - mon. injection A as <-. sg.
  - mon. injection A as <-. se.
  - mon. injection A as <-. se.
  - mon. injection A as <-. se.
  - mon. injection A as <-. se.
  - destruct (nth_error (s_list s) k) eqn:N; injection A as <-; [|se].
    sg. intros B. split; auto. cbn in OP. destruct Sf as (_ & _ & _ & L). rewrite <- L. apply nth_error_In in N. auto.
  - mon. injection A as <-. sg.
Qed.

Lemma okph_more : forall b tab tab' lock t p, okph b tab lock t p -> (forall i, In i (map snd tab) -> In i (map snd tab')) -> okph b tab' lock t p.
Proof. intros b tab tab' lock t p H K. destruct p; cbn in *; intuition. Qed.
Lemma safe_new : forall b s t q s', safe b s -> phase_of s t = None -> refs s' ->
  s_tab s' = s_tab s -> s_list s' = s_list s -> s_thr s' = (t, q) :: others (s_thr s) t ->
  (s_lock s' = s_lock s \/ (s_lock s = None /\ s_lock s' = Some t /\ locked q = true)) ->
  okph b (s_tab s) (s_lock s') t q -> safe b s'.
Proof.
  intros b s t q s' (R & O & W & L) P R' T S0 H K Q. split; [auto|]. split; [|split].
  - rewrite H, T. intros u x [[= <- <-]|X]; auto. apply others_in in X. destruct X as (X & D). specialize (O _ _ X).
    destruct K as [->|(K & _ & _)]; auto. destruct x; cbn in *; auto; exfalso; try (destruct O as (O & _)); congruence.
  - intros u U. rewrite H. destruct K as [K|(K & K' & E)].
    + rewrite K in U. destruct (W u U) as (x & X & LX). exists x. split; auto. right. apply others_in. split; auto. cbn. intros ->.
      apply phase_none in P. apply P. apply in_map_iff. exists (t, x). auto.
    + rewrite K' in U. injection U as <-. exists q. split; auto. left. auto.
  - rewrite S0, T. auto.
Qed.
Ltac sn := eapply safe_new; [eassumption|eassumption|eassumption|reflexivity|reflexivity|reflexivity|cbn; auto|cbn; auto].
Lemma safe_enlist : forall b s u p o, safe b s -> lookup s u = None -> p_ref p = 1 -> safe b (see (enlist s u p) o).
Proof.
  intros b s u p o (R & O & W & L) K E. split; [apply refs_see; apply enlist_refs; auto|]. split; [|split].
  - intros t x X. cbn in X. eapply okph_more; [apply O; auto|]. cbn. intros i I. rewrite map_app. apply in_or_app. auto.
  - exact W.
  - cbn. rewrite map_app, L; auto.
Qed.
Lemma safe_see : forall b s o, safe b s -> safe b (see s o).
Proof. intros. eapply safe_same; eauto. Qed.
Lemma get_and_ref_live : forall b s u, safe b s -> exists r s', get_and_ref s u = Ok (r, s').
Proof.
  intros b s u (R & _). unfold get_and_ref. destruct (lookup s u) as [i|] eqn:L; [|eauto]. apply lookup_in in L.
  destruct (tab_live s i R) as (w & Hw); [apply in_map_iff; exists (u, i); auto|]. unfold write. rewrite (nth_deref _ _ _ Hw). cbn. eauto.
Qed.
Lemma lookup_snd : forall s u i, lookup s u = Some i -> In i (map snd (s_tab s)).
Proof. intros s u i H. apply lookup_in in H. apply in_map_iff. exists (u, i). auto. Qed.

Lemma remove_notin : forall l i, ~ In i l -> remove_ptr l i = l.
Proof. induction l as [|x l IH]; intros i N; cbn; auto. destruct (Nat.eqb_spec x i); [exfalso; apply N; left; auto|]. rewrite IH; auto. intros K. apply N. right. auto. Qed.
Lemma remove_snd : forall tab u i, NoDup (map fst tab) -> NoDup (map snd tab) -> In (u, i) tab -> remove_ptr (map snd tab) i = map snd (without tab u).
Proof.
  induction tab as [|(v, j) tab IH]; intros u i N M K; [contradiction|]. cbn in *. inversion N as [|? ? N1 N2]; inversion M as [|? ? M1 M2]; subst.
  fold (without tab u). destruct K as [[= -> ->]|K].
  - rewrite Z.eqb_refl, Nat.eqb_refl. cbn. fold (without tab u). rewrite without_none; auto.
  - assert (J : j <> i) by (intros ->; apply M1; apply in_map_iff; exists (u, i); auto). assert (V : v <> u) by (intros ->; apply N1; apply in_map_iff; exists (u, i); auto).
    destruct (Nat.eqb_spec j i); [congruence|]. destruct (Z.eqb_spec v u); [congruence|]. cbn. f_equal. apply IH; auto.
Qed.
Lemma begin_safe : forall b s t c, safe b s -> phase_of s t = None -> allowed b s (ECall t c) -> exists s', begin s t c = Ok s' /\ safe b s'.
Proof.
  intros b s t c Sf P A. pose proof (proj1 Sf) as R.
  assert (ex : exists s', begin s t c = Ok s').
  { destruct c; cbn -[goes see enlist get_and_ref put_lock]; try (destruct (free_lock s); [|eauto]);
      try (match goal with |- context [get_and_ref s ?u] => destruct (get_and_ref_live b s u Sf) as (o & s1 & ->); cbn; destruct o; eauto end);
      try (destruct (lookup s u) as [i|] eqn:L; eauto; fail); eauto.
    destruct (lookup s u) as [i|] eqn:L; eauto. destruct (tab_live s i R (lookup_snd _ _ _ L)) as (w & Hw). rewrite (nth_deref _ _ _ Hw). cbn. eauto. }
  destruct ex as (s' & B). exists s'. split; auto. pose proof (begin_refs _ _ _ _ R P B) as R'.
  destruct c; cbn -[goes see enlist get_and_ref put_lock] in B;
    try (destruct (free_lock s) eqn:FL; [|congruence]);
    try (match type of B with (let! _ := get_and_ref s ?u in _) = _ =>
           destruct (get_and_ref s u) as [(o, s1)|] eqn:G; [|discriminate]; cbn -[goes see] in B;
           destruct (get_and_ref_is s u o s1 R G) as [(-> & _ & ->)|(i & w & -> & _ & D & _ & ->)]; injection B as <-;
           [apply safe_see; auto|sn] end);
    try (assert (LN : s_lock s = None) by (unfold free_lock in FL; destruct (s_lock s); congruence)).
  - destruct (lookup s u) as [i|] eqn:L; injection B as <-; [|apply safe_enlist; auto].
    sn. destruct b; [split; auto; eapply lookup_snd; eauto|]. exfalso. apply A. apply lookup_in in L. apply in_map_iff. exists (u, i). auto.
  - destruct (lookup s u) as [i|] eqn:L; injection B as <-; [|apply safe_enlist; auto].
    sn. split; auto. eapply lookup_snd; eauto.
  - destruct (lookup s u) as [i|] eqn:L; injection B as <-; [|apply safe_see; auto].
    sn. split; auto. eapply lookup_snd; eauto.
  - destruct b; [destruct A|]. destruct (lookup s u) as [i|] eqn:L; [|injection B as <-; apply safe_see; auto].
    mon. injection B as <-. destruct Sf as (_ & O & W & LS). split; [auto|]. split; [|split].
    + cbn. fold (others (s_thr s) t). intros v x [[= <- <-]|X]; [reflexivity|]. apply others_in in X. destruct X as (X & _). specialize (O _ _ X). rewrite LN in O.
      destruct x; cbn in *; auto; exfalso; try (destruct O as (O & _)); congruence.
    + intros v V. cbn in V. injection V as <-. exists (UDrop i). split; [left; auto|auto].
    + cbn. rewrite LS. apply remove_snd; [apply R|apply R|apply lookup_in; auto].
  - injection B as <-. apply safe_see; auto.
  - destruct (lookup s u) as [i|] eqn:L; injection B as <-; [|apply safe_see; auto].
    sn. destruct b; [split; auto; eapply lookup_snd; eauto|destruct A].
  - destruct (lookup s u) as [i|] eqn:L; injection B as <-; [|apply safe_see; auto].
    sn. destruct b; [split; auto; eapply lookup_snd; eauto|destruct A].
  - injection B as <-. sn.
Qed.
Lemma step_safe : forall b s e, safe b s -> allowed b s e -> exists s', pstep s e = Ok s' /\ safe b s'.
Proof.
  intros b s e Sf A. destruct e as [t c|t r|g]; cbn.
  - destruct (phase_of s t) eqn:P; eauto. apply begin_safe; auto.
  - destruct (phase_of s t) eqn:P; eauto. apply adv_safe; auto.
  - eexists. split; [reflexivity|]. eapply safe_same; eauto.
Qed.
Lemma safe0 : forall b, safe b pst0.
Proof. intros b. split; [apply refs0|]. split; [intros t p []|]. split; [intros t H; discriminate|auto]. Qed.

Lemma run_safe_all : forall es s, safe true s -> no_unregister es -> exists s', prun s es = Ok s' /\ safe true s'.
Proof.
  induction es as [|e es IH]; intros s Sf N; cbn; [eauto|]. destruct (step_safe true s e Sf) as (s1 & -> & S1').
  - destruct e as [t c|t r|g]; cbn; auto. destruct c; auto. apply (N t u). left. auto.
  - cbn. apply IH; auto. intros t u H. apply (N t u). right. auto.
Qed.
Lemma run_safe_guarded : forall es s, safe false s -> guarded s es -> exists s', prun s es = Ok s' /\ safe false s'.
Proof.
  induction es as [|e es IH]; intros s Sf AG; cbn; [eauto|]. destruct AG as (A & G). destruct (step_safe false s e Sf A) as (s1 & E & S1').
  rewrite E in *. cbn. apply IH; auto.
Qed.
(** The general case: without undefined behaviour the lock has an owner. *)
Lemma step_owned : forall s e s', refs s -> owned s -> (forall t p, In (t, p) (s_thr s) -> locked p = true -> s_lock s = Some t) -> pstep s e = Ok s' ->
  owned s' /\ (forall t p, In (t, p) (s_thr s') -> locked p = true -> s_lock s' = Some t).
Proof.
  intros s e s' R W O H. destruct e as [t c|t r|g]; cbn in H; [| |injection H as <-; auto].
  - destruct (phase_of s t) eqn:P; [injection H as <-; auto|].
    assert (go : forall q x, s_thr x = (t, q) :: others (s_thr s) t ->
      (s_lock x = s_lock s /\ locked q = false \/ (s_lock s = None /\ s_lock x = Some t /\ locked q = true)) ->
      owned x /\ (forall t p, In (t, p) (s_thr x) -> locked p = true -> s_lock x = Some t)).
    { intros q x Hx K. split.
      - intros v V. rewrite Hx. destruct K as [(K & _)|(_ & K & E)]; rewrite K in V.
        + destruct (W v V) as (y & Y & E). exists y. split; auto. right. apply others_in. split; auto. cbn. intros ->.
          apply phase_none in P. apply P. apply in_map_iff. exists (t, y). auto.
        + injection V as <-. exists q. split; auto. left. auto.
      - rewrite Hx. intros v y [[= <- <-]|Y] E.
        + destruct K as [(_ & K)|(_ & K & _)]; congruence.
        + apply others_in in Y. destruct Y as (Y & _). specialize (O _ _ Y E). destruct K as [(-> & _)|(K & _ & _)]; congruence. }
    destruct c; cbn -[goes see enlist get_and_ref put_lock] in H;
      try (match type of H with context [free_lock s] => destruct (free_lock s) eqn:FL; [|injection H as <-; auto] end);
      try (match type of H with (let! _ := get_and_ref s ?u in _) = _ =>
           destruct (get_and_ref s u) as [(o, s1)|] eqn:G; [|discriminate]; cbn -[goes see] in H;
           destruct (get_and_ref_is s u o s1 R G) as [(-> & _ & ->)|(i & w & -> & _ & D & _ & ->)]; injection H as <-;
           [split; [exact W|exact O]|eapply go; [reflexivity|left; cbn; auto]] end);
      try (assert (LN : s_lock s = None) by (unfold free_lock in FL; destruct (s_lock s); congruence));
      try (match type of H with context [lookup s ?u] => destruct (lookup s u) as [i|] eqn:L end);
      mon; injection H as <-; try (split; [exact W|exact O]); (eapply go; [reflexivity|]; cbn; auto).
  - destruct (phase_of s t) eqn:P; [|injection H as <-; auto]. pose proof (phase_in _ _ _ P) as PI.
    assert (go : forall q x, s_thr x = (t, q) :: others (s_thr s) t -> s_lock x = s_lock s -> locked q = locked p ->
      owned x /\ (forall t p, In (t, p) (s_thr x) -> locked p = true -> s_lock x = Some t)).
    { intros q x Hx K E. split.
      - intros v V. rewrite Hx. rewrite K in V. destruct (W v V) as (y & Y & EY). destruct (Z.eq_dec v t) as [->|D].
        + exists q. split; [left; auto|]. rewrite E. rewrite <- (thr_unique _ _ _ _ (proj1 R) Y PI). auto.
        + exists y. split; auto. right. apply others_in. auto.
      - rewrite Hx, K. intros v y [[= <- <-]|Y] F; [apply (O _ _ PI); congruence|]. apply others_in in Y. apply (O v y); tauto. }
    assert (en : forall x, s_thr x = others (s_thr s) t -> s_lock x = (if locked p then None else s_lock s) ->
      owned x /\ (forall t p, In (t, p) (s_thr x) -> locked p = true -> s_lock x = Some t)).
    { intros x Hx K. split.
      - intros v V. rewrite K in V. rewrite Hx. destruct (locked p) eqn:E; [discriminate|]. destruct (W v V) as (y & Y & EY). exists y. split; auto.
        apply others_in. split; auto. cbn. intros ->. rewrite (thr_unique _ _ _ _ (proj1 R) Y PI) in EY. congruence.
      - rewrite Hx, K. intros v y Y F. apply others_in in Y. destruct Y as (Y & D). cbn in D. pose proof (O _ _ Y F) as OY.
        destruct (locked p) eqn:E; auto. pose proof (O _ _ PI E). congruence. }
    destruct p; cbn -[write unref goes ends see put_lock] in H;
      try (destruct (nth_error (s_list s) k)); try (destruct e; [|destruct st; [destruct (s_glob s) as [(?, ?)|]|]]);
      try (do 5 (destruct k as [|k]; [mon; injection H as <-; eapply go; reflexivity|]));
      mon; try (destruct (p_recv w)); mon; injection H as <-; (eapply go; reflexivity) || (eapply en; reflexivity).
Qed.
Definition locking (s : pst) : Prop := refs s /\ owned s /\ (forall t p, In (t, p) (s_thr s) -> locked p = true -> s_lock s = Some t).
Lemma run_locking : forall es s s', locking s -> prun s es = Ok s' -> locking s'.
Proof.
  induction es as [|e es IH]; intros s s' (R & W & O) H; cbn in H; [injection H as <-; repeat split; auto; apply R|].
  destruct (pstep s e) as [s1|] eqn:E; [|discriminate]. cbn in H. apply (IH s1 s'); auto. split; [eapply step_refs; eauto|]. eapply step_owned; eauto.
Qed.
Lemma locking0 : locking pst0.
Proof. split; [apply refs0|]. split; [intros t H; discriminate|intros t p []]. Qed.

(** C199 *)
Lemma no_unregister_safe : forall es, no_unregister es -> prun pst0 es <> UB.
Proof. intros es H. destruct (run_safe_all es pst0 (safe0 true) H) as (s & -> & _). discriminate. Qed.
Lemma guarded_safe : forall es, guarded pst0 es -> prun pst0 es <> UB.
Proof. intros es H. destruct (run_safe_guarded es pst0 (safe0 false) H) as (s & -> & _). discriminate. Qed.
(** C200 *)
Lemma released : forall es s, prun pst0 es = Ok s -> s_thr s = [] ->
  s_lock s = None /\ forall i p, nth_error (s_heap s) i = Some (Some p) -> In i (map snd (s_tab s)) /\ p_ref p = 1.
Proof.
  intros es s H T. destruct (run_locking _ _ _ locking0 H) as ((_ & _ & N & K) & W & _). split.
  - destruct (s_lock s) as [t|] eqn:E; auto. destruct (W t E) as (p & P & _). rewrite T in P. contradiction.
  - intros i p P. specialize (K i). rewrite P in K. unfold count in K. rewrite T in K. cbn in K. pose proof (tabc_one _ i N).
    destruct (in_dec Nat.eq_dec i (map snd (s_tab s))) as [I|I]; [split; auto; lia|]. rewrite tabc_notin in K by auto. lia.
Qed.
