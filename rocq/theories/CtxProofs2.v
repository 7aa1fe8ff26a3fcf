(** One thread ends the execution; references and memory. *)
From Verif Require Import Base HdrModel HdrProofs CtxModel CtxSpec CtxProofs.

Arguments times : simpl never.

(** * Only one thread stops the modules *)
Definition post (p : pc) : bool := match p with PStop _ | PLast _ | PDestroy _ | PClean _ | PCall _ _ _ | PEnd _ => true | _ => false end.
Definition inside (p : pc) : bool := match p with PInside _ | PSet _ => true | _ => false end.
Definition is_pset (p : pc) : bool := match p with PSet _ => true | _ => false end.
Definition is_pstop (p : pc) : bool := match p with PStop _ => true | _ => false end.
Definition at_ (s : xst) (t : nat) (b : pc -> bool) : Prop := exists x, nth_error (x_thr s) t = Some x /\ b (t_pc x) = true.

Record one_stop (s : xst) : Prop := mkOS {
  os_in : forall t, at_ s t inside -> x_emx s = MHeld t;
  os_set : forall t, at_ s t is_pset -> x_exit s = false;
  os_no : x_exit s = false -> times is_stop (x_log s) = 0%nat /\ forall t, ~ at_ s t post;
  os_post : forall t u, at_ s t post -> at_ s u post -> t = u;
  os_stop : forall t, at_ s t is_pstop -> times is_stop (x_log s) = 0%nat;
  os_one : (times is_stop (x_log s) <= 1)%nat
}.

Lemma at_thr : forall s t x y u b, nth_error (x_thr s) t = Some x -> at_ (thr s t y) u b -> (u = t /\ b (t_pc y) = true) \/ (u <> t /\ at_ s u b).
Proof. intros s t x y u b N (z & H & B). unfold thr in H. cbn in H. apply nth_upd_inv in H. destruct H as [[-> ->]|[D H]]; [auto|]. right. split; [exact D|]. exists z. auto. Qed.
Lemma at_pc : forall s t x b, nth_error (x_thr s) t = Some x -> b (t_pc x) = true -> at_ s t b.
Proof. intros. exists x. auto. Qed.
Lemma at_pc_inv : forall s t x b, nth_error (x_thr s) t = Some x -> at_ s t b -> b (t_pc x) = true.
Proof. intros s t x b N (y & N' & B). congruence. Qed.
Lemma times_app : forall b l o, times b (l ++ [o]) = (times b l + if b o then 1 else 0)%nat.
Proof. intros. unfold times. rewrite filter_app, app_length. cbn. destruct (b o); reflexivity. Qed.

(** A step that moves a thread outside the end of the execution. *)
Lemma os_move : forall s s' t x y, one_stop s -> nth_error (x_thr s) t = Some x -> x_thr s' = upd_nth (x_thr s) t y ->
  x_emx s' = x_emx s -> x_exit s' = x_exit s -> times is_stop (x_log s') = times is_stop (x_log s) ->
  (inside (t_pc y) = true -> inside (t_pc x) = true) -> (is_pset (t_pc y) = true -> x_exit s = false) ->
  (post (t_pc y) = true -> post (t_pc x) = true) -> (is_pstop (t_pc y) = true -> is_pstop (t_pc x) = true) -> one_stop s'.
Proof.
  intros s s' t x y I N T E X L A B C D.
  assert (Z : forall u b, at_ s' u b -> (u = t /\ b (t_pc y) = true) \/ (u <> t /\ at_ s u b)).
  { intros u b (z & H & K). rewrite T in H. apply nth_upd_inv in H. destruct H as [[-> ->]|[V H]]; [auto|]. right. split; [exact V|]. exists z. auto. }
  destruct I as [I1 I2 I3 I4 I5 I6]. split; rewrite ?E, ?X, ?L.
  - intros u H. apply Z in H. destruct H as [[-> H]|[V H]]; [apply I1; eapply at_pc; eauto|apply I1; exact H].
  - intros u H. apply Z in H. destruct H as [[-> H]|[V H]]; [auto|eapply I2; eauto].
  - intros F. destruct (I3 F) as [I3a I3b]. split; [exact I3a|]. intros u H. apply Z in H. destruct H as [[-> H]|[V H]]; [eapply I3b; eapply at_pc; eauto|eapply I3b; eauto].
  - intros u v H K. assert (forall w, at_ s' w post -> at_ s w post) as W.
    { intros w J. apply Z in J. destruct J as [[-> J]|[_ J]]; [eapply at_pc; eauto|exact J]. }
    apply I4; apply W; assumption.
  - intros u H. apply Z in H. destruct H as [[-> H]|[V H]]; [eapply I5; eapply at_pc; eauto|eapply I5; eauto].
  - exact I6.
Qed.
Lemma os_log : forall s s', one_stop s -> x_thr s' = x_thr s -> x_emx s' = x_emx s -> x_exit s' = x_exit s -> times is_stop (x_log s') = times is_stop (x_log s) -> one_stop s'.
Proof.
  intros s s' I T E X L. assert (Z : forall u b, at_ s' u b -> at_ s u b) by (intros u b (z & H & K); exists z; rewrite <- T; auto).
  destruct I as [I1 I2 I3 I4 I5 I6]. split; rewrite ?E, ?X, ?L; eauto.
  intros F. destruct (I3 F) as [a b]. split; [exact a|]. intros t H. apply (b t). auto.
Qed.

Lemma one_stop_tr : forall own seq s s', one_stop s -> tr own seq s s' -> one_stop s'.
Proof.
  intros own seq s s' I T. destruct T as [t x N O M P|t x N O M P R|t x N O M P R|t x N O M P|t x r N O Q M P X|f M|f M|t x r N M P E|t x r N M P X|t x r N M P X|t x r N M P|t x r N M P|t x r N M P E|t x r N M P E|t x r N M P C|t x r i l f N M P C L|t x r i l N M P C L|t x N M P|t x last N M P Z|t x last N M P Z|t x last N M P L|t x u y N N' D O P P'|t x N O P].
  - eapply (os_move _ _ t x); [eassumption|eassumption|reflexivity|..]; cbn; auto. destruct P as [-> | (r & i & f & ->)]; discriminate.
  - eapply (os_move _ _ t x); [eassumption|eassumption|reflexivity|..]; cbn; rewrite ?P; auto. discriminate.
  - eapply (os_move _ _ t x); [eassumption|eassumption|reflexivity|..]; cbn; rewrite ?P; auto; discriminate.
  - eapply (os_move _ _ t x); [eassumption|eassumption|reflexivity|..]; cbn; rewrite ?P; auto; discriminate.
  - eapply (os_move _ _ t x); [eassumption|eassumption|reflexivity|..]; cbn; rewrite ?P; auto; discriminate.
  - apply (os_log s); auto. cbn. rewrite times_app. cbn. lia.
  - unfold remove. destruct (x_clean s); (apply (os_log s); auto; cbn; rewrite times_app; cbn; lia).
  - (* gate *) assert (Nin : forall u, ~ at_ s u inside) by (intros u H; apply (os_in _ I) in H; congruence). destruct I as [I1 I2 I3 I4 I5 I6].
    split; cbn [x_emx x_exit x_log thr put_emx put_thr]; auto.
    + intros u H. apply (at_thr (put_emx s (MHeld t)) t x) in H; [|exact N]. destruct H as [[-> H]|[V H]]; [reflexivity|]. destruct (Nin u). exact H.
    + intros u H. apply (at_thr (put_emx s (MHeld t)) t x) in H; [|exact N]. destruct H as [[-> H]|[V H]]; [discriminate|]. eapply I2; eauto.
    + intros F. destruct (I3 F) as [a b]. split; [exact a|]. intros u H. apply (at_thr (put_emx s (MHeld t)) t x) in H; [|exact N]. destruct H as [[-> H]|[V H]]; [discriminate|]. eapply b; eauto.
    + intros u v H K. apply (at_thr (put_emx s (MHeld t)) t x) in H; [|exact N]. apply (at_thr (put_emx s (MHeld t)) t x) in K; [|exact N].
      destruct H as [[-> H]|[V H]]; [discriminate|]. destruct K as [[-> K]|[V' K]]; [discriminate|]. apply I4; assumption.
    + intros u H. apply (at_thr (put_emx s (MHeld t)) t x) in H; [|exact N]. destruct H as [[-> H]|[V H]]; [discriminate|]. eapply I5; eauto.
  - (* leave *) assert (Nin : forall u, at_ s u inside -> u = t). { intros u H. apply (os_in _ I) in H. rewrite (os_in _ I t) in H by (eapply at_pc; eauto; rewrite P; reflexivity). congruence. }
    destruct I as [I1 I2 I3 I4 I5 I6]. split; cbn [x_emx x_exit x_log thr put_emx put_thr]; auto.
    + intros u H. apply (at_thr (put_emx s MFree) t x) in H; [|exact N]. destruct H as [[-> H]|[V H]]; [discriminate|]. destruct (V (Nin u H)).
    + intros u H. apply (at_thr (put_emx s MFree) t x) in H; [|exact N]. destruct H as [[-> H]|[V H]]; [discriminate|]. eapply I2; eauto.
    + intros F. congruence.
    + intros u v H K. apply (at_thr (put_emx s MFree) t x) in H; [|exact N]. apply (at_thr (put_emx s MFree) t x) in K; [|exact N].
      destruct H as [[-> H]|[V H]]; [discriminate|]. destruct K as [[-> K]|[V' K]]; [discriminate|]. apply I4; assumption.
    + intros u H. apply (at_thr (put_emx s MFree) t x) in H; [|exact N]. destruct H as [[-> H]|[V H]]; [discriminate|]. eapply I5; eauto.
  - eapply (os_move _ _ t x); [eassumption|eassumption|reflexivity|..]; cbn; rewrite ?P; auto; discriminate.
  - (* set *) assert (F : x_exit s = false) by (eapply (os_set _ I t); eapply at_pc; eauto; rewrite P; reflexivity).
    assert (Nin : forall u, at_ s u inside -> u = t). { intros u H. apply (os_in _ I) in H. rewrite (os_in _ I t) in H by (eapply at_pc; eauto; rewrite P; reflexivity). congruence. }
    destruct (os_no _ I F) as [a b]. destruct I as [I1 I2 I3 I4 I5 I6]. split; cbn [x_emx x_exit x_log thr put_emx put_exit put_thr]; auto.
    + intros u H. apply (at_thr (put_emx (put_exit s true) MFree) t x) in H; [|exact N]. destruct H as [[-> H]|[V H]]; [discriminate|]. destruct (V (Nin u H)).
    + intros u H. apply (at_thr (put_emx (put_exit s true) MFree) t x) in H; [|exact N]. destruct H as [[-> H]|[V H]]; [discriminate|]. destruct H as (z & H & K). destruct V. apply Nin. exists z. split; [exact H|]. destruct (t_pc z); try discriminate K; reflexivity.
    + discriminate.
    + intros u v H K. apply (at_thr (put_emx (put_exit s true) MFree) t x) in H; [|exact N]. apply (at_thr (put_emx (put_exit s true) MFree) t x) in K; [|exact N].
      destruct H as [[-> H]|[V H]]; [|destruct (b u H)]. destruct K as [[-> K]|[V' K]]; [reflexivity|destruct (b v K)].
  - (* stop *) assert (Z : times is_stop (x_log s) = 0%nat) by (eapply (os_stop _ I t); eapply at_pc; eauto; rewrite P; reflexivity).
    assert (Np : forall u, at_ s u post -> u = t) by (intros u H; eapply (os_post _ I); eauto; eapply at_pc; eauto; rewrite P; reflexivity).
    assert (F : x_exit s = true). { destruct (x_exit s) eqn:F; [reflexivity|]. destruct (os_no _ I F) as [_ b]. destruct (b t). eapply at_pc; eauto. rewrite P. reflexivity. }
    destruct I as [I1 I2 I3 I4 I5 I6]. split; cbn [x_emx x_exit x_log thr see put_thr].
    + intros u H. apply (at_thr s t x) in H; [|exact N]. destruct H as [[-> H]|[V H]]; [discriminate|]. apply I1; exact H.
    + intros u H. apply (at_thr s t x) in H; [|exact N]. destruct H as [[-> H]|[V H]]; [discriminate|]. eapply I2; eauto.
    + congruence.
    + intros u v H K. apply (at_thr s t x) in H; [|exact N]. apply (at_thr s t x) in K; [|exact N].
      destruct H as [[-> H]|[V H]]; [|destruct (V (Np u H))]. destruct K as [[-> K]|[V' K]]; [reflexivity|destruct (V' (Np v K))].
    + intros u H. apply (at_thr s t x) in H; [|exact N]. destruct H as [[-> H]|[V H]]; [discriminate|]. destruct V. apply Np. destruct H as (z & H & K). exists z. split; [exact H|]. destruct (t_pc z); try discriminate K; reflexivity.
    + rewrite times_app. cbn. lia.
  - eapply (os_move _ _ t x); [eassumption|eassumption|reflexivity|..]; cbn; rewrite ?P; auto; discriminate.
  - (* destroy *) destruct I as [I1 I2 I3 I4 I5 I6]. split; cbn [x_emx x_exit x_log thr put_emx put_thr]; auto.
    + intros u H. apply (at_thr (put_emx s MGone) t x) in H; [|exact N]. destruct H as [[-> H]|[V H]]; [discriminate|]. specialize (I1 u H). congruence.
    + intros u H. apply (at_thr (put_emx s MGone) t x) in H; [|exact N]. destruct H as [[-> H]|[V H]]; [discriminate|]. eapply I2; eauto.
    + intros F. destruct (I3 F) as [a b]. destruct (b t). eapply at_pc; eauto. rewrite P. reflexivity.
    + assert (W : at_ s t post) by (eapply at_pc; eauto; rewrite P; reflexivity). intros u v H K. apply (at_thr (put_emx s MGone) t x) in H; [|exact N]. apply (at_thr (put_emx s MGone) t x) in K; [|exact N].
      destruct H as [[-> H]|[V H]], K as [[-> K]|[V' K]]; auto; apply I4; assumption.
    + intros u H. apply (at_thr (put_emx s MGone) t x) in H; [|exact N]. destruct H as [[-> H]|[V H]]; [discriminate|]. eapply I5; eauto.
  - eapply (os_move _ _ t x); [eassumption|eassumption|reflexivity|..]; cbn; rewrite ?P, ?times_app; auto; discriminate.
  - eapply (os_move _ _ t x); [eassumption|eassumption|reflexivity|..]; cbn; rewrite ?times_app; cbn; auto; try discriminate. destruct P as [[-> _]|(j & g & -> & _)]; reflexivity.
  - eapply (os_move _ _ t x); [eassumption|eassumption|reflexivity|..]; cbn; rewrite ?times_app; cbn; auto; try discriminate. destruct P as [[-> _]|(j & g & -> & _)]; reflexivity.
  - eapply (os_move _ _ t x); [eassumption|eassumption|reflexivity|..]; cbn; rewrite ?P; auto; discriminate.
  - eapply (os_move _ _ t x); [eassumption|eassumption|reflexivity|..]; cbn; auto; discriminate.
  - eapply (os_move _ _ t x); [eassumption|eassumption|reflexivity|..]; cbn; auto; discriminate.
  - eapply (os_move _ _ t x); [eassumption|eassumption|reflexivity|..]; cbn; rewrite ?times_app; cbn; auto; discriminate.
  - assert (A : one_stop (thr s t (set_own (t_own x - 1) x))) by (eapply (os_move _ _ t x); [eassumption|eassumption|reflexivity|..]; cbn; rewrite ?P; auto; discriminate).
    assert (N2 : nth_error (x_thr (thr s t (set_own (t_own x - 1) x))) u = Some y) by (rewrite thr_other; auto).
    eapply (os_move _ _ u y); [eassumption|eassumption|reflexivity|..]; cbn; auto; discriminate.
  - eapply (os_move _ _ t x); [eassumption|eassumption|reflexivity|..]; cbn; rewrite ?P; auto; discriminate.
Qed.
Lemma x0_idle : forall lmx n t x, nth_error (x_thr (x0 lmx n)) t = Some x -> t_pc x = PIdle /\ (t = 0%nat /\ t_own x = 1 \/ t_own x = 0) /\ t_ptr x = true.
Proof. intros lmx n t x H. destruct t; cbn in H; [injection H as <-; auto|]. apply nth_error_In in H. apply repeat_spec in H. subst. auto. Qed.
Lemma one_stop_x0 : forall lmx n, one_stop (x0 lmx n).
Proof.
  intros lmx n. assert (Z : forall t b, at_ (x0 lmx n) t b -> b PIdle = true) by (intros t b (x & H & K); apply x0_idle in H; destruct H as [H _]; rewrite H in K; exact K).
  split; cbn; auto; try (intros; match goal with H : at_ _ _ _ |- _ => apply Z in H; discriminate end).
  intros _. split; [reflexivity|]. intros t H. apply Z in H. discriminate.
Qed.
Theorem stops_once : forall lmx n es s, xrun (x0 lmx n) es = Ok s -> (times is_stop (x_log s) <= 1)%nat.
Proof.
  intros lmx n es s R. apply os_one. apply (kept_by one_stop false false (one_stop_tr false false) es (x0 lmx n) s); auto; try discriminate. apply one_stop_x0.
Qed.
