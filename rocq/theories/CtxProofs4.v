(** No undefined behaviour when the calls to end are not simultaneous. *)
From Verif Require Import Base HdrModel HdrProofs CtxModel CtxSpec CtxProofs CtxProofs2 CtxProofs3.

Definition zone (p : pc) : bool := entering p || post p.
Definition is_gate (p : pc) : bool := match p with PGate _ => true | _ => false end.
Definition pre (p : pc) : bool := match p with PStop _ | PLast _ | PDestroy _ => true | _ => false end.
Definition is_call (p : pc) : bool := match p with PCall _ _ _ => true | _ => false end.

Record fits (s : xst) (t : nat) (p : pc) : Prop := mkFits {
  f_ent : entering p = true -> x_exit s = false;
  f_gate : is_gate p = true -> x_emx s = MFree;
  f_in : inside p = true -> x_emx s = MHeld t;
  f_pre : pre p = true -> x_emx s = MFree;
  f_post : post p = true -> x_exit s = true;
  f_call : is_call p = true -> x_clean s <> None
}.
Record zon (s : xst) : Prop := mkZon {
  z_one : forall t u, at_ s t zone -> at_ s u zone -> t = u;
  z_fits : forall t x, nth_error (x_thr s) t = Some x -> zone (t_pc x) = true -> fits s t (t_pc x);
  z_none : x_exit s = false -> (forall t, ~ at_ s t inside) -> x_emx s = MFree
}.
Lemma out_fits : forall s t p, zone p = false -> fits s t p.
Proof. intros s t p H. split; intros K; destruct p; discriminate. Qed.

(** The thread in the zone moves, or one enters when there is none. *)
Lemma zon_in : forall s s' t x y, zon s -> nth_error (x_thr s) t = Some x -> (forall u, u <> t -> ~ at_ s u zone) -> x_thr s' = upd_nth (x_thr s) t y ->
  fits s' t (t_pc y) -> (x_exit s' = false -> inside (t_pc y) = false -> x_emx s' = MFree) -> zon s'.
Proof.
  intros s s' t x y I N U T F Z. assert (W : forall u, at_ s' u zone -> u = t).
  { intros u H. apply (at_upd s _ t y) in H; [|exact T]. destruct H as [[-> _]|[V H]]; [reflexivity|]. destruct (U u V H). }
  split.
  - intros u v H K. rewrite (W u H), (W v K). reflexivity.
  - intros u z H K. assert (u = t) as -> by (apply W; exists z; auto). rewrite T in H. apply nth_upd_inv in H. destruct H as [[_ ->]|[V H]]; [exact F|congruence].
  - intros X H. apply Z; [exact X|]. destruct (inside (t_pc y)) eqn:E; [|reflexivity]. destruct (H t). exists y. split; [|exact E]. rewrite T. apply nth_upd_same. eapply nth_lt; eauto.
Qed.
Lemma zon_out : forall s s' t x y, zon s -> nth_error (x_thr s) t = Some x -> zone (t_pc x) = false -> zone (t_pc y) = false -> x_thr s' = upd_nth (x_thr s) t y ->
  x_emx s' = x_emx s -> x_exit s' = x_exit s -> x_clean s' = x_clean s -> zon s'.
Proof.
  intros s s' t x y I N A B T E X C. assert (IZ : forall p, inside p = true -> zone p = true) by (intros [] ?; try discriminate; reflexivity). destruct I as [I1 I2 I3]. split.
  - intros u v H K. apply (at_upd s _ t y) in H; [|exact T]. apply (at_upd s _ t y) in K; [|exact T]. destruct H as [[-> H]|[V H]]; [congruence|]. destruct K as [[-> K]|[V' K]]; [congruence|]. auto.
  - intros u z H K. rewrite T in H. apply nth_upd_inv in H. destruct H as [[-> ->]|[V H]]; [congruence|]. destruct (I2 u z H K) as [F1 F2 F3 F4 F5 F6]. split; rewrite ?E, ?X, ?C; auto.
  - intros F H. rewrite X in F. rewrite E. apply I3; [exact F|]. intros u K. apply (H u). apply (at_keep s _ t y); auto. intros ->. apply (at_pc_inv _ _ x) in K; [|exact N]. apply IZ in K. congruence.
Qed.
Lemma zon_list : forall s s', zon s -> x_thr s' = x_thr s -> x_emx s' = x_emx s -> x_exit s' = x_exit s -> (x_clean s <> None -> x_clean s' <> None) -> zon s'.
Proof.
  intros s s' [I1 I2 I3] T E X C. assert (A : forall u b, at_ s' u b <-> at_ s u b) by (intros; unfold at_; rewrite T; tauto). split.
  - intros u v H K. apply I1; apply A; assumption.
  - intros u z H K. rewrite T in H. destruct (I2 u z H K) as [F1 F2 F3 F4 F5 F6]. split; rewrite ?E, ?X; auto.
  - rewrite X, E. intros F H. apply I3; [exact F|]. intros t K. apply (H t). apply A. exact K.
Qed.
Lemma zon_tr : forall own s s', zon s -> tr own true s s' -> zon s'.
Proof.
  intros own s s' I T.
  assert (G : forall t x, nth_error (x_thr s) t = Some x -> zone (t_pc x) = true -> (forall u, u <> t -> ~ at_ s u zone) /\ fits s t (t_pc x)).
  { intros t x N Z. split; [|apply (z_fits _ I); assumption]. intros u V H. apply V. apply (z_one _ I); [exact H|]. exists x. auto. }
  destruct T as [t x N O M P|t x N O M P R|t x N O M P R|t x N O M P|t x r N O Q M P X|f M|f M|t x r N M P E|t x r N M P X|t x r N M P X|t x r N M P|t x r N M P|t x r N M P E|t x r N M P E|t x r N M P C|t x r i l f N M P C L|t x r i l N M P C L|t x N M P|t x last N M P Z|t x last N M P Z|t x last N M P L|t x u y N N' D O P P'|t x N O P].
  - destruct P as [P|(r & i & f & P)].
    + eapply (zon_out s _ t x); [exact I|exact N| | |reflexivity|..]; cbn; rewrite ?P; reflexivity.
    + destruct (G t x N) as [U F]; [rewrite P; reflexivity|]. eapply (zon_in s _ t x); [exact I|exact N|exact U|reflexivity|..].
      * destruct F as [F1 F2 F3 F4 F5 F6]. split; cbn; auto.
      * cbn. intros X. rewrite P. destruct F as [_ _ _ _ F5 _]. rewrite F5 in X by (rewrite P; reflexivity). discriminate.
  - eapply (zon_out s _ t x); [exact I|exact N| | |reflexivity|..]; cbn; rewrite ?P; reflexivity.
  - eapply (zon_out s _ t x); [exact I|exact N| | |reflexivity|..]; cbn; rewrite ?P; reflexivity.
  - eapply (zon_out s _ t x); [exact I|exact N| | |reflexivity|..]; cbn; rewrite ?P; reflexivity.
  - (* exit *) specialize (Q eq_refl).
    assert (NE : forall u, ~ at_ s u zone).
    { intros u (z & H & K). specialize (Q u _ (nth_pc _ _ _ H)). unfold zone in K. rewrite Q in K. cbn in K. destruct (z_fits _ I u z H) as [_ _ _ _ F _]; [unfold zone; rewrite K; apply orb_true_r|]. rewrite F in X by exact K. discriminate. }
    assert (E : x_emx s = MFree). { apply (z_none _ I X). intros u (z & H & K). apply (NE u). exists z. split; [exact H|]. destruct (t_pc z); try discriminate K; reflexivity. }
    eapply (zon_in s _ t x); [exact I|exact N|intros u _; apply NE|reflexivity|..]; [split; cbn; auto; discriminate|]. cbn. auto.
  - apply (zon_list s); auto. cbn. discriminate.
  - unfold remove. destruct (x_clean s) eqn:C; apply (zon_list s); auto; cbn; rewrite ?C; auto; discriminate.
  - destruct (G t x N) as [U F]; [rewrite P; reflexivity|]. destruct F as [F1 F2 F3 F4 F5 F6]. rewrite P in *. eapply (zon_in s _ t x); [exact I|exact N|exact U|reflexivity|..]; [split; cbn; auto; discriminate|]. cbn. discriminate.
  - destruct (G t x N) as [U F]; [rewrite P; reflexivity|]. eapply (zon_in s _ t x); [exact I|exact N|exact U|reflexivity|..]; [split; cbn; discriminate|]. cbn. reflexivity.
  - destruct (G t x N) as [U F]; [rewrite P; reflexivity|]. destruct F as [F1 F2 F3 F4 F5 F6]. rewrite P in *. eapply (zon_in s _ t x); [exact I|exact N|exact U|reflexivity|..]; [split; cbn; auto; discriminate|]. cbn. discriminate.
  - destruct (G t x N) as [U F]; [rewrite P; reflexivity|]. eapply (zon_in s _ t x); [exact I|exact N|exact U|reflexivity|..]; [split; cbn; auto; discriminate|]. cbn. reflexivity.
  - destruct (G t x N) as [U F]; [rewrite P; reflexivity|]. destruct F as [F1 F2 F3 F4 F5 F6]. rewrite P in *. eapply (zon_in s _ t x); [exact I|exact N|exact U|reflexivity|..]; [split; cbn; auto; discriminate|]. cbn. auto.
  - destruct (G t x N) as [U F]; [rewrite P; reflexivity|]. destruct F as [F1 F2 F3 F4 F5 F6]. rewrite P in *. eapply (zon_in s _ t x); [exact I|exact N|exact U|reflexivity|..]; [split; cbn; auto; discriminate|]. cbn. auto.
  - destruct (G t x N) as [U F]; [rewrite P; reflexivity|]. destruct F as [F1 F2 F3 F4 F5 F6]. rewrite P in *. eapply (zon_in s _ t x); [exact I|exact N|exact U|reflexivity|..]; [split; cbn; auto; discriminate|]. cbn. intros X. rewrite F5 in X by reflexivity. discriminate.
  - destruct (G t x N) as [U F]; [rewrite P; reflexivity|]. destruct F as [F1 F2 F3 F4 F5 F6]. rewrite P in *. eapply (zon_in s _ t x); [exact I|exact N|exact U|reflexivity|..]; [split; cbn; auto; discriminate|]. cbn. intros X. rewrite F5 in X by reflexivity. discriminate.
  - assert (PP : post (t_pc x) = true) by (destruct P as [[-> _]|(j & g & -> & _)]; reflexivity). destruct (G t x N) as [U F]; [unfold zone; rewrite PP; apply orb_true_r|]. destruct F as [F1 F2 F3 F4 F5 F6].
    eapply (zon_in s _ t x); [exact I|exact N|exact U|reflexivity|..]; [split; cbn; auto; try discriminate; rewrite C; discriminate|]. cbn. intros X. rewrite F5 in X by exact PP. discriminate.
  - assert (PP : post (t_pc x) = true) by (destruct P as [[-> _]|(j & g & -> & _)]; reflexivity). destruct (G t x N) as [U F]; [unfold zone; rewrite PP; apply orb_true_r|]. destruct F as [F1 F2 F3 F4 F5 F6].
    eapply (zon_in s _ t x); [exact I|exact N|exact U|reflexivity|..]; [split; cbn; auto; try discriminate|]. cbn. intros X. rewrite F5 in X by exact PP. discriminate.
  - destruct (G t x N) as [U F]; [rewrite P; reflexivity|]. destruct F as [F1 F2 F3 F4 F5 F6]. rewrite P in *. eapply (zon_in s _ t x); [exact I|exact N|exact U|reflexivity|..]; [split; cbn; auto; discriminate|]. cbn. intros X. rewrite F5 in X by reflexivity. discriminate.
  - destruct P as [[P _]|P].
    + destruct (G t x N) as [U F]; [rewrite P; reflexivity|]. destruct F as [F1 F2 F3 F4 F5 F6]. rewrite P in *. eapply (zon_in s _ t x); [exact I|exact N|exact U|reflexivity|..]; [split; cbn; auto; discriminate|]. cbn. intros X. rewrite F5 in X by reflexivity. discriminate.
    + eapply (zon_out s _ t x); [exact I|exact N| | |reflexivity|..]; cbn; auto. destruct P as [[-> _]| ->]; reflexivity.
  - destruct P as [[P _]|P].
    + destruct (G t x N) as [U F]; [rewrite P; reflexivity|]. destruct F as [F1 F2 F3 F4 F5 F6]. rewrite P in *. eapply (zon_in s _ t x); [exact I|exact N|exact U|reflexivity|..]; [split; cbn; auto; discriminate|]. cbn. intros X. rewrite F5 in X by reflexivity. discriminate.
    + eapply (zon_out s _ t x); [exact I|exact N| | |reflexivity|..]; cbn; auto. destruct P as [[-> _]| ->]; reflexivity.
  - eapply (zon_out s _ t x); [exact I|exact N| | |reflexivity|..]; cbn; rewrite ?P; auto.
  - assert (A : zon (thr s t (set_own (t_own x - 1) x))) by (eapply (zon_out s _ t x); [exact I|exact N| | |reflexivity|..]; cbn; rewrite ?P; reflexivity).
    eapply (zon_out (thr s t (set_own (t_own x - 1) x)) _ u y); [exact A|rewrite thr_other; auto| | |reflexivity|..]; cbn; rewrite ?P'; reflexivity.
  - eapply (zon_out s _ t x); [exact I|exact N| | |reflexivity|..]; cbn; rewrite ?P; reflexivity.
Qed.
Lemma zon_x0 : forall lmx n, zon (x0 lmx n).
Proof.
  intros lmx n. assert (Z : forall t b, at_ (x0 lmx n) t b -> b PIdle = true) by (intros t b (x & H & K); apply x0_idle in H; destruct H as [H _]; rewrite H in K; exact K).
  split; [intros t u H; apply Z in H; discriminate| |reflexivity]. intros t x H K. apply x0_idle in H. destruct H as [H _]. rewrite H in K. discriminate.
Qed.
Lemma lmx_tr : forall own seq s s' b, x_lmx s = b -> tr own seq s s' -> x_lmx s' = b.
Proof. intros own seq s s' b H T. destruct T; try exact H. unfold remove. destruct (x_clean s); exact H. Qed.

Lemma step_ok : forall s e, mem s -> zon s -> x_lmx s = false -> owner s e -> exists s', xstep s e = Ok s'.
Proof.
  intros s e I J L O.
  assert (M : forall t x, nth_error (x_thr s) t = Some x -> 0 < t_own x -> x_mem s = true).
  { intros t x N W. destruct (x_mem s) eqn:M; [reflexivity|]. pose proof (m_gone _ I M). pose proof (sum_one (x_thr s) t x (m_own _ I) N). lia. }
  assert (St : forall t x o, nth_error (x_thr s) t = Some x -> 0 < t_own x -> exists s', start s t o = Ok s').
  { intros t x o N W. unfold start. rewrite N. destruct (negb (t_ptr x)); [eauto|]. rewrite (M t x N W). cbn. destruct o; eauto. }
  assert (Ow : forall t x, nth_error (x_thr s) t = Some x -> 0 < own_of s t -> 0 < t_own x) by (intros t x N W; unfold own_of in W; rewrite N in W; exact W).
  destruct e as [t o|t|t u|t o]; cbn [xstep owner] in *.
  - destruct (pc_of s t) as [p|] eqn:P; [|eauto]. destruct (pc_nth _ _ _ P) as (x & N & E). destruct p; eauto.
  - destruct (pc_of s t) as [p|] eqn:P; [|eauto]. destruct (pc_nth _ _ _ P) as (x & N & E). unfold step_thread.
    assert (X : p <> PIdle -> x_mem s = true).
    { intros V. destruct (busy p) eqn:B; [apply (M t x N); apply (m_busy _ I t x N); rewrite E; exact B|].
      destruct p; try discriminate B; [congruence|]. apply (m_dealloc _ I t). exists x. rewrite E. auto. }
    assert (F : zone p = true -> fits s t p) by (intros Z; rewrite <- E in *; apply (z_fits _ J); assumption).
    destruct p; eauto; rewrite X by discriminate; cbn [negb].
    + destruct (F eq_refl) as [_ F2 _ _ _ _]. rewrite F2 by reflexivity. eauto.
    + destruct (x_exit s); eauto.
    + eauto.
    + eauto.
    + destruct (F eq_refl) as [_ _ _ F4 _ _]. rewrite F4 by reflexivity. eauto.
    + destruct (F eq_refl) as [_ _ _ F4 _ _]. rewrite F4 by reflexivity. eauto.
    + destruct (x_clean s) eqn:C; [|eauto]. unfold loop. rewrite C. destruct (nth_error l 0); eauto.
    + destruct (F eq_refl) as [_ _ _ _ _ F6]. unfold loop. destruct (x_clean s) eqn:C; [|destruct (F6 eq_refl eq_refl)]. destruct (nth_error l (S i)); eauto.
    + destruct r; eauto.
    + eauto.
    + eauto.
    + unfold dealloc. rewrite L. eauto.
  - destruct (pc_of s t) as [[]|]; eauto. destruct (pc_of s u) as [[]|]; eauto.
  - destruct (pc_of s t) as [p|] eqn:P; [|eauto]. destruct (pc_nth _ _ _ P) as (x & N & E). destruct p; eauto. destruct (simple o); eauto.
Qed.
Theorem no_ub : forall n es, owners (x0 false n) es -> in_turn (x0 false n) es -> exists s, xrun (x0 false n) es = Ok s.
Proof.
  intros n es. assert (K : forall s, mem s -> zon s -> x_lmx s = false -> owners s es -> in_turn s es -> exists s', xrun s es = Ok s').
  { induction es as [|e es IH]; intros s I J L O Q; [exists s; reflexivity|]. cbn in O, Q. destruct O as [O O'], Q as [Q Q'].
    destruct (step_ok s e I J L O) as [s1 E]. cbn [xrun]. rewrite E in *. cbn.
    destruct (xstep_tr true true _ _ _ E) as [-> | T]; auto. apply IH; auto; [eapply mem_tr; eauto|eapply zon_tr; eauto|eapply lmx_tr; eauto]. }
  apply K; [apply mem_x0|apply zon_x0|reflexivity].
Qed.

(** A call to vortex_ctx_unref that is not interleaved with others: the
    pointer is NULL if and only if the context was released. *)
Theorem unref_alone : forall n es s t, owners (x0 false n) es -> xrun (x0 false n) es = Ok s -> pc_of s t = Some PIdle -> 0 < own_of s t ->
  exists s', xrun s [EStart t OpUnref; ERun t; ERun t] = Ok s' /\ own_of s' t = own_of s t - 1 /\ (ptr_of s' t = false <-> x_mem s' = false) /\ (x_mem s' = false <-> total s = 1).
Proof.
  intros n es s t O R P W. pose proof (mem_run _ _ _ _ O R) as I.
  assert (L : x_lmx s = false). { apply (kept_by (fun s => x_lmx s = false) true false (fun s s' H T => lmx_tr _ _ _ _ _ H T) es (x0 false n) s); auto. discriminate. }
  destruct (pc_nth _ _ _ P) as (x & N & E). unfold own_of in W. rewrite N in W.
  assert (M : x_mem s = true). { destruct (x_mem s) eqn:M; [reflexivity|]. pose proof (m_gone _ I M). pose proof (sum_one (x_thr s) t x (m_own _ I) N). lia. }
  assert (PT : t_ptr x = true). { destruct (t_ptr x) eqn:PT; [reflexivity|]. pose proof (m_null _ I t x N PT). congruence. }
  assert (G : 0 < x_ref s). { rewrite (m_ref _ I M). pose proof (sum_one (x_thr s) t x (m_own _ I) N). lia. }
  rewrite total_sum, <- (m_ref _ I M). cbn [xrun xstep obind]. rewrite P. unfold start. rewrite N, PT, M. cbn [negb]. unfold unref_start. destruct (Z.leb_spec (x_ref s) 0); [lia|].
  rewrite (goto_thr _ _ _ x) by exact N. cbn [obind]. set (s1 := thr s t (set_pc (PUnref (x_ref s =? 1)) x)).
  assert (N1 : nth_error (x_thr s1) t = Some (set_pc (PUnref (x_ref s =? 1)) x)) by (eapply thr_same; eauto).
  rewrite (nth_pc _ _ _ N1). cbn [t_pc set_pc]. unfold step_thread at 1. replace (x_mem s1) with true by (symmetry; exact M). cbn [negb obind].
  unfold free2. rewrite (upd_thr (put_ref s1 (x_ref s1 - 1)) t _ _ N1). set (s2 := thr (put_ref s1 (x_ref s1 - 1)) t _).
  assert (N2 : exists y, nth_error (x_thr s2) t = Some y /\ y = set_own (t_own x - 1) (set_pc (PUnref (x_ref s =? 1)) x)) by (eexists; split; [eapply (thr_same (put_ref s1 (x_ref s1 - 1)) t); exact N1|reflexivity]).
  destruct N2 as (y & N2 & Y). change (x_ref s2) with (x_ref s - 1). destruct (Z.eqb_spec (x_ref s - 1) 0) as [Z|Z].
  - rewrite (goto_thr _ _ _ _ N2). set (s3 := thr s2 t _). assert (N3 : nth_error (x_thr s3) t = Some (set_pc (PDealloc (x_ref s =? 1)) y)) by (eapply thr_same; eauto).
    rewrite (nth_pc _ _ _ N3). cbn [t_pc set_pc]. unfold step_thread. replace (x_mem s3) with true by (symmetry; exact M). cbn [negb obind]. unfold dealloc. replace (x_lmx s3) with false by (symmetry; exact L).
    unfold finish. rewrite (upd_thr (put_mem s3 false) _ _ _ N3). cbn [obind]. eexists. split; [reflexivity|]. unfold own_of, ptr_of. cbn [x_thr see]. rewrite (thr_same (put_mem s3 false) t _ _ N3). rewrite N, Y. cbn.
    rewrite Z.eqb_refl || replace (x_ref s =? 1) with true by lia. split; [reflexivity|]. split; [tauto|]. split; [intros _; lia|reflexivity].
  - unfold finish. rewrite (upd_thr _ _ _ _ N2). set (s3 := thr s2 t _). assert (N3 : nth_error (x_thr s3) t = Some (mkT PIdle (t_own y) (if x_ref s =? 1 then false else t_ptr y))) by (eapply thr_same; eauto).
    rewrite (nth_pc _ _ _ N3). cbn [t_pc step_thread obind]. eexists. split; [reflexivity|]. unfold own_of, ptr_of. rewrite N3, N, Y. cbn. replace (x_ref s =? 1) with false by lia. rewrite M, PT. split; [reflexivity|]. split; [tauto|]. split; [discriminate|lia].
Qed.
