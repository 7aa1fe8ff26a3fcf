From Verif Require Import Base MechModel MechSpec.

Lemma install_whole t m : install t (code m) = whole m.
Proof. destruct t, m; reflexivity. Qed.
Lemma whole_uniform m : uniform (whole m) m.
Proof. destruct m; unfold uniform, complete, belongs; cbn; repeat match goal with |- _ /\ _ => split end; auto; try discriminate; try (left; discriminate); right; split; discriminate. Qed.
Lemma avail_compiled k ty : available k ty = true <-> compiled k ty.
Proof.
  unfold available, compiled. destruct (ty =? 1) eqn:A; [apply Z.eqb_eq in A; split; auto|]. apply Z.eqb_neq in A.
  destruct (ty =? 2) eqn:B; [apply Z.eqb_eq in B; subst; split; [auto|intros [?|[[? ?]|[? ?]]]; auto; lia]|]. apply Z.eqb_neq in B.
  destruct (ty =? 3) eqn:C; [apply Z.eqb_eq in C; subst; split; [auto|intros [?|[[? ?]|[? ?]]]; auto; lia]|]. apply Z.eqb_neq in C.
  split; [discriminate|intros [?|[[? ?]|[? ?]]]; lia].
Qed.
Lemma compiled_mech k ty : compiled k ty -> exists m, ty = code m.
Proof. intros [->|[[-> _]|[-> _]]]; [exists Sel|exists Pol|exists Epo]; reflexivity. Qed.
Lemma make_set_tab s : m_tab (fst (make_set s)) = m_tab s.
Proof. unfold make_set. destruct (t_create (m_tab s)); reflexivity. Qed.
Lemma destroy_tab s g s' : destroy s g = Ok s' -> m_tab s' = m_tab s.
Proof. unfold destroy. destruct (call s _ g); cbn; [|discriminate]. destruct (t_destroy (m_tab s)) eqn:E; intros H; injection H as <-; auto. Qed.

(** What a change does to the table. *)
Lemma use_tab k s ty s' b : io_use k s ty = Ok (s', b) ->
  (b = true <-> compiled k ty) /\ (b = false -> s' = s) /\
  (b = true -> (ty = t_type (m_tab s) /\ s' = s) \/ (ty <> t_type (m_tab s) /\ exists m, ty = code m /\ m_tab s' = whole m)).
Proof.
  unfold io_use. destruct (available k ty) eqn:A; cbn [negb].
  - assert (C : compiled k ty) by (apply avail_compiled; auto). destruct (ty =? t_type (m_tab s)) eqn:E.
    + apply Z.eqb_eq in E. intros H. injection H as <- <-. split; [split; auto|]. split; [discriminate|auto].
    + apply Z.eqb_neq in E. destruct (compiled_mech k ty C) as [m ->].
      assert (K : forall x, Ok (x, true) = Ok (s', b) -> m_tab x = whole m -> (b = true <-> compiled k (code m)) /\ (b = false -> s' = s) /\
        (b = true -> (code m = t_type (m_tab s) /\ s' = s) \/ (code m <> t_type (m_tab s) /\ exists m', code m = code m' /\ m_tab s' = whole m'))).
      { intros x H T. injection H as <- <-. split; [split; auto|]. split; [discriminate|]. intros _. right. split; auto. exists m. auto. }
      rewrite install_whole. destruct (m_reader s) as [g|].
      * destruct (destroy s g) as [s1|] eqn:D; cbn [obind]; [|discriminate]. rewrite install_whole. destruct (make_set (with_tab s1 (whole m))) as [s2 r] eqn:MS. intros H. apply (K _ H).
        cbn. pose proof (make_set_tab (with_tab s1 (whole m))) as X. rewrite MS in X. exact X.
      * intros H. apply (K _ H). reflexivity.
  - intros H. injection H as <- <-. split; [split; [discriminate|intros C; apply avail_compiled in C; congruence]|]. split; [auto|discriminate].
Qed.
Theorem use_result k s ty s' b : io_use k s ty = Ok (s', b) -> (b = true <-> compiled k ty) /\ (b = false -> s' = s) /\ (b = true -> t_type (m_tab s') = ty).
Proof.
  intros H. destruct (use_tab k s ty s' b H) as (A & B & C). split; auto. split; auto. intros T. destruct (C T) as [[E ->]|[_ (m & -> & ->)]]; auto. destruct m; reflexivity.
Qed.
Lemma step_tab k s o s' : mstep k s o = Ok s' -> m_tab s' = m_tab s \/ (exists m, m_tab s' = whole m) \/ (exists x n, o = MSet x (Some n) /\ m_tab s' = set_slot (m_tab s) x (HUser n)).
Proof.
  destruct o; cbn [mstep]; intros H.
  - destruct (m_reader s); [injection H as <-; auto|]. pose proof (make_set_tab s) as X. destruct (make_set s) as [s1 r]. injection H as <-. auto.
  - destruct (m_reader s) as [g|]; [|injection H as <-; auto]. destruct (use_set s g); cbn [obind] in H; [|discriminate].
    destruct (match t_have (m_tab s) with HNull => _ | _ => _ end) in H; cbn [obind] in H; [injection H as <-; auto|discriminate].
  - destruct (io_use k s ty) as [[s1 b]|] eqn:E; cbn [obind] in H; [|discriminate]. injection H as <-. destruct (use_tab k s ty s1 b E) as (A & B & C). destruct b; [|rewrite B; auto].
    destruct (C eq_refl) as [[_ ->]|[_ (m & _ & T)]]; auto. right. left. eauto.
  - destruct n as [n|]; injection H as <-; auto. right. right. exists x, n. auto.
  - injection H as <-. rewrite make_set_tab. auto.
  - destruct (use_set s g); cbn [obind] in H; [injection H as <-; auto|discriminate].
  - apply destroy_tab in H. auto.
Qed.
Lemma complete_set t x n : complete t -> complete (set_slot t x (HUser n)).
Proof. unfold complete. intros (A & B & C & D & E & F). destruct x; cbn; repeat match goal with |- _ /\ _ => split end; auto; try discriminate; destruct F as [F|[F G]]; auto; (left; congruence) || (right; split; congruence) || idtac. Qed.
Theorem run_complete k os s : mrun k (ms0 k) os = Ok s -> complete (m_tab s).
Proof.
  assert (K : forall os s, complete (m_tab s) -> forall s', mrun k s os = Ok s' -> complete (m_tab s')).
  { clear. induction os as [|o os IH]; intros s C s' H; cbn in H; [injection H as <-; auto|]. destruct (mstep k s o) as [s1|] eqn:E; cbn [obind] in H; [|discriminate]. apply (IH s1); auto.
    destruct (step_tab k s o s1 E) as [->|[[m ->]|(x & n & _ & ->)]]; auto; [apply whole_uniform|apply complete_set; auto]. }
  apply K. cbn. unfold io_init. destruct (d_epoll k); [|destruct (d_poll k)]; apply whole_uniform.
Qed.
Lemma init_whole k : exists m, io_init k = whole m.
Proof. unfold io_init. destruct (d_epoll k); [|destruct (d_poll k)]; eauto. Qed.
Lemma run_whole k os : forall s s', no_set os -> (exists m, m_tab s = whole m) -> mrun k s os = Ok s' -> exists m, m_tab s' = whole m.
Proof.
  induction os as [|o os IH]; intros s s' NS W H; cbn in H; [injection H as <-; auto|]. destruct (mstep k s o) as [s1|] eqn:E; cbn [obind] in H; [|discriminate].
  apply (IH s1); auto; [intros x n I; apply (NS x n); right; auto|]. destruct (step_tab k s o s1 E) as [T|[T|(x & n & -> & _)]]; auto; [rewrite T; auto|exfalso; apply (NS x (Some n)); left; auto].
Qed.
Theorem run_uniform k os s : no_set os -> mrun k (ms0 k) os = Ok s -> exists m, uniform (m_tab s) m.
Proof. intros NS H. destruct (run_whole k os (ms0 k) s NS (init_whole k) H) as [m E]. exists m. rewrite E. apply whole_uniform. Qed.

(** ** Sets and handlers of the same mechanism *)
Definition goodm (s : mst) : Prop :=
  exists m, m_tab s = whole m /\ (forall g h, nth_error (m_sets s) g = Some (Some h) -> h = HOf m) /\ (forall g, m_reader s = Some g -> in_use s g) /\ Forall (fun b => b = true) (m_seen s).
Lemma same_refl m : same_hnd (HOf m) (HOf m) = true.
Proof. destruct m; auto. Qed.
Lemma call_ok s m h g : (forall g h, nth_error (m_sets s) g = Some (Some h) -> h = HOf m) -> in_use s g -> belongs m h -> call s h g = Ok tt.
Proof. intros A (h' & N) [->| ->]; [|reflexivity]. unfold call. rewrite N, (A g h' N), same_refl. reflexivity. Qed.
Lemma use_set_ok s m g : m_tab s = whole m -> (forall g h, nth_error (m_sets s) g = Some (Some h) -> h = HOf m) -> in_use s g -> use_set s g = Ok tt.
Proof. intros T A U. unfold use_set. rewrite T. rewrite !(call_ok s m _ g A U); auto; destruct m; cbn; unfold belongs; auto. Qed.
Lemma nth_free l g x : nth_error (free_set l g) x = if Nat.eqb g x then (match nth_error l g with Some _ => Some None | None => None end) else nth_error l x.
Proof. revert g x; induction l as [|a l IH]; intros [|g] [|x]; cbn; auto. destruct (Nat.eqb g x); auto. Qed.
Lemma destroy_ok s m g : m_tab s = whole m -> (forall g h, nth_error (m_sets s) g = Some (Some h) -> h = HOf m) -> in_use s g ->
  destroy s g = Ok (mkM (m_tab s) (free_set (m_sets s) g) (m_reader s) (m_seen s)).
Proof. intros T A U. unfold destroy. rewrite (call_ok s m _ g A U) by (rewrite T; destruct m; cbn; unfold belongs; auto). rewrite T. destruct m; reflexivity. Qed.
Lemma make_whole s m : m_tab s = whole m -> make_set s = (mkM (m_tab s) (m_sets s ++ [Some (HOf m)]) (m_reader s) (m_seen s), Some (length (m_sets s))).
Proof. intros T. unfold make_set. rewrite T. destruct m; reflexivity. Qed.
Lemma nth_snoc {A} (l : list A) x g y : nth_error (l ++ [x]) g = Some y -> nth_error l g = Some y \/ (g = length l /\ y = x).
Proof.
  intros N. destruct (Nat.lt_ge_cases g (length l)) as [L|L]; [rewrite nth_error_app1 in N by auto; auto|]. rewrite nth_error_app2 in N by auto.
  destruct (g - length l)%nat as [|j] eqn:D; [|destruct j; discriminate]. cbn in N. injection N as <-. right. split; [lia|auto].
Qed.
Lemma last_snoc {A} (l : list A) x : nth_error (l ++ [x]) (length l) = Some x.
Proof. rewrite nth_error_app2, Nat.sub_diag by lia. reflexivity. Qed.
Lemma in_use_grow s t r x h g : in_use s g -> in_use (mkM t (m_sets s ++ [h]) r x) g.
Proof. intros (y & N). exists y. cbn. rewrite nth_error_app1; auto. apply nth_error_Some. congruence. Qed.
Lemma step_goodm k s o : goodm s -> quiet s o -> (forall x n, o <> MSet x n) -> exists s', mstep k s o = Ok s' /\ goodm s'.
Proof.
  intros (m & T & A & R & F) Q NS. destruct o; cbn [mstep quiet] in *.
  - destruct (m_reader s) as [g|] eqn:ER; [exists s; split; auto; exists m; repeat (split; auto); rewrite ER; auto|]. rewrite (make_whole s m T). eexists. split; [reflexivity|]. exists m. split; [exact T|]. split; [|split].
    + intros g h N. cbn in N. apply nth_snoc in N. destruct N as [N|[_ N]]; [eauto|congruence].
    + intros g E. cbn in E. injection E as <-. exists (HOf m). cbn. apply last_snoc.
    + exact F.
  - destruct (m_reader s) as [g|] eqn:ER; [|exists s; split; auto; exists m; repeat (split; auto); rewrite ER; discriminate]. assert (U : in_use s g) by (apply R; auto).
    rewrite (use_set_ok s m g T A U). cbn [obind].
    assert (SEEN : (match t_have (m_tab s) with
       | HNull => let! _ := call s (t_isset (m_tab s)) g in Ok (match t_isset (m_tab s) with HNull => false | _ => true end)
       | h => let! _ := call s h g in let! _ := call s (t_disp (m_tab s)) g in Ok (match t_disp (m_tab s) with HNull => false | _ => true end) end) = Ok true).
    { rewrite T. destruct m; cbn [whole t_have t_isset t_disp]; rewrite ?(call_ok s _ _ g A U) by (left; reflexivity); reflexivity. }
    rewrite SEEN. cbn [obind]. eexists. split; [reflexivity|]. exists m. split; [exact T|]. split; [exact A|]. split; [intros g' E; cbn in E; apply (R g' E)|]. cbn. apply Forall_app. auto.
  - unfold io_use. destruct (available k ty) eqn:AV; cbn [negb obind]; [|exists s; split; auto; exists m; auto]. destruct (ty =? t_type (m_tab s)); [cbn [obind]; exists s; split; auto; exists m; auto|].
    destruct (compiled_mech k ty (proj1 (avail_compiled k ty) AV)) as [m' ->]. destruct (m_reader s) as [g|] eqn:ER.
    + assert (U : in_use s g) by (apply R; auto). rewrite (destroy_ok s m g T A U). cbn [obind m_tab]. rewrite install_whole. rewrite (make_whole _ m') by reflexivity. cbn [obind]. eexists. split; [reflexivity|].
      exists m'. split; [reflexivity|]. split; [|split; [|exact F]].
      * intros g' h N. cbn in N. apply nth_snoc in N. destruct N as [N|[_ N]]; [|congruence]. exfalso. rewrite nth_free in N. destruct (Nat.eqb g g') eqn:E.
        -- destruct U as (h' & U). rewrite U in N. discriminate.
        -- apply Nat.eqb_neq in E. apply E. assert (Some g = Some g') by (apply Q; exists h; auto). congruence.
      * intros g' E. cbn in E. injection E as <-. exists (HOf m'). cbn. apply last_snoc.
    + rewrite install_whole. cbn [obind]. eexists. split; [reflexivity|]. exists m'. split; [reflexivity|]. split; [|split; [|exact F]].
      * intros g h N. cbn in N. exfalso. assert (None = Some g) by (apply Q; exists h; auto). discriminate.
      * cbn. rewrite ER. discriminate.
  - exfalso. apply (NS x n). reflexivity.
  - rewrite (make_whole s m T). eexists. split; [reflexivity|]. exists m. split; [exact T|]. split; [|split; [|exact F]].
    + intros g h N. cbn in N. apply nth_snoc in N. destruct N as [N|[_ N]]; [eauto|congruence].
    + intros g E. cbn in E. apply in_use_grow. auto.
  - destruct Q as [U NR]. rewrite (use_set_ok s m g T A U). cbn [obind]. exists s. split; auto. exists m; auto.
  - destruct Q as [U NR]. rewrite (destroy_ok s m g T A U). eexists. split; [reflexivity|]. exists m. split; [exact T|]. split; [|split; [|exact F]].
    + intros g' h N. cbn in N. rewrite nth_free in N. destruct (Nat.eqb g g'); [destruct (nth_error (m_sets s) g); discriminate|eauto].
    + intros g' E. cbn in E. destruct (R g' E) as (h & N). exists h. cbn. rewrite nth_free. destruct (Nat.eqb g g') eqn:X; [apply Nat.eqb_eq in X; congruence|auto].
Qed.
Theorem run_quiet k os : no_set os -> quiet_all k (ms0 k) os -> exists s, mrun k (ms0 k) os = Ok s /\ Forall (fun b => b = true) (m_seen s).
Proof.
  assert (K : forall os s, no_set os -> goodm s -> quiet_all k s os -> exists s', mrun k s os = Ok s' /\ goodm s').
  { clear. induction os as [|o os IH]; intros s NS G Q; cbn [mrun]; eauto. destruct Q as [Q1 Q2]. destruct (step_goodm k s o G Q1) as (s1 & E & G1); [intros x n ->; apply (NS x n); left; auto|].
    rewrite E. cbn [obind]. apply IH; auto. intros x n I. apply (NS x n). right; auto. }
  intros NS Q. destruct (K os (ms0 k) NS) as (s & H & G); auto.
  - destruct (init_whole k) as [m E]. exists m. split; [exact E|]. split; [intros [|g] h N; discriminate|]. split; [intros g E2; discriminate|constructor].
  - exists s. split; auto. destruct G as (m & _ & _ & _ & F). auto.
Qed.

(** ** The functions that set one handler *)
Theorem set_one k s x o s' : mstep k s (MSet x o) = Ok s' -> slot_of (m_tab s') x = match o with Some n => HUser n | None => slot_of (m_tab s) x end /\ t_type (m_tab s') = t_type (m_tab s) /\
  (forall y, y <> x -> slot_of (m_tab s') y = slot_of (m_tab s) y) /\ m_sets s' = m_sets s /\ m_reader s' = m_reader s.
Proof. destruct o as [n|]; cbn; intros H; injection H as <-; [|repeat (split; auto)]. cbn. destruct x; cbn; repeat (split; auto); intros y N; destruct y; cbn; auto; congruence. Qed.

(** ** Two changes at once *)
Lemma merge_in {A} (a b c : list A) : merge a b c -> forall x, In x c <-> In x a \/ In x b.
Proof. induction 1; intros y; cbn; [tauto|rewrite IHmerge; tauto|rewrite IHmerge; tauto]. Qed.
Lemma slot_write t w x : slot_of (apply_write t w) x = slot_of t x \/ w = WSlot x (slot_of (apply_write t w) x).
Proof. destruct w as [y h|ty]; [destruct y, x; cbn; auto|destruct x; cbn; auto]. Qed.
Lemma slot_written t y h : slot_of (apply_write t (WSlot y h)) y = h.
Proof. destruct y; reflexivity. Qed.
Lemma last_write c : forall t x, (exists h, In (WSlot x h) c) -> In (WSlot x (slot_of (fold_left apply_write c t) x)) c.
Proof.
  induction c as [|w c IH] using rev_ind; intros t x [h I]; [destruct I|]. rewrite fold_left_app. cbn [fold_left]. set (t1 := fold_left apply_write c t). apply in_or_app.
  destruct (slot_write t1 w x) as [E|E]; [|right; left; exact E]. apply in_app_or in I. destruct I as [I|[I|[]]].
  - left. rewrite E. apply IH. eauto.
  - subst w. right. left. rewrite slot_written. reflexivity.
Qed.
Lemma type_write t w : t_type (apply_write t w) = t_type t \/ w = WType (t_type (apply_write t w)).
Proof. destruct w as [y h|ty]; [destruct y; cbn; auto|cbn; auto]. Qed.
Lemma last_type c : forall t, (exists ty, In (WType ty) c) -> In (WType (t_type (fold_left apply_write c t))) c.
Proof.
  induction c as [|w c IH] using rev_ind; intros t [ty I]; [destruct I|]. rewrite fold_left_app. cbn [fold_left]. set (t1 := fold_left apply_write c t). apply in_or_app.
  destruct (type_write t1 w) as [E|E]; [|right; left; exact E]. apply in_app_or in I. destruct I as [I|[I|[]]].
  - left. rewrite E. apply IH. eauto.
  - subst w. right. left. reflexivity.
Qed.
Lemma write_whole m x h : In (WSlot x h) (writes m) -> h = slot_of (whole m) x.
Proof. destruct m; cbn; intros I; repeat destruct I as [I|I]; try (injection I as <- <-; reflexivity); try discriminate; destruct I. Qed.
Lemma write_type m ty : In (WType ty) (writes m) -> ty = code m.
Proof. destruct m; cbn; intros I; repeat destruct I as [I|I]; try (injection I as <-; reflexivity); try discriminate; destruct I. Qed.
Theorem two_at_once t m1 m2 c : merge (writes m1) (writes m2) c ->
  (forall x, slot_of (fold_left apply_write c t) x = slot_of (whole m1) x \/ slot_of (fold_left apply_write c t) x = slot_of (whole m2) x) /\
  (t_type (fold_left apply_write c t) = code m1 \/ t_type (fold_left apply_write c t) = code m2).
Proof.
  intros M. pose proof (merge_in _ _ _ M) as MI. split.
  - intros x. assert (E : exists h, In (WSlot x h) c).
    { exists (slot_of (whole m1) x). apply MI. left. destruct m1, x; cbn; auto 12. }
    apply (last_write c t x) in E. apply MI in E. destruct E as [E|E]; apply write_whole in E; auto.
  - assert (E : exists ty, In (WType ty) c) by (exists (code m1); apply MI; left; destruct m1; cbn; auto 12). apply (last_type c t) in E. apply MI in E. destruct E as [E|E]; apply write_type in E; auto.
Qed.
