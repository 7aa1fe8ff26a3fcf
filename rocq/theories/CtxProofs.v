(** The steps of the model of the context. *)
From Verif Require Import Base HdrModel HdrProofs CtxModel CtxSpec.

Definition thr (s : xst) (t : nat) (x : thread) : xst := put_thr s (upd_nth (x_thr s) t x).
Lemma upd_thr : forall s t f x, nth_error (x_thr s) t = Some x -> upd s t f = thr s t (f x).
Proof. intros s t f x H. unfold upd. rewrite H. reflexivity. Qed.
Lemma goto_thr : forall s t p x, nth_error (x_thr s) t = Some x -> goto s t p = thr s t (set_pc p x).
Proof. intros. apply upd_thr. assumption. Qed.
Lemma nth_upd_inv : forall {A} (l : list A) t x u y, nth_error (upd_nth l t x) u = Some y -> (u = t /\ y = x) \/ (u <> t /\ nth_error l u = Some y).
Proof.
  induction l as [|a l IH]; intros t x u y H; [destruct u; discriminate|]. destruct t as [|t], u as [|u]; cbn in H.
  - injection H as <-. auto.
  - right. split; [lia|exact H].
  - right. split; [lia|exact H].
  - apply IH in H. destruct H as [[-> ->]|[N H]]; [auto|]. right. split; [lia|exact H].
Qed.

Section tr.
Variable own seq : bool.
Inductive tr (s : xst) : xst -> Prop :=
| tr_ref t x : nth_error (x_thr s) t = Some x -> (own = true -> 0 < t_own x) -> x_mem s = true ->
    (t_pc x = PIdle \/ exists r i f, t_pc x = PCall r i f) ->
    tr s (thr (put_ref s (x_ref s + 1)) t (set_own (t_own x + 1) x))
| tr_null t x : nth_error (x_thr s) t = Some x -> (own = true -> 0 < t_own x) -> x_mem s = true -> t_pc x = PIdle -> x_ref s <= 0 ->
    tr s (thr s t (set_ptr false x))
| tr_unref t x : nth_error (x_thr s) t = Some x -> (own = true -> 0 < t_own x) -> x_mem s = true -> t_pc x = PIdle -> 0 < x_ref s ->
    tr s (thr s t (set_pc (PUnref (x_ref s =? 1)) x))
| tr_drop t x : nth_error (x_thr s) t = Some x -> (own = true -> 0 < t_own x) -> x_mem s = true -> t_pc x = PIdle ->
    tr s (thr s t (set_pc PDrop x))
| tr_exit t x r : nth_error (x_thr s) t = Some x -> (own = true -> 0 < t_own x) -> (seq = true -> forall u p, pc_of s u = Some p -> entering p = false) ->
    x_mem s = true -> t_pc x = PIdle -> x_exit s = false ->
    tr s (thr s t (set_pc (PGate r) x))
| tr_inst f : x_mem s = true -> tr s (install s f)
| tr_rem f : x_mem s = true -> tr s (remove s f)
| tr_gate t x r : nth_error (x_thr s) t = Some x -> x_mem s = true -> t_pc x = PGate r -> x_emx s = MFree ->
    tr s (thr (put_emx s (MHeld t)) t (set_pc (PInside r) x))
| tr_leave t x r : nth_error (x_thr s) t = Some x -> x_mem s = true -> t_pc x = PInside r -> x_exit s = true ->
    tr s (thr (put_emx s MFree) t (set_pc PIdle x))
| tr_inside t x r : nth_error (x_thr s) t = Some x -> x_mem s = true -> t_pc x = PInside r -> x_exit s = false ->
    tr s (thr s t (set_pc (PSet r) x))
| tr_set t x r : nth_error (x_thr s) t = Some x -> x_mem s = true -> t_pc x = PSet r ->
    tr s (thr (put_emx (put_exit s true) MFree) t (set_pc (PStop r) x))
| tr_stop t x r : nth_error (x_thr s) t = Some x -> x_mem s = true -> t_pc x = PStop r ->
    tr s (see (thr s t (set_pc (PLast r) x)) (OStop t))
| tr_last t x r : nth_error (x_thr s) t = Some x -> x_mem s = true -> t_pc x = PLast r -> x_emx s = MFree ->
    tr s (thr s t (set_pc (PDestroy r) x))
| tr_destroy t x r : nth_error (x_thr s) t = Some x -> x_mem s = true -> t_pc x = PDestroy r -> x_emx s = MFree ->
    tr s (thr (put_emx s MGone) t (set_pc (PClean r) x))
| tr_none t x r : nth_error (x_thr s) t = Some x -> x_mem s = true -> t_pc x = PClean r -> x_clean s = None ->
    tr s (see (thr s t (set_pc (PEnd r) x)) OCleaned)
| tr_call t x r i l f : nth_error (x_thr s) t = Some x -> x_mem s = true ->
    (t_pc x = PClean r /\ i = 0%nat \/ exists j g, t_pc x = PCall r j g /\ i = S j) -> x_clean s = Some l -> nth_error l i = Some f ->
    tr s (see (thr s t (set_pc (PCall r i f) x)) (OCall f))
| tr_cleaned t x r i l : nth_error (x_thr s) t = Some x -> x_mem s = true ->
    (t_pc x = PClean r /\ i = 0%nat \/ exists j g, t_pc x = PCall r j g /\ i = S j) -> x_clean s = Some l -> nth_error l i = None ->
    tr s (see (thr (put_clean s None) t (set_pc (PEnd r) x)) OCleaned)
| tr_end t x : nth_error (x_thr s) t = Some x -> x_mem s = true -> t_pc x = PEnd false ->
    tr s (thr s t (set_pc PIdle x))
| tr_zero t x last : nth_error (x_thr s) t = Some x -> x_mem s = true ->
    (t_pc x = PEnd true /\ last = false \/ t_pc x = PDrop /\ last = false \/ t_pc x = PUnref last) -> x_ref s - 1 = 0 ->
    tr s (thr (put_ref s (x_ref s - 1)) t (mkT (PDealloc last) (t_own x - 1) (t_ptr x)))
| tr_less t x last : nth_error (x_thr s) t = Some x -> x_mem s = true ->
    (t_pc x = PEnd true /\ last = false \/ t_pc x = PDrop /\ last = false \/ t_pc x = PUnref last) -> x_ref s - 1 <> 0 ->
    tr s (thr (put_ref s (x_ref s - 1)) t (mkT PIdle (t_own x - 1) (if last then false else t_ptr x)))
| tr_dealloc t x last : nth_error (x_thr s) t = Some x -> x_mem s = true -> t_pc x = PDealloc last -> x_lmx s = false ->
    tr s (see (thr (put_mem s false) t (mkT PIdle (t_own x) (if last then false else t_ptr x))) OFreed)
| tr_give t x u y : nth_error (x_thr s) t = Some x -> nth_error (x_thr s) u = Some y -> t <> u -> (own = true -> 0 < t_own x) -> t_pc x = PIdle -> t_pc y = PIdle ->
    tr s (thr (thr s t (set_own (t_own x - 1) x)) u (mkT PIdle (t_own y + 1) true))
| tr_self t x : nth_error (x_thr s) t = Some x -> (own = true -> 0 < t_own x) -> t_pc x = PIdle ->
    tr s (thr s t (mkT PIdle (t_own x) true)).
End tr.

Lemma pc_nth : forall s t p, pc_of s t = Some p -> exists x, nth_error (x_thr s) t = Some x /\ t_pc x = p.
Proof. unfold pc_of. intros s t p H. destruct (nth_error (x_thr s) t) as [x|] eqn:E; [|discriminate]. injection H as <-. eauto. Qed.
Lemma nth_pc : forall s t x, nth_error (x_thr s) t = Some x -> pc_of s t = Some (t_pc x).
Proof. unfold pc_of. intros s t x H. rewrite H. reflexivity. Qed.
Lemma upd_upd : forall {A} (l : list A) i x y, upd_nth (upd_nth l i x) i y = upd_nth l i y.
Proof. induction l as [|a l IH]; intros [|i] x y; cbn; try reflexivity. f_equal. apply IH. Qed.
Lemma thr_thr : forall s t x y, thr (thr s t x) t y = thr s t y.
Proof. intros. unfold thr, put_thr. cbn. rewrite upd_upd. reflexivity. Qed.
Lemma thr_same : forall s t x y, nth_error (x_thr s) t = Some x -> nth_error (x_thr (thr s t y)) t = Some y.
Proof.
  intros s t x y H. unfold thr. cbn. revert t H. induction (x_thr s) as [|a l IH]; intros [|t] H; try discriminate; cbn; [reflexivity|]. apply IH. exact H.
Qed.
Lemma thr_other : forall s t u y, t <> u -> nth_error (x_thr (thr s t y)) u = nth_error (x_thr s) u.
Proof.
  intros s t u y. unfold thr. cbn. revert t u. induction (x_thr s) as [|a l IH]; intros [|t] [|u] N; try reflexivity; try lia; cbn. apply IH. lia.
Qed.

Lemma start_tr : forall own seq s t x o s', nth_error (x_thr s) t = Some x -> (own = true -> 0 < t_own x) ->
  (seq = true -> one_by_one s (EStart t o)) -> t_pc x = PIdle \/ (exists r i f, t_pc x = PCall r i f) /\ simple o = true ->
  start s t o = Ok s' -> s' = s \/ tr own seq s s'.
Proof.
  intros own seq s t x o s' N O Q P. unfold start. rewrite N. destruct (t_ptr x); cbn [negb]; [|intros H; injection H as <-; auto].
  destruct (x_mem s) eqn:M; cbn [negb]; [|discriminate]. destruct o; intros H.
  - injection H as <-. right. unfold ref2. rewrite (upd_thr _ _ _ x) by exact N. apply tr_ref; auto. tauto.
  - destruct P as [P|[_ P]]; [|discriminate]. injection H as <-. right. unfold unref_start. destruct (Z.leb_spec (x_ref s) 0).
    + rewrite (upd_thr _ _ _ x) by exact N. apply tr_null; auto.
    + rewrite (goto_thr _ _ _ x) by exact N. apply tr_unref; auto.
  - destruct P as [P|[_ P]]; [|discriminate]. injection H as <-. right. rewrite (goto_thr _ _ _ x) by exact N. apply tr_drop; auto.
  - destruct P as [P|[_ P]]; [|discriminate]. injection H as <-. destruct (x_exit s) eqn:E; [auto|]. right. rewrite (goto_thr _ _ _ x) by exact N. apply tr_exit; auto.
  - injection H as <-. right. apply tr_inst. exact M.
  - injection H as <-. right. apply tr_rem. exact M.
Qed.
Lemma loop_tr : forall own seq s t x r i s', nth_error (x_thr s) t = Some x -> x_mem s = true ->
  (t_pc x = PClean r /\ i = 0%nat \/ exists j g, t_pc x = PCall r j g /\ i = S j) -> loop s t r i = Ok s' -> tr own seq s s'.
Proof.
  intros own seq s t x r i s' N M P. unfold loop. destruct (x_clean s) as [l|] eqn:C; [|discriminate]. destruct (nth_error l i) as [f|] eqn:L; intros H; injection H as <-.
  - rewrite (goto_thr _ _ _ x) by exact N. eapply tr_call; eauto.
  - rewrite (goto_thr _ _ _ x) by exact N. eapply tr_cleaned; eauto.
Qed.
Lemma free2_tr : forall own seq s t x last, nth_error (x_thr s) t = Some x -> x_mem s = true ->
  (t_pc x = PEnd true /\ last = false \/ t_pc x = PDrop /\ last = false \/ t_pc x = PUnref last) -> tr own seq s (free2 s t last).
Proof.
  intros own seq s t x last N M P. unfold free2. rewrite (upd_thr _ _ _ x) by exact N. cbn [x_ref thr put_thr put_ref].
  pose proof (thr_same (put_ref s (x_ref s - 1)) t x (set_own (t_own x - 1) x) N) as N'. destruct (Z.eqb_spec (x_ref s - 1) 0).
  - rewrite (goto_thr _ _ _ _ N'), thr_thr. apply (tr_zero _ _ s t x last); auto.
  - unfold finish. rewrite (upd_thr _ _ _ _ N'), thr_thr. apply (tr_less _ _ s t x last); auto.
Qed.
Lemma xstep_tr : forall own seq s e s', xstep s e = Ok s' -> (own = true -> owner s e) -> (seq = true -> one_by_one s e) -> s' = s \/ tr own seq s s'.
Proof.
  intros own seq s e s' H O Q. destruct e as [t o|t|t u|t o]; cbn [xstep] in H.
  - destruct (pc_of s t) as [p|] eqn:P; [|injection H as <-; auto]. destruct (pc_nth _ _ _ P) as (x & N & E). destruct p; try (injection H as <-; auto; fail).
    apply (start_tr own seq s t x o s' N); auto. cbn in O. unfold own_of in O. rewrite N in O. exact O.
  - destruct (pc_of s t) as [p|] eqn:P; [|injection H as <-; auto]. destruct (pc_nth _ _ _ P) as (x & N & E). unfold step_thread in H.
    destruct p; [injection H as <-; auto|..]; destruct (x_mem s) eqn:M; try discriminate; cbn [negb] in H.
    + destruct (x_emx s) eqn:X; try discriminate; injection H as <-; [|auto]. right. rewrite (goto_thr _ _ _ x) by exact N. eapply tr_gate; eauto.
    + right. destruct (x_exit s) eqn:X; injection H as <-; rewrite (goto_thr _ _ _ x) by exact N; [eapply tr_leave; eauto|eapply tr_inside; eauto].
    + injection H as <-. right. rewrite (goto_thr _ _ _ x) by exact N. eapply tr_set; eauto.
    + injection H as <-. right. rewrite (goto_thr _ _ _ x) by exact N. eapply tr_stop; eauto.
    + destruct (x_emx s) eqn:X; try discriminate; injection H as <-; [|auto]. right. rewrite (goto_thr _ _ _ x) by exact N. eapply tr_last; eauto.
    + destruct (x_emx s) eqn:X; try discriminate; injection H as <-. right. rewrite (goto_thr _ _ _ x) by exact N. eapply tr_destroy; eauto.
    + right. destruct (x_clean s) eqn:X; [eapply loop_tr; eauto|]. injection H as <-. rewrite (goto_thr _ _ _ x) by exact N. eapply tr_none; eauto.
    + right. eapply loop_tr; eauto.
    + right. destruct r; injection H as <-; [eapply free2_tr; eauto|]. rewrite (goto_thr _ _ _ x) by exact N. eapply tr_end; eauto.
    + right. injection H as <-. eapply free2_tr; eauto.
    + right. injection H as <-. eapply free2_tr; eauto.
    + right. unfold dealloc in H. destruct (x_lmx s) eqn:L; [discriminate|]. injection H as <-. unfold finish. rewrite (upd_thr _ _ _ x) by exact N. eapply tr_dealloc; eauto.
  - destruct (pc_of s t) as [p|] eqn:P; [|injection H as <-; auto]. destruct (pc_nth _ _ _ P) as (x & N & E). destruct p; try (injection H as <-; auto; fail).
    destruct (pc_of s u) as [p|] eqn:P'; [|injection H as <-; auto]. destruct (pc_nth _ _ _ P') as (y & N' & E'). destruct p; try (injection H as <-; auto; fail).
    injection H as <-. right. cbn in O. unfold own_of in O. rewrite N in O. rewrite (upd_thr s t _ x) by exact N. destruct (Nat.eq_dec t u) as [<-|D].
    + rewrite (upd_thr _ _ _ _ (thr_same _ _ _ _ N)), thr_thr. cbn. replace (t_own x - 1 + 1) with (t_own x) by lia. rewrite E. apply tr_self; auto.
    + rewrite (upd_thr (thr _ _ _) u _ y) by (rewrite thr_other by exact D; exact N'). rewrite E'. apply tr_give; auto.
  - destruct (pc_of s t) as [p|] eqn:P; [|injection H as <-; auto]. destruct (pc_nth _ _ _ P) as (x & N & E). destruct p; try (injection H as <-; auto; fail).
    destruct (simple o) eqn:L; [|injection H as <-; auto]. apply (start_tr own seq s t x o s' N); eauto.
    + cbn in O. unfold own_of in O. rewrite N in O. exact O.
    + intros _. destruct o; try discriminate L; exact Logic.I.
    + right. split; [do 3 eexists; exact E|exact L].
Qed.

Lemma xrun_app : forall a b s, xrun s (a ++ b) = obind (xrun s a) (fun s' => xrun s' b).
Proof. induction a as [|e a IH]; intros b s; [reflexivity|]. cbn. destruct (xstep s e); cbn; [apply IH|reflexivity]. Qed.

(** Something that is true at the beginning and is kept by the steps. *)
Lemma kept_by : forall (I : xst -> Prop) (own seq : bool),
  (forall s s', I s -> tr own seq s s' -> I s') ->
  forall es s s', I s -> (own = true -> owners s es) -> (seq = true -> in_turn s es) -> xrun s es = Ok s' -> I s'.
Proof.
  intros I own seq K. induction es as [|e es IH]; intros s s' H O Q R; cbn in R; [injection R as <-; exact H|].
  destruct (xstep s e) as [s1|] eqn:E; [|discriminate]. cbn in R.
  assert (O1 : own = true -> owner s e /\ owners s1 es) by (intros A; specialize (O A); cbn in O; rewrite E in O; exact O).
  assert (Q1 : seq = true -> one_by_one s e /\ in_turn s1 es) by (intros A; specialize (Q A); cbn in Q; rewrite E in Q; exact Q).
  apply (IH s1 s'); [|intros A; apply O1; exact A|intros A; apply Q1; exact A|exact R].
  destruct (xstep_tr own seq _ _ _ E) as [-> | T]; [intros A; apply O1; exact A|intros A; apply Q1; exact A|exact H|]. eapply K; eauto.
Qed.
