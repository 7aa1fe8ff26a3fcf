From Verif Require Import Base OptsModel OptsSpec.
From Coq Require Import Lia.

Lemma process_snoc is i : opts_process (is ++ [i]) = opt_item (opts_process is) i.
Proof. unfold opts_process. rewrite fold_left_app. reflexivity. Qed.
Theorem name_read : forall is n, last_name is n -> o_name (opts_new is) = n.
Proof. intros is n H. unfold opts_new. induction H; rewrite ?process_snoc; try reflexivity; simpl; assumption. Qed.
Theorem acq_read : forall is b, last_acq is b -> o_acq (opts_new is) = b.
Proof. intros is b H. unfold opts_new. induction H; rewrite ?process_snoc; try reflexivity; simpl; assumption. Qed.
Lemma name_total is : exists n, last_name is n.
Proof.
  induction is as [|i is IH] using rev_ind; [exists None; constructor|]. destruct IH as [n H].
  destruct i; eexists; constructor; exact H.
Qed.
Lemma acq_total is : exists b, last_acq is b.
Proof.
  induction is as [|i is IH] using rev_ind; [exists true; constructor|]. destruct IH as [n H].
  destruct i; eexists; constructor; exact H.
Qed.
Theorem asks_total : forall host is, exists r, asks host is r.
Proof.
  intros host is. destruct (name_total is) as [[n|] N]; [exists (Some n); constructor; exact N|].
  destruct (acq_total is) as [[|] A]; [exists (Some host); apply as_host; assumption|exists None; apply as_none; assumption].
Qed.
Theorem name_asked : forall host is r, asks host is r -> r <> None -> server_name true (keep (Some (opts_new is)) host) = r.
Proof.
  intros host is r A N. destruct A as [is n H|is H B|is H B]; unfold server_name, keep; simpl; rewrite (name_read _ _ H); try reflexivity.
  - rewrite (acq_read _ _ B). reflexivity.
  - contradiction.
Qed.
Theorem no_options : forall host, server_name true (keep None host) = Some host.
Proof. reflexivity. Qed.
Theorem ctx_off : forall c, server_name false c = None.
Proof. reflexivity. Qed.

Lemma rel_keeps is : keeps is -> o_rel (opts_new is) = false.
Proof.
  unfold opts_new. induction is as [|i is IH] using rev_ind; intro K; [reflexivity|].
  rewrite process_snoc. assert (K' : keeps is) by (intros b H; apply K, in_or_app; left; exact H).
  destruct i; simpl; auto. apply K, in_or_app. right. left. reflexivity.
Qed.

Lemma nth_clear l i j : nth_error (clear l i) j = if Nat.eqb i j then (match nth_error l j with Some _ => Some None | None => None end) else nth_error l j.
Proof.
  revert i j. induction l as [|x l IH]; intros [|i] [|j]; simpl; try reflexivity.
  - destruct (Nat.eqb i j); reflexivity.
  - apply IH.
Qed.

(** Options not to be released live through every creation. *)
Definition okst (s : ost) (o : opts) : Prop :=
  nth_error (t_opts s) 0 = Some (Some o) /\ o_rel o = false /\ (forall x e h, In (x, e, h) (t_todo s) -> forall i, x = Some i -> i = 0%nat).
Lemma release_keep s o x : okst s o -> (forall i, x = Some i -> i = 0%nat) -> release s x = Ok s.
Proof.
  intros (N & R & T) X. destruct x as [i|]; [|reflexivity]. rewrite (X i eq_refl). simpl. unfold live. rewrite N. simpl. rewrite R. reflexivity.
Qed.
Lemma create_keep s o x e h : okst s o -> (forall i, x = Some i -> i = 0%nat) -> exists s', create s x e h = Ok s' /\ okst s' o.
Proof.
  intros K X. unfold create. destruct e; try solve [rewrite (release_keep s o x K X); eauto]; try solve [exists s; auto].
  destruct K as (N & R & T).
  assert (L : exists y, look s x = Ok y).
  { destruct x as [i|]; [|eexists; reflexivity]. rewrite (X i eq_refl). simpl. unfold live. rewrite N. simpl. eauto. }
  destruct L as [y L]. rewrite L. simpl.
  assert (K' : okst (mkT (t_opts s) (t_conns s ++ [keep y h]) (t_todo s)) o) by (repeat split; assumption).
  rewrite (release_keep _ o x K' X). eauto.
Qed.
Lemma step_keep s o v : okst s o -> reusing 0 v -> exists s', ostep s v = Ok s' /\ okst s' o.
Proof.
  intros K V. destruct v as [is|is|i|x e h|x e h| |x e h]; simpl in V; try contradiction; simpl.
  - apply create_keep with (o := o); assumption.
  - destruct e; try (rewrite (release_keep s o x K V); eauto);
    (eexists; split; [reflexivity|]; destruct K as (N & R & T); repeat split; simpl; try assumption;
     intros x' e' h' H; apply in_app_or in H; destruct H as [H|[H|[]]]; [apply (T _ _ _ H)|injection H; intros; subst; auto]).
  - destruct (t_todo s) as [|[[x e] h] r] eqn:E; [eauto|]. apply create_keep with (o := o).
    + destruct K as (N & R & T). repeat split; try assumption. simpl. intros x' e' h' H. apply (T x' e' h'). rewrite E. right. exact H.
    + destruct K as (N & R & T). apply (T x e h). rewrite E. left. reflexivity.
  - unfold http_create. destruct e; try solve [eexists; split; [reflexivity|exact K]]. destruct K as (N & R & T).
    assert (L : exists y, look s x = Ok y).
    { destruct x as [i|]; [|eexists; reflexivity]. rewrite (V i eq_refl). simpl. unfold live. rewrite N. simpl. eauto. }
    destruct L as [y L]. rewrite L. simpl. eexists. split; [reflexivity|]. repeat split; assumption.
Qed.
Theorem reuse : forall is vs, keeps is -> Forall (reusing 0) vs -> exists s, oruns os0 (VNew is :: vs) = Ok s /\ nth_error (t_opts s) 0 = Some (Some (opts_new is)).
Proof.
  intros is vs K F. simpl.
  assert (G : forall vs s, Forall (reusing 0) vs -> okst s (opts_new is) -> exists s', oruns s vs = Ok s' /\ okst s' (opts_new is)).
  { clear. induction vs as [|v vs IH]; intros s F K; [exists s; auto|]. inversion F; subst.
    destruct (step_keep s _ v K H1) as (s1 & E & K1). simpl. rewrite E. simpl. apply IH; assumption. }
  destruct (G vs (mkT [Some (opts_new is)] [] []) F) as (s & E & (N & _)).
  - repeat split; [apply rel_keeps, K|]. simpl. tauto.
  - exists s. auto.
Qed.

(** Default options given to one creation are freed by it, whatever the items; with one exception. *)
Theorem default_freed : forall s i is e host, nth_error (t_opts s) i = Some (Some (opts_default is)) -> e <> KNameInfo ->
  exists s', ostep s (VConn (Some i) e host) = Ok s' /\ nth_error (t_opts s') i = Some None /\ (forall j, j <> i -> nth_error (t_opts s') j = nth_error (t_opts s) j).
Proof.
  intros s i is e host N E.
  assert (R : forall c, exists s', release (mkT (t_opts s) c (t_todo s)) (Some i) = Ok s' /\ nth_error (t_opts s') i = Some None /\ (forall j, j <> i -> nth_error (t_opts s') j = nth_error (t_opts s) j)).
  { intro c. unfold release, opts_free, live. simpl. rewrite N. simpl. eexists. split; [reflexivity|]. simpl. split.
    - rewrite nth_clear, Nat.eqb_refl, N. reflexivity.
    - intros j J. rewrite nth_clear. destruct (Nat.eqb_spec i j); [subst; contradiction|reflexivity]. }
  assert (Es : s = mkT (t_opts s) (t_conns s) (t_todo s)) by (destruct s; reflexivity).
  pose proof (R (t_conns s)) as R1. rewrite <- Es in R1.
  destruct e; unfold ostep, create; try contradiction; try exact R1.
  unfold look, live. rewrite N. cbn [obind]. apply R.
Qed.
(** A creation that was done keeps what the options said, whether they are released or not. *)
Theorem done_keeps : forall s i o host s', nth_error (t_opts s) i = Some (Some o) -> ostep s (VConn (Some i) KDone host) = Ok s' ->
  t_conns s' = t_conns s ++ [keep (Some o) host].
Proof.
  intros s i o host s' N H. unfold ostep, create, look, live in H. rewrite N in H. cbn [obind] in H.
  unfold release, opts_free, live in H. simpl in H. rewrite N in H. simpl in H. destruct (o_rel o); simpl in H; injection H as <-; reflexivity.
Qed.

Theorem acquire_off_refuted : exists host is, asks host is None /\ server_name true (keep (Some (opts_new is)) host) = Some host.
Proof.
  exists 9%nat, [IAcquire false]. split; [|reflexivity]. apply as_none.
  - apply (ln_acq [] None false). constructor.
  - apply (la_set [] false).
Qed.
Theorem ctx_off_refuted : exists host is n, asks host is (Some n) /\ server_name false (keep (Some (opts_new is)) host) = None.
Proof. exists 9%nat, [IName (Some 3%nat)], 3%nat. split; [|reflexivity]. apply as_name, (ln_set []). Qed.
Theorem nameinfo_leak_refuted : exists vs s, vs = [VDefault []; VConn (Some 0%nat) KNameInfo 9] /\ oruns os0 vs = Ok s /\ t_opts s = [Some (opts_default [])].
Proof. do 2 eexists. split; [reflexivity|]. split; reflexivity. Qed.
Theorem http_leak_refuted : exists vs s, vs = [VDefault []; VHttp (Some 0%nat) KDone 9] /\ oruns os0 vs = Ok s /\ t_opts s = [Some (opts_default [])].
Proof. do 2 eexists. split; [reflexivity|]. split; reflexivity. Qed.
Theorem free_threaded_refuted : exists is e host, keeps is /\ oruns os0 [VNew is; VStart (Some 0%nat) e host; VFree 0; VRun] = UB.
Proof. exists [], KDone, 9%nat. split; [intros b []|reflexivity]. Qed.
Theorem twice_refuted : exists vs, vs = [VDefault []; VStart (Some 0%nat) KTcp 9; VStart (Some 0%nat) KTcp 9; VRun; VRun] /\ oruns os0 vs = UB.
Proof. eexists. split; reflexivity. Qed.
