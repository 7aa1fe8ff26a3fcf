From Verif Require Import Base SslModel SslSpec.
From Coq Require Import Lia.

Lemma read_intr h s t : h_queue t = false -> s_shut s = false -> forall n al,
  exists s' t', h_queue t' = false /\ s_shut s' = false /\ ssl_read h s t (repeat (mkTn (DErrno EINTR) []) n ++ al) = ssl_read h s' t' al.
Proof.
  intros Q S0 n. revert s t Q S0. induction n as [|n IH]; intros s t Q S0 al; [exists s, t; auto|].
  destruct (IH (mkS false false) (mkH false EINTR) eq_refl eq_refl al) as (s' & t' & A & B & C).
  exists s', t'. repeat split; auto. rewrite <- C. simpl. unfold get_error. simpl. rewrite Q, S0. simpl.
  unfold touch, touch_thr. rewrite S0, Q. reflexivity.
Qed.
Lemma write_intr s t : h_queue t = false -> s_shut s = false -> forall n al,
  exists s' t', h_queue t' = false /\ s_shut s' = false /\ ssl_write s t (repeat (mkTn (DErrno EINTR) []) n ++ al) = ssl_write s' t' al.
Proof.
  intros Q S0 n. revert s t Q S0. induction n as [|n IH]; intros s t Q S0 al; [exists s, t; auto|].
  destruct (IH (mkS false false) (mkH false EINTR) eq_refl eq_refl al) as (s' & t' & A & B & C).
  exists s', t'. repeat split; auto. rewrite <- C. simpl. unfold get_error. simpl. rewrite Q, S0. simpl.
  unfold touch, touch_thr. rewrite S0, Q. reflexivity.
Qed.

Theorem read_value : forall h s t al d v, h_queue t = false -> s_shut s = false -> call_of al d -> read_means d v ->
  exists r, ssl_read h s t al = Some r /\ r_val r = v /\ (r_notified r = true <-> d = DBad) /\ s_shut (r_ssl r) = is_closed d /\
    (h = None \/ d <> DBad -> h_queue (r_thr r) = false).
Proof.
  intros h s t al d v Q S0 (n & E) M. subst al. destruct (read_intr h s t Q S0 n [mkTn d []]) as (s' & t' & Q' & S' & C). rewrite C.
  simpl. unfold get_error, touch_thr, touch. simpl. rewrite Q', S'.
  destruct M as [m P| | | |e P|]; simpl.
  - replace (0 <? m) with true by (symmetry; apply Z.ltb_lt; lia). eexists; repeat split; try reflexivity; discriminate.
  - eexists; repeat split; try reflexivity; discriminate.
  - eexists; repeat split; try reflexivity; discriminate.
  - eexists; repeat split; try reflexivity; discriminate.
  - replace (e =? EINTR) with false by (symmetry; apply Z.eqb_neq; assumption). eexists; repeat split; try reflexivity; discriminate.
  - eexists; repeat split; try reflexivity. simpl. intros [H|H]; [subst h; reflexivity|exfalso; apply H; reflexivity].
Qed.
Theorem write_value : forall s t al d v, h_queue t = false -> s_shut s = false -> call_of al d -> write_means d v ->
  exists r, ssl_write s t al = Some r /\ r_val r = v /\ r_notified r = false /\ s_shut (r_ssl r) = is_closed d /\ (d <> DBad -> h_queue (r_thr r) = false).
Proof.
  intros s t al d v Q S0 (n & E) M. subst al. destruct (write_intr s t Q S0 n [mkTn d []]) as (s' & t' & Q' & S' & C). rewrite C.
  simpl. unfold get_error, touch_thr, touch. simpl. rewrite Q', S'.
  destruct M as [m P| | | |e P|]; simpl.
  - replace (0 <? m) with true by (symmetry; apply Z.ltb_lt; lia). eexists; repeat split; try reflexivity; discriminate.
  - eexists; repeat split; try reflexivity; discriminate.
  - eexists; repeat split; try reflexivity; discriminate.
  - eexists; repeat split; try reflexivity; discriminate.
  - replace (e =? EINTR) with false by (symmetry; apply Z.eqb_neq; assumption). eexists; repeat split; try reflexivity; discriminate.
  - eexists; repeat split; try reflexivity. intros H; exfalso; apply H; reflexivity.
Qed.

Lemma run_from : forall os vs w, h_queue (n_thr w) = false -> (forall c, s_shut (n_ssl w c) = false) ->
  Forall2 (fun o v => exists d, plain o d v) os vs -> exists w', srun None w os = Some w' /\ n_vals w' = n_vals w ++ vs.
Proof.
  induction os as [|o os IH]; intros vs w Q S0 F; inversion F as [|o' v os' vs' (d & P) F' X1 X2]; subst.
  - exists w. rewrite app_nil_r. auto.
  - simpl. unfold sstep. destruct P as [c al d v C M N|c al d v C M N B].
    + destruct (read_value None _ _ _ _ _ Q (S0 c) C M) as (r & E & V & _ & SH & QQ). rewrite E.
      destruct (IH vs' (mkN (put (n_ssl w) c (r_ssl r)) (r_thr r) (n_vals w ++ [r_val r]) (n_told w ++ [r_notified r]))) as (w' & R & W); auto; simpl.
      { intros x. unfold put. destruct (Nat.eqb x c); [|apply S0]. rewrite SH. destruct d; try reflexivity. exfalso; apply N; reflexivity. }
      exists w'. split; [exact R|]. rewrite W. simpl. rewrite V, <- app_assoc. reflexivity.
    + destruct (write_value _ _ _ _ _ Q (S0 c) C M) as (r & E & V & _ & SH & QQ). rewrite E.
      destruct (IH vs' (mkN (put (n_ssl w) c (r_ssl r)) (r_thr r) (n_vals w ++ [r_val r]) (n_told w ++ [r_notified r]))) as (w' & R & W); auto; simpl.
      { intros x. unfold put. destruct (Nat.eqb x c); [|apply S0]. rewrite SH. destruct d; try reflexivity. exfalso; apply N; reflexivity. }
      exists w'. split; [exact R|]. rewrite W. simpl. rewrite V, <- app_assoc. reflexivity.
Qed.
Theorem run_values : forall os vs, Forall2 (fun o v => exists d, plain o d v) os vs -> exists w, srun None net0 os = Some w /\ n_vals w = vs.
Proof. intros os vs F. destruct (run_from os vs net0 eq_refl (fun _ => eq_refl) F) as (w & R & V). exists w. auto. Qed.

(** Whatever the other threads do and whatever is in the queue, a read that would block is one to come again for. *)
Theorem read_again : forall s t a r, t_did a = DWant -> exists x, ssl_read None s t (a :: r) = Some x /\ come_again x = true.
Proof.
  intros s t [d mid] r E. simpl in E. subst d. simpl. unfold get_error. simpl.
  destruct (h_queue t || false); [eexists; split; reflexivity|].
  destruct (s_want (fold_left touch mid (touch s DWant))); [eexists; split; reflexivity|].
  destruct (s_shut (fold_left touch mid (touch s DWant))); eexists; split; reflexivity.
Qed.
(** Octets read are told, whatever else happens. *)
Theorem data_told : forall h s t n mid r, 0 < n ->
  (exists x, ssl_read h s t (mkTn (DData n) mid :: r) = Some x /\ r_val x = n) /\ (exists x, ssl_write s t (mkTn (DData n) mid :: r) = Some x /\ r_val x = n).
Proof.
  intros h s t n mid r P. simpl. unfold get_error. replace (0 <? n) with true by (symmetry; apply Z.ltb_lt; lia). split; eexists; split; reflexivity.
Qed.

Theorem poison_refuted : exists os w, srun None net0 os = Some w /\ os = [OWrite 1 (one DBad); OWrite 2 (one DWant)] /\ n_vals w = [-1; -1].
Proof. do 2 eexists. split; [|split; [reflexivity|]]; reflexivity. Qed.
Theorem poison_handler_refuted : exists h os w, srun h net0 os = Some w /\ os = [ORead 1 (one DBad); ORead 2 (one DWant); ORead 3 (one DClosed)] /\
  n_vals w = [-1; -1; -1] /\ n_told w = [true; true; true].
Proof. exists (Some 0). do 2 eexists. split; [|split; [reflexivity|]]; repeat split; reflexivity. Qed.
Theorem race_blocked_refuted : exists mid r, ssl_read None (mkS false false) (mkH false 0) [mkTn DWant mid] = Some r /\ r_val r = -1.
Proof. exists [DData 10]. eexists. split; reflexivity. Qed.
Theorem race_failed_refuted : exists e mid r, e <> EINTR /\ ssl_read None (mkS false false) (mkH false 0) [mkTn (DErrno e) mid] = Some r /\ r_val r = -2.
Proof. exists 104, [DWant]. eexists. split; [discriminate|]. split; reflexivity. Qed.
Theorem race_closed_refuted : exists mid r, ssl_write (mkS false false) (mkH false 0) [mkTn DWant mid] = Some r /\ r_val r = 0.
Proof. exists [DClosed]. eexists. split; reflexivity. Qed.
