(** When nothing is serialised every frame is waiting or was decided. *)
From Verif Require Import Base HdrModel HdrProofs DlvModel DlvSpec DlvProofs DlvProofs2 DlvProofs4.

Definition st0 (s : dst) : Prop := forall i c, nth_error (d_chans s) i = Some (Some c) -> c_ser c = false /\ c_stored c = [].
Definition ww (s s' : dst) (n : nat -> nat) : Prop := (forall i, WW s' i = WW s i + n i)%nat /\ st0 s'.
Lemma st0_upd : forall s i q s', st0 s -> d_chans s' = upd_nth (d_chans s) i q -> match q with Some c => c_ser c = false /\ c_stored c = [] | None => True end -> st0 s'.
Proof.
  intros s i q s' U E Q j c H. rewrite E in H. destruct (Nat.eq_dec i j) as [->|N]; [|rewrite nth_upd_other in H by auto; eapply U; eauto].
  destruct (lt_dec j (length (d_chans s))) as [L|L].
  - rewrite nth_upd_same in H by auto. injection H as ->. exact Q.
  - apply nth_lt in H. rewrite upd_nth_length in H. lia.
Qed.
Lemma ww_trans : forall a b c x y, ww a b x -> ww b c y -> ww a c (fun i => x i + y i)%nat.
Proof. intros a b c x y (A & B) (C & D). split; auto. intros i. rewrite C, A. lia. Qed.
Lemma ww_ext : forall a b x y, ww a b x -> (forall i, x i = y i) -> ww a b y.
Proof. intros a b x y (A & B) E. split; auto. intros i. rewrite A, E. auto. Qed.
Lemma ww_write : forall s i c f, st0 s -> nth_error (d_chans s) i = Some (Some c) -> (c_ser c = false -> c_ser (f c) = false) -> (c_stored c = [] -> c_stored (f c) = []) ->
  ww s (put_chans s (upd_nth (d_chans s) i (Some (f c)))) zero.
Proof.
  intros s i c f Z D E F. destruct (Z i c D) as (Z1 & Z2). split; [|eapply st0_upd; eauto; [reflexivity|cbn; auto]].
  intros j. pose proof (held_upd (d_chans s) i _ (Some (f c)) j D) as H. cbn in H. rewrite Z2, F in H by auto. simp. unfold zero. cbn in H. lia.
Qed.
Lemma ww_unref : forall s i s', st0 s -> unref_ch s i = Ok s' -> ww s s' zero.
Proof.
  intros s i s' Z H. destruct (unref_is _ _ _ H) as (c & D & [(E & ->)|(E & ->)]); [|apply (ww_write s i c (set_ref (c_ref c - 1))); auto].
  destruct (Z i c D) as (Z1 & Z2). rewrite Z2. split; [|eapply st0_upd; eauto; [reflexivity|exact Logic.I]]. intros j. pose proof (held_upd (d_chans s) i _ None j D) as K. cbn in K. rewrite Z2 in K. simp. unfold zero. rewrite decided_app, cnt_app. cbn in *. lia.
Qed.
Lemma ww_see : forall s o n, st0 s -> (forall i, cnt (decided o) i = n i) -> ww s (see s o) n.
Proof. intros s o n Z H. split; auto. intros i. simp. rewrite decided_app, cnt_app, H. lia. Qed.
Lemma ww_leave : forall s i f s', st0 s -> leave s i f = Ok s' -> ww s s' zero.
Proof.
  intros s i f s' Z H. unfold leave in H. mon. apply ww_unref in M; auto. destruct M as (M1 & M2). destruct f as [f|]; injection H as <-; split; auto; intros j; rewrite <- M1; simp; auto. rewrite decided_app, cnt_app. cbn. lia.
Qed.
Lemma st0_pending : forall s i f s' g c, st0 s -> nth_error (d_chans s) i = Some (Some c) -> pending s i f = Ok (s', g) -> s' = s /\ g = None.
Proof. intros s i f s' g c Z D P. eapply pending_ser; eauto. apply (Z i c D). Qed.
Lemma ww_deliver2 : forall n s i f s', st0 s -> deliver2 n s i f = Ok s' -> ww s s' (ind (f_id f)).
Proof.
  intros n s i f s' Z H. assert (G : exists c, nth_error (d_chans s) i = Some (Some c)) by (destruct n; cbn [deliver2] in H; mon; eauto). destruct G as (c & D). assert (X : chan_at s i = Ok c) by (unfold chan_at; rewrite D; auto).
  assert (W : forall h, ww s (see (put_runs s (d_runs s ++ [R2 i f])) [ODeliver (f_id f) (WChan h)]) (ind (f_id f))).
  { intros h. split; auto. intros j. simp. rewrite decided_app, cnt_app. cbn. lia. }
  destruct n; cbn [deliver2] in H; rewrite X in H; cbn [obind] in H; (destruct (c_recv c); [injection H as <-; apply W|]);
    (destruct (pending _ _ _) as [[s1 g]|] eqn:P; [|discriminate]); cbn [obind] in H; destruct (st0_pending (see s [ODrop (f_id f)]) _ _ _ _ c Z D P) as (-> & ->);
    (apply ww_leave in H; [|exact Z]); (eapply ww_ext; [eapply ww_trans; [|exact H]; apply (ww_see s [ODrop (f_id f)] (ind (f_id f))); auto|]); intros j; unfold zero; cbn; lia.
Qed.
Lemma ww_drop : forall s f s', st0 s -> (let! s := unref_conn (see s [ODrop f]) in Ok (see s [OFree f])) = Ok s' -> ww s s' (ind f).
Proof. intros s f s' Z H. mon. injection H as <-. split; auto. intros i. simp. rewrite !decided_app, !cnt_app. cbn. lia. Qed.
Lemma st0_check : forall s i f o, st0 s -> check_serialize s i f = Ok o -> o = Some s.
Proof. intros s i f o Z H. unfold check_serialize in H. mon. destruct (Z i c D) as (Z1 & Z2). rewrite Z1 in H. injection H as <-. auto. Qed.
Lemma ww_perform : forall s t s', st0 s -> perform s t = Ok s' -> ww s s' (ind (task_frame t)).
Proof.
  intros s [i f|i f] s' Z H; cbn [perform task_frame] in *.
  - set (s0 := put_data s (d_data s - 1)) in *. assert (Z0 : st0 s0) by exact Z. assert (E : ww s0 s' (ind (f_id f)) -> ww s s' (ind (f_id f))) by (intros (A & B); split; auto). apply E.
    destruct (negb (d_up s0)).
    + apply ww_leave in H; [|exact Z]. eapply ww_ext; [eapply ww_trans; [|exact H]; apply (ww_see s0 [ODrop (f_id f)] (ind (f_id f))); auto|]; intros j; unfold zero; cbn; lia.
    + mon. apply st0_check in M; auto. subst a. mon. eapply ww_deliver2; eauto.
  - destruct (d_prof s) as [h|]; [|eapply ww_drop; eauto]. set (s0 := put_data s (d_data s - 1)) in *. assert (Z0 : st0 s0) by exact Z. assert (E : ww s0 s' (ind (f_id f)) -> ww s s' (ind (f_id f))) by (intros (A & B); split; auto). apply E.
    destruct (negb (d_up s0)); [eapply ww_drop; eauto|]. destruct (d_cur s0); [|eapply ww_drop; eauto]. mon. apply st0_check in M; auto. subst a. injection H as <-. split; auto. intros j. simp. rewrite decided_app, cnt_app. cbn. lia.
Qed.
Lemma ww_returns : forall s r s', st0 s -> returns s r = Ok s' -> ww s s' zero.
Proof.
  intros s [i f|i f h] s' Z H; cbn [returns] in *; mon; match goal with p : (dst * option frame)%type |- _ => destruct p as [s1 g] end; destruct (st0_pending _ _ _ _ _ _ Z D M) as (-> & ->); eapply ww_leave; eauto.
Qed.
Definition WK (s : dst) : Prop := (forall i, WW s i = one (d_count s) i) /\ st0 s.
Lemma WK_same : forall s s', ww s s' zero -> d_count s' = d_count s -> WK s -> WK s'.
Proof. intros s s' (A & B) D (K1 & K2). split; auto. intros i. rewrite D, A, K1. unfold zero. lia. Qed.
Lemma count_step : forall s e s', dstep s e = Ok s' -> uq s -> d_count s' = (match e with DFrame _ _ _ => match d_up s, d_cur s with true, Some _ => 1 | _, _ => 0 end | _ => 0 end + d_count s)%nat.
Proof.
  intros s e s' H U. destruct e; cbn [dstep] in H; try (injection H as <-; reflexivity).
  - unfold on_cur in H. destruct (d_cur s); [apply write_is in H; destruct H as (c & D & ->)|injection H as <-]; auto.
  - unfold on_cur in H. destruct (d_cur s); [apply write_is in H; destruct H as (c & D & ->)|injection H as <-]; auto.
  - unfold on_cur in H. destruct (d_cur s); [apply write_is in H; destruct H as (c & D & ->)|injection H as <-]; auto.
  - destruct (d_up s); [|injection H as <-; auto]. unfold receive in H. destruct (d_cur s) as [i|]; [|injection H as <-; auto]. mon. destruct (_ && _); [injection H as <-; auto|].
    destruct (reply && _); [mon; injection H as <-; auto|]. destruct (c_recv c); [unfold ref_ch in H; mon; injection H as <-; auto|]. destruct (d_prof _); [unfold ref_ch in H; mon; injection H as <-; auto|injection H as <-; auto].
  - destruct (nth_error (d_tasks s) k); [|injection H as <-; auto]. apply tot_perform in H. apply H in U. apply U.
  - destruct (nth_error (d_runs s) k); [|injection H as <-; auto]. apply tot_returns in H. apply H in U. apply U.
  - destruct (d_cur s); [|injection H as <-; auto]. apply adds_unref in H. apply H.
  - destruct (d_cur s); [injection H as <-; auto|]. destruct (d_up s); injection H as <-; auto.
Qed.
Lemma ww_on_cur : forall s f s', on_cur s f = Ok s' -> (forall c, (c_ser c = false -> c_ser (f c) = false) /\ (c_stored c = [] -> c_stored (f c) = [])) -> st0 s -> ww s s' zero.
Proof.
  intros s f s' H G Z. unfold on_cur in H. destruct (d_cur s) as [i|]; [|injection H as <-; split; auto; intros; unfold zero; lia]. apply write_is in H. destruct H as (c & D & ->). destruct (G c). apply ww_write; auto.
Qed.
Lemma ww_task : forall s t j, WW (put_tasks s (d_tasks s ++ [t])) j = (WW s j + ind (task_frame t) j)%nat.
Proof. intros s t j. simp. rewrite map_app, cnt_app. cbn. lia. Qed.
Lemma ww_receive : forall s r n z s' i, receive s r n z = Ok s' -> d_cur s = Some i -> st0 s -> ww s s' (ind (d_count s)).
Proof.
  intros s r n z s' i H C Z. unfold receive in H. rewrite C in H. mon. rewrite D in D0. injection D0 as <-.
  set (c1 := set_exp _ c) in *. set (s1 := next_id _) in *. set (f := mkF _ _ _) in *.
  assert (W1 : ww s s1 zero) by (destruct (ww_write s i c (set_exp ((c_exp c + z) mod modulus)) Z D) as (A & B); auto; split; auto). pose proof W1 as (W1a & W1b).
  assert (F : forall s2, ww s1 s2 (ind (f_id f)) -> ww s s2 (ind (d_count s))) by (intros s2 X; eapply ww_ext; [eapply ww_trans; [exact W1|exact X]|]; intros j; unfold zero; cbn; lia).
  assert (D1 : nth_error (d_chans s1) i = Some (Some c1)) by (cbn; rewrite nth_upd_same by (eapply nth_lt; eauto); auto).
  destruct (_ && _); [injection H as <-; apply F; apply ww_see; auto; intros j; cbn; lia|].
  destruct (r && _).
  { mon. rewrite D1 in D0. injection D0 as <-. injection H as <-. apply F. assert (X : ww s1 (put_chans s1 (upd_nth (d_chans s1) i (Some (set_wait (tl (c_wait c)) c1)))) zero) by (apply (ww_write s1 i c1 (set_wait (tl (c_wait c)))); auto).
    eapply ww_ext; [eapply ww_trans; [exact X|apply ww_see; [apply X|reflexivity]]|]. intros j; unfold zero; cbn; lia. }
  assert (Q : forall t s', task_frame t = f_id f -> (let! s0 := ref_ch (put_conn (put_data s1 (d_data s1 + 1)) (d_conn s1 + 1)) i in Ok (put_tasks s0 (d_tasks s0 ++ [t]))) = Ok s' -> ww s s' (ind (d_count s))).
  { intros t s2 T Q. apply F. unfold ref_ch in Q. mon. set (sa := put_conn _ _) in *. change (d_chans sa) with (d_chans s1) in D0. rewrite D1 in D0. injection D0 as <-. injection Q as <-.
    destruct (ww_write sa i c1 (fun c => set_ref (c_ref c + 1) c) W1b D1) as (X1 & X2); auto. split; [|exact X2]. intros j. etransitivity; [exact (ww_task (put_chans sa (upd_nth (d_chans sa) i (Some (set_ref (c_ref c1 + 1) c1)))) t j)|]. rewrite X1, T. change (WW sa j) with (WW s1 j). unfold zero. lia. }
  destruct (c_recv c); [eapply (Q (T2 i f)); eauto|]. destruct (d_prof s1); [eapply (Q (T1 i f)); eauto|]. injection H as <-. apply F. apply ww_see; auto. intros j; cbn; lia.
Qed.
Lemma WK_step : forall s e s', dstep s e = Ok s' -> e <> DSerial true -> uq s -> WK s -> WK s'.
Proof.
  intros s e s' H N U K. pose proof (count_step _ _ _ H U) as CS. pose proof K as (K1 & K2). destruct e; cbn [dstep] in H; cbn [Nat.add] in CS; try (injection H as <-; exact K).
  - eapply WK_same; [eapply ww_on_cur; [exact H| |auto]|auto|auto]. intros c. cbn. auto.
  - eapply WK_same; [eapply ww_on_cur; [exact H| |auto]|auto|auto]. intros c. destruct b; [congruence|]. cbn. auto.
  - eapply WK_same; [eapply ww_on_cur; [exact H| |auto]|auto|auto]. intros c. cbn. auto.
  - destruct (d_up s); [|injection H as <-; auto]. destruct (d_cur s) as [i|] eqn:C; [|unfold receive in H; rewrite C in H; injection H as <-; auto].
    destruct (ww_receive _ _ _ _ _ _ H C K2) as (A & B). split; auto. intros j. rewrite CS. cbn [Nat.add]. rewrite A, K1, one_S. auto.
  - destruct (nth_error (d_tasks s) k) as [t|] eqn:E; [|injection H as <-; auto]. apply ww_perform in H; [|exact K2]. destruct H as (A & B). split; auto. intros i. rewrite CS, A, <- K1.
    pose proof (cnt_drop task_frame _ _ _ i E). simp. lia.
  - destruct (nth_error (d_runs s) k) as [t|] eqn:E; [|injection H as <-; auto]. apply ww_returns in H; [|exact K2]. destruct H as (A & B). split; auto. intros i. rewrite CS, A, <- K1. unfold zero. simp. lia.
  - destruct (d_cur s) as [i|]; [|injection H as <-; auto]. apply ww_unref in H; [|exact K2]. destruct H as (A & B). split; auto. intros j. rewrite CS, A. unfold zero. rewrite Nat.add_0_r. exact (K1 j).
  - destruct (d_cur s) as [i|]; [injection H as <-; auto|]. destruct (d_up s); injection H as <-; auto. split.
    + intros j. simp. rewrite held_add. cbn. specialize (K1 j). simp. lia.
    + intros j c H. cbn in H. destruct (lt_dec j (length (d_chans s))) as [L|L]; [rewrite nth_error_app1 in H by auto; eapply K2; eauto|].
      rewrite nth_error_app2 in H by lia. destruct (j - length (d_chans s))%nat as [|m]; cbn in H; [injection H as <-; auto|destruct m; discriminate].
Qed.
Lemma WK_run : forall es s s', drun s es = Ok s' -> no_serialize es -> KK s -> WK s -> WK s'.
Proof.
  induction es as [|e es IH]; intros s s' H N K W; cbn [drun] in H; [injection H as <-; auto|]. mon. apply (IH a s'); auto.
  - intros X. apply N. right. auto.
  - eapply KK_step; eauto.
  - eapply WK_step; eauto; [intros ->; apply N; left; auto|apply K].
Qed.
Lemma all_decided : forall z es s, no_serialize es -> drun (d0 z) es = Ok s -> forall i, (i < d_count s)%nat -> In i (waiting s ++ decided (d_log s)).
Proof.
  intros z es s N H i L. assert (W : WK s).
  { eapply WK_run; eauto; [apply KK_init|]. split; [intros j; cbn; unfold one; destruct (Nat.ltb_spec j 0); lia|]. intros [|j] c X; cbn in X; [injection X as <-; auto|destruct j; discriminate]. }
  destruct W as (W1 & W2). rewrite (count_occ_In Nat.eq_dec), cnt_occ. unfold waiting. rewrite !cnt_app. specialize (W1 i). unfold WW, held in W1. unfold one in W1. destruct (Nat.ltb_spec i (d_count s)); lia.
Qed.
Lemma all_delivered : forall z e es, (exists h, e = DChan (Some h) \/ e = DProf (Some h)) -> kept es -> no_serialize es ->
  exists s, drun (d0 z) (e :: es) = Ok s /\ dropped (d_log s) = [] /\ (d_tasks s = [] -> forall i, (i < d_count s)%nat -> exists w, In (ODeliver i w) (d_log s)).
Proof.
  intros z e es E K N. destruct (none_dropped z e es E K) as (s & R & D). exists s. split; auto. split; auto. intros T i L.
  assert (NE : no_serialize (e :: es)) by (intros [X|X]; [destruct E as (h & [-> | ->]); discriminate|exact (N X)]).
  pose proof (all_decided _ _ _ NE R i L) as I. assert (W : WK s).
  { eapply WK_run; eauto; [apply KK_init|]. split; [intros j; cbn; unfold one; destruct (Nat.ltb_spec j 0); lia|]. intros [|j] c X; cbn in X; [injection X as <-; auto|destruct j; discriminate]. }
  destruct W as (_ & Z). assert (Hd : flat_map held_by (d_chans s) = []).
  { clear - Z. unfold st0 in Z. induction (d_chans s) as [|x l IH]; auto. cbn. rewrite IH by (intros j c; exact (Z (S j) c)). destruct x as [c|]; auto. destruct (Z 0%nat c eq_refl) as (_ & Q). cbn. rewrite Q. auto. }
  unfold waiting in I. rewrite T, Hd in I. cbn in I. unfold decided in I. apply in_flat_map in I. destruct I as (o & O1 & O2). destruct o as [j w|j|j]; cbn in O2; try contradiction; destruct O2 as [<-|[]]; [eauto|].
  exfalso. assert (In j (dropped (d_log s))) by (unfold dropped; apply in_flat_map; exists (ODrop j); cbn; auto). rewrite D in H. contradiction.
Qed.
