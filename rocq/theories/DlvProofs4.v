(** Who gets a frame, and that it does while the handlers are kept. *)
From Verif Require Import Base HdrModel HdrProofs DlvModel DlvSpec DlvProofs DlvProofs2.

Lemma nth_add : forall {A} (l : list A) x, nth_error (l ++ [x]) (length l) = Some x.
Proof. intros. rewrite nth_error_app2 by auto. rewrite Nat.sub_diag. auto. Qed.
Lemma perform_T2 : forall s i c f h, d_up s = true -> nth_error (d_chans s) i = Some (Some c) -> c_ser c = false -> c_recv c = Some h ->
  exists s', perform s (T2 i f) = Ok s' /\ d_log s' = d_log s ++ [ODeliver (f_id f) (WChan h)].
Proof.
  intros s i c f h U D SR R. cbn [perform]. set (s0 := put_data s (d_data s - 1)). change (d_up s0) with (d_up s). rewrite U. cbn [negb].
  assert (X : chan_at s0 i = Ok c) by (unfold chan_at; cbn; rewrite D; auto). unfold check_serialize. rewrite X. cbn [obind]. rewrite SR. cbn [andb obind]. rewrite X. cbn [obind].
  destruct (length (c_stored c)); cbn [deliver2]; rewrite X; cbn [obind]; rewrite R; eexists; split; reflexivity.
Qed.
Lemma perform_T1 : forall s j i c f h, d_up s = true -> d_cur s = Some i -> nth_error (d_chans s) i = Some (Some c) -> c_ser c = false -> d_prof s = Some h ->
  exists s', perform s (T1 j f) = Ok s' /\ d_log s' = d_log s ++ [ODeliver (f_id f) (WProf h)].
Proof.
  intros s j i c f h U C D SR R. cbn [perform]. rewrite R. set (s0 := put_data s (d_data s - 1)). change (d_up s0) with (d_up s). change (d_cur s0) with (d_cur s). rewrite U, C. cbn [negb].
  assert (X : chan_at s0 i = Ok c) by (unfold chan_at; cbn; rewrite D; auto). unfold check_serialize. rewrite X. cbn [obind]. rewrite SR. cbn [andb obind]. eexists; split; reflexivity.
Qed.
Lemma who_gets : forall s i c reply n size, d_up s = true -> d_cur s = Some i -> nth_error (d_chans s) i = Some (Some c) -> c_ser c = false ->
  exists s', drun s [DFrame reply n size; DTask (length (d_tasks s))] = Ok s' /\
  d_log s' = d_log s ++ given (d_count s) (recipient (d_zero s) (d_glob s) (reply && match c_wait c with m :: _ => m =? n | [] => false end) n (c_recv c) (d_prof s)).
Proof.
  intros s i c reply n size U C D SR. assert (LT : (i < length (d_chans s))%nat) by (eapply nth_lt; eauto). cbn [drun dstep]. rewrite U. unfold receive. rewrite C.
  unfold chan_at at 1. rewrite D. cbn [obind]. unfold write at 1, chan_at at 1. rewrite D. cbn [obind].
  set (c1 := set_exp ((c_exp c + size) mod modulus) c). set (s1 := next_id _). set (f := mkF _ _ _).
  assert (D1 : nth_error (d_chans s1) i = Some (Some c1)) by (cbn; rewrite nth_upd_same by auto; auto).
  assert (NT : nth_error (d_tasks s) (length (d_tasks s)) = None) by (apply nth_error_None; auto).
  change (d_zero s1) with (d_zero s). change (d_glob s1) with (d_glob s). change (d_prof s1) with (d_prof s). unfold recipient. rewrite (andb_comm (d_glob s)).
  destruct (negb (d_zero s) && d_glob s).
  { cbn [obind d_tasks see s1 next_id put_chans]. rewrite NT. cbn [obind]. eexists. split; reflexivity. }
  destruct (reply && _).
  { unfold write, chan_at. rewrite D1. cbn [obind d_tasks see s1 next_id put_chans]. rewrite NT. cbn [obind]. eexists. split; reflexivity. }
  assert (Q : forall t, exists c2, c_recv c2 = c_recv c /\ c_ser c2 = false /\ (let! s0 := ref_ch (put_conn (put_data s1 (d_data s1 + 1)) (d_conn s1 + 1)) i in Ok (put_tasks s0 (d_tasks s0 ++ [t]))) =
    Ok (mkD (d_up s) (d_zero s) (d_glob s) (d_prof s) (upd_nth (d_chans s1) i (Some c2)) (d_cur s) (d_conn s + 1) (S (d_count s)) (d_tasks s ++ [t]) (d_runs s) (d_data s + 1) (d_log s))).
  { intros t. unfold ref_ch, write, chan_at. cbn [d_chans put_conn put_data]. rewrite D1. cbn [obind]. eexists. split; [|split; [|reflexivity]]; [reflexivity|exact SR]. }
  assert (LT1 : (i < length (d_chans s1))%nat) by (eapply nth_lt; eauto).
  assert (N2 : forall c2, nth_error (upd_nth (d_chans s1) i (Some c2)) i = Some (Some c2)) by (intros; apply nth_upd_same; auto).
  destruct (c_recv c) as [h|] eqn:RC.
  { destruct (Q (T2 i f)) as (c2 & R2' & S2 & ->). cbn [obind d_tasks]. rewrite nth_add. match goal with |- context [perform ?x (T2 i f)] => destruct (perform_T2 x i c2 f h) as (s' & -> & L) end; auto.
    { apply N2. }
    cbn [obind]. exists s'. auto. }
  destruct (d_prof s) as [h|] eqn:PR.
  { destruct (Q (T1 i f)) as (c2 & R2' & S2 & ->). cbn [obind d_tasks]. rewrite nth_add. match goal with |- context [perform ?x (T1 i f)] => destruct (perform_T1 x i i c2 f h) as (s' & -> & L) end; auto.
    { apply N2. }
    cbn [obind]. exists s'. auto. }
  cbn [obind d_tasks see s1 next_id put_chans]. rewrite NT. cbn [obind]. eexists. split; reflexivity.
Qed.

(** Nothing is dropped while the handlers are kept. *)
Definition hasr (s : dst) : Prop := exists c, d_chans s = [Some c] /\ c_recv c <> None.
Definition NN (s : dst) : Prop :=
  d_up s = true /\ d_cur s = Some 0%nat /\ (hasr s \/ d_prof s <> None) /\ (forall t, In t (d_tasks s) -> task_ch t = 0%nat /\ match t with T2 _ _ => hasr s | T1 _ _ => d_prof s <> None end) /\
  (forall r, In r (d_runs s) -> run_ch r = 0%nat /\ match r with R2 _ _ => hasr s | _ => True end) /\ dropped (d_log s) = [].
Lemma dropped_app : forall a b, dropped (a ++ b) = dropped a ++ dropped b.
Proof. intros. apply flat_map_app. Qed.
Lemma dropped_frees : forall l, dropped (map (fun f => OFree (f_id f)) l) = [].
Proof. induction l; auto. Qed.
(** The parts that do not change. *)
Definition keeps (s s' : dst) : Prop :=
  d_up s' = d_up s /\ d_cur s' = d_cur s /\ d_prof s' = d_prof s /\ d_tasks s' = d_tasks s /\ (hasr s -> hasr s') /\ (dropped (d_log s) = [] -> dropped (d_log s') = []).
Lemma keeps_refl : forall s, keeps s s.
Proof. intros s. repeat split; auto. Qed.
Lemma keeps_trans : forall a b c, keeps a b -> keeps b c -> keeps a c.
Proof. intros a b c (A1 & A2 & A3 & A4 & A5 & A6) (B1 & B2 & B3 & B4 & B5 & B6). repeat split; auto; congruence. Qed.
Lemma keeps_write : forall s c f, d_chans s = [Some c] -> (c_recv c <> None -> c_recv (f c) <> None) -> keeps s (put_chans s (upd_nth (d_chans s) 0 (Some (f c)))).
Proof. intros s c f D H. repeat split; auto. intros (c' & D' & R). rewrite D in D'. injection D' as <-. unfold hasr. cbn. rewrite D. cbn. eauto. Qed.
Lemma keeps_unref : forall s c, d_chans s = [Some c] -> 1 < c_ref c -> forall s', unref_ch s 0 = Ok s' -> keeps s s' /\ d_runs s' = d_runs s.
Proof.
  intros s c D R s' H. destruct (unref_is _ _ _ H) as (c' & E & [(F & ->)|(F & ->)]); rewrite D in E; cbn in E; injection E as <-; [lia|]. split; [apply keeps_write; auto|auto].
Qed.
Lemma keeps_leave : forall s c f s', d_chans s = [Some c] -> 1 < c_ref c -> leave s 0 f = Ok s' -> keeps s s' /\ d_runs s' = d_runs s.
Proof.
  intros s c f s' D R H. unfold leave in H. mon. destruct (keeps_unref _ _ D R _ M) as ((K1 & K2 & K3 & K4 & K5 & K6) & K7). destruct f as [f|]; injection H as <-; (split; [|auto]); repeat split; auto.
  intros X. cbn. rewrite dropped_app, K6 by auto. auto.
Qed.
Lemma keeps_pending : forall s c f s' g, Inv 1 s (Some c) -> pending s 0 f = Ok (s', g) -> keeps s s' /\ d_runs s' = d_runs s.
Proof.
  intros s c f s' g (A & B & C & D & E1 & E2 & E3) H. unfold pending in H. mon. rewrite D in D0. cbn in D0. injection D0 as <-. destruct (c_ser c) eqn:CS; [|injection H as <- <-; split; [apply keeps_refl|auto]].
  mon. rewrite D in D0. cbn in D0. injection D0 as <-. set (q := (f_seq f + f_size f) mod modulus) in *. set (c1 := set_next q (not_seq (c_stored c) q) c) in *. set (s1 := put_chans s _) in *.
  assert (K : keeps s s1) by (apply (keeps_write s c (set_next q (not_seq (c_stored c) q))); auto). assert (D1 : d_chans s1 = [Some c1]) by (cbn; rewrite D; reflexivity).
  rename a into s2. assert (K2 : keeps s1 s2 /\ d_runs s2 = d_runs s1).
  { destruct (at_seq (c_stored c) q) as [g'|] eqn:G; [|injection M as <-; split; [apply keeps_refl|auto]]. mon. pose proof (not_seq_less _ _ _ G). pose proof (zlen_nn (not_seq (c_stored c) q)). pose proof (busy_nn s). pose proof (curz_nn s).
    apply (keeps_unref (put_conn s1 (d_conn s1 - 1)) c1) in M; auto. cbn. lia. }
  injection H as <- <-. destruct K2 as (K2 & K3). split; [|exact K3]. eapply keeps_trans; [exact K|]. eapply keeps_trans; [exact K2|]. repeat split; auto. intros X. cbn. rewrite dropped_app, X. auto.
Qed.
Lemma nn_run : forall s r o, NN s -> run_ch r = 0%nat -> match r with R2 _ _ => hasr s | _ => True end -> dropped o = [] -> NN (see (put_runs s (d_runs s ++ [r])) o).
Proof.
  intros s r o (A & B & C & D & E & F) R H X. repeat split; auto; cbn [see put_runs d_tasks d_runs d_log d_prof].
  - apply D; auto.
  - destruct (D t H0) as (_ & Y). exact Y.
  - apply in_app_or in H0. destruct H0 as [H0|[<-|[]]]; auto. apply E; auto.
  - apply in_app_or in H0. destruct H0 as [H0|[<-|[]]]; auto. destruct (E r0 H0) as (_ & Y). exact Y.
  - rewrite dropped_app, F, X. auto.
Qed.
Lemma nn_keeps : forall s s', NN s -> keeps s s' -> d_runs s' = d_runs s -> NN s'.
Proof.
  intros s s' (A & B & C & D & E & F) (K1 & K2 & K3 & K4 & K5 & K6) K7. split; [congruence|]. split; [congruence|]. split; [rewrite K3; tauto|]. split; [|split; auto].
  - rewrite K3, K4. intros t T. destruct (D t T). split; auto. destruct t; auto.
  - rewrite K7. intros r T. destruct (E r T). split; auto. destruct r; auto.
Qed.
(** The state with one task or call in the hands. *)
Lemma inv_cur2 : forall s c, Inv 1 s (Some c) -> d_cur s = Some 0%nat -> 1 < c_ref c.
Proof. intros s c (A & B & C & D & E1 & E2 & E3) U. pose proof (busy_nn s). pose proof (zlen_nn (c_stored c)). unfold curz in *. rewrite U in *. lia. Qed.
Lemma nn_deliver2 : forall n s c f s', Inv 1 s (Some c) -> NN s -> c_recv c <> None -> deliver2 n s 0 f = Ok s' -> NN s'.
Proof.
  intros n s c f s' V K R H. pose proof V as (_ & _ & _ & D & _). assert (X : chan_at s 0 = Ok c) by (unfold chan_at; rewrite D; auto). destruct (c_recv c) as [h|] eqn:RC; [|congruence].
  destruct n; cbn [deliver2] in H; rewrite X in H; cbn [obind] in H; rewrite RC in H; injection H as <-; apply nn_run; auto; exists c; rewrite RC; auto.
Qed.
Lemma nn_store : forall s c f s', Inv 1 s (Some c) -> NN s -> store s 0 f = Ok s' -> NN s'.
Proof.
  intros s c f s' (_ & _ & _ & D & _) K H. unfold store in H. mon. rewrite D in *. cbn in *. injection D0 as <-. injection D1 as <-. injection H as <-.
  eapply nn_keeps; [exact K| |reflexivity]. pose proof (keeps_write s c (set_next (c_next c) (not_seq (c_stored c) (f_seq f) ++ [f])) D (fun x => x)) as (K1 & K2 & K3 & K4 & K5 & K6). rewrite D in K5. repeat split; auto.
  intros X. cbn. rewrite dropped_app, X, dropped_frees. auto.
Qed.
Lemma nn_perform : forall s c t s', Inv 1 s (Some c) -> NN s -> task_ch t = 0%nat -> match t with T2 _ _ => hasr s | T1 _ _ => d_prof s <> None end -> perform s t = Ok s' -> NN s'.
Proof.
  intros s c t s' V K T O H. destruct (K) as (U & CU & _). destruct t as [i f|i f]; cbn [perform task_ch] in *.
  - subst i. set (s0 := put_data s (d_data s - 1)) in *. assert (V0 : Inv 1 s0 (Some c)) by exact V. assert (K0 : NN s0) by exact K. change (d_up s0) with (d_up s) in H. rewrite U in H. cbn [negb] in H.
    destruct (inv_check s0 c f V0) as (b & X). rewrite X in H. cbn [obind] in H. destruct b; [|eapply nn_store; eauto]. pose proof V0 as (_ & _ & _ & D & _). mon. unfold chan_at in H. rewrite D in *. cbn [nth_error obind] in H. 
    destruct O as (c' & D' & R). cbn in D. rewrite D in D'. injection D' as <-. eapply nn_deliver2; eauto.
  - destruct (d_prof s) as [h|] eqn:PR; [|congruence]. set (s0 := put_data s (d_data s - 1)) in *. assert (V0 : Inv 1 s0 (Some c)) by exact V. assert (K0 : NN s0) by exact K. change (d_up s0) with (d_up s) in H. rewrite U in H. cbn [negb] in H.
    change (d_cur s0) with (d_cur s) in H. rewrite CU in H. destruct (inv_check s0 c f V0) as (b & X). rewrite X in H. cbn [obind] in H. destruct b; [|eapply nn_store; eauto]. injection H as <-. apply (nn_run s0 (R1 0 f h)); auto; exact Logic.I.
Qed.
Lemma hasr_is : forall s c, Inv 1 s (Some c) -> hasr s -> c_recv c <> None.
Proof. intros s c (_ & _ & _ & D & _) (c' & D' & R). rewrite D in D'. injection D' as <-. auto. Qed.
Lemma nn_returns : forall s c r s', Inv 1 s (Some c) -> NN s -> run_ch r = 0%nat -> match r with R2 _ _ => hasr s | _ => True end -> returns s r = Ok s' -> NN s'.
Proof.
  intros s c r s' V K T O H. pose proof V as (_ & _ & _ & D & _). assert (X : chan_at s 0 = Ok c) by (unfold chan_at; rewrite D; auto).
  destruct r as [i f|i f h]; cbn [returns run_ch] in *; subst i; rewrite X in H; cbn [obind] in H; destruct (inv_pending s c f V) as (s1 & g & c1 & P & V1 & S1 & L1 & G); rewrite P in H; cbn [obind] in H;
    destruct (keeps_pending _ _ _ _ _ V P) as (KP & KR); pose proof (nn_keeps _ _ K KP KR) as K1; destruct g as [g|].
  - destruct KP as (_ & _ & _ & _ & KH & _). eapply nn_deliver2; eauto. eapply hasr_is; eauto.
  - pose proof V1 as (_ & _ & _ & D1 & _). destruct (keeps_leave _ _ _ _ D1 (inv_cur2 _ _ V1 (proj1 (proj2 K1))) H). eapply nn_keeps; eauto.
  - injection H as <-. apply nn_run; auto; exact Logic.I.
  - pose proof V1 as (_ & _ & _ & D1 & _). destruct (keeps_leave _ _ _ _ D1 (inv_cur2 _ _ V1 (proj1 (proj2 K1))) H). eapply nn_keeps; eauto.
Qed.
Lemma nn_on_cur : forall s x f s', Inv 0 s x -> NN s -> (forall c, c_recv c <> None -> c_recv (f c) <> None) -> on_cur s f = Ok s' -> NN s'.
Proof.
  intros s x f s' V K F H. unfold on_cur in H. pose proof K as (_ & C & _). rewrite C in H. apply write_is in H. destruct H as (c & D & ->). pose proof V as (_ & _ & _ & D' & _). rewrite D' in D. cbn in D. injection D as ->.
  eapply nn_keeps; [exact K|apply keeps_write; auto|reflexivity].
Qed.
Lemma nn_receive : forall s x r n z s', Inv 0 s x -> NN s -> receive s r n z = Ok s' -> NN s'.
Proof.
  intros s x r n z s' V K H. pose proof V as (_ & _ & _ & D & _). pose proof K as (U & C & HP & HT & HR & HD). unfold receive in H. rewrite C in H. mon. rewrite D in *. cbn in D0, D1. injection D1 as ->. injection D0 as ->.
  rewrite <- D in H. set (s1 := next_id _) in *. assert (KS : keeps s s1).
  { pose proof (keeps_write s c (set_exp ((c_exp c + z) mod modulus)) D (fun x => x)) as (K1 & K2 & K3 & K4 & K5 & K6). repeat split; auto. }
  pose proof (nn_keeps _ _ K KS eq_refl) as K1. destruct (_ && _).
  { injection H as <-. eapply nn_keeps; [exact K1| |reflexivity]. repeat split; auto. intros X. cbn [see d_log]. rewrite dropped_app, X. auto. }
  assert (D1 : d_chans s1 = [Some (set_exp ((c_exp c + z) mod modulus) c)]) by (cbn; rewrite D; reflexivity).
  destruct (r && _).
  { mon. rewrite D1 in D0. cbn in D0. injection D0 as <-. injection H as <-. eapply nn_keeps; [exact K1| |reflexivity].
    eapply keeps_trans; [apply (keeps_write s1 _ (set_wait (tl (c_wait c))) D1); auto|]. repeat split; auto. intros X. unfold see. cbn [d_log]. rewrite dropped_app. change (dropped (d_log s1) ++ [] = []). change (dropped (d_log s1) = []) in X. rewrite X. auto. }
  assert (Q : forall t s', task_ch t = 0%nat -> match t with T2 _ _ => hasr s1 | T1 _ _ => d_prof s1 <> None end ->
    (let! s0 := ref_ch (put_conn (put_data s1 (d_data s1 + 1)) (d_conn s1 + 1)) 0 in Ok (put_tasks s0 (d_tasks s0 ++ [t]))) = Ok s' -> NN s').
  { intros t s2 T O Q. unfold ref_ch in Q. mon. set (sa := put_conn _ _) in *. change (d_chans sa) with (d_chans s1) in D0. rewrite D1 in D0. cbn in D0. injection D0 as <-. injection Q as <-.
    pose proof (keeps_write sa _ (fun c => set_ref (c_ref c + 1) c) D1 (fun x => x)) as KW. set (sb := put_chans sa _) in *. assert (KB : NN sb) by (eapply nn_keeps; [exact K1|exact KW|reflexivity]).
    destruct KB as (B1 & B2 & B3 & B4 & B5 & B6). split; [exact B1|split; [exact B2|split; [exact B3|split; [|split; [exact B5|exact B6]]]]].
    intros t' I. cbn [put_tasks d_tasks] in I. apply in_app_or in I. destruct I as [I|[<-|[]]]; [exact (B4 t' I)|]. split; auto. destruct t; [|exact O]. destruct KW as (_ & _ & _ & _ & KW & _). apply KW. exact O. }
  destruct (c_recv c) as [h|] eqn:RC.
  { eapply (Q (T2 0 _)); eauto. exists (set_exp ((c_exp c + z) mod modulus) c). split; auto. cbn. congruence. }
  change (d_prof s1) with (d_prof s) in *. destruct (d_prof s) as [h|] eqn:PR; [eapply (Q (T1 0 _)); eauto; discriminate|].
  exfalso. destruct HP as [(c' & X & Y)|X]; [rewrite D in X; injection X as <-; congruence|congruence].
Qed.
Lemma nn_step : forall s x e s', Inv 0 s x -> NN s -> e <> DOpen -> e <> DDown -> e <> DClose -> e <> DProf None -> e <> DChan None -> dstep s e = Ok s' -> NN s'.
Proof.
  intros s x e s' V K N0 N1 N2 N3 N4 H. pose proof K as (U & C & HP & HT & HR & HD). destruct e; cbn [dstep] in H; try congruence.
  - injection H as <-. exact K.
  - eapply nn_on_cur; eauto. intros c R. cbn. destruct h; congruence.
  - destruct h as [h|]; [|congruence]. injection H as <-. split; auto. split; auto. split; [right; discriminate|]. split; [|split; auto]. intros t I. destruct (HT t I) as (X & Y). split; auto. destruct t; cbn; auto; discriminate.
  - eapply nn_on_cur; eauto. intros c R. unfold set_ser. destruct (_ && _); cbn; auto.
  - eapply (nn_on_cur s x (fun c => set_wait (c_wait c ++ [n]) c)); eauto.
  - rewrite U in H. eapply nn_receive; eauto.
  - destruct (nth_error (d_tasks s) k) as [t|] eqn:E; [|injection H as <-; auto]. pose proof (nth_error_In _ _ E) as I. destruct (HT t I) as (T1' & T2'). pose proof (drop_len _ _ _ E) as L.
    assert (V1 : Inv 1 (put_tasks s (drop_nth (d_tasks s) k)) x).
    { destruct V as (A & B & C' & D & F). five; auto; bz; [intros; apply A; eapply drop_in; eauto|]. destruct x as [c|]; repeat split; try lia. apply F. }
    destruct (inv_some _ _ V1) as (c & ->). eapply nn_perform; [exact V1| |exact T1'| |exact H].
    + split; auto. split; auto. split; auto. split; [|split; auto]. intros t' I'. cbn in I'. apply drop_in in I'. destruct (HT t' I'). split; auto.
    + exact T2'.
  - destruct (nth_error (d_runs s) k) as [t|] eqn:E; [|injection H as <-; auto]. pose proof (nth_error_In _ _ E) as I. destruct (HR t I) as (T1' & T2'). pose proof (drop_len _ _ _ E) as L.
    assert (V1 : Inv 1 (put_runs s (drop_nth (d_runs s) k)) x).
    { destruct V as (A & B & C' & D & F). five; auto; bz; [intros; apply B; eapply drop_in; eauto|]. destruct x as [c|]; repeat split; try lia. apply F. }
    destruct (inv_some _ _ V1) as (c & ->). eapply nn_returns; [exact V1| |exact T1'| |exact H].
    + split; auto. split; auto. split; auto. split; [exact HT|split; [|auto]]. intros t' I'. cbn in I'. apply drop_in in I'. destruct (HR t' I'). split; auto.
    + exact T2'.
Qed.
Lemma step_open : forall s, d_cur s <> None -> dstep s DOpen = Ok s.
Proof. intros s N. cbn. destruct (d_cur s); [auto|congruence]. Qed.
Lemma kept_run : forall es s x, Inv 0 s x -> NN s -> kept es -> exists s', drun s es = Ok s' /\ dropped (d_log s') = [].
Proof.
  induction es as [|e es IH]; intros s x V K (N1 & N2 & N3 & N4); cbn [drun]; [exists s; split; auto; apply K|].
  assert (N : kept es) by (repeat split; intros X; [apply N1|apply N2|apply N3|apply N4]; right; auto).
  destruct (match e with DOpen => true | _ => false end) eqn:O.
  - destruct e; try discriminate. rewrite step_open by (destruct K as (_ & -> & _); discriminate). cbn [obind]. eauto.
  - assert (O' : e <> DOpen) by (intros ->; discriminate). destruct (inv_step s x e V O') as (s1 & x1 & S1 & V1). rewrite S1. cbn [obind]. apply (IH s1 x1); auto.
    apply (nn_step s x e s1 V K O'); auto; intros ->; [apply N1|apply N2|apply N3|apply N4]; left; auto.
Qed.
Lemma none_dropped : forall z e es, (exists h, e = DChan (Some h) \/ e = DProf (Some h)) -> kept es -> exists s, drun (d0 z) (e :: es) = Ok s /\ dropped (d_log s) = [].
Proof.
  intros z e es (h & [-> | ->]) N; cbn [drun dstep on_cur d_cur d0]; cbn [obind]; (eapply kept_run; [| |exact N]).
  - five; cbn; auto; try contradiction. repeat split; cbn; lia.
  - split; auto. split; auto. split; [left; eexists; split; [reflexivity|discriminate]|]. cbn. split; [contradiction|split; [contradiction|auto]].
  - instantiate (1 := Some chan0). five; cbn; auto; try contradiction. repeat split; cbn; lia.
  - split; auto. split; auto. split; [right; discriminate|]. cbn. split; [contradiction|split; [contradiction|auto]].
Qed.
