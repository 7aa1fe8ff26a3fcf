(** The references and the memory are released when nothing is serialised and
    the handlers are of channels, or the connection and the handler last. *)
From Verif Require Import Base HdrModel HdrProofs DlvModel DlvSpec DlvProofs DlvProofs2.

Definition curi (s : dst) (i : nat) : nat := match d_cur s with Some j => ind j i | None => 0%nat end.
Definition hnd (h : option nat) (i : nat) : nat := match h with Some j => ind j i | None => 0%nat end.
Definition hz (h : option nat) : Z := match h with Some _ => 1 | None => 0 end.
Definition need (h : option nat) (s : dst) (i : nat) : Z :=
  Z.of_nat (curi s i + hnd h i + cnt (map task_ch (d_tasks s)) i + cnt (map run_ch (d_runs s)) i).
Definition fits (h : option nat) (s : dst) (i : nat) (x : option (option chan)) : Prop :=
  match x with
  | Some (Some c) => c_ref c = need h s i /\ 1 <= c_ref c /\ c_ser c = false /\ c_stored c = []
  | _ => need h s i = 0
  end.
Definition JJ (h : option nat) (s : dst) : Prop :=
  (forall i, fits h s i (nth_error (d_chans s) i)) /\ d_conn s = 1 + hz h + busy s /\ d_data s = zlen (d_tasks s).
Lemma ind_same : forall i, ind i i = 1%nat.
Proof. intros i. unfold ind. rewrite Nat.eqb_refl. auto. Qed.
Lemma ind_other : forall i j, i <> j -> ind i j = 0%nat.
Proof. intros i j N. unfold ind. destruct (Nat.eqb_spec i j); congruence. Qed.
Lemma JJ_chan : forall h s i, JJ h s -> need h s i <> 0 -> exists c, nth_error (d_chans s) i = Some (Some c) /\ chan_at s i = Ok c /\ c_ref c = need h s i /\ c_ser c = false /\ c_stored c = [].
Proof.
  intros h s i (A & B & C) N. specialize (A i). unfold chan_at. destruct (nth_error (d_chans s) i) as [[c|]|]; cbn in A; try congruence. exists c. tauto.
Qed.
Lemma fits_write : forall h h' s s' i c f, (forall j, fits h s j (nth_error (d_chans s) j)) -> nth_error (d_chans s) i = Some (Some c) -> d_chans s' = upd_nth (d_chans s) i (Some (f c)) ->
  (forall j, j <> i -> need h' s' j = need h s j) -> fits h' s' i (Some (Some (f c))) -> forall j, fits h' s' j (nth_error (d_chans s') j).
Proof.
  intros h h' s s' i c f A D E N F j. rewrite E. destruct (Nat.eq_dec j i) as [->|K].
  - rewrite nth_upd_same by (eapply nth_lt; eauto). exact F.
  - rewrite nth_upd_other by auto. specialize (A j). unfold fits in *. rewrite N by auto. exact A.
Qed.
Ltac nd := unfold need, curi, hnd, busy in *; cbn [d_tasks d_chans d_runs d_log put_chans put_cur put_conn put_tasks put_runs put_data see next_id d_count d_cur d_conn d_up d_prof d_glob d_zero d_data hz] in *.
Lemma jj_leave : forall s i f, JJ (Some i) s -> exists s', leave s i f = Ok s' /\ JJ None s' /\ d_up s' = d_up s /\ d_cur s' = d_cur s /\ d_prof s' = d_prof s /\ d_tasks s' = d_tasks s.
Proof.
  intros s i f J. pose proof J as (A & B & C). destruct (JJ_chan _ s i J) as (c & D & DC & R & S1 & S2); [nd; rewrite ind_same; lia|]. pose proof (busy_nn s) as BN.
  unfold leave, unref_ch. rewrite DC. cbn [obind]. destruct (Z.eqb_spec (c_ref c - 1) 0) as [Z|Z].
  - unfold unref_conn. rewrite S2. cbn [map obind see put_chans d_conn]. destruct (Z.ltb_spec 0 (d_conn s)); [|cbn [hz] in B; lia]. cbn [obind].
    assert (G : forall o, JJ None (see (put_conn (mkD (d_up s) (d_zero s) (d_glob s) (d_prof s) (upd_nth (d_chans s) i None) (d_cur s) (d_conn s) (d_count s) (d_tasks s) (d_runs s) (d_data s) (d_log s ++ [])) (d_conn s - 1)) o)).
    { intros o. split; [|split; nd; lia]. intros j. cbn [d_chans see put_conn]. destruct (Nat.eq_dec j i) as [->|K].
      - rewrite nth_upd_same by (eapply nth_lt; eauto). cbn. nd. rewrite ind_same in R. lia.
      - rewrite nth_upd_other by auto. specialize (A j). unfold fits in *. nd. rewrite ind_other in A by auto. destruct (nth_error (d_chans s) j) as [[?|]|]; lia || (destruct A as (A1 & A2 & A3 & A4); repeat split; auto; lia). }
    destruct f as [f|]; eexists; (split; [reflexivity|]); (split; [|auto]); [apply G|]. specialize (G []). unfold see in G. cbn in G. rewrite !app_nil_r in *. exact G.
  - unfold write. rewrite DC. cbn [obind]. unfold unref_conn. cbn [put_chans d_conn]. destruct (Z.ltb_spec 0 (d_conn s)); [|cbn [hz] in B; lia]. cbn [obind].
    assert (G : forall s', d_chans s' = upd_nth (d_chans s) i (Some (set_ref (c_ref c - 1) c)) -> d_conn s' = d_conn s - 1 -> d_data s' = d_data s -> d_tasks s' = d_tasks s -> d_runs s' = d_runs s -> d_cur s' = d_cur s -> JJ None s').
    { intros s' E1 E2 E3 E4 E5 E6. split; [|split; nd; rewrite ?E2, ?E3, ?E4, ?E5; lia]. eapply (fits_write (Some i) None s s' i c (set_ref (c_ref c - 1))); eauto.
      - intros j K. nd. rewrite E4, E5, E6. rewrite (ind_other i j) by auto. lia.
      - cbn. nd. rewrite E4, E5, E6. rewrite ind_same in R. repeat split; auto; try lia. }
    destruct f as [f|]; eexists; (split; [reflexivity|]); (split; [apply G; reflexivity|auto]).
Qed.
Lemma jj_pending : forall s i f, JJ (Some i) s -> exists c, chan_at s i = Ok c /\ c_ser c = false /\ pending s i f = Ok (s, None).
Proof.
  intros s i f J. destruct (JJ_chan _ s i J) as (c & D & DC & R & S1 & S2); [nd; rewrite ind_same; lia|]. exists c. unfold pending. rewrite DC. cbn [obind]. rewrite S1. auto.
Qed.
Lemma jj_run : forall s r o, JJ (Some (run_ch r)) s -> JJ None (see (put_runs s (d_runs s ++ [r])) o).
Proof.
  intros s r o (A & B & C). split; [|split]; nd; auto; [|rewrite zlen_add; lia]. intros j. cbn [d_chans]. specialize (A j). unfold fits in *. nd. rewrite map_app, cnt_app. cbn [map cnt].
  destruct (nth_error (d_chans s) j) as [[?|]|]; try lia. destruct A as (A1 & A2 & A3). repeat split; auto; try apply A3. lia.
Qed.
Definition same (s s' : dst) : Prop := d_up s' = d_up s /\ d_cur s' = d_cur s /\ d_prof s' = d_prof s /\ d_tasks s' = d_tasks s.
Lemma jj_deliver2 : forall n s i f, JJ (Some i) s -> exists s', deliver2 n s i f = Ok s' /\ JJ None s' /\ same s s'.
Proof.
  intros n s i f J. destruct (jj_pending (see s [ODrop (f_id f)]) i f J) as (c & DC & S1 & P). unfold same. change (chan_at (see s [ODrop (f_id f)]) i) with (chan_at s i) in DC.
  destruct n; cbn [deliver2]; rewrite DC; cbn [obind]; (destruct (c_recv c) as [h|]; [eexists; split; [reflexivity|]; split; [apply (jj_run s (R2 i f)); auto|auto]|]);
    rewrite P; cbn [obind]; rewrite S1; destruct (jj_leave (see s [ODrop (f_id f)]) i (Some f) J) as (s' & L & J' & Q); exists s'; rewrite L; auto.
Qed.
Lemma jj_data : forall h s, JJ h s -> forall n, n = d_data s -> JJ h (put_data s n).
Proof. intros h s (A & B & C) n ->. split; [|split]; auto. Qed.
(** What makes the tasks of the profile find what they need. *)
Definition okk (s : dst) (t : task) : Prop := match t with T2 _ _ => True | T1 i _ => d_up s = true /\ d_cur s = Some i /\ d_prof s <> None end.
Lemma jj_perform : forall s t, (forall n, JJ (Some (task_ch t)) (put_data s n) \/ n <> d_data s - 1) -> okk s t -> exists s', perform s t = Ok s' /\ JJ None s' /\ same s s'.
Proof.
  intros s t J K. destruct (J (d_data s - 1)) as [J'|]; [|lia]. clear J. rename J' into J. destruct t as [i f|i f]; cbn [perform task_ch] in *.
  - set (s0 := put_data s (d_data s - 1)) in *. destruct (negb (d_up s0)).
    + destruct (jj_leave (see s0 [ODrop (f_id f)]) i (Some f) J) as (s' & L & J' & Q). exists s'. auto.
    + unfold check_serialize. destruct (jj_pending s0 i f J) as (c & DC & S1 & _). rewrite DC. cbn [obind]. rewrite S1. cbn [andb obind]. rewrite DC. cbn [obind]. destruct (jj_deliver2 (length (c_stored c)) s0 i f J) as (s' & L & J' & Q). exists s'. auto.
  - destruct K as (K1 & K2 & K3). destruct (d_prof s) as [h|] eqn:PR; [|congruence]. set (s0 := put_data s (d_data s - 1)) in *. change (d_up s0) with (d_up s). rewrite K1. cbn [negb]. change (d_cur s0) with (d_cur s). rewrite K2.
    unfold check_serialize. destruct (jj_pending s0 i f J) as (c & DC & S1 & _). rewrite DC. cbn [obind]. rewrite S1. cbn [andb obind]. eexists. split; [reflexivity|]. split; [apply (jj_run s0 (R1 i f h)); auto|split; auto].
Qed.
Lemma jj_returns : forall s r, JJ (Some (run_ch r)) s -> exists s', returns s r = Ok s' /\ JJ None s' /\ same s s'.
Proof.
  intros s r J. destruct r as [i f|i f h]; cbn [returns run_ch] in *; destruct (jj_pending s i f J) as (c & DC & S1 & P); rewrite DC; cbn [obind]; rewrite P; cbn [obind]; rewrite S1;
    destruct (jj_leave s i (Some f) J) as (s' & L & J' & Q); exists s'; auto.
Qed.
Lemma jj_on_cur : forall s f, JJ None s -> (forall c, c_ref (f c) = c_ref c /\ (c_ser c = false -> c_ser (f c) = false) /\ (c_stored c = [] -> c_stored (f c) = [])) -> exists s', on_cur s f = Ok s' /\ JJ None s' /\ same s s'.
Proof.
  intros s f J F. unfold on_cur. destruct (d_cur s) as [i|] eqn:C; [|exists s; split; auto; split; auto; repeat split; auto].
  destruct (JJ_chan _ s i J) as (c & D & DC & R & S1 & S2); [nd; rewrite C, ind_same; lia|]. unfold write. rewrite DC. cbn [obind]. eexists. split; [reflexivity|]. split; [|repeat split; auto].
  destruct J as (A & B & B'). split; [|split; auto]. eapply (fits_write None None s _ i c f); eauto. cbn. destruct (F c) as (F1 & F2 & F3). rewrite F1. specialize (A i). rewrite D in A. cbn in A. nd. tauto.
Qed.
Definition taken_by (s s' : dst) : Prop := d_tasks s' = d_tasks s \/ exists i f, d_cur s = Some i /\ (d_tasks s' = d_tasks s ++ [T2 i f] \/ (d_tasks s' = d_tasks s ++ [T1 i f] /\ d_prof s <> None)).
Lemma jj_receive : forall s r n z, JJ None s -> exists s', receive s r n z = Ok s' /\ JJ None s' /\ d_up s' = d_up s /\ d_cur s' = d_cur s /\ d_prof s' = d_prof s /\ taken_by s s'.
Proof.
  intros s r n z J. unfold receive. destruct (d_cur s) as [i|] eqn:C; [|exists s; repeat split; auto; try apply J; left; auto].
  destruct (JJ_chan _ s i J) as (c & D & DC & R & S1 & S2); [nd; rewrite C, ind_same; lia|]. unfold write at 1. rewrite DC. cbn [obind]. destruct J as (A & B & B').
  set (c1 := set_exp ((c_exp c + z) mod modulus) c). set (s1 := next_id _). set (f := mkF _ _ _). assert (LT : (i < length (d_chans s))%nat) by (eapply nth_lt; eauto).
  assert (D1 : nth_error (d_chans s1) i = Some (Some c1)) by (cbn; rewrite nth_upd_same by auto; auto).
  assert (DC1 : chan_at s1 i = Ok c1) by (unfold chan_at; rewrite D1; auto).
  assert (J1 : JJ None s1).
  { split; [|split; auto]. eapply (fits_write None None s s1 i c (set_exp ((c_exp c + z) mod modulus))); eauto. specialize (A i). rewrite D in A. exact A. }
  destruct (_ && _); [eexists; split; [reflexivity|]; split; [exact J1|repeat split; auto; left; auto]|].
  destruct (r && _).
  { unfold write. rewrite DC1. cbn [obind]. eexists. split; [reflexivity|]. split; [|repeat split; auto; left; auto]. destruct J1 as (J1 & J2 & J3). split; [|split; auto].
    eapply (fits_write None None s1 _ i c1 (set_wait (tl (c_wait c)))); eauto. specialize (J1 i). rewrite D1 in J1. exact J1. }
  assert (Q : forall t, task_ch t = i -> exists s', (let! s0 := ref_ch (put_conn (put_data s1 (d_data s1 + 1)) (d_conn s1 + 1)) i in Ok (put_tasks s0 (d_tasks s0 ++ [t]))) = Ok s' /\ JJ None s' /\ d_up s' = d_up s /\ d_cur s' = Some i /\ d_prof s' = d_prof s /\ d_tasks s' = d_tasks s ++ [t]).
  { intros t T. unfold ref_ch, write. change (chan_at (put_conn (put_data s1 (d_data s1 + 1)) (d_conn s1 + 1)) i) with (chan_at s1 i). rewrite DC1. cbn [obind]. eexists. split; [reflexivity|]. split; [|repeat split; auto].
    destruct J1 as (J1 & J2 & J3). split; [|split].
    - eapply (fits_write None None s1 _ i c1 (fun c => set_ref (c_ref c + 1) c)); eauto.
      + intros j K. nd. rewrite map_app, cnt_app. cbn [map cnt]. rewrite T, ind_other by auto. lia.
      + specialize (J1 i). rewrite D1 in J1. cbn in J1. cbn. nd. rewrite map_app, cnt_app. cbn [map cnt]. rewrite T, ind_same. destruct J1 as (K1 & K2 & K3 & K4). change (d_tasks s1) with (d_tasks s) in *. repeat split; auto; lia.
    - nd. rewrite zlen_add. lia.
    - nd. rewrite zlen_add. lia. }
  destruct (c_recv c).
  { destruct (Q (T2 i f) eq_refl) as (s' & Q1 & Q2 & Q3 & Q4 & Q5 & Q6). exists s'. repeat split; auto; try apply Q2. right. exists i, f. auto. }
  change (d_prof s1) with (d_prof s). destruct (d_prof s) eqn:PR.
  { destruct (Q (T1 i f) eq_refl) as (s' & Q1 & Q2 & Q3 & Q4 & Q5 & Q6). exists s'. repeat split; auto; try apply Q2. right. exists i, f. split; auto. right. split; auto. congruence. }
  eexists. split; [reflexivity|]. split; [exact J1|]. repeat split; auto. left. auto.
Qed.
Lemma ind_drop_hand : forall s k t h, nth_error (d_tasks s) k = Some t -> JJ None s -> h = task_ch t -> JJ (Some h) (put_data (put_tasks s (drop_nth (d_tasks s) k)) (d_data s - 1)).
Proof.
  intros s k t h E (A & B & C) ->. pose proof (drop_len _ _ _ E) as L. split; [|split; nd; lia]. intros j. cbn [d_chans put_data put_tasks]. specialize (A j). unfold fits in *. nd.
  pose proof (cnt_drop task_ch _ _ _ j E) as K. destruct (nth_error (d_chans s) j) as [[?|]|]; try lia. destruct A as (A1 & A2 & A3). repeat split; auto; try apply A3. lia.
Qed.
Lemma ind_drop_run : forall s k r, nth_error (d_runs s) k = Some r -> JJ None s -> JJ (Some (run_ch r)) (put_runs s (drop_nth (d_runs s) k)).
Proof.
  intros s k r E (A & B & C). pose proof (drop_len _ _ _ E) as L. split; [|split; nd; lia]. intros j. cbn [d_chans put_runs]. specialize (A j). unfold fits in *. nd.
  pose proof (cnt_drop run_ch _ _ _ j E) as K. destruct (nth_error (d_chans s) j) as [[?|]|]; try lia. destruct A as (A1 & A2 & A3). repeat split; auto; try apply A3. lia.
Qed.
Definition all_ok (s : dst) : Prop := forall t, In t (d_tasks s) -> okk s t.
Lemma jj_step : forall s e, JJ None s -> all_ok s -> e <> DSerial true -> exists s', dstep s e = Ok s' /\ JJ None s' /\
  match e with
  | DFrame _ _ _ => d_up s' = d_up s /\ d_cur s' = d_cur s /\ d_prof s' = d_prof s /\ taken_by s s'
  | DTask _ | DReturn _ | DGlobal _ | DChan _ | DSerial _ | DWait _ => d_up s' = d_up s /\ d_cur s' = d_cur s /\ d_prof s' = d_prof s /\ incl (d_tasks s') (d_tasks s)
  | DProf h => d_up s' = d_up s /\ d_cur s' = d_cur s /\ d_prof s' = h /\ d_tasks s' = d_tasks s
  | _ => d_prof s' = d_prof s /\ d_tasks s' = d_tasks s
  end.
Proof.
  intros s e J O N. pose proof J as (A & B & C). assert (S0 : forall s s', same s s' -> d_up s' = d_up s /\ d_cur s' = d_cur s /\ d_prof s' = d_prof s /\ incl (d_tasks s') (d_tasks s)).
  { intros s1 s2 (X1 & X2 & X3 & X4). rewrite X4. repeat split; auto. intros x; auto. }
  destruct e; cbn [dstep].
  - eexists. split; [reflexivity|]. split; [exact J|]. cbn. repeat split; auto. intros x; auto.
  - destruct (jj_on_cur s (set_recv h) J) as (s' & Q1 & Q2 & Q3); [intros c; cbn; auto|]. exists s'. auto.
  - eexists. split; [reflexivity|]. split; [exact J|]. cbn. auto.
  - destruct b; [congruence|]. destruct (jj_on_cur s (set_ser false) J) as (s' & Q1 & Q2 & Q3); [intros c; cbn; auto|]. exists s'. auto.
  - destruct (jj_on_cur s (fun c => set_wait (c_wait c ++ [n]) c) J) as (s' & Q1 & Q2 & Q3); [intros c; cbn; auto|]. exists s'. auto.
  - destruct (d_up s) eqn:U; [rewrite <- U; apply jj_receive; auto|]. exists s. repeat split; auto. left; auto.
  - destruct (nth_error (d_tasks s) k) as [t|] eqn:E; [|exists s; split; auto; split; auto; repeat split; auto; intros x; auto].
    destruct (jj_perform (put_tasks s (drop_nth (d_tasks s) k)) t) as (s' & Q1 & Q2 & Q3).
    + intros n. destruct (Z.eq_dec n (d_data s - 1)) as [->|X]; [left; eapply ind_drop_hand; eauto|right; auto].
    + exact (O t (nth_error_In _ _ E)).
    + exists s'. split; auto. split; auto. destruct Q3 as (X1 & X2 & X3 & X4). cbn in *. repeat split; auto. rewrite X4. intros x H. eapply drop_in; eauto.
  - destruct (nth_error (d_runs s) k) as [t|] eqn:E; [|exists s; split; auto; split; auto; repeat split; auto; intros x; auto].
    destruct (jj_returns (put_runs s (drop_nth (d_runs s) k)) t) as (s' & Q1 & Q2 & Q3); [eapply ind_drop_run; eauto|]. exists s'. auto.
  - eexists. split; [reflexivity|]. split; [exact J|]. cbn. auto.
  - destruct (d_cur s) as [i|] eqn:CU; [|exists s; auto].
    destruct (JJ_chan _ s i J) as (c & D & DC & R & S1 & S2); [nd; rewrite CU, ind_same; lia|]. unfold unref_ch. change (chan_at (put_cur s None) i) with (chan_at s i). rewrite DC. cbn [obind].
    destruct (Z.eqb_spec (c_ref c - 1) 0).
    + eexists. split; [reflexivity|]. split; [|cbn; auto]. split; [|split; nd; lia]. intros j. cbn [d_chans see put_chans put_cur]. destruct (Nat.eq_dec j i) as [->|K].
      * rewrite nth_upd_same by (eapply nth_lt; eauto). cbn. nd. rewrite CU, ind_same in R. lia.
      * rewrite nth_upd_other by auto. specialize (A j). unfold fits in *. nd. rewrite CU, ind_other in A by auto. destruct (nth_error (d_chans s) j) as [[?|]|]; try lia. destruct A as (A1 & A2 & A3 & A4); repeat split; auto; lia.
    + unfold write. change (chan_at (put_cur s None) i) with (chan_at s i). rewrite DC. cbn [obind]. eexists. split; [reflexivity|]. split; [|cbn; auto]. split; [|split; nd; lia].
      eapply (fits_write None None s _ i c (set_ref (c_ref c - 1))); eauto.
      * intros j K. nd. rewrite CU, ind_other by auto. lia.
      * specialize (A i). rewrite D in A. cbn in A. cbn. nd. rewrite CU, ind_same in *. destruct A as (A1 & A2 & A3 & A4); repeat split; auto; lia.
  - destruct (d_cur s) as [i|] eqn:CU; [exists s; auto|]. destruct (d_up s); [|exists s; auto]. eexists. split; [reflexivity|]. split; [|cbn; auto]. split; [|split; nd; lia].
    intros j. cbn [d_chans put_cur put_chans]. pose proof (A j) as AJ. destruct (lt_dec j (length (d_chans s))) as [L|L].
    + rewrite nth_error_app1 by auto. unfold fits in *. nd. rewrite CU in *. rewrite (ind_other (length (d_chans s)) j) by lia. destruct (nth_error (d_chans s) j) as [[?|]|]; auto.
    + assert (X : nth_error (d_chans s) j = None) by (apply nth_error_None; lia). rewrite X in AJ. cbn in AJ. rewrite nth_error_app2 by lia. nd. rewrite CU in *. destruct (Nat.eq_dec j (length (d_chans s))) as [->|K].
      * rewrite Nat.sub_diag. cbn. nd. rewrite ind_same. repeat split; lia.
      * assert (Y : nth_error [Some chan0] (j - length (d_chans s)) = None) by (apply nth_error_None; cbn; lia). rewrite Y. cbn. nd. rewrite ind_other by auto. lia.
Qed.
(** Handlers of channels. *)
Definition lev2 (s : dst) : Prop := d_prof s = None /\ forall t, In t (d_tasks s) -> exists i f, t = T2 i f.
Lemma lev2_run : forall es s, JJ None s -> lev2 s -> channel_level es -> exists s', drun s es = Ok s' /\ JJ None s'.
Proof.
  induction es as [|e es IH]; intros s J (P & T) (N1 & N2); cbn; [eauto|]. destruct (jj_step s e J) as (s1 & S1 & J1 & E).
  { intros t I. destruct (T t I) as (i & f & ->). exact Logic.I. }
  { intros ->. apply N1. left. auto. }
  rewrite S1. cbn [obind]. apply IH; auto; [|split; [intros K; apply N1; right; auto|intros h K; apply (N2 h); right; auto]].
  destruct e; try (destruct E as (E1 & E2); split; [congruence|rewrite E2; auto]; fail); try (destruct E as (E1 & E2 & E3 & E4); split; [congruence|intros t I; auto]; fail).
  - destruct E as (E1 & E2 & E3 & E4). split; [rewrite E3; destruct h as [h|]; auto; exfalso; apply (N2 h); left; auto|]. rewrite E4. auto.
  - destruct E as (E1 & E2 & E3 & E4). split; [congruence|]. destruct E4 as [E4|(i & f & C & [E4|(E4 & X)])]; rewrite ?E4; auto; [|congruence]. apply in_add; eauto.
Qed.
Definition lasts (s : dst) : Prop := d_up s = true /\ d_cur s = Some 0%nat /\ forall i f, In (T1 i f) (d_tasks s) -> i = 0%nat /\ d_prof s <> None.
Lemma lasts_run : forall es s, JJ None s -> lasts s -> lasting es -> exists s', drun s es = Ok s' /\ JJ None s'.
Proof.
  induction es as [|e es IH]; intros s J (P & Q & T) (N1 & N2 & N3 & N4); cbn; [eauto|]. destruct (jj_step s e J) as (s1 & S1 & J1 & E).
  { intros [i f|i f] I; [exact Logic.I|]. destruct (T i f I) as (-> & X). repeat split; auto. }
  { intros ->. apply N1. left. auto. }
  rewrite S1. cbn [obind]. apply IH; auto; [|repeat split; intros K; [apply N1|apply N2|apply N3|apply N4]; right; auto].
  destruct e; try (exfalso; (apply N2; left; auto; fail) || (apply N3; left; auto; fail));
    try (destruct E as (E1 & E2 & E3 & E4); split; [congruence|split; [congruence|]]; intros i f I; rewrite ?E3; apply (T i f); auto; fail).
  - destruct E as (E1 & E2 & E3 & E4). split; [congruence|split; [congruence|]]. rewrite E3, E4. intros i f I. split; [eapply T; eauto|]. destruct h; [discriminate|]. exfalso. apply N4. left. auto.
  - destruct E as (E1 & E2 & E3 & E4). split; [congruence|split; [congruence|]]. rewrite E3. destruct E4 as [E4|(i & f & C & [E4|(E4 & X)])]; rewrite E4; auto; intros j g I; apply in_app_or in I; destruct I as [I|[I|[]]]; auto; try discriminate; try (eapply T; eauto; fail).
    injection I as <- <-. split; auto. congruence.
  - destruct (d_cur s) as [k|] eqn:CU; [|discriminate]. cbn [dstep] in S1. rewrite CU in S1. injection S1 as <-. split; [auto|split; auto; congruence].
Qed.
Lemma jj_init : forall z, JJ None (d0 z).
Proof. intros z. split; [|split; reflexivity]. intros [|i]; cbn; [repeat split; lia|]. destruct i; reflexivity. Qed.
Lemma released : forall z es, channel_level es \/ lasting es -> exists s, drun (d0 z) es = Ok s /\ d_conn s = 1 + zlen (d_tasks s) + zlen (d_runs s) /\ d_data s = zlen (d_tasks s) /\ (idle s -> clean s).
Proof.
  intros z es H. assert (G : exists s', drun (d0 z) es = Ok s' /\ JJ None s').
  { destruct H as [H|H]; [apply lev2_run|apply lasts_run]; auto; try apply jj_init; [split; cbn; auto; contradiction|split; cbn; auto; split; auto; contradiction]. }
  destruct G as (s & R & A & B & C). exists s. split; auto. split; [unfold busy in B; cbn [hz] in B; lia|]. split; auto. intros (I1 & I2). split; [|split].
  - unfold busy in B. rewrite I1, I2 in B. cbn [hz zlen length Z.of_nat] in B. lia.
  - rewrite C, I1. reflexivity.
  - intros i c K. specialize (A i). rewrite K in A. cbn in A. unfold need, curi, hnd in A. rewrite I1, I2 in A. cbn [map cnt] in A. destruct (d_cur s) as [j|]; [|lia]. unfold ind in A. destruct (Nat.eqb_spec j i) as [E|E]; [|lia]. split; [congruence|lia].
Qed.
