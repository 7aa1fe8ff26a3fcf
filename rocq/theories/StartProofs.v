(** Proofs about the start requests received: each is answered once. *)
From Verif Require Import Base StartModel StartSpec.
Ltac conj := repeat match goal with |- _ /\ _ => split end.
Lemma ok_inj {A} (a b : A) : Ok a = Ok b -> a = b.
Proof. congruence. Qed.
Lemma find_end l m x : find (fun e : Z * sphase => fst e =? x) (end_thr l m) = if x =? m then None else find (fun e => fst e =? x) l.
Proof.
  unfold end_thr. induction l as [|[a p] l IH]; cbn; [destruct (x =? m); reflexivity|].
  destruct (a =? m) eqn:E; cbn.
  - rewrite IH. apply Z.eqb_eq in E. subst a. destruct (x =? m) eqn:X; [reflexivity|]. rewrite Z.eqb_sym, X. reflexivity.
  - destruct (a =? x) eqn:X; [|exact IH]. apply Z.eqb_eq in X. subst a. rewrite E. reflexivity.
Qed.
Lemma phase_go s m p x : phase_of (go s m p) x = if x =? m then Some p else phase_of s x.
Proof.
  unfold phase_of, go. cbn. rewrite (Z.eqb_sym m x). destruct (x =? m) eqn:E; [reflexivity|]. rewrite find_end, E. reflexivity.
Qed.
Lemma phase_over s m x : phase_of (over s m) x = if x =? m then None else phase_of s x.
Proof. unfold phase_of, over. cbn. rewrite find_end. destruct (x =? m); reflexivity. Qed.
Lemma phase_same s s' x : s_thr s' = s_thr s -> phase_of s' x = phase_of s x.
Proof. unfold phase_of. intros ->. reflexivity. Qed.
Lemma thr_send s m r : s_thr (send s m r) = s_thr s.
Proof. unfold send. destruct (s_up s); reflexivity. Qed.
Lemma chans_send s m r : s_chans (send s m r) = s_chans s.
Proof. unfold send. destruct (s_up s); reflexivity. Qed.
Lemma reqs_send s m r : s_reqs (send s m r) = s_reqs s.
Proof. unfold send. destruct (s_up s); reflexivity. Qed.
Lemma up_send s m r : s_up (send s m r) = s_up s.
Proof. unfold send. destruct (s_up s) eqn:E; cbn; auto. Qed.
Lemma next_send s m r : s_next (send s m r) = s_next s.
Proof. unfold send. destruct (s_up s); reflexivity. Qed.
Lemma answers_nil m : answers m [] = [].
Proof. reflexivity. Qed.
Lemma answers_one m o : answers m [o] = match o with OReply m' r => if m' =? m then [r] else [] | _ => [] end.
Proof. unfold answers. cbn. destruct o; auto. destruct (m0 =? m); reflexivity. Qed.
Lemma answers_app m a b : answers m (a ++ b) = answers m a ++ answers m b.
Proof. unfold answers. apply flat_map_app. Qed.
Lemma answers_send s m r x : answers x (s_log (send s m r)) = answers x (s_log s) ++ (if s_up s then if m =? x then [r] else [] else []).
Proof. unfold send. destruct (s_up s); [|rewrite app_nil_r; reflexivity]. cbn [with_log s_log]. rewrite answers_app. cbn. destruct (m =? x); reflexivity. Qed.
Arguments answers : simpl never.
Lemma log_send s m r o : In o (s_log s) -> In o (s_log (send s m r)).
Proof. unfold send. destruct (s_up s); cbn; auto. intros. apply in_app_iff. auto. Qed.

Definition skipped (s : srv) (m : Z) : Prop := In (OSkip m) (s_log s).
Definition valid (s : srv) (m : Z) : Prop := 0 <= m < s_reqs s.
Definition outcome_of (k : chan) : list reply := if k_done k then [ROk] else [].
Definition good (s : srv) (m : Z) : Prop :=
  match phase_of s m with
  | Some (QAsk n c) => valid s m /\ exists k, In k (s_chans s) /\ k_id k = c /\ k_num k = n /\ k_req k = Some m /\ k_defer k = false /\ k_done k = false /\ answers m (s_log s) = []
  | Some (QIn n c called) => valid s m /\ exists k, In k (s_chans s) /\ k_id k = c /\ k_num k = n /\ k_req k = Some m /\ (k_done k = true -> k_defer k = true) /\
                             (called = false -> k_defer k = false) /\ answers m (s_log s) = outcome_of k
  | Some _ => valid s m /\ answers m (s_log s) = [] /\ (forall k, In k (s_chans s) -> k_req k <> Some m)
  | None => (valid s m -> (exists r, answers m (s_log s) = [r]) \/ (answers m (s_log s) = [] /\ (skipped s m \/ pending s m \/ s_up s = false))) /\
            (~ valid s m -> answers m (s_log s) = []) /\
            forall k, In k (s_chans s) -> k_req k = Some m -> valid s m /\ (k_done k = true \/ k_defer k = true) /\ answers m (s_log s) = outcome_of k
  end.
Definition table_ok (s : srv) : Prop :=
  NoDup (map k_id (s_chans s)) /\ NoDup (map k_num (s_chans s)) /\ Forall (fun k => k_id k < s_next s) (s_chans s) /\
  (forall k k' m, In k (s_chans s) -> In k' (s_chans s) -> k_req k = Some m -> k_req k' = Some m -> k = k') /\
  (forall k, In k (s_chans s) -> k_req k = None -> k_defer k = false).
Definition inv (s : srv) : Prop := 0 <= s_reqs s /\ table_ok s /\ forall m, good s m.

(** A request not involved in a step. *)
Lemma good_frame s s' m : good s m -> phase_of s' m = phase_of s m -> answers m (s_log s') = answers m (s_log s) ->
  (skipped s m -> skipped s' m) -> (valid s m <-> valid s' m) -> (s_up s = false -> s_up s' = false) ->
  (forall k, k_req k = Some m -> In k (s_chans s) <-> In k (s_chans s')) -> good s' m.
Proof.
  intros G P A Sk R U C. unfold good in *. rewrite P, A. destruct (phase_of s m) as [p|].
  - destruct p; destruct G as [V G]; (split; [apply R, V|]).
    + destruct G as [G1 G2]. split; auto. intros k I Q. apply (G2 k); [apply C; auto|exact Q].
    + destruct G as [G1 G2]. split; auto. intros k I Q. apply (G2 k); [apply C; auto|exact Q].
    + destruct G as [G1 G2]. split; auto. intros k I Q. apply (G2 k); [apply C; auto|exact Q].
    + destruct G as [G1 G2]. split; auto. intros k I Q. apply (G2 k); [apply C; auto|exact Q].
    + destruct G as (k & G1 & G2 & G3 & G4 & G5 & G6 & G7). exists k. conj; auto. apply C; auto.
    + destruct G as (k & G1 & G2 & G3 & G4 & G5 & G6 & G7). exists k. conj; auto. apply C; auto.
  - destruct G as (G1 & G2 & G3). conj.
    + intros V. apply R in V. destruct (G1 V) as [X|[X1 [X|[(k & X2 & X3 & X4)|X]]]]; [left; exact X|right; split; auto..]. right. left. exists k. split; [apply C; auto|auto].
    + intros V. apply G2. intros Y. apply V, R, Y.
    + intros k I Q. destruct (G3 k) as (Y1 & Y2 & Y3); [apply C; auto|auto|]. conj; auto. apply R, Y1.
Qed.

(** The table. *)
Lemma id_inj s k k' : table_ok s -> In k (s_chans s) -> In k' (s_chans s) -> k_id k = k_id k' -> k = k'.
Proof.
  intros (N & _). revert N. generalize (s_chans s). induction l as [|x l IH]; [contradiction|]. cbn. intros N I I' E. inversion N; subst.
  destruct I as [->|I], I' as [->|I']; auto; exfalso; apply H1; [rewrite E|rewrite <- E]; apply in_map; assumption.
Qed.
Lemma num_inj s k k' : table_ok s -> In k (s_chans s) -> In k' (s_chans s) -> k_num k = k_num k' -> k = k'.
Proof.
  intros (_ & N & _). revert N. generalize (s_chans s). induction l as [|x l IH]; [contradiction|]. cbn. intros N I I' E. inversion N; subst.
  destruct I as [->|I], I' as [->|I']; auto; exfalso; apply H1; [rewrite E|rewrite <- E]; apply in_map; assumption.
Qed.
Lemma chan_id_some s c k : chan_id s c = Some k -> In k (s_chans s) /\ k_id k = c.
Proof. unfold chan_id. intros H. apply find_some in H. destruct H as [H1 H2]. apply Z.eqb_eq in H2. auto. Qed.
Lemma chan_id_in s k : table_ok s -> In k (s_chans s) -> chan_id s (k_id k) = Some k.
Proof.
  intros T I. unfold chan_id. destruct (find (fun x => k_id x =? k_id k) (s_chans s)) as [x|] eqn:F.
  - apply find_some in F. destruct F as [F1 F2]. apply Z.eqb_eq in F2. f_equal. apply (id_inj s); auto.
  - exfalso. apply find_none with (x := k) in F; [|exact I]. rewrite Z.eqb_refl in F. discriminate.
Qed.
Lemma in_drop l n k : In k (drop_num l n) <-> In k l /\ k_num k <> n.
Proof. unfold drop_num. rewrite filter_In. rewrite Bool.negb_true_iff, Z.eqb_neq. reflexivity. Qed.
Lemma nodup_filter {B} (f : chan -> B) p l : NoDup (map f l) -> NoDup (map f (filter p l)).
Proof.
  induction l as [|x l IH]; cbn; [auto|]. intros N. inversion N; subst. destruct (p x); cbn; auto. constructor; auto.
  intros I. apply H1. apply in_map_iff in I. destruct I as (y & E & I). apply filter_In in I. rewrite <- E. apply in_map, I.
Qed.
Lemma table_drop s s' n : table_ok s -> s_chans s' = drop_num (s_chans s) n -> s_next s' = s_next s -> table_ok s'.
Proof.
  intros (A & B & C & D & D2) E F. unfold table_ok. rewrite E, F. conj.
  - apply nodup_filter, A.
  - apply nodup_filter, B.
  - rewrite Forall_forall in *. intros k I. apply in_drop in I. apply C, I.
  - intros k k' m I I' Q Q'. apply in_drop in I. apply in_drop in I'. apply (D k k' m); tauto.
  - intros k I. apply in_drop in I. apply D2, I.
Qed.
Lemma map_update_id l k : map k_id (update l k) = map k_id l.
Proof. unfold update. rewrite map_map. apply map_ext_in. intros x _. destruct (k_id x =? k_id k) eqn:E; auto. apply Z.eqb_eq in E. auto. Qed.
Lemma in_update s l k x : l = s_chans s -> table_ok s -> forall o, In o l -> k_id o = k_id k -> In x (update l k) <-> x = k \/ (In x l /\ x <> o).
Proof.
  intros -> T o O E. unfold update. rewrite in_map_iff. split.
  - intros (y & H & I). destruct (k_id y =? k_id k) eqn:Q; [left; auto|]. right. subst y. split; auto. intros ->. rewrite E, Z.eqb_refl in Q. discriminate.
  - intros [->|[I N]].
    + exists o. rewrite E, Z.eqb_refl. auto.
    + exists x. split; auto. destruct (k_id x =? k_id k) eqn:Q; auto. apply Z.eqb_eq in Q. exfalso. apply N. apply (id_inj s); auto. congruence.
Qed.
Lemma table_update s s' o k : table_ok s -> In o (s_chans s) -> k_id k = k_id o -> k_num k = k_num o -> k_req k = k_req o -> k_req k <> None ->
  s_chans s' = update (s_chans s) k -> s_next s' = s_next s -> table_ok s'.
Proof.
  intros T O E1 E2 E3 Nn C N. pose proof T as (A & B & Cc & D & D2). unfold table_ok. rewrite C, N.
  assert (U : forall x, In x (update (s_chans s) k) <-> x = k \/ (In x (s_chans s) /\ x <> o)) by (intros x; apply (in_update s); auto).
  conj.
  - rewrite map_update_id. exact A.
  - replace (map k_num (update (s_chans s) k)) with (map k_num (s_chans s)); [exact B|]. unfold update. rewrite map_map. apply map_ext_in. intros x I.
    destruct (k_id x =? k_id k) eqn:Q; auto. apply Z.eqb_eq in Q. replace x with o; [auto|]. apply (id_inj s); auto. congruence.
  - rewrite Forall_forall in *. intros x I. apply U in I. destruct I as [->|[I _]]; [rewrite E1|]; apply Cc; auto.
  - intros x x' m I I' Q Q'. apply U in I. apply U in I'. destruct I as [->|[I Ne]], I' as [->|[I' Ne']]; auto.
    + exfalso. apply Ne'. apply (D x' o m); auto. congruence.
    + exfalso. apply Ne. apply (D x o m); auto. congruence.
    + apply (D x x' m); auto.
  - intros x I Q. apply U in I. destruct I as [->|[I _]]; [contradiction|auto].
Qed.
Lemma table_same s s' : table_ok s -> s_chans s' = s_chans s -> s_next s' = s_next s -> table_ok s'.
Proof. unfold table_ok. intros T -> ->. exact T. Qed.

(** A request without a channel moves on. *)
Lemma early_go s m p q : inv s -> phase_of s m = Some p -> (match p with QAsk _ _ | QIn _ _ _ => False | _ => True end) ->
  (match q with QAsk _ _ | QIn _ _ _ => False | _ => True end) -> inv (go s m q).
Proof.
  intros (R & T & G) P E Q. split; [exact R|]. split; [apply (table_same s); auto|]. intros x. destruct (x =? m) eqn:X.
  - apply Z.eqb_eq in X. subst x. specialize (G m). unfold good in *. rewrite phase_go, Z.eqb_refl, P in *. destruct p, q; try contradiction; exact G.
  - apply (good_frame s); auto; try reflexivity. rewrite phase_go, X. reflexivity.
Qed.
(** It is denied. *)
Lemma early_deny s m p code : inv s -> phase_of s m = Some p -> (match p with QAsk _ _ | QIn _ _ _ => False | _ => True end) -> inv (deny s m code).
Proof.
  intros (R & T & G) P E. unfold deny. split; [cbn; rewrite reqs_send; exact R|]. split; [apply (table_same s); auto; cbn; [apply chans_send|apply next_send]|].
  intros x. destruct (x =? m) eqn:X.
  - apply Z.eqb_eq in X. subst x. specialize (G m). unfold good in *. rewrite phase_over, Z.eqb_refl. rewrite P in G.
    assert (H : valid s m /\ answers m (s_log s) = [] /\ (forall k, In k (s_chans s) -> k_req k <> Some m)) by (destruct p; try contradiction; exact G).
    destruct H as (V & A & C). cbn [over with_log s_log s_chans s_up with_thr]. rewrite answers_app, answers_send, A, chans_send, up_send, Z.eqb_refl, answers_one. cbn.
    rewrite app_nil_r. conj.
    + intros _. destruct (s_up s); [left; eauto|right; auto].
    + intros N. exfalso. apply N. unfold valid. cbn. rewrite reqs_send. exact V.
    + intros k I Q. exfalso. apply (C k); auto.
  - apply (good_frame s); auto.
    + rewrite phase_over, X. apply phase_same, thr_send.
    + cbn. rewrite answers_app, answers_send, answers_one. rewrite app_nil_r, Z.eqb_sym, X. destruct (s_up s); apply app_nil_r.
    + unfold skipped. cbn. intros I. apply in_app_iff. left. apply log_send, I.
    + unfold valid. cbn. rewrite reqs_send. reflexivity.
    + cbn. rewrite up_send. auto.
    + intros k _. cbn. rewrite chans_send. reflexivity.
Qed.

(** The requests other than [m] are not involved when [m] ends. *)
Lemma inv_intro s s' m : inv s -> 0 <= s_reqs s' -> table_ok s' -> (forall x, x <> m -> valid s x <-> valid s' x) ->
  (forall x, x <> m -> phase_of s' x = phase_of s x) -> (forall x, x <> m -> answers x (s_log s') = answers x (s_log s)) ->
  (forall x, In (OSkip x) (s_log s) -> In (OSkip x) (s_log s')) -> (s_up s = false -> s_up s' = false) ->
  (forall k, k_req k <> Some m -> k_req k <> None -> In k (s_chans s) <-> In k (s_chans s')) -> good s' m -> inv s'.
Proof.
  intros (R & T & G) R' T' V P A Sk U C M. split; auto. split; auto. intros x. destruct (Z.eq_dec x m) as [->|N]; [exact M|].
  apply (good_frame s); auto.
  - intros H. apply Sk, H.
  - intros k Q. apply C; rewrite Q; congruence.
Qed.
Lemma msg_step s d s' : inv s -> numbered (SMsg d) -> sstep s (SMsg d) = Ok s' -> inv s'.
Proof.
  intros I N H. cbn [sstep] in H.
  set (m := s_reqs s) in *. set (s1 := mkSrv (s_up s) (s_chans s) (s_thr s) (m + 1) (s_next s) (s_log s ++ [OReq m d])) in *.
  assert (I1 : forall p, (match p with QAsk _ _ | QIn _ _ _ => False | _ => True end) -> inv (go s1 m p)).
  { intros p Q. pose proof I as (R & T & G). apply (inv_intro s _ m); auto.
    - cbn. fold m in R. lia.
    - intros x X. unfold valid. cbn. fold m. lia.
    - intros x X. rewrite phase_go. apply Z.eqb_neq in X. rewrite X. apply phase_same. reflexivity.
    - intros x X. cbn. rewrite answers_app, answers_one. apply app_nil_r.
    - intros x X. cbn. apply in_app_iff. auto.
    - intros. reflexivity.
    - specialize (G m). unfold good in *. rewrite phase_go, Z.eqb_refl. assert (Nv : ~ valid s m) by (unfold valid; fold m; lia).
      assert (A : answers m (s_log s) = [] /\ (forall k, In k (s_chans s) -> k_req k <> Some m)).
      { destruct (phase_of s m) as [[]|]; [exfalso; apply Nv; tauto..|]. destruct G as (G1 & G2 & G3). split; auto. intros k K E. destruct (G3 k K E) as (X & _). tauto. }
      destruct A as [A1 A2]. assert (V : valid (go s1 m p) m) by (unfold valid; cbn; fold m in R; lia).
      assert (A3 : answers m (s_log (go s1 m p)) = []) by (cbn; rewrite answers_app, A1; reflexivity).
      destruct p; try contradiction; auto. }
  destruct d as [q|].
  - destruct (q_number q) as [n|] eqn:E; [|discriminate]. apply ok_inj in H. subst s'. apply I1. exact Logic.I.
  - apply ok_inj in H. subst s'.
    assert (E : deny s1 m 500 = deny (go s1 m (QCheck 0 false)) m 500).
    { unfold deny, over, send, go, with_thr, with_log. destruct (s_up s1) eqn:U; cbn; rewrite ?Z.eqb_refl; cbn; unfold end_thr;
        assert (F : forall l, filter (fun e : Z * sphase => negb (fst e =? m)) (filter (fun e => negb (fst e =? m)) l) = filter (fun e => negb (fst e =? m)) l)
          by (induction l as [|a l IH]; cbn; [reflexivity|]; destruct (fst a =? m) eqn:Y; cbn; rewrite ?Y; cbn; [exact IH|f_equal; exact IH]);
        rewrite F; cbn in U; rewrite ?U; reflexivity. }
    rewrite E. eapply early_deny with (p := QCheck 0 false); [apply I1; exact Logic.I|rewrite phase_go, Z.eqb_refl; reflexivity|exact Logic.I].
Qed.
Lemma skip_step s m n p : inv s -> phase_of s m = Some (QFilter n p) -> inv (over (with_log s [OSkip m]) m).
Proof.
  intros I P. pose proof I as (R & T & G). apply (inv_intro s _ m); auto.
  - intros; reflexivity.
  - intros x X. rewrite phase_over. apply Z.eqb_neq in X. rewrite X. reflexivity.
  - intros x X. cbn. rewrite !answers_app, !answers_one. rewrite !app_nil_r. reflexivity.
  - intros x X. cbn. rewrite !in_app_iff. auto.
  - intros; reflexivity.
  - specialize (G m). unfold good in *. rewrite P in G. destruct G as (V & A & C). rewrite phase_over, Z.eqb_refl. cbn.
    rewrite !answers_app, !answers_one, A. cbn. conj.
    + intros _. right. split; auto. left. unfold skipped. cbn. rewrite !in_app_iff. cbn. auto.
    + auto.
    + intros k K E. exfalso. apply (C k); auto.
Qed.
Lemma add_step s m n : inv s -> phase_of s m = Some (QAdd n) -> chan_at s n = None ->
  inv (go (mkSrv (s_up s) (mkChan (s_next s) n (Some m) false false :: s_chans s) (s_thr s) (s_reqs s) (s_next s + 1) (s_log s)) m (QAsk n (s_next s))).
Proof.
  intros I P F. pose proof I as (R & T & G).
  assert (Fn : forall k, In k (s_chans s) -> k_num k <> n) by (intros k K E; apply find_none with (x := k) in F; auto; apply Z.eqb_neq in F; auto).
  specialize (G m) as Gm. unfold good in Gm. rewrite P in Gm. destruct Gm as (V & A & C).
  apply (inv_intro s _ m); auto.
  - destruct T as (T1 & T2 & T3 & T4 & T5). unfold table_ok. cbn. rewrite Forall_forall in T3. conj.
    + constructor; auto. intros K. apply in_map_iff in K. destruct K as (k & E & K). specialize (T3 k K). cbn in *. lia.
    + constructor; auto. intros K. apply in_map_iff in K. destruct K as (k & E & K). apply (Fn k); auto.
    + constructor; [cbn; lia|]. apply Forall_forall. intros k K. specialize (T3 k K). lia.
    + intros k k' x [K|K] [K'|K'] E E'; [congruence| | |apply (T4 k k' x); auto].
      * subst k. cbn in E. exfalso. apply (C k' K'). congruence.
      * subst k'. cbn in E'. exfalso. apply (C k K). congruence.
    + intros k [K|K] E; [subst k; discriminate|apply T5; auto].
  - intros; reflexivity.
  - intros x X. rewrite phase_go. apply Z.eqb_neq in X. rewrite X. reflexivity.
  - intros k K1 K2. cbn. split; auto. intros [X|X]; auto. subst k. cbn in K1. congruence.
  - unfold good. rewrite phase_go, Z.eqb_refl. split; [exact V|]. eexists. cbn. split; [left; reflexivity|]. cbn. auto 9.
Qed.
Lemma call_step s m n c called o : inv s -> phase_of s m = Some (QAsk n c) -> (forall x, answers x o = []) -> inv (with_log (go s m (QIn n c called)) o).
Proof.
  intros I P O. pose proof I as (R & T & G). apply (inv_intro s _ m); auto.
  - intros; reflexivity.
  - intros x X. rewrite (phase_same (go s m (QIn n c called))) by reflexivity. rewrite phase_go. apply Z.eqb_neq in X. rewrite X. reflexivity.
  - intros x X. cbn. rewrite answers_app, O. apply app_nil_r.
  - intros x X. cbn. rewrite !in_app_iff. auto.
  - intros; reflexivity.
  - specialize (G m). unfold good in *. rewrite P in G. rewrite (phase_same (go s m (QIn n c called))) by reflexivity. rewrite phase_go, Z.eqb_refl.
    destruct G as (V & k & G1 & G2 & G3 & G4 & G5 & G6 & G7). split; [exact V|]. exists k. cbn. rewrite answers_app, O, G7. unfold outcome_of. rewrite G6. conj; auto. discriminate.
Qed.

Definition accepted_chan (k : chan) : chan := mkChan (k_id k) (k_num k) (k_req k) (k_defer k) true.
Lemma decide_facts s k m ok : table_ok s -> In k (s_chans s) -> k_req k = Some m ->
  let s' := decide s k m ok in
  table_ok s' /\ s_thr s' = s_thr s /\ s_reqs s' = s_reqs s /\ s_up s' = s_up s /\
  (forall x, x <> m -> answers x (s_log s') = answers x (s_log s)) /\ (forall x, In (OSkip x) (s_log s) -> In (OSkip x) (s_log s')) /\
  (forall k', k_req k' <> Some m -> In k' (s_chans s) <-> In k' (s_chans s')) /\
  answers m (s_log s') = answers m (s_log s) ++ (if s_up s then [if ok then ROk else RErr 421] else []) /\
  (forall k', k_req k' = Some m -> In k' (s_chans s') <-> ok = true /\ s_up s = true /\ k' = accepted_chan k).
Proof.
  intros T K Q s'. subst s'. unfold decide.
  assert (Only : forall k', In k' (s_chans s) -> k_req k' = Some m -> k' = k) by (intros k' K' Q'; destruct T as (_ & _ & _ & T4 & _); apply (T4 k' k m); auto).
  assert (Only2 : forall k', In k' (s_chans s) -> k_num k' = k_num k -> k' = k) by (intros k' K' Q'; apply (num_inj s); auto).
  assert (U : forall x, In x (update (s_chans s) (accepted_chan k)) <-> x = accepted_chan k \/ (In x (s_chans s) /\ x <> k)) by (intros x; apply (in_update s); auto).
  destruct ok.
  - destruct (s_up s) eqn:Up.
    + fold (accepted_chan k). set (s1 := with_chans s (update (s_chans s) (accepted_chan k))).
      rewrite thr_send, reqs_send, up_send, answers_send, chans_send. cbn [with_chans s_thr s_reqs s_up s_log s_chans s1]. rewrite Up, Z.eqb_refl. conj; auto.
      * apply (table_update s _ k (accepted_chan k)); auto; [cbn; congruence|rewrite chans_send; reflexivity|rewrite next_send; reflexivity].
      * intros x X. rewrite answers_send. cbn. rewrite Up. apply not_eq_sym in X. apply Z.eqb_neq in X. rewrite X. apply app_nil_r.
      * intros x X. apply log_send. exact X.
      * intros k' N. rewrite U. split; [intros X; right; split; auto; congruence|]. intros [X|[X _]]; auto. subst k'. cbn in N. congruence.
      * intros k' Q'. rewrite U. split; [intros [X|[X Y]]; auto; exfalso; apply Y, Only; auto|]. intros (_ & _ & X). auto.
    + cbn [with_chans s_thr s_reqs s_up s_log s_chans]. rewrite Up, app_nil_r. conj; auto.
      * apply (table_drop s _ (k_num k)); auto.
      * intros k' N. rewrite in_drop. split; [|tauto]. intros X. split; auto. intros Y. apply Only2 in Y; auto. congruence.
      * intros k' Q'. rewrite in_drop. split; [|intros (_ & X & _); discriminate]. intros [X Y]. exfalso. apply Y. rewrite (Only k'); auto.
  - cbn [with_chans s_thr s_reqs s_up s_log s_chans]. rewrite thr_send, reqs_send, up_send, answers_send, Z.eqb_refl. conj; auto.
    + apply (table_drop s _ (k_num k)); auto. cbn. apply next_send.
    + intros x X. rewrite answers_send. apply not_eq_sym in X. apply Z.eqb_neq in X. rewrite X. destruct (s_up s); apply app_nil_r.
    + intros x X. apply log_send. exact X.
    + intros k' N. rewrite in_drop. split; [|tauto]. intros X. split; auto. intros Y. apply Only2 in Y; auto. congruence.
    + intros k' Q'. rewrite in_drop. split; [|intros (X & _); discriminate]. intros [X Y]. exfalso. apply Y. rewrite (Only k'); auto.
Qed.
Lemma ret_step s m n c called ok k : inv s -> phase_of s m = Some (QIn n c called) -> chan_id s c = Some k ->
  inv (if k_defer k then over s m else over (decide s k m (ok && called)) m).
Proof.
  intros I P F. pose proof I as (R & T & G). apply chan_id_some in F. destruct F as [F1 F2].
  specialize (G m) as Gm. unfold good in Gm. rewrite P in Gm. destruct Gm as (V & k0 & G1 & G2 & G3 & G4 & G5 & G6 & G7).
  assert (k0 = k) by (apply (id_inj s); auto; congruence). subst k0. pose proof T as (T1 & T2 & T3 & T4 & T5).
  destruct (k_defer k) eqn:D.
  - apply (inv_intro s _ m); auto.
    + intros; reflexivity.
    + intros x X. rewrite phase_over. apply Z.eqb_neq in X. rewrite X. reflexivity.
    + intros x X. cbn. rewrite answers_app, answers_one. apply app_nil_r.
    + intros x X. cbn. rewrite in_app_iff. auto.
    + intros; reflexivity.
    + unfold good. rewrite phase_over, Z.eqb_refl. cbn. rewrite answers_app, answers_one, app_nil_r. conj.
      * intros _. rewrite G7. unfold outcome_of. destruct (k_done k) eqn:E; [left; eauto|]. right. split; auto. right. left. exists k. auto.
      * intros N. contradiction.
      * intros k' K' Q'. assert (k' = k) by (apply (T4 k' k m); auto). subst k'. auto.
  - assert (Nd : k_done k = false) by (destruct (k_done k); auto; specialize (G5 eq_refl); congruence).
    destruct (decide_facts s k m (ok && called) T F1 G4) as (D1 & D2 & D3 & D4 & D5 & D6 & D7 & D8 & D9).
    set (s1 := decide s k m (ok && called)) in *. apply (inv_intro s _ m); auto.
    + cbn. rewrite D3. exact R.
    + intros x X. unfold valid. cbn. rewrite D3. reflexivity.
    + intros x X. rewrite phase_over. apply Z.eqb_neq in X. rewrite X. apply phase_same, D2.
    + intros x X. cbn. rewrite answers_app, answers_one, app_nil_r. apply D5, X.
    + intros x X. cbn. rewrite in_app_iff. auto.
    + cbn. rewrite D4. auto.
    + unfold good. rewrite phase_over, Z.eqb_refl. cbn. rewrite answers_app, answers_one, app_nil_r, D8, G7. unfold outcome_of. rewrite Nd. cbn [app].
      assert (V' : valid (over s1 m) m) by (unfold valid; cbn; rewrite D3; exact V). conj.
      * intros _. rewrite D4. destruct (s_up s); [left; eauto|right; auto].
      * intros N. contradiction.
      * intros k' K' Q'. apply D9 in K'; auto. destruct K' as (K1 & K2 & K3). subst k'. rewrite K1, K2. cbn. auto.
Qed.
Lemma notify_step s c ok k : inv s -> fair s (SNotify c ok) -> chan_id s c = Some k -> s_up s = true ->
  inv (decide s k (match k_req k with Some m => m | None => 0 end) ok).
Proof.
  intros I (k0 & K0 & E0 & Df & Nd & Hf) F Up. pose proof I as (R & T & G). apply chan_id_some in F. destruct F as [F1 F2].
  assert (k0 = k) by (apply (id_inj s); auto; congruence). subst k0. pose proof T as (T1 & T2 & T3 & T4 & T5).
  destruct (k_req k) as [m|] eqn:Q; [|rewrite T5 in Df; auto; discriminate].
  destruct (decide_facts s k m ok T F1 Q) as (D1 & D2 & D3 & D4 & D5 & D6 & D7 & D8 & D9).
  set (s1 := decide s k m ok) in *. apply (inv_intro s _ m); auto.
  - rewrite D3. exact R.
  - intros x X. unfold valid. rewrite D3. reflexivity.
  - intros x X. apply phase_same, D2.
  - rewrite D4. auto.
  - specialize (G m). unfold good in *. rewrite (phase_same s s1) by auto. rewrite D8, Up. destruct (phase_of s m) as [p|] eqn:P.
    + destruct p; try (exfalso; destruct G as (_ & _ & G); apply (G k F1 Q)).
      * exfalso. destruct G as (_ & k1 & H1 & _ & _ & H2 & H3 & _). assert (k1 = k) by (apply (T4 k1 k m); auto). subst. congruence.
      * destruct G as (V & k1 & H1 & H2 & H3 & H4 & H5 & H6 & H7). assert (k1 = k) by (apply (T4 k1 k m); auto). subst k1.
        destruct ok; [|exfalso; apply (Hf eq_refl m); exists n; right; exists called; congruence].
        split; [unfold valid; rewrite D3; exact V|]. exists (accepted_chan k). rewrite H7. unfold outcome_of. rewrite Nd. cbn. conj; auto. apply D9; auto.
    + destruct G as (G1 & G2 & G3). destruct (G3 k F1 Q) as (V & _ & A). unfold outcome_of in A. rewrite Nd in A. rewrite A. cbn [app].
      assert (V' : valid s1 m) by (unfold valid; rewrite D3; exact V). conj.
      * intros _. left. eauto.
      * intros N. contradiction.
      * intros k' K' Q'. apply D9 in K'; auto. destruct K' as (-> & _ & ->). cbn. auto.
Qed.
Lemma defer_step s c k : inv s -> fair s (SDefer c) -> chan_id s c = Some k ->
  inv (with_chans s (update (s_chans s) (mkChan (k_id k) (k_num k) (k_req k) true (k_done k)))).
Proof.
  intros I (m & n & P) F. pose proof I as (R & T & G). apply chan_id_some in F. destruct F as [F1 F2].
  specialize (G m) as Gm. unfold good in Gm. rewrite P in Gm. destruct Gm as (V & k0 & G1 & G2 & G3 & G4 & G5 & G6 & G7).
  assert (k0 = k) by (apply (id_inj s); auto; congruence). subst k0. pose proof T as (T1 & T2 & T3 & T4 & T5).
  set (k' := mkChan (k_id k) (k_num k) (k_req k) true (k_done k)).
  assert (U : forall x, In x (update (s_chans s) k') <-> x = k' \/ (In x (s_chans s) /\ x <> k)) by (intros x; apply (in_update s); auto).
  apply (inv_intro s _ m); auto.
  - apply (table_update s _ k k'); auto. cbn. congruence.
  - intros; reflexivity.
  - intros x N1 N2. cbn. rewrite U. split; [intros X; right; split; auto; congruence|]. intros [X|[X _]]; auto. subst x. cbn in N1. congruence.
  - unfold good. rewrite (phase_same s) by reflexivity. rewrite P. split; [exact V|]. exists k'. cbn [with_chans s_chans]. rewrite U. conj; auto; try discriminate.
Qed.
Lemma local_step s n : inv s -> chan_at s n = None -> inv (mkSrv (s_up s) (mkChan (s_next s) n None false true :: s_chans s) (s_thr s) (s_reqs s) (s_next s + 1) (s_log s)).
Proof.
  intros I F. pose proof I as (R & T & G).
  assert (Fn : forall k, In k (s_chans s) -> k_num k <> n) by (intros k K E; apply find_none with (x := k) in F; auto; apply Z.eqb_neq in F; auto).
  split; [exact R|]. split.
  - destruct T as (T1 & T2 & T3 & T4 & T5). unfold table_ok. cbn. rewrite Forall_forall in T3. conj.
    + constructor; auto. intros K. apply in_map_iff in K. destruct K as (k & E & K). specialize (T3 k K). cbn in *. lia.
    + constructor; auto. intros K. apply in_map_iff in K. destruct K as (k & E & K). apply (Fn k); auto.
    + constructor; [cbn; lia|]. apply Forall_forall. intros k K. specialize (T3 k K). lia.
    + intros k k' x [K|K] [K'|K'] E E'; [congruence|subst; discriminate|subst; discriminate|apply (T4 k k' x); auto].
    + intros k [K|K] E; [subst k; reflexivity|apply T5; auto].
  - intros x. apply (good_frame s); auto; try reflexivity. intros k Q. cbn. split; auto. intros [X|X]; auto. subst k. discriminate.
Qed.
Lemma close_step s n : inv s -> fair s (SClose n) -> inv (with_chans s (drop_num (s_chans s) n)).
Proof.
  intros I Fr. pose proof I as (R & T & G). split; [exact R|]. split; [apply (table_drop s _ n); auto|]. pose proof T as (T1 & T2 & T3 & T4 & T5).
  intros x. destruct (chan_at s n) as [k|] eqn:F.
  - apply find_some in F. destruct F as [F1 F2]. apply Z.eqb_eq in F2. cbn in Fr. destruct (Fr k F1 F2) as [Dn Nd].
    assert (D : k_req k = Some x \/ k_req k <> Some x) by (destruct (k_req k) as [y|]; [destruct (Z.eq_dec y x); [left; congruence|right; congruence]|right; congruence]).
    destruct D as [Q|Q].
    + specialize (G x). unfold good in *. rewrite (phase_same s) by reflexivity. destruct (phase_of s x) as [p|] eqn:P.
      * exfalso. destruct p; try (destruct G as (_ & _ & G); apply (G k F1 Q)).
        -- destruct G as (_ & k1 & H1 & H2 & _ & H3 & _). assert (k1 = k) by (apply (T4 k1 k x); auto). subst. apply (Nd x). exists n0. auto.
        -- destruct G as (_ & k1 & H1 & H2 & _ & H3 & _). assert (k1 = k) by (apply (T4 k1 k x); auto). subst. apply (Nd x). exists n0. eauto.
      * destruct G as (G1 & G2 & G3). destruct (G3 k F1 Q) as (V & _ & A). unfold outcome_of in A. rewrite Dn in A. conj.
        -- intros _. left. eauto.
        -- intros N. contradiction.
        -- intros k' K' Q'. cbn in K'. apply in_drop in K'. destruct K' as [K1 K2]. apply G3; auto.
    + apply (good_frame s); auto; try reflexivity. intros k' Q'. cbn. rewrite in_drop. split; [|tauto]. intros K'. split; auto. intros E.
      apply Q. replace k with k'; auto. apply (num_inj s); auto. congruence.
  - apply (good_frame s); auto; try reflexivity. intros k' Q'. cbn. rewrite in_drop. split; [|tauto]. intros K'. split; auto. intros E.
    apply find_none with (x := k') in F; auto. apply Z.eqb_neq in F. auto.
Qed.
Lemma inv_step s e : inv s -> fair s e -> numbered e -> exists s', sstep s e = Ok s' /\ inv s'.
Proof.
  intros I Fr Nb. pose proof I as (R & T & G).
  assert (Same : exists s', Ok s = Ok s' /\ inv s') by eauto. pose proof T as (T1 & T2 & T3 & T4 & T5).
  destruct e; cbn [sstep].
  - assert (X : exists s', sstep s (SMsg d) = Ok s').
    { cbn [sstep]. destruct d as [q|]; [|eauto]. cbn in Nb. destruct (q_number q); [eauto|contradiction]. }
    destruct X as [s' X]. exists s'. split; [exact X|]. apply (msg_step s d); auto.
  - destruct (phase_of s m) as [[]|] eqn:P; auto. destruct (exists_chan s n); eexists; (split; [reflexivity|]).
    + eapply early_deny; eauto; exact Logic.I.
    + eapply early_go; eauto; exact Logic.I.
  - destruct (phase_of s m) as [[]|] eqn:P; auto. destruct v; eexists; (split; [reflexivity|]).
    + eapply early_go; eauto; exact Logic.I.
    + eapply early_deny; eauto; exact Logic.I.
    + eapply skip_step; eauto.
  - destruct (phase_of s m) as [[]|] eqn:P; auto. destruct (if prof then v else PNone); eexists; (split; [reflexivity|]).
    + eapply early_deny; eauto; exact Logic.I.
    + eapply early_deny; eauto; exact Logic.I.
    + eapply early_go; eauto; exact Logic.I.
  - destruct (phase_of s m) as [[]|] eqn:P; auto. destruct (n =? 0); [eexists; (split; [reflexivity|]); eapply early_deny; eauto; exact Logic.I|].
    destruct (chan_at s n) as [k|] eqn:F; eexists; (split; [reflexivity|]).
    + eapply early_deny; eauto; exact Logic.I.
    + apply add_step; auto.
  - destruct (phase_of s m) as [[]|] eqn:P; auto. destruct (n <? 0); eexists; (split; [reflexivity|]).
    + assert (E : go s m (QIn n c false) = with_log (go s m (QIn n c false)) []) by (unfold with_log, go, with_thr; cbn; rewrite app_nil_r; reflexivity).
      rewrite E. apply call_step; auto.
    + apply call_step; auto.
  - destruct (phase_of s m) as [[]|] eqn:P; auto. specialize (G m) as Gm. unfold good in Gm. rewrite P in Gm. destruct Gm as (V & k0 & G1 & G2 & G3 & G4 & G5 & G6 & G7).
    assert (F : chan_id s c = Some k0) by (rewrite <- G2; apply chan_id_in; auto). rewrite F. pose proof (ret_step s m n c called ok k0 I P F) as H.
    destruct (k_defer k0); eauto.
  - pose proof Fr as (m & n & P). specialize (G m) as Gm. unfold good in Gm. rewrite P in Gm. destruct Gm as (V & k0 & G1 & G2 & _).
    assert (F : chan_id s c = Some k0) by (rewrite <- G2; apply chan_id_in; auto). rewrite F. eexists. split; [reflexivity|]. eapply defer_step; eauto.
  - pose proof Fr as (k & K & E & _). assert (F : chan_id s c = Some k) by (rewrite <- E; apply chan_id_in; auto). rewrite F.
    destruct (s_up s) eqn:Up; auto. eexists. split; [reflexivity|]. eapply notify_step; eauto.
  - destruct (exists_chan s n || (n <=? 0)); auto. destruct (chan_at s n) eqn:F; auto. eexists. split; [reflexivity|]. apply local_step; auto.
  - eexists. split; [reflexivity|]. apply close_step; auto.
  - eexists. split; [reflexivity|]. split; [exact R|]. split; [apply (table_same s); auto|]. intros x. apply (good_frame s); auto; reflexivity.
Qed.
Lemma inv0 : inv srv0.
Proof.
  split; [cbn; lia|]. split.
  - unfold table_ok. cbn. conj; try constructor; intros; contradiction.
  - intros m. unfold good. cbn. conj; auto; [intros V; unfold valid in V; cbn in V; lia|contradiction].
Qed.
Lemma inv_run es : forall s, inv s -> fairly s es -> exists s', srun s es = Ok s' /\ inv s'.
Proof.
  induction es as [|e es IH]; cbn [srun]; intros s I F; [eauto|]. destruct F as (F1 & F2 & F3). destruct (inv_step s e I F1 F2) as (s1 & E & I1).
  rewrite E. cbn. apply IH; auto.
Qed.

Lemma answered_thm es : fairly srv0 es -> exists s, srun srv0 es = Ok s /\ forall m,
  (length (answers m (s_log s)) <= 1)%nat /\
  (0 <= m < s_reqs s -> phase_of s m = None -> answers m (s_log s) = [] -> In (OSkip m) (s_log s) \/ pending s m \/ s_up s = false) /\
  (~ 0 <= m < s_reqs s -> answers m (s_log s) = []).
Proof.
  intros F. destruct (inv_run es srv0 inv0 F) as (s & E & I). exists s. split; auto. intros m. destruct I as (R & T & G). specialize (G m).
  unfold good, valid, outcome_of in G. destruct (phase_of s m) as [p|].
  - assert (L : (length (answers m (s_log s)) <= 1)%nat).
    { destruct p; [destruct G as (V & G & _); rewrite G; cbn; lia..| |].
      + destruct G as (_ & k & _ & _ & _ & _ & _ & _ & G). rewrite G. cbn. lia.
      + destruct G as (_ & k & _ & _ & _ & _ & _ & _ & G). rewrite G. destruct (k_done k); cbn; lia. }
    split; auto. split; [discriminate|]. intros N. exfalso. apply N. destruct p; tauto.
  - destruct G as (G1 & G2 & G3). conj; auto.
    + destruct (Z_le_dec 0 m), (Z_lt_dec m (s_reqs s)); [|rewrite G2 by lia; cbn; lia..]. destruct G1 as [[r H]|[H _]]; [lia| |]; rewrite H; cbn; lia.
    + intros V _ A. destruct (G1 V) as [[r H]|[_ H]]; [congruence|exact H].
Qed.
Lemma channel_thm es s : fairly srv0 es -> srun srv0 es = Ok s ->
  NoDup (map k_num (s_chans s)) /\
  forall k m, In k (s_chans s) -> k_req k = Some m -> answers m (s_log s) = if k_done k then [ROk] else [].
Proof.
  intros F E. destruct (inv_run es srv0 inv0 F) as (s1 & E1 & I). rewrite E in E1. apply ok_inj in E1. subst s1. destruct I as (R & T & G).
  split; [apply T|]. intros k m K Q. specialize (G m). unfold good, outcome_of in G. pose proof T as (_ & _ & _ & T4 & _). destruct (phase_of s m) as [p|].
  - destruct p; try (exfalso; destruct G as (_ & _ & G); apply (G k K Q)).
    + destruct G as (_ & k1 & H1 & _ & _ & H2 & _ & H3 & A). assert (k1 = k) by (apply (T4 k1 k m); auto). subst. rewrite H3. exact A.
    + destruct G as (_ & k1 & H1 & _ & _ & H2 & _ & _ & A). assert (k1 = k) by (apply (T4 k1 k m); auto). subst. exact A.
  - destruct G as (_ & _ & G). apply G; auto.
Qed.
