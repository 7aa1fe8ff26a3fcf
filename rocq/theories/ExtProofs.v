(** Proofs about the external transports. *)
From Coq Require Import Lia.
From Verif Require Import Base ExtModel ExtSpec.

(** * Lists with identifiers *)
Lemma no_id {A} (id : A -> nat) k l : ~ In k (map id l) -> filter (fun y => negb (Nat.eqb (id y) k)) l = l.
Proof.
  induction l as [|y l IH]; intros H; [reflexivity|]. cbn [filter map In] in *. destruct (Nat.eqb_spec (id y) k) as [E|E]; [tauto|]. cbn [negb]. rewrite IH by tauto. reflexivity.
Qed.
Lemma del_one {A} (id : A -> nat) (P : A -> bool) k x : forall l, NoDup (map id l) -> find (fun y => Nat.eqb (id y) k) l = Some x ->
  length (filter P l) = (length (filter P (filter (fun y => negb (Nat.eqb (id y) k)) l)) + if P x then 1 else 0)%nat.
Proof.
  induction l as [|y l IH]; intros N F; [discriminate|]. cbn [map find filter] in *. inversion N; subst. destruct (Nat.eqb_spec (id y) k) as [E|E]; cbn [negb].
  - injection F as ->. subst k. rewrite no_id by assumption. destruct (P x); cbn [length]; lia.
  - specialize (IH H2 F). cbn [filter]. destruct (P y); cbn [length]; lia.
Qed.
Lemma del_nodup {A} (id : A -> nat) k l : NoDup (map id l) -> NoDup (map id (filter (fun y => negb (Nat.eqb (id y) k)) l)).
Proof.
  induction l as [|y l IH]; intros N; [constructor|]. cbn [map filter] in *. inversion N; subst. destruct (negb _); [|exact (IH H2)].
  cbn [map]. constructor; [|exact (IH H2)]. intros Q. apply H1. apply in_map_iff in Q. destruct Q as (z & E & Q). apply filter_In in Q. rewrite <- E. apply in_map. exact (proj1 Q).
Qed.
Lemma find_none_id {A} (id : A -> nat) k l : find (fun y => Nat.eqb (id y) k) l = None -> ~ In k (map id l).
Proof.
  induction l as [|y l IH]; cbn [find map In]; intros F; [tauto|]. destruct (Nat.eqb_spec (id y) k) as [E|E]; [discriminate|]. intros [Q|Q]; [contradiction|exact (IH F Q)].
Qed.
Lemma has_conn_in c l : has_conn c l = true <-> In c (map fst l).
Proof.
  unfold has_conn. rewrite existsb_exists. split.
  - intros (x & H & E). apply Nat.eqb_eq in E. subst c. apply in_map. exact H.
  - intros H. apply in_map_iff in H. destruct H as (x & E & H). exists x. split; [exact H|]. apply Nat.eqb_eq. exact E.
Qed.
Lemma filter_true {A} (l : list A) : filter (fun _ => true) l = l.
Proof. induction l; cbn; congruence. Qed.
Lemma find_in {A} (p : A -> bool) l x : find p l = Some x -> In x l /\ p x = true.
Proof. apply find_some. Qed.

(** * References *)
Definition is_lock (x : call) : bool := match k_how x with HLock => true | _ => false end.
Definition locks (l : list call) : nat := length (filter is_lock l).
Definition keeps (m : bool) (own : Z) (s : xst) : Prop :=
  0 <= own /\ x_refs s = own + zlen (x_conns s) /\ x_alive s = (0 <? x_refs s) /\ x_mutex s = m /\
  NoDup (map fst (x_conns s)) /\ NoDup (map k_id (x_in s)) /\
  (forall x, In x (x_in s) -> k_how x = HDirect \/ (In (k_conn x) (map fst (x_conns s)) /\ k_how x = if m then HLock else HFree)) /\
  x_held s = (1 <=? Z.of_nat (locks (x_in s))) /\ (locks (x_in s) <= 1)%nat.
Lemma keeps_unref m own s : keeps m own s -> 0 < x_refs s ->
  exists r, unref s = Ok r /\
  forall s', r = Some s' -> s' = mkX (0 <? x_refs s - 1) (x_refs s - 1) (x_mutex s) false (x_conns s) (x_in s) (x_bad s) /\ x_held s = false.
Proof.
  intros (_ & _ & A & _) P. unfold unref. rewrite A. destruct (Z.ltb_spec 0 (x_refs s)); [|lia]. cbn [negb].
  destruct (x_held s); [exists None; split; [reflexivity|discriminate]|]. eexists. split; [reflexivity|]. intros s' H1. injection H1 as <-. split; reflexivity.
Qed.
Lemma conns_pos s c : In c (map fst (x_conns s)) -> 0 < zlen (x_conns s).
Proof. unfold zlen. destruct (x_conns s); cbn; [tauto|lia]. Qed.
Lemma step_keeps m own e s : keeps m own s -> match e with XRef | XUnref | XNew _ => 0 < own | XConf _ => False | _ => True end ->
  exists r, xstep e s = Ok r /\ forall s', r = Some s' -> keeps m (owns own e) s'.
Proof.
  intros K Q. pose proof K as (O & R & A & M & Nc & Nk & C & H & L).
  assert (Zp : 0 <= zlen (x_conns s)) by (unfold zlen; lia).
  destruct e as [| |b|c|c|k c|k c|k]; cbn [xstep owns].
  - rewrite A. destruct (Z.ltb_spec 0 (x_refs s)); [|lia]. cbn [negb]. destruct (x_held s) eqn:Hd; [exists None; split; [reflexivity|discriminate]|].
    eexists. split; [reflexivity|]. intros s' E. injection E as <-. unfold keeps. cbn. repeat split; try assumption; try lia.
  - destruct (keeps_unref m own s K ltac:(lia)) as (r & E & F). exists r. split; [exact E|]. intros s' E'. destruct (F s' E') as (-> & Hd). rewrite Hd in *. unfold keeps. cbn. repeat split; try assumption; lia.
  - contradiction.
  - destruct (has_conn c (x_conns s)) eqn:Hc; [exists None; split; [reflexivity|discriminate]|]. rewrite A. destruct (Z.ltb_spec 0 (x_refs s)); [|lia]. cbn [negb].
    eexists. split; [reflexivity|]. intros s' E. injection E as <-. unfold keeps. cbn [x_refs x_conns x_alive x_mutex x_in x_held map fst]. unfold zlen in *. cbn [length]. repeat split; try assumption; try lia.
    + constructor; [|exact Nc]. intros X. apply has_conn_in in X. congruence.
    + intros x X. destruct (C x X) as [Y|(Y & Z1)]; [left; exact Y|right]. split; [right; exact Y|exact Z1].
  - destruct (find _ (x_conns s)) as [(c0, made)|] eqn:F; [|exists None; split; [reflexivity|discriminate]].
    destruct (existsb _ (x_in s)) eqn:Ex; [exists None; split; [reflexivity|discriminate]|].
    pose proof (find_in _ _ _ F) as (In0 & E0). cbn [fst] in E0. apply Nat.eqb_eq in E0. subst c0.
    pose proof (conns_pos s c ltac:(change c with (fst (c, made)); apply in_map; exact In0)) as Pc.
    destruct (keeps_unref m own s K ltac:(lia)) as (r & E & G). rewrite E. cbn [obind]. eexists. split; [reflexivity|].
    intros s' E'. destruct r as [s1|]; [|discriminate]. destruct (G s1 eq_refl) as (-> & Hd). injection E' as <-. unfold keeps. cbn [x_refs x_conns x_alive x_mutex x_in x_held].
    pose proof (del_one fst (fun _ => true) c (c, made) (x_conns s) Nc F) as D. cbv beta in D. rewrite !filter_true in D. rewrite Hd in H.
    unfold zlen in *. unfold del_conn. repeat split; try assumption; try lia.
    + apply del_nodup. exact Nc.
    + intros x X. destruct (C x X) as [Y|(Y & Z1)]; [left; exact Y|right]. split; [|exact Z1]. apply in_map_iff in Y. destruct Y as (y & Ey & Y). rewrite <- Ey. apply in_map. apply filter_In. split; [exact Y|].
      rewrite Ey. destruct (Nat.eqb_spec (k_conn x) c) as [E1|E1]; [|reflexivity]. exfalso. assert (existsb (fun x => Nat.eqb (k_conn x) c) (x_in s) = true); [|congruence].
      apply existsb_exists. exists x. split; [exact X|]. apply Nat.eqb_eq. exact E1.
  - destruct (has_conn c (x_conns s)) eqn:Hc; cbn [negb]; [|exists None; split; [reflexivity|discriminate]]. apply has_conn_in in Hc.
    destruct (find_call k (x_in s)) eqn:F; [exists None; split; [reflexivity|discriminate]|]. pose proof (conns_pos _ _ Hc) as Pc.
    apply (find_none_id k_id) in F. rewrite A. destruct (Z.ltb_spec 0 (x_refs s)); [|lia]. cbn [negb]. rewrite M. destruct m.
    + destruct (x_held s) eqn:Hd; [exists None; split; [reflexivity|discriminate]|]. eexists. split; [reflexivity|]. intros s' E. injection E as <-. unfold keeps. cbn [x_refs x_conns x_alive x_mutex x_in x_held].
      assert (L0 : locks (x_in s) = 0%nat). { destruct (Z.leb_spec 1 (Z.of_nat (locks (x_in s)))); [discriminate|lia]. }
      unfold locks in *. cbn [filter is_lock k_how length]. rewrite L0. repeat split; try assumption; try lia.
      * cbn [map]. constructor; [exact F|exact Nk].
      * intros x [<-|X]; [right; split; [exact Hc|reflexivity]|exact (C x X)].
    + eexists. split; [reflexivity|]. intros s' E. injection E as <-. unfold keeps. cbn [x_refs x_conns x_alive x_mutex x_in x_held]. unfold locks in *. cbn [filter is_lock k_how]. repeat split; try assumption; try lia.
      * cbn [map]. constructor; [exact F|exact Nk].
      * intros x [<-|X]; [right; split; [exact Hc|reflexivity]|exact (C x X)].
  - destruct (has_conn c (x_conns s)); [exists None; split; [reflexivity|discriminate]|]. destruct (find_call k (x_in s)) eqn:F; [exists None; split; [reflexivity|discriminate]|].
    apply (find_none_id k_id) in F. eexists. split; [reflexivity|]. intros s' E. injection E as <-. unfold keeps. cbn [x_refs x_conns x_alive x_mutex x_in x_held]. unfold locks in *. cbn [filter is_lock k_how].
    repeat split; try assumption.
    + cbn [map]. constructor; [exact F|exact Nk].
    + intros x [<-|X]; [left; reflexivity|exact (C x X)].
  - destruct (find_call k (x_in s)) as [x|] eqn:F; [|exists None; split; [reflexivity|discriminate]]. pose proof (find_in _ _ _ F) as (Ix & _).
    pose proof (del_one k_id is_lock k x (x_in s) Nk F) as D. fold (del_call k (x_in s)) in D.
    assert (Ks : forall h, h = (1 <=? Z.of_nat (locks (del_call k (x_in s)))) -> keeps m own (mkX (x_alive s) (x_refs s) (x_mutex s) h (x_conns s) (del_call k (x_in s)) (x_bad s))).
    { intros h Eh. unfold keeps. cbn [x_refs x_conns x_alive x_mutex x_in x_held]. unfold locks in *. repeat split; try assumption; try lia.
      - apply del_nodup. exact Nk.
      - intros y Y. apply filter_In in Y. exact (C y (proj1 Y)). }
    unfold locks in *. unfold is_lock in D at 3. destruct (C x Ix) as [E|(E1 & E)].
    + rewrite E in *. eexists. split; [reflexivity|]. intros s' Es. injection Es as <-. apply Ks. rewrite H. f_equal. lia.
    + rewrite E, M in *. pose proof (conns_pos _ _ E1). rewrite A. destruct (Z.ltb_spec 0 (x_refs s)); [|lia]. cbn [negb]. destruct m.
      * eexists. split; [reflexivity|]. intros s' Es. injection Es as <-. cbn [x_alive x_refs x_mutex x_conns x_in x_bad]. rewrite A in Ks. destruct (Z.ltb_spec 0 (x_refs s)); [|lia]. apply Ks. symmetry. apply Z.leb_gt. lia.
      * eexists. split; [reflexivity|]. intros s' Es. injection Es as <-. rewrite A in Ks. destruct (Z.ltb_spec 0 (x_refs s)); [|lia]. apply Ks. rewrite H. f_equal. lia.
Qed.
Theorem setup_lives : forall m es, settled es -> fair 1 es ->
  exists r, xrun es (conf m) = Ok r /\
    forall s, r = Some s -> x_refs s = own_after 1 es + zlen (x_conns s) /\ (x_alive s = true <-> 0 < x_refs s).
Proof.
  intros m es. assert (K0 : keeps m 1 (conf m)). { unfold keeps, conf. cbn. repeat split; try constructor; try lia; try (intros x []). }
  unfold own_after. revert K0. generalize (conf m) as s. generalize 1 as own. induction es as [|e es IH]; intros own s K St Fa.
  - exists (Some s). split; [reflexivity|]. intros s' E. injection E as <-. destruct K as (_ & R & A & _). split; [exact R|]. rewrite A. apply Z.ltb_lt.
  - destruct Fa as (Q & Fa). destruct (step_keeps m own e s K) as (r & E & F).
    { destruct e; try exact I; try exact Q. exact (St b (or_introl eq_refl)). }
    cbn [xrun]. rewrite E. cbn [obind]. destruct r as [s1|]; [|exists None; split; [reflexivity|discriminate]].
    apply (IH (owns own e) s1 (F s1 eq_refl)); [|exact Fa]. intros b Hb. exact (St b (or_intror Hb)).
Qed.

(** * The handlers are kept apart *)
Definition apart (s : xst) : Prop :=
  x_mutex s = true /\ Forall (fun x => k_how x = HLock) (x_in s) /\ (length (x_in s) <= 1)%nat /\ x_held s = (match x_in s with [] => false | _ => true end).
Lemma step_apart e s s' : apart s -> match e with XConf _ | XEnterA _ _ => False | _ => True end -> xstep e s = Ok (Some s') -> apart s'.
Proof.
  intros (M & Fa & L & H) Q E. unfold apart. destruct e as [| |b|c|c|k c|k c|k]; cbn [xstep] in E; try contradiction.
  - destruct (negb _); [discriminate|]. destruct (x_held s) eqn:Hd; [discriminate|]. injection E as <-. cbn. repeat split; assumption.
  - unfold unref in E. destruct (negb _); [discriminate|]. destruct (x_held s) eqn:Hd; [discriminate|]. injection E as <-. cbn. repeat split; assumption.
  - destruct (has_conn _ _); [discriminate|]. destruct (negb _); [discriminate|]. injection E as <-. cbn. repeat split; assumption.
  - destruct (find _ _) as [(c0, made)|]; [|discriminate]. destruct (existsb _ _); [discriminate|]. unfold unref in E. destruct (negb _); [discriminate|]. destruct (x_held s) eqn:Hd; [discriminate|].
    cbn [obind] in E. injection E as <-. cbn. repeat split; assumption.
  - destruct (negb (has_conn _ _)); [discriminate|]. destruct (find_call _ _); [discriminate|]. destruct (negb _); [discriminate|]. rewrite M in E. destruct (x_held s) eqn:Hd; [discriminate|].
    injection E as <-. cbn. destruct (x_in s) as [|y l]; [|discriminate]. split; [reflexivity|]. split; [constructor; [reflexivity|constructor]|]. split; [cbn; lia|reflexivity].
  - destruct (find_call k (x_in s)) as [x|] eqn:F; [|discriminate]. pose proof (find_in _ _ _ F) as (Ix & Ek). destruct (x_in s) as [|y [|z l]] eqn:Ei; [contradiction| |cbn in L; lia].
    destruct Ix as [<-|[]]. inversion Fa as [|? ? Hy _]; subst. rewrite Hy, M in E. destruct (negb _); [discriminate|]. injection E as <-. cbn [x_mutex x_in x_held del_call filter]. rewrite Ek. cbn. repeat split; try lia. constructor.
Qed.
Theorem kept_apart : forall es s, settled es -> initiator es -> xrun es (conf true) = Ok (Some s) -> (length (x_in s) <= 1)%nat.
Proof.
  intros es s St In R. assert (A : apart s); [|exact (proj1 (proj2 (proj2 A)))]. revert St In R.
  assert (A0 : apart (conf true)) by (unfold apart, conf; cbn; repeat split; try constructor; lia). revert A0. generalize (conf true) as s0. induction es as [|e es IH]; intros s0 A0 St In R; cbn [xrun] in R.
  - injection R as <-. exact A0.
  - destruct (xstep e s0) as [[s1|]|] eqn:E; cbn [obind] in R; try discriminate. apply (IH s1).
    + apply (step_apart e s0); [exact A0| |exact E]. destruct e; try exact I; [exact (St b (or_introl eq_refl))|exact (In k c (or_introl eq_refl))].
    + intros b Hb. exact (St b (or_intror Hb)).
    + intros k c Hk. exact (In k c (or_intror Hk)).
    + exact R.
Qed.
(** The mutexes destroyed were created. *)
Lemma step_made e s s' : x_mutex s = true /\ Forall (fun x => snd x = true) (x_conns s) /\ x_bad s = 0%nat -> match e with XConf _ => False | _ => True end ->
  xstep e s = Ok (Some s') -> x_mutex s' = true /\ Forall (fun x => snd x = true) (x_conns s') /\ x_bad s' = 0%nat.
Proof.
  intros (M & Fa & B) Q E. destruct e as [| |b|c|c|k c|k c|k]; cbn [xstep] in E; try contradiction.
  - destruct (negb _); [discriminate|]. destruct (x_held s); [discriminate|]. injection E as <-. cbn. repeat split; assumption.
  - unfold unref in E. destruct (negb _); [discriminate|]. destruct (x_held s); [discriminate|]. injection E as <-. cbn. repeat split; assumption.
  - destruct (has_conn _ _); [discriminate|]. destruct (negb _); [discriminate|]. injection E as <-. cbn. repeat split; try assumption. constructor; assumption.
  - destruct (find _ _) as [(c0, made)|] eqn:F; [|discriminate]. destruct (existsb _ _); [discriminate|]. unfold unref in E. destruct (negb _); [discriminate|]. destruct (x_held s); [discriminate|].
    cbn [obind] in E. injection E as <-. cbn. apply find_in in F. pose proof (proj1 (Forall_forall _ _) Fa _ (proj1 F)) as Hm. cbn in Hm. subst made. repeat split; try assumption; try lia.
    unfold del_conn. apply Forall_forall. intros x X. apply filter_In in X. exact (proj1 (Forall_forall _ _) Fa _ (proj1 X)).
  - destruct (negb (has_conn _ _)); [discriminate|]. destruct (find_call _ _); [discriminate|]. destruct (negb _); [discriminate|]. rewrite M in E. destruct (x_held s); [discriminate|]. injection E as <-. cbn. repeat split; assumption.
  - destruct (has_conn _ _); [discriminate|]. destruct (find_call _ _); [discriminate|]. injection E as <-. cbn. repeat split; assumption.
  - destruct (find_call k (x_in s)) as [x|]; [|discriminate]. rewrite M in E. destruct (k_how x); try (destruct (negb (x_alive s)); [discriminate|]); try discriminate; injection E as <-; cbn; repeat split; assumption.
Qed.
Theorem mutexes_made : forall es s, settled es -> xrun es (conf true) = Ok (Some s) -> x_bad s = 0%nat.
Proof.
  intros es s St R. assert (A : x_mutex s = true /\ Forall (fun x => snd x = true) (x_conns s) /\ x_bad s = 0%nat); [|exact (proj2 (proj2 A))]. revert St R.
  assert (A0 : x_mutex (conf true) = true /\ Forall (fun x => snd x = true) (x_conns (conf true)) /\ x_bad (conf true) = 0%nat) by (repeat split; constructor).
  revert A0. generalize (conf true) as s0. induction es as [|e es IH]; intros s0 A0 St R; cbn [xrun] in R.
  - injection R as <-. exact A0.
  - destruct (xstep e s0) as [[s1|]|] eqn:E; cbn [obind] in R; try discriminate. apply (IH s1).
    + apply (step_made e s0); [exact A0| |exact E]. destruct e; try exact I. exact (St b (or_introl eq_refl)).
    + intros b Hb. exact (St b (or_intror Hb)).
    + exact R.
Qed.

(** * A new connection *)
Theorem new_null : forall ctx session made mem sendh recvh su told greet r, conn_new ctx session made mem sendh recvh su told greet = Ok r ->
  (n_ret r = RNull <-> ctx = false \/ session < 0 \/ made = false \/ mem = false) /\
  (n_gave r = true <-> su <> None /\ n_ret r <> RNull) /\
  (n_prepared r = match su with Some s => if su_prepare s then match n_ret r with RNull => 0 | _ => 1 end else 0 | None => 0 end)%nat.
Proof.
  intros ctx session made mem sendh recvh su told greet r. unfold conn_new. destruct ctx; cbn [negb].
  2:{ intros H. injection H as <-. cbn. repeat split; try tauto; try discriminate. destruct su as [s|]; [destruct (su_prepare s)|]; reflexivity. }
  destruct (Z.ltb_spec session 0) as [L|L].
  { intros H. injection H as <-. cbn. repeat split; try tauto; try discriminate. destruct su as [s|]; [destruct (su_prepare s)|]; reflexivity. }
  destruct made; cbn [negb].
  2:{ intros H. injection H as <-. cbn. repeat split; try tauto; try discriminate. destruct su as [s|]; [destruct (su_prepare s)|]; reflexivity. }
  destruct mem; cbn [negb].
  2:{ intros H. injection H as <-. cbn. repeat split; try tauto; try discriminate. destruct su as [s|]; [destruct (su_prepare s)|]; reflexivity. }
  destruct (sendh && recvh); cbn [negb]; [|discriminate]. intros H. injection H as <-. cbn. repeat split.
  - discriminate.
  - intros [Q|[Q|[Q|Q]]]; try discriminate. lia.
  - destruct su; congruence.
  - discriminate.
  - destruct su; [reflexivity|]. intros (Q & _). contradiction.
Qed.
Theorem never_told : forall ctx session made mem sendh recvh su told greet r, conn_new ctx session made mem sendh recvh su told greet = Ok r -> n_told r = 0%nat /\
  match n_ret r with RNull => True | RConn _ h p => h = None /\ p = None end.
Proof.
  intros ctx session made mem sendh recvh su told greet r. unfold conn_new. destruct ctx; cbn [negb]; [|intros H; injection H as <-; split; [reflexivity|exact I]].
  destruct (session <? 0); [intros H; injection H as <-; split; [reflexivity|exact I]|]. destruct made; cbn [negb]; [|intros H; injection H as <-; split; [reflexivity|exact I]].
  destruct mem; cbn [negb]; [|intros H; injection H as <-; split; [reflexivity|exact I]]. destruct (sendh && recvh); cbn [negb]; [|discriminate]. intros H. injection H as <-. repeat split.
Qed.

(** * Descriptors *)
Lemma owner_filter n m t : owner n (filter (fun x => negb (fst x =? m)) t) = if n =? m then None else owner n t.
Proof.
  unfold owner. induction t as [|(a, o) t IH]; [destruct (n =? m); reflexivity|]. cbn [filter fst find]. destruct (Z.eqb_spec a m) as [->|E]; cbn [negb].
  - rewrite IH. destruct (Z.eqb_spec n m) as [->|E]; [reflexivity|]. destruct (Z.eqb_spec m n); [congruence|reflexivity].
  - cbn [find fst]. destruct (Z.eqb_spec a n) as [->|E2]; [destruct (Z.eqb_spec n m); [congruence|reflexivity]|exact IH].
Qed.
Definition mine (o : nat) (s : dst) : Prop :=
  (d_sess s = -1 /\ d_closed s = [o]) \/ (owner (d_sess s) (d_tab s) = Some o /\ d_up s = true /\ 0 <= d_sess s /\ d_closed s = [] /\ d_freed s = false).
Lemma dstep_client o e s : d_data s = -1 -> mine o s -> d_data (dstep e s) = -1 /\ mine o (dstep e s) /\ (e = DFree -> d_freed (dstep e s) = true).
Proof.
  intros Dd M. destruct e as [| |n q|n]; cbn [dstep].
  - split; [|split; [|discriminate]]; (destruct (d_freed s || negb (d_up s)) eqn:E; [assumption|]); cbn [d_sess]; destruct M as [(S & C)|(S & U & P & C & Fr)].
    + rewrite S. exact Dd.
    + destruct (Z.eqb_spec (d_sess s) (-1)) as [E1|E1]; [exact Dd|]. unfold close_fd. cbn. destruct (_ <? _); exact Dd.
    + rewrite S. left. split; [reflexivity|exact C].
    + destruct (Z.eqb_spec (d_sess s) (-1)) as [E1|E1]; [lia|]. unfold close_fd. cbn [d_sess d_tab]. destruct (Z.ltb_spec (d_sess s) 0); [lia|]. left. cbn. rewrite S, C. split; reflexivity.
  - destruct (d_freed s) eqn:E; [split; [exact Dd|split; [exact M|intros _; exact E]]|]. assert (E0 : close_fd (d_data s) s = s) by (rewrite Dd; reflexivity). rewrite E0. clear E0.
    destruct M as [(S & C)|(S & U & P & C & Fr)].
    + assert (E1 : (d_sess s =? -1) = true) by (apply Z.eqb_eq; exact S). rewrite E1. split; [exact Dd|]. split; [left; split; [exact S|exact C]|reflexivity].
    + destruct (Z.eqb_spec (d_sess s) (-1)) as [E1|E1]; [lia|]. unfold close_fd. destruct (Z.ltb_spec (d_sess s) 0); [lia|]. cbn. split; [exact Dd|]. split; [|reflexivity]. left. cbn. rewrite S, C. split; reflexivity.
  - split; [|split; [|discriminate]]; (destruct (owner n (d_tab s)) eqn:E; [assumption|]); (destruct (Z.ltb_spec n 0); [assumption|]); [exact Dd|].
    destruct M as [(S & C)|(S & U & P & C & Fr)]; [left; split; assumption|right]. cbn. repeat split; try assumption.
    unfold owner in *. cbn [find fst]. destruct (Z.eqb_spec n (d_sess s)) as [->|E2]; [congruence|exact S].
  - split; [|split; [|discriminate]]; (destruct ((n =? d_sess s) && d_up s) eqn:E; [assumption|]); [exact Dd|].
    destruct M as [(S & C)|(S & U & P & C & Fr)]; [left; split; assumption|right]. cbn. repeat split; try assumption.
    rewrite owner_filter. rewrite U, andb_true_r, Z.eqb_sym in E. rewrite E. exact S.
Qed.
Lemma freed_stays e s : d_freed s = true -> d_freed (dstep e s) = true.
Proof.
  intros F. destruct e as [| |n q|n]; cbn [dstep].
  - rewrite F. exact F.
  - rewrite F. exact F.
  - destruct (owner n (d_tab s)); [exact F|]. destruct (n <? 0); exact F.
  - destruct (_ && _); exact F.
Qed.
Lemma owner_first n o t : owner n ((n, o) :: t) = Some o.
Proof. unfold owner. cbn [find fst]. rewrite Z.eqb_refl. reflexivity. Qed.
Theorem client_closes : forall n o t es, 0 <= n ->
  let c := d_closed (drun es (client n o t)) in (c = [] \/ c = [o]) /\ (In DFree es -> c = [o]).
Proof.
  intros n o t es N. cbv zeta. assert (I0 : d_data (client n o t) = -1 /\ mine o (client n o t)).
  { split; [reflexivity|]. right. unfold client. cbn [d_closed d_sess d_tab d_up d_freed]. split; [apply owner_first|]. repeat split. exact N. }
  assert (G : mine o (drun es (client n o t)) /\ (In DFree es \/ d_freed (client n o t) = true -> d_freed (drun es (client n o t)) = true)).
  { unfold drun. revert I0. generalize (client n o t) as s. induction es as [|e es IH]; intros s (D & M); cbn [fold_left].
    - split; [exact M|]. intros [[]|F]; exact F.
    - destruct (dstep_client o e s D M) as (D1 & M1 & F1). destruct (IH (dstep e s) (Logic.conj D1 M1)) as (M2 & F2). split; [exact M2|].
      intros [[Q|Q]|Q]; apply F2; [right; exact (F1 Q)|left; exact Q|right; apply freed_stays; exact Q]. }
  destruct G as ([(_ & C)|(_ & _ & _ & C & Fr)] & F); rewrite C.
  - split; [right; reflexivity|reflexivity].
  - split; [left; reflexivity|]. intros Q. rewrite (F (or_introl Q)) in Fr. discriminate.
Qed.
(** A listener whose number is not given to others meanwhile. *)
Definition same (n : Z) (o : nat) (s : dst) : Prop :=
  d_data s = n /\ Forall (fun x => x = o) (d_closed s) /\ (d_sess s = -1 \/ d_sess s = n) /\ (owner n (d_tab s) = None \/ owner n (d_tab s) = Some o).
Lemma close_same n o s : same n o s -> 0 <= n -> same n o (close_fd n s).
Proof.
  intros (D & F & S & O) N. unfold close_fd. destruct (Z.ltb_spec n 0); [lia|]. unfold same. cbn. split; [exact D|]. split; [|split; [exact S|left; rewrite owner_filter, Z.eqb_refl; reflexivity]].
  destruct O as [-> | ->]; [exact F|constructor; [reflexivity|exact F]].
Qed.
Lemma dstep_same n o e s : 0 <= n -> (forall q, e <> DOpen n q) -> same n o s -> same n o (dstep e s).
Proof.
  intros N NO K. pose proof K as (D & F & S & O). destruct e as [| |k q|k]; cbn [dstep].
  - destruct (d_freed s || negb (d_up s)); [exact K|]. cbn [d_sess]. destruct (Z.eqb_spec (d_sess s) (-1)) as [E|E]; [exact K|]. destruct S as [S|S]; [lia|].
    set (s1 := mkD (d_tab s) (d_sess s) (d_data s) false (d_freed s) (d_closed s)). assert (K1 : same n o s1) by (unfold same, s1; cbn; repeat split; try assumption; right; exact S). rewrite S.
    destruct (close_same n o s1 K1 N) as (D2 & F2 & S2 & O2). unfold same, no_session. cbn. repeat split; try assumption. left. reflexivity.
  - destruct (d_freed s); [exact K|]. rewrite D. pose proof (close_same n o s K N) as K1. pose proof K1 as (D1 & F1 & S1 & O1). destruct (Z.eqb_spec (d_sess (close_fd n s)) (-1)) as [E|E].
    + unfold same. cbn. repeat split; assumption.
    + destruct S1 as [S1|S1]; [lia|]. rewrite S1. destruct (close_same n o _ K1 N) as (D2 & F2 & S2 & O2). unfold same, no_session. cbn. repeat split; try assumption. left. reflexivity.
  - destruct (owner k (d_tab s)) eqn:E; [exact K|]. destruct (k <? 0); [exact K|]. unfold same. cbn. repeat split; try assumption. unfold owner in *. cbn [find fst]. destruct (Z.eqb_spec k n) as [->|E2]; [exfalso; exact (NO q eq_refl)|exact O].
  - destruct ((k =? d_sess s) && d_up s); [exact K|]. unfold same. cbn. repeat split; try assumption. rewrite owner_filter. destruct (n =? k); [left; reflexivity|exact O].
Qed.
Theorem listener_closes : forall n o t es, 0 <= n -> (forall q, ~ In (DOpen n q) es) -> Forall (fun x => x = o) (d_closed (drun es (listener n o t))).
Proof.
  intros n o t es N NO. assert (I0 : same n o (listener n o t)).
  { unfold same, listener. cbn [d_data d_closed d_sess d_tab]. split; [reflexivity|]. split; [constructor|]. split; [right; reflexivity|right; apply owner_first]. }
  unfold drun. revert I0 NO. generalize (listener n o t) as s. induction es as [|e es IH]; intros s K NO; cbn [fold_left]; [exact (proj1 (proj2 K))|].
  apply IH; [|intros q Q; exact (NO q (or_intror Q))]. apply dstep_same; [exact N| |exact K]. intros q Q. exact (NO q (or_introl Q)).
Qed.
