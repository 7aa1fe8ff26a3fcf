(** The references are enough when no other channel is opened with the number. *)
From Verif Require Import Base HdrModel HdrProofs DlvModel DlvSpec DlvProofs.

Definition task_ch (t : task) : nat := match t with T2 i _ | T1 i _ => i end.
Definition run_ch (r : run) : nat := match r with R2 i _ | R1 i _ _ => i end.
Definition curz (s : dst) : Z := match d_cur s with Some _ => 1 | None => 0 end.
Definition busy (s : dst) : Z := zlen (d_tasks s) + zlen (d_runs s).
(** [h]: the references in the hands of who runs. *)
Definition Inv (h : Z) (s : dst) (x : option chan) : Prop :=
  (forall t, In t (d_tasks s) -> task_ch t = 0%nat) /\ (forall r, In r (d_runs s) -> run_ch r = 0%nat) /\ (d_cur s = None \/ d_cur s = Some 0%nat) /\ d_chans s = [x] /\
  match x with
  | None => d_cur s = None /\ h + busy s <= 0 /\ 1 + h + busy s <= d_conn s
  | Some c => curz s + h + busy s + zlen (c_stored c) <= c_ref c /\ 1 <= c_ref c /\ 1 + h + busy s + zlen (c_stored c) <= d_conn s
  end.
Ltac bz := unfold busy, curz in *; cbn [d_tasks d_chans d_runs d_log put_chans put_cur put_conn put_tasks put_runs put_data see next_id d_count d_cur d_conn d_up d_prof d_glob d_zero d_data upd_nth] in *.
Ltac five := split; [|split; [|split; [|split]]].
Lemma zlen_nn : forall {A} (l : list A), 0 <= zlen l.
Proof. intros. unfold zlen. lia. Qed.
Lemma busy_nn : forall s, 0 <= busy s.
Proof. intros. unfold busy. pose proof (zlen_nn (d_tasks s)). pose proof (zlen_nn (d_runs s)). lia. Qed.
Lemma curz_nn : forall s, 0 <= curz s <= 1.
Proof. intros. unfold curz. destruct (d_cur s); lia. Qed.
Lemma inv_leave : forall s x f, Inv 1 s x -> exists s' x', leave s 0 f = Ok s' /\ Inv 0 s' x'.
Proof.
  intros s x f (A & B & C & D & E). pose proof (busy_nn s) as BN. pose proof (curz_nn s) as CN. destruct x as [c|]; [|lia]. destruct E as (E1 & E2 & E3). pose proof (zlen_nn (c_stored c)) as SN.
  unfold leave, unref_ch, write, chan_at. rewrite D. cbn [nth_error obind]. destruct (Z.eqb_spec (c_ref c - 1) 0).
  - cbn [obind]. unfold unref_conn. cbn [d_conn see put_chans]. destruct (Z.ltb_spec 0 (d_conn s)); [|lia]. cbn [obind]. assert (Q : curz s = 0) by lia.
    assert (Q' : d_cur s = None) by (unfold curz in Q; destruct (d_cur s); [discriminate|auto]).
    exists (match f with Some f0 => see (put_conn (see (put_chans s (upd_nth [Some c] 0 None)) (map (fun f => OFree (f_id f)) (c_stored c))) (d_conn s - 1)) [OFree (f_id f0)] | None => put_conn (see (put_chans s (upd_nth [Some c] 0 None)) (map (fun f => OFree (f_id f)) (c_stored c))) (d_conn s - 1) end), None.
    split; [destruct f; reflexivity|]. destruct f; five; auto; bz; repeat split; auto; lia.
  - cbn [obind]. unfold unref_conn. cbn [d_conn see put_chans]. destruct (Z.ltb_spec 0 (d_conn s)); [|lia]. cbn [obind].
    exists (match f with Some f0 => see (put_conn (put_chans s (upd_nth [Some c] 0 (Some (set_ref (c_ref c - 1) c)))) (d_conn s - 1)) [OFree (f_id f0)] | None => put_conn (put_chans s (upd_nth [Some c] 0 (Some (set_ref (c_ref c - 1) c)))) (d_conn s - 1) end), (Some (set_ref (c_ref c - 1) c)).
    split; [destruct f; reflexivity|]. destruct f; five; auto; bz; cbn [set_ref c_ref c_stored]; repeat split; auto; lia.
Qed.
Lemma not_seq_len : forall l q, zlen (not_seq l q) <= zlen l.
Proof. unfold not_seq, zlen. intros l q. induction l as [|a l IH]; cbn [filter]; [lia|]. destruct (negb _); cbn [length] in *; lia. Qed.
Lemma not_seq_less : forall l q g, at_seq l q = Some g -> zlen (not_seq l q) < zlen l.
Proof.
  intros l q g. unfold at_seq. induction l as [|a l IH]; cbn [find not_seq filter]; [discriminate|]. pose proof (not_seq_len l q) as L. unfold not_seq, zlen in *. destruct (f_seq a =? q); cbn [negb length]; [lia|].
  intros H. apply IH in H. lia.
Qed.
Lemma inv_pending : forall s c f, Inv 1 s (Some c) -> exists s' g c', pending s 0 f = Ok (s', g) /\ Inv 1 s' (Some c') /\ c_ser c' = c_ser c /\ zlen (c_stored c') <= zlen (c_stored c) /\
  match g with Some _ => zlen (c_stored c') < zlen (c_stored c) | None => True end.
Proof.
  intros s c f V. pose proof V as (A & B & C & D & E1 & E2 & E3). pose proof (busy_nn s) as BN. pose proof (curz_nn s) as CN. pose proof (zlen_nn (c_stored c)) as SN.
  unfold pending, chan_at at 1. rewrite D. cbn [nth_error obind]. destruct (c_ser c) eqn:ES; [|exists s, None, c; repeat split; auto; lia].
  set (q := (f_seq f + f_size f) mod modulus). set (c1 := set_next q (not_seq (c_stored c) q) c). unfold write at 1, chan_at at 1. rewrite D. cbn [nth_error obind upd_nth].
  pose proof (not_seq_len (c_stored c) q) as L1. destruct (at_seq (c_stored c) q) as [g|] eqn:EG.
  - pose proof (not_seq_less _ _ _ EG) as L2. pose proof (zlen_nn (not_seq (c_stored c) q)) as LN. unfold unref_conn. cbn [d_conn put_chans]. destruct (Z.ltb_spec 0 (d_conn s)); [|lia]. cbn [obind].
    unfold unref_ch, chan_at at 1. cbn [d_chans put_chans put_conn nth_error obind]. change (c_ref (set_next q (not_seq (c_stored c) q) c)) with (c_ref c). destruct (Z.eqb_spec (c_ref c - 1) 0); [lia|].
    unfold write, chan_at. cbn [d_chans put_chans put_conn nth_error obind upd_nth]. eexists _, (Some g), (set_ref (c_ref c - 1) c1). split; [reflexivity|].
    split; [|cbn; auto with zarith]. five; auto; bz; cbn [set_ref c_ref c_stored c1 set_next]; repeat split; auto; lia.
  - cbn [obind]. eexists _, None, c1. split; [reflexivity|]. split; [|cbn; auto with zarith]. five; auto; bz; cbn [c1 set_next c_ref c_stored]; repeat split; auto; lia.
Qed.
Lemma in_add : forall {A} (P : A -> Prop) l x, (forall y, In y l -> P y) -> P x -> forall y, In y (l ++ [x]) -> P y.
Proof. intros A P l x H K y I. apply in_app_or in I. destruct I as [I|[<-|[]]]; auto. Qed.
Lemma zlen_add : forall {A} (l : list A) x, zlen (l ++ [x]) = zlen l + 1.
Proof. intros. unfold zlen. rewrite app_length. cbn. lia. Qed.
Lemma inv_run : forall s c r o, Inv 1 s (Some c) -> run_ch r = 0%nat -> Inv 0 (see (put_runs s (d_runs s ++ [r])) o) (Some c).
Proof. intros s c r o (A & B & C & D & E) R. five; auto; bz; [apply in_add; auto|]. rewrite zlen_add. lia. Qed.
Lemma inv_see : forall h s x o, Inv h s x -> Inv h (see s o) x.
Proof. intros h s x o H. exact H. Qed.
Lemma inv_deliver2 : forall n s c f, Inv 1 s (Some c) -> zlen (c_stored c) <= Z.of_nat n -> exists s' x', deliver2 n s 0 f = Ok s' /\ Inv 0 s' x'.
Proof.
  induction n as [|n IH]; intros s c f V L; cbn [deliver2]; unfold chan_at at 1; pose proof V as (_ & _ & _ & D & _); rewrite D; cbn [nth_error obind]; destruct (c_recv c) as [h|];
    try (eexists _, _; split; [reflexivity|apply (inv_run s c (R2 0 f)); auto]);
    destruct (inv_pending (see s [ODrop (f_id f)]) c f V) as (s1 & g & c1 & P & V1 & S1 & L1 & G); rewrite P; cbn [obind]; destruct g as [g|].
  - exfalso. pose proof (zlen_nn (c_stored c1)). lia.
  - eapply inv_leave; eauto.
  - apply (IH s1 c1 g); auto. lia.
  - eapply inv_leave; eauto.
Qed.
Lemma inv_store : forall s c f, Inv 1 s (Some c) -> exists s' x', store s 0 f = Ok s' /\ Inv 0 s' x'.
Proof.
  intros s c f (A & B & C & D & E1 & E2 & E3). unfold store, write, chan_at. rewrite D. cbn [nth_error obind upd_nth]. eexists _, _. split; [reflexivity|]. five; auto; bz; [reflexivity|].
  cbn [set_next c_ref c_stored]. rewrite zlen_add. pose proof (not_seq_len (c_stored c) (f_seq f)). repeat split; auto; lia.
Qed.
Lemma inv_check : forall s c f, Inv 1 s (Some c) -> exists b, check_serialize s 0 f = Ok (if b : bool then Some s else None).
Proof. intros s c f (A & B & C & D & E). unfold check_serialize, chan_at. rewrite D. cbn [nth_error obind]. destruct (c_ser c && _); [exists false|exists true]; auto. Qed.
Lemma inv_drop : forall s x f, Inv 1 s x -> exists s' x', (let! s := unref_conn (see s [ODrop f]) in Ok (see s [OFree f])) = Ok s' /\ Inv 0 s' x'.
Proof.
  intros s x f V. pose proof (busy_nn s) as BN. pose proof V as (A & B & C & D & E). unfold unref_conn. cbn [d_conn see]. destruct (Z.ltb_spec 0 (d_conn s)).
  - cbn [obind]. eexists _, x. split; [reflexivity|]. five; auto. bz. destruct x as [c|]; [|lia]. repeat split; lia.
  - exfalso. destruct x as [c|]; [pose proof (zlen_nn (c_stored c))|]; lia.
Qed.
Lemma inv_data : forall h s x n, Inv h s x -> Inv h (put_data s n) x.
Proof. intros h s x n H. exact H. Qed.
Lemma inv_some : forall s x, Inv 1 s x -> exists c, x = Some c.
Proof. intros s [c|] (A & B & C & D & E); [eauto|]. pose proof (busy_nn s). lia. Qed.
Lemma inv_perform : forall s x t, Inv 1 s x -> task_ch t = 0%nat -> exists s' x', perform s t = Ok s' /\ Inv 0 s' x'.
Proof.
  intros s x t V T. destruct (inv_some _ _ V) as (c & ->). destruct t as [i f|i f]; cbn [perform task_ch] in *; [subst i|].
  - assert (V0 : Inv 1 (put_data s (d_data s - 1)) (Some c)) by (apply inv_data; auto). set (s0 := put_data s (d_data s - 1)) in *. destruct (negb (d_up s0)); [eapply inv_leave; apply inv_see; eauto|].
    destruct (inv_check s0 c f V0) as (b & ->). cbn [obind]. destruct b; [|eapply inv_store; eauto]. unfold chan_at at 1. pose proof V0 as (_ & _ & _ & D & _). rewrite D. cbn [nth_error obind].
    eapply inv_deliver2; eauto. unfold zlen. lia.
  - destruct (d_prof s) as [h|]; [|eapply inv_drop; eauto]. assert (V0 : Inv 1 (put_data s (d_data s - 1)) (Some c)) by (apply inv_data; auto). set (s0 := put_data s (d_data s - 1)) in *.
    destruct (negb (d_up s0)); [eapply inv_drop; eauto|]. pose proof V0 as (_ & _ & [C|C] & D & _); rewrite C; [eapply inv_drop; eauto|].
    destruct (inv_check s0 c f V0) as (b & ->). cbn [obind]. destruct b; [|eapply inv_store; eauto]. eexists _, _. split; [reflexivity|]. apply (inv_run s0 c (R1 0 f h)); auto.
Qed.
Lemma inv_returns : forall s x r, Inv 1 s x -> run_ch r = 0%nat -> exists s' x', returns s r = Ok s' /\ Inv 0 s' x'.
Proof.
  intros s x r V T. destruct (inv_some _ _ V) as (c & ->). pose proof V as (_ & _ & _ & D & _). destruct r as [i f|i f h]; cbn [returns run_ch] in *; subst i; unfold chan_at at 1; rewrite D; cbn [nth_error obind];
    destruct (inv_pending s c f V) as (s1 & g & c1 & P & V1 & S1 & L1 & G); rewrite P; cbn [obind]; destruct g as [g|].
  - eapply inv_deliver2; eauto.
  - eapply inv_leave; eauto.
  - eexists _, _. split; [reflexivity|]. apply (inv_run s1 c1 (R1 0 g h)); auto.
  - eapply inv_leave; eauto.
Qed.
Lemma drop_in : forall {A} (l : list A) k x, In x (drop_nth l k) -> In x l.
Proof. induction l as [|a l IH]; intros [|k] x H; cbn in *; auto. destruct H; eauto. Qed.
Lemma drop_len : forall {A} (l : list A) k x, nth_error l k = Some x -> zlen (drop_nth l k) + 1 = zlen l.
Proof. induction l as [|a l IH]; intros [|k] x H; cbn in *; try discriminate; unfold zlen in *; cbn [length]; [lia|]. specialize (IH k x H). lia. Qed.
Lemma inv_on_cur : forall s x f, Inv 0 s x -> (forall c, c_ref (f c) = c_ref c /\ zlen (c_stored (f c)) <= zlen (c_stored c)) -> exists s' x', on_cur s f = Ok s' /\ Inv 0 s' x'.
Proof.
  intros s x f V F. pose proof V as (A & B & C & D & E). unfold on_cur. destruct C as [C|C]; rewrite C; [eauto|]. destruct x as [c|]; [|destruct E; congruence].
  unfold write, chan_at. rewrite D. cbn [nth_error obind upd_nth]. eexists _, _. split; [reflexivity|]. destruct (F c) as (F1 & F2). five; auto; [reflexivity|]. bz. rewrite F1. repeat split; lia.
Qed.
Lemma inv_receive : forall s x r n z, Inv 0 s x -> exists s' x', receive s r n z = Ok s' /\ Inv 0 s' x'.
Proof.
  intros s x r n z V. pose proof V as (A & B & C & D & E). unfold receive. destruct C as [C|C]; rewrite C; [eauto|]. destruct x as [c|]; [|destruct E; congruence]. destruct E as (E1 & E2 & E3).
  unfold chan_at at 1. rewrite D. cbn [nth_error obind]. unfold write at 1, chan_at at 1. rewrite D. cbn [nth_error obind upd_nth].
  set (c1 := set_exp ((c_exp c + z) mod modulus) c). set (s1 := next_id _). assert (D1 : d_chans s1 = [Some c1]) by reflexivity. set (f := mkF _ _ _).
  assert (V1 : Inv 0 s1 (Some c1)) by (five; auto; bz; cbn [s1 next_id put_chans d_tasks d_runs d_conn d_cur c1 set_exp c_ref c_stored]; auto).
  destruct (_ && _); [eexists _, _; split; [reflexivity|apply inv_see; eauto]|].
  destruct (r && _).
  { unfold write, chan_at. rewrite D1. cbn [nth_error obind upd_nth]. eexists _, _. split; [reflexivity|]. apply inv_see. destruct V1 as (V1 & V2 & V3 & V4 & V5). five; auto; [reflexivity|]. exact V5. }
  assert (Q : forall t, task_ch t = 0%nat -> exists s' x', (let! s0 := ref_ch (put_conn (put_data s1 (d_data s1 + 1)) (d_conn s1 + 1)) 0 in Ok (put_tasks s0 (d_tasks s0 ++ [t]))) = Ok s' /\ Inv 0 s' x').
  { intros t T. unfold ref_ch, write, chan_at. cbn [d_chans put_conn put_data]. rewrite D1. cbn [nth_error obind upd_nth]. eexists _, _. split; [reflexivity|]. destruct V1 as (V1 & V2 & V3 & V4 & V5 & V6 & V7).
    five; auto; bz; [apply in_add; auto|reflexivity|]. cbn [set_ref c_ref c_stored]. rewrite zlen_add. repeat split; lia. }
  destruct (c_recv c); [apply Q; auto|]. destruct (d_prof s1); [apply Q; auto|]. eexists _, _. split; [reflexivity|]. apply inv_see. eauto.
Qed.
Lemma inv_step : forall s x e, Inv 0 s x -> e <> DOpen -> exists s' x', dstep s e = Ok s' /\ Inv 0 s' x'.
Proof.
  intros s x e V N. pose proof V as (A & B & C & D & E). destruct e; cbn [dstep]; try (eexists _, _; split; [reflexivity|exact V]); try contradiction.
  - apply (inv_on_cur s x _ V). intros c. cbn. lia.
  - apply (inv_on_cur s x _ V). intros c. unfold set_ser. destruct (_ && _); cbn; pose proof (zlen_nn (c_stored c)); unfold zlen in *; cbn; lia.
  - apply (inv_on_cur s x (fun c => set_wait (c_wait c ++ [n]) c) V). intros c. cbn. lia.
  - destruct (d_up s); [apply (inv_receive s x); auto|eauto].
  - destruct (nth_error (d_tasks s) k) as [t|] eqn:K; [|eauto]. apply (inv_perform _ x); [|apply A; eapply nth_error_In; eauto]. apply drop_len in K.
    five; auto; bz; [intros; apply A; eapply drop_in; eauto|]. destruct x as [c|]; repeat split; try lia. apply E.
  - destruct (nth_error (d_runs s) k) as [t|] eqn:K; [|eauto]. apply (inv_returns _ x); [|apply B; eapply nth_error_In; eauto]. apply drop_len in K.
    five; auto; bz; [intros; apply B; eapply drop_in; eauto|]. destruct x as [c|]; repeat split; try lia. apply E.
  - destruct C as [C|C]; rewrite C; [eauto|]. destruct x as [c|]; [|destruct E; congruence]. destruct E as (E1 & E2 & E3). pose proof (busy_nn s) as BN. pose proof (zlen_nn (c_stored c)) as SN.
    unfold unref_ch, write, chan_at. cbn [d_chans put_cur]. rewrite D. cbn [nth_error obind upd_nth]. unfold curz in E1. rewrite C in E1. destruct (Z.eqb_spec (c_ref c - 1) 0).
    + eexists _, None. split; [reflexivity|]. five; auto; bz; repeat split; auto; lia.
    + eexists _, (Some (set_ref (c_ref c - 1) c)). split; [reflexivity|]. five; auto; bz; cbn [set_ref c_ref c_stored]; repeat split; auto; lia.
Qed.
Lemma safe_run : forall es s x, Inv 0 s x -> no_open es -> exists s' x', drun s es = Ok s' /\ Inv 0 s' x'.
Proof.
  induction es as [|e es IH]; intros s x V N; cbn; [eauto|]. destruct (inv_step s x e V) as (s1 & x1 & S1 & V1); [intros ->; apply N; left; auto|]. rewrite S1. cbn [obind]. apply (IH s1 x1); auto. intros K. apply N. right. auto.
Qed.
Lemma inv_init : forall z, Inv 0 (d0 z) (Some chan0).
Proof. intros z. five; cbn; auto; try contradiction. repeat split; cbn; lia. Qed.
Lemma safe : forall z es, no_open es -> exists s, drun (d0 z) es = Ok s /\
  (forall c, nth_error (d_chans s) 0 = Some (Some c) -> zlen (d_tasks s) + zlen (d_runs s) + zlen (c_stored c) <= c_ref c /\ zlen (d_tasks s) + zlen (d_runs s) + zlen (c_stored c) < d_conn s).
Proof.
  intros z es N. destruct (safe_run es _ _ (inv_init z) N) as (s & x & H & A & B & C & D & E). exists s. split; auto. intros c K. rewrite D in K. cbn in K. injection K as ->. destruct E as (E1 & E2 & E3).
  pose proof (curz_nn s). unfold busy in *. lia.
Qed.
