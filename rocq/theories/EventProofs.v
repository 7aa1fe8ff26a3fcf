From Coq Require Import Permutation.
From Verif Require Import Base TimeModel TimeSpec TimeProofs HashModel EventModel EventSpec.

(** ** References *)
Definition cnt (a : Z) (l : list Z) : Z := Z.of_nat (count_occ Z.eq_dec l a).
Lemma cnt_cons a x l : cnt a (x :: l) = (if x =? a then 1 else 0) + cnt a l.
Proof. unfold cnt. cbn [count_occ]. destruct (Z.eq_dec x a) as [->|N]; [rewrite Z.eqb_refl|rewrite (proj2 (Z.eqb_neq _ _) N)]; lia. Qed.
Lemma cnt_pos a l : 0 < cnt a l <-> In a l.
Proof. unfold cnt. rewrite (count_occ_In Z.eq_dec). lia. Qed.
Lemma cnt_nonneg a l : 0 <= cnt a l.
Proof. unfold cnt. lia. Qed.
Lemma cnt_perm a l l' : Permutation l l' -> cnt a l = cnt a l'.
Proof. unfold cnt. intros P. now rewrite (proj1 (Permutation_count_occ Z.eq_dec l l') P a). Qed.

Record good (m : list tev) (l : list Z) : Prop := mkG {
  g_nodup : NoDup (map e_addr m);
  g_refs : forall e, In e m -> e_refs e = cnt (e_addr e) l /\ 0 < e_refs e;
  g_has : forall a, In a l -> In a (map e_addr m)
}.
Lemma good_perm m l l' : Permutation l l' -> good m l -> good m l'.
Proof.
  intros P [N R H]. constructor; [exact N| |].
  - intros e I. rewrite <- (cnt_perm _ _ _ P). auto.
  - intros a I. apply H. eapply Permutation_in; [|exact I]. now apply Permutation_sym.
Qed.

Definition facts (e : tev) : Z * Z * tval := (e_no e, e_delay e, e_next e).
Definition info (m : list tev) (a : Z) : option (Z * Z * tval) := option_map facts (blk m a).

Lemma blk_in m a e : blk m a = Some e -> In e m /\ e_addr e = a.
Proof. intros H. apply find_some in H. destruct H as [I E]. split; [exact I|lia]. Qed.
Lemma blk_none m a : blk m a = None <-> ~ In a (map e_addr m).
Proof.
  unfold blk. induction m as [|e m IH]; cbn; [tauto|].
  destruct (e_addr e =? a) eqn:E; [|rewrite IH]; split; intros H; try discriminate; [|intros [X|X]; [lia|tauto]|tauto].
  exfalso. apply H. left. lia.
Qed.
Lemma blk_some m a : In a (map e_addr m) -> exists e, blk m a = Some e.
Proof. intros I. destruct (blk m a) as [e|] eqn:E; [now exists e|]. now apply blk_none in E. Qed.
Lemma in_blk m e : NoDup (map e_addr m) -> In e m -> blk m (e_addr e) = Some e.
Proof.
  unfold blk. induction m as [|x m IH]; cbn; [tauto|]. intros N [->|I]; [now rewrite Z.eqb_refl|].
  apply NoDup_cons_iff in N. destruct N as [N0 N]. destruct (e_addr x =? e_addr e) eqn:E; [|auto].
  exfalso. apply N0. rewrite (proj1 (Z.eqb_eq _ _) E). now apply in_map.
Qed.
Lemma upd_addr m a f : (forall e, e_addr (f e) = e_addr e) -> map e_addr (upd m a f) = map e_addr m.
Proof. intros F. unfold upd. rewrite map_map. apply map_ext. intros e. destruct (_ =? _); auto. Qed.
Lemma blk_upd m a f x : (forall e, e_addr (f e) = e_addr e) ->
  blk (upd m a f) x = if x =? a then option_map f (blk m a) else blk m x.
Proof.
  intros F. unfold blk, upd. induction m as [|e m IH]; cbn; [now destruct (x =? a)|].
  destruct (x =? a) eqn:X.
  - assert (x = a) as -> by lia. destruct (e_addr e =? a) eqn:E.
    + rewrite F, E. reflexivity.
    + rewrite E. exact IH.
  - destruct (e_addr e =? a) eqn:E.
    + rewrite F. replace (e_addr e =? x) with false by lia. exact IH.
    + destruct (e_addr e =? x); [reflexivity|exact IH].
Qed.
Lemma in_upd m a f e : In e (upd m a f) -> exists e0, In e0 m /\ e = (if e_addr e0 =? a then f e0 else e0).
Proof. unfold upd. rewrite in_map_iff. intros (e0 & <- & I). eauto. Qed.

Lemma good_ref m l a : good m l -> In a (map e_addr m) -> good (upd m a (add_ref 1)) (a :: l).
Proof.
  intros [N R H] I. constructor.
  - rewrite upd_addr by reflexivity. exact N.
  - intros e J. apply in_upd in J. destruct J as (e0 & J & ->). destruct (R _ J) as [E P]. rewrite cnt_cons.
    destruct (e_addr e0 =? a) eqn:X; cbn; [rewrite (Z.eqb_sym a), X|rewrite (Z.eqb_sym a), X]; lia.
  - intros x [->|J]; rewrite upd_addr by reflexivity; auto.
Qed.
Lemma info_ref m a d x : info (upd m a (add_ref d)) x = info m x.
Proof.
  unfold info. rewrite blk_upd by reflexivity. destruct (x =? a) eqn:X; [|reflexivity].
  assert (x = a) as -> by lia. destruct (blk m a); reflexivity.
Qed.
Lemma blk_filter m a x : blk (filter (fun e => negb (e_addr e =? a)) m) x = if x =? a then None else blk m x.
Proof.
  unfold blk. induction m as [|e m IH]; cbn; [now destruct (x =? a)|].
  destruct (e_addr e =? a) eqn:E; cbn.
  - rewrite IH. destruct (x =? a) eqn:X; [reflexivity|]. now replace (e_addr e =? x) with false by lia.
  - rewrite IH. destruct (x =? a) eqn:X; [|reflexivity]. now replace (e_addr e =? x) with false by lia.
Qed.
Lemma nodup_filter_map (m : list tev) f : NoDup (map e_addr m) -> NoDup (map e_addr (filter f m)).
Proof.
  induction m as [|e m IH]; cbn; intros N; [constructor|]. apply NoDup_cons_iff in N. destruct N as [N0 N].
  destruct (f e); [|auto]. cbn. constructor; [|auto]. intros I. apply N0. apply in_map_iff in I. destruct I as (x & <- & I).
  apply filter_In in I. apply in_map. tauto.
Qed.
Lemma good_unref m l a : good m (a :: l) -> exists m', unref m a = Ok m' /\ good m' l /\
  forall x, info m' x = if (x =? a) && negb (existsb (fun y => y =? a) l) then None else info m x.
Proof.
  intros [N R H]. destruct (blk_some m a) as [e B]; [apply H; now left|]. destruct (blk_in _ _ _ B) as [I A].
  destruct (R _ I) as [E P]. rewrite A, cnt_cons, Z.eqb_refl in E. unfold unref. rewrite B.
  assert (EX : existsb (fun y => y =? a) l = (0 <? cnt a l)).
  { destruct (0 <? cnt a l) eqn:C.
    - apply existsb_exists. exists a. split; [apply cnt_pos; lia|lia].
    - apply not_true_is_false. intros X. apply existsb_exists in X. destruct X as (y & X & Y).
      assert (y = a) by lia. subst y. apply cnt_pos in X. lia. }
  pose proof (cnt_nonneg a l). rewrite EX. destruct (e_refs e - 1 =? 0) eqn:Z0.
  - eexists. split; [reflexivity|]. split.
    + constructor.
      * now apply nodup_filter_map.
      * intros x J. apply filter_In in J. destruct J as [J K]. destruct (R _ J) as [E1 P1]. rewrite cnt_cons in E1.
        replace (a =? e_addr x) with false in E1 by lia. lia.
      * intros x J. assert (x <> a). { intros ->. apply cnt_pos in J. lia. }
        specialize (H x (or_intror J)). apply in_map_iff in H. destruct H as (y & <- & H). apply in_map. apply filter_In.
        split; [exact H|lia].
    + intros x. unfold info. rewrite blk_filter. replace (0 <? cnt a l) with false by lia. destruct (x =? a); reflexivity.
  - eexists. split; [reflexivity|]. split.
    + constructor.
      * rewrite upd_addr by reflexivity. exact N.
      * intros x J. apply in_upd in J. destruct J as (e0 & J & ->). destruct (R _ J) as [E1 P1]. rewrite cnt_cons in E1.
        destruct (e_addr e0 =? a) eqn:X; cbn.
        -- assert (e0 = e). { assert (e_addr e0 = a) by lia. pose proof (in_blk _ _ N J) as Q. rewrite H1, B in Q. congruence. }
           subst e0. rewrite A in *. lia.
        -- rewrite (Z.eqb_sym a), X in E1. lia.
      * intros x J. rewrite upd_addr by reflexivity. apply H. now right.
    + intros x. rewrite info_ref. replace (0 <? cnt a l) with true by lia. now rewrite andb_false_r.
Qed.

(** ** Stamps *)
Lemma stamp_any t d : normal t -> sensible t -> 0 <= d < 4611686018427387904 -> exists t', increase_stamp t d = Ok t' /\
  normal t' /\ tv_usec t' = (tv_usec t + d) mod 1000000 /\
  tv_sec t <= tv_sec t' <= tv_sec t + (tv_usec t + d) / 1000000 /\
  (tv_usec t + d <> 1000000 -> micros t' = micros t + d).
Proof.
  intros N S D. unfold normal, sensible in *. unfold increase_stamp. rewrite lng_ok by (unfold two63; lia). cbn [obind].
  assert (Q : Z.quot (tv_usec t + d) 1000000 = (tv_usec t + d) / 1000000) by (apply Z.quot_div_nonneg; lia).
  assert (R : Z.rem (tv_usec t + d) 1000000 = (tv_usec t + d) mod 1000000) by (apply Z.rem_mod_nonneg; lia).
  rewrite Q, R. pose proof (Z.div_mod (tv_usec t + d) 1000000 ltac:(lia)) as DM.
  pose proof (Z.mod_pos_bound (tv_usec t + d) 1000000 ltac:(lia)). pose proof (Z.div_pos (tv_usec t + d) 1000000 ltac:(lia) ltac:(lia)).
  destruct (1000000 <? tv_usec t + d) eqn:C.
  - rewrite lng_ok by (unfold two63; lia). cbn [obind]. eexists. split; [reflexivity|].
    unfold micros. cbn [tv_sec tv_usec]. repeat split; lia.
  - cbn [obind]. eexists. split; [reflexivity|]. unfold micros. cbn [tv_sec tv_usec]. repeat split; try lia.
Qed.
Lemma due_spec now t : normal now -> normal t -> due now t = (micros t <=? micros now).
Proof. unfold normal, due, micros. intros A B. destruct (tv_sec t <? tv_sec now) eqn:X; cbn; [lia|]. destruct (tv_sec now =? tv_sec t) eqn:Y; cbn; lia. Qed.
