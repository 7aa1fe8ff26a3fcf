(** Proofs about the search path. *)
From Verif Require Import Base SearchModel SearchSpec.
From Coq Require Import Permutation.
Lemma seqb_eq a b : seqb a b = true <-> a = b.
Proof.
  revert b. induction a as [|x a IH]; intros [|y b]; cbn; split; intros H; try discriminate; auto.
  - apply andb_prop in H. destruct H as [H1 H2]. apply Z.eqb_eq in H1. apply IH in H2. congruence.
  - injection H as -> ->. rewrite Z.eqb_refl. cbn. apply IH. reflexivity.
Qed.
Definition pair (n : node) : str * str := (n_dom n, n_path n).
Lemma check_spec l d p : check l d p = true <-> In (d, p) (map pair l).
Proof.
  unfold check. rewrite existsb_exists, in_map_iff. split.
  - intros (n & H & E). apply andb_prop in E. destruct E as [E1 E2]. apply seqb_eq in E1, E2. exists n. split; [unfold pair; congruence|exact H].
  - intros (n & E & H). exists n. unfold pair in E. injection E as <- <-. split; [exact H|]. rewrite (proj2 (seqb_eq _ _) eq_refl), (proj2 (seqb_eq _ _) eq_refl). reflexivity.
Qed.
Lemma find_first fs l d name : first_in (paths d (map pair l)) name fs (find_file fs l d name).
Proof.
  induction l as [|n l IH]; [intros q []|]. cbn [find_file map]. unfold paths. cbn [filter pair fst]. destruct (seqb (n_dom n) d) eqn:E; cbn [map snd].
  - destruct (fs (file_of (n_path n) name)) eqn:F.
    + exists [], (n_path n), (paths d (map pair l)). split; [reflexivity|]. split; [reflexivity|]. split; [exact F|]. intros q [].
    + change (map snd (filter (fun e => seqb (fst e) d) (map pair l))) with (paths d (map pair l)). destruct (find_file fs l d name) as [f|]; cbn in IH |- *.
      * destruct IH as (a & p & b & E1 & E2 & E3 & E4). exists (n_path n :: a), p, b. rewrite E1. cbn. split; [reflexivity|]. split; [exact E2|]. split; [exact E3|]. intros q [<-|H]; auto.
      * intros q [<-|H]; auto.
  - exact IH.
Qed.
Lemma kept_app a b : kept (a ++ b) = kept a ++ kept b.
Proof. induction a as [|[] a IH]; cbn; rewrite ?IH; reflexivity. Qed.
Record sinv (place : list node -> node -> list node) (es : list sev) (s : sp) : Prop := mkSI {
  si_perm : Permutation (map pair (s_nodes s)) (kept (s_log s));
  si_nodup : NoDup (kept (s_log s));
  si_calls : forall t c, In (t, c) (s_calls s) -> In (c_dom c, c_path c) (asked es);
  si_asked : forall d p, In (d, p) (kept (s_log s)) -> In (d, p) (asked es);
  si_found : forall a b d name r, s_log s = a ++ OFound d name r :: b -> forall f, r = Some f -> exists p, In (d, p) (kept a) /\ f = file_of p name;
  si_skip : forall a b d p, s_log s = a ++ OSkip d p :: b -> In (d, p) (kept a) \/ In (default, p) (kept a);
  si_tids : NoDup (map fst (s_calls s))
}.
Lemma call_in l t c : call_of l t = Some c -> In (t, c) l.
Proof. unfold call_of. destruct (find _ l) as [[u e]|] eqn:F; [|discriminate]. intros H. injection H as <-. apply find_some in F. destruct F as [F1 F2]. apply Nat.eqb_eq in F2. cbn in F2. subst u. exact F1. Qed.
Lemma call_none l t : call_of l t = None -> ~ In t (map fst l).
Proof. unfold call_of. destruct (find _ l) as [e|] eqn:F; [discriminate|]. intros _ H. apply in_map_iff in H. destruct H as (e & E & H). pose proof (find_none _ _ F e H) as X. cbn in X. apply Nat.eqb_neq in X. contradiction. Qed.
Lemma drop_in l t u c : In (u, c) (drop l t) -> In (u, c) l.
Proof. unfold drop. intros H. apply filter_In in H. tauto. Qed.
Lemma drop_nodup l t : NoDup (map fst l) -> NoDup (map fst (drop l t)) /\ ~ In t (map fst (drop l t)).
Proof.
  induction l as [|[u c] l IH]; cbn; intros N; [split; [constructor|tauto]|]. inversion N as [|? ? N1 N2]; subst. destruct (IH N2) as [I1 I2]. destruct (Nat.eqb u t) eqn:E; cbn; [auto|]. apply Nat.eqb_neq in E. split.
  - constructor; [|exact I1]. intros H. apply N1. apply in_map_iff in H. destruct H as ([v c'] & V & H). cbn in V. subst v. apply drop_in in H. apply in_map_iff. exists (u, c'). auto.
  - intros [H|H]; auto.
Qed.
Lemma place_perm place l n : inserts place -> Permutation (map pair (place l n)) (pair n :: map pair l).
Proof. intros P. destruct (P l n) as (a & b & -> & ->). rewrite !map_app. cbn. apply Permutation_sym, Permutation_middle. Qed.
Lemma asked_snoc es e : asked (es ++ [e]) = asked es ++ asked [e].
Proof. induction es as [|x es IH]; [reflexivity|]. change (asked ((x :: es) ++ [e])) with (match x with SCall _ _ d p => (d, p) :: asked (es ++ [e]) | _ => asked (es ++ [e]) end). destruct x; rewrite IH; reflexivity. Qed.
Lemma log_split (l : list sobs) x a o b : l ++ [x] = a ++ o :: b -> (exists b1, l = a ++ o :: b1) \/ (a = l /\ o = x).
Proof.
  revert l. induction a as [|q a IH]; intros l E.
  - destruct l as [|q l]; cbn in E; injection E as <- <-; [right; auto|left; exists l; reflexivity].
  - destruct l as [|q' l]; cbn in E; [injection E as <- E; destruct a; discriminate|]. injection E as <- E. destruct (IH l E) as [(b1 & ->)|[-> ->]]; [left; exists b1; reflexivity|right; auto].
Qed.
Lemma sinv_step place es s e : inserts place -> sinv place es s -> sinv place (es ++ [e]) (sstep place s e).
Proof.
  intros P [A B C D F K T]. assert (As : forall x, In x (asked es) -> In x (asked (es ++ [e]))) by (intros x H; rewrite asked_snoc; apply in_or_app; auto).
  assert (C' : forall t c, In (t, c) (s_calls s) -> In (c_dom c, c_path c) (asked (es ++ [e]))) by (intros; apply As; eapply C; eauto).
  assert (D' : forall d p, In (d, p) (kept (s_log s)) -> In (d, p) (asked (es ++ [e]))) by (intros; apply As; auto).
  assert (F' : forall x, (forall d n r, x <> OFound d n r) -> forall a b d name r, s_log s ++ [x] = a ++ OFound d name r :: b -> forall f, r = Some f -> exists p, In (d, p) (kept a) /\ f = file_of p name).
  { intros x X a b d name r E. apply log_split in E. destruct E as [(b1 & E)|[_ E]]; [eapply F; exact E|]. exfalso. eapply X. symmetry. exact E. }
  assert (K' : forall x, (forall d p, x <> OSkip d p) -> forall a b d p, s_log s ++ [x] = a ++ OSkip d p :: b -> In (d, p) (kept a) \/ In (default, p) (kept a)).
  { intros x X a b d p E. apply log_split in E. destruct E as [(b1 & E)|[_ E]]; [eapply K; exact E|]. exfalso. eapply X. symmetry. exact E. }
  destruct e as [t ref d p|t|d name fs]; cbn [sstep].
  - destruct (call_of (s_calls s) t) eqn:Q; constructor; cbn [s_nodes s_calls s_log]; auto.
    + intros u c [H|H]; [|eauto]. injection H as <- <-. cbn. rewrite asked_snoc. apply in_or_app. right. left. reflexivity.
    + cbn. constructor; [apply call_none; exact Q|exact T].
  - destruct (call_of (s_calls s) t) as [c|] eqn:Q; [|constructor; auto]. apply call_in in Q. destruct (drop_nodup _ t T) as [T1 T2].
    assert (Sk : In (c_dom c, c_path c) (map pair (s_nodes s)) \/ In (default, c_path c) (map pair (s_nodes s)) -> sinv place (es ++ [SStep t]) (mkS (s_nodes s) (drop (s_calls s) t) (s_log s ++ [OSkip (c_dom c) (c_path c)]))).
    { intros Why. constructor; cbn [s_nodes s_calls s_log]; rewrite ?kept_app, ?app_nil_r; auto; [intros u c' H; apply drop_in in H; eauto|apply F'; intros; discriminate|].
      intros a b d p E. apply log_split in E. destruct E as [(b1 & E)|[-> E]]; [eapply K; exact E|]. injection E as -> ->. rewrite <- A. exact Why. }
    assert (Go : forall g, sinv place (es ++ [SStep t]) (mkS (s_nodes s) ((t, mkC (c_dom c) (c_path c) g) :: drop (s_calls s) t) (s_log s))).
    { intros g. constructor; cbn [s_nodes s_calls s_log]; auto.
      - intros u c' [H|H]; [injection H as <- <-; cbn; eauto|apply drop_in in H; eauto].
      - cbn. constructor; auto. }
    destruct (c_stage c).
    1: destruct (check (s_nodes s) (c_dom c) (c_path c)) eqn:Ch; [apply Sk; left; apply check_spec; exact Ch|auto].
    1: destruct (check (s_nodes s) default (c_path c)) eqn:Ch; [apply Sk; right; apply check_spec; exact Ch|auto].
    destruct (check (s_nodes s) (c_dom c) (c_path c)) eqn:Ch; [apply Sk; left; apply check_spec; exact Ch|].
    assert (N : ~ In (c_dom c, c_path c) (kept (s_log s))). { intros H. rewrite <- A in H. apply check_spec in H. congruence. }
    constructor; cbn [s_nodes s_calls s_log]; rewrite ?kept_app; cbn [kept].
    + rewrite (place_perm place _ _ P). rewrite A. apply Permutation_cons_append.
    + apply (Permutation_NoDup (Permutation_cons_append _ _)). constructor; auto.
    + intros u c' H. apply drop_in in H. eauto.
    + intros d p H. apply in_app_or in H. destruct H as [H|[H|[]]]; [auto|]. injection H as <- <-. eauto.
    + apply F'. intros; discriminate.
    + apply K'. intros; discriminate.
    + exact T1.
  - constructor; cbn [s_nodes s_calls s_log]; rewrite ?kept_app, ?app_nil_r; auto; [|apply K'; intros; discriminate].
    intros a b d' name' r E f R. apply log_split in E. destruct E as [(b1 & E)|[-> E]]; [eapply F; eauto|]. injection E as -> -> ->.
    pose proof (find_first fs (s_nodes s) d name) as X. rewrite R in X. destruct X as (x & q & y & X1 & X2 & _). exists q. split; [|exact X2].
    apply (Permutation_in _ A). assert (H : In q (paths d (map pair (s_nodes s)))) by (rewrite X1; apply in_or_app; right; left; reflexivity).
    unfold paths in H. apply in_map_iff in H. destruct H as ([d0 p0] & H1 & H2). apply filter_In in H2. destruct H2 as [H2 H3]. cbn in *. apply seqb_eq in H3. subst. exact H2.
Qed.
Lemma sinv_run place es0 es s : inserts place -> sinv place es0 s -> sinv place (es0 ++ es) (srun place s es).
Proof. intros P. revert es0 s. induction es as [|e es IH]; intros es0 s J; [rewrite app_nil_r; exact J|]. cbn [srun]. rewrite (app_assoc es0 [e] es : es0 ++ e :: es = _). apply IH, sinv_step; auto. Qed.
Lemma sinv0 place : sinv place [] sp0.
Proof. constructor; cbn; [apply perm_nil|apply NoDup_nil|tauto|tauto|intros a b d n r E; destruct a; discriminate|intros a b d p E; destruct a; discriminate|apply NoDup_nil]. Qed.
Theorem from_thm place es : inserts place -> let s := srun place sp0 es in
  NoDup (kept (s_log s)) /\ (forall d p, In (d, p) (kept (s_log s)) -> In (d, p) (asked es)) /\
  forall a b d name f, s_log s = a ++ OFound d name (Some f) :: b -> exists p, In (d, p) (kept a) /\ f = file_of p name.
Proof.
  intros P s. pose proof (sinv_run place [] es sp0 P (sinv0 place)) as J. cbn [app] in J. fold s in J. destruct J as [A B C D F K T]. split; [exact B|]. split; [exact D|]. intros a b d name f E. eapply F; eauto.
Qed.
Lemma end_nodes es s : map pair (s_nodes s) = kept (s_log s) -> map pair (s_nodes (srun at_end s es)) = kept (s_log (srun at_end s es)).
Proof.
  revert s. induction es as [|e es IH]; intros s H; [exact H|]. cbn [srun]. apply IH. destruct e as [t ref d p|t|d name fs]; cbn [sstep].
  - destruct (call_of _ _); exact H.
  - destruct (call_of (s_calls s) t) as [c|]; [|exact H]. destruct (c_stage c); destruct (check _ _ _); cbn [s_nodes s_log]; rewrite ?kept_app; cbn [kept]; rewrite ?app_nil_r; auto.
    unfold at_end. rewrite map_app, H. reflexivity.
  - cbn [s_nodes s_log]. rewrite kept_app. cbn. rewrite app_nil_r. exact H.
Qed.
Theorem first_thm es d name fs : let s := srun at_end sp0 es in
  exists r, s_log (sstep at_end s (SFind d name fs)) = s_log s ++ [OFound d name r] /\ first_in (paths d (kept (s_log s))) name fs r.
Proof. intros s. eexists. split; [reflexivity|]. unfold s. rewrite <- (end_nodes es sp0 eq_refl). apply find_first. Qed.
Theorem skip_thm place es a b d p : inserts place -> s_log (srun place sp0 es) = a ++ OSkip d p :: b -> In (d, p) (kept a) \/ In (default, p) (kept a).
Proof. intros P E. pose proof (sinv_run place [] es sp0 P (sinv0 place)) as J. eapply (si_skip _ _ _ J). exact E. Qed.
Theorem default_thm : exists d p name fs es, s_calls (srun at_end sp0 es) = [] /\ In (SCall 0 false d p) es /\ fs (file_of p name) = true /\
  s_log (sstep at_end (srun at_end sp0 es) (SFind d name fs)) = s_log (srun at_end sp0 es) ++ [OFound d name None].
Proof.
  exists [120], [47; 101], [102], (fun f => seqb f [47; 101; 47; 102]), [SCall 0 false default [47; 101]; SStep 0; SStep 0; SStep 0; SCall 0 false [120] [47; 101]; SStep 0; SStep 0].
  split; [reflexivity|]. split; [cbn; auto 10|]. split; reflexivity.
Qed.
