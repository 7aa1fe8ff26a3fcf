From Verif Require Import Base HdrModel HdrProofs PyModel PySpec.

Lemma sets_app a b : sets (a ++ b) = sets a ++ sets b.
Proof. induction a as [|e a IH]; cbn; auto. destruct e; auto. destruct callable; cbn; rewrite ?IH; auto. Qed.
Lemma given_app a b : given (a ++ b) = given a ++ given b.
Proof. induction a as [|e a IH]; cbn; auto. destruct e; auto. destruct callable; cbn; rewrite ?IH; auto. Qed.
Lemma crun_app s a b : crun s (a ++ b) = let! s := crun s a in crun s b.
Proof. revert s. induction a as [|e a IH]; intros s; cbn; auto. destruct (cstep s e); cbn; auto. Qed.
Lemma calls_app k a b : calls k (a ++ b) = calls k a ++ calls k b.
Proof. unfold calls. apply flat_map_app. Qed.
Lemma frees_app k a b : frees k (a ++ b) = (frees k a + frees k b)%nat.
Proof. unfold frees. rewrite filter_app, app_length. auto. Qed.

Lemma calls_quiet k o : (forall f d, o <> OCall k f d) -> calls k [o] = [].
Proof. intros N. unfold calls; cbn. destruct o; auto. destruct (Nat.eqb_spec k0 k); auto. subst. destruct (N fn data); auto. Qed.
Lemma frees_quiet k o : o <> OFreed k -> frees k [o] = 0%nat.
Proof. intros N. unfold frees; cbn. destruct o; auto. destruct (Nat.eqb_spec k0 k); auto. subst. destruct N; auto. Qed.
Global Arguments calls : simpl never.
Global Arguments frees : simpl never.
Ltac quiet := rewrite ?calls_quiet, ?frees_quiet by (intros; discriminate); cbn.

Lemma removed_snoc k es e : removed k (es ++ [e]) <-> removed k es \/ (exists w, e = CRemove w k /\ (k < length (sets es))%nat).
Proof.
  split.
  - intros (pre & w & post & E & L). destruct post as [|x post _] using rev_ind.
    + apply app_inj_tail in E. destruct E as [-> ->]. right. eauto.
    + rewrite app_comm_cons, app_assoc in E. apply app_inj_tail in E. destruct E as [-> ->].
      left. exists pre, w, post. auto.
  - intros [(pre & w & post & E & L)|(w & E & L)].
    + exists pre, w, (post ++ [e]). rewrite E, <- app_assoc. auto.
    + exists es, w, []. subst. auto.
Qed.
Lemma removed_other k es e : (forall w, e <> CRemove w k) -> removed k (es ++ [e]) <-> removed k es.
Proof.
  intros N. rewrite removed_snoc. split; auto. intros [H|(w & H & _)]; auto. destruct (N w H).
Qed.
Lemma removed_lt k es : removed k es -> (k < length (sets es))%nat.
Proof. intros (pre & w & post & -> & L). rewrite sets_app, app_length. lia. Qed.

Lemma proper_pre es e : proper (es ++ [e]) -> proper es.
Proof. intros P pre w k post -> L. apply (P pre w k (post ++ [e])); auto. rewrite <- app_assoc. auto. Qed.
Lemma proper_last es w k : proper (es ++ [CRemove w k]) -> (k < length (sets es))%nat ->
  nth_error (sets es) k = Some w /\ forall c, w = Some c -> ~ In (CClose c) es.
Proof. intros P L. apply (P es w k []); auto. Qed.

Definition placed (closed : list Z) (r : crec) (held : bool) : Prop :=
  match cr_place r with
  | CNo => cr_live r = held /\ (held = true -> cr_conn r = None)
  | CReg => cr_live r = true /\ held = true /\ exists c, cr_conn r = Some c
  | CTaken | CRun => cr_live r = true /\ held = true /\ exists c, cr_conn r = Some c /\ In c closed
  | CDone => cr_live r = false /\ held = true /\ exists c, cr_conn r = Some c /\ In c closed
  end.
Definition called (r : crec) : list (Z * Z) :=
  match cr_place r with CRun | CDone => [(cr_fn r, cr_data r)] | _ => [] end.
Definition good es s k r : Prop :=
  nth_error (sets es) k = Some (cr_conn r) /\
  nth_error (given es) k = Some (cr_fn r, cr_data r) /\
  calls k (pc_log s) = called r /\
  frees k (pc_log s) = (if cr_live r then 0 else 1)%nat /\
  ((nth_error (pc_handles s) k = Some (Some k) /\ ~ removed k es /\ placed (pc_closed s) r true) \/
   (nth_error (pc_handles s) k = Some None /\ removed k es /\ placed (pc_closed s) r false /\
    (cr_conn r <> None -> In (ORemoved k true) (pc_log s)))).
Record inv es s : Prop := mkInv {
  i_len : length (pc_recs s) = length (sets es);
  i_hlen : length (pc_handles s) = length (sets es);
  i_closed : forall c, In c (pc_closed s) <-> In (CClose c) es;
  i_out : forall k, (length (sets es) <= k)%nat -> calls k (pc_log s) = [] /\ frees k (pc_log s) = 0%nat;
  i_good : forall k r, nth_error (pc_recs s) k = Some r -> good es s k r
}.

Lemma placed_more cl cl' r h : (forall c, In c cl -> In c cl') -> placed cl r h -> placed cl' r h.
Proof. intros M. unfold placed. destruct (cr_place r); firstorder. Qed.

Lemma inv_set es s w callable f d : inv es s -> inv (es ++ [CSet w callable f d]) (c_set s w callable f d).
Proof.
  intros [L H C O G]. unfold c_set. destruct callable.
  - set (r := mkCR w f d _ true).
    assert (SE : sets (es ++ [CSet w true f d]) = sets es ++ [w]) by (rewrite sets_app; auto).
    assert (GE : given (es ++ [CSet w true f d]) = given es ++ [(f, d)]) by (rewrite given_app; auto).
    assert (GL : length (given es) = length (sets es)).
    { clear. induction es as [|e es IH]; cbn; auto. destruct e; auto. destruct callable; cbn; auto. }
    constructor; cbn.
    + rewrite SE, !app_length, L. auto.
    + rewrite SE, !app_length, H. auto.
    + intros c. rewrite C, in_app_iff. split; auto. intros [K|[K|[]]]; auto. discriminate.
    + intros k K. rewrite SE, app_length in K. cbn in K.
      rewrite calls_app, frees_app. quiet. destruct (O k) as [-> ->]; [lia|]. auto.
    + intros k r' K.
      destruct (Nat.eq_dec k (length (pc_recs s))) as [->|N].
      * rewrite nth_error_app2, Nat.sub_diag in K by lia. cbn in K. inversion K; subst r'; clear K.
        unfold good; cbn. rewrite SE, GE.
        rewrite nth_error_app2, L, Nat.sub_diag by lia. cbn.
        rewrite nth_error_app2, GL, Nat.sub_diag by lia. cbn.
        rewrite calls_app, frees_app. quiet. destruct (O (length (sets es))) as [-> ->]; [lia|].
        assert (NR : ~ removed (length (sets es)) (es ++ [CSet w true f d])).
        { rewrite removed_other by congruence. intros R. apply removed_lt in R. lia. }
        repeat apply conj; auto.
        { unfold called; cbn. destruct w; auto. }
        left. rewrite nth_error_app2, H, Nat.sub_diag by lia. cbn.
        repeat apply conj; auto. unfold placed; cbn. destruct w; cbn; repeat apply conj; eauto.
      * assert (Lk : (k < length (pc_recs s))%nat).
        { assert (Z : (k < length (pc_recs s ++ [r]))%nat) by (apply nth_error_Some; congruence).
          rewrite app_length in Z; cbn in Z; lia. }
        rewrite nth_error_app1 in K by auto.
        destruct (G k r' K) as (A & B & D & E & F). unfold good; cbn.
        rewrite SE, GE, !nth_error_app1 by lia. rewrite calls_app, frees_app. quiet.
        rewrite app_nil_r, Nat.add_0_r.
        rewrite removed_other by congruence. rewrite in_app_iff.
        repeat apply conj; auto. intuition.
  - assert (SE : sets (es ++ [CSet w false f d]) = sets es) by (rewrite sets_app; cbn; apply app_nil_r).
    assert (GE : given (es ++ [CSet w false f d]) = given es) by (rewrite given_app; cbn; apply app_nil_r).
    constructor; cbn; rewrite ?SE; auto.
    + intros c. rewrite C, in_app_iff. split; auto. intros [K|[K|[]]]; auto. discriminate.
    + intros k K. rewrite calls_app, frees_app. quiet. destruct (O k K) as [-> ->]. auto.
    + intros k r K. destruct (G k r K) as (A & B & D & E & F). unfold good; cbn.
      rewrite SE, GE, calls_app, frees_app. quiet. rewrite app_nil_r, Nat.add_0_r.
      rewrite removed_other by congruence. rewrite in_app_iff. repeat apply conj; auto. intuition.
Qed.

(** A step that neither makes nor removes a handle. *)
Lemma inv_plain es s e s' :
  inv es s -> sets [e] = [] -> given [e] = [] -> (forall w k, e <> CRemove w k) ->
  length (pc_recs s') = length (pc_recs s) -> pc_handles s' = pc_handles s ->
  (forall c, In c (pc_closed s') <-> In c (pc_closed s) \/ e = CClose c) ->
  (forall o, In o (pc_log s) -> In o (pc_log s')) ->
  (forall k, (length (pc_recs s) <= k)%nat -> calls k (pc_log s') = calls k (pc_log s) /\ frees k (pc_log s') = frees k (pc_log s)) ->
  (forall k r', nth_error (pc_recs s') k = Some r' -> exists r, nth_error (pc_recs s) k = Some r /\
     cr_conn r' = cr_conn r /\ cr_fn r' = cr_fn r /\ cr_data r' = cr_data r /\
     (calls k (pc_log s) = called r -> calls k (pc_log s') = called r') /\
     (frees k (pc_log s) = (if cr_live r then 0 else 1)%nat -> forall h, placed (pc_closed s) r h ->
      frees k (pc_log s') = (if cr_live r' then 0 else 1)%nat) /\
     (forall h, placed (pc_closed s) r h -> placed (pc_closed s') r' h)) ->
  inv (es ++ [e]) s'.
Proof.
  intros [L H C O G] S1 G1 NR L' H' C' M O' R'.
  assert (SE : sets (es ++ [e]) = sets es) by (rewrite sets_app, S1; apply app_nil_r).
  assert (GE : given (es ++ [e]) = given es) by (rewrite given_app, G1; apply app_nil_r).
  constructor; rewrite ?SE.
  - congruence.
  - congruence.
  - intros c. rewrite C', C, in_app_iff. cbn. intuition.
  - intros k K. destruct (O' k) as [-> ->]; [lia|]. auto.
  - intros k r' K. destruct (R' k r' K) as (r & K1 & X1 & X2 & X3 & X4 & X5 & X6).
    destruct (G k r K1) as (A & B & D & E & F). unfold good.
    rewrite SE, GE, X1, X2, X3, H'. rewrite removed_other by auto.
    assert (P : exists h, placed (pc_closed s) r h) by (destruct F as [(_ & _ & P)|(_ & _ & P & _)]; eauto).
    destruct P as [h P].
    repeat apply conj; auto.
    + apply (X5 E h P).
    + destruct F as [(F1 & F2 & F3)|(F1 & F2 & F3 & F4)]; [left|right]; repeat apply conj; auto.
Qed.

Lemma inv_same es s e : inv es s -> sets [e] = [] -> given [e] = [] -> (forall w k, e <> CRemove w k) ->
  (forall c, e <> CClose c) -> inv (es ++ [e]) s.
Proof.
  intros I S1 G1 NR NC. apply (inv_plain es s e s); auto.
  - intros c. split; auto. intros [K|K]; auto. destruct (NC c K).
  - intros k r K. exists r. repeat apply conj; auto.
Qed.

Lemma inv_close es s c : inv es s ->
  inv (es ++ [CClose c]) (mkPC (pc_recs s) (pc_handles s) (c :: pc_closed s) (pc_log s)).
Proof.
  intros I. apply (inv_plain es s); auto; cbn.
  - congruence.
  - intros c'. intuition congruence.
  - intros k r K. exists r. repeat apply conj; auto. intros h. apply placed_more. cbn; auto.
Qed.

Lemma c_first_some c l i k : c_first c l i = Some k ->
  exists r, (i <= k)%nat /\ nth_error l (k - i) = Some r /\ cr_conn r = Some c /\ cr_place r = CReg.
Proof.
  revert i. induction l as [|x l IH]; intros i; cbn; [discriminate|].
  destruct (oeqb (cr_conn x) (Some c) && is_reg x) eqn:E.
  - intros K; inversion K; subst. exists x. rewrite Nat.sub_diag. cbn.
    unfold oeqb, is_reg in E. destruct (cr_conn x) as [y|]; cbn in E; [|discriminate].
    destruct (cr_place x); try (rewrite andb_comm in E; discriminate).
    assert (y = c) by lia. subst. repeat apply conj; auto.
  - intros K. destruct (IH _ K) as (r & A & B & D). exists r. split; [lia|]. split; auto.
    destruct (k - i)%nat eqn:E2; [lia|]. cbn. replace n with (k - S i)%nat by lia. auto.
Qed.

Lemma upd_case {A} (l : list A) k x j y : nth_error (upd_nth l k x) j = Some y ->
  (k = j /\ y = x /\ (k < length l)%nat) \/ (k <> j /\ nth_error l j = Some y).
Proof.
  intros K. destruct (Nat.eq_dec k j) as [->|N].
  - assert (L : (j < length l)%nat) by (rewrite <- (upd_nth_length _ l j x); apply nth_error_Some; congruence).
    rewrite nth_upd_same in K by auto. inversion K; auto.
  - rewrite nth_upd_other in K by auto. auto.
Qed.

Lemma calls_single_other j k f d : j <> k -> calls k [OCall j f d] = [].
Proof. intros N. unfold calls; cbn. destruct (Nat.eqb_spec j k); auto; lia. Qed.
Lemma calls_single_same k f d : calls k [OCall k f d] = [(f, d)].
Proof. unfold calls; cbn. rewrite Nat.eqb_refl. auto. Qed.
Lemma frees_single j k : frees k [OFreed j] = if Nat.eqb j k then 1%nat else 0%nat.
Proof. unfold frees; cbn. destruct (Nat.eqb j k); auto. Qed.

Lemma inv_take es s c : inv es s -> inv (es ++ [CTake c]) (c_take s c).
Proof.
  intros I. pose proof I as [L H C O G]. unfold c_take.
  destruct (existsb (Z.eqb c) (pc_closed s)) eqn:EX; [|apply inv_same; auto; congruence].
  assert (IC : In c (pc_closed s)).
  { apply existsb_exists in EX. destruct EX as (x & X1 & X2). assert (x = c) by lia. subst; auto. }
  destruct (c_first c (pc_recs s) 0) as [k|] eqn:EF; [|apply inv_same; auto; congruence].
  destruct (c_first_some _ _ _ _ EF) as (r & _ & K & RC & RP). rewrite Nat.sub_0_r in K. rewrite K.
  apply (inv_plain es s); auto; cbn.
  - congruence.
  - apply upd_nth_length.
  - intros c'. split; auto. intros [X|X]; auto; discriminate.
  - intros j r' J. destruct (upd_case _ _ _ _ _ J) as [(-> & -> & _)|(N & J')].
    + exists r. cbn. repeat apply conj; auto.
      * unfold called; cbn. rewrite RP. auto.
      * intros h. unfold placed; cbn. rewrite RP. intros (X1 & X2 & X3). repeat apply conj; auto. eauto.
    + exists r'. repeat apply conj; auto.
Qed.

Lemma inv_begin es s k : inv es s -> exists s', c_begin s k = Ok s' /\ inv (es ++ [CBegin k]) s'.
Proof.
  intros I. pose proof I as [L H C O G]. unfold c_begin.
  destruct (nth_error (pc_recs s) k) as [r|] eqn:K; [|eexists; split; eauto; apply inv_same; auto; congruence].
  destruct (cr_place r) eqn:RP; try (eexists; split; eauto; apply inv_same; auto; congruence).
  destruct (G k r K) as (A & B & D & E & F).
  assert (LV : cr_live r = true).
  { destruct F as [(_ & _ & P)|(_ & _ & P & _)]; unfold placed in P; rewrite RP in P; apply P. }
  rewrite LV. eexists; split; eauto.
  assert (LK : (k < length (pc_recs s))%nat) by (apply nth_error_Some; congruence).
  apply (inv_plain es s); auto; cbn.
  - congruence.
  - apply upd_nth_length.
  - intros c'. split; auto. intros [X|X]; auto; discriminate.
  - intros o X. apply in_or_app; auto.
  - intros j J. rewrite calls_app, frees_app, calls_single_other by lia. quiet. rewrite app_nil_r, Nat.add_0_r. auto.
  - intros j r' J. rewrite calls_app, frees_app.
    replace (frees j [OCall k (cr_fn r) (cr_data r)]) with 0%nat by reflexivity. rewrite Nat.add_0_r.
    destruct (upd_case _ _ _ _ _ J) as [(-> & -> & _)|(N & J')].
    + exists r. rewrite calls_single_same. cbn. repeat apply conj; auto.
      * unfold called; cbn. rewrite RP. intros ->. auto.
      * intros h. unfold placed; cbn. rewrite RP. auto.
    + exists r'. rewrite calls_single_other by lia. rewrite app_nil_r. repeat apply conj; auto.
Qed.

Lemma inv_end es s k : inv es s -> exists s', c_end s k = Ok s' /\ inv (es ++ [CEnd k]) s'.
Proof.
  intros I. pose proof I as [L H C O G]. unfold c_end.
  destruct (nth_error (pc_recs s) k) as [r|] eqn:K; [|eexists; split; eauto; apply inv_same; auto; congruence].
  destruct (cr_place r) eqn:RP; try (eexists; split; eauto; apply inv_same; auto; congruence).
  destruct (G k r K) as (A & B & D & E & F).
  assert (LV : cr_live r = true).
  { destruct F as [(_ & _ & P)|(_ & _ & P & _)]; unfold placed in P; rewrite RP in P; apply P. }
  assert (LK : (k < length (pc_recs s))%nat) by (apply nth_error_Some; congruence).
  unfold c_release. cbn. rewrite nth_upd_same by auto. cbn. rewrite LV. eexists; split; eauto.
  apply (inv_plain es s); auto; cbn.
  - congruence.
  - rewrite !upd_nth_length. auto.
  - intros c'. split; auto. intros [X|X]; auto; discriminate.
  - intros o X. apply in_or_app; auto.
  - intros j J. rewrite calls_app, frees_app, frees_single. quiet. rewrite app_nil_r.
    destruct (Nat.eqb_spec k j); [lia|]. rewrite Nat.add_0_r. auto.
  - intros j r' J. rewrite calls_app, frees_app, frees_single. quiet. rewrite app_nil_r.
    destruct (upd_case _ _ _ _ _ J) as [(-> & -> & _)|(N & J')].
    + exists r. rewrite Nat.eqb_refl. cbn. repeat apply conj; auto.
      * unfold called; cbn. rewrite RP. auto.
      * rewrite LV. intros ->. auto.
      * intros h. unfold placed; cbn. rewrite RP. intros (X1 & X2 & X3). auto.
    + rewrite nth_upd_other in J' by auto. exists r'.
      destruct (Nat.eqb_spec k j); [lia|]. rewrite Nat.add_0_r. repeat apply conj; auto.
Qed.

Lemma inv_remove es s w k : inv es s -> proper (es ++ [CRemove w k]) ->
  exists s', c_remove s w k = Ok s' /\ inv (es ++ [CRemove w k]) s'.
Proof.
  intros I P. pose proof I as [L H C O G]. unfold c_remove.
  assert (SE : sets (es ++ [CRemove w k]) = sets es) by (rewrite sets_app; cbn; apply app_nil_r).
  assert (GE : given (es ++ [CRemove w k]) = given es) by (rewrite given_app; cbn; apply app_nil_r).
  assert (CE : forall c, In (CClose c) (es ++ [CRemove w k]) <-> In (CClose c) es).
  { intros c. rewrite in_app_iff. split; auto. intros [X|[X|[]]]; auto. discriminate. }
  assert (KEEP : (forall r, nth_error (pc_recs s) k = Some r -> removed k es) ->
    inv (es ++ [CRemove w k]) (pc_say s [ORemoved k false])).
  { intros RM. constructor; cbn; rewrite ?SE; auto.
    - intros c. rewrite CE. apply C.
    - intros j J. rewrite calls_app, frees_app. quiet. rewrite app_nil_r, Nat.add_0_r. auto.
    - intros j r J. destruct (G j r J) as (A & B & D & E & F). unfold good; cbn. rewrite SE, GE, calls_app, frees_app.
      quiet. rewrite app_nil_r, Nat.add_0_r. repeat apply conj; auto.
      rewrite removed_snoc, in_app_iff.
      destruct (Nat.eq_dec j k) as [->|N].
      + specialize (RM r J). right. destruct F as [(F1 & F2 & F3)|(F1 & F2 & F3 & F4)]; [contradiction|].
        repeat apply conj; auto.
      + destruct F as [(F1 & F2 & F3)|(F1 & F2 & F3 & F4)]; [left|right]; repeat apply conj; auto.
        intros [X|(w' & X & _)]; auto. congruence. }
  destruct (nth_error (pc_handles s) k) as [[p|]|] eqn:HK.
  2: { eexists; split; [reflexivity|]. apply KEEP. intros r K. destruct (G k r K) as (_ & _ & _ & _ & [(F & _)|(_ & F & _)]); auto.
       congruence. }
  2: { eexists; split; [reflexivity|]. apply KEEP. intros r K. exfalso.
       assert ((k < length (pc_recs s))%nat) by (apply nth_error_Some; congruence).
       apply nth_error_None in HK. lia. }
  assert (LK : (k < length (sets es))%nat) by (rewrite <- H; apply nth_error_Some; congruence).
  destruct (nth_error (pc_recs s) k) as [r|] eqn:K; [|apply nth_error_None in K; lia].
  destruct (G k r K) as (A & B & D & E & F).
  destruct F as [(F1 & F2 & F3)|(F1 & _)]; [|congruence].
  assert (p = k) by congruence. subst p. clear F1.
  cbn. rewrite K.
  destruct (proper_last _ _ _ P LK) as [PW PC].
  assert (WC : w = cr_conn r) by congruence.
  assert (PL : cr_live r = true /\ (cr_place r = CNo /\ w = None \/ exists c, cr_place r = CReg /\ w = Some c)).
  { unfold placed in F3. destruct (cr_place r) eqn:RP.
    - destruct F3 as [X1 X2]. split; auto. left. split; auto. rewrite WC; auto.
    - destruct F3 as (X1 & _ & c & X2). split; auto. right. exists c. split; congruence.
    - destruct F3 as (X1 & _ & c & X2 & X3). exfalso. apply (PC c); [congruence|]. apply C; auto.
    - destruct F3 as (X1 & _ & c & X2 & X3). exfalso. apply (PC c); [congruence|]. apply C; auto.
    - destruct F3 as (X1 & _ & c & X2 & X3). exfalso. apply (PC c); [congruence|]. apply C; auto. }
  destruct PL as [LV PL]. clear F3.
  set (found := match w with Some c => oeqb (cr_conn r) (Some c) && is_reg r | None => false end).
  assert (FD : found = match w with Some _ => true | None => false end).
  { unfold found. destruct PL as [[_ ->]|(c & X & Y)]; auto. rewrite Y. rewrite <- WC, Y. cbn.
    unfold is_reg. rewrite X. rewrite Z.eqb_refl. auto. }
  set (r1 := if found then cr_to CNo r else r).
  set (s1 := if found then pc_upd (mkPC (pc_recs s) (upd_nth (pc_handles s) k None) (pc_closed s) (pc_log s)) k (cr_to CNo r)
             else mkPC (pc_recs s) (upd_nth (pc_handles s) k None) (pc_closed s) (pc_log s)).
  assert (R1 : nth_error (pc_recs s1) k = Some r1 /\ (forall j, j <> k -> nth_error (pc_recs s1) j = nth_error (pc_recs s) j) /\
    length (pc_recs s1) = length (pc_recs s) /\ pc_handles s1 = upd_nth (pc_handles s) k None /\ pc_closed s1 = pc_closed s /\ pc_log s1 = pc_log s).
  { unfold s1, r1. destruct found; cbn.
    - rewrite nth_upd_same by lia. repeat apply conj; auto. intros j J. apply nth_upd_other; auto. apply upd_nth_length.
    - repeat apply conj; auto. }
  destruct R1 as (R1 & R2 & R3 & R4 & R5 & R6).
  assert (Q1 : cr_live r1 = true /\ cr_place r1 = CNo /\ cr_conn r1 = cr_conn r /\ cr_fn r1 = cr_fn r /\ cr_data r1 = cr_data r).
  { unfold r1. rewrite FD. destruct PL as [[X ->]|(c & X & ->)]; cbn; auto. }
  destruct Q1 as (Q1 & Q2 & Q3 & Q4 & Q5).
  unfold c_release. rewrite R1, Q1. cbn. eexists; split; [reflexivity|].
  assert (CL : called r = []).
  { unfold called. destruct PL as [[X _]|(c & X & _)]; rewrite X; auto. }
  constructor; cbn; rewrite ?SE.
  - rewrite upd_nth_length. congruence.
  - rewrite R4, upd_nth_length. auto.
  - intros c. rewrite R5, CE. apply C.
  - intros j J. rewrite R6, !calls_app, !frees_app, frees_single. quiet. rewrite !app_nil_r.
    destruct (Nat.eqb_spec k j); [lia|]. rewrite !Nat.add_0_r. auto.
  - intros j r' J. unfold good; cbn. rewrite SE, GE, R4, R5, R6, !calls_app, !frees_app, frees_single. quiet.
    rewrite !app_nil_r, removed_snoc, !in_app_iff.
    destruct (upd_case _ _ _ _ _ J) as [(<- & -> & _)|(N & J')].
    + cbn. rewrite Q3, Q4, Q5, Nat.eqb_refl, D, E, LV, CL. repeat apply conj; auto.
      * unfold called; cbn. rewrite Q2. auto.
      * right. rewrite nth_upd_same by lia. repeat apply conj; auto.
        -- right. eauto.
        -- unfold placed; cbn. rewrite Q2. split; auto. discriminate.
        -- intros NN. right. left. rewrite FD. rewrite WC. destruct (cr_conn r); congruence.
    + rewrite R2 in J' by auto. destruct (G j r' J') as (A' & B' & D' & E' & F').
      destruct (Nat.eqb_spec k j); [lia|]. rewrite !Nat.add_0_r, nth_upd_other by auto. repeat apply conj; auto.
      destruct F' as [(F1 & F2' & F3)|(F1 & F2' & F3 & F4)]; [left|right]; repeat apply conj; auto.
      intros [X|(w' & X & _)]; auto. congruence.
Qed.

Lemma inv_run es : proper es -> exists s, crun pc0 es = Ok s /\ inv es s.
Proof.
  induction es as [|e es IH] using rev_ind; intros P.
  - exists pc0. split; auto. constructor; cbn; auto. intros c; split; auto.
    intros k r K. destruct k; discriminate.
  - destruct (IH (proper_pre _ _ P)) as (s & R & I). rewrite crun_app, R. cbn.
    assert (ST : exists s', cstep s e = Ok s' /\ inv (es ++ [e]) s').
    { destruct e; cbn.
      - eexists; split; eauto. apply inv_set; auto.
      - apply inv_remove; auto.
      - eexists; split; eauto. apply inv_close; auto.
      - eexists; split; eauto. apply inv_take; auto.
      - apply inv_begin; auto.
      - apply inv_end; auto. }
    destruct ST as (s' & -> & I'). cbn. eauto.
Qed.

Theorem close_handlers es : proper es ->
  exists s, crun pc0 es = Ok s /\
  (forall k, (length (given es) <= k)%nat -> calls k (pc_log s) = []) /\
  (forall k f d, nth_error (given es) k = Some (f, d) ->
     (calls k (pc_log s) = [] \/ calls k (pc_log s) = [(f, d)]) /\
     (frees k (pc_log s) <= 1)%nat /\
     (removed k es -> calls k (pc_log s) = [] /\ frees k (pc_log s) = 1%nat) /\
     (forall c, nth_error (sets es) k = Some (Some c) -> removed k es -> In (ORemoved k true) (pc_log s)) /\
     (forall c, nth_error (sets es) k = Some (Some c) -> settled c s -> ~ removed k es ->
        calls k (pc_log s) = [(f, d)] /\ frees k (pc_log s) = 1%nat /\ In (CClose c) es)).
Proof.
  intros P. destruct (inv_run es P) as (s & R & [L H C O G]). exists s. split; auto.
  assert (GL : length (given es) = length (sets es)).
  { clear. induction es as [|e es IH]; cbn; auto. destruct e; auto. destruct callable; cbn; auto. }
  split; [intros k K; apply O; lia|].
  intros k f d GK.
  assert (LK : (k < length (pc_recs s))%nat) by (rewrite L, <- GL; apply nth_error_Some; congruence).
  destruct (nth_error (pc_recs s) k) as [r|] eqn:K; [|apply nth_error_None in K; lia].
  destruct (G k r K) as (A & B & D & E & F). rewrite D, E. rewrite GK in B. inversion B; subst f d.
  assert (FN : removed k es -> placed (pc_closed s) r false /\ (cr_conn r <> None -> In (ORemoved k true) (pc_log s))).
  { intros X. destruct F as [(_ & Y & _)|(_ & _ & Y & Z)]; [contradiction|auto]. }
  repeat apply conj.
  - unfold called. destruct (cr_place r); auto.
  - destruct (cr_live r); lia.
  - intros RM. destruct (FN RM) as [X _]. unfold placed in X. unfold called.
    destruct (cr_place r); try (destruct X as (_ & X & _); discriminate). destruct X as [-> _]. auto.
  - intros c X Y. apply (FN Y). congruence.
  - intros c X Y NR. destruct F as [(_ & _ & Z)|(_ & Z & _)]; [|contradiction].
    assert (RC : cr_conn r = Some c) by congruence.
    destruct (Y r (nth_error_In _ _ K) RC) as [PL|PL]; unfold placed in Z; rewrite PL in Z.
    + destruct Z as [_ Z]. rewrite Z in RC by auto. discriminate.
    + destruct Z as (Z1 & _ & c' & Z2 & Z3). unfold called. rewrite PL, Z1. repeat apply conj; auto.
      apply C. congruence.
Qed.
