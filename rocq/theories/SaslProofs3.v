(** SASL, the listener: the identity, the end of the negotiation, and no undefined behaviour. *)
From Verif Require Import Base SaslModel SaslSpec SaslProofs SaslProofs2.

Ltac conj := repeat match goal with |- _ /\ _ => split end.

(** Nothing goes wrong without an abort. *)
Definition ready (s : sst) : Prop := s_chans s <> [] -> exists g, s_data s = Some (Some g).
Lemma data_keep : forall s p v, s_data (keep s p v) = s_data s.
Proof. intros s [] [x|]; reflexivity. Qed.
Lemma data_set : forall s g p v s' g', prop_set s g p v = (s', g') -> exists g2, s_data s' = Some (Some g2).
Proof. intros s g p v s' g' E. unfold prop_set in E. injection E as <- <-. eexists. reflexivity. Qed.
Definition has (s : sst) : Prop := exists g, s_data s = Some (Some g).
Lemma validation_has : forall h s g a s' g' r, has s -> validation h s g a = (s', g', r) -> has s' /\ s_chans s' = s_chans s.
Proof.
  intros h s g a s' g' r H E.
  assert (SET : forall s g p v s' g', prop_set s g p v = (s', g') -> has s' /\ s_chans s' = s_chans s).
  { intros s1 g1 p v s2 g2 P. split; [exact (data_set _ _ _ _ _ _ P)|]. unfold prop_set in P. injection P as <- <-. reflexivity. }
  assert (KEEP : forall s p v, (has s -> has (keep s p v)) /\ s_chans (keep s p v) = s_chans s).
  { intros s1 [] [x|]; split; auto. }
  assert (R : forall s g s' g' r, has s -> realm h s g = (s', g', r) -> has s' /\ s_chans s' = s_chans s).
  { intros s1 g1 s2 g2 r1 H1 E1. unfold realm in E1. destruct (h_realm h).
    - destruct (prop_set s1 g1 PRealm (Some z)) as [s3 g3] eqn:P. injection E1 as <- <- <-. exact (SET _ _ _ _ _ _ P).
    - injection E1 as <- <- <-. split; [exact H1|reflexivity]. }
  assert (K : forall s p v, has s -> has (keep s p v)) by (intros; apply KEEP; assumption).
  assert (KC : forall s p v, s_chans (keep s p v) = s_chans s) by (intros; apply KEEP).
  assert (NOTE : forall s o, has s -> has (note s o)) by (intros; assumption).
  assert (METH : forall s m, has s -> has (with_method s m)) by (intros; assumption).
  assert (C : (s, g, GNoCallback) = (s', g', r) -> has s' /\ s_chans s' = s_chans s).
  { intro X. injection X as <- <- <-. split; [exact H|reflexivity]. }
  assert (G : forall f m, generic f m s g = (s', g', r) -> has s' /\ s_chans s' = s_chans s).
  { intros f m X. unfold generic in X. destruct (f (creds_all g)).
    - injection X as <- <- <-. split; [exact H|reflexivity].
    - injection X as <- <- <-. split; [apply METH; auto 10|cbn [with_method s_chans]; rewrite !KC; reflexivity].
    - destruct (prop_set _ _ _ _) as [s3 g3] eqn:P. destruct (SET _ _ _ _ _ _ P) as [H3 C3].
      injection X as <- <- <-. split; [apply METH; auto 10|cbn [with_method s_chans]; rewrite !KC; exact C3]. }
  assert (CHK : forall x, x = (s', g', r) -> x = anonymous h s g \/ x = plain h s g \/ x = external h s g \/ x = cram h s g \/ x = digest h s g ->
    has s' /\ s_chans s' = s_chans s).
  { intros x -> [X|[X|[X|[X|X]]]].
    - unfold anonymous in X. destruct (h_check h MAnon) as [f|]; [|symmetry in X; auto].
      destruct (f _); injection X as -> -> ->; (split; [try apply METH; auto 10|cbn [with_method s_chans]; rewrite ?KC; reflexivity]).
    - unfold plain in X. destruct (h_check h MPlain) as [f|]; [|symmetry in X; auto].
      destruct (f _); injection X as -> -> ->; (split; [try apply METH; auto 10|cbn [with_method s_chans]; rewrite ?KC; reflexivity]).
    - unfold external in X. destruct (h_check h MExternal) as [f|]; [|symmetry in X; auto].
      destruct (f _); injection X as -> -> ->; (split; [try apply METH; auto 10|cbn [with_method s_chans]; rewrite ?KC; reflexivity]).
    - unfold cram in X. destruct (h_pass h MCram) as [f|]; [|symmetry in X; auto].
      destruct (f _); [|injection X as -> -> ->; split; [auto|reflexivity]].
      destruct (prop_set _ _ _ _) as [s3 g3] eqn:P. destruct (SET _ _ _ _ _ _ P) as [H3 C3].
      injection X as -> -> ->. split; [apply METH; auto 10|cbn [with_method s_chans]; rewrite ?KC; exact C3].
    - unfold digest in X. destruct (h_pass h MDigest) as [f|]; [|symmetry in X; auto].
      assert (RR : exists s1 g1 r1, match g_realm g with Some _ => (s, g, GOk) | None => realm h s g end = (s1, g1, r1) /\ has s1 /\ s_chans s1 = s_chans s).
      { destruct (g_realm g); [exists s, g, GOk; auto|]. destruct (realm h s g) as [[s1 g1] r1] eqn:RE.
        exists s1, g1, r1. split; [reflexivity|]. exact (R _ _ _ _ _ H RE). }
      destruct RR as [s1 [g1 [r1 [RE [H1 C1]]]]]. rewrite RE in X.
      destruct (f _); [|injection X as -> -> ->; split; [auto|exact C1]].
      destruct (prop_set _ _ _ _) as [s3 g3] eqn:P. destruct (SET _ _ _ _ _ _ P) as [H3 C3].
      injection X as -> -> ->. split; [apply METH; auto 10|cbn [with_method s_chans]; rewrite ?KC, C3; exact C1]. }
  unfold validation in E.
  destruct a as [p| | | |]; try destruct p; try (exact (R _ _ _ _ _ H E));
    (destruct (negb (check_properties (s_neg s) g)); [exact (C E)|]);
    (destruct (s_neg s) as [m|]; [|exact (C E)]);
    (destruct (h_common h m) as [f|]; [exact (G f m E)|]);
    try (exact (C E)); try (apply (CHK _ E); tauto).
  destruct m; try (exact (C E)); apply (CHK _ E); tauto.
Qed.
Lemma ops_has : forall h l s g last s' g' r, has s -> ops h s g l last = (s', g', r) -> has s' /\ s_chans s' = s_chans s.
Proof.
  intros h l. induction l as [|o l IH]; intros s g last s' g' r H E; cbn [ops] in E.
  - injection E as <- <- <-. split; [exact H|reflexivity].
  - destruct (op h s g o) as [[s1 g1] r1] eqn:P.
    assert (H1 : has s1 /\ s_chans s1 = s_chans s).
    { destruct o as [p v|p|a]; cbn [op] in P.
      - destruct (prop_set s g p v) as [s2 g2] eqn:Q. injection P as <- <- <-. split; [exact (data_set _ _ _ _ _ _ Q)|].
        unfold prop_set in Q. injection Q as <- <-. reflexivity.
      - destruct (fast g p); [injection P as <- <- <-; split; [exact H|reflexivity]|].
        destruct (validation h s g (AskProp p)) as [[s2 g2] r2] eqn:V. injection P as <- <- <-. exact (validation_has _ _ _ _ _ _ _ H V).
      - destruct (validation h s g a) as [[s2 g2] r2] eqn:V. injection P as <- <- <-. exact (validation_has _ _ _ _ _ _ _ H V). }
    destruct H1 as [H1 C1]. destruct (IH _ _ _ _ _ _ H1 E) as [H2 C2]. split; [exact H2|congruence].
Qed.
Lemma iterate_calm : forall h s b l r, b <> BAbort -> has s ->
  exists s' ok, iterate h s b l r = Ok (s', ok, true) /\ has s' /\ s_chans s' = s_chans s.
Proof.
  intros h s b l r NB [g D].
  assert (STEP : exists s' ok, match s_data s with
      | None => UB
      | Some None => UB
      | Some (Some g) =>
          let '(s, g, _) := ops h s g l None in
          match r with
          | RMore => Ok (note s [OContinue], true, true)
          | RAuthError => Ok (note s [OError 535], false, true)
          | ROk => Ok (note (complete s) [OComplete (g_mech g) (resp_of b)], true, true)
          | ROther => Ok (note s [OError 454], false, true)
          end
      end = Ok (s', ok, true) /\ has s' /\ s_chans s' = s_chans s).
  { rewrite D. destruct (ops h s g l None) as [[s1 g1] r1] eqn:O.
    destruct (ops_has _ _ _ _ _ _ _ _ (ex_intro _ g D) O) as [H1 C1].
    destruct r; eexists; eexists; (split; [reflexivity|]); (split; [exact H1|exact C1]). }
  destruct b; [exact STEP| |contradiction NB; reflexivity|exact STEP].
  eexists. eexists. split; [reflexivity|]. split; [exists g; exact D|reflexivity].
Qed.

Lemma calm_step : forall h s e, ready s -> calm e -> exists s', sstep h s e = Ok s' /\ ready s'.
Proof.
  intros h s e R C. destruct e as [ch m bg b l r|ch b l r|ch]; cbn [sstep calm] in *.
  - destruct (has_chan s ch || s_mask s); [eexists; split; [reflexivity|exact R]|]. destruct C as [CB CA].
    destruct bg; [eexists; split; [reflexivity|exact R]|contradiction CB; reflexivity|].
    destruct (iterate_calm h (new_session s m) b l r CA (ex_intro _ (sess0 m) eq_refl)) as [s1 [ok [E [H1 _]]]].
    rewrite E. cbn [obind]. destruct ok; eexists; (split; [reflexivity|intros _; exact H1]).
  - destruct (has_chan s ch) eqn:HC; cbn [negb]; [|eexists; split; [reflexivity|exact R]].
    assert (H : has s).
    { apply R. intro X. unfold has_chan in HC. rewrite X in HC. discriminate. }
    destruct (iterate_calm h s b l r C H) as [s1 [ok [E [H1 _]]]]. rewrite E. cbn [obind].
    eexists. split; [reflexivity|]. intros _. exact H1.
  - eexists. split; [reflexivity|]. intro X. cbn [s_chans s_data] in *. apply R. intro Y. rewrite Y in X. contradiction X. reflexivity.
Qed.
Theorem calm_thm : forall h l, Forall calm l -> exists s, srun h sasl0 l = Ok s.
Proof.
  intros h l. assert (G : forall l s, ready s -> Forall calm l -> exists s', srun h s l = Ok s').
  { clear l. intros l. induction l as [|e l IH]; intros s R F; cbn [srun]; [eexists; reflexivity|].
    inversion F as [|x y C F2]; subst. destruct (calm_step h s e R C) as [s1 [E R1]]. rewrite E. cbn [obind]. exact (IH s1 R1 F2). }
  apply G. intro X. contradiction X. reflexivity.
Qed.

(** What a completing event is. *)
Lemma complete_step : forall h s e s' m resp d,
  inv h s -> library h s e -> sstep h s e = Ok s' -> s_log s' = s_log s ++ d -> In (OComplete m resp) d ->
  exists s0 g s1 g1 last pre b,
    s_data s0 = Some (Some g) /\ g_mech g = m /\ inv h s0 /\ s_log s0 = s_log s ++ pre /\
    (s0 = s /\ pre = [] \/ s0 = new_session s m /\ pre = [OSession m]) /\
    ops h s0 g (ops_of e) None = (s1, g1, last) /\ contract m g1 (ops_of e) last (resp_of b) ROk /\ resp = resp_of b /\
    (is_frame e = true /\ s0 = s /\ s' = note (complete s1) [OComplete m resp] \/
     is_frame e = false /\ s0 = new_session s m /\ exists ch, s' = open_chan (note (complete s1) [OComplete m resp]) ch m).
Proof.
  intros h s e s' m resp d I L E LOG IN.
  assert (FRESH : s_log s' <> s_log s).
  { intro X. rewrite LOG in X. rewrite <- (app_nil_r (s_log s)) in X at 2. apply app_inv_head in X. subst d. destruct IN. }
  assert (ITER : forall s0 g b l r sx ok rep pre,
    s_data s0 = Some (Some g) -> inv h s0 -> s_log s0 = s_log s ++ pre -> (forall m' x, ~ In (OComplete m' x) pre) ->
    (let '(_, g', last) := ops h s0 g l None in contract (g_mech g) g' l last (resp_of b) r) ->
    iterate h s0 b l r = Ok (sx, ok, rep) ->
    (exists d', s_log sx = s_log s ++ d' /\ In (OComplete m resp) d') ->
    exists s1 g1 last, ops h s0 g l None = (s1, g1, last) /\ r = ROk /\ ok = true /\ rep = true /\
      g_mech g = m /\ resp = resp_of b /\ sx = note (complete s1) [OComplete m resp]).
  { intros s0 g b l r sx ok rep pre D I0 LP NP C IT [d' [LX INX]].
    assert (BAD : forall y, (forall m' x, ~ In (OComplete m' x) y) -> s_log sx = s_log s0 ++ y -> False).
    { intros y NY Y. rewrite LP, <- app_assoc in Y. rewrite Y in LX. apply app_inv_head in LX. subst d'.
      apply in_app_or in INX. destruct INX as [X|X]; [exact (NP _ _ X)|exact (NY _ _ X)]. }
    assert (STEP : match s_data s0 with
      | None => UB
      | Some None => UB
      | Some (Some g) =>
          let '(s, g, _) := ops h s0 g l None in
          match r with
          | RMore => Ok (note s [OContinue], true, true)
          | RAuthError => Ok (note s [OError 535], false, true)
          | ROk => Ok (note (complete s) [OComplete (g_mech g) (resp_of b)], true, true)
          | ROther => Ok (note s [OError 454], false, true)
          end
      end = Ok (sx, ok, rep)).
    { destruct b; cbn [iterate] in IT; try exact IT; exfalso; injection IT as <- <- <-.
      - apply (BAD [OClear; OError 500]); [intros m' x [X|[X|[]]]; discriminate|].
        cbn [note clear s_log]. rewrite <- app_assoc. reflexivity.
      - apply (BAD [OAborted]); [intros m' x [X|[]]; discriminate|]. reflexivity. }
    rewrite D in STEP. destruct (ops h s0 g l None) as [[s1 g1] last] eqn:OP.
    pose proof (ops_ok h l s0 g None s1 g1 last (v_neg _ _ I0 g D) (proj1 C) OP) as G.
    destruct (go_log _ _ _ _ _ G) as [dd [LD FD]].
    assert (NS : forall m' x o, quiet o -> ~ In (OComplete m' x) (dd ++ [o])).
    { intros m' x o Q X. apply in_app_or in X. destruct X as [X|[X|[]]].
      - rewrite Forall_forall in FD. destruct (FD _ X) as [c Y]. discriminate.
      - rewrite X in Q. exact Q. }
    exists s1, g1, last.
    destruct r; injection STEP as <- <- <-.
    - exfalso. apply (BAD (dd ++ [OContinue])); [intros m' x; apply NS; exact Logic.I|]. cbn [note s_log]. rewrite LD, app_assoc. reflexivity.
    - assert (EQ : g_mech g = m /\ resp = resp_of b).
      { cbn [note complete s_log] in LX. rewrite LD, LP, <- !app_assoc in LX. apply app_inv_head in LX. subst d'.
        apply in_app_or in INX. destruct INX as [X|X]; [destruct (NP _ _ X)|].
        apply in_app_or in X. destruct X as [X|[X|[]]].
        - rewrite Forall_forall in FD. destruct (FD _ X) as [c Y]. discriminate.
        - injection X as <- <-. split; [symmetry; apply (go_mech _ _ _ _ _ G)|reflexivity]. }
      destruct EQ as [<- ->]. rewrite <- (go_mech _ _ _ _ _ G). conj; reflexivity.
    - exfalso. apply (BAD (dd ++ [OError 535])); [intros m' x; apply NS; exact Logic.I|]. cbn [note s_log]. rewrite LD, app_assoc. reflexivity.
    - exfalso. apply (BAD (dd ++ [OError 454])); [intros m' x; apply NS; exact Logic.I|]. cbn [note s_log]. rewrite LD, app_assoc. reflexivity. }
  assert (ONE : forall o, s_log s' = s_log s ++ [o] -> quiet o -> False).
  { intros o X Q. rewrite LOG in X. apply app_inv_head in X. subst d. destruct IN as [X|[]]. rewrite X in Q. exact Q. }
  destruct e as [ch m' bg b l r|ch b l r|ch]; cbn [sstep ops_of] in *.
  - destruct (has_chan s ch || s_mask s) eqn:R.
    { exfalso. injection E as <-. exact (ONE ORefused eq_refl Logic.I). }
    apply orb_false_iff in R. destruct R as [_ MK].
    destruct bg; cbn [library] in L.
    + exfalso. injection E as <-. exact (ONE ORefused eq_refl Logic.I).
    + exfalso. injection E as <-. exact (ONE ORefused eq_refl Logic.I).
    + apply obind_ok in E. destruct E as [[[s1 ok] rep] [E1 E2]].
      assert (LX : exists d', s_log s1 = s_log s ++ d' /\ In (OComplete m resp) d').
      { destruct ok; injection E2 as <-; cbn [open_chan note s_log] in LOG; [exists d; auto|].
        destruct (iterate_ok h (new_session s m') b l r s1 false rep (inv_session h s m' MK I)) as [_ _]; [|exact E1|].
        { intros g D. cbn [new_session with_data s_data] in D. injection D as <-. exact L. }
        assert (X : exists d', d = d' ++ [ORefused] /\ s_log s1 = s_log s ++ d').
        { destruct (exists_last (l := d)) as [d' [y Y]]; [intro Y; rewrite Y in IN; destruct IN|].
          subst d. rewrite app_assoc in LOG. apply app_inj_tail in LOG. destruct LOG as [A B]. exists d'. subst y. split; [reflexivity|exact A]. }
        destruct X as [d' [-> X]]. exists d'. split; [exact X|]. apply in_app_or in IN. destruct IN as [Y|[Y|[]]]; [exact Y|discriminate]. }
      destruct (ITER (new_session s m') (sess0 m') b l r s1 ok rep [OSession m']) as [sa [ga [last [O [-> [-> [-> [<- [-> ->]]]]]]]]];
        [reflexivity|exact (inv_session h s m' MK I)|reflexivity|intros ? ? [X|[]]; discriminate|exact L|exact E1|exact LX|].
      cbn [sess0 g_mech] in *. cbn [sess0] in E2.
      injection E2 as <-. exists (new_session s m'), (sess0 m'), sa, ga, last, [OSession m'], b.
      rewrite O in L. conj; auto; try reflexivity. { exact (inv_session h s m' MK I). } right. conj; auto. exists ch. reflexivity.
  - destruct (has_chan s ch); cbn [negb] in E; [|exfalso; injection E as <-; apply FRESH; reflexivity].
    apply obind_ok in E. destruct E as [[[s1 ok] rep] [E1 E2]].
    assert (S1 : s1 = s') by (destruct rep; [injection E2 as <-; reflexivity|discriminate]). subst s1.
    cbn [library] in L. destruct (s_data s) as [[g|]|] eqn:D.
    + destruct (ITER s g b l r s' ok rep []) as [sa [ga [last [O [-> [-> [-> [<- [-> ->]]]]]]]]];
        [exact D|exact I|rewrite app_nil_r; reflexivity|intros ? ? []|exact L|exact E1|exists d; auto|].
      exists s, g, sa, ga, last, [], b. rewrite O in L. conj; auto. rewrite app_nil_r. reflexivity.
    + exfalso. destruct b; cbn [iterate] in E1; rewrite ?D in E1; try discriminate; injection E1 as <- <- <-; [|discriminate].
      cbn [note clear s_log] in LOG. rewrite <- app_assoc in LOG. apply app_inv_head in LOG. subst d. destruct IN as [X|[X|[]]]; discriminate.
    + exfalso. destruct b; cbn [iterate] in E1; rewrite ?D in E1; try discriminate; injection E1 as <- <- <-; [|discriminate].
      cbn [note clear s_log] in LOG. rewrite <- app_assoc in LOG. apply app_inv_head in LOG. subst d. destruct IN as [X|[X|[]]]; discriminate.
  - exfalso. injection E as <-. exact (ONE (OClosed ch) eq_refl Logic.I).
Qed.
