From Verif Require Import Base HdrModel HdrProofs PyModel PySpec PyProofs PyProofs2.

(** ** vortex.AsyncQueue *)

Lemma count_app x a b : count x (a ++ b) = count x a + count x b.
Proof. unfold count. rewrite filter_app. unfold zlen. rewrite app_length. lia. Qed.
Lemma objs_app a b : objs (a ++ b) = objs a ++ objs b.
Proof. induction a as [|[o|] a IH]; cbn; rewrite ?IH; auto. Qed.
Lemma nones_app a b : nones (a ++ b) = nones a + nones b.
Proof. unfold nones. rewrite filter_app. unfold zlen. rewrite app_length. lia. Qed.
Lemma pushed_app a b : pushed (a ++ b) = pushed a ++ pushed b.
Proof. induction a as [|[] a IH]; cbn; rewrite ?IH; auto. Qed.
Lemma drops_app x a b : drops x (a ++ b) = drops x a + drops x b.
Proof. unfold drops. rewrite filter_app. unfold zlen. rewrite app_length. lia. Qed.
Lemma qrun_app s a b : qrun s (a ++ b) = let! s := qrun s a in qrun s b.
Proof. revert s. induction a as [|e a IH]; intros s; cbn; auto. destruct (qstep s e); cbn; auto. Qed.
Lemma count_one x o : count x [o] = if x =? o then 1 else 0.
Proof. unfold count; cbn. destruct (x =? o); auto. Qed.

Lemma drops_one x o : drops x [QDrop o] = if o =? x then 1 else 0.
Proof. unfold drops; cbn. destruct (o =? x); auto. Qed.

Definition qinv refs es s : Prop :=
  qs_open s = true /\ exists rest, qs_items s = map QObj rest /\ pushed es = objs (qs_got s) ++ rest /\
  forall x, qs_refs s x = owned refs es (qs_got s) x + count x rest.

Lemma q_take refs es s e o rest : qs_items s = map QObj (o :: rest) ->
  pushed es = objs (qs_got s) ++ o :: rest -> pushed [e] = [] -> (forall x, drops x [e] = 0) ->
  (forall x, qs_refs s x = owned refs es (qs_got s) x + count x (o :: rest)) ->
  pushed (es ++ [e]) = objs (qs_got s ++ [RObj o]) ++ rest /\
  forall x, qs_refs s x = owned refs (es ++ [e]) (qs_got s ++ [RObj o]) x + count x rest.
Proof.
  intros A B P D C. rewrite pushed_app, P, objs_app. cbn. rewrite app_nil_r, B, <- app_assoc. split; auto.
  intros x. rewrite C. unfold owned. rewrite objs_app, count_app, nones_app, drops_app, D. cbn [objs].
  change (o :: rest) with ([o] ++ rest). rewrite count_app. change (nones [RObj o]) with 0. destruct (x =? py_none); lia.
Qed.
Lemma q_nothing refs es s e rest : pushed [e] = [] -> (forall x, drops x [e] = 0) ->
  pushed es = objs (qs_got s) ++ rest -> (forall x, qs_refs s x = owned refs es (qs_got s) x + count x rest) ->
  pushed (es ++ [e]) = objs (qs_got (q_none s)) ++ rest /\
  forall x, qs_refs (q_none s) x = owned refs (es ++ [e]) (qs_got (q_none s)) x + count x rest.
Proof.
  intros P D B C. cbn. rewrite pushed_app, P, objs_app. cbn. rewrite !app_nil_r. split; auto.
  intros x. unfold q_inc. rewrite C. unfold owned. rewrite objs_app, count_app, nones_app, drops_app, D. cbn [objs].
  change (count x []) with 0. change (nones [RNone]) with 1. destruct (x =? py_none); lia.
Qed.
Lemma q_still refs es e got rest rs : pushed [e] = [] -> (forall x, drops x [e] = 0) ->
  pushed es = objs got ++ rest -> (forall x, rs x = owned refs es got x + count x rest) ->
  pushed (es ++ [e]) = objs got ++ rest /\ forall x : Z, rs x = owned refs (es ++ [e]) got x + count x rest.
Proof.
  intros P D B C. rewrite pushed_app, P, app_nil_r. split; auto. intros x. rewrite C. unfold owned. rewrite drops_app, D. lia.
Qed.

Lemma qinv_step refs es s e : qinv refs es s -> e <> QBroken -> e <> QCollect ->
  exists s', qstep s e = Ok s' /\ qinv refs (es ++ [e]) s'.
Proof.
  intros (O & rest & A & B & C) N1 N2. unfold qstep. rewrite O.
  assert (SAME : pushed [e] = [] -> (forall x, drops x [e] = 0) -> qinv refs (es ++ [e]) s).
  { intros P D. split; auto. exists rest. split; auto. apply q_still; auto. }
  assert (TAKE : forall w d, pushed [e] = [] -> (forall x, drops x [e] = 0) -> forall o r, rest = o :: r ->
    qinv refs (es ++ [e]) (mkQ (map QObj r) (qs_refs s) w d true (qs_got s ++ [RObj o]))).
  { intros w d P D o r ->. split; auto. exists r. cbn. split; auto. apply q_take; auto. }
  assert (NONE : forall s1, qs_items s1 = qs_items s -> qs_refs s1 = qs_refs s -> qs_got s1 = qs_got s -> qs_open s1 = true ->
    pushed [e] = [] -> (forall x, drops x [e] = 0) -> qinv refs (es ++ [e]) (q_none s1)).
  { intros s1 X1 X2 X3 X4 P D. split; auto. exists rest. cbn [q_none qs_items]. rewrite X1. split; auto.
    apply q_nothing; auto; rewrite ?X2, ?X3; auto. }
  destruct e; try congruence.
  - eexists; split; [reflexivity|]. split; auto. exists (rest ++ [o]). cbn. repeat apply conj.
    + rewrite map_app, A. auto.
    + rewrite pushed_app, B, app_assoc. auto.
    + intros x. unfold q_inc. rewrite count_app, count_one, C. unfold owned. rewrite drops_app. change (drops x [QPush o]) with 0.
      destruct (x =? o); lia.
  - destruct rest as [|o r]; rewrite A; cbn [map].
    + eexists; split; [reflexivity|]. apply SAME; auto.
    + cbn. eexists; split; [reflexivity|]. rewrite O. apply TAKE; auto.
  - destruct rest as [|o r]; rewrite A; cbn [map].
    + destruct expired; eexists; (split; [reflexivity|]); [apply NONE|apply SAME]; auto.
    + cbn. eexists; split; [reflexivity|]. rewrite O. apply TAKE; auto.
  - eexists; split; [reflexivity|]. split; auto. exists rest. cbn. rewrite pushed_app, app_nil_r. repeat apply conj; auto.
    intros x. unfold q_inc. rewrite C. unfold owned. rewrite drops_app.
    rewrite drops_one. destruct (x =? o) eqn:E; destruct (o =? x) eqn:E2; lia.
  - destruct (negb up && (zlen (qs_items s) =? 0)); eexists; (split; [reflexivity|]).
    + apply NONE; auto.
    + split; auto. exists rest. cbn. split; auto. apply q_still; auto.
  - destruct (0 <? qs_wait s); [|eexists; split; [reflexivity|]; apply SAME; auto].
    destruct rest as [|o r]; rewrite A; cbn [map].
    + destruct expired; eexists; (split; [reflexivity|]); [apply NONE|apply SAME]; auto.
    + cbn. eexists; split; [reflexivity|]. apply TAKE; auto.
Qed.

Theorem queue_refs refs es : ~ In QBroken es -> ~ In QCollect es ->
  exists s rest, qrun (q_new refs) es = Ok s /\ qs_items s = map QObj rest /\ pushed es = objs (qs_got s) ++ rest /\
  forall x, qs_refs s x = owned refs es (qs_got s) x + count x rest.
Proof.
  intros N1 N2.
  assert (K : exists s, qrun (q_new refs) es = Ok s /\ qinv refs es s).
  { induction es as [|e es IH] using rev_ind.
    - eexists; split; [reflexivity|]. split; auto. exists []. cbn. repeat apply conj; auto.
      intros x. unfold owned. change (count x (objs [])) with 0. change (nones []) with 0. change (drops x []) with 0.
      change (count x []) with 0. destruct (x =? py_none); lia.
    - rewrite in_app_iff in N1, N2. cbn in N1, N2.
      destruct IH as (s & R & I); try tauto. rewrite qrun_app, R. cbn.
      destruct (qinv_step refs es s e I) as (s' & E & I'); [intuition congruence..|].
      rewrite E. cbn. eauto. }
  destruct K as (s & R & (_ & rest & A & B & C)). exists s, rest. auto.
Qed.

Theorem queue_collect refs es s : ~ In QBroken es -> ~ In QCollect es -> qrun (q_new refs) es = Ok s ->
  qs_items s = [] -> qs_wait s = 0 -> exists s', qrun (q_new refs) (es ++ [QCollect]) = Ok s' /\
  qs_open s' = false /\ pushed es = objs (qs_got s') /\ forall x, qs_refs s' x = owned refs es (qs_got s') x.
Proof.
  intros N1 N2 R I W. destruct (queue_refs refs es N1 N2) as (s1 & rest & R1 & A & B & C).
  assert (s1 = s) by congruence. subst s1. rewrite I in A. destruct rest; [|discriminate].
  rewrite qrun_app, R. cbn. unfold qstep.
  assert (O : qs_open s = true).
  { clear - R N2. assert (K : forall es s0, ~ In QCollect es -> qs_open s0 = true -> qrun s0 es = Ok s -> qs_open s = true).
    { clear. intros es. induction es as [|e es IH]; intros s0 N O R; cbn in R; [inversion R; subst; auto|].
      destruct (qstep s0 e) as [s1|] eqn:E; [|discriminate]. apply (IH s1); auto.
      - intros X. apply N. cbn; auto.
      - assert (NC : e <> QCollect) by (intros ->; apply N; cbn; auto).
        clear IH R N. unfold qstep, q_give in E. rewrite O in E. destruct e; try congruence.
        all: repeat match type of E with
             | context [match ?x with _ => _ end] => destruct x; cbn in E; try discriminate
             end; inversion E; subst; auto. }
    apply (K es (q_new refs)); auto. }
  rewrite O, W. cbn. eexists; split; [reflexivity|]. cbn. rewrite app_nil_r in B. repeat apply conj; auto.
  intros x. rewrite C. change (count x []) with 0. lia.
Qed.

Theorem queue_replies refs es : ~ In QPop es -> (forall b, ~ In (QTimed b) es) -> exists s, qrun (q_new refs) es = Ok s.
Proof.
  intros N1 N2. generalize (q_new refs). induction es as [|e es IH]; intros s; cbn; eauto.
  assert (K : exists s', qstep s e = Ok s').
  { unfold qstep. destruct (qs_open s); destruct e; eauto.
    - destruct N1; cbn; auto.
    - destruct (N2 expired); cbn; auto.
    - destruct (negb up && (zlen (qs_items s) =? 0)); eauto.
    - destruct (0 <? qs_wait s); eauto. destruct (qs_items s) as [|[]]; cbn; eauto. destruct expired; eauto.
    - destruct (0 <? qs_wait s); eauto. }
  destruct K as (s' & ->). cbn. apply IH.
  - intros X. apply N1. cbn; auto.
  - intros b X. apply (N2 b). cbn; auto.
Qed.

(** ** The handler of the frames *)

Lemma hrun_app s a b : hrun s (a ++ b) = let! s := hrun s a in hrun s b.
Proof. revert s. induction a as [|e a IH]; intros s; cbn; auto. destruct (hstep s e); cbn; auto. Qed.
Lemma conf_app a b c : conf (a ++ b) c = conf b (conf a c).
Proof. revert c. induction a as [|e a IH]; intros c; cbn; auto. destruct e; auto. destruct callable; auto. Qed.
Lemma frames_app f a b : frames f (a ++ b) = frames f a + frames f b.
Proof. unfold frames. rewrite filter_app. unfold zlen. rewrite app_length. lia. Qed.
Lemma locks_app f a b : locks f (a ++ b) = locks f a + locks f b.
Proof. unfold locks. rewrite filter_app. unfold zlen. rewrite app_length. lia. Qed.
Lemma seen_app f a b : seen f (a ++ b) = seen f a + seen f b.
Proof. unfold seen. rewrite filter_app. unfold zlen. rewrite app_length. lia. Qed.
Lemma frames_one f g : frames f [HFrame g] = if g =? f then 1 else 0.
Proof. unfold frames; cbn. destruct (g =? f); auto. Qed.
Lemma locks_one f g : locks f [HLock g] = if g =? f then 1 else 0.
Proof. unfold locks; cbn. destruct (g =? f); auto. Qed.
Lemma seen_other f g : seen f [HOther g] = if g =? f then 1 else 0.
Proof. unfold seen; cbn. destruct (g =? f); auto. Qed.
Lemma seen_call f g h d : seen f [HCall g h d] = if g =? f then 1 else 0.
Proof. unfold seen; cbn. destruct (g =? f); auto. Qed.
Lemma count_rem1 f g l : existsb (Z.eqb g) l = true -> count f (rem1 g l) = count f l - (if g =? f then 1 else 0).
Proof.
  induction l as [|x l IH]; cbn; [discriminate|]. destruct (g =? x) eqn:E; cbn.
  - intros _. assert (g = x) by lia. subst. change (x :: l) with ([x] ++ l). rewrite count_app, count_one.
    destruct (x =? f) eqn:E2; destruct (f =? x) eqn:E3; lia.
  - intros K. change (x :: rem1 g l) with ([x] ++ rem1 g l). change (x :: l) with ([x] ++ l). rewrite !count_app, IH by auto. lia.
Qed.
Lemma count_nonneg f l : 0 <= count f l.
Proof. unfold count, zlen. lia. Qed.
Lemma count_zero_nil l : (forall f, count f l <= 0) -> l = [].
Proof.
  destruct l as [|x l]; auto. intros H. specialize (H x). change (x :: l) with ([x] ++ l) in H.
  rewrite count_app, count_one, Z.eqb_refl in H. pose proof (count_nonneg x l). lia.
Qed.

Record hinv pre s : Prop := mkHI {
  hi_conf : conf pre None = match h_fr s, h_frd s with Some h, Some d => Some (h, d) | _, _ => None end;
  hi_pair : h_fr s = None <-> h_frd s = None;
  hi_bridge : h_bridge s = true -> (exists h d, In (HConf true h d) pre) -> h_fr s <> None;
  hi_wait : h_wait s <> [] -> h_fr s <> None;
  hi_out : forall f, count f (h_wait s) <= frames f pre - locks f pre;
  hi_sum : forall f, count f (h_wait s) + seen f (h_log s) = frames f pre;
  hi_call : forall f h d, In (HCall f h d) (h_log s) -> exists a b, pre = a ++ HLock f :: b /\ conf a None = Some (h, d)
}.

Lemma calm_pre es e : calm (es ++ [e]) -> calm es.
Proof.
  intros (A & B & C). repeat apply conj.
  - intros pre f post ->. apply (A pre f (post ++ [e])). rewrite <- app_assoc. auto.
  - intros pre post ->. apply (B pre (post ++ [e])). rewrite <- app_assoc. auto.
  - intros pre f post ->. apply (C pre f (post ++ [e])). rewrite <- app_assoc. auto.
Qed.
Lemma in_snoc_ne {A} (x : A) l y : In x (l ++ [y]) -> x <> y -> In x l.
Proof. intros K N. apply in_app_or in K. destruct K as [K|[K|[]]]; auto. congruence. Qed.

Lemma hinv_step es s e : hinv es s -> calm (es ++ [e]) -> exists s', hstep s e = Ok s' /\ hinv (es ++ [e]) s'.
Proof.
  intros [CF PR BR WT OU SU CA] (Q1 & Q2 & Q3).
  assert (CA' : forall f h d, In (HCall f h d) (h_log s) -> exists a b, es ++ [e] = a ++ HLock f :: b /\ conf a None = Some (h, d)).
  { intros f h d K. destruct (CA f h d K) as (a & b & -> & X). exists a, (b ++ [e]). rewrite <- app_assoc. auto. }
  destruct e; cbn.
  - destruct callable.
    + eexists; split; [reflexivity|]. constructor; cbn; auto; try congruence.
      * rewrite conf_app. cbn. auto.
      * split; discriminate.
      * intros f. rewrite frames_app, locks_app. change (frames f [HConf true h d]) with 0. change (locks f [HConf true h d]) with 0.
        specialize (OU f). lia.
      * intros f. rewrite frames_app. change (frames f [HConf true h d]) with 0. specialize (SU f). lia.
    + eexists; split; [reflexivity|]. constructor; auto.
      * rewrite conf_app. cbn. auto.
      * intros X (h' & d' & Y). apply in_snoc_ne in Y; [|congruence]. eauto.
      * intros f. rewrite frames_app, locks_app. change (frames f [HConf false h d]) with 0. change (locks f [HConf false h d]) with 0.
        specialize (OU f). lia.
      * intros f. rewrite frames_app. change (frames f [HConf false h d]) with 0. specialize (SU f). lia.
  - eexists; split; [reflexivity|].
    assert (WN : h_wait s = []).
    { apply count_zero_nil. intros f. specialize (OU f). specialize (Q2 es [] eq_refl f). lia. }
    constructor; cbn; auto; try congruence.
    + rewrite conf_app. cbn. auto.
    + split; auto.
    + intros f. rewrite frames_app, locks_app. change (frames f [HUnset]) with 0. change (locks f [HUnset]) with 0.
      specialize (OU f). lia.
    + intros f. rewrite frames_app. change (frames f [HUnset]) with 0. specialize (SU f). lia.
  - destruct (h_bridge s) eqn:B; eexists; (split; [reflexivity|]); constructor; cbn; auto.
    + rewrite conf_app. cbn. auto.
    + intros X (h' & d' & Y). apply in_snoc_ne in Y; [|congruence]. eauto.
    + intros _. apply BR; auto. apply (Q1 es f []); auto.
    + intros g. rewrite frames_app, locks_app, count_app, count_one, frames_one. change (locks g [HFrame f]) with 0.
      specialize (OU g). destruct (g =? f) eqn:E1; destruct (f =? g) eqn:E2; lia.
    + intros g. rewrite frames_app, count_app, count_one, frames_one. specialize (SU g).
      destruct (g =? f) eqn:E1; destruct (f =? g) eqn:E2; lia.
    + rewrite conf_app. cbn. auto.
    + discriminate.
    + intros g. rewrite frames_app, locks_app, frames_one. change (locks g [HFrame f]) with 0.
      specialize (OU g). destruct (f =? g) eqn:E2; lia.
    + intros g. rewrite frames_app, seen_app, frames_one. specialize (SU g). rewrite seen_other.
      destruct (f =? g) eqn:E2; lia.
    + intros g h d K. apply in_snoc_ne in K; [|congruence]. apply CA'; auto.
  - destruct (existsb (Z.eqb f) (h_wait s)) eqn:E.
    + assert (NW : h_wait s <> []) by (intros X; rewrite X in E; discriminate).
      specialize (WT NW).
      destruct (h_fr s) as [h|] eqn:HF; [|congruence].
      destruct (h_frd s) as [d|] eqn:HD; [|destruct PR as [_ PR]; specialize (PR eq_refl); congruence].
      eexists; split; [reflexivity|]. constructor; cbn; auto; try congruence.
      * rewrite conf_app. cbn. auto.
      * intros g. rewrite frames_app, locks_app, count_rem1, locks_one by auto. change (frames g [HLock f]) with 0.
        specialize (OU g). lia.
      * intros g. rewrite frames_app, seen_app, count_rem1 by auto. change (frames g [HLock f]) with 0.
        specialize (SU g). rewrite seen_call. destruct (f =? g); lia.
      * intros g h' d' K. apply in_app_or in K. destruct K as [K|[K|[]]]; [apply CA'; auto|].
        inversion K; subst. exists es, []. auto.
    + eexists; split; [reflexivity|].
      assert (Z0 : count f (h_wait s) = 0).
      { clear - E. induction (h_wait s) as [|x l IH]; auto. cbn in E. destruct (f =? x) eqn:E2; [discriminate|].
        change (x :: l) with ([x] ++ l). rewrite count_app, count_one, E2. cbn in E. rewrite IH; auto. }
      constructor; auto.
      * rewrite conf_app. cbn. auto.
      * intros X (h' & d' & Y). apply in_snoc_ne in Y; [|congruence]. eauto.
      * intros g. rewrite frames_app, locks_app, locks_one. change (frames g [HLock f]) with 0.
        specialize (OU g). destruct (f =? g) eqn:E2; [|lia]. assert (f = g) by lia. subst g.
        specialize (Q3 es f [] eq_refl). lia.
      * intros g. rewrite frames_app. change (frames g [HLock f]) with 0. specialize (SU g). lia.
Qed.

Theorem frames_delivered b es : calm es -> exists s, hrun (h_opened b) es = Ok s /\
  (forall f, count f (h_wait s) + seen f (h_log s) = frames f es) /\
  (forall f h d, In (HCall f h d) (h_log s) -> exists pre post, es = pre ++ HLock f :: post /\ conf pre None = Some (h, d)).
Proof.
  intros Q.
  assert (K : exists s, hrun (h_opened b) es = Ok s /\ hinv es s).
  { induction es as [|e es IH] using rev_ind.
    - eexists; split; [reflexivity|]. constructor; cbn; auto; try tauto.
      + intros _ (h & d & []).
      + intros f. change (count f []) with 0. change (frames f []) with 0. change (locks f []) with 0. lia.
    - destruct (IH (calm_pre _ _ Q)) as (s & R & I). rewrite hrun_app, R. cbn.
      destruct (hinv_step es s e I Q) as (s' & E & I'). rewrite E. cbn. eauto. }
  destruct K as (s & R & I). exists s. destruct I. auto.
Qed.

(** ** The content sent *)

Theorem content_sent b n : zlen b < two31 ->
  (n = -1 -> send_msg (Some b) n = Ok (Some b) /\ send_rpy (Some b) n = Ok (Some b)) /\
  (0 <= n <= zlen b -> send_msg (Some b) n = Ok (Some (firstn (Z.to_nat n) b)) /\ send_rpy (Some b) n = Ok (Some (firstn (Z.to_nat n) b))) /\
  (n <= -2 \/ zlen b + 1 < n -> send_msg (Some b) n = UB /\ send_rpy (Some b) n = UB) /\
  send_msg None 0 = Ok (Some []) /\ send_rpy None 0 = Ok (Some []).
Proof.
  intros L. assert (Z0 : 0 <= zlen b) by (unfold zlen; lia).
  assert (CP : forall m, 0 <= m <= zlen b -> c_copy (Some b) m = Ok (firstn (Z.to_nat m) b)).
  { intros m M. unfold c_copy. destruct (m =? 0) eqn:E.
    - assert (m = 0) by lia. subst. auto.
    - replace ((0 <? m) && (m <=? zlen b + 1)) with true by lia. rewrite firstn_app.
      replace (Z.to_nat m - length b)%nat with 0%nat by (unfold zlen in *; lia). cbn. rewrite app_nil_r. auto. }
  repeat apply conj; try reflexivity.
  - intros ->. unfold send_msg, send_rpy, c_size. change (-1 =? -1) with true. cbn [obind].
    replace (s32 (zlen b)) with (zlen b).
    2:{ unfold s32, two31, two32 in *. rewrite Z.mod_small by lia. lia. }
    rewrite CP by lia. cbn. unfold zlen. rewrite Nat2Z.id, firstn_all. auto.
  - intros N. unfold send_msg, send_rpy, c_size. replace (n =? -1) with false by lia. cbn [obind]. rewrite CP by lia. auto.
  - intros N. unfold send_msg, send_rpy, c_size. replace (n =? -1) with false by lia. cbn [obind]. unfold c_copy.
    replace (n =? 0) with false by lia. replace ((0 <? n) && (n <=? zlen b + 1)) with false by lia. auto.
Qed.

(** ** Events *)

Definition vinv s : Prop :=
  (v_live s = false -> v_in s = false /\ v_wait s = false /\ v_run s = false) /\
  (v_wait s = true -> v_run s = false) /\
  (In VGone (v_log s) -> v_live s = false) /\
  (forall a b, v_log s = a ++ VGone :: b -> b = []).

Lemma vinv_say s : vinv s -> v_live s = true -> forall a b, v_log s ++ [VCalled] = a ++ VGone :: b -> b = [].
Proof.
  intros (_ & _ & G & _) L a b E. exfalso.
  assert (I : In VGone (v_log s ++ [VCalled])) by (rewrite E; apply in_or_app; cbn; auto).
  apply in_app_or in I. destruct I as [I|[I|[]]]; [|discriminate]. specialize (G I). congruence.
Qed.
Lemma vinv_gone s : vinv s -> v_live s = true -> forall a b, v_log s ++ [VGone] = a ++ VGone :: b -> b = [].
Proof.
  intros (_ & _ & G & _) L a b E. destruct b as [|x b _] using rev_ind; auto. exfalso.
  rewrite app_comm_cons, app_assoc in E. apply app_inj_tail in E. destruct E as [E _].
  assert (I : In VGone (v_log s)) by (rewrite E; apply in_or_app; cbn; auto). specialize (G I). congruence.
Qed.

Lemma vstep_ok s e : vinv s -> exists s', vstep s e = Ok s' /\ vinv s' /\
  (e <> VReturn VRaise -> v_refs s = b2z (v_live s) + b2z (v_run s) -> v_refs s' = b2z (v_live s') + b2z (v_run s')).
Proof.
  intros I. pose proof I as (A & B & G & H). unfold vstep.
  assert (SAME : exists s', Ok s = Ok s' /\ vinv s' /\
    (e <> VReturn VRaise -> v_refs s = b2z (v_live s) + b2z (v_run s) -> v_refs s' = b2z (v_live s') + b2z (v_run s'))) by eauto.
  assert (LV : v_in s = true \/ v_wait s = true \/ v_run s = true -> v_live s = true).
  { intros X. destruct (v_live s); auto. destruct (A eq_refl) as (X1 & X2 & X3). rewrite X1, X2, X3 in X. intuition. }
  destruct e.
  - destruct (v_in s && negb (v_wait s) && negb (v_run s)) eqn:E; [|exact SAME].
    assert (E1 : v_in s = true /\ v_wait s = false /\ v_run s = false) by (destruct (v_in s), (v_wait s), (v_run s); auto; discriminate).
    destruct E1 as (E1 & E2 & E3). assert (L : v_live s = true) by auto.
    destruct (v_exit s); eexists; (split; [reflexivity|]); unfold vinv; cbn; rewrite ?E3; (split; [|auto]);
      repeat apply conj; auto; try (intros X; rewrite X in L; discriminate).
  - destruct (v_wait s) eqn:W; [|exact SAME]. assert (L : v_live s = true) by auto. rewrite L. cbn.
    eexists; split; [reflexivity|]. unfold vinv; cbn. rewrite L. split.
    + repeat apply conj; auto; try discriminate.
      * intros X. apply in_app_or in X. destruct X as [X|[X|[]]]; [|discriminate]. specialize (G X). congruence.
      * apply vinv_say; auto.
    + intros _ X. rewrite (B eq_refl) in X. cbn in *. lia.
  - destruct (v_run s) eqn:R; [|exact SAME]. assert (L : v_live s = true) by auto. rewrite L.
    destruct r; unfold v_free; cbn; rewrite ?L.
    + eexists; split; [reflexivity|]. unfold vinv; cbn. split; [|congruence].
      repeat apply conj; auto. apply vinv_gone; auto.
    + destruct (negb (n =? 0) || v_exit s); cbn; rewrite ?L; eexists; (split; [reflexivity|]); unfold vinv; cbn; rewrite ?L; (split; [|cbn; intros; lia]);
        repeat apply conj; auto; try discriminate; try (apply vinv_gone; auto); try (intros X; rewrite <- L; auto).
    + destruct (v_exit s); cbn; rewrite ?L; eexists; (split; [reflexivity|]); unfold vinv; cbn; rewrite ?L; (split; [|cbn; intros; lia]);
        repeat apply conj; auto; try discriminate; try (apply vinv_gone; auto); try (intros X; rewrite <- L; auto).
  - eexists; split; [reflexivity|]. unfold vinv; cbn. split; auto. repeat apply conj; auto. intros X. destruct (A X) as (_ & X2); auto.
  - eexists; split; [reflexivity|]. unfold vinv; cbn. split; auto.
Qed.

Theorem events_safe es : exists s, vrun v_new es = Ok s /\
  (forall a b, v_log s = a ++ VGone :: b -> b = []) /\
  (~ In (VReturn VRaise) es -> v_refs s = b2z (v_live s) + b2z (v_run s)).
Proof.
  assert (K : forall es s0, vinv s0 -> exists s, vrun s0 es = Ok s /\ vinv s /\
    (~ In (VReturn VRaise) es -> v_refs s0 = b2z (v_live s0) + b2z (v_run s0) -> v_refs s = b2z (v_live s) + b2z (v_run s))).
  { clear. induction es as [|e es IH]; intros s0 I; cbn; eauto.
    destruct (vstep_ok s0 e I) as (s1 & E & I1 & X1). rewrite E. cbn.
    destruct (IH s1 I1) as (s & R & I' & X). exists s. split; [exact R|]. split; [exact I'|]. intros N Q. apply X.
    - intros Y. apply N. auto.
    - apply X1; auto. }
  destruct (K es v_new) as (s & R & (_ & _ & _ & H) & X).
  { unfold vinv; cbn. repeat apply conj; auto; try discriminate; try tauto. intros a b E. destruct a; discriminate. }
  exists s. repeat apply conj; auto.
Qed.

Lemma gone_step s e s' : v_in s = false -> v_wait s = false -> v_run s = false -> vstep s e = Ok s' ->
  v_in s' = false /\ v_wait s' = false /\ v_run s' = false /\ v_refs s' = v_refs s /\ v_live s' = v_live s.
Proof.
  intros A B C E. unfold vstep in E. destruct e.
  - rewrite A in E. cbn in E. inversion E; subst; auto.
  - rewrite B in E. inversion E; subst; auto.
  - rewrite C in E. inversion E; subst; auto.
  - inversion E; subst; cbn; auto.
  - inversion E; subst; cbn; auto.
Qed.
Lemma gone_run es : forall s s', v_in s = false -> v_wait s = false -> v_run s = false -> vrun s es = Ok s' -> v_refs s' = v_refs s /\ v_live s' = v_live s.
Proof.
  induction es as [|e es IH]; intros s s' A B C E; cbn in E; [inversion E; subst; auto|].
  destruct (vstep s e) as [s1|] eqn:E1; [|discriminate]. cbn in E.
  destruct (gone_step s e s1 A B C E1) as (A1 & B1 & C1 & D1 & F1). destruct (IH s1 s' A1 B1 C1 E) as [X Y]. split; congruence.
Qed.

(** The ways to cut a list that is given. *)
Ltac cuts fin :=
  repeat match goal with
  | E : _ = ?p ++ _ |- _ =>
      destruct p as [|? p]; cbn in E;
      [first [discriminate E | (injection E; clear E; intros; subst; fin)] | first [discriminate E | injection E as <- E]]
  end.
