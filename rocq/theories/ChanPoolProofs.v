From Verif Require Import Base ChanPoolModel ChanPoolSpec.

Lemma in_use_snoc log o : in_use (log ++ [o]) =
  match o with CGot _ c => c :: in_use log | CReleased c => filter (fun x => negb (x =? c)) (in_use log) | _ => in_use log end.
Proof. unfold in_use. rewrite fold_left_app. reflexivity. Qed.
Lemma in_use_closed d : forall log, in_use (log ++ map CClosed d) = in_use log.
Proof.
  induction d as [|c d IH]; intros log; [now rewrite app_nil_r|]. cbn [map].
  change (CClosed c :: map CClosed d) with ([CClosed c] ++ map CClosed d). rewrite app_assoc, IH, in_use_snoc. reflexivity.
Qed.
Lemma in_snoc {A} (l : list A) x y : In y (l ++ [x]) <-> In y l \/ y = x.
Proof. rewrite in_app_iff. cbn. intuition. Qed.

Definition nobody (log : list cobs) (c : Z) : Prop := ~ In c (in_use log) /\ ~ In (CClosed c) log.
Definition fine (log : list cobs) : Prop := forall a t c b, log = a ++ CGot t c :: b -> nobody a c.
Lemma fine_snoc log o : fine log -> (match o with CGot _ c => nobody log c | _ => True end) -> fine (log ++ [o]).
Proof.
  intros F H a t c b E. destruct b as [|y b] using rev_ind.
  - apply app_inj_tail in E. destruct E as [<- ->]. exact H.
  - rewrite app_comm_cons, app_assoc in E. apply app_inj_tail in E. destruct E as [-> _]. eapply F. reflexivity.
Qed.
Lemma fine_closed d : forall log, fine log -> fine (log ++ map CClosed d).
Proof.
  induction d as [|c d IH]; intros log F; [now rewrite app_nil_r|]. cbn [map].
  change (CClosed c :: map CClosed d) with ([CClosed c] ++ map CClosed d). rewrite app_assoc. apply IH. now apply fine_snoc.
Qed.

Definition call_ok (p : cpool) (g : gstate) : Prop :=
  match g with GHold c | GAppend c => nobody (cp_log p) c /\ c < cp_next p | GCreate => True end.
Record cinv (p : cpool) : Prop := mkCI {
  c_one : cp_calls p = [] \/ exists t g, cp_calls p = [(t, g)] /\ call_ok p g;
  c_busy : forall c, In c (in_use (cp_log p)) -> cp_busy p c = true /\ c < cp_next p;
  c_shut : forall c, In (CClosed c) (cp_log p) -> cp_ready p c = false /\ c < cp_next p;
  c_list : forall c, In c (cp_list p) -> c < cp_next p;
  c_fine : fine (cp_log p)
}.

Lemma call_of_one t0 g p t g' : cp_calls p = [(t0, g)] -> call_of p t = Some g' -> t0 = t /\ g = g'.
Proof. intros E. unfold call_of. rewrite E. cbn. destruct (t0 =? t) eqn:X; [|discriminate]. cbn. intros H. injection H as ->. split; [lia|reflexivity]. Qed.
Lemma call_of_none p t : cp_calls p = [] -> call_of p t = None.
Proof. intros E. unfold call_of. now rewrite E. Qed.
Lemma end_one t0 g t : t0 = t -> end_call [(t0, g)] t = [].
Proof. intros ->. cbn. now rewrite Z.eqb_refl. Qed.

Lemma remove_in ready : forall l n k d, pool_remove ready n l = (k, d) -> (forall c, In c k -> In c l) /\ (forall c, In c d -> In c l /\ ready c = true).
Proof.
  induction l as [|x l IH]; intros n k d H; cbn in H; [injection H as <- <-; cbn; tauto|].
  destruct (n <=? 0); [injection H as <- <-; cbn; tauto|]. destruct (ready x) eqn:R.
  - destruct (pool_remove ready (n - 1) l) as [k1 d1] eqn:P. injection H as <- <-. destruct (IH _ _ _ P) as [A B]. split.
    + intros c C. right. auto.
    + intros c [<-|C]; [split; [now left|exact R]|]. destruct (B _ C). split; [now right|assumption].
  - destruct (pool_remove ready n l) as [k1 d1] eqn:P. injection H as <- <-. destruct (IH _ _ _ P) as [A B]. split.
    + intros c [<-|C]; [now left|right; auto].
    + intros c C. destruct (B _ C). split; [now right|assumption].
Qed.
Lemma in_closed c log d : In (CClosed c) (log ++ map CClosed d) <-> In (CClosed c) log \/ In c d.
Proof. rewrite in_app_iff, in_map_iff. split; [intros [H|(x & E & H)]; [now left|right; congruence]|intros [H|H]; [now left|right; eauto]]. Qed.

Lemma nobody_quiet log c o : nobody log c -> (match o with CGot _ x => x <> c | CClosed x => x <> c | _ => True end) -> nobody (log ++ [o]) c.
Proof.
  intros [A B] H. split.
  - rewrite in_use_snoc. destruct o; try assumption; cbn.
    + intros [X|X]; [congruence|tauto].
    + rewrite filter_In. tauto.
  - rewrite in_snoc. intros [X|X]; [tauto|]. destruct o; congruence.
Qed.

Lemma cstep_inv p e : cinv p -> (match e with KLookup _ _ | KRemove _ => cp_calls p = [] | _ => True end) -> cinv (cstep p e).
Proof.
  intros V SER. pose proof V as [ONE BUSY SHUT LST FINE].
  assert (SAME : forall o, (match o with CGot _ _ | CClosed _ => False | _ => True end) -> forall calls,
            (calls = [] \/ exists t g, calls = [(t, g)] /\ call_ok p g) -> cinv (with_calls p calls [o])).
  { intros o HO calls HC. unfold with_calls. constructor; cbn [cp_calls cp_log cp_busy cp_next cp_ready cp_list].
    - destruct HC as [->|(t & g & -> & G)]; [now left|right; exists t, g; split; [reflexivity|]].
      destruct g as [c| |c]; cbn in *; auto; destruct G as [G1 G2]; (split; [apply nobody_quiet; [exact G1|destruct o; tauto]|exact G2]).
    - intros c H. apply BUSY. rewrite in_use_snoc in H. destruct o; try contradiction; auto. apply filter_In in H. tauto.
    - intros c H. apply SHUT. apply in_snoc in H. destruct H as [H|<-]; [exact H|contradiction].
    - exact LST.
    - apply fine_snoc; [exact FINE|]. destruct o; try contradiction; exact I. }
  destruct e as [t auto_inc|t ok|t|t|c|c|c|n| |c b]; cbn [cstep].
  - rewrite (call_of_none _ _ SER). destruct (find (cp_is_ready p) (cp_list p)) as [c|] eqn:FI.
    + apply find_some in FI. destruct FI as [IN RD]. unfold cp_is_ready in RD. apply andb_true_iff in RD. destruct RD as [R1 R2].
      unfold with_calls. rewrite SER, app_nil_r. constructor; cbn [cp_calls cp_log cp_busy cp_next cp_ready cp_list]; auto.
      right. exists t, (GHold c). split; [reflexivity|]. cbn. split; [|auto]. split.
      * intros X. destruct (BUSY _ X) as [X1 _]. rewrite X1 in R2. discriminate.
      * intros X. destruct (SHUT _ X). congruence.
    + destruct auto_inc; [|apply SAME; [exact I|now left]].
      unfold with_calls. rewrite SER, app_nil_r. constructor; cbn [cp_calls cp_log cp_busy cp_next cp_ready cp_list]; auto.
      right. exists t, GCreate. split; [reflexivity|exact I].
  - destruct (call_of p t) as [g'|] eqn:CO; [|exact V]. destruct ONE as [E|(t0 & g & E & OK)]; [rewrite (call_of_none _ _ E) in CO; discriminate|].
    destruct (call_of_one _ _ _ _ _ E CO) as [-> <-]. destruct g; try exact V. rewrite E, end_one by reflexivity. destruct ok.
    + assert (FR : nobody (cp_log p) (cp_next p)).
      { split; intros X; [destruct (BUSY _ X)|destruct (SHUT _ X)]; lia. }
      constructor; cbn [cp_calls cp_log cp_busy cp_next cp_ready cp_list].
      * right. exists t, (GAppend (cp_next p)). split; [reflexivity|]. cbn. split; [exact FR|lia].
      * intros c H. destruct (BUSY _ H) as [B1 B2]. unfold set_fun. replace (c =? cp_next p) with false by lia. split; [exact B1|lia].
      * intros c H. destruct (SHUT _ H) as [B1 B2]. unfold set_fun. replace (c =? cp_next p) with false by lia. split; [exact B1|lia].
      * intros c H. specialize (LST _ H). lia.
      * exact FINE.
    + apply SAME; [exact I|now left].
  - destruct (call_of p t) as [g'|] eqn:CO; [|exact V]. destruct ONE as [E|(t0 & g & E & OK)]; [rewrite (call_of_none _ _ E) in CO; discriminate|].
    destruct (call_of_one _ _ _ _ _ E CO) as [-> <-]. destruct g as [|  |c]; try exact V. rewrite E, end_one by reflexivity. destruct OK as [NB LT].
    constructor; cbn [cp_calls cp_log cp_busy cp_next cp_ready cp_list]; auto.
    + right. exists t, (GHold c). split; [reflexivity|]. split; assumption.
    + intros x H. apply in_snoc in H. destruct H as [H| ->]; auto.
  - destruct (call_of p t) as [g'|] eqn:CO; [|exact V]. destruct ONE as [E|(t0 & g & E & OK)]; [rewrite (call_of_none _ _ E) in CO; discriminate|].
    destruct (call_of_one _ _ _ _ _ E CO) as [-> <-]. destruct g as [c| |]; try exact V. rewrite E, end_one by reflexivity. destruct OK as [NB LT].
    constructor; cbn [cp_calls cp_log cp_busy cp_next cp_ready cp_list]; auto.
    + intros x H. rewrite in_use_snoc in H. unfold set_fun. destruct (x =? c) eqn:X; [split; [reflexivity|lia]|].
      destruct H as [H|H]; [lia|auto].
    + intros x H. apply in_snoc in H. destruct H as [H|H]; [auto|discriminate].
    + apply fine_snoc; assumption.
  - destruct (existsb (fun x => x =? c) (cp_list p)); [|apply SAME; [exact I|exact ONE]].
    constructor; cbn [cp_calls cp_log cp_busy cp_next cp_ready cp_list]; auto.
    + destruct ONE as [E|(t & g & E & G)]; [now left|right; exists t, g; split; [exact E|]].
      destruct g as [x| |x]; cbn in *; auto; destruct G as [G1 G2]; (split; [apply nobody_quiet; [exact G1|exact I]|exact G2]).
    + intros x H. rewrite in_use_snoc in H. apply filter_In in H. destruct H as [H1 H2]. unfold set_fun.
      replace (x =? c) with false by lia. auto.
    + intros x H. apply in_snoc in H. destruct H as [H|H]; [auto|discriminate].
    + apply fine_snoc; [assumption|exact I].
  - destruct (existsb (fun x => x =? c) (cp_list p) || negb (c <? cp_next p)) eqn:C; [exact V|].
    constructor; cbn [cp_calls cp_log cp_busy cp_next cp_ready cp_list]; auto.
    intros x H. apply in_snoc in H. destruct H as [H| ->]; [auto|]. lia.
  - constructor; cbn [cp_calls cp_log cp_busy cp_next cp_ready cp_list]; auto. intros x H. apply filter_In in H. apply LST. tauto.
  - destruct (pool_remove (cp_is_ready p) n (cp_list p)) as [k d] eqn:P. destruct (remove_in _ _ _ _ _ P) as [K D].
    constructor; cbn [cp_calls cp_log cp_busy cp_next cp_ready cp_list].
    + now left.
    + intros x H. rewrite in_use_closed in H. auto.
    + intros x H. apply in_closed in H. destruct H as [H|H].
      * destruct (SHUT _ H) as [-> ?]. split; [reflexivity|assumption].
      * destruct (D _ H) as [D1 _]. split; [|auto]. replace (existsb (fun y => y =? x) d) with true; [apply andb_false_r|].
        symmetry. apply existsb_exists. exists x. split; [exact H|lia].
    + intros x H. auto.
    + now apply fine_closed.
  - constructor; cbn [cp_calls cp_log cp_busy cp_next cp_ready cp_list].
    + destruct ONE as [E|(t & g & E & G)]; [now left|right; exists t, g; split; [exact E|]].
      destruct g as [x| |x]; cbn in *; auto; destruct G as [G1 G2]; (split; [exact G1|lia]).
    + intros c H. destruct (BUSY _ H) as [B1 B2]. unfold set_fun. replace (c =? cp_next p) with false by lia. split; [exact B1|lia].
    + intros c H. destruct (SHUT _ H) as [B1 B2]. unfold set_fun. replace (c =? cp_next p) with false by lia. split; [exact B1|lia].
    + intros c H. specialize (LST _ H). lia.
    + exact FINE.
  - destruct (existsb (fun o => match o with CClosed x => x =? c | _ => false end) (cp_log p) || negb (c <? cp_next p)) eqn:C; [exact V|].
    apply orb_false_iff in C. destruct C as [C1 C2].
    constructor; cbn [cp_calls cp_log cp_busy cp_next cp_ready cp_list]; auto.
    intros x H. unfold set_fun. destruct (x =? c) eqn:X; [|auto]. exfalso. apply not_true_iff_false in C1. apply C1. apply existsb_exists.
    exists (CClosed x). split; [exact H|exact X].
Qed.
Lemma crun_inv es : forall p, cinv p -> serial p es -> cinv (crun p es).
Proof.
  induction es as [|e es IH]; intros p V S; [exact V|]. destruct S as [S1 S2]. cbn. apply IH; [|exact S2]. now apply cstep_inv.
Qed.
Lemma cp0_inv : cinv cp0.
Proof.
  constructor; cbn.
  - now left.
  - tauto.
  - tauto.
  - tauto.
  - intros a t c b H. destruct a; discriminate.
Qed.
Lemma chan_exclusive es : serial cp0 es -> exclusive (cp_log (crun cp0 es)) /\ not_closed (cp_log (crun cp0 es)).
Proof.
  intros S. pose proof (c_fine _ (crun_inv _ _ cp0_inv S)) as F. split; intros a t c b E; apply (F _ _ _ _ E).
Qed.

(** A call that is not disturbed gets the first channel that is ready. *)
Lemma chan_available p t auto_inc c : cp_calls p = [] -> find (cp_is_ready p) (cp_list p) = Some c ->
  cp_log (crun p [KLookup t auto_inc; KMark t]) = cp_log p ++ [CGot t c] /\ cp_ready p c = true /\ cp_busy p c = false /\ In c (cp_list p).
Proof.
  intros E F. pose proof (find_some _ _ F) as [IN RD]. apply andb_true_iff in RD. destruct RD as [R1 R2].
  split; [|split; [exact R1|split; [now destruct (cp_busy p c)|exact IN]]].
  cbn [crun fold_left cstep]. rewrite (call_of_none _ _ E), F. unfold call_of. cbn. rewrite Z.eqb_refl. cbn. now rewrite app_nil_r.
Qed.
Lemma chan_released p c : In c (cp_list p) -> cp_ready p c = true -> cp_is_ready (cstep p (KRelease c)) c = true.
Proof.
  intros I R. cbn [cstep]. replace (existsb (fun x => x =? c) (cp_list p)) with true.
  - unfold cp_is_ready. cbn. unfold set_fun. now rewrite Z.eqb_refl, R.
  - symmetry. apply existsb_exists. exists c. split; [exact I|lia].
Qed.

(** Executions that go wrong. *)
Lemma both_witness : exists es t u c, t <> u /\ cp_log (crun cp0 es) = [CGot t c; CGot u c].
Proof. exists [KNew; KAttach 0; KLookup 1 false; KLookup 2 false; KMark 1; KMark 2], 1, 2, 0. split; [discriminate|reflexivity]. Qed.
Lemma shut_witness : exists es t c, cp_log (crun cp0 es) = [CClosed c; CGot t c].
Proof. exists [KNew; KAttach 0; KLookup 1 false; KRemove 1; KMark 1], 1, 0. reflexivity. Qed.
Lemma lost_witness : exists es c t, cp_log (crun cp0 es) = [CGot t c; CReleased c; CNone t] /\
  cp_list (crun cp0 es) = [c] /\ cp_ready (crun cp0 es) c = true.
Proof.
  exists [KNew; KAttach 0; KLookup 1 false; KMark 1; KDetach 0; KRelease 0; KAttach 0; KLookup 1 false], 0, 1. repeat split.
Qed.

(** ** Identifiers of pools *)
Definition pi_inv (s : pids) : Prop :=
  (forall t i, pi_of s t = Some (IGot i) -> i <= pi_count s) /\
  (forall t u i, pi_of s t = Some (IGot i) -> pi_of s u = Some (IGot i) -> t = u) /\
  (forall t u, (exists v, pi_of s t = Some (IRead v)) \/ pi_of s t = Some IWrote ->
               (exists v, pi_of s u = Some (IRead v)) \/ pi_of s u = Some IWrote -> t = u) /\
  (forall t v, pi_of s t = Some (IRead v) -> v = pi_count s) /\
  (forall t u i, pi_of s t = Some IWrote -> pi_of s u = Some (IGot i) -> i < pi_count s).
Lemma pi_set c t x l u : pi_of (mkPI c ((t, x) :: l)) u = if t =? u then Some x else pi_of (mkPI c l) u.
Proof. unfold pi_of. cbn. destruct (t =? u); reflexivity. Qed.
Lemma pi_cnt c c' l u : pi_of (mkPI c l) u = pi_of (mkPI c' l) u.
Proof. reflexivity. Qed.
Lemma pi_step_inv s e s' : pi_inv s ->
  (match e with QRead _ => forall t, pi_of s t = None \/ exists i, pi_of s t = Some (IGot i) | _ => True end) ->
  pistep s e = Ok s' -> pi_inv s'.
Proof.
  intros V ALONE ST. pose proof V as (H1 & H2 & H3 & H4 & H5). destruct s as [c l]. cbn [pi_count pi_thr] in *. destruct e as [t|t|t]; cbn [pistep pi_count pi_thr] in ST.
  - destruct (pi_of (mkPI c l) t) eqn:P; injection ST as <-; [exact V|]. unfold pi_inv. cbn [pi_count]. repeat split.
    + intros u i. rewrite pi_set. destruct (t =? u); [discriminate|apply H1].
    + intros u w i. rewrite !pi_set. destruct (t =? u), (t =? w); try discriminate. apply H2.
    + assert (NO : forall u, (exists v, pi_of (mkPI c l) u = Some (IRead v)) \/ pi_of (mkPI c l) u = Some IWrote -> False).
      { intros u A. destruct (ALONE u) as [N|[i N]]; destruct A as [[v A]|A]; congruence. }
      intros u w. rewrite !pi_set. destruct (t =? u) eqn:X, (t =? w) eqn:Y; intros A B; [lia|exfalso..].
      * now apply NO in B.
      * now apply NO in A.
      * now apply NO in A.
    + intros u v. rewrite pi_set. destruct (t =? u); [intros X; congruence|apply H4].
    + intros u w i. rewrite !pi_set. destruct (t =? u), (t =? w); try discriminate. apply H5.
  - destruct (pi_of (mkPI c l) t) as [[v| |i]|] eqn:P; try (injection ST as <-; exact V).
    destruct (v + 1 <? two31); [|discriminate]. injection ST as <-. assert (v = c) by (eapply H4; eassumption). subst v.
    assert (ONLY : forall u, (exists v, pi_of (mkPI c l) u = Some (IRead v)) \/ pi_of (mkPI c l) u = Some IWrote -> t = u).
    { intros u A. apply H3; [left; eauto|exact A]. }
    unfold pi_inv. cbn [pi_count]. repeat split.
    + intros u i. rewrite pi_set, (pi_cnt _ c). destruct (t =? u); [discriminate|]. intros A. apply H1 in A. lia.
    + intros u w i. rewrite !pi_set, !(pi_cnt (c + 1) c). destruct (t =? u), (t =? w); try discriminate. apply H2.
    + intros u w. rewrite !pi_set, !(pi_cnt (c + 1) c). destruct (t =? u) eqn:X, (t =? w) eqn:Y; intros A B; [lia|..].
      * apply ONLY in B. lia.
      * apply ONLY in A. lia.
      * apply ONLY in A. lia.
    + intros u v. rewrite pi_set, (pi_cnt _ c). destruct (t =? u) eqn:X; [discriminate|]. intros A. assert (t = u) by (apply ONLY; left; eauto). lia.
    + intros u w i. rewrite !pi_set, !(pi_cnt (c + 1) c). destruct (t =? u) eqn:X, (t =? w); try discriminate.
      * intros _ A. apply H1 in A. lia.
      * intros A. assert (t = u) by (apply ONLY; now right). lia.
  - destruct (pi_of (mkPI c l) t) as [[v| |i]|] eqn:P; injection ST as <-; try exact V.
    unfold pi_inv. cbn [pi_count].
    assert (ONLY : forall u, (exists v, pi_of (mkPI c l) u = Some (IRead v)) \/ pi_of (mkPI c l) u = Some IWrote -> t = u).
    { intros u A. apply H3; [now right|exact A]. }
    repeat split.
    + intros u i. rewrite pi_set. destruct (t =? u); [intros X; injection X as <-; lia|apply H1].
    + intros u w i. rewrite !pi_set. destruct (t =? u) eqn:X, (t =? w) eqn:Y; intros A B; [lia|..].
      * injection A as <-. specialize (H5 _ _ _ P B). lia.
      * injection B as <-. specialize (H5 _ _ _ P A). lia.
      * eapply H2; eassumption.
    + intros u w. rewrite !pi_set. destruct (t =? u) eqn:X, (t =? w) eqn:Y; intros A B; [lia|..].
      * apply ONLY in B. lia.
      * apply ONLY in A. lia.
      * apply H3; assumption.
    + intros u v. rewrite pi_set. destruct (t =? u) eqn:X; [discriminate|]. apply H4.
    + intros u w i. rewrite !pi_set. destruct (t =? u) eqn:X, (t =? w); try discriminate.
      * intros A. assert (t = u) by (apply ONLY; now right). lia.
      * apply H5.
Qed.
Lemma pool_ids es : forall s, pi_inv s -> in_turn s es -> forall s', pirun s es = Ok s' -> pi_inv s'.
Proof.
  induction es as [|e es IH]; intros s V T s' H; cbn in *; [now injection H as <-|]. destruct T as [T1 T2].
  destruct (pistep s e) as [s1|] eqn:E; [|discriminate]. cbn in H. eapply (IH s1); [eapply pi_step_inv; eassumption|now apply T2|exact H].
Qed.
Lemma pool_ids_unique es s t u i : in_turn (mkPI 0 []) es -> pirun (mkPI 0 []) es = Ok s -> id_of s t = Some i -> id_of s u = Some i -> t = u.
Proof.
  intros T H A B. assert (V : pi_inv s).
  { eapply pool_ids; [|exact T|exact H]. unfold pi_inv, pi_of. cbn. repeat split; try discriminate. intros t0 u0 [[v X]|X]; discriminate. }
  unfold id_of in *. destruct V as (_ & H2 & _). destruct (pi_of s t) as [[| |]|] eqn:X; try discriminate. destruct (pi_of s u) as [[| |]|] eqn:Y; try discriminate.
  injection A as ->. injection B as ->. eapply H2; eassumption.
Qed.
Lemma pool_ids_witness : exists es s t u i, pirun (mkPI 0 []) es = Ok s /\ t <> u /\ id_of s t = Some i /\ id_of s u = Some i.
Proof.
  exists [QRead 1; QRead 2; QWrite 1; QReturn 1; QWrite 2; QReturn 2]. eexists. exists 1, 2, 1.
  split; [vm_compute; reflexivity|]. split; [discriminate|]. split; reflexivity.
Qed.
