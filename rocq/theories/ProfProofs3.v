(** Where the handlers that are called come from. *)
From Verif Require Import Base HdrModel HdrProofs ProfModel ProfSpec ProfProofs ProfProofs2.

Section Origin.
Variable all : list pev.
Definition o_fn (u : Z) (sel : args -> option Z) (h : fn) : Prop :=
  match h with FApp f => registered_with all u (fun a => sel a = Some f) | FDefault => True end.
Definition o_d (u : Z) (sel : args -> Z) (d : Z) : Prop := d = 0 \/ registered_with all u (fun a => sel a = d).
Definition o_ext (u : Z) (e : option Z) : Prop := match e with Some f => exists t d', In (ECall t (CExt u (Some f) d')) all | None => True end.
Definition o_ext_d (u d : Z) : Prop := d = 0 \/ exists t f', In (ECall t (CExt u f' d)) all.
Definition o_recv (u : Z) (e : option Z) : Prop :=
  match e with
  | Some f => registered_with all u (fun a => a_recv a = Some f) \/ exists t d', In (ECall t (CSetRecv u (Some f) d')) all
  | None => True
  end.
Definition o_recv_d (u d : Z) : Prop :=
  d = 0 \/ registered_with all u (fun a => a_recv_d a = d) \/ exists t f', In (ECall t (CSetRecv u f' d)) all.
Definition gp (w : prof) : Prop :=
  let u := p_uri w in
  o_fn u a_start (p_start w) /\ o_d u a_start_d (p_start_d w) /\ o_ext u (p_ext w) /\ o_ext_d u (p_ext_d w) /\
  o_fn u a_close (p_close w) /\ o_d u a_close_d (p_close_d w) /\ o_recv u (p_recv w) /\ o_recv_d u (p_recv_d w).
Definition gph (u : Z) (p : ph) : Prop :=
  match p with
  | RUpd _ _ a => exists t, In (ECall t (CRegister u a)) all
  | XSet _ f d => exists t, In (ECall t (CExt u f d)) all
  | XSetD _ d => exists t f, In (ECall t (CExt u f d)) all
  | VSet _ f d => exists t, In (ECall t (CSetRecv u f d)) all
  | VSetD _ d => exists t f, In (ECall t (CSetRecv u f d)) all
  | S2 _ e => o_ext u e
  | S3 _ e d => o_ext u e /\ o_ext_d u d
  | S4 _ e d st => o_ext u e /\ o_ext_d u d /\ o_fn u a_start st
  | K2 _ f => o_fn u a_close f
  | F3 _ f => o_recv u (Some f)
  | _ => True
  end.
Definition live (s : pst) (i : nat) (w : prof) : Prop := nth_error (s_heap s) i = Some (Some w).
Definition phok (s : pst) (p : ph) : Prop := forall i, idx p = Some i -> (i < length (s_heap s))%nat /\ forall w, live s i w -> gph (p_uri w) p.
Definition ook (o : pobs) : Prop := match o with OCall t u x => origin all u x | _ => True end.
Definition org (s : pst) : Prop :=
  (forall i w, live s i w -> gp w) /\
  (forall u i w, In (u, i) (s_tab s) -> live s i w -> p_uri w = u) /\
  (forall t p, In (t, p) (s_thr s) -> phok s p) /\
  (forall g, s_glob s = Some g -> In (EGlobal (Some g)) all) /\
  (forall o, In o (s_log s) -> ook o) /\
  (forall i, In i (s_list s) -> (i < length (s_heap s))%nat).

Lemma org_step : forall s s', org s -> length (s_heap s') = length (s_heap s) ->
  (forall i w', live s' i w' -> exists w, live s i w /\ p_uri w' = p_uri w /\ gp w') -> incl (s_tab s') (s_tab s) -> s_glob s' = s_glob s ->
  (forall t p, In (t, p) (s_thr s') -> In (t, p) (s_thr s) \/ phok s p) -> (forall o, In o (s_log s') -> In o (s_log s) \/ ook o) ->
  incl (s_list s') (s_list s) -> org s'.
Proof.
  intros s s' (G & T & P & Gl & L & Li) Ln H It Eg Ht Hl Il. split; [|split; [|split; [|split; [|split]]]].
  - intros i w K. destruct (H i w K) as (? & ? & ? & ?). auto.
  - intros u i w K V. destruct (H i w V) as (x & X & E & _). rewrite E. eapply T; eauto.
  - intros t p K. assert (phok s p) by (destruct (Ht t p K); eauto). intros i E. rewrite Ln. destruct (H0 i E) as (A & B). split; auto.
    intros w V. destruct (H i w V) as (x & X & -> & _). auto.
  - intros g E. rewrite Eg in E. auto.
  - intros o K. destruct (Hl o K); auto.
  - intros i K. rewrite Ln. auto.
Qed.
(* the heap with a changed profile *)
Lemma live_upd : forall s i q j w', nth_error (upd_nth (s_heap s) i q) j = Some (Some w') -> (j = i /\ q = Some w' /\ (i < length (s_heap s))%nat) \/ live s j w'.
Proof.
  intros s i q j w' H. destruct (Nat.eq_dec i j) as [->|D].
  - destruct (Nat.lt_ge_cases j (length (s_heap s))) as [A|A].
    + rewrite nth_upd_same in H by auto. left. repeat split; auto. congruence.
    + apply nth_lt in H. rewrite upd_nth_length in H. lia.
  - rewrite nth_upd_other in H by auto. right. exact H.
Qed.
Lemma heap_same : forall s, org s -> forall i w', live s i w' -> exists w, live s i w /\ p_uri w' = p_uri w /\ gp w'.
Proof. intros s (G & _) i w H. exists w. repeat split; auto; apply (G _ _ H). Qed.
Lemma heap_write : forall s i w f, org s -> live s i w -> p_uri (f w) = p_uri w -> gp (f w) ->
  forall j w', nth_error (upd_nth (s_heap s) i (Some (f w))) j = Some (Some w') -> exists x, live s j x /\ p_uri w' = p_uri x /\ gp w'.
Proof.
  intros s i w f O V E G j w' H. apply live_upd in H. destruct H as [(-> & [= <-] & _)|H]; [exists w; auto|]. apply heap_same; auto.
Qed.
Lemma heap_drop : forall s i w, org s -> live s i w ->
  forall j w', nth_error (upd_nth (s_heap s) i (if p_ref w - 1 =? 0 then None else Some (set_ref (p_ref w - 1) w))) j = Some (Some w') ->
  exists x, live s j x /\ p_uri w' = p_uri x /\ gp w'.
Proof.
  intros s i w O V j w' H. destruct (p_ref w - 1 =? 0).
  - apply live_upd in H. destruct H as [(_ & H & _)|H]; [discriminate|]. apply heap_same; auto.
  - eapply (heap_write s i w (set_ref (p_ref w - 1))); eauto. exact (proj1 O _ _ V).
Qed.
Lemma thr_goes : forall l t q (s : pst), phok s q -> forall u p, In (u, p) ((t, q) :: others l t) -> In (u, p) l \/ phok s p.
Proof. intros l t q s H u p [[= <- <-]|K]; auto. apply others_in in K. tauto. Qed.
Lemma thr_ends : forall l t (s : pst) u p, In (u, p) (others l t) -> In (u, p) l \/ phok s p.
Proof. intros l t s u p K. apply others_in in K. tauto. Qed.
Lemma log_add : forall l o, ook o -> forall x, In x (l ++ [o]) -> In x l \/ ook x.
Proof. intros l o H x K. apply in_app_or in K. destruct K as [K|[<-|[]]]; auto. Qed.
Lemma log_same : forall (l : list pobs) x, In x l -> In x l \/ ook x.
Proof. auto. Qed.

Ltac hw w f := eapply (heap_write _ _ w f); [eassumption|eassumption|reflexivity|].
Ltac gpx := match goal with G : gp _ |- gp _ => let a := fresh in
   destruct G as (? & ? & ? & ? & ? & ? & ? & ?); unfold gp; cbn; repeat (split; [try assumption|]); try assumption end.

Lemma adv_org : forall s t p r s', org s -> phase_of s t = Some p -> adv s t p r = Ok s' -> org s'.
Proof.
  intros s t p r s' O P H. pose proof (proj1 (proj2 (proj2 O)) _ _ (phase_in _ _ _ P)) as PO.
  assert (Q : forall i w, idx p = Some i -> live s i w -> gph (p_uri w) p /\ gp w /\ (i < length (s_heap s))%nat).
  { intros i w E V. destruct (PO i E) as (A & B). repeat split; auto; apply (proj1 O _ _ V). }
  assert (go : forall q h o, length h = length (s_heap s) ->
      (forall j w', nth_error h j = Some (Some w') -> exists x, live s j x /\ p_uri w' = p_uri x /\ gp w') ->
      phok s q -> (forall x, In x o -> ook x) -> org (see (goes (put_heap s h) t q) o)).
  { intros q h o Ln Hh Hq Ho. apply (org_step s); auto; try (intros x X; exact X).
    - cbn. fold (others (s_thr s) t). apply thr_goes. auto.
    - cbn. intros x X. apply in_app_or in X. destruct X; auto. }
  assert (en : forall h k o, length h = length (s_heap s) ->
      (forall j w', nth_error h j = Some (Some w') -> exists x, live s j x /\ p_uri w' = p_uri x /\ gp w') ->
      (forall x, In x o -> ook x) -> org (see (ends (put_lock (put_heap s h) k) t) o)).
  { intros h k o Ln Hh Ho. apply (org_step s); auto; try (intros x X; exact X).
    - cbn. fold (others (s_thr s) t). apply thr_ends.
    - cbn. intros x X. apply in_app_or in X. destruct X; auto. }
  assert (see0 : forall x, see x [] = x) by (intros x; destruct x; unfold see; cbn; rewrite app_nil_r; auto).
  assert (lk : forall x, put_lock x (s_lock x) = x) by (intros x; destruct x; auto).
  assert (one : forall t u x, origin all u x -> forall y, In y [OCall t u x] -> ook y) by (intros ? ? ? ? y [<-|[]]; auto).
  assert (ans : forall t b y, In y [OAns t b] -> ook y) by (intros ? ? y [<-|[]]; exact Logic.I).
  assert (nil : forall y, In y [] -> ook y) by (intros y []).
  assert (mv : forall q o, phok s q -> (forall x, In x o -> ook x) -> org (see (goes s t q) o))
    by (intros q o A B; pose proof (go q (s_heap s) o eq_refl (heap_same s O) A B) as X; rewrite put_heap_id in X; exact X).
  assert (fi : forall o, (forall x, In x o -> ook x) -> org (see (ends s t) o))
    by (intros o B; pose proof (en (s_heap s) (s_lock s) o eq_refl (heap_same s O) B) as X; rewrite put_heap_id, lk in X; exact X).
  assert (pk : forall q, (forall i, idx q = Some i -> idx p = Some i) -> (forall i w, idx p = Some i -> live s i w -> gph (p_uri w) q) -> phok s q)
    by (intros q E A i I; destruct (PO i (E i I)); split; auto; intros w V; apply (A i w); auto).
  destruct p; cbn -[write unref goes ends see put_lock] in H.
  - assert (W : forall f, (forall w, live s i w -> gp (f w)) -> (forall w, p_uri (f w) = p_uri w) -> forall w, live s i w ->
        forall j w', nth_error (upd_nth (s_heap s) i (Some (f w))) j = Some (Some w') -> exists x, live s j x /\ p_uri w' = p_uri x /\ gp w')
      by (intros f A B w V; apply heap_write; auto).
    assert (N : forall m, phok s (RUpd i m a)) by (intros m; apply pk; auto; intros i0 w [= <-] V; apply (Q i w); auto).
    assert (U : forall w, live s i w -> gp w /\ exists t, In (ECall t (CRegister (p_uri w) a)) all) by (intros w V; destruct (Q i w eq_refl V) as (A & B & _); auto).
    assert (F : forall w, live s i w -> o_fn (p_uri w) a_start (or_default (a_start a)) /\ o_d (p_uri w) a_start_d (a_start_d a) /\
       o_fn (p_uri w) a_close (or_default (a_close a)) /\ o_d (p_uri w) a_close_d (a_close_d a) /\ o_recv (p_uri w) (a_recv a) /\ o_recv_d (p_uri w) (a_recv_d a)).
    { intros w V. destruct (U w V) as (_ & v & I). unfold o_fn, o_d, o_recv, o_recv_d, or_default, registered_with.
      repeat split; try (right; exists v, a; auto; fail); try (right; left; exists v, a; auto; fail);
        [destruct (a_start a) eqn:E|destruct (a_close a) eqn:E|destruct (a_recv a) eqn:E]; auto; [| |left]; exists v, a; auto. }
    destruct k as [|[|[|[|[|k]]]]]; mon; injection H as <-;
      [rewrite <- (see0 (goes _ _ _)); eapply go; [rewrite upd_nth_length; auto|idtac|apply N|exact nil] ..|
       rewrite <- (lk (put_heap _ _)); eapply en; [rewrite upd_nth_length; auto|idtac|apply ans]];
      (apply W; auto; intros x V; destruct (F x V) as (? & ? & ? & ? & ? & ?); destruct (U x V) as (G & _); gpx).
  - mon. injection H as <-. rewrite <- (see0 (goes _ _ _)). eapply go; rewrite ?upd_nth_length; auto; try apply ans.
    + hw w (set_ext f). destruct (Q i w eq_refl D) as ((v & I) & G & _). gpx. unfold o_ext. destruct f; auto. exists v, d. auto.
    + apply pk; auto. intros i0 x [= <-] V. destruct (Q i x eq_refl V) as ((v & I) & _). exists v, f. auto.
  - mon. injection H as <-. eapply en; rewrite ?upd_nth_length; auto; try apply ans.
    hw w (set_ext_d d). destruct (Q i w eq_refl D) as ((v & f & I) & G & _). gpx. right. exists v, f. auto.
  - mon. injection H as <-. rewrite <- (see0 (goes _ _ _)). eapply go; rewrite ?upd_nth_length; auto; try apply ans.
    + hw w (set_recv f). destruct (Q i w eq_refl D) as ((v & I) & G & _). gpx. unfold o_recv. destruct f; auto. right. exists v, d. auto.
    + apply pk; auto. intros i0 x [= <-] V. destruct (Q i x eq_refl V) as ((v & I) & _). exists v, f. auto.
  - mon. injection H as <-. eapply en; rewrite ?upd_nth_length; auto; try apply ans.
    hw w (set_recv_d d). destruct (Q i w eq_refl D) as ((v & f & I) & G & _). gpx. right. right. exists v, f. auto.
  - mon. injection H as <-. eapply en; rewrite ?upd_nth_length; auto; try apply ans. eapply heap_drop; eauto.
  - mon. injection H as <-. rewrite <- (see0 (goes _ _ _)). eapply mv; auto; try apply ans. apply pk; auto. intros i0 x [= <-] V. unfold live in V. rewrite D in V. injection V as <-.
    destruct (Q i w eq_refl D) as (_ & G & _). apply G.
  - mon. injection H as <-. rewrite <- (see0 (goes _ _ _)). eapply mv; auto; try apply ans. apply pk; auto. intros i0 x [= <-] V. unfold live in V. rewrite D in V. injection V as <-.
    destruct (Q i w eq_refl D) as (A & G & _). split; [exact A|apply G].
  - mon. injection H as <-. rewrite <- (see0 (goes _ _ _)). eapply mv; auto; try apply ans. apply pk; auto. intros i0 x [= <-] V. unfold live in V. rewrite D in V. injection V as <-.
    destruct (Q i w eq_refl D) as (A & G & _). destruct A as (A1 & A2). split; [exact A1|]. split; [exact A2|apply G].
  - assert (K : phok s (SRun i)) by (apply pk; auto; intros; exact Logic.I).
    destruct e; [|destruct st; [destruct (s_glob s) as [(?, ?)|] eqn:EG|]]; mon; injection H as <-; eapply mv; auto; try apply ans; apply one;
      destruct (Q i w eq_refl D) as ((A1 & A2 & A3) & G & _).
    + split; auto.
    + apply O. auto.
    + split; [exact Logic.I|]. apply G.
    + split; [exact A3|]. apply G.
  - mon. injection H as <-. rewrite <- (lk (put_heap _ _)). eapply en; rewrite ?upd_nth_length; auto; try apply ans. eapply heap_drop; eauto.
  - mon. injection H as <-. rewrite <- (see0 (goes _ _ _)). eapply mv; auto; try apply ans. apply pk; auto. intros i0 x [= <-] V. unfold live in V. rewrite D in V. injection V as <-.
    destruct (Q i w eq_refl D) as (_ & G & _). apply G.
  - mon. injection H as <-. eapply mv; auto; try apply ans; [apply pk; auto; intros; exact Logic.I|]. apply one. destruct (Q i w eq_refl D) as (A & G & _). split; [exact A|apply G].
  - mon. injection H as <-. rewrite <- (lk (put_heap _ _)). eapply en; rewrite ?upd_nth_length; auto; try apply ans. eapply heap_drop; eauto.
  - mon. destruct (p_recv w); mon; injection H as <-.
    + eapply mv; auto; try apply ans; apply pk; auto; intros; exact Logic.I.
    + rewrite <- (lk (put_heap _ _)). eapply en; rewrite ?upd_nth_length; auto; try apply ans. eapply heap_drop; eauto.
  - mon. destruct (p_recv w) eqn:E; mon; injection H as <-.
    + rewrite <- (see0 (goes _ _ _)). eapply mv; auto; try apply ans. apply pk; auto. intros i0 x [= <-] V. unfold live in V. rewrite D in V. injection V as <-.
      destruct (Q i w eq_refl D) as (_ & G & _). assert (X : o_recv (p_uri w) (p_recv w)) by apply G. rewrite E in X. exact X.
    + rewrite <- (lk (put_heap _ _)). eapply en; rewrite ?upd_nth_length; auto; try apply ans; [eapply heap_drop; eauto|]. intros y [<-|[]]. exact Logic.I.
  - mon. injection H as <-. eapply mv; auto; try apply ans; [apply pk; auto; intros; exact Logic.I|]. apply one. destruct (Q i w eq_refl D) as (A & G & _). split; [exact A|apply G].
  - mon. injection H as <-. rewrite <- (see0 (ends _ _)), <- (lk (put_heap _ _)). eapply en; rewrite ?upd_nth_length; auto; try apply ans. eapply heap_drop; eauto.
  - mon. injection H as <-. apply fi; apply ans.
  - mon. injection H as <-. apply fi; apply ans.
  - mon. injection H as <-. rewrite <- (lk (put_heap _ _)). eapply en; rewrite ?upd_nth_length; auto; try apply ans. eapply heap_drop; eauto.
  - destruct (nth_error (s_list s) k) as [j|] eqn:E; injection H as <-.
    + rewrite <- (see0 (goes _ _ _)). eapply mv; auto; try apply ans. intros i [= <-]. split; [|intros; exact Logic.I]. apply O. apply nth_error_In in E. auto.
    + apply fi. intros y [<-|[]]. exact Logic.I.
  - mon. injection H as <-. eapply mv; auto; try apply ans; [apply pk; [discriminate|intros; exact Logic.I]|]. intros y [<-|[]]. exact Logic.I.
Qed.

Lemma remove_incl : forall l i, incl (remove_ptr l i) l.
Proof.
  induction l as [|x l IH]; intros i y H; cbn in *; [contradiction|]. destruct (Nat.eqb x i); [right; auto|]. destruct H as [H|H]; [left; auto|right; apply (IH i); auto].
Qed.
Lemma enlist_org : forall s u p o, org s -> refs s -> gp p -> p_uri p = u -> ook o -> org (see (enlist s u p) [o]).
Proof.
  intros s u p o (G & T & P & Gl & L & Li) R Gp U Oo. unfold org, see, enlist, live, phok; cbn.
  assert (sp : forall i w, nth_error (s_heap s ++ [Some p]) i = Some (Some w) -> (i = length (s_heap s) /\ w = p) \/ (live s i w /\ (i < length (s_heap s))%nat)).
  { intros i w H. destruct (Nat.lt_ge_cases i (length (s_heap s))) as [A|A].
    - rewrite nth_error_app1 in H by auto. right. auto.
    - pose proof (nth_lt _ _ _ _ H) as B. rewrite app_length in B. cbn in B. assert (i = length (s_heap s)) by lia. subst i.
      rewrite nth_error_app2, Nat.sub_diag in H by lia. cbn in H. left. split; congruence. }
  split; [|split; [|split; [|split; [|split]]]].
  - intros i w H. destruct (sp i w H) as [(_ & ->)|(H' & _)]; auto. apply (G i w H').
  - intros v i w K H. apply in_app_or in K. destruct (sp i w H) as [(-> & ->)|(H' & B)].
    + destruct K as [K|[K|[]]]; [|congruence]. exfalso. destruct (tab_live s (length (s_heap s)) R) as (x & X).
      * apply in_map_iff. exists (v, length (s_heap s)). auto.
      * apply nth_lt in X. lia.
    + destruct K as [K|[K|[]]]; [eapply T; eauto|]. injection K as _ <-. lia.
  - intros t q K i E. destruct (P t q K i E) as (A & B). split; [rewrite app_length; lia|]. intros w H.
    destruct (sp i w H) as [(-> & _)|(H' & _)]; [lia|auto].
  - auto.
  - intros x X. apply in_app_or in X. destruct X as [X|[<-|[]]]; auto.
  - intros i K. rewrite app_length. cbn. apply in_app_or in K. destruct K as [K|[<-|[]]]; [apply Li in K|]; lia.
Qed.
Lemma begin_org : forall s t c s', org s -> refs s -> In (ECall t c) all -> phase_of s t = None -> begin s t c = Ok s' -> org s'.
Proof.
  intros s t c s' O R Ic P H.
  assert (go : forall q h k o, length h = length (s_heap s) ->
      (forall j w', nth_error h j = Some (Some w') -> exists x, live s j x /\ p_uri w' = p_uri x /\ gp w') ->
      phok s q -> (forall x, In x o -> ook x) -> org (see (goes (put_lock (put_heap s h) k) t q) o)).
  { intros q h k o Ln Hh Hq Ho. apply (org_step s); auto; try (intros x X; exact X).
    - cbn. fold (others (s_thr s) t). apply thr_goes. auto.
    - cbn. intros x X. apply in_app_or in X. destruct X; auto. }
  assert (see0 : forall x, see x [] = x) by (intros x; destruct x; unfold see; cbn; rewrite app_nil_r; auto).
  assert (lk : forall x, put_lock x (s_lock x) = x) by (intros x; destruct x; auto).
  assert (nil : forall y, In y [] -> ook y) by (intros y []).
  assert (mv : forall q k, phok s q -> org (goes (put_lock s k) t q))
    by (intros q k A; pose proof (go q (s_heap s) k [] eq_refl (heap_same s O) A nil) as X; rewrite put_heap_id, see0 in X; exact X).
  assert (an : forall b, org (see s [OAns t b])).
  { intros b. apply (org_step s); auto; try (intros x X; exact X); [exact (heap_same s O)|]. cbn. intros x X. apply in_app_or in X. destruct X as [X|[<-|[]]]; auto. right. exact Logic.I. }
  assert (LK : forall u i, lookup s u = Some i -> (i < length (s_heap s))%nat /\ forall w, live s i w -> p_uri w = u).
  { intros u i L. split; [destruct (tab_live s i R (lookup_snd _ _ _ L)) as (w & W); apply nth_lt in W; auto|]. intros w W. apply lookup_in in L. eapply (proj1 (proj2 O)); eauto. }
  destruct c; cbn -[goes see enlist get_and_ref put_lock] in H;
    try (match type of H with context [free_lock s] => destruct (free_lock s) eqn:FL; [|injection H as <-; auto] end);
    try (match type of H with (let! _ := get_and_ref s ?u in _) = _ =>
           destruct (get_and_ref s u) as [(o, s1)|] eqn:G; [|discriminate]; cbn -[goes see] in H;
           destruct (get_and_ref_is s u o s1 R G) as [(-> & _ & ->)|(i & w & -> & L & D & _ & ->)]; injection H as <-; [apply an|];
           rewrite <- (see0 (goes _ _ _)), <- (lk (put_heap _ _)); apply go; rewrite ?upd_nth_length; auto;
           [apply (heap_write s i w (set_ref (p_ref w + 1))); auto; exact (proj1 O _ _ D)|];
           intros j [= <-]; destruct (LK _ _ L) as (LA & _); split; [exact LA|intros; exact Logic.I] end);
    try (match type of H with context [lookup s ?u] => destruct (lookup s u) as [i|] eqn:L end).
  - injection H as <-. rewrite <- (lk s). apply mv. intros j [= <-]. destruct (LK _ _ L) as (A & B). split; auto. intros w W. rewrite (B w W). exists t. auto.
  - injection H as <-. apply enlist_org; auto; [|exact Logic.I]. unfold gp; cbn. unfold o_fn, o_d, o_ext, o_ext_d, o_recv, o_recv_d, or_default, registered_with.
    repeat split; auto; try (right; exists t, a; auto; fail); try (right; left; exists t, a; auto; fail);
      [destruct (a_start a) eqn:E|destruct (a_close a) eqn:E|destruct (a_recv a) eqn:E]; auto; [| |left]; exists t, a; auto.
  - injection H as <-. apply mv. intros j [= <-]. destruct (LK _ _ L) as (A & B). split; auto. intros w W. rewrite (B w W). exists t. auto.
  - injection H as <-. apply enlist_org; auto; [|exact Logic.I]. unfold gp; cbn. unfold o_fn, o_d, o_ext, o_ext_d, o_recv, o_recv_d, or_default, registered_with.
    repeat split; auto; [destruct f; auto; exists t, d; auto|right; exists t, f; auto].
  - injection H as <-. apply mv. intros j [= <-]. destruct (LK _ _ L) as (A & B). split; auto. intros w W. rewrite (B w W). exists t. auto.
  - injection H as <-. apply an.
  - mon. injection H as <-. apply (org_step s); auto.
    + exact (heap_same s O).
    + intros x X. cbn in X. apply filter_In in X. tauto.
    + cbn. fold (others (s_thr s) t). apply thr_goes. intros j [= <-]. destruct (LK _ _ L) as (A & _). split; [exact A|intros; exact Logic.I].
    + cbn. apply remove_incl.
  - injection H as <-. apply an.
  - injection H as <-. apply an.
  - injection H as <-. apply an.
  - injection H as <-. rewrite <- (lk s). apply mv. intros j [= <-]. destruct (LK _ _ L) as (A & _). split; [exact A|intros; exact Logic.I].
  - injection H as <-. apply an.
  - injection H as <-. rewrite <- (lk s). apply mv. intros j [= <-]. destruct (LK _ _ L) as (A & _). split; [exact A|intros; exact Logic.I].
  - injection H as <-. apply an.
  - injection H as <-. rewrite <- (lk s). apply mv. intros j [=].
Qed.
Lemma run_org : forall es s s', incl es all -> refs s -> org s -> prun s es = Ok s' -> org s'.
Proof.
  induction es as [|e es IH]; intros s s' I R O H; cbn in H; [congruence|]. destruct (pstep s e) as [s1|] eqn:E; [|discriminate]. cbn in H.
  apply (IH s1 s'); auto; [intros x X; apply I; right; auto|eapply step_refs; eauto|].
  assert (Ie : In e all) by (apply I; left; auto). destruct e as [t c|t r|g]; cbn in E.
  - destruct (phase_of s t) eqn:P; [congruence|]. eapply begin_org; eauto.
  - destruct (phase_of s t) eqn:P; [|congruence]. eapply adv_org; eauto.
  - injection E as <-. destruct O as (A & B & C & D & F). split; [exact A|]. split; [exact B|]. split; [exact C|]. split; [|exact F].
    cbn. intros x ->. auto.
Qed.
Lemma org0 : org pst0.
Proof.
  split; [|split; [|split; [|split; [|split]]]]; try (intros; contradiction); [|discriminate]. intros [|i] w H; discriminate.
Qed.
End Origin.

(** C201 *)
Lemma origins : forall es s t u x, prun pst0 es = Ok s -> In (OCall t u x) (s_log s) -> origin es u x.
Proof. intros es s t u x H I. apply (run_org es es pst0 s) in H; [|apply incl_refl|apply refs0|apply org0]. apply H in I. exact I. Qed.
