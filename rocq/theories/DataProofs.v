(** Proofs about the data attached to contexts, connections and channels. *)
From Coq Require Import Lia Permutation.
From Coq Require Import String.
From Verif Require Import Base GreetModel CodecProofs DataModel DataSpec.
Open Scope list_scope.

(** What is owned, as a list. *)
Definition olist (e : ent) : list Z := (if e_kd e then [e_key e] else []) ++ (if e_vd e then [e_val e] else []).
Definition tlist (t : list ent) : list Z := concat (map olist t).
Definition hlist (o : option (list ent)) : list Z := match o with Some t => tlist t | None => [] end.
Definition all (tabs : list (option (list ent))) : list Z := concat (map hlist tabs).
Definition every (st : dst) : list Z := d_freed st ++ all (d_tabs st).
Lemma olist_owns e p : In p (olist e) <-> owns e p.
Proof.
  unfold olist, owns. rewrite in_app_iff. destruct (e_kd e), (e_vd e); cbn; intuition congruence.
Qed.
Lemma owned_all st p : owned st p <-> In p (all (d_tabs st)).
Proof.
  unfold owned, all. rewrite in_concat. split.
  - intros (h & t & e & H1 & H2 & H3). exists (tlist t). split.
    + apply in_map_iff. exists (Some t). split; [reflexivity|]. eapply nth_error_In; eassumption.
    + unfold tlist. apply in_concat. exists (olist e). split; [apply in_map; assumption|]. apply olist_owns; assumption.
  - intros (l & H1 & H2). apply in_map_iff in H1. destruct H1 as (x & <- & H1). destruct x as [t|]; [|destruct H2].
    cbn in H2. apply in_concat in H2. destruct H2 as (l & H2 & H3). apply in_map_iff in H2. destruct H2 as (e & <- & H2).
    apply In_nth_error in H1. destruct H1 as (h & H1). exists h, t, e. split; [exact H1|]. split; [exact H2|]. apply olist_owns; exact H3.
Qed.
Lemma all_app a b : all (a ++ b) = all a ++ all b.
Proof. unfold all. rewrite map_app, concat_app. reflexivity. Qed.
Lemma tlist_app a b : tlist (a ++ b) = tlist a ++ tlist b.
Proof. unfold tlist. rewrite map_app, concat_app. reflexivity. Qed.
Lemma tlist_perm a b : Permutation a b -> Permutation (tlist a) (tlist b).
Proof.
  intros H. unfold tlist. induction H.
  - constructor.
  - cbn. apply Permutation_app_head. assumption.
  - cbn. rewrite !app_assoc. apply Permutation_app_tail, Permutation_app_comm.
  - eapply Permutation_trans; eassumption.
Qed.
(** ** Places of a list *)
Lemma set_nth_length {A} (l : list A) n a : List.length (set_nth l n a) = List.length l.
Proof. revert n. induction l as [|x l IH]; intros [|n]; cbn; auto. Qed.
Lemma set_nth_same {A} (l : list A) n a x : nth_error l n = Some x -> nth_error (set_nth l n a) n = Some a.
Proof. revert n. induction l as [|y l IH]; intros [|n] H; cbn in *; try discriminate; auto. Qed.
Lemma set_nth_other {A} (l : list A) n a m : n <> m -> nth_error (set_nth l n a) m = nth_error l m.
Proof. revert n m. induction l as [|y l IH]; intros [|n] [|m] H; cbn; auto; try congruence. Qed.
Lemma set_nth_twice {A} (l : list A) n a b : set_nth (set_nth l n a) n b = set_nth l n b.
Proof. revert n. induction l as [|y l IH]; intros [|n]; cbn; auto. rewrite IH. reflexivity. Qed.
Lemma all_split tabs h x : nth_error tabs h = Some x -> Permutation (all tabs) (hlist x ++ all (set_nth tabs h None)).
Proof.
  revert h. induction tabs as [|y tabs IH]; intros [|h] H; cbn in H; try discriminate.
  - injection H as ->. cbn. apply Permutation_refl.
  - cbn [set_nth]. change (all (y :: tabs)) with (hlist y ++ all tabs). change (all (y :: set_nth tabs h None)) with (hlist y ++ all (set_nth tabs h None)).
    rewrite (IH _ H). rewrite !app_assoc. apply Permutation_app_tail, Permutation_app_comm.
Qed.
Lemma all_set tabs h x y : nth_error tabs h = Some x -> Permutation (all (set_nth tabs h y)) (hlist y ++ all (set_nth tabs h None)).
Proof. intros H. rewrite (all_split (set_nth tabs h y) h y) by (eapply set_nth_same; eassumption). rewrite set_nth_twice. apply Permutation_refl. Qed.
(** ** What is freed *)
Lemma live_spec st p : live st p = true <-> ~ gone st p.
Proof.
  unfold live, gone. rewrite negb_true_iff. split.
  - intros H I. assert (existsb (Z.eqb p) (d_freed st) = true); [|congruence]. apply existsb_exists. exists p. split; [exact I|apply Z.eqb_refl].
  - intros H. destruct (existsb (Z.eqb p) (d_freed st)) eqn:E; [|reflexivity]. apply existsb_exists in E. destruct E as (q & I & E). apply Z.eqb_eq in E. subst. contradiction.
Qed.
Lemma free_ok st p : ~ gone st p -> free_block st p = Ok (mkD (d_tabs st) (d_freed st ++ [p])).
Proof. intros H. unfold free_block. apply live_spec in H. rewrite H. reflexivity. Qed.
Lemma nodup_notin (a b : list Z) p : NoDup (a ++ p :: b) -> ~ In p a.
Proof. intros H I. apply NoDup_remove_2 in H. apply H, in_or_app. left. exact I. Qed.
Lemma cleanup_ok st e : NoDup (d_freed st ++ olist e) -> cleanup st e = Ok (mkD (d_tabs st) (d_freed st ++ olist e)).
Proof.
  unfold cleanup, olist. intros H. destruct st as [tabs fr]. cbn [d_freed d_tabs] in *. destruct (e_kd e), (e_vd e); cbn [app] in *.
  - rewrite free_ok by (unfold gone; cbn; eapply nodup_notin; eassumption). cbn [obind d_tabs d_freed]. rewrite free_ok.
    + cbn [d_tabs d_freed]. rewrite <- app_assoc. reflexivity.
    + unfold gone. cbn. change (e_key e :: [e_val e]) with ([e_key e] ++ [e_val e]) in H. rewrite app_assoc in H. apply nodup_notin in H. exact H.
  - rewrite free_ok by (unfold gone; cbn; eapply nodup_notin; eassumption). reflexivity.
  - cbn [obind]. rewrite free_ok by (unfold gone; cbn; eapply nodup_notin; eassumption). reflexivity.
  - cbn [obind]. rewrite app_nil_r. reflexivity.
Qed.
Lemma nodup_left {A} (a b : list A) : NoDup (a ++ b) -> NoDup a.
Proof. induction a; cbn; intros H; [constructor|]. inversion H; subst. constructor; [intros I; apply H2, in_or_app; auto|auto]. Qed.
Lemma cleanup_all_ok : forall t st, NoDup (d_freed st ++ tlist t) -> cleanup_all st t = Ok (mkD (d_tabs st) (d_freed st ++ tlist t)).
Proof.
  induction t as [|e t IH]; intros st H.
  - cbn. rewrite app_nil_r. destruct st; reflexivity.
  - cbn [cleanup_all]. change (tlist (e :: t)) with (olist e ++ tlist t) in *. rewrite app_assoc in H. rewrite cleanup_ok by (eapply nodup_left; eassumption).
    cbn [obind]. rewrite IH; cbn [d_tabs d_freed]; [rewrite <- app_assoc; reflexivity|exact H].
Qed.
(** ** Finding keys *)
Lemma take_some str s : forall t e t', take str s t = Some (e, t') -> str (e_key e) = s /\ Permutation t (e :: t').
Proof.
  induction t as [|x t IH]; cbn; intros e t' H; [discriminate|]. destruct (bytes_eqb (str (e_key x)) s) eqn:E.
  - injection H as <- <-. apply bytes_eqb_eq in E. split; [exact E|apply Permutation_refl].
  - destruct (take str s t) as [[y r]|]; [|discriminate]. injection H as <- <-. destruct (IH _ _ eq_refl) as [H1 H2]. split; [exact H1|].
    eapply Permutation_trans; [apply perm_skip; exact H2|apply perm_swap].
Qed.
Lemma take_none str s : forall t, take str s t = None -> forall e, In e t -> str (e_key e) <> s.
Proof.
  induction t as [|x t IH]; cbn; intros H e []; destruct (bytes_eqb (str (e_key x)) s) eqn:E; try discriminate.
  - subst. intros Q. rewrite Q, bytes_eqb_refl in E. discriminate.
  - destruct (take str s t) as [[y r]|]; [discriminate|]. apply IH; auto.
Qed.
Definition names (str : Z -> bytes) (t : list ent) : list bytes := map (fun e => str (e_key e)) t.
Definition val_in (str : Z -> bytes) (t : list ent) (s : bytes) : Z := match take str s t with Some (e, _) => e_val e | None => 0 end.
Lemma val_unique str s t e : NoDup (names str t) -> In e t -> str (e_key e) = s -> val_in str t s = e_val e.
Proof.
  intros N I Q. unfold val_in. destruct (take str s t) as [[x r]|] eqn:E.
  - destruct (take_some _ _ _ _ _ E) as [Q1 P]. assert (N1 : NoDup (names str (x :: r))) by (eapply Permutation_NoDup; [apply Permutation_map; exact P|exact N]).
    apply (Permutation_in _ P) in I. destruct I as [->|I]; [reflexivity|]. cbn in N1. inversion N1; subst. exfalso. apply H1. rewrite Q1. apply in_map_iff. exists e. auto.
  - exfalso. exact (take_none _ _ _ E e I Q).
Qed.
Lemma val_absent str s t : (forall e, In e t -> str (e_key e) <> s) -> val_in str t s = 0.
Proof.
  intros H. unfold val_in. destruct (take str s t) as [[x r]|] eqn:E; [|reflexivity]. destruct (take_some _ _ _ _ _ E) as [Q1 P]. exfalso.
  apply (H x); [eapply Permutation_in; [apply Permutation_sym; exact P|left; reflexivity]|exact Q1].
Qed.
Lemma val_perm str t t' s : NoDup (names str t) -> Permutation t t' -> val_in str t s = val_in str t' s.
Proof.
  intros N P. destruct (take str s t) as [[x r]|] eqn:E.
  - destruct (take_some _ _ _ _ _ E) as [Q1 P1]. assert (I : In x t) by (eapply Permutation_in; [apply Permutation_sym; exact P1|left; reflexivity]).
    rewrite (val_unique _ s t x N I Q1). symmetry. apply val_unique; [eapply Permutation_NoDup; [apply Permutation_map; exact P|exact N]|eapply Permutation_in; eassumption|exact Q1].
  - pose proof (take_none _ _ _ E) as A. rewrite (val_absent _ _ t A). symmetry. apply val_absent. intros e I. apply A. eapply Permutation_in; [apply Permutation_sym; exact P|exact I].
Qed.
Lemma val_cons str e t s : val_in str (e :: t) s = if bytes_eqb (str (e_key e)) s then e_val e else val_in str t s.
Proof. unfold val_in. cbn. destruct (bytes_eqb (str (e_key e)) s); [reflexivity|]. destruct (take str s t) as [[y r]|]; reflexivity. Qed.

(** ** What holds all along *)
Record inv (str : Z -> bytes) (lasting : Z -> bool) (st : dst) : Prop := mkInv {
  i_once : NoDup (every st);
  i_last : forall p, In p (every st) -> lasting p = false;
  i_keys : forall h t e, nth_error (d_tabs st) h = Some (Some t) -> In e t -> e_kd e = false -> lasting (e_key e) = true;
  i_names : forall h t, nth_error (d_tabs st) h = Some (Some t) -> NoDup (names str t)
}.
Lemma inv_keys str lasting st h t e : inv str lasting st -> nth_error (d_tabs st) h = Some (Some t) -> In e t -> ~ gone st (e_key e).
Proof.
  intros V H I G. destruct (e_kd e) eqn:K.
  - assert (O : In (e_key e) (all (d_tabs st))).
    { apply owned_all. exists h, t, e. split; [exact H|]. split; [exact I|]. left. auto. }
    pose proof (i_once _ _ _ V) as N. unfold every in N. apply in_split in O. destruct O as (a & b & O). rewrite O, app_assoc in N. apply nodup_notin in N. apply N, in_or_app. left. exact G.
  - pose proof (i_keys _ _ _ V _ _ _ H I K) as L. rewrite (i_last _ _ _ V) in L; [discriminate|]. unfold every. apply in_or_app. left. exact G.
Qed.
Lemma inv_lookup str lasting st h t s : inv str lasting st -> nth_error (d_tabs st) h = Some (Some t) -> lookup str st t s = Ok (take str s t).
Proof.
  intros V H. unfold lookup, keys_live. replace (forallb _ _) with true; [reflexivity|]. symmetry. apply forallb_forall. intros e I. apply live_spec. eapply inv_keys; eassumption.
Qed.
Lemma tab_ok st h t : nth_error (d_tabs st) h = Some (Some t) -> tab st h = Ok t.
Proof. intros H. unfold tab. rewrite H. reflexivity. Qed.
Lemma reads_ok st p : p <> 0 -> ~ gone st p -> reads st p = Ok tt.
Proof. intros H1 H2. unfold reads. apply live_spec in H2. rewrite H2. apply Z.eqb_neq in H1. rewrite H1. reflexivity. Qed.
(** A table changes and some blocks are freed. *)
Lemma inv_change str lasting st h t t' fr more :
  inv str lasting st -> nth_error (d_tabs st) h = Some (Some t) ->
  Permutation (fr ++ hlist t') ((d_freed st ++ tlist t) ++ more) -> NoDup (every st ++ more) -> (forall p, In p more -> lasting p = false) ->
  (forall t1, t' = Some t1 -> NoDup (names str t1) /\ forall e, In e t1 -> e_kd e = false -> lasting (e_key e) = true) ->
  inv str lasting (mkD (set_nth (d_tabs st) h t') fr) /\ Permutation (every (mkD (set_nth (d_tabs st) h t') fr)) (every st ++ more).
Proof.
  intros V H P N L T.
  assert (Q : Permutation (every (mkD (set_nth (d_tabs st) h t') fr)) (every st ++ more)).
  { unfold every. cbn [d_tabs d_freed]. rewrite (all_set _ _ _ t' H). rewrite (all_split _ _ _ H). cbn [hlist]. rewrite !app_assoc. rewrite P.
    rewrite <- !app_assoc. apply Permutation_app_head, Permutation_app_head, Permutation_app_comm. }
  split; [|exact Q]. constructor.
  - eapply Permutation_NoDup; [apply Permutation_sym; exact Q|exact N].
  - intros p I. apply (Permutation_in _ Q) in I. apply in_app_or in I. destruct I; [apply (i_last _ _ _ V); assumption|auto].
  - cbn [d_tabs]. intros h1 t1 e H1 I K. destruct (Nat.eq_dec h h1) as [<-|D].
    + rewrite (set_nth_same _ _ _ _ H) in H1. injection H1 as ->. destruct (T _ eq_refl) as [_ A]. auto.
    + rewrite set_nth_other in H1 by exact D. eapply (i_keys _ _ _ V); eassumption.
  - cbn [d_tabs]. intros h1 t1 H1. destruct (Nat.eq_dec h h1) as [<-|D].
    + rewrite (set_nth_same _ _ _ _ H) in H1. injection H1 as ->. apply (T _ eq_refl).
    + rewrite set_nth_other in H1 by exact D. eapply (i_names _ _ _ V); eassumption.
Qed.
Lemma owned_sub st h t : nth_error (d_tabs st) h = Some (Some t) -> NoDup (every st) -> NoDup (d_freed st ++ tlist t).
Proof.
  intros H N. unfold every in N. eapply (nodup_left _ (all (set_nth (d_tabs st) h None))). rewrite <- app_assoc.
  eapply Permutation_NoDup; [|exact N]. apply Permutation_app_head. apply (all_split _ _ _ H).
Qed.
Lemma names_rest str t e t' : NoDup (names str t) -> Permutation t (e :: t') -> NoDup (names str t') /\ (forall x, In x t' -> str (e_key x) <> str (e_key e)).
Proof.
  intros N P. assert (N1 : NoDup (names str (e :: t'))) by (eapply Permutation_NoDup; [apply Permutation_map; exact P|exact N]).
  cbn in N1. inversion N1; subst. split; [assumption|]. intros x I Q. apply H1. rewrite <- Q. apply in_map_iff. exists x. auto.
Qed.
(** Values, holder by holder. *)
Definition holds (str : Z -> bytes) (m : amap) (n : nat) (st : dst) : Prop :=
  n = List.length (d_tabs st) /\ (forall h t, nth_error (d_tabs st) h = Some (Some t) -> forall s, m h s = val_in str t s) /\ (forall h s, (n <= h)%nat -> m h s = 0).
Lemma eqb_sym a b : bytes_eqb a b = bytes_eqb b a.
Proof.
  destruct (bytes_eqb a b) eqn:E1, (bytes_eqb b a) eqn:E2; try reflexivity.
  - apply bytes_eqb_eq in E1. subst. rewrite bytes_eqb_refl in E2. discriminate.
  - apply bytes_eqb_eq in E2. subst. rewrite bytes_eqb_refl in E1. discriminate.
Qed.
Lemma nth_lt {A} (l : list A) h x : nth_error l h = Some x -> (h < List.length l)%nat.
Proof. intros H. apply nth_error_Some. congruence. Qed.
Lemma holds_change str m n st h t t1 fr s v : holds str m n st -> nth_error (d_tabs st) h = Some (Some t) ->
  (forall s', val_in str t1 s' = if bytes_eqb s' s then v else val_in str t s') ->
  holds str (store m h s v) n (mkD (set_nth (d_tabs st) h (Some t1)) fr).
Proof.
  intros (H1 & H2 & H3) H T. split; [cbn [d_tabs]; rewrite set_nth_length; exact H1|]. split.
  - cbn [d_tabs]. intros h' t' H' s'. unfold store. destruct (Nat.eq_dec h h') as [<-|D].
    + rewrite (set_nth_same _ _ _ _ H) in H'. injection H' as <-. rewrite Nat.eqb_refl. cbn [andb]. rewrite T. destruct (bytes_eqb s' s); [reflexivity|]. auto.
    + rewrite set_nth_other in H' by exact D. replace (Nat.eqb h' h) with false by (symmetry; apply Nat.eqb_neq; congruence). cbn [andb]. eauto.
  - intros h' s' L. unfold store. replace (Nat.eqb h' h) with false by (symmetry; apply Nat.eqb_neq; apply nth_lt in H; lia). cbn [andb]. auto.
Qed.
Lemma removed_vals str t s e t' : NoDup (names str t) -> take str s t = Some (e, t') ->
  forall s', val_in str t' s' = if bytes_eqb s' s then 0 else val_in str t s'.
Proof.
  intros N E s'. destruct (take_some _ _ _ _ _ E) as [Q P]. destruct (names_rest _ _ _ _ N P) as [N1 A]. destruct (bytes_eqb s' s) eqn:B.
  - apply bytes_eqb_eq in B. subst. apply val_absent. exact A.
  - rewrite (val_perm _ _ _ _ N P), val_cons, Q, eqb_sym, B. reflexivity.
Qed.
Lemma absent_vals str t s : take str s t = None -> forall s', val_in str t s' = if bytes_eqb s' s then 0 else val_in str t s'.
Proof.
  intros E s'. destruct (bytes_eqb s' s) eqn:B; [|reflexivity]. apply bytes_eqb_eq in B. subst. apply val_absent. apply take_none, E.
Qed.
Lemma added_vals str t s n : NoDup (names str t) -> (forall e, In e t -> str (e_key e) <> s) -> str (e_key n) = s ->
  forall s', val_in str (t ++ [n]) s' = if bytes_eqb s' s then e_val n else val_in str t s'.
Proof.
  intros N A Q s'. assert (P : Permutation (t ++ [n]) (n :: t)) by (apply Permutation_sym, Permutation_cons_append).
  assert (N1 : NoDup (names str (n :: t))).
  { cbn. constructor; [|exact N]. intros I. apply in_map_iff in I. destruct I as (e & Q1 & I). apply (A e I). congruence. }
  rewrite (val_perm _ _ _ _ (Permutation_NoDup (Permutation_map _ (Permutation_sym P)) N1) P), val_cons, Q, eqb_sym. reflexivity.
Qed.
Lemma names_added str t n : NoDup (names str t) -> (forall e, In e t -> str (e_key e) <> str (e_key n)) -> NoDup (names str (t ++ [n])).
Proof.
  intros N A. eapply Permutation_NoDup; [apply Permutation_map, Permutation_cons_append|]. cbn. constructor; [|exact N].
  intros I. apply in_map_iff in I. destruct I as (e & Q1 & I). apply (A e I). exact Q1.
Qed.
(** What is stored under [s] in [h] is still there. *)
Definition stays (str : Z -> bytes) (st st' : dst) (h : nat) (s : bytes) : Prop :=
  forall t e, nth_error (d_tabs st) h = Some (Some t) -> In e t -> str (e_key e) = s -> exists t', nth_error (d_tabs st') h = Some (Some t') /\ In e t'.
Lemma stays_refl str st h s : stays str st st h s.
Proof. intros t e H I _. eauto. Qed.
Lemma stays_change str st h t t1 fr h0 s0 s : nth_error (d_tabs st) h = Some (Some t) ->
  (forall e, In e t -> str (e_key e) <> s -> In e t1) -> h <> h0 \/ s <> s0 ->
  stays str st (mkD (set_nth (d_tabs st) h (Some t1)) fr) h0 s0.
Proof.
  intros H T A t0 e H0 I Q. cbn [d_tabs]. destruct (Nat.eq_dec h h0) as [<-|D].
  - destruct A as [A|A]; [congruence|]. assert (t0 = t) by congruence. subst t0. exists t1. split; [eapply set_nth_same; eassumption|]. apply T; [exact I|congruence].
  - exists t0. rewrite set_nth_other by exact D. auto.
Qed.
Definition good (str : Z -> bytes) (lasting : Z -> bool) (st st' : dst) (m' : amap) (n' : nat) (more : list Z) : Prop :=
  inv str lasting st' /\ Permutation (every st') (every st ++ more) /\ holds str m' n' st'.
Lemma perm_nil {A} (l : list A) : Permutation l (l ++ []).
Proof. rewrite app_nil_r. apply Permutation_refl. Qed.
Lemma store_same str m n st h t s : holds str m n st -> nth_error (d_tabs st) h = Some (Some t) -> take str s t = None -> holds str (store m h s 0) n st.
Proof.
  intros (H1 & H2 & H3) H E. split; [exact H1|]. unfold store. split.
  - intros h' t' H' s'. destruct (Nat.eqb h' h && bytes_eqb s' s) eqn:B; [|eauto]. apply andb_prop in B. destruct B as [B1 B2]. apply Nat.eqb_eq in B1. apply bytes_eqb_eq in B2. subst.
    assert (t' = t) by congruence. subst. unfold val_in. rewrite E. reflexivity.
  - intros h' s' L. destruct (Nat.eqb h' h && bytes_eqb s' s); auto.
Qed.
Lemma hremove_ok str lasting m n st h t s : inv str lasting st -> holds str m n st -> nth_error (d_tabs st) h = Some (Some t) ->
  exists st', hremove str st h s = Ok st' /\ good str lasting st st' (store m h s 0) n [] /\ (forall h0 s0, h <> h0 \/ s <> s0 -> stays str st st' h0 s0).
Proof.
  intros V R H. unfold hremove. rewrite (tab_ok _ _ _ H). cbn [obind]. rewrite (inv_lookup _ _ _ _ _ s V H). cbn [obind].
  destruct (take str s t) as [[e t']|] eqn:E.
  - destruct (take_some _ _ _ _ _ E) as [Q P]. pose proof (i_names _ _ _ V _ _ H) as N. destruct (names_rest _ _ _ _ N P) as [N1 A].
    assert (PT : Permutation (tlist t) (olist e ++ tlist t')) by (rewrite (tlist_perm _ _ P); apply Permutation_refl).
    pose proof (owned_sub _ _ _ H (i_once _ _ _ V)) as ND.
    rewrite cleanup_ok.
    2:{ cbn [set_tab d_freed]. apply (nodup_left _ (tlist t')). rewrite <- app_assoc. eapply Permutation_NoDup; [|exact ND]. apply Permutation_app_head, PT. }
    eexists. split; [reflexivity|]. cbn [set_tab d_tabs d_freed]. split.
    + destruct (inv_change str lasting st h t (Some t') (d_freed st ++ olist e) [] V H) as [V' P'].
      * cbn [hlist]. rewrite app_nil_r, <- app_assoc. apply Permutation_app_head. apply Permutation_sym, PT.
      * rewrite app_nil_r. apply (i_once _ _ _ V).
      * intros p [].
      * intros t1 Q1. injection Q1 as <-. split; [exact N1|]. intros x I K. eapply (i_keys _ _ _ V); [exact H| |exact K]. eapply Permutation_in; [apply Permutation_sym; exact P|right; exact I].
      * split; [exact V'|]. split; [exact P'|]. eapply holds_change; [exact R|exact H|]. apply removed_vals with (e := e); assumption.
    + intros h0 s0 D. eapply stays_change; [exact H| |exact D]. intros x I X. apply (Permutation_in _ P) in I. destruct I as [->|I]; [congruence|exact I].
  - exists st. split; [reflexivity|]. split; [|intros; apply stays_refl]. split; [exact V|]. split; [apply perm_nil|]. eapply store_same; eassumption.
Qed.
Lemma hreplace_ok str lasting m n st h t x : inv str lasting st -> holds str m n st -> nth_error (d_tabs st) h = Some (Some t) ->
  NoDup (every st ++ olist x) -> (forall p, In p (olist x) -> lasting p = false) -> (e_kd x = false -> lasting (e_key x) = true) ->
  exists st', hreplace str st h x = Ok st' /\ good str lasting st st' (store m h (str (e_key x)) (e_val x)) n (olist x) /\
    (forall h0 s0, h <> h0 \/ str (e_key x) <> s0 -> stays str st st' h0 s0) /\ (exists t', nth_error (d_tabs st') h = Some (Some t') /\ In x t').
Proof.
  intros V R H NX LX KX. unfold hreplace. rewrite (tab_ok _ _ _ H). cbn [obind]. rewrite (inv_lookup _ _ _ _ _ _ V H). cbn [obind].
  pose proof (i_names _ _ _ V _ _ H) as N.
  assert (TX : tlist [x] = olist x) by (unfold tlist; cbn; apply app_nil_r).
  destruct (take str (str (e_key x)) t) as [[e t']|] eqn:E.
  - destruct (take_some _ _ _ _ _ E) as [Q P]. destruct (names_rest _ _ _ _ N P) as [N1 A].
    assert (PT : Permutation (tlist t) (olist e ++ tlist t')) by (rewrite (tlist_perm _ _ P); apply Permutation_refl).
    pose proof (owned_sub _ _ _ H (i_once _ _ _ V)) as ND.
    rewrite cleanup_ok.
    2:{ cbn [set_tab d_freed]. apply (nodup_left _ (tlist t')). rewrite <- app_assoc. eapply Permutation_NoDup; [|exact ND]. apply Permutation_app_head, PT. }
    eexists. split; [reflexivity|]. cbn [set_tab d_tabs d_freed].
    assert (A' : forall y, In y t' -> str (e_key y) <> str (e_key x)) by (intros y I; rewrite <- Q; apply A, I).
    split; [|split].
    + destruct (inv_change str lasting st h t (Some (t' ++ [x])) (d_freed st ++ olist e) (olist x) V H) as [V' P'].
      * cbn [hlist]. rewrite tlist_app, TX, !app_assoc. apply Permutation_app_tail. rewrite <- app_assoc. apply Permutation_app_head. apply Permutation_sym, PT.
      * exact NX.
      * exact LX.
      * intros t1 Q1. injection Q1 as <-. split; [apply names_added; assumption|]. intros y I K. apply in_app_or in I. destruct I as [I|[<-|[]]]; [|auto].
        eapply (i_keys _ _ _ V); [exact H| |exact K]. eapply Permutation_in; [apply Permutation_sym; exact P|right; exact I].
      * split; [exact V'|]. split; [exact P'|]. eapply holds_change; [exact R|exact H|]. intros s'. rewrite (added_vals str t' (str (e_key x)) x N1 A' eq_refl).
        destruct (bytes_eqb s' (str (e_key x))) eqn:B; [reflexivity|]. rewrite (removed_vals _ _ _ _ _ N E), B. reflexivity.
    + intros h0 s0 D. eapply stays_change; [exact H| |exact D]. intros y I X. apply in_or_app. left. apply (Permutation_in _ P) in I. destruct I as [->|I]; [congruence|exact I].
    + exists (t' ++ [x]). split; [eapply set_nth_same; eassumption|apply in_or_app; right; left; reflexivity].
  - pose proof (take_none _ _ _ E) as A. eexists. split; [reflexivity|]. unfold set_tab. split; [|split].
    + destruct (inv_change str lasting st h t (Some (t ++ [x])) (d_freed st) (olist x) V H) as [V' P'].
      * cbn [hlist]. rewrite tlist_app, TX, app_assoc. apply Permutation_refl.
      * exact NX.
      * exact LX.
      * intros t1 Q1. injection Q1 as <-. split; [apply names_added; assumption|]. intros y I K. apply in_app_or in I. destruct I as [I|[<-|[]]]; [|auto]. eapply (i_keys _ _ _ V); eassumption.
      * split; [exact V'|]. split; [exact P'|]. eapply holds_change; [exact R|exact H|]. apply added_vals; auto.
    + intros h0 s0 D. eapply stays_change; [exact H| |exact D]. intros y I _. apply in_or_app. left. exact I.
    + exists (t ++ [x]). split; [cbn; eapply set_nth_same; eassumption|apply in_or_app; right; left; reflexivity].
Qed.
Lemma holds_ext str m m' n st : (forall h s, m h s = m' h s) -> holds str m n st -> holds str m' n st.
Proof. intros E (H1 & H2 & H3). split; [exact H1|]. split; [intros h t H s; rewrite <- E; eauto|intros h s L; rewrite <- E; auto]. Qed.
Lemma fresh_notin lasting st p : fresh lasting st p -> ~ In p (every st).
Proof. intros (H0 & H1 & H2 & _) I. unfold every in I. apply in_app_or in I. destruct I as [I|I]; [exact (H1 I)|]. apply H2, owned_all, I. Qed.
Lemma nodup_snoc {A} (l : list A) a : NoDup l -> ~ In a l -> NoDup (l ++ [a]).
Proof. intros N I. eapply Permutation_NoDup; [apply Permutation_cons_append|]. constructor; assumption. Qed.
Lemma given_nodup lasting st k v (kd vd : bool) : NoDup (every st) -> (kd = true -> fresh lasting st k) -> (vd = true -> fresh lasting st v) -> (kd = true -> vd = true -> k <> v) ->
  NoDup (every st ++ olist (mkE k kd v vd)).
Proof.
  intros N HK HV D. unfold olist. cbn [e_kd e_key e_vd e_val]. destruct kd, vd; cbn [app].
  - change [k; v] with ([k] ++ [v]). rewrite app_assoc. apply nodup_snoc; [apply nodup_snoc; [exact N|eapply fresh_notin; eauto]|].
    intros I. apply in_app_or in I. destruct I as [I|[I|[]]]; [revert I; eapply fresh_notin; eauto|]. apply D; auto.
  - apply nodup_snoc; [exact N|eapply fresh_notin; eauto].
  - apply nodup_snoc; [exact N|eapply fresh_notin; eauto].
  - rewrite app_nil_r. exact N.
Qed.
Lemma lasting_live str lasting st p : inv str lasting st -> lasting p = true -> ~ gone st p.
Proof. intros V L G. rewrite (i_last _ _ _ V) in L; [discriminate|]. unfold every. apply in_or_app. left. exact G. Qed.
Lemma move_ok str lasting m n st h t : inv str lasting st -> holds str m n st -> nth_error (d_tabs st) h = Some (Some t) ->
  let st1 := mkD (set_nth (d_tabs st) h (Some []) ++ [Some t]) (d_freed st) in
  inv str lasting st1 /\ Permutation (every st1) (every st) /\ nth_error (d_tabs st1) n = Some (Some t) /\
  holds str (fun h' s => if Nat.eqb h' n then m h s else if Nat.eqb h' h then 0 else m h' s) (S n) st1 /\
  (forall h0, h <> h0 -> (h0 < n)%nat -> nth_error (d_tabs st1) h0 = nth_error (d_tabs st) h0).
Proof.
  intros V R H st1. destruct R as (R1 & R2 & R3). pose proof (nth_lt _ _ _ H) as L.
  assert (P : Permutation (every st1) (every st)).
  { unfold every, st1. cbn [d_tabs d_freed]. apply Permutation_app_head. rewrite all_app, (all_set _ _ _ (Some []) H), (all_split _ _ _ H). cbn [hlist tlist concat map all app].
    rewrite Permutation_app_comm. unfold all. cbn [map concat hlist]. rewrite app_nil_r. apply Permutation_refl. }
  assert (W : forall h1 t1, nth_error (d_tabs st1) h1 = Some (Some t1) -> (h1 = n /\ t1 = t) \/ (h1 <> n /\ h1 = h /\ t1 = []) \/ (h1 <> n /\ h1 <> h /\ nth_error (d_tabs st) h1 = Some (Some t1))).
  { intros h1 t1 H1. unfold st1 in H1. cbn [d_tabs] in H1. destruct (Nat.lt_ge_cases h1 n) as [G|G].
    - rewrite nth_error_app1 in H1 by (rewrite set_nth_length; lia). destruct (Nat.eq_dec h h1) as [<-|D].
      + rewrite (set_nth_same _ _ _ _ H) in H1. injection H1 as <-. right. left. repeat split; lia.
      + rewrite set_nth_other in H1 by exact D. right. right. repeat split; [lia|congruence|exact H1].
    - rewrite nth_error_app2 in H1 by (rewrite set_nth_length; lia). rewrite set_nth_length in H1. destruct (h1 - List.length (d_tabs st))%nat as [|d] eqn:Q; [|destruct d; discriminate].
      cbn in H1. left. split; [lia|congruence]. }
  split; [|split; [exact P|split; [|split]]].
  - constructor.
    + eapply Permutation_NoDup; [apply Permutation_sym; exact P|apply (i_once _ _ _ V)].
    + intros p I. apply (i_last _ _ _ V). eapply Permutation_in; eassumption.
    + intros h1 t1 e H1 I K. destruct (W _ _ H1) as [(-> & ->)|[(_ & _ & ->)|(_ & _ & H2)]]; [eapply (i_keys _ _ _ V); eassumption|destruct I|eapply (i_keys _ _ _ V); eassumption].
    + intros h1 t1 H1. destruct (W _ _ H1) as [(-> & ->)|[(_ & _ & ->)|(_ & _ & H2)]]; [eapply (i_names _ _ _ V); eassumption|constructor|eapply (i_names _ _ _ V); eassumption].
  - unfold st1. cbn [d_tabs]. rewrite nth_error_app2 by (rewrite set_nth_length; lia). rewrite set_nth_length, R1, Nat.sub_diag. reflexivity.
  - split; [unfold st1; cbn [d_tabs]; rewrite app_length, set_nth_length; cbn; lia|]. split.
    + intros h1 t1 H1 s. destruct (W _ _ H1) as [(-> & ->)|[(D & -> & ->)|(D1 & D2 & H2)]].
      * rewrite Nat.eqb_refl. eauto.
      * apply Nat.eqb_neq in D. rewrite D, Nat.eqb_refl. reflexivity.
      * apply Nat.eqb_neq in D1, D2. rewrite D1, D2. eauto.
    + intros h1 s G. replace (Nat.eqb h1 n) with false by (symmetry; apply Nat.eqb_neq; lia). replace (Nat.eqb h1 h) with false by (symmetry; apply Nat.eqb_neq; lia). apply R3. lia.
  - intros h0 D G. unfold st1. cbn [d_tabs]. rewrite nth_error_app1 by (rewrite set_nth_length; lia). apply set_nth_other, D.
Qed.
Lemma step_ok str lasting m n st o : inv str lasting st -> holds str m n st -> fits lasting st o ->
  exists st', dstep str st o = Ok (st', snd (astep str m n o)) /\ inv str lasting st' /\ holds str (fst (fst (astep str m n o))) (snd (fst (astep str m n o))) st' /\
    (keeps o -> Permutation (every st') (every st ++ given o)) /\ (forall h s, apart str h s o -> stays str st st' h s).
Proof.
  intros V R F. destruct o as [|h k v kd vd|chan h k|h k|h|h|p|p]; cbn [astep fst snd given].
  - eexists. split; [reflexivity|]. destruct R as (R1 & R2 & R3). cbn [fits] in F.
    assert (EV : every (mkD (d_tabs st ++ [Some []]) (d_freed st)) = every st) by (unfold every; cbn [d_tabs d_freed]; rewrite all_app; unfold all at 2; cbn; rewrite app_nil_r; reflexivity).
    assert (W : forall h1 t1, nth_error (d_tabs st ++ [Some []]) h1 = Some (Some t1) -> (h1 = n /\ t1 = []) \/ nth_error (d_tabs st) h1 = Some (Some t1)).
    { intros h1 t1 H1. destruct (Nat.lt_ge_cases h1 n) as [G|G]; [right; rewrite nth_error_app1 in H1 by lia; exact H1|]. rewrite nth_error_app2 in H1 by lia.
      destruct (h1 - List.length (d_tabs st))%nat as [|d] eqn:Q; [cbn in H1; left; split; [lia|congruence]|destruct d; discriminate]. }
    split; [|split; [|split]].
    + constructor; rewrite ?EV; [apply (i_once _ _ _ V)|apply (i_last _ _ _ V)| |].
      * cbn [d_tabs]. intros h1 t1 e H1 I K. destruct (W _ _ H1) as [(_ & ->)|H2]; [destruct I|eapply (i_keys _ _ _ V); eassumption].
      * cbn [d_tabs]. intros h1 t1 H1. destruct (W _ _ H1) as [(_ & ->)|H2]; [constructor|eapply (i_names _ _ _ V); eassumption].
    + split; [cbn [d_tabs]; rewrite app_length; cbn; lia|]. split; [|intros; apply R3; lia]. cbn [d_tabs]. intros h1 t1 H1 s. destruct (W _ _ H1) as [(-> & ->)|H2]; [apply R3; lia|eauto].
    + intros _. rewrite EV. apply perm_nil.
    + intros h s _ t e H1 I Q. exists t. split; [|exact I]. cbn [d_tabs]. rewrite nth_error_app1; [exact H1|eapply nth_lt; eassumption].
  - cbn [dstep]. destruct F as ((t & H) & F0 & F1). destruct (k =? 0) eqn:K.
    { exists st. split; [reflexivity|]. split; [exact V|]. split; [exact R|]. split; [intros _; apply perm_nil|]. intros; apply stays_refl. }
    apply Z.eqb_neq in K. cbn [orb]. destruct (v =? 0) eqn:VZ.
    + apply Z.eqb_eq in VZ. subst v. rewrite reads_ok by auto. cbn [obind]. destruct (hremove_ok _ _ _ _ _ _ _ (str k) V R H) as (st' & -> & (V' & P' & R') & T). cbn [obind].
      exists st'. split; [reflexivity|]. split; [exact V'|]. split; [exact R'|]. split; [intros _; exact P'|]. exact T.
    + apply Z.eqb_neq in VZ. destruct (F1 VZ) as (FK & FV & FD).
      assert (GK : ~ gone st k) by (destruct kd; [apply FK|eapply lasting_live; eassumption]).
      rewrite reads_ok by auto. cbn [obind].
      destruct (hreplace_ok str lasting m n st h t (mkE k kd v vd) V R H) as (st' & -> & (V' & P' & R') & T & _).
      * eapply given_nodup; [apply (i_once _ _ _ V)|intros ->; exact FK|exact FV|exact FD].
      * intros p I. unfold olist in I. cbn [e_kd e_key e_vd e_val] in I. apply in_app_or in I. destruct kd, vd; cbn in I; destruct I as [[I|[]]|[I|[]]] || (destruct I as [I|I]); try contradiction;
        try (destruct I as [I|[]]); subst; try (apply FK); apply FV; reflexivity.
      * cbn. intros ->. exact FK.
      * cbn [obind]. exists st'. split; [reflexivity|]. split; [exact V'|]. split; [exact R'|]. split; [intros _; exact P'|]. exact T.
  - cbn [dstep]. destruct F as ((t & H) & K & G). apply Z.eqb_neq in K. rewrite K, andb_false_r. apply Z.eqb_neq in K. rewrite reads_ok by auto. cbn [obind]. rewrite (tab_ok _ _ _ H). cbn [obind].
    rewrite (inv_lookup _ _ _ _ _ _ V H). cbn [obind]. destruct (take str (str k) t) as [[e t']|] eqn:E.
    + eexists. split; [reflexivity|]. destruct (take_some _ _ _ _ _ E) as [Q P]. pose proof (i_names _ _ _ V _ _ H) as N. destruct (names_rest _ _ _ _ N P) as [N1 A].
      assert (PE : Permutation (every st) (every (set_tab st h (Some t')) ++ olist e)).
      { unfold every, set_tab. cbn [d_tabs d_freed]. rewrite (all_set _ _ _ (Some t') H), (all_split _ _ _ H). cbn [hlist]. rewrite (tlist_perm _ _ P). change (tlist (e :: t')) with (olist e ++ tlist t').
        rewrite <- !app_assoc. apply Permutation_app_head. rewrite Permutation_app_comm, <- !app_assoc. apply Permutation_refl. }
      split; [|split; [|split]].
      * constructor.
        -- eapply nodup_left, Permutation_NoDup; [exact PE|apply (i_once _ _ _ V)].
        -- intros p I. apply (i_last _ _ _ V). eapply Permutation_in; [apply Permutation_sym; exact PE|apply in_or_app; left; exact I].
        -- unfold set_tab. cbn [d_tabs]. intros h1 t1 x H1 I X. destruct (Nat.eq_dec h h1) as [<-|D].
           ++ rewrite (set_nth_same _ _ _ _ H) in H1. injection H1 as <-. eapply (i_keys _ _ _ V); [exact H| |exact X]. eapply Permutation_in; [apply Permutation_sym; exact P|right; exact I].
           ++ rewrite set_nth_other in H1 by exact D. eapply (i_keys _ _ _ V); eassumption.
        -- unfold set_tab. cbn [d_tabs]. intros h1 t1 H1. destruct (Nat.eq_dec h h1) as [<-|D].
           ++ rewrite (set_nth_same _ _ _ _ H) in H1. injection H1 as <-. exact N1.
           ++ rewrite set_nth_other in H1 by exact D. eapply (i_names _ _ _ V); eassumption.
      * eapply holds_change; [exact R|exact H|]. eapply removed_vals; eassumption.
      * intros [].
      * intros h0 s0 D. eapply stays_change; [exact H| |exact D]. intros x I X. apply (Permutation_in _ P) in I. destruct I as [->|I]; [congruence|exact I].
    + exists st. split; [reflexivity|]. split; [exact V|]. split; [eapply store_same; eassumption|]. split; [intros []|]. intros; apply stays_refl.
  - cbn [dstep]. destruct F as ((t & H) & G). exists st. split; [|split; [exact V|split; [exact R|split; [intros _; apply perm_nil|intros; apply stays_refl]]]].
    destruct (k =? 0) eqn:K; [reflexivity|]. apply Z.eqb_neq in K. rewrite reads_ok by auto. cbn [obind]. rewrite (tab_ok _ _ _ H). cbn [obind]. rewrite (inv_lookup _ _ _ _ _ _ V H). cbn [obind].
    destruct R as (_ & R2 & _). rewrite (R2 _ _ H). reflexivity.
  - cbn [dstep]. destruct F as (t & H). rewrite (tab_ok _ _ _ H). cbn [obind]. rewrite cleanup_all_ok by (eapply owned_sub; [exact H|apply (i_once _ _ _ V)]). cbn [obind]. eexists. split; [reflexivity|].
    unfold set_tab. cbn [d_tabs d_freed]. destruct (inv_change str lasting st h t None (d_freed st ++ tlist t) [] V H) as [V' P'].
    + cbn [hlist]. apply Permutation_refl.
    + rewrite app_nil_r. apply (i_once _ _ _ V).
    + intros p [].
    + intros t1 Q. discriminate.
    + split; [exact V'|]. split; [|split; [intros _; exact P'|]].
      * destruct R as (R1 & R2 & R3). split; [cbn [d_tabs]; rewrite set_nth_length; exact R1|]. split; [|exact R3]. cbn [d_tabs]. intros h1 t1 H1. destruct (Nat.eq_dec h h1) as [<-|D].
        -- rewrite (set_nth_same _ _ _ _ H) in H1. discriminate.
        -- rewrite set_nth_other in H1 by exact D. eauto.
      * intros h0 s0 D t0 e H0 I Q. exists t0. cbn [d_tabs]. cbn [apart] in D. rewrite set_nth_other by exact D. auto.
  - cbn [dstep]. destruct F as (t & H). rewrite (tab_ok _ _ _ H). cbn [obind]. destruct (move_ok _ _ _ _ _ _ _ V R H) as (V1 & P1 & N1 & R1 & O1).
    assert (LN : List.length (d_tabs st) = n) by (destruct R; congruence). rewrite LN.
    destruct (hremove_ok _ _ _ _ _ _ _ (asc "being_closed") V1 R1 N1) as (st' & -> & (V' & P' & R') & T). cbn [obind]. exists st'. split; [reflexivity|]. split; [exact V'|]. split; [|split].
    + eapply holds_ext; [|exact R']. intros h1 s. unfold store. destruct (Nat.eqb h1 n); cbn [andb]; [|reflexivity]. destruct (bytes_eqb s (asc "being_closed")); reflexivity.
    + intros _. rewrite P', P1, !app_nil_r. apply Permutation_refl.
    + intros h0 s0 D t0 e H0 I Q. cbn [apart] in D. pose proof (nth_lt _ _ _ H0) as G. rewrite LN in G. refine (T h0 s0 _ t0 e _ I Q); [left; lia|]. rewrite O1 by assumption. exact H0.
  - cbn [dstep]. cbn [fits] in F. rewrite free_ok by apply F. cbn [obind]. eexists. split; [reflexivity|].
    assert (PE : Permutation (every (mkD (d_tabs st) (d_freed st ++ [p]))) (every st ++ [p])).
    { unfold every. cbn [d_tabs d_freed]. rewrite <- !app_assoc. apply Permutation_app_head, Permutation_app_comm. }
    split; [|split; [exact R|split; [intros []|intros h s _ t e H I Q; exists t; auto]]]. constructor.
    + eapply Permutation_NoDup; [apply Permutation_sym; exact PE|]. apply nodup_snoc; [apply (i_once _ _ _ V)|eapply fresh_notin; eassumption].
    + intros q I. apply (Permutation_in _ PE) in I. apply in_app_or in I. destruct I as [I|[<-|[]]]; [apply (i_last _ _ _ V), I|apply F].
    + apply (i_keys _ _ _ V).
    + apply (i_names _ _ _ V).
  - cbn [dstep]. destruct F as [F0 F1]. rewrite reads_ok by auto. cbn [obind]. exists st. split; [reflexivity|]. split; [exact V|]. split; [exact R|]. split; [intros _; apply perm_nil|]. intros; apply stays_refl.
Qed.

(** ** Histories *)
Lemma run_ok str lasting : forall os m n st, inv str lasting st -> holds str m n st -> fits_all str lasting st os ->
  exists st', drun str st os = Ok (st', arun str m n os) /\ inv str lasting st' /\ (exists m' n', holds str m' n' st') /\
    (Forall keeps os -> Permutation (every st') (every st ++ concat (map given os))) /\
    (forall h s, Forall (apart str h s) os -> stays str st st' h s).
Proof.
  induction os as [|o os IH]; intros m n st V R F.
  - exists st. split; [reflexivity|]. split; [exact V|]. split; [eauto|]. split; [intros _; apply perm_nil|intros; apply stays_refl].
  - destruct F as [F0 F1]. destruct (step_ok _ _ _ _ _ _ V R F0) as (st1 & E & V1 & R1 & K1 & T1). specialize (F1 _ _ E).
    destruct (IH _ _ _ V1 R1 F1) as (st2 & E2 & V2 & R2 & K2 & T2). exists st2. split; [|split; [exact V2|split; [exact R2|split]]].
    + cbn [drun arun]. rewrite E. cbn [obind]. rewrite E2. cbn [obind]. destruct (astep str m n o) as [[m1 n1] z1]. reflexivity.
    + intros K. inversion K; subst. rewrite K2 by assumption. rewrite K1 by assumption. cbn [map concat]. rewrite <- app_assoc. apply Permutation_refl.
    + intros h s A. inversion A; subst. intros t e H I Q. destruct (T1 h s H1 t e H I Q) as (t1 & Ha & Hb). exact (T2 h s H2 t1 e Ha Hb Q).
Qed.
Lemma inv0 str lasting : inv str lasting dst0.
Proof. constructor; cbn; [constructor|intros p []|intros [|h] t e H; discriminate|intros [|h] t H; discriminate]. Qed.
Lemma holds0 str : holds str nothing 0 dst0.
Proof. split; [reflexivity|]. split; [intros [|h] t H; discriminate|reflexivity]. Qed.
Theorem values : forall str lasting os, fits_all str lasting dst0 os -> exists st, drun str dst0 os = Ok (st, arun str nothing 0 os).
Proof. intros str lasting os F. destruct (run_ok _ _ _ _ _ _ (inv0 str lasting) (holds0 str) F) as (st & E & _). eauto. Qed.
Lemma nodup_apart (a b : list Z) p : NoDup (a ++ b) -> In p a -> In p b -> False.
Proof. intros N I J. apply in_split in J. destruct J as (x & y & ->). rewrite app_assoc in N. apply nodup_notin in N. apply N, in_or_app. left. exact I. Qed.
Theorem once : forall str lasting os st zs, fits_all str lasting dst0 os -> drun str dst0 os = Ok (st, zs) ->
  NoDup (d_freed st) /\ (forall p, owned st p -> ~ gone st p).
Proof.
  intros str lasting os st zs F E. destruct (run_ok _ _ _ _ _ _ (inv0 str lasting) (holds0 str) F) as (st1 & E1 & V & _). assert (st1 = st) by congruence. subst.
  pose proof (i_once _ _ _ V) as N. split; [eapply nodup_left; exact N|]. intros p O G. apply owned_all in O. eapply nodup_apart; eassumption.
Qed.
Theorem accounted : forall str lasting os st zs, fits_all str lasting dst0 os -> Forall keeps os -> drun str dst0 os = Ok (st, zs) ->
  forall p, In p (concat (map given os)) <-> gone st p \/ owned st p.
Proof.
  intros str lasting os st zs F K E p. destruct (run_ok _ _ _ _ _ _ (inv0 str lasting) (holds0 str) F) as (st1 & E1 & V & _ & P & _). assert (st1 = st) by congruence. subst.
  specialize (P K). unfold every at 2 in P. cbn in P. rewrite owned_all. unfold gone. rewrite <- in_app_iff. change (d_freed st ++ all (d_tabs st)) with (every st).
  split; intros I; [eapply Permutation_in; [apply Permutation_sym; exact P|exact I]|eapply Permutation_in; [exact P|exact I]].
Qed.
Theorem released : forall str lasting os st zs, fits_all str lasting dst0 os -> Forall keeps os -> drun str dst0 os = Ok (st, zs) ->
  (forall h, ~ usable st h) -> Permutation (d_freed st) (concat (map given os)).
Proof.
  intros str lasting os st zs F K E U. destruct (run_ok _ _ _ _ _ _ (inv0 str lasting) (holds0 str) F) as (st1 & E1 & V & _ & P & _). assert (st1 = st) by congruence. subst.
  specialize (P K). unfold every at 2 in P. cbn in P. assert (A : all (d_tabs st) = []).
  { destruct (all (d_tabs st)) as [|p l] eqn:Q; [reflexivity|]. assert (O : owned st p) by (apply owned_all; rewrite Q; left; reflexivity). destruct O as (h & t & e & H & _). exfalso. apply (U h). exists t. exact H. }
  unfold every in P. rewrite A, app_nil_r in P. exact P.
Qed.
Lemma fits_app str lasting : forall os1 os2 st, fits_all str lasting st (os1 ++ os2) -> fits_all str lasting st os1 /\ forall st' zs, drun str st os1 = Ok (st', zs) -> fits_all str lasting st' os2.
Proof.
  induction os1 as [|o os1 IH]; intros os2 st F.
  - split; [exact I|]. intros st' zs H. injection H as <- <-. exact F.
  - destruct F as [F0 F1]. split.
    + split; [exact F0|]. intros st' z H. exact (proj1 (IH _ _ (F1 _ _ H))).
    + intros st' zs H. cbn [drun] in H. destruct (dstep str st o) as [[st1 z]|] eqn:E; cbn [obind] in H; [|discriminate]. destruct (drun str st1 os1) as [[st2 zs2]|] eqn:E2; cbn [obind] in H; [|discriminate].
      injection H as <- <-. exact (proj2 (IH _ _ (F1 _ _ eq_refl)) _ _ E2).
Qed.
Lemma drun_app str : forall os1 os2 st st1 zs1 st2 zs2, drun str st os1 = Ok (st1, zs1) -> drun str st1 os2 = Ok (st2, zs2) -> drun str st (os1 ++ os2) = Ok (st2, zs1 ++ zs2).
Proof.
  induction os1 as [|o os1 IH]; intros os2 st st1 zs1 st2 zs2 H1 H2; cbn [drun app] in *.
  - injection H1 as <- <-. exact H2.
  - destruct (dstep str st o) as [[sa z]|]; cbn [obind] in *; [|discriminate]. destruct (drun str sa os1) as [[sb zs]|] eqn:E; cbn [obind] in H1; [|discriminate].
    injection H1 as <- <-. rewrite (IH _ _ _ _ _ _ E H2). reflexivity.
Qed.
Theorem valid_until : forall str lasting os1 h k v kd vd os2, k <> 0 -> v <> 0 ->
  fits_all str lasting dst0 (os1 ++ OSet h k v kd vd :: os2) -> Forall (apart str h (str k)) os2 ->
  exists st zs, drun str dst0 (os1 ++ OSet h k v kd vd :: os2) = Ok (st, zs) /\ (vd = true -> ~ gone st v) /\
    forall k2, k2 <> 0 -> ~ gone st k2 -> str k2 = str k -> dstep str st (OGet h k2) = Ok (st, v).
Proof.
  intros str lasting os1 h k v kd vd os2 K0 V0 F A. destruct (fits_app _ _ _ _ _ F) as [F1 F2].
  destruct (run_ok _ _ _ _ _ _ (inv0 str lasting) (holds0 str) F1) as (st1 & E1 & V1 & (m1 & n1 & R1) & _). specialize (F2 _ _ E1). destruct F2 as [FS F3].
  destruct FS as ((t & H) & G0 & G1). destruct (G1 V0) as (FK & FV & FD).
  assert (X : exists st2, dstep str st1 (OSet h k v kd vd) = Ok (st2, 0) /\ inv str lasting st2 /\ holds str (store m1 h (str k) v) n1 st2 /\ exists t', nth_error (d_tabs st2) h = Some (Some t') /\ In (mkE k kd v vd) t').
  { destruct (hreplace_ok str lasting m1 n1 st1 h t (mkE k kd v vd) V1 R1 H) as (st2 & E2 & (V2 & P2 & R2) & _ & W).
    - eapply given_nodup; [apply (i_once _ _ _ V1)|intros ->; exact FK|exact FV|exact FD].
    - intros p I. apply olist_owns in I. destruct I as [[I <-]|[I <-]]; cbn in *; [subst kd; apply FK|apply FV; exact I].
    - cbn. intros ->. exact FK.
    - exists st2. split; [|split; [exact V2|split; [exact R2|exact W]]]. cbn [dstep]. apply Z.eqb_neq in K0, V0. rewrite K0, V0. apply Z.eqb_neq in K0, V0.
      rewrite reads_ok; [|exact K0|destruct kd; [apply FK|eapply lasting_live; eassumption]]. cbn [obind]. rewrite E2. reflexivity. }
  destruct X as (st2 & E2 & V2 & R2 & t2 & H2 & I2). specialize (F3 _ _ E2).
  destruct (run_ok _ _ _ _ _ _ V2 R2 F3) as (st3 & E3 & V3 & _ & _ & T). destruct (T _ _ A _ _ H2 I2 eq_refl) as (t3 & H3 & I3).
  exists st3. eexists. split; [eapply drun_app; [exact E1|]; cbn [drun]; rewrite E2; cbn [obind]; rewrite E3; reflexivity|]. split.
  - intros ->. intros G. assert (O : owned st3 v) by (exists h, t3, (mkE k kd v true); split; [exact H3|split; [exact I3|right; auto]]).
    apply owned_all in O. eapply nodup_apart; [apply (i_once _ _ _ V3)|exact G|exact O].
  - intros k2 N2 G2 Q. cbn [dstep]. apply Z.eqb_neq in N2. rewrite N2. apply Z.eqb_neq in N2. rewrite reads_ok by auto. cbn [obind]. rewrite (tab_ok _ _ _ H3). cbn [obind].
    rewrite (inv_lookup _ _ _ _ _ _ V3 H3). cbn [obind]. pose proof (val_unique str (str k2) t3 _ (i_names _ _ _ V3 _ _ H3) I3 (eq_sym Q)) as U. unfold val_in in U. rewrite U. reflexivity.
Qed.
(** ** What goes wrong *)
Theorem null_key : forall str st h k kd vd st' z, dstep str st (OSet h k 0 kd vd) = Ok (st', z) ->
  dstep str st (OSet h k 0 false false) = Ok (st', z) /\ (~ owned st k -> ~ gone st k -> ~ owned st' k /\ ~ gone st' k).
Proof.
  intros str st h k kd vd st' z H. split; [exact H|]. cbn [dstep] in H. destruct (k =? 0); [injection H as <- _; auto|].
  unfold reads in H. destruct (_ || _); [discriminate|]. cbn [obind] in H. rewrite Z.eqb_refl in H. unfold hremove in H.
  unfold tab in H. destruct (nth_error (d_tabs st) h) as [[t|]|] eqn:E; cbn [obind] in H; try discriminate. unfold lookup in H. destruct (keys_live st t); [|discriminate]. cbn [obind] in H.
  destruct (take str (str k) t) as [[e t']|] eqn:T; [|injection H as <- _; auto].
  destruct (take_some _ _ _ _ _ T) as [Q P]. intros O G.
  assert (NE : ~ In k (olist e)).
  { intros I. apply O. exists h, t, e. split; [exact E|]. split; [eapply Permutation_in; [apply Permutation_sym; exact P|left; reflexivity]|apply olist_owns; exact I]. }
  assert (OT : forall fr, ~ owned (mkD (set_nth (d_tabs st) h (Some t')) fr) k).
  { intros fr (h1 & t1 & e1 & H1 & I1 & W). cbn [d_tabs] in H1. destruct (Nat.eq_dec h h1) as [<-|D].
    - rewrite (set_nth_same _ _ _ _ E) in H1. injection H1 as <-. apply O. exists h, t, e1. split; [exact E|]. split; [eapply Permutation_in; [apply Permutation_sym; exact P|right; exact I1]|exact W].
    - rewrite set_nth_other in H1 by exact D. apply O. exists h1, t1, e1. auto. }
  unfold cleanup, free_block, set_tab in H. cbn [d_tabs d_freed] in H. unfold olist in NE. unfold gone in *.
  destruct (e_kd e), (e_vd e); cbn [obind d_tabs d_freed] in H; repeat (match type of H with context [if live ?a ?b then _ else _] => destruct (live a b) end; cbn [obind d_tabs d_freed] in H); cbn [obind] in H; try discriminate; injection H as <- _; (split; [apply OT|]); cbn [d_freed];
  rewrite ?in_app_iff; cbn in *; intuition.
Qed.
Theorem same_value : forall str st h t k e, nth_error (d_tabs st) h = Some (Some t) -> k <> 0 -> In e t -> str (e_key e) = str k -> NoDup (names str t) -> e_vd e = true -> e_val e <> 0 ->
  forall st' z, dstep str st (OSet h k (e_val e) false true) = Ok (st', z) -> gone st' (e_val e) /\ owned st' (e_val e) /\ dstep str st' (ORelease h) = UB.
Proof.
  intros str st h t k e H K I Q N VD V0 st' z E. cbn [dstep] in E. apply Z.eqb_neq in K, V0. rewrite K, V0 in E. unfold reads in E. destruct (_ || _); [discriminate|]. cbn [obind] in E.
  unfold hreplace in E. rewrite (tab_ok _ _ _ H) in E. cbn [obind e_key] in E. unfold lookup in E. destruct (keys_live st t); [|discriminate]. cbn [obind] in E.
  destruct (take str (str k) t) as [[x t']|] eqn:T; [|exfalso; exact (take_none _ _ _ T e I Q)].
  destruct (take_some _ _ _ _ _ T) as [Q1 P]. assert (x = e).
  { destruct (names_rest _ _ _ _ N P) as [_ A]. apply (Permutation_in _ P) in I. destruct I as [I|I]; [exact I|]. exfalso. apply (A e I). congruence. }
  subst x. set (y := mkE k false (e_val e) true) in *.
  assert (X : exists fr, st' = mkD (set_nth (d_tabs st) h (Some (t' ++ [y]))) (fr ++ [e_val e])).
  { unfold cleanup in E. rewrite VD in E. unfold free_block, set_tab in E. cbn [d_tabs d_freed] in E.
    destruct (e_kd e); cbn [obind d_tabs d_freed] in E; repeat (match type of E with context [if live ?a ?b then _ else _] => destruct (live a b) end; cbn [obind d_tabs d_freed] in E); cbn [obind] in E; try discriminate; injection E as <- _; eauto. }
  destruct X as (fr & ->). assert (G : forall tabs more, gone (mkD tabs ((fr ++ [e_val e]) ++ more)) (e_val e)) by (intros; unfold gone; cbn; rewrite !in_app_iff; cbn; auto).
  pose proof (set_nth_same _ _ (Some (t' ++ [y])) _ H) as H'.
  split; [specialize (G (set_nth (d_tabs st) h (Some (t' ++ [y]))) []); rewrite app_nil_r in G; exact G|]. split.
  - exists h, (t' ++ [y]), y. split; [exact H'|]. split; [apply in_or_app; right; left; reflexivity|right; auto].
  - cbn [dstep]. unfold tab. cbn [d_tabs]. rewrite H'. cbn [obind].
    assert (U : forall r st0, gone st0 (e_val e) -> cleanup_all st0 (r ++ [y]) = UB).
    { induction r as [|a r IH]; intros st0 G0.
      - cbn [app cleanup_all]. unfold cleanup. cbn [y e_kd e_vd e_val obind]. unfold free_block. assert (live st0 (e_val e) = false) as ->; [|reflexivity].
        destruct (live st0 (e_val e)) eqn:L; [|reflexivity]. apply live_spec in L. contradiction.
      - cbn [app cleanup_all]. destruct (cleanup st0 a) as [st1|] eqn:C; [|reflexivity]. cbn [obind]. apply IH. unfold cleanup, free_block in C. unfold gone in *.
        destruct (e_kd a), (e_vd a); cbn [obind d_tabs d_freed] in C; repeat (match type of C with context [if live ?p ?q then _ else _] => destruct (live p q) end; cbn [obind d_tabs d_freed] in C); cbn [obind] in C; try discriminate; injection C as <-; cbn [d_freed]; rewrite ?in_app_iff; auto. }
    rewrite U; [reflexivity|]. specialize (G (set_nth (d_tabs st) h (Some (t' ++ [y]))) []). rewrite app_nil_r in G. exact G.
Qed.

Theorem again : forall str lasting os h t k e st zs, fits_all str lasting dst0 os -> drun str dst0 os = Ok (st, zs) ->
  nth_error (d_tabs st) h = Some (Some t) -> In e t -> e_vd e = true -> e_val e <> 0 -> k <> 0 -> str k = str (e_key e) ->
  forall st' z, dstep str st (OSet h k (e_val e) false true) = Ok (st', z) -> gone st' (e_val e) /\ owned st' (e_val e) /\ dstep str st' (ORelease h) = UB.
Proof.
  intros str lasting os h t k e st zs F E H I VD V0 K Q. destruct (run_ok _ _ _ _ _ _ (inv0 str lasting) (holds0 str) F) as (st1 & E1 & V & _). assert (st1 = st) by congruence. subst.
  eapply same_value; eauto. eapply (i_names _ _ _ V); eassumption.
Qed.
(** ** Histories that can be computed *)
Definition freshb (lasting : Z -> bool) (st : dst) (p : Z) : bool := negb (p =? 0) && live st p && negb (existsb (Z.eqb p) (all (d_tabs st))) && negb (lasting p).
Definition usableb (st : dst) (h : nat) : bool := match nth_error (d_tabs st) h with Some (Some _) => true | _ => false end.
Definition fitsb (lasting : Z -> bool) (st : dst) (o : dop) : bool :=
  match o with
  | ONew => true
  | OSet h k v kd vd => usableb st h && (if v =? 0 then live st k else (if kd then freshb lasting st k else lasting k) && (if vd then freshb lasting st v else true) && negb (kd && vd && (k =? v)))
  | ODel _ h k => usableb st h && negb (k =? 0) && live st k
  | OGet h k => usableb st h && live st k
  | ORelease h | OMove h => usableb st h
  | OFree p => freshb lasting st p
  | OUse p => negb (p =? 0) && live st p
  end.
Fixpoint fitsb_all (str : Z -> bytes) (lasting : Z -> bool) (st : dst) (os : list dop) : bool :=
  match os with [] => true | o :: os => fitsb lasting st o && match dstep str st o with Ok (st', _) => fitsb_all str lasting st' os | UB => false end end.
Lemma usableb_ok st h : usableb st h = true -> usable st h.
Proof. unfold usableb, usable. destruct (nth_error (d_tabs st) h) as [[t|]|]; try discriminate. eauto. Qed.
Lemma freshb_ok lasting st p : freshb lasting st p = true -> fresh lasting st p.
Proof.
  unfold freshb, fresh. intros H. apply andb_prop in H. destruct H as [H H4]. apply andb_prop in H. destruct H as [H H3]. apply andb_prop in H. destruct H as [H1 H2].
  apply negb_true_iff in H1, H3, H4. apply Z.eqb_neq in H1. apply live_spec in H2. split; [exact H1|]. split; [exact H2|]. split; [|exact H4].
  intros O. apply owned_all in O. assert (existsb (Z.eqb p) (all (d_tabs st)) = true); [|congruence]. apply existsb_exists. exists p. split; [exact O|apply Z.eqb_refl].
Qed.
Lemma fitsb_ok lasting st o : fitsb lasting st o = true -> fits lasting st o.
Proof.
  destruct o as [|h k v kd vd|chan h k|h k|h|h|p|p]; cbn [fitsb fits]; intros H; auto using usableb_ok, freshb_ok.
  - apply andb_prop in H. destruct H as [H1 H2]. split; [apply usableb_ok, H1|]. destruct (v =? 0) eqn:V.
    + apply Z.eqb_eq in V. split; [intros _ _; apply live_spec, H2|intros C; contradiction].
    + apply Z.eqb_neq in V. split; [intros C; contradiction|]. intros _. apply andb_prop in H2. destruct H2 as [H2 H4]. apply andb_prop in H2. destruct H2 as [H2 H3].
      split; [destruct kd; [apply freshb_ok, H2|exact H2]|]. split; [intros ->; apply freshb_ok, H3|]. intros -> ->. cbn in H4. apply negb_true_iff, Z.eqb_neq in H4. exact H4.
  - apply andb_prop in H. destruct H as [H H2]. apply andb_prop in H. destruct H as [H H1]. split; [apply usableb_ok, H|]. split; [apply negb_true_iff, Z.eqb_neq in H1; exact H1|apply live_spec, H2].
  - apply andb_prop in H. destruct H as [H H1]. split; [apply usableb_ok, H|apply live_spec, H1].
  - apply andb_prop in H. destruct H as [H H1]. split; [apply negb_true_iff, Z.eqb_neq in H; exact H|apply live_spec, H1].
Qed.
Lemma fitsb_all_ok str lasting : forall os st, fitsb_all str lasting st os = true -> fits_all str lasting st os.
Proof.
  induction os as [|o os IH]; intros st H; [exact I|]. cbn [fitsb_all] in H. apply andb_prop in H. destruct H as [H1 H2]. split; [apply fitsb_ok, H1|].
  intros st' z E. rewrite E in H2. apply IH, H2.
Qed.
