(** Proofs about the MIME headers set by the application. *)
From Verif Require Import Base MimeModel MimeSpec HdrModel HdrSpec MimeProofs.

Ltac conj := repeat match goal with |- _ /\ _ => split end.

Lemma same_cc : forall a b, same_name a b = casecmp a b.
Proof. exact same_casecmp. Qed.

Lemma fast_index_same : forall a b l, casecmp a b = true -> fast_index a l = fast_index b l.
Proof.
  intros a b l H. induction l as [|k r IH]; cbn [fast_index]; auto.
  rewrite (casecmp_l a b k H), IH. reflexivity.
Qed.
Lemma usual_same : forall a b, casecmp a b = true -> usual a = usual b.
Proof. intros. unfold usual. apply fast_index_same. auto. Qed.
Lemma fast_index_lt : forall a l k, fast_index a l = Some k -> (k < length l)%nat.
Proof.
  intros a l. induction l as [|x r IH]; cbn [fast_index]; intros k H; [discriminate|].
  destruct (casecmp a x); [inversion H; cbn; lia|].
  destruct (fast_index a r) as [j|]; [|discriminate]. cbn in H. inversion H; subst. cbn. specialize (IH j eq_refl). lia.
Qed.
Lemma usual_lt : forall a k, usual a = Some k -> (k < 5)%nat.
Proof. intros a k H. apply fast_index_lt in H. exact H. Qed.
Lemma fast_index_nth : forall a l k, fast_index a l = Some k -> exists x, nth_error l k = Some x /\ casecmp a x = true.
Proof.
  intros a l. induction l as [|x r IH]; cbn [fast_index]; intros k H; [discriminate|].
  destruct (casecmp a x) eqn:E; [inversion H; exists x; auto|].
  destruct (fast_index a r) as [j|]; [|discriminate]. cbn in H. inversion H; subst. cbn [nth_error]. auto.
Qed.
(** Two names with the same reference are the same name. *)
Lemma usual_inj : forall a b k, usual a = Some k -> usual b = Some k -> casecmp a b = true.
Proof.
  intros a b k Ha Hb. apply fast_index_nth in Ha, Hb. destruct Ha as (x & Hx & Ha), Hb as (y & Hy & Hb).
  rewrite Hx in Hy. inversion Hy; subst y. rewrite (casecmp_r a b x Hb). exact Ha.
Qed.
Lemma is_usual_eq : forall n, is_usual n = match usual n with Some _ => true | None => false end.
Proof.
  intro n. unfold is_usual, usual, usual_names, fast_names.
  change (map ztext _) with [h_ctype; h_cte; h_mver; h_cid; h_cdesc].
  cbn [existsb fast_index].
  rewrite (same_cc n h_ctype), (same_cc n h_cte), (same_cc n h_mver), (same_cc n h_cid), (same_cc n h_cdesc).
  destruct (casecmp n h_ctype); [reflexivity|]. destruct (casecmp n h_cte); [reflexivity|].
  destruct (casecmp n h_mver); [reflexivity|]. destruct (casecmp n h_cid); [reflexivity|].
  destruct (casecmp n h_cdesc); reflexivity.
Qed.

(** * The table *)
Lemma upd_nth_length : forall A (l : list A) i x, length (upd_nth l i x) = length l.
Proof. induction l; destruct i; cbn; auto. Qed.
Lemma nth_upd_same : forall A (l : list A) i x, (i < length l)%nat -> nth_error (upd_nth l i x) i = Some x.
Proof. induction l; destruct i; cbn; intros; try lia; auto. apply IHl. lia. Qed.
Lemma nth_upd_other : forall A (l : list A) i j x, i <> j -> nth_error (upd_nth l i x) j = nth_error l j.
Proof. induction l; destruct i, j; cbn; intros; auto; try lia. Qed.
Lemma nth_lt : forall A (l : list A) i x, nth_error l i = Some x -> (i < length l)%nat.
Proof. intros. apply nth_error_Some. congruence. Qed.
Lemma nth_app_l : forall A (l r : list A) i x, nth_error l i = Some x -> nth_error (l ++ r) i = Some x.
Proof. intros. rewrite nth_error_app1; auto. eapply nth_lt; eauto. Qed.
Lemma nth_app_new : forall A (l : list A) x, nth_error (l ++ [x]) (length l) = Some x.
Proof. intros. rewrite nth_error_app2 by lia. rewrite Nat.sub_diag. reflexivity. Qed.

Inductive chain (ns : list hnode) (name : bytes) : option nat -> list (bytes * bytes) -> Prop :=
| ch_nil : chain ns name None []
| ch_cons : forall i n l, nth_error ns i = Some n -> casecmp name (n_name n) = true ->
    chain ns name (n_next n) l -> chain ns name (Some i) ((n_name n, n_content n) :: l).

Inductive hw (ns : list hnode) (name : bytes) : option nat -> option nat -> Prop :=
| hw_nil : hw ns name None None
| hw_hit : forall i n, nth_error ns i = Some n -> casecmp name (n_name n) = true -> hw ns name (Some i) (Some i)
| hw_go : forall i n p, nth_error ns i = Some n -> casecmp name (n_name n) = false ->
    hw ns name (n_nh n) p -> hw ns name (Some i) p.

Definition lookup (s : hst) (name : bytes) (p : option nat) : Prop :=
  match usual name with
  | Some k => nth_error (h_fast s) k = Some p
  | None => hw (h_nodes s) name (h_first s) p
  end.

Definition wfn (ns : list hnode) : Prop :=
  forall i n, nth_error ns i = Some n ->
    (forall j, n_next n = Some j -> (i < j < length ns)%nat) /\
    (forall j, n_nh n = Some j -> (j < i)%nat).
Definition hinv (s : hst) (E : bytes -> list (bytes * bytes)) : Prop :=
  wfn (h_nodes s) /\ (forall i, h_first s = Some i -> (i < length (h_nodes s))%nat) /\ length (h_fast s) = 5%nat /\
  (forall k i, nth_error (h_fast s) k = Some (Some i) -> exists n, nth_error (h_nodes s) i = Some n /\ n_next n = None /\
     usual (n_name n) = Some k) /\
  (forall name, exists p, lookup s name p /\ chain (h_nodes s) name p (E name)).

(** * The walks end *)
Lemma walk_headers_hw : forall ns name p q, hw ns name p q ->
  wfn ns -> forall fuel first fast, match p with Some i => (i < fuel)%nat | None => True end ->
  walk_headers fuel (mkHS ns first fast) p name = Ok (Some q).
Proof.
  induction 1; intros W fuel first fast Hf.
  - destruct fuel; reflexivity.
  - destruct fuel; [lia|]. cbn [walk_headers h_nodes]. rewrite H, H0. reflexivity.
  - destruct fuel; [lia|]. cbn [walk_headers h_nodes]. rewrite H, H0. apply IHhw; auto.
    destruct (n_nh n) eqn:En; auto. destruct (W i n H) as (_ & W2). specialize (W2 _ En). lia.
Qed.
Lemma hinv_find : forall s E name p, hinv s E -> lookup s name p -> h_find s name = Ok (Some p).
Proof.
  intros s E name p (W & F & _ & _ & _) L. unfold h_find, lookup in *. destruct (usual name).
  - rewrite L. reflexivity.
  - destruct s as [ns first fast]. cbn [h_nodes h_first h_fast] in *. eapply walk_headers_hw; eauto.
    destruct first; auto. specialize (F _ eq_refl). lia.
Qed.
Lemma chain_walk : forall ns name p l, chain ns name p l -> wfn ns -> forall fuel first fast,
  match p with Some i => (length ns < fuel + i)%nat | None => True end ->
  h_walk fuel (mkHS ns first fast) p = Ok (Some l).
Proof.
  induction 1; intros W fuel first fast Hf.
  - destruct fuel; reflexivity.
  - pose proof (nth_lt _ _ _ _ H). destruct fuel; [lia|]. cbn [h_walk h_nodes]. rewrite H.
    rewrite IHchain; auto.
    destruct (n_next n) eqn:En; auto. destruct (W i n H) as (W1 & _). specialize (W1 _ En). lia.
Qed.
Lemma chain_count : forall ns name p l, chain ns name p l -> wfn ns -> forall i, p = Some i -> forall fuel first fast c,
  (length ns < fuel + i)%nat -> h_count fuel (mkHS ns first fast) i c = Ok (Some (c + zlen l - 1)).
Proof.
  induction 1; intros W i' Hp fuel first fast c Hf; inversion Hp; subst i'.
  pose proof (nth_lt _ _ _ _ H). destruct fuel; [lia|]. cbn [h_count h_nodes]. rewrite H.
  destruct (n_next n) as [j|] eqn:En.
  - destruct (W i n H) as (W1 & _). specialize (W1 _ En).
    rewrite (IHchain W j eq_refl) by lia. f_equal. f_equal. unfold zlen. cbn [length]. lia.
  - inversion H1; subst. cbn. f_equal. f_equal. lia.
Qed.
(** The last node of a chain. *)
Lemma chain_last : forall ns name p l, chain ns name p l -> wfn ns -> forall i, p = Some i -> 
  exists k n, nth_error ns k = Some n /\ n_next n = None /\ casecmp name (n_name n) = true /\
    (forall fuel first fast, (length ns < fuel + i)%nat -> last_of fuel (mkHS ns first fast) i = Ok (Some k)) /\
    (** adding a node after it *)
    (forall x, n_next x = None -> casecmp name (n_name x) = true ->
       chain (upd_nth ns k (mkHN (n_name n) (n_content n) (Some (length ns)) (n_nh n)) ++ [x]) name p
             (l ++ [(n_name x, n_content x)])).
Proof.
  induction 1; intros W i' Hp; inversion Hp; subst i'.
  pose proof (nth_lt _ _ _ _ H) as Hi.
  destruct (n_next n) as [j|] eqn:En.
  - destruct (IHchain W j eq_refl) as (k & m & Hk & Hn & Hc & Hl & Ha).
    exists k, m. conj; auto.
    + intros fuel first fast Hf. destruct fuel; [lia|]. cbn [last_of h_nodes]. rewrite H, En.
      apply Hl. destruct (W i n H) as (W1 & _). specialize (W1 _ En). lia.
    + intros x Hx Hcx. cbn [app].
      assert (k <> i) by (intro; subst; rewrite H in Hk; inversion Hk; subst; congruence).
      apply ch_cons; auto.
      * apply nth_app_l. rewrite nth_upd_other by auto. exact H.
      * rewrite En. apply Ha; auto.
  - inversion H1; subst. exists i, n. conj; auto.
    + intros fuel first fast Hf. destruct fuel; [lia|]. cbn [last_of h_nodes]. rewrite H, En. reflexivity.
    + intros x Hx Hcx. cbn [app].
      assert (C : chain (upd_nth ns i (mkHN (n_name n) (n_content n) (Some (length ns)) (n_nh n)) ++ [x]) name
                  (n_next (mkHN (n_name n) (n_content n) (Some (length ns)) (n_nh n))) [(n_name x, n_content x)]).
      { cbn [n_next]. apply ch_cons; auto.
        - rewrite <- (upd_nth_length _ ns i (mkHN (n_name n) (n_content n) (Some (length ns)) (n_nh n))) at 2. apply nth_app_new.
        - rewrite Hx. constructor. }
      apply (ch_cons _ name i (mkHN (n_name n) (n_content n) (Some (length ns)) (n_nh n))); auto.
      apply nth_app_l. apply nth_upd_same. exact Hi.
Qed.

(** * Frames of the relations *)
Lemma chain_ext : forall ns name p l x, chain ns name p l -> chain (ns ++ [x]) name p l.
Proof. induction 1; econstructor; eauto. apply nth_app_l. auto. Qed.
Lemma hw_ext : forall ns name p q x, hw ns name p q -> hw (ns ++ [x]) name p q.
Proof.
  induction 1; [constructor| |]. - eapply hw_hit; eauto. apply nth_app_l; eauto.
  - eapply hw_go; eauto. apply nth_app_l; eauto.
Qed.
Lemma chain_upd_other : forall ns name p l k n m, chain ns name p l -> nth_error ns k = Some n ->
  casecmp name (n_name n) = false -> chain (upd_nth ns k m) name p l.
Proof.
  induction 1; intros Hk Hc; econstructor; eauto. rewrite nth_upd_other; auto.
  intro; subst. rewrite H in Hk. inversion Hk; subst. congruence.
Qed.
(** The walk over the heads does not look at [next]. *)
Lemma hw_upd : forall ns name p q k n m, hw ns name p q -> nth_error ns k = Some n ->
  n_name m = n_name n -> n_nh m = n_nh n -> hw (upd_nth ns k m) name p q.
Proof.
  induction 1; intros Hk Hn Hh; [constructor| |].
  - destruct (Nat.eq_dec k i) as [->|Hd].
    + rewrite H in Hk. inversion Hk; subst. apply hw_hit with m.
      * apply nth_upd_same. eapply nth_lt; eauto. * congruence.
    + apply hw_hit with n0; auto. rewrite nth_upd_other; auto.
  - destruct (Nat.eq_dec k i) as [->|Hd].
    + rewrite H in Hk. inversion Hk; subst. apply hw_go with m.
      * apply nth_upd_same. eapply nth_lt; eauto. * congruence. * rewrite Hh. auto.
    + apply hw_go with n0; auto. rewrite nth_upd_other; auto.
Qed.
Lemma hw_same : forall ns a b p q, casecmp a b = true -> hw ns a p q -> hw ns b p q.
Proof.
  induction 2; [constructor| |].
  - eapply hw_hit; eauto. rewrite <- (casecmp_l a b _ H). auto.
  - eapply hw_go; eauto. rewrite <- (casecmp_l a b _ H). auto.
Qed.
Lemma chain_same : forall ns a b p q, casecmp a b = true -> chain ns a p q -> chain ns b p q.
Proof. induction 2; constructor; auto. rewrite <- (casecmp_l a b _ H). auto. Qed.
Lemma lookup_same : forall s a b p, casecmp a b = true -> lookup s a p -> lookup s b p.
Proof.
  intros s a b p H L. unfold lookup in *. rewrite <- (usual_same a b H). destruct (usual a); auto.
  eapply hw_same; eauto.
Qed.
Lemma hw_fun : forall ns name p q, hw ns name p q -> forall q', hw ns name p q' -> q = q'.
Proof.
  induction 1; intros q' H'; inversion H'; subst; auto; try congruence.
  rewrite H in H3. inversion H3; subst. auto.
Qed.
Lemma lookup_fun : forall s name p q, lookup s name p -> lookup s name q -> p = q.
Proof. intros s name p q. unfold lookup. destruct (usual name); [congruence|]. intros. eapply hw_fun; eauto. Qed.
Lemma chain_none : forall ns name l, chain ns name None l -> l = [].
Proof. intros. inversion H. auto. Qed.
Lemma chain_some : forall ns name i l, chain ns name (Some i) l -> l <> [].
Proof. intros. inversion H. discriminate. Qed.
Lemma hw_found : forall ns name p q, hw ns name p q -> forall i, q = Some i -> exists n, nth_error ns i = Some n /\ casecmp name (n_name n) = true.
Proof. induction 1; intros j Hq; inversion Hq; subst; eauto. Qed.

(** * The effect of a header stored *)
Definition stored (E : bytes -> list (bytes * bytes)) (n c : bytes) (name : bytes) : list (bytes * bytes) :=
  seen_step name (E name) (HSet n c).

Lemma store_new : forall s E n c, hinv s E -> lookup s n None ->
  exists s', h_store s n c = Ok (Some s') /\ hinv s' (stored E n c).
Proof.
  intros s E n c I L. unfold h_store. rewrite (hinv_find s E n None I L). cbn [obind].
  eexists. split; [reflexivity|].
  destruct s as [ns first fast]. destruct I as (W & F & L5 & Fa & G). cbn [h_nodes h_first h_fast] in *.
  set (x := mkHN n c None first).
  assert (En : E n = []).
  { destruct (G n) as (p & Lp & Cp). rewrite (lookup_fun _ n p None Lp L) in Cp. apply chain_none in Cp. auto. }
  assert (W' : wfn (ns ++ [x])).
  { intros i m Hm. destruct (Nat.eq_dec i (length ns)) as [->|Hd].
    - rewrite nth_app_new in Hm. inversion Hm; subst m. cbn. split; [discriminate|]. intros j Hj. apply F in Hj. exact Hj.
    - assert (nth_error ns i = Some m).
      { pose proof (nth_lt _ _ _ _ Hm) as Hlt. rewrite app_length in Hlt. cbn in Hlt. rewrite nth_error_app1 in Hm by lia. auto. }
      destruct (W i m H) as (W1 & W2). split; auto. intros j Hj. specialize (W1 j Hj). rewrite app_length. cbn. lia. }
  set (s1 := mkHS (ns ++ [x]) (Some (length ns)) fast).
  assert (Hn : h_nodes (update_fast s1 (length ns) n) = ns ++ [x]).
  { unfold update_fast. destruct (usual n); reflexivity. }
  assert (Hfi : h_first (update_fast s1 (length ns) n) = Some (length ns)).
  { unfold update_fast. destruct (usual n); reflexivity. }
  assert (Hfa : h_fast (update_fast s1 (length ns) n) = match usual n with Some k => upd_nth fast k (Some (length ns)) | None => fast end).
  { unfold update_fast. destruct (usual n); reflexivity. }
  unfold hinv. rewrite Hn, Hfi, Hfa. conj; auto.
  - intros i Hi. inversion Hi. rewrite app_length. cbn. lia.
  - destruct (usual n); [rewrite upd_nth_length|]; auto.
  - intros k i Hk. destruct (usual n) as [k0|] eqn:Eu.
    + destruct (Nat.eq_dec k0 k) as [->|Hd].
      * rewrite nth_upd_same in Hk by (apply usual_lt in Eu; lia). inversion Hk; subst. exists x. split; [apply nth_app_new|auto].
      * rewrite nth_upd_other in Hk by auto. destruct (Fa k i Hk) as (m & Hm & Hx). exists m. split; auto. apply nth_app_l; auto.
    + destruct (Fa k i Hk) as (m & Hm & Hx). exists m. split; auto. apply nth_app_l; auto.
  - intro name. destruct (casecmp name n) eqn:Ec.
    + exists (Some (length ns)). split.
      * unfold lookup. rewrite (usual_same name n Ec), Hfa, Hn, Hfi. destruct (usual n) as [k|] eqn:Eu.
        -- apply nth_upd_same. apply usual_lt in Eu. lia.
        -- apply hw_hit with x; [apply nth_app_new|]. exact Ec.
      * unfold stored, seen_step. rewrite same_cc, Ec.
        assert (E name = []).
        { destruct (G name) as (p & Lp & Cp). pose proof (lookup_same _ name n p Ec Lp) as Lp'.
          rewrite (lookup_fun _ n p None Lp' L) in Cp. apply chain_none in Cp. auto. }
        rewrite H. replace (if is_usual name then [(n, c)] else [] ++ [(n, c)]) with [(n, c)] by (destruct (is_usual name); auto).
        apply (ch_cons _ name (length ns) x); [apply nth_app_new|exact Ec|constructor].
    + destruct (G name) as (p & Lp & Cp). exists p. split.
      * unfold lookup in *. rewrite Hfa, Hn, Hfi. cbn [h_nodes h_first h_fast] in *. destruct (usual name) as [k|] eqn:Eu.
        -- destruct (usual n) as [k0|] eqn:Eu0; auto. rewrite nth_upd_other; auto.
           intro; subst. assert (casecmp name n = true) by (eapply usual_inj; eauto). congruence.
        -- apply hw_go with x; [apply nth_app_new|exact Ec|]. cbn [n_nh x]. apply hw_ext. exact Lp.
      * unfold stored, seen_step. rewrite same_cc, Ec. apply chain_ext. exact Cp.
Qed.

Lemma store_more : forall s E n c j, hinv s E -> lookup s n (Some j) ->
  exists s', h_store s n c = Ok (Some s') /\ hinv s' (stored E n c).
Proof.
  intros s E n c j I L. unfold h_store. rewrite (hinv_find s E n (Some j) I L). cbn [obind].
  destruct s as [ns first fast]. destruct I as (W & F & L5 & Fa & G). cbn [h_nodes h_first h_fast] in *.
  destruct (G n) as (p & Lp & Cp). rewrite (lookup_fun _ n p (Some j) Lp L) in Cp. clear p Lp.
  destruct (chain_last ns n (Some j) (E n) Cp W j eq_refl) as (k & m & Hk & Hn0 & Hc & Hl & Ha).
  rewrite Hl by lia. cbn [obind]. rewrite Hk.
  eexists. split; [reflexivity|].
  set (m' := mkHN (n_name m) (n_content m) (Some (length ns)) (n_nh m)) in *.
  set (x := mkHN n c None None).
  pose proof (nth_lt _ _ _ _ Hk) as Hkl.
  assert (Hlen : length (upd_nth ns k m') = length ns) by apply upd_nth_length.
  assert (Hx : nth_error (upd_nth ns k m' ++ [x]) (length ns) = Some x) by (rewrite <- Hlen; apply nth_app_new).
  assert (W' : wfn (upd_nth ns k m' ++ [x])).
  { intros i y Hy. rewrite app_length, Hlen. cbn [length].
    destruct (Nat.eq_dec i (length ns)) as [->|Hd].
    - rewrite Hx in Hy. inversion Hy; subst y. cbn. split; discriminate.
    - pose proof (nth_lt _ _ _ _ Hy) as Hlt. rewrite app_length, Hlen in Hlt. cbn in Hlt.
      rewrite nth_error_app1 in Hy by lia.
      destruct (Nat.eq_dec k i) as [->|Hd2].
      + rewrite nth_upd_same in Hy by auto. inversion Hy; subst y. unfold m'. cbn [n_next n_nh].
        destruct (W i m Hk) as (W1 & W2). split; auto. intros j0 Hj. inversion Hj; subst. lia.
      + rewrite nth_upd_other in Hy by auto. destruct (W i y Hy) as (W1 & W2). split; auto. intros j0 Hj. specialize (W1 _ Hj). lia. }
  set (s1 := mkHS (upd_nth ns k m' ++ [x]) first fast).
  assert (Hn : h_nodes (update_fast s1 (length ns) n) = upd_nth ns k m' ++ [x]).
  { unfold update_fast. destruct (usual n); reflexivity. }
  assert (Hfi : h_first (update_fast s1 (length ns) n) = first).
  { unfold update_fast. destruct (usual n); reflexivity. }
  assert (Hfa : h_fast (update_fast s1 (length ns) n) = match usual n with Some k => upd_nth fast k (Some (length ns)) | None => fast end).
  { unfold update_fast. destruct (usual n); reflexivity. }
  unfold hinv. rewrite Hn, Hfi, Hfa. conj; auto.
  - intros i Hi. apply F in Hi. rewrite app_length, Hlen. lia.
  - destruct (usual n); [rewrite upd_nth_length|]; auto.
  - assert (Old : forall k1 i, nth_error fast k1 = Some (Some i) -> usual n <> Some k1 ->
      exists n0, nth_error (upd_nth ns k m' ++ [x]) i = Some n0 /\ n_next n0 = None /\ usual (n_name n0) = Some k1).
    { intros k1 i Hk1 Hd. destruct (Fa k1 i Hk1) as (y & Hy & Hxn & Hu). exists y. split; auto.
      apply nth_app_l. rewrite nth_upd_other; auto.
      intro; subst i. rewrite Hk in Hy. inversion Hy; subst y. rewrite (usual_same n _ Hc) in Hd. contradiction. }
    intros k1 i Hk1. destruct (usual n) as [k0|] eqn:Eu.
    + destruct (Nat.eq_dec k0 k1) as [->|Hd].
      * rewrite nth_upd_same in Hk1 by (apply usual_lt in Eu; lia). injection Hk1 as <-. exists x. split; [exact Hx|split; auto].
      * rewrite nth_upd_other in Hk1 by auto. apply (Old k1 i Hk1). congruence.
    + apply (Old k1 i Hk1). discriminate.
  - intro name. destruct (casecmp name n) eqn:Ec.
    + destruct (usual n) as [k0|] eqn:Eu.
      * exists (Some (length ns)). split.
        -- unfold lookup. rewrite (usual_same name n Ec), Eu, Hfa. apply nth_upd_same. apply usual_lt in Eu. lia.
        -- unfold stored, seen_step. rewrite same_cc, Ec, is_usual_eq, (usual_same name n Ec), Eu.
           apply (ch_cons _ name (length ns) x); [exact Hx|exact Ec|constructor].
      * exists (Some j). split.
        -- unfold lookup in *. rewrite (usual_same name n Ec), Eu. rewrite Eu in L. rewrite Hn, Hfi. cbn [h_nodes h_first] in L.
           apply hw_ext. apply hw_upd with m; auto. apply hw_same with n; auto. rewrite casecmp_sym. exact Ec.
        -- unfold stored, seen_step. rewrite same_cc, Ec, is_usual_eq, (usual_same name n Ec), Eu.
           assert (E name = E n).
           { destruct (G name) as (p & Lp & Cp'). pose proof (lookup_same _ name n p Ec Lp) as Lp'.
             rewrite (lookup_fun _ n p (Some j) Lp' L) in Cp'.
             pose proof (chain_same _ name n _ _ Ec Cp') as C2.
             pose proof (chain_walk _ _ _ _ C2 W (S (length ns)) first fast ltac:(cbn beta iota; lia)) as A1.
             pose proof (chain_walk _ _ _ _ Cp W (S (length ns)) first fast ltac:(cbn beta iota; lia)) as A2. congruence. }
           rewrite H. apply chain_same with n; [rewrite casecmp_sym; exact Ec|].
           apply Ha; [reflexivity|]. apply casecmp_refl.
    + destruct (G name) as (p & Lp & Cp'). exists p. split.
      * unfold lookup in *. rewrite Hfa, Hn, Hfi. cbn [h_nodes h_first h_fast] in *. destruct (usual name) as [k1|] eqn:Eu.
        -- destruct (usual n) as [k0|] eqn:Eu0; auto. rewrite nth_upd_other; auto.
           intro Hkk; rewrite Hkk in Eu0. assert (casecmp name n = true) by (eapply usual_inj; eauto). congruence.
        -- apply hw_ext. apply hw_upd with m; auto.
      * unfold stored, seen_step. rewrite same_cc, Ec. apply chain_ext. apply chain_upd_other with m; auto.
        rewrite <- (casecmp_r name n (n_name m) Hc). exact Ec.
Qed.

Lemma store_ok : forall s E n c, hinv s E -> exists s', h_store s n c = Ok (Some s') /\ hinv s' (stored E n c).
Proof.
  intros s E n c I. assert (I' := I). destruct I' as (_ & _ & _ & _ & G). destruct (G n) as ([j|] & L & _).
  - eapply store_more; eauto.
  - apply store_new; auto.
Qed.

(** * The effect of a removal *)
Definition removed (E : bytes -> list (bytes * bytes)) (n : bytes) (name : bytes) : list (bytes * bytes) :=
  seen_step name (E name) (HDel n).
Definition less (E : list (bytes * bytes)) (n : bytes) (z : Z) : Z :=
  match E with [] => z | (_, c) :: _ => let z' := z - (zlen n + zlen c + 2) in if z' =? 2 then 0 else z' end.

Lemma remove_ok : forall s E n z, hinv s E -> - two31 <= less (E n) n z < two31 ->
  exists s', h_remove s z n = Ok (Some (s', less (E n) n z)) /\ hinv s' (removed E n).
Proof.
  intros s E n z I Hz. assert (I' := I). destruct I' as (W & F & L5 & Fa & G).
  destruct (G n) as (p & L & C). unfold h_remove. rewrite (hinv_find s E n p I L). cbn [obind].
  assert (Same : forall name, casecmp name n = true -> E name = E n).
  { intros name Ec. destruct (G name) as (q & Lq & Cq). pose proof (lookup_same _ name n q Ec Lq) as Lq'.
    rewrite (lookup_fun _ n q p Lq' L) in Cq.
    pose proof (chain_same _ name n _ _ Ec Cq) as C2. destruct s as [ns first fast]. cbn [h_nodes] in *.
    assert (B : match p with Some i => (length ns < S (length ns) + i)%nat | None => True end) by (destruct p; auto; lia).
    pose proof (chain_walk _ _ _ _ C2 W (S (length ns)) first fast B) as A1.
    pose proof (chain_walk _ _ _ _ C W (S (length ns)) first fast B) as A2. congruence. }
  destruct p as [j|].
  - assert (X : exists m l, nth_error (h_nodes s) j = Some m /\ casecmp n (n_name m) = true /\
        E n = (n_name m, n_content m) :: l).
    { inversion C; subst. eauto. }
    destruct X as (m & l & Hm & Hc & He). rewrite Hm. rewrite He in Hz |- *. cbn [less] in *. cbv zeta in *.
    set (z' := z - (zlen n + zlen (n_content m) + 2)) in *.
    assert (Hn' : int_sum z (- (zlen n + zlen (n_content m) + 2)) = Ok z').
    { unfold int_sum. replace (z + - (zlen n + zlen (n_content m) + 2)) with z' by (unfold z'; lia).
      destruct (z' =? 2) eqn:B2.
      - apply Z.eqb_eq in B2. rewrite B2. reflexivity.
      - replace ((- two31 <=? z') && (z' <? two31)) with true by lia. reflexivity. }
    rewrite Hn'. cbn [obind]. eexists. split; [reflexivity|].
    destruct s as [ns first fast]. cbn [h_nodes h_first h_fast] in *.
    set (m' := mkHN (n_name m) (n_content m) None (n_nh m)).
    pose proof (nth_lt _ _ _ _ Hm) as Hj.
    unfold hinv. cbn [h_nodes h_first h_fast]. rewrite upd_nth_length. conj; auto.
    + intros i y Hy. rewrite upd_nth_length. destruct (Nat.eq_dec j i) as [->|Hd].
      * rewrite nth_upd_same in Hy by auto. inversion Hy; subst y. unfold m'. cbn. split; [discriminate|]. apply (W i m Hm).
      * rewrite nth_upd_other in Hy by auto. apply W. exact Hy.
    + intros k i Hk. destruct (Fa k i Hk) as (y & Hy & Hyn & Hyu). destruct (Nat.eq_dec j i) as [->|Hd].
      * exists m'. rewrite nth_upd_same by auto. rewrite Hm in Hy. inversion Hy; subst y. auto.
      * exists y. rewrite nth_upd_other by auto. auto.
    + intro name. destruct (casecmp name n) eqn:Ec.
      * exists (Some j). split.
        -- unfold lookup in *. cbn [h_nodes h_first h_fast] in *. rewrite (usual_same name n Ec). destruct (usual n); auto.
           apply hw_upd with m; auto. apply hw_same with n; auto. rewrite casecmp_sym; auto.
        -- unfold removed, seen_step. rewrite same_cc, Ec, (Same name Ec), He. cbn [firstn].
           apply (ch_cons _ name j m'); [apply nth_upd_same; auto| |constructor].
           cbn [n_name m']. rewrite (casecmp_l name n _ Ec). exact Hc.
      * destruct (G name) as (q & Lq & Cq). exists q. split.
        -- unfold lookup in *. cbn [h_nodes h_first h_fast] in *. destruct (usual name); auto. apply hw_upd with m; auto.
        -- unfold removed, seen_step. rewrite same_cc, Ec. apply chain_upd_other with m; auto.
           rewrite <- (casecmp_r name n (n_name m) Hc). exact Ec.
  - apply chain_none in C. rewrite C in *. exists s. split; [reflexivity|].
    unfold hinv. conj; auto. intro name. destruct (G name) as (q & Lq & Cq). exists q. split; auto.
    unfold removed, seen_step. rewrite same_cc. destruct (casecmp name n) eqn:Ec; auto.
    rewrite (Same name Ec) in *. exact Cq.
Qed.

(** * All the calls *)
Lemma hinv_new : hinv h_new (fun _ => []).
Proof.
  unfold hinv, h_new. cbn [h_nodes h_first h_fast]. conj; auto.
  - intros i n H. destruct i; discriminate.
  - discriminate.
  - intros k i H. do 5 (destruct k; [discriminate|]). destruct k; discriminate.
  - intro name. exists None. split; [|constructor]. unfold lookup. destruct (usual name) as [k|] eqn:Eu; [|constructor].
    apply usual_lt in Eu. cbn [h_fast]. do 5 (destruct k; [reflexivity|]). lia.
Qed.
Lemma seen_snoc : forall os o name, seen (os ++ [o]) name = seen_step name (seen os name) o.
Proof. intros. unfold seen. rewrite fold_left_app. reflexivity. Qed.
Lemma hinv_ext : forall s E E', hinv s E -> (forall n, E n = E' n) -> hinv s E'.
Proof.
  intros s E E' (A & B & C & D & G) H. unfold hinv. conj; auto. intro name. destruct (G name) as (p & L & Ch).
  exists p. rewrite <- H. auto.
Qed.
Lemma hsize_app : forall a done z b, hsize done z (a ++ b) = hsize (done ++ a) (hsize done z a) b.
Proof.
  induction a as [|o a IH]; intros done z b; cbn [app hsize].
  - rewrite app_nil_r. reflexivity.
  - rewrite IH, <- app_assoc. reflexivity.
Qed.
Lemma h_run_app : forall a s z b, h_run s z (a ++ b) =
  (let! x := h_run s z a in match x with None => Ok None | Some (s', z') => h_run s' z' b end).
Proof.
  induction a as [|o a IH]; intros s z b; cbn [app h_run]; [reflexivity|].
  destruct (h_op s z o) as [[[s' z']|]|]; cbn [obind]; auto.
Qed.
Lemma fits_prefix : forall a b, fits (a ++ b) -> fits a.
Proof. intros a b H x y E. apply (H x (y ++ b)). subst. rewrite app_assoc. reflexivity. Qed.

Lemma run_ok : forall os, fits os -> exists s, h_run h_new 0 os = Ok (Some (s, size_after os)) /\ hinv s (seen os).
Proof.
  intro os. induction os as [|o os IH] using rev_ind; intro F.
  - exists h_new. split; [reflexivity|]. exact hinv_new.
  - destruct (IH (fits_prefix _ _ F)) as (s & R & I). rewrite h_run_app, R. cbn [obind h_run].
    pose proof (F (os ++ [o]) [] ltac:(rewrite app_nil_r; reflexivity)) as Fo.
    assert (SA : size_after (os ++ [o]) = hsize os (size_after os) [o]).
    { unfold size_after. rewrite hsize_app. reflexivity. }
    rewrite SA in *. cbn [hsize] in *. destruct o as [n c|n]; cbn [h_op].
    + unfold h_set. destruct (store_ok s (seen os) n c I) as (s' & H & I'). rewrite H. cbn [obind].
      exists s'. split.
      * unfold int_sum. replace (size_after os + (zlen n + zlen c + 2 + (if size_after os =? 0 then 2 else 0)))
          with (size_after os + zlen n + zlen c + (if size_after os =? 0 then 4 else 2)) by (destruct (size_after os =? 0); lia).
        destruct ((_ <=? _) && _) eqn:B; [reflexivity|]. exfalso. clear - B Fo. lia.
      * eapply hinv_ext; [exact I'|]. intro name. rewrite seen_snoc. reflexivity.
    + destruct (remove_ok s (seen os) n (size_after os) I) as (s' & H & I').
      { exact Fo. }
      rewrite H. cbn [obind]. exists s'. split; [reflexivity|].
      eapply hinv_ext; [exact I'|]. intro name. rewrite seen_snoc. reflexivity.
Qed.

Lemma get_ok : forall s E name, hinv s E -> h_get s name = Ok (Some (E name)).
Proof.
  intros s E name I. assert (I' := I). destruct I' as (W & _ & _ & _ & G). destruct (G name) as (p & L & C).
  unfold h_get. rewrite (hinv_find s E name p I L). cbn [obind]. destruct s as [ns first fast]. cbn [h_nodes] in *.
  eapply chain_walk; eauto. destruct p; auto. lia.
Qed.
Lemma count_ok : forall s E name, hinv s E ->
  h_get_count s name = Ok (Some (match E name with [] => -1 | l => zlen l end)).
Proof.
  intros s E name I. assert (I' := I). destruct I' as (W & _ & _ & _ & G). destruct (G name) as (p & L & C).
  unfold h_get_count. rewrite (hinv_find s E name p I L). cbn [obind]. destruct s as [ns first fast]. cbn [h_nodes] in *.
  destruct p as [i|].
  - rewrite (chain_count _ _ _ _ C W i eq_refl) by lia. pose proof (chain_some _ _ _ _ C).
    destruct (E name); [contradiction|]. f_equal. f_equal. lia.
  - apply chain_none in C. rewrite C. reflexivity.
Qed.

(** What the application sees. *)
Lemma headers_seen : forall os, fits os -> exists s,
  h_run h_new 0 os = Ok (Some (s, size_after os)) /\
  forall name, h_get s name = Ok (Some (seen os name)) /\
    h_get_count s name = Ok (Some (match seen os name with [] => -1 | l => zlen l end)).
Proof.
  intros os F. destruct (run_ok os F) as (s & R & I). exists s. split; auto. intro name.
  split; [apply get_ok|apply count_ok]; auto.
Qed.

(** Without removals the values are the ones given. *)
Lemma no_removal_prefix : forall a b, no_removal (a ++ b) -> no_removal a.
Proof. intros a b H n Hn. apply (H n). apply in_or_app. auto. Qed.
Lemma given_snoc : forall os o name, given (os ++ [o]) name = given os name ++ given [o] name.
Proof. intros. unfold given. rewrite flat_map_app. reflexivity. Qed.
Lemma seen_given : forall os name, no_removal os ->
  seen os name = if is_usual name then rev (firstn 1 (rev (given os name))) else given os name.
Proof.
  intros os name. induction os as [|o os IH] using rev_ind; intro H.
  - destruct (is_usual name); reflexivity.
  - rewrite seen_snoc, (IH (no_removal_prefix _ _ H)), given_snoc. destruct o as [n c|n].
    + assert (G1 : given [HSet n c] name = if same_name name n then [(n, c)] else []).
      { unfold given. cbn [flat_map]. apply app_nil_r. }
      rewrite G1. cbn [seen_step]. destruct (same_name name n).
      * destruct (is_usual name); [|reflexivity]. rewrite rev_app_distr. reflexivity.
      * rewrite app_nil_r. destruct (is_usual name); reflexivity.
    + exfalso. apply (H n). apply in_or_app. right. left. reflexivity.
Qed.
Lemma hsum_app : forall a b, hsum (a ++ b) = hsum a + hsum b.
Proof. induction a as [|o a IH]; intro b; cbn [app hsum fold_right]; [reflexivity|]. fold (hsum (a ++ b)) (hsum a). rewrite IH. lia. Qed.
Lemma hsum_pos : forall a, 0 <= hsum a.
Proof.
  induction a as [|o a IH]; cbn [hsum fold_right]; [lia|]. fold (hsum a). destruct o as [n c|n]; [|lia].
  pose proof (Nat2Z.is_nonneg (length n)). pose proof (Nat2Z.is_nonneg (length c)). unfold zlen. lia.
Qed.
Lemma size_given : forall os, no_removal os -> os <> [] -> size_after os = 2 + hsum os.
Proof.
  intros os. induction os as [|o os IH] using rev_ind; intros H Hn; [contradiction|].
  unfold size_after. rewrite hsize_app. fold (size_after os). cbn [app hsize]. rewrite hsum_app.
  destruct o as [n c|n]; [|exfalso; apply (H n); apply in_or_app; right; left; reflexivity].
  cbn [hsum fold_right]. destruct os as [|o' os'].
  - cbn [app fold_right hsum]. replace (size_after [] =? 0) with true by reflexivity.
    replace (size_after []) with 0 by reflexivity. lia.
  - rewrite (IH (no_removal_prefix _ _ H)) by discriminate. pose proof (hsum_pos (o' :: os')).
    destruct (2 + hsum (o' :: os') =? 0) eqn:B; lia.
Qed.
(** A removal touches no other name. *)
Lemma removal_other : forall os n name, same_name name n = false -> seen (os ++ [HDel n]) name = seen os name.
Proof. intros. rewrite seen_snoc. cbn. rewrite H. reflexivity. Qed.

(** * Witnesses *)
Definition hX : bytes := [88].          (* X *)
Definition hv (k : Z) : bytes := [k].
Lemma usual_count_wit : exists os name s z, h_run h_new 0 os = Ok (Some (s, z)) /\ no_removal os /\
  zlen (given os name) = 2 /\ h_get_count s name = Ok (Some 1).
Proof.
  exists [HSet h_ctype (hv 97); HSet h_ctype (hv 98)], h_ctype. do 2 eexists. conj.
  - vm_compute. reflexivity.
  - intros n [H|[H|[]]]; discriminate.
  - vm_compute. reflexivity.
  - vm_compute. reflexivity.
Qed.
Lemma overwrite_wit : exists os n c s z, h_run h_new 0 (os ++ [HSet n c]) = Ok (Some (s, z)) /\
  exists c', c' <> c /\ (exists l, h_get s n = Ok (Some ((n, c') :: l))).
Proof.
  exists [HSet hX (hv 97)], hX, (hv 98). do 2 eexists. split; [vm_compute; reflexivity|].
  exists (hv 97). split; [discriminate|]. exists [(hX, hv 98)]. vm_compute. reflexivity.
Qed.
Lemma removal_wit : exists os n s z, h_run h_new 0 (os ++ [HDel n]) = Ok (Some (s, z)) /\
  seen os n = [(n, hv 97); (n, hv 98)] /\ h_get s n = Ok (Some [(n, hv 97)]).
Proof.
  exists [HSet hX (hv 97); HSet hX (hv 98)], hX. do 2 eexists. conj; [vm_compute; reflexivity| |]; vm_compute; reflexivity.
Qed.
Lemma block_wit : exists os s z, h_run h_new 0 os = Ok (Some (s, z)) /\ no_removal os /\
  z <> zlen (block (given os hX)) /\ forall n, same_name n hX = false -> given os n = [].
Proof.
  exists [HSet hX (hv 97)]. do 2 eexists. conj.
  - vm_compute. reflexivity.
  - intros n [H|[]]; discriminate.
  - vm_compute. discriminate.
  - intros n H. unfold given. cbn [flat_map]. rewrite H. reflexivity.
Qed.
Lemma negative_wit : exists os s z, h_run h_new 0 os = Ok (Some (s, z)) /\ z < 0.
Proof. exists [HSet hX (hv 97); HDel hX; HDel hX]. do 2 eexists. split; [vm_compute; reflexivity|]. lia. Qed.
