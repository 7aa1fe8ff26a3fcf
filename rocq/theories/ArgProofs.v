(** Proofs about the command line. *)
From Coq Require Import String.
From Verif Require Import Base GreetModel CodecProofs ArgModel ArgSpec.
Open Scope list_scope.

Lemma beq_iff a b : bytes_eqb a b = true <-> a = b.
Proof. split; [apply bytes_eqb_eq|intros ->; apply bytes_eqb_refl]. Qed.
Lemma memeq_iff s p : memeq s p = true <-> starts p s.
Proof.
  unfold memeq. split.
  - intros H. apply bytes_eqb_eq in H. exists (skipn (List.length p) s). rewrite <- H at 1. symmetry. apply firstn_skipn.
  - intros [r ->]. rewrite firstn_app, firstn_all, Nat.sub_diag. cbn. rewrite app_nil_r. apply bytes_eqb_refl.
Qed.
Lemma memeq_false s p : ~ starts p s -> memeq s p = false.
Proof. intros H. destruct (memeq s p) eqn:E; auto. apply memeq_iff in E. contradiction. Qed.
Lemma short_form_iff a : short_form a = true <-> exists c, a = [45; c].
Proof.
  unfold short_form, DASH. split.
  - destruct a as [|c [|d [|e a]]]; try discriminate. intros H. apply Z.eqb_eq in H. subst. eauto.
  - intros [c ->]. reflexivity.
Qed.
Lemma nth_set_at l i j o : nth_error (set_at l i o) j = if Nat.eqb i j then (match nth_error l i with Some _ => Some o | None => None end) else nth_error l j.
Proof.
  revert i j; induction l as [|y l IH]; intros [|i] [|j]; cbn; auto.
  - destruct (Nat.eqb i j); auto.
Qed.
Lemma set_at_length l i o : List.length (set_at l i o) = List.length l.
Proof. revert i; induction l; intros [|i]; cbn; auto. Qed.

Lemma called_iff o n : called o n = true <-> named o n.
Proof.
  unfold called, named. rewrite Bool.orb_true_iff, beq_iff. destruct (o_short o) as [s|].
  - rewrite beq_iff. split; intros [H|H]; auto; right; congruence.
  - split; intros [H|H]; auto; discriminate.
Qed.
Lemma lookup_some l n i : lookup_node l n = Some i -> exists o, nth_error l i = Some o /\ named o n.
Proof.
  revert i; induction l as [|o l IH]; intros i; [discriminate|]. cbn. destruct (called o n) eqn:E.
  - intros H; inversion H; subst. exists o. split; auto. apply called_iff; auto.
  - destruct (lookup_node l n) as [j|] eqn:L; [|discriminate]. intros H; inversion H; subst. cbn. apply IH; auto.
Qed.
Lemma lookup_none l n : lookup_node l n = None -> forall i o, nth_error l i = Some o -> ~ named o n.
Proof.
  induction l as [|y l IH]; intros H i o N; [destruct i; discriminate|]. cbn in H. destruct (called y n) eqn:E; [discriminate|].
  destruct (lookup_node l n) eqn:L; [discriminate|]. destruct i; cbn in N.
  - inversion N; subst. intros K. apply called_iff in K. congruence.
  - eapply IH; eauto.
Qed.
Lemma lookup_here l n i o : names_apart l -> nth_error l i = Some o -> named o n -> lookup_node l n = Some i.
Proof.
  intros A N M. destruct (lookup_node l n) as [j|] eqn:L.
  - destruct (lookup_some _ _ _ L) as (o' & N' & M'). f_equal. eapply A; eauto.
  - exfalso. eapply lookup_none; eauto.
Qed.

Definition okst (x : ax) : Prop := x_nofree x = false /\ x_mode x <> MWin.
Definition like (x x' : ax) : Prop := x_opts x' = x_opts x /\ x_params x' = x_params x /\ x_nofree x' = x_nofree x /\ x_said x' = x_said x.

Lemma is_opt x a : x_mode x <> MWin -> optionlike a -> exists x', is_argument x a = (true, x') /\ like x x' /\ x_mode x' = MUnix.
Proof.
  intros M H. unfold is_argument.
  assert (U : mode_is (x_mode x) MUnix = true) by (destruct (x_mode x); cbn; congruence). rewrite U. cbn [andb].
  destruct (memeq a DD) eqn:E; [|destruct (short_form a) eqn:F].
  - eexists. split; [reflexivity|]. unfold like. destruct x as [? ? m ? ? ?]; destruct m; cbn in *; intuition congruence.
  - eexists. split; [reflexivity|]. unfold like. destruct x as [? ? m ? ? ?]; destruct m; cbn in *; intuition congruence.
  - exfalso. destruct H as [H|H].
    + apply memeq_iff in H. unfold DD, DASH in E. congruence.
    + apply short_form_iff in H. congruence.
Qed.
Lemma isnt_opt x a : x_mode x <> MWin -> ~ optionlike a -> x_mode x = MUnix \/ ~ barlike a ->
  exists x', is_argument x a = (false, x') /\ like x x' /\ x_mode x' = x_mode x.
Proof.
  intros M H B. unfold is_argument.
  assert (E : memeq a DD = false) by (apply memeq_false; intros K; apply H; left; exact K).
  assert (F : short_form a = false) by (destruct (short_form a) eqn:F; auto; apply short_form_iff in F; exfalso; apply H; right; auto).
  rewrite E, F, !Bool.andb_false_r. cbn [x_mode set_over].
  destruct (mode_is (x_mode x) MWin && win_start a) eqn:W.
  - apply Bool.andb_true_iff in W. destruct W as [W1 W2]. destruct (existsb (Z.eqb BAR) (tl a)) eqn:T.
    + eexists. split; [reflexivity|]. unfold like; cbn; auto.
    + exfalso. destruct B as [B|B]; [rewrite B in W1; discriminate|]. apply B. unfold win_start in W2.
      apply Bool.andb_true_iff in W2. destruct W2 as [L0 Z0]. destruct a as [|b [|c [|d r]]]; cbn in L0; try discriminate.
      exists c, d, r. cbn in Z0. apply Z.eqb_eq in Z0. unfold BAR in Z0. subst b. split; auto. intros I.
      assert (X : existsb (Z.eqb BAR) (c :: d :: r) = true) by (apply existsb_exists; exists 47; split; auto).
      change (tl (47 :: c :: d :: r)) with (c :: d :: r) in T. congruence.
  - eexists. split; [reflexivity|]. unfold like; cbn; auto.
Qed.

(** One option word, up to the lookup. *)
Definition clean (w n : bytes) : Prop := w = [45; 45] ++ n \/ (exists c, n = [c] /\ w = [45; c] /\ c <> 45).
Lemma clean_get x w n : clean w n -> fst (get_argument x w) = Some n.
Proof.
  intros [->|(c & -> & -> & NE)]; unfold get_argument; cbn [fst].
  - assert (E : memeq ([45; 45] ++ n) DD = true) by (apply memeq_iff; exists n; reflexivity). rewrite E. reflexivity.
  - assert (E : memeq [45; c] DD = false).
    { apply memeq_false. intros [r H]. unfold DD, DASH in H. cbn in H. inversion H. congruence. } rewrite E. reflexivity.
Qed.
Lemma clean_like w n : clean w n -> optionlike w.
Proof. intros [->|(c & -> & -> & _)]; [left; exists n; auto|right; eauto]. Qed.
Lemma reserved_help n : ~ reserved n -> memeq n (asc "help") || memeq n (asc "?") = false.
Proof.
  intros H. rewrite Bool.orb_false_iff. split; apply memeq_false; intros K; apply H; [left|right; right]; exact K.
Qed.
Lemma reserved_usage n : ~ reserved n -> memeq n (asc "usage") = false.
Proof. intros H. apply memeq_false; intros K; apply H; right; left; exact K. Qed.

Lemma word_step atoi x w n r : x_mode x <> MWin -> clean w n -> ~ reserved n ->
  exists x', like x x' /\ x_mode x' = MUnix /\
    parse_loop atoi x (w :: r) =
      match lookup_node (x_opts x') n with
      | None => PExit (EUnknown w)
      | Some i =>
          match nth_error (x_opts x') i with
          | None => PUB
          | Some o =>
              if o_def o then PExit (ETwice w)
              else
                match o_type o with
                | ANone => parse_loop atoi (set_opts x' (set_at (x_opts x') i (define o))) r
                | _ =>
                    match r with
                    | [] => PExit (ENoValue w)
                    | v :: r =>
                        let (isarg, x') := is_argument x' v in
                        if isarg then PExit (ENoValue w)
                        else parse_loop atoi (set_opts x' (set_at (x_opts x') i (with_value atoi o v))) r
                    end
                end
          end
      end.
Proof.
  intros M C R. destruct (is_opt x w M (clean_like _ _ C)) as (x1 & E1 & L1 & M1).
  pose proof (clean_get x1 w n C) as G. destruct (get_argument x1 w) as [q x2] eqn:E2. cbn in G. subst q.
  assert (L2 : like x x2 /\ x_mode x2 = MUnix).
  { unfold get_argument in E2. inversion E2; subst. unfold like in *; cbn. intuition. }
  exists (set_over (set_over x2 (beyond n (asc "help"))) (beyond n (asc "usage"))).
  split; [unfold like in *; cbn; intuition|]. split; [cbn; intuition|].
  destruct r as [|v r]; cbn [parse_loop]; rewrite E1; cbn [negb]; rewrite E2; unfold is_help, is_usage;
    rewrite (reserved_help n R), (reserved_usage n R); reflexivity.
Qed.

Lemma spelled_clean long o w : spelled long o w -> exists n, named o n /\ ~ reserved n /\ clean w n.
Proof.
  unfold spelled, named. destruct long.
  - intros [-> R]. exists (o_name o). unfold clean. auto.
  - intros (c & S0 & -> & NE & R). exists [c]. split; auto. split; auto. right. exists c; auto.
Qed.

(** What holds along a line. *)
Definition decls (l l' : list opt) : Prop := List.length l' = List.length l /\ forall i o o', nth_error l i = Some o -> nth_error l' i = Some o' -> same_decl o o'.
Lemma decls_fwd l l' i o : decls l l' -> nth_error l i = Some o -> exists o', nth_error l' i = Some o' /\ same_decl o o'.
Proof.
  intros [L D] N. destruct (nth_error l' i) as [o'|] eqn:E; [eauto|].
  apply nth_error_None in E. assert (i < List.length l)%nat by (apply nth_error_Some; congruence). lia.
Qed.
Lemma decls_back l l' i o' : decls l l' -> nth_error l' i = Some o' -> exists o, nth_error l i = Some o /\ same_decl o o'.
Proof.
  intros [L D] N. destruct (nth_error l i) as [o|] eqn:E; [eauto|].
  apply nth_error_None in E. assert (i < List.length l')%nat by (apply nth_error_Some; congruence). lia.
Qed.
Lemma same_named o o' n : same_decl o o' -> named o' n <-> named o n.
Proof. intros (A & B & _). unfold named. rewrite A, B. tauto. Qed.
Lemma decls_apart l l' : decls l l' -> names_apart l -> names_apart l'.
Proof.
  intros D A i j o o' n N N' M M'. destruct (decls_back _ _ _ _ D N) as (p & P & S1). destruct (decls_back _ _ _ _ D N') as (p' & P' & S2).
  apply (A i j p p' n P P'); [apply (same_named p o n S1)|apply (same_named p' o' n S2)]; auto.
Qed.
Lemma same_spelled o o' b w : same_decl o o' -> spelled b o w -> spelled b o' w.
Proof. intros (A & B & _). unfold spelled. rewrite A, B. auto. Qed.
Lemma decls_written l l' it w : decls l l' -> written l it w -> written l' it w.
Proof.
  intros D W. inversion W; subst.
  - destruct (decls_fwd _ _ _ _ D H) as (o' & N & S0). econstructor; eauto; [destruct S0 as (_ & _ & T & _); congruence|eapply same_spelled; eauto].
  - destruct (decls_fwd _ _ _ _ D H) as (o' & N & S0). econstructor; eauto; [destruct S0 as (_ & _ & T & _); congruence|eapply same_spelled; eauto].
  - constructor; auto.
Qed.
Lemma decls_line l l' its ws : decls l l' -> line l its ws -> line l' its ws.
Proof. intros D L. induction L; constructor; auto. eapply decls_written; eauto. Qed.
Lemma same_refl o : same_decl o o. Proof. repeat split. Qed.
Lemma same_trans a b c : same_decl a b -> same_decl b c -> same_decl a c.
Proof. unfold same_decl. intuition congruence. Qed.
Lemma same_decl_define o : same_decl o (define o). Proof. repeat split. Qed.
Lemma with_value_same atoi o v : same_decl o (with_value atoi o v).
Proof. unfold with_value. destruct (o_type o) eqn:T; repeat split; cbn; auto. Qed.
Lemma with_value_def atoi o v : o_def (with_value atoi o v) = true.
Proof. unfold with_value. destruct (o_type o); auto. Qed.

Lemma holds_decls atoi its l l' : holds atoi its l l' -> decls l l'.
Proof. intros [L H]. split; auto. intros i o o' N N'. apply (H i o o' N N'). Qed.
Lemma holds_nil atoi l : holds atoi [] l l.
Proof.
  split; auto. intros i o o' N N'. assert (o' = o) by congruence. subst. split; [apply same_refl|]. split; [intros []|]. split; auto. intros b v [].
Qed.
Lemma holds_set atoi it l i o o' : nth_error l i = Some o -> item_opt it = [i] -> same_decl o o' -> o_def o' = true ->
  (forall b v, it = GVal b i v -> (o_type o = AInt -> o_int o' = atoi v) /\ (o_type o = AString -> o_str o' = Some v)) ->
  holds atoi [it] l (set_at l i o').
Proof.
  intros N I S0 D V. split; [apply set_at_length|]. intros j p p' P P'. rewrite nth_set_at in P'. unfold mentions. cbn [flat_map app]. rewrite I. cbn.
  destruct (Nat.eqb i j) eqn:E.
  - apply Nat.eqb_eq in E. subst j. rewrite N in P'. assert (p = o) by congruence. assert (p' = o') by congruence. subst. split; auto. split; auto.
    split; [intros K; exfalso; apply K; auto|]. intros b v [K|[]]. apply (V b v). auto.
  - apply Nat.eqb_neq in E. assert (p' = p) by congruence. subst. split; [apply same_refl|]. split; [intros [K|[]]; congruence|]. split; auto.
    intros b v [K|[]]. subst it. cbn in I. congruence.
Qed.
Lemma holds_free atoi a l : holds atoi [GFree a] l l.
Proof.
  split; auto. intros i o o' N N'. assert (o' = o) by congruence. subst. split; [apply same_refl|]. split; [intros []|]. split; auto.
  intros b v [H|[]]. discriminate.
Qed.
(** One item, then the others, that mention other options. *)
Lemma holds_cons atoi it its l l1 l2 : holds atoi [it] l l1 -> holds atoi its l1 l2 -> (forall i, mentions [it] i -> ~ mentions its i) ->
  holds atoi (it :: its) l l2.
Proof.
  intros [L1 H1] [L2 H2] D. split; [congruence|]. intros i o o2 N N2.
  destruct (nth_error l1 i) as [o1|] eqn:N1; [|apply nth_error_None in N1; assert (i < List.length l2)%nat by (apply nth_error_Some; congruence); lia].
  destruct (H1 i o o1 N N1) as (A1 & B1 & C1 & V1). destruct (H2 i o1 o2 N1 N2) as (A2 & B2 & C2 & V2).
  assert (MC : mentions (it :: its) i <-> mentions [it] i \/ mentions its i).
  { unfold mentions. cbn [flat_map]. rewrite app_nil_r, in_app_iff. tauto. }
  split; [eapply same_trans; eauto|]. split; [|split].
  - intros M. apply MC in M. destruct M as [M|M]; [|auto]. rewrite (C2 (D i M)). auto.
  - intros M. rewrite MC in M. rewrite C2 by tauto. apply C1. tauto.
  - intros b v [I|I].
    + assert (M : mentions [it] i) by (unfold mentions; subst it; cbn; auto). rewrite (C2 (D i M)). apply (V1 b v). left; auto.
    + destruct A1 as (_ & _ & T & _). rewrite <- T. apply (V2 b v I).
Qed.

Lemma line_loop atoi its : forall x ws rest,
  names_apart (x_opts x) -> x_nofree x = false -> x_mode x <> MWin -> line (x_opts x) its ws -> NoDup (flat_map item_opt its) ->
  (forall i o, mentions its i -> nth_error (x_opts x) i = Some o -> o_def o = false) ->
  exists x', parse_loop atoi x (ws ++ rest) = parse_loop atoi x' rest /\ holds atoi its (x_opts x) (x_opts x') /\
    x_params x' = x_params x ++ flat_map item_free its /\ x_nofree x' = false /\ x_mode x' <> MWin /\ x_said x' = x_said x.
Proof.
  induction its as [|it its IH]; intros x ws rest A F M L ND U; inversion L; subst.
  - exists x. cbn. rewrite app_nil_r. split; auto. split; [apply holds_nil|auto].
  - assert (ND' : NoDup (flat_map item_opt its)) by (cbn [flat_map] in ND; clear -ND; induction (item_opt it); cbn in *; auto; inversion ND; auto).
    assert (DJ : forall i, mentions [it] i -> ~ mentions its i).
    { intros i I J. unfold mentions in *. cbn [flat_map] in ND, I. rewrite app_nil_r in I. clear -ND I J.
      destruct it; cbn in *; try contradiction; destruct I as [<-|[]]; inversion ND; auto. }
    assert (STEP : exists x1, parse_loop atoi x ((w ++ ws0) ++ rest) = parse_loop atoi x1 (ws0 ++ rest) /\ holds atoi [it] (x_opts x) (x_opts x1) /\
      x_params x1 = x_params x ++ item_free it /\ x_nofree x1 = false /\ x_mode x1 <> MWin /\ x_said x1 = x_said x).
    { match goal with H : written _ _ _ |- _ => inversion H; subst end.
      - match goal with K : spelled _ _ _ |- _ => destruct (spelled_clean _ _ _ K) as (n & NM & R & C) end.
        destruct (word_step atoi x w0 n (ws0 ++ rest) M C R) as (x1 & (O1 & P1 & Q1 & S1) & M1 & E).
        cbn [app]. rewrite E, O1. rewrite (lookup_here _ _ _ _ A H NM), H, (U i o) by (auto; unfold mentions; cbn; auto). rewrite H0.
        eexists. split; [reflexivity|]. split; [|cbn; rewrite app_nil_r; intuition congruence].
        cbn [x_opts set_opts]. rewrite ?O1. apply holds_set with (o := o); auto; [apply same_decl_define|]. intros; discriminate.
      - match goal with K : spelled _ _ _ |- _ => destruct (spelled_clean _ _ _ K) as (n & NM & R & C) end.
        destruct (word_step atoi x w0 n (v :: ws0 ++ rest) M C R) as (x1 & (O1 & P1 & Q1 & S1) & M1 & E).
        cbn [app]. rewrite E, O1. rewrite (lookup_here _ _ _ _ A H NM), H, (U i o) by (auto; unfold mentions; cbn; auto).
        destruct (isnt_opt x1 v) as (x2 & E2 & (O2 & P2 & Q2 & S2) & M2); [congruence|auto|auto|]. rewrite E2.
        exists (set_opts x2 (set_at (x_opts x) i (with_value atoi o v))). split.
        { destruct (o_type o); [congruence| |]; rewrite O2, O1; reflexivity. }
        split; [|cbn; rewrite app_nil_r; intuition congruence].
        apply holds_set with (o := o); auto; [apply with_value_same|apply with_value_def|].
        intros b v' EQ. inversion EQ; subst. unfold with_value. split; intros T; rewrite T; reflexivity.
      - destruct (isnt_opt x a) as (x2 & E2 & (O2 & P2 & Q2 & S2) & M2); auto.
        cbn [app parse_loop]. rewrite E2. cbn [negb]. rewrite Q2, F. eexists. split; [reflexivity|].
        split; [cbn; rewrite O2; apply holds_free|]. cbn. rewrite P2. intuition congruence. }
    destruct STEP as (x1 & E1 & HA & P1 & F1 & M1 & S1).
    pose proof (holds_decls _ _ _ _ HA) as D1.
    destruct (IH x1 ws0 rest) as (x2 & E2 & HB & P2 & F2 & M2 & S2); auto.
    + eapply decls_apart; eauto.
    + eapply decls_line; eauto.
    + intros i o MI N. destruct (decls_back _ _ _ _ D1 N) as (o0 & N0 & _).
      destruct HA as [_ HA]. destruct (HA i o0 o N0 N) as (_ & _ & K & _). rewrite K by (intros J; exact (DJ i J MI)).
      apply (U i o0); auto. unfold mentions in *. cbn [flat_map]. apply in_or_app. auto.
    + exists x2. rewrite E1, E2. split; auto. split; [eapply holds_cons; eauto|]. split; [|intuition congruence].
      rewrite P2, P1, <- app_assoc. reflexivity.
Qed.

(** * The checks at the end *)
Lemma missing_none l : missing l = None <-> (forall o, In o l -> o_optional o = false -> o_def o = true).
Proof.
  induction l as [|o l IH]; cbn; [split; [intros _ o []|auto]|]. destruct (o_optional o) eqn:E, (o_def o) eqn:D; cbn; rewrite ?IH;
    try (split; [intros H p [<-|I] K; try congruence; auto|intros H p I K; apply H; auto]).
  split; [discriminate|]. intros H. rewrite (H o) in D; [discriminate|auto|auto].
Qed.
Lemma check_fine all l :
  (forall o, In o l -> o_def o = true -> (forall j, In j (o_deps o) -> defined all j = true) /\ (forall j, In j (o_excl o) -> defined all j = false)) ->
  check_depends all l = DFine.
Proof.
  induction l as [|o l IH]; intros H; cbn; auto. destruct (o_def o) eqn:D; cbn; [|apply IH; intros; apply H; auto; right; auto].
  destruct (H o (or_introl eq_refl) D) as [A B].
  destruct (find _ (o_deps o)) as [i|] eqn:E.
  - apply find_some in E. destruct E as [I N]. rewrite (A i I) in N. discriminate.
  - destruct (existsb _ (o_excl o)) eqn:X; [|apply IH; intros; apply H; auto; right; auto].
    apply existsb_exists in X. destruct X as (j & I & K). rewrite (B j I) in K. discriminate.
Qed.
Lemma check_deps all l : check_depends all l = DFine ->
  forall o, In o l -> o_def o = true -> (forall j, In j (o_deps o) -> defined all j = true) /\ (forall j, In j (o_excl o) -> defined all j = false).
Proof.
  induction l as [|p l IH]; intros H o I D; [contradiction|]. cbn in H. destruct (o_def p) eqn:E; cbn in H.
  - destruct (find _ (o_deps p)) as [i|] eqn:F; [discriminate|]. destruct (existsb _ (o_excl p)) eqn:X; [discriminate|].
    destruct I as [<-|I]; [|apply IH; auto]. split; intros j J.
    + pose proof (find_none _ _ F j J) as K. cbn in K. destruct (defined all j); auto; discriminate.
    + destruct (defined all j) eqn:K; auto. assert (existsb (defined all) (o_excl p) = true) by (apply existsb_exists; eauto). congruence.
  - destruct I as [<-|I]; [congruence|apply IH; auto].
Qed.
Lemma mention_range l its ws i : line l its ws -> mentions its i -> exists o, nth_error l i = Some o.
Proof.
  intros L. induction L; intros M; [destruct M|]. unfold mentions in M. cbn [flat_map] in M. apply in_app_or in M. destruct M as [M|M]; [|apply IHL; exact M].
  inversion H; subst; cbn in M; try contradiction; destruct M as [<-|[]]; eauto.
Qed.
Lemma defined_mentions atoi l l' its ws : Forall (fun o => o_def o = false) l -> line l its ws -> holds atoi its l l' ->
  forall i, defined l' i = true <-> mentions its i.
Proof.
  intros U L H i. unfold defined. destruct (nth_error l' i) as [o'|] eqn:N.
  - destruct (decls_back _ _ _ _ (holds_decls _ _ _ _ H) N) as (o & N0 & _). destruct H as [_ H]. destruct (H i o o' N0 N) as (_ & B & C & _).
    split; auto. intros D. destruct (in_dec Nat.eq_dec i (flat_map item_opt its)) as [I|I]; auto. rewrite (C I) in D.
    rewrite Forall_forall in U. rewrite (U o) in D; [discriminate|]. eapply nth_error_In; eauto.
  - split; [discriminate|]. intros M. destruct (mention_range _ _ _ _ L M) as (o & N0). destruct (decls_fwd _ _ _ _ (holds_decls _ _ _ _ H) N0) as (o' & K & _). congruence.
Qed.

Theorem accepted atoi x its ws : ready x -> names_apart (x_opts x) -> line (x_opts x) its ws -> NoDup (flat_map item_opt its) -> needs (mentions its) (x_opts x) ->
  exists x', parse atoi x ws = PGo x' /\ holds atoi its (x_opts x) (x_opts x') /\ x_params x' = flat_map item_free its /\ x_said x' = x_said x.
Proof.
  intros (U & F & M & P) A L ND NE.
  destruct (line_loop atoi its x ws [] A F M L ND) as (x' & E & H & PP & _ & _ & S0).
  { intros i o _ N. rewrite Forall_forall in U. apply U. eapply nth_error_In; eauto. }
  rewrite app_nil_r in E. cbn in E.
  pose proof (defined_mentions _ _ _ _ _ U L H) as DM. pose proof (holds_decls _ _ _ _ H) as D.
  assert (DEF : forall i o, nth_error (x_opts x') i = Some o -> o_def o = true <-> mentions its i).
  { intros i o N. rewrite <- DM. unfold defined. rewrite N. tauto. }
  assert (MS : missing (x_opts x') = None).
  { apply missing_none. intros o I O. apply In_nth_error in I. destruct I as [i N]. destruct (decls_back _ _ _ _ D N) as (o0 & N0 & SD).
    apply (DEF i o N). destruct (NE i o0 N0) as [N1 _]. apply N1. destruct SD as (_ & _ & _ & T & _). congruence. }
  assert (CF : check_depends (x_opts x') (x_opts x') = DFine).
  { apply check_fine. intros o I O. apply In_nth_error in I. destruct I as [i N]. destruct (decls_back _ _ _ _ D N) as (o0 & N0 & SD).
    apply (DEF i o N) in O. destruct (NE i o0 N0) as (_ & N1 & N2). destruct SD as (_ & _ & _ & _ & T1 & T2). rewrite T1, T2. split; intros j J.
    - apply DM. apply N1; auto.
    - destruct (defined (x_opts x') j) eqn:K; auto. apply DM in K. exfalso. apply (N2 O j J K). }
  exists x'. rewrite P in PP. cbn in PP. split; auto. unfold parse. destruct ws as [|w ws]; rewrite ?E, ?MS, ?CF; auto.
  cbn in E. inversion E; subst x'. rewrite MS. auto.
Qed.

Lemma parse_nonempty atoi x ws w r : (forall x', parse_loop atoi x (ws ++ w :: r) <> PGo x') -> parse atoi x (ws ++ w :: r) = parse_loop atoi x (ws ++ w :: r).
Proof.
  intros H. unfold parse. destruct (ws ++ w :: r) eqn:E; [destruct ws; discriminate|]. destruct (parse_loop atoi x (l :: l0)) eqn:K; auto. exfalso. apply (H x0). auto.
Qed.

Theorem unknown atoi x its ws w n r : ready x -> names_apart (x_opts x) -> line (x_opts x) its ws -> NoDup (flat_map item_opt its) ->
  (w = [45; 45] ++ n \/ exists c, n = [c] /\ w = [45; c] /\ c <> 45) -> ~ reserved n -> (forall o, In o (x_opts x) -> ~ named o n) ->
  parse atoi x (ws ++ w :: r) = PExit (EUnknown w).
Proof.
  intros (U & F & M & P) A L ND C R NO.
  destruct (line_loop atoi its x ws (w :: r) A F M L ND) as (x' & E & H & PP & _ & M' & S0).
  { intros i o _ N. rewrite Forall_forall in U. apply U. eapply nth_error_In; eauto. }
  destruct (word_step atoi x' w n r M' C R) as (x1 & (O1 & _) & _ & E1).
  assert (LN : lookup_node (x_opts x1) n = None).
  { rewrite O1. destruct (lookup_node (x_opts x') n) as [i|] eqn:K; auto. destruct (lookup_some _ _ _ K) as (o & N & NM).
    destruct (decls_back _ _ _ _ (holds_decls _ _ _ _ H) N) as (o0 & N0 & SD). exfalso. apply (NO o0); [eapply nth_error_In; eauto|]. apply (same_named o0 o n SD). auto. }
  rewrite LN in E1. rewrite parse_nonempty; rewrite E, E1; [auto|discriminate].
Qed.
Theorem twice atoi x its ws w long i o r : ready x -> names_apart (x_opts x) -> line (x_opts x) its ws -> NoDup (flat_map item_opt its) ->
  mentions its i -> nth_error (x_opts x) i = Some o -> spelled long o w ->
  parse atoi x (ws ++ w :: r) = PExit (ETwice w).
Proof.
  intros (U & F & M & P) A L ND MI N SP.
  destruct (line_loop atoi its x ws (w :: r) A F M L ND) as (x' & E & H & PP & _ & M' & S0).
  { intros j p _ K. rewrite Forall_forall in U. apply U. eapply nth_error_In; eauto. }
  pose proof (holds_decls _ _ _ _ H) as D. destruct (decls_fwd _ _ _ _ D N) as (o' & N' & SD).
  destruct (spelled_clean _ _ _ SP) as (n & NM & R & C).
  destruct (word_step atoi x' w n r M' C R) as (x1 & (O1 & _) & _ & E1).
  rewrite O1, (lookup_here _ n i o' (decls_apart _ _ D A) N') in E1 by (apply (same_named o o' n SD); auto). rewrite N' in E1.
  destruct H as [_ H]. destruct (H i o o' N N') as (_ & B & _). rewrite (B MI) in E1. rewrite parse_nonempty; rewrite E, E1; [auto|discriminate].
Qed.
Theorem no_value atoi x its ws w long i o r : ready x -> names_apart (x_opts x) -> line (x_opts x) its ws -> NoDup (flat_map item_opt its) ->
  ~ mentions its i -> nth_error (x_opts x) i = Some o -> o_type o <> ANone -> spelled long o w -> (r = [] \/ exists v r', r = v :: r' /\ optionlike v) ->
  parse atoi x (ws ++ w :: r) = PExit (ENoValue w).
Proof.
  intros (U & F & M & P) A L ND MI N TY SP RR.
  destruct (line_loop atoi its x ws (w :: r) A F M L ND) as (x' & E & H & PP & _ & M' & S0).
  { intros j p _ K. rewrite Forall_forall in U. apply U. eapply nth_error_In; eauto. }
  pose proof (holds_decls _ _ _ _ H) as D. destruct (decls_fwd _ _ _ _ D N) as (o' & N' & SD).
  destruct (spelled_clean _ _ _ SP) as (n & NM & R & C).
  destruct (word_step atoi x' w n r M' C R) as (x1 & (O1 & _) & M1 & E1).
  rewrite O1, (lookup_here _ n i o' (decls_apart _ _ D A) N') in E1 by (apply (same_named o o' n SD); auto). rewrite N' in E1.
  destruct H as [_ H]. destruct (H i o o' N N') as (_ & _ & K & _). rewrite (K MI) in E1, SD. subst. 
  assert (DF : o_def o = false) by (rewrite Forall_forall in U; apply U; eapply nth_error_In; eauto). rewrite DF in E1.
  assert (E2 : parse_loop atoi x' (w :: r) = PExit (ENoValue w)).
  { rewrite E1. destruct (o_type o); [congruence| |]; (destruct RR as [->|(v & r' & -> & OL)]; [auto|]);
      (destruct (is_opt x1 v) as (x2 & EV & _); [congruence|auto|]; rewrite EV; auto). }
  rewrite parse_nonempty; rewrite E, E2; [auto|discriminate].
Qed.
Theorem free_refused atoi x a r : x_nofree x = true -> x_mode x <> MWin -> ~ optionlike a -> ~ barlike a -> parse atoi x (a :: r) = PExit (EFree a).
Proof.
  intros F M O B. destruct (isnt_opt x a) as (x' & E & (_ & _ & Q & _) & _); auto. unfold parse. cbn [parse_loop]. rewrite E. cbn [negb]. rewrite Q, F. auto.
Qed.

Lemma parse_inv atoi x args x' : parse atoi x args = PGo x' ->
  (args = [] /\ x' = x /\ missing (x_opts x) = None) \/
  (args <> [] /\ exists y, parse_loop atoi x args = PGo y /\ x_opts x' = x_opts y /\ missing (x_opts y) = None /\
     ((check_depends (x_opts y) (x_opts y) = DFine /\ x' = y) \/ (check_depends (x_opts y) (x_opts y) = DSaid /\ x_said x' = true))).
Proof.
  unfold parse. destruct args as [|a r].
  - destruct (missing (x_opts x)) eqn:E; [discriminate|]. intros H; inversion H; subst. auto.
  - destruct (parse_loop atoi x (a :: r)) as [y| |] eqn:L; try discriminate. destruct (missing (x_opts y)) eqn:E; [discriminate|].
    destruct (check_depends (x_opts y) (x_opts y)) eqn:C; intros H; try discriminate; right; (split; [discriminate|]); exists y;
      injection H as <-; cbn; auto 10.
Qed.
Theorem obligations atoi x args x' : parse atoi x args = PGo x' -> forall o, In o (x_opts x') -> o_optional o = false -> o_def o = true.
Proof.
  intros H. apply parse_inv in H. destruct H as [(_ & -> & H)|(_ & y & _ & E & H & _)].
  - apply missing_none. auto.
  - rewrite E. apply missing_none. auto.
Qed.
Theorem depends atoi x args x' : parse atoi x args = PGo x' -> args <> [] ->
  (forall o j, In o (x_opts x') -> o_def o = true -> In j (o_excl o) -> defined (x_opts x') j = false) ->
  forall o j, In o (x_opts x') -> o_def o = true -> In j (o_deps o) -> defined (x_opts x') j = true.
Proof.
  intros H NE X o j I D J. apply parse_inv in H. destruct H as [(-> & _)|(_ & y & _ & E & _ & C)]; [congruence|]. rewrite E in *.
  assert (G : check_depends (x_opts y) (x_opts y) = DFine).
  { destruct C as [[C _]|[C _]]; auto. exfalso. clear -C X.
    assert (K : forall l, incl l (x_opts y) -> check_depends (x_opts y) l <> DSaid).
    { induction l as [|p l IH]; intros IN; cbn; [discriminate|]. destruct (o_def p) eqn:E; cbn; [|apply IH; intros z Z; apply IN; right; auto].
      destruct (find _ (o_deps p)); [discriminate|]. destruct (existsb _ (o_excl p)) eqn:XX; [|apply IH; intros z Z; apply IN; right; auto].
      apply existsb_exists in XX. destruct XX as (j & J & DJ). rewrite (X p j) in DJ; auto; [discriminate|apply IN; left; auto]. }
    exact (K _ (incl_refl _) C). }
  apply (check_deps _ _ G o I D). auto.
Qed.
Theorem excluded_said atoi x args x' : parse atoi x args = PGo x' -> args <> [] ->
  forall o j, In o (x_opts x') -> o_def o = true -> In j (o_excl o) -> defined (x_opts x') j = true -> x_said x' = true.
Proof.
  intros H NE o j I D J DJ. apply parse_inv in H. destruct H as [(-> & _)|(_ & y & _ & E & _ & C)]; [congruence|]. rewrite E in *.
  destruct C as [[C _]|[_ C]]; auto. destruct (check_deps _ _ C o I D) as [_ B]. rewrite (B j J) in DJ. discriminate.
Qed.

Lemma is_arg_get x a x' y : is_argument x a = (true, x') -> exists n z, get_argument y a = (Some n, z).
Proof.
  unfold is_argument, get_argument. intros H. destruct (memeq a DD) eqn:E; [eauto|]. destruct (short_form a) eqn:F; [cbn; eauto|].
  rewrite !Bool.andb_false_r in H. cbn [orb]. destruct (win_start a) eqn:W; [eauto|]. rewrite Bool.andb_false_r in H. discriminate.
Qed.
Lemma loop_no_ub atoi n : forall x args, (List.length args <= n)%nat -> parse_loop atoi x args <> PUB.
Proof.
  induction n as [|n IH]; intros x [|a r] L; cbn in L; try lia; try (cbn; discriminate).
  cbn [parse_loop]. destruct (is_argument x a) as [b x1] eqn:E1. destruct b; cbn [negb].
  - destruct (is_arg_get x a x1 x1 E1) as (m & x2 & E2). rewrite E2. destruct (is_help x2 m) as [h x3]. destruct h; [discriminate|].
    destruct (is_usage x3 m) as [u x4]. destruct u; [discriminate|]. destruct (lookup_node (x_opts x4) m) as [i|] eqn:LK; [|discriminate].
    destruct (lookup_some _ _ _ LK) as (o & N & _). rewrite N. destruct (o_def o); [discriminate|].
    destruct (o_type o); [apply IH; lia| |]; (destruct r as [|v r]; [discriminate|]); destruct (is_argument x4 v) as [c x5]; (destruct c; [discriminate|]); apply IH; cbn in L; lia.
  - destruct (x_nofree x1); [discriminate|]. apply IH. lia.
Qed.
Theorem no_ub atoi x args : parse atoi x args <> PUB.
Proof.
  unfold parse. destruct args as [|a r]; [destruct (missing (x_opts x)); discriminate|].
  destruct (parse_loop atoi x (a :: r)) eqn:E; try discriminate; [|exfalso; exact (loop_no_ub atoi _ x (a :: r) (le_n _) E)].
  destruct (missing (x_opts x0)); [discriminate|]. destruct (check_depends (x_opts x0) (x_opts x0)); discriminate.
Qed.

(** * Reads beyond the strings *)
Definition long_enough (a : bytes) : Prop := 1 <= zlen a /\ (optionlike a \/ starts [47] a -> 6 <= zlen a).
Lemma not_beyond a p : zlen p <= zlen a + 1 -> beyond a p = false.
Proof. intros H. unfold beyond. apply Z.ltb_ge. lia. Qed.
Lemma set_over_false x : x_over (set_over x false) = x_over x.
Proof. cbn. apply Bool.orb_false_r. Qed.
Lemma is_arg_over x a b x' : 1 <= zlen a -> is_argument x a = (b, x') -> x_over x' = x_over x /\ x_opts x' = x_opts x.
Proof.
  intros L. unfold is_argument. assert (B : beyond a DD = false) by (apply not_beyond; cbn; lia). rewrite B, Bool.andb_false_r.
  cbn [x_mode set_over]. destruct x as [os ps m nf ov sd]. cbn.
  repeat match goal with |- context [if ?c then _ else _] => destruct c end; intros H; inversion H; subst; destruct m; cbn; rewrite ?Bool.orb_false_r; auto.
Qed.
Lemma is_arg_shape x a x' : is_argument x a = (true, x') -> optionlike a \/ starts [47] a.
Proof.
  unfold is_argument. intros H. destruct (memeq a DD) eqn:E; [apply memeq_iff in E; left; left; exact E|].
  destruct (short_form a) eqn:F; [apply short_form_iff in F; left; right; exact F|].
  rewrite !Bool.andb_false_r in H. destruct (win_start a) eqn:W; [|rewrite Bool.andb_false_r in H; discriminate].
  right. unfold win_start in W. apply Bool.andb_true_iff in W. destruct W as [L Z0]. destruct a as [|c a]; [discriminate|]. cbn in Z0. apply Z.eqb_eq in Z0. unfold BAR in Z0. subst. exists a. reflexivity.
Qed.
Lemma get_len x a n x' : get_argument x a = (Some n, x') -> 6 <= zlen a -> 4 <= zlen n /\ x_over x' = x_over x /\ x_opts x' = x_opts x.
Proof.
  unfold get_argument. intros H L. assert (B : beyond a DD = false) by (apply not_beyond; cbn; lia). rewrite B in H.
  assert (Z : 4 <= zlen n).
  { unfold zlen in *. destruct (memeq a DD); [|destruct (short_form a || win_start a); [|discriminate]]; inversion H; subst.
    - destruct a as [|? [|? a]]; cbn [List.length] in *; lia.
    - destruct a; cbn [tl List.length] in *; lia. }
  inversion H; subst. cbn. rewrite Bool.orb_false_r. auto.
Qed.
Lemma loop_over atoi n : forall x args x', (List.length args <= n)%nat -> Forall long_enough args -> parse_loop atoi x args = PGo x' -> x_over x' = x_over x.
Proof.
  induction n as [|n IH]; intros x [|a r] x' L G; cbn in L; try lia; try (cbn; intros H; inversion H; reflexivity).
  inversion G as [|? ? [GA GB] GR]; subst. cbn [parse_loop]. destruct (is_argument x a) as [b x1] eqn:E1. pose proof (is_arg_over _ _ _ _ GA E1) as [O1 P1]. destruct b; cbn [negb].
  - destruct (is_arg_get x a x1 x1 E1) as (m & x2 & E2). rewrite E2. destruct (get_len _ _ _ _ E2 (GB (is_arg_shape _ _ _ E1))) as (ML & O2 & P2).
    unfold is_help. destruct (memeq m (asc "help") || memeq m (asc "?")); [discriminate|]. unfold is_usage. destruct (memeq m (asc "usage")); [discriminate|].
    rewrite (not_beyond m (asc "help")), (not_beyond m (asc "usage")) by (cbn; lia).
    set (x4 := set_over (set_over x2 false) false). assert (O4 : x_over x4 = x_over x) by (unfold x4; rewrite !set_over_false; congruence).
    destruct (lookup_node (x_opts x4) m) as [i|]; [|discriminate]. destruct (nth_error (x_opts x4) i) as [o|]; [|discriminate]. destruct (o_def o); [discriminate|].
    destruct (o_type o).
    + intros H. apply IH in H; [|lia|auto]. rewrite H. exact O4.
    + destruct r as [|v r]; [discriminate|]. inversion GR as [|? ? [GV _] GR']; subst. destruct (is_argument x4 v) as [c x5] eqn:E5. destruct (is_arg_over _ _ _ _ GV E5) as [O5 _].
      destruct c; [discriminate|]. intros H. apply IH in H; [|cbn in L; lia|auto]. rewrite H. cbn. congruence.
    + destruct r as [|v r]; [discriminate|]. inversion GR as [|? ? [GV _] GR']; subst. destruct (is_argument x4 v) as [c x5] eqn:E5. destruct (is_arg_over _ _ _ _ GV E5) as [O5 _].
      destruct c; [discriminate|]. intros H. apply IH in H; [|cbn in L; lia|auto]. rewrite H. cbn. congruence.
  - destruct (x_nofree x1); [discriminate|]. intros H. apply IH in H; [|lia|auto]. rewrite H. cbn. auto.
Qed.
Theorem no_over atoi x args x' : (forall a, In a args -> 1 <= zlen a /\ (optionlike a \/ starts [47] a -> 6 <= zlen a)) -> parse atoi x args = PGo x' -> x_over x' = x_over x.
Proof.
  intros G H. assert (G' : Forall long_enough args) by (apply Forall_forall; exact G). unfold parse in H. destruct args as [|a r].
  - destruct (missing (x_opts x)); inversion H; auto.
  - destruct (parse_loop atoi x (a :: r)) as [y| |] eqn:E; try discriminate. apply (loop_over atoi _ _ _ _ (le_n _) G') in E. rewrite <- E.
    destruct (missing (x_opts y)); [discriminate|]. destruct (check_depends (x_opts y) (x_opts y)); inversion H; auto.
Qed.

(** * Installing *)
Theorem installed x name short ty x' : install x name short ty = PGo x' ->
  x_opts x' = x_opts x ++ [mkO name short ty None 0 false true [] []] /\ (forall o, In o (x_opts x) -> ~ named o name) /\
  (forall s o, short = Some s -> In o (x_opts x) -> o_short o <> Some s).
Proof.
  unfold install. destruct (lookup_node (x_opts x) name) eqn:L; [discriminate|]. intros H.
  assert (A : forall o, In o (x_opts x) -> ~ named o name).
  { intros o I. apply In_nth_error in I. destruct I as [i N]. eapply lookup_none; eauto. }
  destruct short as [s|]; [destruct (existsb (short_clash s) (x_opts x)) eqn:E; [discriminate|]|]; inversion H; subst; cbn; (split; [auto|]); (split; [auto|]).
  - intros s' o Q I K. inversion Q; subst. assert (existsb (short_clash s') (x_opts x) = true); [|congruence].
    apply existsb_exists. exists o. split; auto. unfold short_clash. rewrite K. apply memeq_iff. exists []. rewrite app_nil_r. auto.
  - intros; discriminate.
Qed.
Theorem install_refused x name short ty w : install x name short ty = PExit w ->
  (exists o, In o (x_opts x) /\ named o name) \/ (exists o s s', In o (x_opts x) /\ short = Some s /\ o_short o = Some s' /\ starts s s').
Proof.
  unfold install. destruct (lookup_node (x_opts x) name) eqn:L.
  - intros _. destruct (lookup_some _ _ _ L) as (o & N & M). left. exists o. split; auto. eapply nth_error_In; eauto.
  - destruct short as [s|]; [|discriminate]. destruct (existsb (short_clash s) (x_opts x)) eqn:E; [|discriminate]. intros _. right.
    apply existsb_exists in E. destruct E as (o & I & K). unfold short_clash in K. destruct (o_short o) as [s'|] eqn:S0; [|discriminate].
    exists o, s, s'. repeat split; auto. apply memeq_iff. auto.
Qed.
Theorem install_apart x name short ty x' : names_apart (x_opts x) -> install x name short ty = PGo x' ->
  (forall s o, short = Some s -> In o (x_opts x) -> o_name o <> s) -> names_apart (x_opts x').
Proof.
  intros A H NS. apply installed in H. destruct H as (E & N1 & N2). rewrite E. clear E.
  set (nw := mkO name short ty None 0 false true [] []).
  assert (NEW : forall o n, In o (x_opts x) -> named o n -> named nw n -> False).
  { intros o n I M [K|K]; cbn in K; [subst; exact (N1 o I M)|]. destruct M as [M|M]; [exact (NS n o K I (eq_sym M))|exact (N2 n o K I M)]. }
  assert (SPL : forall i o, nth_error (x_opts x ++ [nw]) i = Some o -> nth_error (x_opts x) i = Some o \/ (i = List.length (x_opts x) /\ o = nw)).
  { intros i o N. destruct (Nat.lt_ge_cases i (List.length (x_opts x))) as [Q|Q].
    - rewrite nth_error_app1 in N by auto. auto.
    - rewrite nth_error_app2 in N by auto. right. destruct (i - List.length (x_opts x))%nat as [|k] eqn:Z; cbn in N; [inversion N; split; auto; lia|destruct k; discriminate]. }
  intros i j o o' n NI NJ MI MJ. destruct (SPL i o NI) as [NI'|[-> ->]], (SPL j o' NJ) as [NJ'|[-> ->]]; auto.
  - eapply A; eauto.
  - exfalso. exact (NEW o n (nth_error_In _ _ NI') MI MJ).
  - exfalso. exact (NEW o' n (nth_error_In _ _ NJ') MJ MI).
Qed.

(** * Decisions, for the examples *)
Definition keys (o : opt) : list bytes := o_name o :: match o_short o with Some s => [s] | None => [] end.
Lemma keys_named o n : named o n <-> In n (keys o).
Proof. unfold named, keys. destruct (o_short o); cbn; split; intros [H|H]; subst; auto; try (inversion H; auto; fail); try discriminate; try tauto. destruct H as [->|[]]; auto. Qed.
Definition apartb (l : list opt) : bool :=
  forallb (fun i => forallb (fun j => Nat.eqb i j || forallb (fun n => negb (existsb (bytes_eqb n) (keys (nth j l (mkO [] None ANone None 0 false true [] [])))))
                                                          (keys (nth i l (mkO [] None ANone None 0 false true [] [])))) (seq 0 (List.length l))) (seq 0 (List.length l)).
Lemma apartb_ok l : apartb l = true -> names_apart l.
Proof.
  unfold apartb. intros H i j o o' n NI NJ MI MJ. rewrite forallb_forall in H.
  assert (LI : (i < List.length l)%nat) by (apply nth_error_Some; congruence). assert (LJ : (j < List.length l)%nat) by (apply nth_error_Some; congruence).
  specialize (H i). rewrite in_seq in H. specialize (H ltac:(lia)). rewrite forallb_forall in H. specialize (H j). rewrite in_seq in H. specialize (H ltac:(lia)).
  apply Bool.orb_true_iff in H. destruct H as [H|H]; [apply Nat.eqb_eq; auto|]. exfalso.
  rewrite (nth_error_nth _ _ _ NI), (nth_error_nth _ _ _ NJ) in H. rewrite forallb_forall in H. apply keys_named in MI. apply keys_named in MJ. specialize (H n MI).
  assert (existsb (bytes_eqb n) (keys o') = true) by (apply existsb_exists; exists n; split; auto; apply bytes_eqb_refl). rewrite H0 in H. discriminate.
Qed.

(** * Relations *)
Theorem related excl x a b x' : relate excl x a b = PGo x' ->
  a <> b /\ exists i j o p o', nth_error (x_opts x) i = Some o /\ named o a /\ nth_error (x_opts x) j = Some p /\ named p b /\
    nth_error (x_opts x') i = Some o' /\ (forall k, k <> i -> nth_error (x_opts x') k = nth_error (x_opts x) k) /\
    o_deps o' = (if excl then [] else [j]) ++ o_deps o /\ o_excl o' = (if excl then [j] else []) ++ o_excl o /\
    o_name o' = o_name o /\ o_short o' = o_short o /\ o_type o' = o_type o /\ o_optional o' = o_optional o /\ o_def o' = o_def o.
Proof.
  unfold relate. destruct (bytes_eqb a b) eqn:E; [discriminate|]. destruct (lookup_node (x_opts x) a) as [i|] eqn:LA; [|discriminate].
  destruct (lookup_node (x_opts x) b) as [j|] eqn:LB; [|discriminate]. destruct (nth_error (x_opts x) i) as [o|] eqn:N; [|discriminate].
  intros H. injection H as <-. split; [intros ->; rewrite bytes_eqb_refl in E; discriminate|].
  destruct (lookup_some _ _ _ LA) as (o2 & N2 & M2). destruct (lookup_some _ _ _ LB) as (p & NP & MP). assert (o2 = o) by congruence. subst o2.
  exists i, j, o, p. eexists. cbn [x_opts set_opts]. rewrite nth_set_at, Nat.eqb_refl, N. repeat match goal with |- _ /\ _ => split end; try reflexivity; auto; try (destruct excl; reflexivity).
  intros k K. rewrite nth_set_at. destruct (Nat.eqb i k) eqn:Q; auto. apply Nat.eqb_eq in Q. congruence.
Qed.
Theorem relate_refused excl x a b w : relate excl x a b = PExit w ->
  a = b \/ (forall o, In o (x_opts x) -> ~ named o a) \/ (forall o, In o (x_opts x) -> ~ named o b).
Proof.
  assert (L : forall n, lookup_node (x_opts x) n = None -> forall o, In o (x_opts x) -> ~ named o n).
  { intros n H o I. apply In_nth_error in I. destruct I as [i N]. eapply lookup_none; eauto. }
  unfold relate. destruct (bytes_eqb a b) eqn:E; [left; apply beq_iff; auto|].
  destruct (lookup_node (x_opts x) a) as [i|] eqn:LA; [|right; left; auto]. destruct (lookup_node (x_opts x) b) as [j|] eqn:LB; [|right; right; auto].
  destruct (lookup_some _ _ _ LA) as (o & N & _). rewrite N. discriminate.
Qed.
Theorem made_obligatory x a : names_apart (x_opts x) -> forall i o, nth_error (x_opts x) i = Some o ->
  exists o', nth_error (x_opts (obligatory x a)) i = Some o' /\ (named o a -> o_optional o' = false) /\ (~ named o a -> o' = o) /\
    o_name o' = o_name o /\ o_short o' = o_short o /\ o_type o' = o_type o /\ o_def o' = o_def o /\ o_deps o' = o_deps o /\ o_excl o' = o_excl o.
Proof.
  intros A i o N. unfold obligatory. destruct (lookup_node (x_opts x) a) as [j|] eqn:L.
  - destruct (lookup_some _ _ _ L) as (p & NP & MP). rewrite NP. cbn [x_opts set_opts]. rewrite nth_set_at. destruct (Nat.eqb j i) eqn:E.
    + apply Nat.eqb_eq in E. subst j. rewrite NP. assert (p = o) by congruence. subst p. eexists. split; [reflexivity|]. cbn. intuition.
    + apply Nat.eqb_neq in E. exists o. rewrite N. split; auto. split; [intros M; exfalso; apply E; eapply A; eauto|]. intuition.
  - exists o. split; auto. split; [intros M; exfalso; eapply lookup_none; eauto|]. intuition.
Qed.
