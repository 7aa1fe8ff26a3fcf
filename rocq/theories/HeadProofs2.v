(** The messages sent by the channels of a profile. *)
From Coq Require Import String.
From Verif Require Import Base CodecModel MimeModel MimeSpec MimeProofs HeadModel HeadSpec HeadProofs.
Local Open Scope list_scope.
Local Open Scope Z_scope.
Ltac conj := repeat match goal with |- _ /\ _ => split end.

Definition sval (s : hst) (v : option (nat * bytes)) (d b : bytes) : Prop :=
  match v with None => b = d | Some (a, b') => b' = b /\ (a < h_next s)%nat /\ ~ In a (h_freed s) end.
Definition apart (p : profile) : Prop :=
  match p_mime p, p_te p with Some (a, _), Some (b, _) => a <> b | _, _ => True end.
Definition prof_ok (s : hst) (cf : option (bytes * bytes)) : Prop :=
  match h_profile s, cf with
  | None, None => True
  | Some p, Some (m, t) => sval s (p_mime p) octet_stream m /\ sval s (p_te p) t_binary t /\ apart p /\ plain m /\ t = d_encoding
  | _, _ => False
  end.
Definition ptr_ok (s : hst) (p : ptr) (b : bytes) : Prop :=
  match p with PNull => False | PStatic b' => b' = b | PHeap a b' => b' = b /\ ~ In a (h_freed s) end.
Definition chan_ok (s : hst) (c : chan) (cf : option (bytes * bytes)) : Prop :=
  match cf with
  | None => ch_mime c = PNull /\ ch_te c = PNull
  | Some (m, t) => ptr_ok s (ch_mime c) m /\ ptr_ok s (ch_te c) t /\ plain m /\ t = d_encoding
  end.
Definition leadc (cf : option (bytes * bytes)) : bytes := match cf with None => t_crlf | Some (m, _) => lead m end.
Definition good (cf : option (bytes * bytes)) (x : Z * bytes * bytes) : Prop :=
  let '(a, c, m) := x in c = (if a =? 2 then [] else leadc cf) ++ m.
Definition skipsi (c : option chan) (r : option Z) : bool := match c with Some c => skips c r | None => false end.
Definition log_ok (s : hst) (cfs : list (option (bytes * bytes))) : Prop := forall i r,
  (skipsi (nth_error (h_chans s) i) r = true <-> fst (messages (h_log s) i r) <> None) /\
  (forall x, (fst (messages (h_log s) i r) = Some x \/ In x (snd (messages (h_log s) i r))) -> exists cf, nth_error cfs i = Some cf /\ good cf x).
Record HI (s : hst) (c : conf) (opened : bool) : Prop := mkHI {
  i_prof : prof_ok s (cf_profile c);
  i_freed : forall a, In a (h_freed s) -> (a < h_next s)%nat;
  i_chans : Forall2 (chan_ok s) (h_chans s) (cf_chans c);
  i_open : opened = false -> h_chans s = [];
  i_log : log_ok s (cf_chans c) }.

Lemma nth_set_same : forall l i c c0, nth_error l i = Some c0 -> nth_error (set_nth l i c) i = Some c.
Proof. induction l as [|x l IH]; intros [|i] c c0 H; try discriminate; cbn in *; [reflexivity|]. eauto. Qed.
Lemma nth_set_other : forall l i j c, i <> j -> nth_error (set_nth l i c) j = nth_error l j.
Proof. induction l as [|x l IH]; intros [|i] [|j] c H; cbn; try reflexivity; [congruence|]. apply IH. congruence. Qed.
Lemma f2_set : forall s l cs i c c0 (Q : Forall2 (chan_ok s) l cs), nth_error l i = Some c0 ->
  ch_mime c = ch_mime c0 -> ch_te c = ch_te c0 -> Forall2 (chan_ok s) (set_nth l i c) cs.
Proof.
  intros s l cs i c c0 Q. revert i. induction Q as [|x y l cs K Q IH]; intros [|i] H E1 E2; try discriminate; cbn in *.
  - injection H as ->. constructor; [|exact Q]. unfold chan_ok in *. rewrite E1, E2. exact K.
  - constructor; [exact K|]. now apply IH.
Qed.
Lemma f2_nth : forall s l cs i c, Forall2 (chan_ok s) l cs -> nth_error l i = Some c -> exists cf, nth_error cs i = Some cf /\ chan_ok s c cf.
Proof.
  intros s l cs i c Q. revert i. induction Q as [|x y l cs K Q IH]; intros [|i] H; try discriminate; cbn in *; [|eauto]. injection H as <-. eauto.
Qed.
Lemma about_same : forall i r o, about i r o = true <-> o_chan o = i /\ o_reply o = r.
Proof.
  intros i r o. unfold about. rewrite andb_true_iff, Nat.eqb_eq. destruct (o_reply o) as [a|], r as [b|]; rewrite ?Z.eqb_eq; intuition congruence.
Qed.
Lemma messages_app : forall log o i r, messages (log ++ [o]) i r = if about i r o then gather (messages log i r) o else messages log i r.
Proof.
  intros. unfold messages. rewrite filter_app. cbn [filter]. destruct (about i r o).
  - now rewrite fold_left_app.
  - now rewrite app_nil_r.
Qed.
Lemma skips_marked_same : forall c r more a, skips (marked c r more a) r = more.
Proof.
  intros c [n|] more a; cbn; [|reflexivity].
  assert (F : existsb (Z.eqb n) (filter (fun k => negb (k =? n)) (ch_marks c)) = false).
  { apply not_true_iff_false. rewrite existsb_exists. intros (x & H1 & H2). apply filter_In in H1. destruct H1 as [_ H1]. rewrite Z.eqb_sym, H2 in H1. discriminate. }
  destruct more; cbn; [now rewrite Z.eqb_refl|exact F].
Qed.
Lemma skips_marked_other : forall c r r' more a, r <> r' -> skips (marked c r more a) r' = skips c r'.
Proof.
  intros c [n|] [k|] more a H; cbn; try reflexivity; [|congruence].
  assert (N : k <> n) by congruence. assert (E : k =? n = false) by now apply Z.eqb_neq.
  assert (F : existsb (Z.eqb k) (filter (fun k => negb (k =? n)) (ch_marks c)) = existsb (Z.eqb k) (ch_marks c)).
  { clear -N. induction (ch_marks c) as [|x l IH]; [reflexivity|]. cbn. destruct (x =? n) eqn:X; cbn; rewrite IH; [|reflexivity].
    apply Z.eqb_eq in X. subst. replace (k =? n) with false by (symmetry; now apply Z.eqb_neq). reflexivity. }
  destruct more; cbn; [|exact F]. now rewrite E.
Qed.

(** Events that touch neither the channels nor the log. *)
Lemma log_keep : forall s s' cfs, h_chans s' = h_chans s -> h_log s' = h_log s -> log_ok s cfs -> log_ok s' cfs.
Proof. intros s s' cfs E1 E2 H i r. rewrite E1, E2. apply H. Qed.

Lemma existsb_in : forall a l, existsb (Nat.eqb a) l = true <-> In a l.
Proof. intros. rewrite existsb_exists. split; [intros (x & H & E); apply Nat.eqb_eq in E; now subst|intros H; exists a; split; [exact H|apply Nat.eqb_refl]]. Qed.
Lemma deref_ok : forall s p b, ptr_ok s p b -> deref s p = Ok (Some b).
Proof.
  intros s p b H. destruct p as [|b'|a b']; cbn in *; [easy|now subst|]. destruct H as [<- H].
  destruct (existsb (Nat.eqb a) (h_freed s)) eqn:E; [apply existsb_in in E; easy|reflexivity].
Qed.
Lemma shown_binary : shown (Some d_encoding) t_binary = false. Proof. reflexivity. Qed.

Lemma send_content : forall s c cf msg, chan_ok s c cf ->
  (let! m := deref s (ch_mime c) in let! t := deref s (ch_te c) in content true m t msg) = Ok (leadc cf ++ msg).
Proof.
  intros s c [[m t]|] msg H; cbn in H.
  - destruct H as (H1 & H2 & _ & ->). rewrite (deref_ok _ _ _ H1). cbn [obind]. rewrite (deref_ok _ _ _ H2). cbn [obind].
    rewrite content_plain by exact shown_binary. reflexivity.
  - destruct H as [-> ->]. cbn [deref obind]. apply content_null. reflexivity.
Qed.

Lemma chans_keep : forall s s' l cs, h_freed s' = h_freed s -> Forall2 (chan_ok s) l cs -> Forall2 (chan_ok s') l cs.
Proof.
  intros s s' l cs E H. induction H as [|c cf l cs K H IH]; constructor; [|exact IH].
  destruct cf as [[m t]|]; cbn in *; [|exact K]. unfold ptr_ok in *. rewrite E. exact K.
Qed.
Lemma prof_keep : forall s s' cf, h_profile s' = h_profile s -> h_freed s' = h_freed s -> h_next s' = h_next s -> prof_ok s cf -> prof_ok s' cf.
Proof. intros s s' cf E1 E2 E3 H. unfold prof_ok, sval in *. rewrite E1, E2, E3. exact H. Qed.

Definition opens (opened : bool) (e : hev) : bool := match e with HOpen => true | _ => opened end.
Definition fine (opened : bool) (e : hev) : Prop :=
  match e with
  | HUnregister => opened = false
  | HMime m t => opened = false /\ (forall b, m = Some b -> plain b) /\ (t = None \/ t = Some d_encoding)
  | _ => True
  end.

Lemma plain_octet : plain octet_stream.
Proof. split; [discriminate|]. repeat constructor; discriminate. Qed.

Lemma HI_step : forall s c opened e, HI s c opened -> fine opened e -> exists s', hstep s e = Ok s' /\ HI s' (conf_step c e) (opens opened e).
Proof.
  intros s c opened e I F. destruct I as [I1 I2 I3 I4 I5]. destruct e as [| |m t|v|v|i v| |i r msg more]; cbn [hstep conf_step opens].
  - (* HRegister *) eexists; split; [reflexivity|]. unfold prof_ok in I1. destruct (h_profile s) as [p|] eqn:E, (cf_profile c) as [[m t]|] eqn:E2; try contradiction.
    + constructor; auto. unfold prof_ok. now rewrite E, E2.
    + constructor; cbn; auto. unfold prof_ok. cbn. conj; auto using plain_octet.
  - (* HUnregister *) cbn in F. subst. specialize (I4 eq_refl). unfold prof_ok in I1.
    destruct (h_profile s) as [p|] eqn:E, (cf_profile c) as [[m t]|] eqn:E2; try contradiction; (eexists; split; [reflexivity|]).
    + constructor; cbn.
      * exact Logic.I.
      * intros a H. rewrite !in_app_iff in H. destruct I1 as (S1 & S2 & _). destruct H as [H|[H|H]]; [| |auto].
        -- destruct (p_mime p) as [[a1 b1]|]; cbn in *; [|easy]. destruct H as [<-|[]]. tauto.
        -- destruct (p_te p) as [[a1 b1]|]; cbn in *; [|easy]. destruct H as [<-|[]]. tauto.
      * rewrite I4 in *. inversion I3. constructor.
      * auto.
      * eapply log_keep; [| |exact I5]; reflexivity.
    + constructor; cbn; auto. unfold prof_ok. now rewrite E.
  - (* HMime *) cbn in F. destruct F as (-> & F1 & F2). specialize (I4 eq_refl). unfold prof_ok in I1.
    destruct (h_profile s) as [p|] eqn:E, (cf_profile c) as [[m0 t0]|] eqn:E2; try contradiction; (eexists; split; [reflexivity|]).
    + destruct I1 as (S1 & S2 & S3 & S4 & ->). unfold set_string.
      assert (T0 : or t d_encoding = d_encoding) by (destruct F2 as [->| ->]; reflexivity).
      assert (P0 : plain (or m m0)) by (destruct m; cbn; auto).
      destruct m as [mb|], t as [tb|]; cbn in *; constructor; cbn; rewrite ?E2; cbn.
      all: try (rewrite I4 in *; inversion I3; constructor; fail).
      all: try (intros; exact I4).
      all: try (eapply log_keep; [| |exact I5]; reflexivity).
      * unfold prof_ok; cbn. rewrite T0. unfold apart in *; cbn.
        conj; auto; try (intros H; rewrite !in_app_iff in H;
          destruct (p_te p) as [[a2 b2]|]; destruct (p_mime p) as [[a1 b1]|]; cbn in *;
          repeat match goal with H : _ /\ _ |- _ => destruct H end;
          repeat match goal with H : _ \/ _ |- _ => destruct H end; try contradiction; subst; try lia;
          match goal with H : In _ (h_freed s) |- _ => apply I2 in H; lia end).
      * intros a H. rewrite !in_app_iff in H. destruct (p_te p) as [[a2 b2]|]; destruct (p_mime p) as [[a1 b1]|]; cbn in *;
          repeat match goal with H : _ /\ _ |- _ => destruct H end;
          repeat match goal with H : _ \/ _ |- _ => destruct H end; try contradiction; subst; try lia;
          match goal with H : In _ (h_freed s) |- _ => apply I2 in H; lia end.
      * unfold prof_ok; cbn. unfold apart in *; cbn in *. destruct (p_te p) as [[a2 b2]|] eqn:TE; cbn in *.
        -- conj; auto; try tauto; try lia.
           ++ intros H. rewrite in_app_iff in H. destruct (p_mime p) as [[a1 b1]|]; cbn in *; [destruct H as [[H|[]]|H]|destruct H as [[]|H]]; try (apply I2 in H); lia.
           ++ intros H. rewrite in_app_iff in H. destruct (p_mime p) as [[a1 b1]|]; cbn in *; [destruct H as [[H|[]]|H]|destruct H as [[]|H]]; try subst; tauto.
        -- conj; auto; try lia. intros H. rewrite in_app_iff in H. destruct (p_mime p) as [[a1 b1]|]; cbn in *; [destruct H as [[H|[]]|H]|destruct H as [[]|H]]; try (apply I2 in H); lia.
      * intros a H. rewrite in_app_iff in H. destruct (p_mime p) as [[a1 b1]|]; cbn in *; [destruct H as [[H|[]]|H]|destruct H as [[]|H]]; try (apply I2 in H); lia.
      * unfold prof_ok; cbn. rewrite T0. unfold apart in *; cbn in *. destruct (p_mime p) as [[a1 b1]|] eqn:TE; cbn in *.
        -- conj; auto; try tauto; try lia.
           ++ intros H. rewrite in_app_iff in H. destruct (p_te p) as [[a2 b2]|]; cbn in *; [destruct H as [[H|[]]|H]|destruct H as [[]|H]]; try subst; tauto.
           ++ intros H. rewrite in_app_iff in H. destruct (p_te p) as [[a2 b2]|]; cbn in *; [destruct H as [[H|[]]|H]|destruct H as [[]|H]]; try (apply I2 in H); lia.
        -- conj; auto; try lia. intros H. rewrite in_app_iff in H. destruct (p_te p) as [[a2 b2]|]; cbn in *; [destruct H as [[H|[]]|H]|destruct H as [[]|H]]; try (apply I2 in H); lia.
      * intros a H. rewrite in_app_iff in H. destruct (p_te p) as [[a2 b2]|]; cbn in *; [destruct H as [[H|[]]|H]|destruct H as [[]|H]]; try (apply I2 in H); lia.
      * unfold prof_ok; cbn. unfold sval, apart in *; cbn in *. auto.
      * auto.
    + constructor; cbn; auto. unfold prof_ok. now rewrite E, E2.
  - (* HProfileAuto *) eexists; split; [reflexivity|]. destruct (h_profile s) as [p|] eqn:E; [destruct (valid_auto v)|]; constructor; cbn; auto.
    all: try (eapply chans_keep; [|exact I3]; reflexivity).
    all: unfold prof_ok in *; cbn; rewrite E in *; auto.
  - (* HLibAuto *) eexists; split; [reflexivity|]. constructor; cbn; auto.
  - (* HChanAuto *) eexists; split; [reflexivity|]. destruct (nth_error (h_chans s) i) as [ch|] eqn:E; [destruct (valid_auto v)|]; try (constructor; auto; fail).
    constructor; cbn; auto.
    + eapply chans_keep; [|eapply f2_set; [exact I3|exact E|reflexivity|reflexivity]]; reflexivity.
    + intros O. rewrite (I4 O) in E. now destruct i.
    + intros j r. cbn. destruct (I5 j r) as [L1 L2]. split; [|exact L2]. rewrite <- L1.
      destruct (Nat.eq_dec i j) as [<-|N]; [|now rewrite nth_set_other by exact N].
      rewrite (nth_set_same _ _ _ _ E), E. cbn. destruct r; reflexivity.
  - (* HOpen *) eexists; split; [reflexivity|]. constructor; cbn; auto.
    + apply Forall2_app; [eapply chans_keep; [|exact I3]; reflexivity|]. constructor; [|constructor].
      unfold prof_ok in I1. destruct (h_profile s) as [p|], (cf_profile c) as [[m t]|]; try contradiction; cbn; [|auto].
      destruct I1 as (S1 & S2 & S3 & S4 & S5). conj; auto.
      * unfold sval in S1. destruct (p_mime p) as [[a b]|]; cbn; [tauto|congruence].
      * unfold sval in S2. destruct (p_te p) as [[a b]|]; cbn; [tauto|congruence].
    + discriminate.
    + intros i r. cbn. destruct (I5 i r) as [L1 L2]. split.
      * rewrite <- L1. destruct (Nat.lt_ge_cases i (List.length (h_chans s))) as [A|A].
        -- now rewrite nth_error_app1 by exact A.
        -- rewrite nth_error_app2 by exact A. assert (N : nth_error (h_chans s) i = None) by now apply nth_error_None.
           rewrite N. cbn. destruct (i - _)%nat as [|k]; cbn; [|destruct k; cbn; reflexivity]. destruct (h_profile s); destruct r; reflexivity.
      * intros x H. destruct (L2 x H) as (cf & N & G). exists cf. split; [|exact G]. rewrite nth_error_app1; [exact N|]. apply nth_error_Some. congruence.
  - (* HSend *) destruct (nth_error (h_chans s) i) as [ch|] eqn:E.
    2: { eexists; split; [reflexivity|]. constructor; auto. }
    destruct (f2_nth _ _ _ _ _ I3 E) as (cf & N & K).
    set (auto := if skips ch r then ch_auto ch else decide s ch).
    assert (B : exists b, (if negb (skips ch r) && negb (auto =? 2)
      then let! m := deref s (ch_mime ch) in let! t := deref s (ch_te ch) in content true m t msg
      else content false None None msg) = Ok b /\ b = (if skips ch r then [] else if auto =? 2 then [] else leadc cf) ++ msg).
    { destruct (skips ch r); cbn [negb andb]; [rewrite content_none; eauto|].
      destruct (auto =? 2); cbn [negb]; [rewrite content_none; eauto|]. rewrite (send_content _ _ cf) by exact K. eauto. }
    destruct B as (b & B1 & B2). cbv zeta. fold auto. rewrite B1. cbn [obind]. eexists; split; [reflexivity|].
    constructor; cbn; auto.
    + eapply chans_keep; [|eapply f2_set; [exact I3|exact E| |]]; [reflexivity|destruct r; reflexivity|destruct r; reflexivity].
    + intros O. rewrite (I4 O) in E. now destruct i.
    + intros j r'. cbn [h_log h_chans with_chan]. rewrite messages_app. destruct (I5 j r') as [L1 L2].
      destruct (about j r' _) eqn:A.
      * apply about_same in A. cbn in A. destruct A as [<- <-]. rewrite (nth_set_same _ _ _ _ E). cbn [skipsi]. rewrite skips_marked_same. rewrite E in L1. cbn [skipsi] in L1.
        unfold gather. cbn [o_auto o_content o_msg o_more].
        assert (G : good cf (match fst (messages (h_log s) i r) with Some (a, c0, m0) => (a, c0 ++ b, m0 ++ msg) | None => (auto, b, msg) end)).
        { destruct (fst (messages (h_log s) i r)) as [[[a c0] m0]|] eqn:M.
          - destruct (L2 _ (or_introl eq_refl)) as (cf' & N' & G). rewrite N in N'. injection N' as <-. cbn in G |- *.
            rewrite G, B2. replace (skips ch r) with true by (symmetry; apply L1; discriminate). cbn [app]. now rewrite app_assoc.
          - cbn. rewrite B2. replace (skips ch r) with false; [reflexivity|]. symmetry. apply not_true_iff_false. intros Q. apply L1 in Q. congruence. }
        destruct more; cbn [fst snd].
        -- split; [split; [intros _ Q; discriminate|reflexivity]|]. intros x [H|H]; [|now apply L2; right]. injection H as <-. eauto.
        -- split; [split; [discriminate|intros Q; now destruct Q]|]. intros x [H|H]; [discriminate|]. apply in_app_iff in H. destruct H as [H|[<-|[]]]; [now apply L2; right|eauto].
      * split; [|exact L2]. rewrite <- L1. destruct (Nat.eq_dec i j) as [<-|NE]; [|now rewrite nth_set_other by exact NE].
        rewrite (nth_set_same _ _ _ _ E), E. cbn [skipsi]. assert (r <> r').
        { intros ->. assert (about i r' (mkSent i r' msg more b auto) = true) by (apply about_same; auto). congruence. }
        rewrite skips_marked_other by exact H. reflexivity.
Qed.
