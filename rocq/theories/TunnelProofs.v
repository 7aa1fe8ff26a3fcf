(** Proofs about the TUNNEL profile. *)
From Verif Require Import Base SendRawModel SendRawProofs TunnelModel TunnelSpec.
Ltac conj := repeat match goal with |- _ /\ _ => split end.

Lemma attr_eq a b : attr_eqb a b = true <-> a = b.
Proof. destruct a, b; cbn; split; intros; try discriminate; auto. Qed.

Lemma has_in l a : has l a = true <-> In a (map fst l).
Proof.
  unfold has. rewrite existsb_exists. split.
  - intros ([x v] & I & E). apply attr_eq in E. cbn in E. subst x. apply in_map_iff. exists (a, v). auto.
  - intros I. apply in_map_iff in I. destruct I as ([x v] & E & I). cbn in E. subst x. exists (a, v). split; auto. apply attr_eq. reflexivity.
Qed.

Lemma clash l a : existsb (has l) (forbids a) = false <-> (forall b, In b (forbids a) -> ~ In b (map fst l)).
Proof.
  split.
  - intros E b I J. assert (existsb (has l) (forbids a) = true); [|congruence].
    apply existsb_exists. exists b. split; auto. apply has_in; exact J.
  - intros H. destruct (existsb (has l) (forbids a)) eqn:E; auto. apply existsb_exists in E. destruct E as (b & I & J).
    apply has_in in J. exfalso. exact (H b I J).
Qed.

Lemma conf_app items : forall node r, hop_conf node items = Some r -> r = node ++ items.
Proof.
  induction items as [|[a v] items IH]; intros node r H; cbn [hop_conf] in H.
  - inversion H; subst. rewrite app_nil_r. reflexivity.
  - destruct (existsb _ _); [discriminate|]. apply IH in H. rewrite H, <- app_assoc. reflexivity.
Qed.

Lemma conf_ok items : forall node, NoDup (map fst (node ++ items)) ->
  (forall a b, In a (map fst (node ++ items)) -> In b (map fst (node ++ items)) -> a <> b -> ~ In b (forbids a)) ->
  hop_conf node items = Some (node ++ items).
Proof.
  induction items as [|[a v] items IH]; intros node N F; cbn [hop_conf].
  - rewrite app_nil_r. reflexivity.
  - assert (E : existsb (has node) (forbids a) = false).
    { apply clash. intros b I J. apply (F a b); auto.
      - rewrite map_app. apply in_app_iff. right; left; reflexivity.
      - rewrite map_app. apply in_app_iff. left; exact J.
      - intros <-. rewrite map_app in N. cbn [map fst] in N. apply NoDup_remove_2 in N. apply N. apply in_app_iff. left; exact J. }
    rewrite E. replace (node ++ (a, v) :: items) with ((node ++ [(a, v)]) ++ items) by (rewrite <- app_assoc; reflexivity).
    apply IH; rewrite <- app_assoc; assumption.
Qed.

Lemma documented_free d : In d documented -> forall a b, In a d -> In b d -> a <> b -> ~ In b (forbids a).
Proof.
  intros D a b A B X. cbn [documented In] in D.
  repeat match goal with H : _ \/ _ |- _ => destruct H end; try contradiction; subst d; cbn [In] in A, B;
  repeat match goal with H : _ \/ _ |- _ => destruct H end; try contradiction; subst a b; try congruence;
  cbn; intuition discriminate.
Qed.

Lemma configured_thm s items : well_configured items -> add_hop s items = TNode items [s].
Proof.
  intros (d & D & N & _ & E). unfold add_hop. rewrite (conf_ok items []); cbn [app].
  - reflexivity.
  - exact N.
  - intros a b A B X. apply (documented_free d D); auto; apply E; assumption.
Qed.

Lemma coherent_step l a : coherent l -> (forall b, In b (forbids a) -> ~ In b l) -> coherent (l ++ [a]).
Proof.
  intros (N & U & P & F & S1) H. unfold coherent.
  assert (Na : ~ In a l) by (apply H; destruct a; cbn; tauto).
  assert (I1 : forall x, In x (l ++ [a]) <-> In x l \/ x = a).
  { intros x. rewrite in_app_iff. cbn. intuition. }
  assert (NU : forall x, (x = AUri \/ x = AEndpoint) -> x = a -> l = []).
  { intros x Hx <-. destruct l as [|y l]; auto. exfalso. apply (H y); [|left; reflexivity].
    destruct Hx; subst x; destruct y; cbn; tauto. }
  conj.
  - apply NoDup_rev in N. rewrite <- (rev_involutive (l ++ [a])). apply NoDup_rev. rewrite rev_app_distr. cbn.
    constructor; auto. rewrite <- in_rev. exact Na.
  - intros I. apply I1 in I. destruct I as [I|I].
    + exfalso. apply (H AUri); [|exact I]. destruct a; cbn; tauto.
    + rewrite (NU AUri (or_introl eq_refl) I). subst a. reflexivity.
  - intros I. apply I1 in I. destruct I as [I|I].
    + exfalso. apply (H AEndpoint); [|exact I]. destruct a; cbn; tauto.
    + rewrite (NU AEndpoint (or_intror eq_refl) I). subst a. reflexivity.
  - intros I. apply I1 in I. rewrite !I1. destruct I as [I|I].
    + destruct (F I) as [F1 F2]. split; (intros [J|J]; [auto|]; apply (H AFqdn); [subst a; cbn; tauto|exact I]).
    + subst a. split; (intros [J|J]; [|discriminate]; revert J; apply H; cbn; tauto).
  - intros I. apply I1 in I. rewrite !I1. destruct I as [I|I].
    + destruct (S1 I) as [F1 F2]. split; (intros [J|J]; [auto|]; apply (H ASrv); [subst a; cbn; tauto|exact I]).
    + subst a. split; (intros [J|J]; [|discriminate]; revert J; apply H; cbn; tauto).
Qed.

Lemma coherent_conf items : forall node r, coherent (map fst node) -> hop_conf node items = Some r -> coherent (map fst r).
Proof.
  induction items as [|[a v] items IH]; intros node r C H; cbn [hop_conf] in H.
  - inversion H; subst; exact C.
  - destruct (existsb (has node) (forbids a)) eqn:E; [discriminate|]. apply IH in H; auto.
    rewrite map_app. apply coherent_step; auto. apply clash. exact E.
Qed.

Lemma coherent_nil : coherent [].
Proof. unfold coherent. conj; try (intros []; fail). constructor. Qed.

Lemma coherent_thm s items : add_hop s items = s \/
  (add_hop s items = TNode items [s] /\ coherent (map fst items)).
Proof.
  unfold add_hop. destruct (hop_conf [] items) as [r|] eqn:E; [|left; reflexivity]. right.
  pose proof (conf_app _ _ _ E) as X. cbn in X. subst r. split; auto.
  apply (coherent_conf items []); auto. exact coherent_nil.
Qed.

(** ** Routes *)
Fixpoint doc_of (l : list attrs) : tnode :=
  match l with [] => settings_new | a :: l' => TNode a [doc_of l'] end.

Lemma plain_conf items x : plain_hop items x -> hop_conf [] items = Some items /\ next_addr items = Some x.
Proof. destruct x as [h p]. intros [->|[->|[->| ->]]]; cbn; auto. Qed.

Lemma add_hops_doc cs : forall l xs, Forall2 plain_hop cs xs -> add_hops (doc_of l) cs = doc_of (rev cs ++ l).
Proof.
  unfold add_hops. induction cs as [|c cs IH]; intros l xs F; cbn [fold_left rev app]; auto.
  inversion F as [|? x ? xs' P F']; subst. unfold add_hop. destruct (plain_conf _ _ P) as [-> _].
  change (TNode c [doc_of l]) with (doc_of (c :: l)). rewrite (IH _ _ F'), <- app_assoc. reflexivity.
Qed.

Lemma doc_children a l : t_children (doc_of (a :: l)) = [doc_of l].
Proof. reflexivity. Qed.

Lemma tunnel_doc net : no_resolvers net -> forall l xs fuel, Forall2 plain_hop l xs -> (length l < fuel)%nat ->
  exists q, tunnel fuel net (doc_of l) = Some (q, snd (route net xs)) /\ map fst q = fst (route net xs) /\
    forall i x d, nth_error q i = Some (x, d) -> d = doc_of (skipn (S i) l).
Proof.
  intros NR. induction l as [|a l IH]; intros xs fuel F L; destruct fuel as [|fuel]; try (cbn in L; lia).
  - inversion F; subst. cbn. exists []. conj; auto. intros [|i] x d E; discriminate.
  - inversion F as [|? x ? xs' P F']; subst. cbn [tunnel]. unfold first_step. rewrite doc_children.
    cbn [t_attrs doc_of]. destruct (plain_conf _ _ P) as [_ ->]. cbn [length] in L.
    destruct l as [|b l].
    + inversion F'; subst. cbn [route willing fst snd andb]. unfold willing. unfold start_request. cbn [doc_of settings_new t_children].
      destruct (p_up (net x)) eqn:U; cbn [negb andb].
      * destruct (p_accept (net x)) as [[|]|]; cbn; eexists; conj; try reflexivity;
        intros [|[|i]] y d E; cbn in E; inversion E; reflexivity.
      * eexists; conj; try reflexivity; intros [|[|i]] y d E; cbn in E; inversion E; reflexivity.
    + inversion F' as [|? y ? ys P' F'']; subst.
      assert (R : route net (x :: y :: ys) = if willing net false x then let (l', ok) := route net (y :: ys) in (x :: l', ok) else ([x], false)) by reflexivity.
      rewrite R. unfold willing. rewrite andb_true_r. destruct (p_up (net x)) eqn:U; cbn [negb].
      * unfold start_request. rewrite doc_children, NR.
        destruct (IH (y :: ys) fuel F') as (q & T & M & D); [lia|]. rewrite T. destruct (route net (y :: ys)) as [l' ok] eqn:E.
        cbn [fst snd] in *. eexists. split; [reflexivity|]. split.
        -- cbn [map fst]. rewrite M. reflexivity.
        -- intros [|i] z d E'; cbn [nth_error] in E'; [inversion E'; reflexivity|]. apply D in E'. exact E'.
      * eexists. split; [reflexivity|]. split; [reflexivity|].
        intros [|[|i]] z d E'; cbn in E'; inversion E'; reflexivity.
Qed.

Lemma F2_rev {A B} (R : A -> B -> Prop) l m : Forall2 R l m -> Forall2 R (rev l) (rev m).
Proof. intros F. induction F; cbn [rev]; auto. apply Forall2_app; auto. Qed.

Lemma route_thm net cs xs fuel : no_resolvers net -> Forall2 plain_hop cs xs -> (length cs < fuel)%nat ->
  exists q, tunnel fuel net (add_hops settings_new cs) = Some (q, snd (route net (rev xs))) /\
    map fst q = fst (route net (rev xs)).
Proof.
  intros NR F L. change settings_new with (doc_of []). rewrite (add_hops_doc cs [] xs F), app_nil_r.
  destruct (tunnel_doc net NR (rev cs) (rev xs) fuel) as (q & T & M & _).
  - apply F2_rev; exact F.
  - rewrite rev_length; exact L.
  - exists q. auto.
Qed.

(** Reading of [route]: the addresses asked are the first ones of the list; the
    tunnel is there when all of them were reached and the last one accepts. *)
Lemma route_prefix net l : exists r, l = fst (route net l) ++ r /\ (snd (route net l) = true -> r = []).
Proof.
  induction l as [|x l IH]; [exists []; auto|].
  destruct l as [|y l]; [exists []; split; auto|].
  assert (R : route net (x :: y :: l) = if willing net false x then let (l', ok) := route net (y :: l) in (x :: l', ok) else ([x], false)) by reflexivity.
  rewrite R. destruct (willing net false x).
  - destruct IH as (r & E & K). destruct (route net (y :: l)) as [l' ok]. cbn [fst snd] in *. exists r. rewrite E. auto.
  - exists (y :: l). cbn. split; auto. discriminate.
Qed.

Lemma route_all net l : snd (route net l) = true <->
  l <> [] /\ (forall x, In x l -> p_up (net x) = true) /\ (forall x r, l = r ++ [x] -> p_accept (net x) <> Some false).
Proof.
  induction l as [|x l IH]; [cbn; split; [discriminate|intros (A & _); congruence]|].
  destruct l as [|y l].
  - cbn [route snd]. unfold willing. split.
    + intros E. apply andb_true_iff in E. destruct E as [U A]. conj.
      * discriminate.
      * intros z [<-|[]]; exact U.
      * intros z r E. destruct r as [|w [|]]; inversion E; subst. destruct (p_accept (net z)) as [[|]|]; congruence.
    + intros (_ & U & A). rewrite (U x (or_introl eq_refl)). cbn. specialize (A x [] eq_refl). destruct (p_accept (net x)) as [[|]|]; auto.
  - assert (R : route net (x :: y :: l) = if willing net false x then let (l', ok) := route net (y :: l) in (x :: l', ok) else ([x], false)) by reflexivity.
    rewrite R. unfold willing. rewrite andb_true_r. split.
    + destruct (p_up (net x)) eqn:U; [|cbn; discriminate]. destruct (route net (y :: l)) as [l' ok]. cbn [snd] in *.
      intros E. apply IH in E. destruct E as (_ & A & B). conj.
      * discriminate.
      * intros z [<-|I]; auto.
      * intros z r E. destruct r as [|w r]; [inversion E|]. inversion E; subst. apply (B z r). assumption.
    + intros (_ & U & A). rewrite (U x (or_introl eq_refl)). destruct (route net (y :: l)) as [l' ok]. cbn [snd] in *.
      apply IH. conj; [discriminate| |].
      * intros z I. apply U. right; exact I.
      * intros z r E. apply (A z (x :: r)). rewrite E. reflexivity.
Qed.

(** ** The answer of a listener *)
Lemma answer_thm accept resolver t : exists d, start_request accept resolver (CDoc t) = Ok d /\
  (d = DEnd <-> t_children t = [] /\ accept <> Some false) /\
  (d = DRefuse 537 <-> t_children t = [] /\ accept = Some false) /\
  (forall s, d = DNext s <-> t_children t <> [] /\
     ((exists f, resolver = Some f /\ f t = Some s) \/ (s = t /\ forall f, resolver = Some f -> f t = None))).
Proof.
  unfold start_request. destruct (t_children t) as [|c cs] eqn:E.
  - destruct accept as [[|]|]; eexists; (split; [reflexivity|]); conj; try (intuition congruence);
      (intro s; split; [discriminate|intros (H & _); congruence]).
  - destruct resolver as [f|]; [destruct (f t) as [t'|] eqn:F|]; eexists; (split; [reflexivity|]);
      (split; [intuition discriminate|]); (split; [intuition discriminate|]); intro s; split.
    + intro H. injection H as <-. split; [discriminate|]. left. exists f. auto.
    + intros (_ & [(g & Hg & Hs)|(_ & H)]); [injection Hg as <-; congruence|]. rewrite (H f eq_refl) in F. discriminate F.
    + intro H. injection H as <-. split; [discriminate|]. right. split; [reflexivity|]. intros g Hg. injection Hg as <-. exact F.
    + intros (_ & [(g & Hg & Hs)|(-> & _)]); [injection Hg as <-; congruence|reflexivity].
    + intro H. injection H as <-. split; [discriminate|]. right. split; [reflexivity|]. discriminate.
    + intros (_ & [(g & Hg & Hs)|(-> & _)]); [discriminate Hg|reflexivity].
Qed.
Lemma answer_bad accept resolver : start_request accept resolver CBad = Ok (DRefuse 500).
Proof. reflexivity. Qed.

(** ** The relay *)
Definition rinv (r : relay) : Prop := forall x,
  is_prefix (r_out (get r (other x))) (r_in (get r x)) /\
  (r_up (get r (other x)) = true -> r_out (get r (other x)) = r_in (get r x)).

Lemma get_set r x c y : get (set r x c) y = if match x, y with SA, SA | SB, SB => true | _, _ => false end then c else get r y.
Proof. destruct r, x, y; reflexivity. Qed.

Lemma other_other x : other (other x) = x.
Proof. destruct x; reflexivity. Qed.

Lemma prefix_refl b : is_prefix b b.
Proof. exists []. rewrite app_nil_r. reflexivity. Qed.

Lemma pass_prefix o r x g sends waits r' : rinv r -> call_closes o (mkRCall x g sends waits) ->
  pass_octets o r x g sends waits = Ok (Some r') -> rinv r'.
Proof.
  intros I C H. unfold pass_octets in H.
  destruct (r_alive (get r (other x))) eqn:A; cbn [negb] in H; [|discriminate].
  destruct (r_up (get r x)) eqn:U; cbn [negb] in H.
  2:{ destruct (r_up (get r (other x))); inversion H; subst; exact I. }
  destruct g as [b bs|n].
  - destruct (send_raw _ _ _ _ _ _) as [ok down w|w] eqn:S1; [|discriminate]. inversion H; subst; clear H.
    unfold call_closes in C. cbn [q_got q_sends q_waits] in C.
    pose proof (I x) as [Ix Iu]. pose proof (I (other x)) as Iy.
    assert (Hx : is_prefix (r_out (get r (other x)) ++ w) (r_in (get r x) ++ (b :: bs)) /\
                 (r_up (get r (other x)) && negb down = true -> r_out (get r (other x)) ++ w = r_in (get r x) ++ (b :: bs))).
    { destruct (r_up (get r (other x))) eqn:UP.
      - assert (S2 := S1). apply send_raw_spec in S2; [|discriminate]. destruct S2 as (rest & E & K1 & K2 & K3).
        rewrite (Iu eq_refl). split.
        + exists rest. rewrite <- app_assoc, <- E. reflexivity.
        + destruct down; [discriminate|]. intros _. f_equal.
          assert (ok = true) by (apply (C ok w); exact S1). apply K1 in H. subst rest. rewrite app_nil_r in E. auto.
      - cbn in S1. inversion S1; subst. rewrite app_nil_r. cbn. split; [|discriminate].
        destruct Ix as (c & ->). exists (c ++ b :: bs). rewrite <- app_assoc. reflexivity. }
    intros y. destruct x, y; cbn [other get set with_up with_out with_in r_a r_b r_in r_out r_up] in *; auto.
  - inversion H; subst; clear H. intros y. pose proof (I y) as [Iy _].
    destruct x, y; cbn [other get set with_up r_a r_b r_in r_out r_up] in *; split; auto; discriminate.
Qed.

Lemma reap_prefix r x : rinv r -> rinv (reap r x).
Proof.
  intros I. unfold reap. destruct (r_alive (get r x) && negb (r_up (get r x))); auto.
  intros y. pose proof (I y) as Iy. destruct x, y; cbn [other get set with_dead r_a r_b r_in r_out r_up] in *; auto.
Qed.

Lemma calls_prefix dispatch o l : forall r r', rinv r -> Forall (call_closes o) l -> calls dispatch o r l = Ok (Some r') -> rinv r'.
Proof.
  induction l as [|q l IH]; intros r r' I F H; cbn [calls] in H.
  - inversion H; subst; exact I.
  - inversion F as [|? ? Fq Fl]; subst. destruct (negb (r_alive (get r (q_side q)))); [eauto|].
    destruct (negb dispatch && negb (r_up (get r (q_side q)))).
    + apply (IH (reap r (q_side q))); auto. apply reap_prefix; exact I.
    + destruct (pass_octets _ _ _ _ _ _) as [[r1|]|] eqn:P; try discriminate.
      apply (IH r1); auto. eapply pass_prefix; [exact I| |exact P]. destruct q; exact Fq.
Qed.

Lemma rounds_prefix dispatch o l : forall r r', rinv r -> Forall (Forall (call_closes o)) l -> rounds dispatch o r l = Ok (Some r') -> rinv r'.
Proof.
  induction l as [|q l IH]; intros r r' I F H; cbn [rounds] in H.
  - inversion H; subst; exact I.
  - inversion F; subst. destruct (calls _ _ _ q) as [[r1|]|] eqn:C; try discriminate.
    apply (IH r1); auto. eapply calls_prefix; [|eassumption|exact C]. apply reap_prefix, reap_prefix; exact I.
Qed.

Lemma rinv0 : rinv relay0.
Proof. intros []; split; cbn; auto; apply prefix_refl. Qed.

Lemma relay_prefix_thm dispatch o l r : Forall (Forall (call_closes o)) l -> rounds dispatch o relay0 l = Ok (Some r) ->
  forall x, is_prefix (r_out (get r (other x))) (r_in (get r x)) /\
    (r_up (get r (other x)) = true -> r_out (get r (other x)) = r_in (get r x)).
Proof. intros F H. exact (rounds_prefix _ _ _ _ _ rinv0 F H). Qed.

(** Without failed writes there is no undefined behaviour. *)
Definition sinv (r : relay) : Prop :=
  r_up (r_a r) = r_up (r_b r) /\ (r_up (r_a r) = true -> r_alive (r_a r) = true /\ r_alive (r_b r) = true) /\
  r_out (r_a r) = r_in (r_b r) /\ r_out (r_b r) = r_in (r_a r).

Lemma pass_safe o r x g sends waits : sinv r -> r_alive (get r x) = r_alive (get r (other x)) \/ r_up (get r x) = true ->
  r_alive (get r x) = true ->
  call_ok o (mkRCall x g sends waits) -> exists r', pass_octets o r x g sends waits = Ok (Some r') /\ sinv r' /\
    forall y, r_alive (get r' y) = r_alive (get r y).
Proof.
  intros (E & A & O1 & O2) D L C. unfold pass_octets.
  assert (AP : r_alive (get r (other x)) = true).
  { destruct D as [D|D]; [congruence|]. destruct x; cbn [get other] in *; [|rewrite <- E in D]; apply A in D; tauto. }
  rewrite AP. cbn [negb].
  assert (UE : r_up (get r (other x)) = r_up (get r x)) by (destruct x; cbn [get other]; congruence).
  destruct (r_up (get r x)) eqn:U; cbn [negb]; rewrite UE.
  2:{ exists r. split; [reflexivity|]. split; [exact (Logic.conj E (Logic.conj A (Logic.conj O1 O2)))|reflexivity]. }
  destruct g as [b bs|n].
  - unfold call_ok in C. cbn [q_got q_sends q_waits] in C. destruct C as (w & C). rewrite C.
    eexists. split; [reflexivity|].
    assert (W := C). apply send_raw_spec in W; [|discriminate]. destruct W as (rest & W & K & _).
    assert (rest = []) by (apply K; reflexivity). subst rest. rewrite app_nil_r in W. subst w.
    unfold sinv. destruct x; cbn [other get set with_up with_out with_in r_a r_b r_in r_out r_up r_alive andb negb] in *;
    (split; [conj; auto; try congruence|intros []; reflexivity]).
  - eexists. split; [reflexivity|]. unfold sinv. destruct x; cbn [other get set with_up r_a r_b r_in r_out r_up r_alive] in *;
    (split; [conj; auto; discriminate|intros []; reflexivity]).
Qed.

Lemma reap_safe r x : sinv r -> sinv (reap r x).
Proof.
  intros (E & A & O1 & O2). unfold reap. destruct (r_alive (get r x) && negb (r_up (get r x))) eqn:D; [|unfold sinv; auto].
  apply andb_true_iff in D. destruct D as [_ D]. apply negb_true_iff in D. unfold sinv.
  destruct x; cbn [get set with_dead r_a r_b r_in r_out r_up r_alive] in *; conj; auto; intros; congruence.
Qed.

Lemma calls_safe dispatch o l : forall r, sinv r -> (dispatch = true -> r_alive (r_a r) = r_alive (r_b r)) -> Forall (call_ok o) l ->
  exists r', calls dispatch o r l = Ok (Some r') /\ sinv r'.
Proof.
  induction l as [|q l IH]; intros r I D F; cbn [calls]; [eauto|]. inversion F as [|? ? Fq Fl]; subst.
  destruct (r_alive (get r (q_side q))) eqn:L; cbn [negb]; [|eauto].
  destruct (negb dispatch && negb (r_up (get r (q_side q)))) eqn:K.
  - apply IH; [apply reap_safe; exact I| |exact Fl]. apply andb_true_iff in K. destruct K as [K _]. intros ->. discriminate.
  - destruct (pass_safe o r (q_side q) (q_got q) (q_sends q) (q_waits q) I) as (r' & P & I' & V).
    + destruct dispatch; [left|right].
      * destruct (q_side q); cbn [get other]; rewrite (D eq_refl); reflexivity.
      * apply negb_false_iff in K. exact K.
    + exact L.
    + destruct q; exact Fq.
    + rewrite P. apply IH; auto. intros K'. rewrite (V SA : r_alive (r_a r') = r_alive (r_a r)), (V SB : r_alive (r_b r') = r_alive (r_b r)). exact (D K').
Qed.

Lemma reap_both r : sinv r -> r_alive (r_a (reap (reap r SA) SB)) = r_alive (r_b (reap (reap r SA) SB)).
Proof.
  intros (E & A & _). destruct r as [a b]. unfold reap. cbn [get r_a r_b] in *.
  destruct (r_up a) eqn:U.
  - destruct (A eq_refl) as [A1 A2]. rewrite A1. cbn. rewrite <- E, A2. cbn. congruence.
  - destruct (r_alive a) eqn:A1; cbn; rewrite <- E; destruct (r_alive b) eqn:A2; cbn; congruence.
Qed.

Lemma rounds_safe dispatch o l : forall r, sinv r -> Forall (Forall (call_ok o)) l ->
  exists r', rounds dispatch o r l = Ok (Some r') /\ sinv r'.
Proof.
  induction l as [|q l IH]; intros r I F; cbn [rounds]; [eauto|]. inversion F; subst.
  destruct (calls_safe dispatch o q (reap (reap r SA) SB)) as (r1 & C & I1); auto.
  - apply reap_safe, reap_safe; exact I.
  - intros _. apply reap_both; exact I.
  - rewrite C. apply IH; auto.
Qed.

Lemma relay_safe_thm dispatch o l : Forall (Forall (call_ok o)) l ->
  exists r, rounds dispatch o relay0 l = Ok (Some r) /\ r_up (r_a r) = r_up (r_b r) /\
    r_out (r_a r) = r_in (r_b r) /\ r_out (r_b r) = r_in (r_a r).
Proof.
  intros F. destruct (rounds_safe dispatch o l relay0) as (r & R & E & _ & O1 & O2).
  - unfold sinv, relay0, conn0. cbn. auto.
  - exact F.
  - exists r. auto.
Qed.

(** A side that ends takes the other one with it. *)
Lemma relay_end_thm o r x n sends waits : r_alive (get r (other x)) = true -> r_up (get r x) = true ->
  exists r', pass_octets o r x (GNone n) sends waits = Ok (Some r') /\ r_up (r_a r') = false /\ r_up (r_b r') = false.
Proof. intros A U. unfold pass_octets. rewrite A, U. cbn [negb]. eexists. split; [reflexivity|]. destruct x; auto. Qed.
