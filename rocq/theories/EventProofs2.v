From Coq Require Import Permutation.
From Verif Require Import Base TimeModel TimeSpec TimeProofs HashModel EventModel EventSpec EventProofs.

(** ** What the log tells *)
Definition ends (n : Z) (log : list vobs) : Z :=
  zlen (filter (fun o => match o with VEnd m false => m =? n | _ => false end) log).
Lemma zlen_app {A} (a b : list A) : zlen (a ++ b) = zlen a + zlen b.
Proof. unfold zlen. rewrite app_length. lia. Qed.
Lemma calls_app n a b : calls n (a ++ b) = calls n a + calls n b.
Proof. unfold calls. now rewrite filter_app, zlen_app. Qed.
Lemma ends_app n a b : ends n (a ++ b) = ends n a + ends n b.
Proof. unfold ends. now rewrite filter_app, zlen_app. Qed.
Definition no_of (o : vobs) : Z :=
  match o with VNew n _ _ _ | VRemoved _ n | VStart n _ | VEnd n _ => n | _ => -1 end.
Lemma calls_none n log : (forall o, In o log -> no_of o < n) -> calls n log = 0 /\ ends n log = 0.
Proof.
  induction log as [|o l IH]; intros H; [split; reflexivity|]. destruct IH as [I1 I2]; [intros; apply H; now right|].
  specialize (H o (or_introl eq_refl)). change (o :: l) with ([o] ++ l). rewrite calls_app, ends_app, I1, I2.
  destruct o; cbn in *; try (split; reflexivity).
  - unfold calls, ends. cbn. replace (n0 =? n) with false by lia. split; reflexivity.
  - unfold calls, ends. cbn. destruct remove; [split; reflexivity|]. replace (n0 =? n) with false by lia. split; reflexivity.
Qed.
Definition final (r : option Z) (log : list vobs) : option Z :=
  fold_left (fun r o => match o with VStart n _ => Some n | VEnd _ _ => None | _ => r end) log r.
Lemma apart_snoc o : forall log r, apart r (log ++ [o]) <-> apart r log /\
  match o with VStart _ _ => final r log = None | VEnd n _ => final r log = Some n | _ => True end.
Proof.
  induction log as [|x l IH]; intros r; cbn [app].
  - cbn. destruct o; cbn; tauto.
  - destruct x; cbn [apart]; rewrite ?IH; cbn [final fold_left]; tauto.
Qed.
Lemma final_snoc r log o : final r (log ++ [o]) =
  match o with VStart n _ => Some n | VEnd _ _ => None | _ => final r log end.
Proof. unfold final. rewrite fold_left_app. reflexivity. Qed.

Lemma gone_app n a b : gone n a -> gone n (a ++ b).
Proof. intros [[id H]|H]; [left; exists id|right]; apply in_or_app; auto. Qed.

Definition on_time (a : list vobs) (n : Z) (now : tval) : Prop :=
  exists d c id, In (VNew n d c id) a /\ (never_exact c d -> micros c + d * (1 + calls n a) <= micros now).
Definition right_one (sm : Prop) (a : list vobs) (id n : Z) : Prop :=
  (exists d c, In (VNew n d c id) a) /\ ~ gone n a /\
  (sm -> forall m d c, In (VNew m d c id) a -> m <> n -> gone m a).
Definition obs_ok (sm : Prop) (a : list vobs) (o : vobs) : Prop :=
  match o with
  | VStart n now => on_time a n now /\ ~ In (VEnd n true) a
  | VRemoved id n => right_one sm a id n
  | _ => True
  end.
Definition log_ok (sm : Prop) (log : list vobs) : Prop := forall a o b, log = a ++ o :: b -> obs_ok sm a o.
Lemma log_ok_snoc sm log o : log_ok sm log -> obs_ok sm log o -> log_ok sm (log ++ [o]).
Proof.
  intros L H a x b E. destruct b as [|y b] using rev_ind.
  - apply app_inj_tail in E. destruct E as [<- <-]. exact H.
  - rewrite app_comm_cons, app_assoc in E. apply app_inj_tail in E. destruct E as [-> _]. eapply L. reflexivity.
Qed.

(** ** The invariant, in terms of the facts about the blocks in use *)
Definition B60 : Z := 1152921504606846976.
Definition fact_ok (a n d : Z) (t : tval) (rn : option Z) (log : list vobs) : Prop :=
  exists c, In (VNew n d c (s32 a)) log /\ normal c /\ 0 < d < B60 /\ normal t /\ - B60 < tv_sec t < 2 * B60 /\
    tv_usec t = (tv_usec c + (1 + ends n log) * d) mod 1000000 /\
    (never_exact c d -> micros t = micros c + d * (1 + ends n log)) /\
    calls n log = ends n log + (match rn with Some m => if m =? n then 1 else 0 | None => 0 end).
Record linv (sm : Prop) (I : Z -> option (Z * Z * tval)) (l : list Z) (rn pn : option Z) (count : Z) (log : list vobs) : Prop := mkL {
  l_fact : forall a n d t, I a = Some (n, d, t) -> fact_ok a n d t rn log;
  l_uniq : forall a b n d t d' t', I a = Some (n, d, t) -> I b = Some (n, d', t') -> a = b;
  l_count : 0 <= count /\ forall o, In o log -> no_of o < count;
  l_end : forall n, In (VEnd n true) log -> forall a d t, I a <> Some (n, d, t);
  l_rem : forall id n, In (VRemoved id n) log -> forall a d t, In a l -> I a <> Some (n, d, t);
  l_new : forall n d c id, In (VNew n d c id) log -> gone n log \/ exists a t, In a l /\ id = s32 a /\ I a = Some (n, d, t);
  l_apart : apart None log /\ final None log = rn;
  l_log : log_ok sm log;
  l_after : forall a b id n, log = a ++ VRemoved id n :: b ->
    calls n b + (match pn with Some m => if m =? n then 1 else 0 | None => 0 end) <= 1;
  l_small : sm -> forall a, In a l -> 0 <= a < two31
}.

Lemma linv_ext sm I I' l rn pn count log : (forall a, I' a = I a) -> linv sm I l rn pn count log -> linv sm I' l rn pn count log.
Proof.
  intros E [F U C EN RE NE AP LO AF SM]. constructor; try assumption.
  - intros a n d t H. rewrite E in H. eauto.
  - intros a b n d t d' t' H H'. rewrite E in H, H'. eauto.
  - intros n H a d t. rewrite E. eauto.
  - intros id n H a d t J. rewrite E. eauto.
  - intros n d c id H. destruct (NE _ _ _ _ H) as [G|(a & t & J & X & Y)]; [now left|right; exists a, t]. rewrite E. auto.
Qed.
Lemma after_snoc (log : list vobs) o (pn : option Z) :
  (forall a b id n, log = a ++ VRemoved id n :: b ->
    calls n b + (match pn with Some m => if m =? n then 1 else 0 | None => 0 end) <= 1) ->
  (match o with VStart _ _ => False | _ => True end) ->
  forall a b id n, log ++ [o] = a ++ VRemoved id n :: b ->
    calls n b + (match pn with Some m => if m =? n then 1 else 0 | None => 0 end) <= 1.
Proof.
  intros H O a b id n E. destruct b as [|y b] using rev_ind.
  - change (calls n []) with 0. destruct pn as [m|]; [destruct (m =? n)|]; lia.
  - rewrite app_comm_cons, app_assoc in E. apply app_inj_tail in E. destruct E as [E ->].
    specialize (H _ _ _ _ E). rewrite calls_app. replace (calls n [y]) with 0; [lia|]. destruct y; try reflexivity. contradiction.
Qed.
Lemma in_snoc {A} (l : list A) x y : In y (l ++ [x]) <-> In y l \/ y = x.
Proof. rewrite in_app_iff. cbn. intuition. Qed.
Lemma fact_snoc a n d t rn log o : fact_ok a n d t rn log ->
  (match o with VStart m _ | VEnd m false => m <> n | _ => True end) -> fact_ok a n d t rn (log ++ [o]).
Proof.
  intros (c & H1 & H2 & H3 & H4 & H5 & H6 & H7 & H8) O. exists c. rewrite ends_app, calls_app.
  replace (ends n [o]) with 0; [replace (calls n [o]) with 0|].
  - rewrite !Z.add_0_r. repeat (split; [first [assumption|apply in_or_app; now left]|]). assumption.
  - unfold calls. destruct o; try reflexivity. cbn. replace (n0 =? n) with false by lia. reflexivity.
  - unfold ends. destruct o; try reflexivity. cbn. destruct remove; [reflexivity|]. replace (n0 =? n) with false by lia. reflexivity.
Qed.

Lemma linv_quiet sm I l rn pn count log o : linv sm I l rn pn count log ->
  (match o with VFailed | VNotFound _ => True | _ => False end) -> linv sm I l rn pn count (log ++ [o]).
Proof.
  intros [F U [C0 C] EN RE NE AP LO AF SM] O. constructor; try assumption.
  - intros a n d t H. apply fact_snoc; [eauto|]. destruct o; try contradiction; exact Logic.I.
  - split; [exact C0|]. intros x H. apply in_snoc in H. destruct H as [H| ->]; [auto|]. destruct o; try contradiction; cbn; lia.
  - intros n H. apply in_snoc in H. destruct H as [H| <-]; [eauto|contradiction].
  - intros id n H. apply in_snoc in H. destruct H as [H| <-]; [eauto|contradiction].
  - intros n d c id H. apply in_snoc in H. destruct H as [H| <-]; [|contradiction].
    destruct (NE _ _ _ _ H) as [G|X]; [left; now apply gone_app|now right].
  - rewrite apart_snoc, final_snoc. destruct o; try contradiction; tauto.
  - apply log_ok_snoc; [exact LO|]. destruct o; try contradiction; exact Logic.I.
  - eapply after_snoc; [exact AF|]. destruct o; try contradiction; exact Logic.I.
Qed.

Lemma linv_new sm I l rn pn count log a l' t d c : linv sm I l rn pn count log -> I a = None -> ~ In a l ->
  Permutation l' (a :: l) -> normal c -> 0 < d < B60 -> - B60 < tv_sec c < B60 -> increase_stamp c d = Ok t ->
  (sm -> 0 <= a < two31) -> (match rn with Some m => m < count | None => True end) ->
  linv sm (fun x => if x =? a then Some (count, d, t) else I x) l' rn pn (count + 1) (log ++ [VNew count d c (s32 a)]).
Proof.
  intros [F U [C0 C] EN RE NE AP LO AF SM] FR NL P NC D SC ST SA RN.
  destruct (calls_none _ _ C) as [CN1 CN2].
  assert (LT : forall x n d t, I x = Some (n, d, t) -> n < count).
  { intros x n d1 t1 H. destruct (F _ _ _ _ H) as (c1 & H1 & _). apply (C _ H1). }
  constructor; try assumption.
  - intros x n d1 t1 H. destruct (x =? a) eqn:X.
    + injection H as <- <- <-. assert (x = a) by lia. subst x. exists c.
      destruct (stamp_any c d NC) as (t' & E & A1 & A2 & A3 & A4); [unfold sensible, B60 in *; lia|unfold B60 in *; lia|].
      rewrite ST in E. injection E as <-. rewrite ends_app, calls_app, CN1, CN2.
      change (ends count [VNew count d c (s32 a)]) with 0. change (calls count [VNew count d c (s32 a)]) with 0.
      split; [apply in_snoc; auto|]. split; [exact NC|]. split; [exact D|]. split; [exact A1|].
      split. { unfold normal, B60 in *. assert ((tv_usec c + d) / 1000000 < 1152921504606846976) by (apply Z.div_lt_upper_bound; lia). lia. }
      split; [rewrite A2; f_equal; lia|]. split.
      * intros NE0. rewrite A4; [lia|]. specialize (NE0 0 ltac:(lia)). unfold normal in NC. rewrite Z.add_0_r, Z.mod_small in NE0; lia.
      * destruct rn as [m|]; [replace (m =? count) with false by lia|]; lia.
    + apply fact_snoc; [eauto|exact Logic.I].
  - intros x y n d1 t1 d2 t2 H H'. destruct (x =? a) eqn:X, (y =? a) eqn:Y.
    + lia.
    + injection H as <- <- <-. apply LT in H'. lia.
    + injection H' as <- <- <-. apply LT in H. lia.
    + eauto.
  - split; [lia|]. intros o H. apply in_snoc in H. destruct H as [H| ->]; [specialize (C _ H); lia|cbn; lia].
  - intros n H x d1 t1. apply in_snoc in H. destruct H as [H|H]; [|discriminate]. destruct (x =? a); [|eauto].
    specialize (C _ H). cbn in C. intros X. injection X as <- _ _. lia.
  - intros id n H x d1 t1 J. apply in_snoc in H. destruct H as [H|H]; [|discriminate]. destruct (x =? a) eqn:X.
    + specialize (C _ H). cbn in C. intros Y. injection Y as <- _ _. lia.
    + eapply RE; [exact H|]. eapply Permutation_in in J; [|exact P]. destruct J as [J|J]; [lia|exact J].
  - intros n d1 c1 id H. apply in_snoc in H. destruct H as [H|H].
    + destruct (NE _ _ _ _ H) as [G|(x & t1 & J & X & Y)]; [left; now apply gone_app|right; exists x, t1].
      split; [|split; [exact X|]].
      * eapply Permutation_in; [apply Permutation_sym; exact P|]. now right.
      * replace (x =? a) with false; [exact Y|]. symmetry. apply Z.eqb_neq. intros ->. contradiction.
    + injection H as -> -> -> ->. right. exists a, t. rewrite Z.eqb_refl. split; [|auto].
      eapply Permutation_in; [apply Permutation_sym; exact P|]. now left.
  - rewrite apart_snoc, final_snoc. tauto.
  - apply log_ok_snoc; [exact LO|exact Logic.I].
  - eapply after_snoc; [exact AF|exact Logic.I].
  - intros S x J. eapply Permutation_in in J; [|exact P]. destruct J as [<-|J]; auto.
Qed.

(** An event of the list is removed; its block stays if it is in use. *)
Lemma linv_remove sm I l rn pn count log a l' n d t (keep : bool) : linv sm I l rn pn count log -> I a = Some (n, d, t) ->
  NoDup l -> Permutation l (a :: l') ->
  linv sm (fun x => if (x =? a) && negb keep then None else I x) l' rn pn count (log ++ [VRemoved (s32 a) n]).
Proof.
  intros [F U [C0 C] EN RE NE AP LO AF SM] IA ND P.
  assert (IN : In a l) by (eapply Permutation_in; [apply Permutation_sym; exact P|now left]).
  assert (NI : ~ In a l') by (eapply Permutation_NoDup in ND; [|exact P]; now apply NoDup_cons_iff in ND).
  assert (SUB : forall x, In x l' -> In x l) by (intros; eapply Permutation_in; [apply Permutation_sym; exact P|now right]).
  assert (IMP : forall x n d t, (if (x =? a) && negb keep then None else I x) = Some (n, d, t) -> I x = Some (n, d, t)).
  { intros x n1 d1 t1. destruct ((x =? a) && negb keep); [discriminate|auto]. }
  destruct (F _ _ _ _ IA) as (c & H1 & _). pose proof (C _ H1) as CN. cbn in CN.
  constructor; try assumption.
  - intros x n1 d1 t1 H. apply IMP in H. apply fact_snoc; [eauto|exact Logic.I].
  - intros x y n1 d1 t1 d2 t2 H H'. apply IMP in H, H'. eauto.
  - split; [exact C0|]. intros o H. apply in_snoc in H. destruct H as [H| ->]; [auto|exact CN].
  - intros m H x d1 t1 X. apply IMP in X. apply in_snoc in H. destruct H as [H|H]; [|discriminate]. eapply EN; eauto.
  - intros id m H x d1 t1 J X. apply IMP in X. apply in_snoc in H. destruct H as [H|H]; [exact (RE _ _ H x _ _ (SUB _ J) X)|].
    assert (m = n) by congruence. subst m. assert (x = a) by (eapply U; eauto). subst x. contradiction.
  - intros m d1 c1 id H. apply in_snoc in H. destruct H as [H|H]; [|discriminate].
    destruct (NE _ _ _ _ H) as [G|(x & t1 & J & X & Y)]; [left; now apply gone_app|].
    destruct (Z.eq_dec x a) as [->|N].
    + left. left. exists (s32 a). apply in_snoc. right. congruence.
    + right. exists x, t1. split; [|split; [exact X|]].
      * eapply Permutation_in in J; [|exact P]. destruct J as [J|J]; [congruence|exact J].
      * replace (x =? a) with false by lia. exact Y.
  - rewrite apart_snoc, final_snoc. tauto.
  - apply log_ok_snoc; [exact LO|]. split; [eauto|]. split.
    + intros [[id G]|G]; [exact (RE _ _ G _ _ _ IN IA)|exact (EN _ G _ _ _ IA)].
    + intros S m d1 c1 J N. destruct (NE _ _ _ _ J) as [G|(x & t1 & K & X & Y)]; [exact G|].
      specialize (SM S). assert (x = a); [|congruence].
      pose proof (SM _ K). pose proof (SM _ IN). unfold s32, two31, two32 in X, H, H0.
      rewrite !Z.mod_small in X by lia. lia.
  - eapply after_snoc; [exact AF|exact Logic.I].
  - intros S x J. auto.
Qed.

(** An event of the list is going to be called. *)
Lemma linv_pick sm I l rn count log a n d t : linv sm I l rn None count log -> In a l -> I a = Some (n, d, t) ->
  linv sm I l rn (Some n) count log.
Proof.
  intros [F U C EN RE NE AP LO AF SM] IN IA. constructor; try assumption.
  intros x b id m E. specialize (AF _ _ _ _ E). destruct (n =? m) eqn:X; [|lia]. assert (m = n) by lia. subst m.
  exfalso. eapply (RE id n); [rewrite E; apply in_elt|exact IN|exact IA].
Qed.
Lemma linv_start sm I l count log a n d t now : linv sm I l None (Some n) count log -> I a = Some (n, d, t) ->
  micros t <= micros now -> linv sm I l (Some n) None count (log ++ [VStart n now]).
Proof.
  intros [F U [C0 C] EN RE NE AP LO AF SM] IA DUE.
  destruct (F _ _ _ _ IA) as (c & H1 & H2 & H3 & H4 & H5 & H6 & H7 & H8). pose proof (C _ H1) as CN. cbn in CN.
  constructor; try assumption.
  - intros x m d1 t1 H. destruct (Z.eq_dec m n) as [->|N].
    + assert (x = a) by (eapply U; eauto). subst x. rewrite IA in H. injection H as <- <-. exists c.
      rewrite ends_app, calls_app. change (ends n [VStart n now]) with 0. unfold calls at 2. cbn [filter]. rewrite Z.eqb_refl.
      cbn. rewrite !Z.add_0_r. rewrite in_snoc. repeat (split; [tauto|]). lia.
    + assert (FX : fact_ok x m d1 t1 None (log ++ [VStart n now])) by (apply fact_snoc; [eauto|congruence]).
      destruct FX as (c1 & G1 & G2 & G3 & G4 & G5 & G6 & G7 & G8). exists c1. replace (n =? m) with false by lia. tauto.
  - split; [exact C0|]. intros o H. apply in_snoc in H. destruct H as [H| ->]; [auto|exact CN].
  - intros m H. apply in_snoc in H. destruct H as [H|H]; [eauto|discriminate].
  - intros id m H. apply in_snoc in H. destruct H as [H|H]; [eauto|discriminate].
  - intros m d1 c1 id H. apply in_snoc in H. destruct H as [H|H]; [|discriminate].
    destruct (NE _ _ _ _ H) as [G|X]; [left; now apply gone_app|now right].
  - rewrite apart_snoc, final_snoc. tauto.
  - apply log_ok_snoc; [exact LO|]. split.
    + exists d, c, (s32 a). split; [exact H1|]. intros E. specialize (H7 E). lia.
    + intros X. eapply EN; eauto.
  - intros x b id m E. destruct b as [|y b] using rev_ind; [discriminate (f_equal (fun l => last l VFailed) E) || idtac|].
    + apply app_inj_tail in E. destruct E as [_ E]. discriminate.
    + rewrite app_comm_cons, app_assoc in E. apply app_inj_tail in E. destruct E as [E <-]. specialize (AF _ _ _ _ E).
      rewrite calls_app. unfold calls at 2. cbn [filter]. destruct (n =? m); cbn; lia.
Qed.
(** Its handler returns. *)
Lemma linv_last sm I l count log a n d t l' : linv sm I l (Some n) None count log -> I a = Some (n, d, t) ->
  (forall x, In x l <-> In x l' \/ (x = a /\ In a l)) -> ~ In a l' ->
  linv sm (fun x => if x =? a then None else I x) l' None None count (log ++ [VEnd n true]).
Proof.
  intros [F U [C0 C] EN RE NE AP LO AF SM] IA P NI.
  destruct (F _ _ _ _ IA) as (c & H1 & _). pose proof (C _ H1) as CN. cbn in CN.
  assert (IMP : forall x n d t, (if (x =? a) then None else I x) = Some (n, d, t) -> I x = Some (n, d, t) /\ x <> a).
  { intros x n1 d1 t1. destruct (x =? a) eqn:X; [discriminate|]. intros; split; [assumption|lia]. }
  constructor; try assumption.
  - intros x m d1 t1 H. apply IMP in H. destruct H as [H N].
    assert (FX : fact_ok x m d1 t1 (Some n) (log ++ [VEnd n true])) by (apply fact_snoc; [eauto|exact Logic.I]).
    destruct FX as (c1 & G1 & G2 & G3 & G4 & G5 & G6 & G7 & G8). exists c1.
    replace (n =? m) with false in G8; [tauto|]. symmetry. apply Z.eqb_neq. intros <-. apply N. eapply U; eauto.
  - intros x y n1 d1 t1 d2 t2 H H'. apply IMP in H, H'. eapply U; [apply H|apply H'].
  - split; [exact C0|]. intros o H. apply in_snoc in H. destruct H as [H| ->]; [auto|exact CN].
  - intros m H x d1 t1 X. apply IMP in X. destruct X as [X N]. apply in_snoc in H. destruct H as [H|H]; [eapply EN; eauto|].
    injection H as ->. apply N. eapply U; eauto.
  - intros id m H x d1 t1 J X. apply IMP in X. apply in_snoc in H. destruct H as [H|H]; [|discriminate].
    eapply RE; [exact H| |apply X]. apply P. now left.
  - intros m d1 c1 id H. apply in_snoc in H. destruct H as [H|H]; [|discriminate].
    destruct (NE _ _ _ _ H) as [G|(x & t1 & J & X & Y)]; [left; now apply gone_app|].
    destruct (Z.eq_dec x a) as [->|N].
    + left. right. apply in_snoc. right. congruence.
    + right. exists x, t1. apply P in J. destruct J as [J|[J _]]; [|contradiction]. split; [exact J|]. split; [exact X|].
      replace (x =? a) with false by lia. exact Y.
  - rewrite apart_snoc, final_snoc. tauto.
  - apply log_ok_snoc; [exact LO|exact Logic.I].
  - eapply (after_snoc _ _ None); [exact AF|exact Logic.I].
  - intros S x J. apply SM; [exact S|]. apply P. now left.
Qed.
Lemma linv_again sm I l count log a n d t t' : linv sm I l (Some n) None count log -> I a = Some (n, d, t) ->
  tv_sec t < B60 -> increase_stamp t d = Ok t' ->
  linv sm (fun x => if x =? a then Some (n, d, t') else I x) l None None count (log ++ [VEnd n false]).
Proof.
  intros [F U [C0 C] EN RE NE AP LO AF SM] IA BD ST.
  destruct (F _ _ _ _ IA) as (c & H1 & H2 & H3 & H4 & H5 & H6 & H7 & H8). pose proof (C _ H1) as CN. cbn in CN.
  assert (IMP : forall x m d1 t1, (if x =? a then Some (n, d, t') else I x) = Some (m, d1, t1) -> exists t2, I x = Some (m, d1, t2)).
  { intros x m d1 t1. destruct (x =? a) eqn:X; [|eauto]. assert (x = a) as -> by lia. intros H. injection H as <- <- <-. eauto. }
  constructor; try assumption.
  - intros x m d1 t1 H. destruct (x =? a) eqn:X.
    + assert (x = a) by lia. subst x. injection H as <- <- <-. exists c.
      destruct (stamp_any t d H4) as (t2 & E & A1 & A2 & A3 & A4); [unfold sensible, B60 in *; lia|unfold B60 in *; lia|].
      rewrite ST in E. injection E as <-. rewrite ends_app, calls_app. change (calls n [VEnd n false]) with 0.
      assert (EE : ends n [VEnd n false] = 1). { unfold ends. cbn. now rewrite Z.eqb_refl. } rewrite EE.
      assert (0 <= ends n log) by (unfold ends, zlen; lia).
      split; [apply in_snoc; auto|]. split; [exact H2|]. split; [exact H3|]. split; [exact A1|].
      split. { unfold normal, B60 in *. assert ((tv_usec t + d) / 1000000 < 1152921504606846976) by (apply Z.div_lt_upper_bound; lia). lia. }
      split. { rewrite A2, H6, Zplus_mod_idemp_l. f_equal. lia. }
      split.
      * intros E. rewrite A4; [rewrite (H7 E); lia|]. rewrite H6. apply E. lia.
      * rewrite Z.eqb_refl in H8. lia.
    + assert (FX : fact_ok x m d1 t1 (Some n) (log ++ [VEnd n false])).
      { apply fact_snoc; [eauto|]. intros ->. assert (x = a) by (eapply U; eauto). lia. }
      destruct FX as (c1 & G1 & G2 & G3 & G4 & G5 & G6 & G7 & G8). exists c1.
      replace (n =? m) with false in G8; [tauto|]. symmetry. apply Z.eqb_neq. intros <-. assert (x = a) by (eapply U; eauto). lia.
  - intros x y n1 d1 t1 d2 t2 H H'. apply IMP in H, H'. destruct H, H'. eauto.
  - split; [exact C0|]. intros o H. apply in_snoc in H. destruct H as [H| ->]; [auto|exact CN].
  - intros m H x d1 t1 X. apply IMP in X. destruct X as [t2 X]. apply in_snoc in H. destruct H as [H|H]; [eapply EN; eauto|discriminate].
  - intros id m H x d1 t1 J X. apply IMP in X. destruct X as [t2 X]. apply in_snoc in H. destruct H as [H|H]; [exact (RE _ _ H x _ _ J X)|discriminate].
  - intros m d1 c1 id H. apply in_snoc in H. destruct H as [H|H]; [|discriminate].
    destruct (NE _ _ _ _ H) as [G|(x & t1 & J & X & Y)]; [left; now apply gone_app|].
    right. exists x. destruct (x =? a) eqn:XA; [|eauto]. exists t'. assert (x = a) by lia. subst x. split; [exact J|]. split; [exact X|]. congruence.
  - rewrite apart_snoc, final_snoc. tauto.
  - apply log_ok_snoc; [exact LO|exact Logic.I].
  - eapply (after_snoc _ _ None); [exact AF|exact Logic.I].
Qed.
