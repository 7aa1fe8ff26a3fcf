(** Proofs about the Lua bindings: parameters and queues. *)
From Coq Require Import String Lia.
From Verif Require Import Base GreetModel HdrModel HdrProofs LuaModel LuaSpec.
Open Scope list_scope.
Open Scope Z_scope.

(** * Parameters *)

Lemma zlen_cons A (x : A) l : zlen (x :: l) = 1 + zlen l.
Proof. unfold zlen. cbn [length]. lia. Qed.
Lemma zlen_app A (a b : list A) : zlen (a ++ b) = zlen a + zlen b.
Proof. unfold zlen. rewrite app_length. lia. Qed.
Lemma zlen_pos A (l : list A) : 0 <= zlen l.
Proof. unfold zlen. lia. Qed.

Lemma check_object_ok t v : check_object t v = CkOk <-> exists p, v = LObj t p.
Proof.
  split.
  - destruct v; cbn; try discriminate. destruct (vtype_eqb t0 t) eqn:E; [|discriminate].
    intros _. exists p. destruct t0, t; cbn in E; (reflexivity || discriminate).
  - intros [p ->]. destruct t; reflexivity.
Qed.
Lemma check_one_ok c v : c <> 113 -> (check_one c v = CkOk <-> wants c v).
Proof.
  intros NQ. unfold check_one, wants.
  repeat match goal with
         | |- context [if c =? 113 then _ else _] =>
           let E := fresh "E" in destruct (c =? 113) eqn:E; [apply Z.eqb_eq in E; contradiction|]
         | |- context [if c =? ?k then _ else _] => destruct (c =? k); [try apply check_object_ok|]
         end; try (split; intros; (reflexivity || exact I));
  unfold raise_unless, is_function, is_nil, is_string, is_number, is_boolean;
  (split; intros H;
   [ destruct v; try discriminate H; cbn [orb] in H; try (destruct (numeric s) eqn:NS; [|discriminate H]); eauto 6
   | repeat match goal with
            | H : _ \/ _ |- _ => destruct H
            | H : exists _, _ |- _ => destruct H
            | H : _ /\ _ |- _ => destruct H
            end; subst; cbn [orb]; try match goal with N : numeric _ = true |- _ => rewrite N end; reflexivity ]).
Qed.
Lemma check_one_wants c v : wants c v -> check_one c v = CkOk.
Proof.
  intros W. destruct (Z.eq_dec c 113) as [->|N]; [reflexivity|]. now apply check_one_ok.
Qed.

(** The check of a part of the description without '|', [k] places behind. *)
Fixpoint pre_ok (k : Z) (spec : bytes) (suf : list lv) : Prop :=
  match spec, suf with
  | c :: r, v :: s => if k <? zlen suf then check_one c v = CkOk /\ pre_ok k r s else True
  | _, _ => True
  end.
Lemma arg_suffix pre suf v : arg (pre ++ v :: suf) (zlen pre + 1) = v.
Proof.
  unfold arg, zlen. replace (Z.to_nat (Z.of_nat (length pre) + 1 - 1)) with (length pre) by lia.
  rewrite app_nth2 by lia. now rewrite Nat.sub_diag.
Qed.
Lemma loop_flag spec : forall args it desp o, ~ In BAR spec -> snd (check_loop spec args it desp o) = o.
Proof.
  induction spec as [|c r IH]; intros args it desp o N; cbn; [reflexivity|].
  destruct (it <? zlen args); [|reflexivity].
  destruct (c =? BAR) eqn:E. { apply Z.eqb_eq in E. elim N. now left. }
  destruct (check_one c _); cbn; try reflexivity. apply IH. intros I. apply N. now right.
Qed.
Lemma loop_pre k spec : forall pre suf o, 0 <= k -> ~ In BAR spec ->
  (fst (check_loop spec (pre ++ suf) (zlen pre + k) (1 - k) o) = CkOk <-> pre_ok k spec suf).
Proof.
  induction spec as [|c r IH]; intros pre suf o K N; cbn [check_loop]. { cbn. tauto. }
  rewrite zlen_app. destruct suf as [|v s].
  - replace (zlen pre + k <? zlen pre + zlen (@nil lv)) with false.
    + cbn. tauto.
    + symmetry. apply Z.ltb_ge. unfold zlen; cbn; lia.
  - cbn [pre_ok]. replace (zlen pre + k <? zlen pre + zlen (v :: s)) with (k <? zlen (v :: s)).
    2:{ destruct (Z.ltb_spec k (zlen (v :: s))), (Z.ltb_spec (zlen pre + k) (zlen pre + zlen (v :: s))); lia. }
    destruct (k <? zlen (v :: s)); [|cbn; tauto].
    destruct (c =? BAR) eqn:E. { apply Z.eqb_eq in E. elim N. now left. }
    replace (zlen pre + k + (1 - k)) with (zlen pre + 1) by lia. rewrite arg_suffix.
    destruct (check_one c v); cbn; try (split; [discriminate | intros [H _]; discriminate]).
    replace (zlen pre + k + 1) with (zlen (pre ++ [v]) + k).
    2:{ rewrite zlen_app, zlen_cons. change (zlen (@nil lv)) with 0. lia. }
    replace (pre ++ v :: s) with ((pre ++ [v]) ++ s) by (rewrite <- app_assoc; reflexivity).
    rewrite IH; [tauto | exact K | intros I; apply N; now right].
Qed.
Lemma expected_plain spec : ~ In BAR spec -> expected spec = zlen spec.
Proof.
  induction spec as [|c r IH]; intros N; cbn [expected]; [reflexivity|].
  destruct (c =? BAR) eqn:E. { apply Z.eqb_eq in E. elim N. now left. }
  rewrite IH, zlen_cons; [reflexivity|]. intros I. apply N. now right.
Qed.
Lemma expected_bar man opt : ~ In BAR man -> expected (man ++ BAR :: opt) = zlen man.
Proof.
  induction man as [|c r IH]; intros N; cbn [expected app]; [reflexivity|].
  destruct (c =? BAR) eqn:E. { apply Z.eqb_eq in E. elim N. now left. }
  rewrite IH, zlen_cons; [reflexivity|]. intros I. apply N. now right.
Qed.
Lemma pre_all spec : forall suf, ~ In 113 spec -> length spec = length suf ->
  (pre_ok 0 spec suf <-> Forall2 wants spec suf).
Proof.
  induction spec as [|c r IH]; intros [|v s] N L; try discriminate L.
  - split; [constructor | exact (fun _ => I)].
  - cbn [pre_ok]. replace (0 <? zlen (v :: s)) with true.
    2:{ symmetry. apply Z.ltb_lt. rewrite zlen_cons. pose proof (zlen_pos _ s). lia. }
    assert (NC : c <> 113) by (intros ->; apply N; now left).
    assert (NR : ~ In 113 r) by (intros I; apply N; now right).
    rewrite (check_one_ok c v NC), IH by (try exact NR; cbn in L; lia).
    split; [intros []; now constructor | intros F; inversion F; subst; auto].
Qed.
Lemma forall2_len A B (R : A -> B -> Prop) l l' : Forall2 R l l' -> length l = length l'.
Proof. induction 1; cbn; congruence. Qed.

Lemma params_exact man args : plain_spec man -> (check_params man args = CkOk <-> Forall2 wants man args).
Proof.
  intros [NB NQ]. unfold check_params.
  pose proof (loop_flag man args 0 1 true NB) as FL.
  pose proof (loop_pre 0 man [] args true ltac:(lia) NB) as P. cbn [app] in P.
  change (zlen (@nil lv) + 0) with 0 in P. change (1 - 0) with 1 in P.
  destruct (check_loop man args 0 1 true) as [r o]. cbn in FL, P. subst o.
  rewrite expected_plain by exact NB. split.
  - destruct r; try discriminate. destruct (zlen args =? zlen man) eqn:E; [|discriminate]. intros _.
    apply Z.eqb_eq in E. apply pre_all; [exact NQ | unfold zlen in E; lia | now apply P].
  - intros F. pose proof (forall2_len _ _ _ _ _ F) as L.
    apply pre_all in F; [|exact NQ|exact L]. apply P in F. subst r.
    replace (zlen args =? zlen man) with true; [reflexivity|]. symmetry. apply Z.eqb_eq. unfold zlen. lia.
Qed.

(** The loop over a part without '|' and what follows. *)
Lemma loop_bar man opt : forall pre suf o, ~ In BAR man ->
  check_loop (man ++ BAR :: opt) (pre ++ suf) (zlen pre) 1 o =
  if (length suf <=? length man)%nat then check_loop man (pre ++ suf) (zlen pre) 1 o
  else match check_loop man (pre ++ suf) (zlen pre) 1 o with
       | (CkOk, _) => check_loop opt (pre ++ suf) (zlen pre + zlen man + 1) 0 false
       | e => e
       end.
Proof.
  induction man as [|c r IH]; intros pre suf o N.
  - cbn [app check_loop length]. rewrite zlen_app. destruct suf as [|v s].
    + replace (zlen pre <? zlen pre + zlen (@nil lv)) with false; [reflexivity|].
      symmetry. apply Z.ltb_ge. unfold zlen; cbn; lia.
    + replace (zlen pre <? zlen pre + zlen (v :: s)) with true.
      2:{ symmetry. apply Z.ltb_lt. rewrite zlen_cons. pose proof (zlen_pos _ s). lia. }
      cbn -[zlen]. f_equal. unfold zlen. cbn. lia.
  - cbn [app check_loop length]. rewrite zlen_app. destruct suf as [|v s].
    + cbn [length Nat.leb]. replace (zlen pre <? zlen pre + zlen (@nil lv)) with false; [reflexivity|].
      symmetry. apply Z.ltb_ge. unfold zlen; cbn; lia.
    + replace (zlen pre <? zlen pre + zlen (v :: s)) with true.
      2:{ symmetry. apply Z.ltb_lt. rewrite zlen_cons. pose proof (zlen_pos _ s). lia. }
      destruct (c =? BAR) eqn:E. { apply Z.eqb_eq in E. elim N. now left. }
      rewrite arg_suffix. cbn [length Nat.leb].
      assert (ZL : zlen pre + 1 = zlen (pre ++ [v])) by (rewrite zlen_app; reflexivity).
      assert (AP : pre ++ v :: s = (pre ++ [v]) ++ s) by (rewrite <- app_assoc; reflexivity).
      destruct (check_one c v).
      * rewrite ZL, AP, IH by (intros I; apply N; now right).
        rewrite <- ZL. replace (zlen pre + 1 + zlen r + 1) with (zlen pre + zlen (c :: r) + 1) by (rewrite zlen_cons; lia).
        reflexivity.
      * destruct (length s <=? length r)%nat; reflexivity.
      * destruct (length s <=? length r)%nat; reflexivity.
Qed.
Lemma params_bar man opt args : ~ In BAR man -> ~ In BAR opt ->
  (check_params (man ++ BAR :: opt) args = CkOk <->
   (length man <= length args)%nat /\
   pre_ok 0 man (firstn (length man) args) /\
   pre_ok 1 opt (skipn (length man) args)).
Proof.
  intros NM NO. unfold check_params. rewrite expected_bar by exact NM.
  pose proof (loop_bar man opt [] args true NM) as LB. cbn [app] in LB. change (zlen (@nil lv)) with 0 in LB.
  rewrite LB. clear LB.
  pose proof (loop_flag man args 0 1 true NM) as FL.
  pose proof (loop_pre 0 man [] args true ltac:(lia) NM) as P. cbn [app] in P.
  change (zlen (@nil lv) + 0) with 0 in P. change (1 - 0) with 1 in P.
  assert (CUT : forall m a, pre_ok 0 m a <-> pre_ok 0 m (firstn (length m) a)).
  { clear. induction m as [|c r IH]; intros [|v s]; cbn [length firstn pre_ok]; try tauto.
    assert (E : forall l : list lv, (0 <? zlen (v :: l)) = true).
    { intros l. apply Z.ltb_lt. rewrite zlen_cons. pose proof (zlen_pos _ l). lia. }
    rewrite !E, (IH s). tauto. }
  rewrite CUT in P.
  destruct (Nat.leb_spec (length args) (length man)) as [LE|GT].
  - destruct (check_loop man args 0 1 true) as [r o]. cbn in FL, P. subst o.
    assert (SK : pre_ok 1 opt (skipn (length man) args)).
    { rewrite skipn_all2 by lia. destruct opt; exact I. }
    split.
    + destruct r; try discriminate. destruct (zlen args =? zlen man) eqn:E; [|discriminate]. intros _.
      apply Z.eqb_eq in E. unfold zlen in E. repeat split; [lia | now apply P | exact SK].
    + intros (L & PM & _). apply P in PM. subst r.
      replace (zlen args =? zlen man) with true; [reflexivity|]. symmetry. apply Z.eqb_eq. unfold zlen. lia.
  - pose proof (loop_pre 1 opt (firstn (length man) args) (skipn (length man) args) false ltac:(lia) NO) as Q.
    rewrite firstn_skipn in Q.
    replace (zlen (firstn (length man) args) + 1) with (0 + zlen man + 1) in Q.
    2:{ unfold zlen. rewrite firstn_length. lia. }
    change (1 - 1) with 0 in Q.
    pose proof (loop_flag opt args (0 + zlen man + 1) 0 false NO) as FO.
    destruct (check_loop man args 0 1 true) as [r o]. cbn in FL, P. subst o.
    destruct (check_loop opt args (0 + zlen man + 1) 0 false) as [r2 o2]. cbn in FO, Q. subst o2.
    split.
    + destruct r; try discriminate. destruct r2; try discriminate. intros _.
      repeat split; [lia | now apply P | now apply Q].
    + intros (_ & PM & PO). apply P in PM. apply Q in PO. subst r r2. reflexivity.
Qed.

Lemma pre_wants k spec : forall suf, (exists rest, Forall2 wants spec (suf ++ rest)) \/ (exists given rest, spec = given ++ rest /\ Forall2 wants given suf) ->
  pre_ok k spec suf.
Proof.
  induction spec as [|c r IH]; intros [|v s] H; cbn [pre_ok]; try exact I.
  destruct (k <? zlen (v :: s)); [|exact I].
  destruct H as [(rest & F)|(given & rest & E & F)].
  - inversion F; subst. split; [now apply check_one_wants | apply IH; left; eauto].
  - inversion F; subst. cbn in E. injection E as -> ->.
    split; [now apply check_one_wants | apply IH; right; eauto].
Qed.
Lemma params_accepts man opt args : ~ In BAR man -> ~ In BAR opt -> right_call man opt args ->
  check_params (man ++ BAR :: opt) args = CkOk.
Proof.
  intros NM NO (a & b & given & rest & -> & -> & FA & FB).
  pose proof (forall2_len _ _ _ _ _ FA) as LA.
  apply params_bar; [exact NM | exact NO|].
  rewrite LA, firstn_app, Nat.sub_diag, firstn_all, skipn_app, Nat.sub_diag, skipn_all. cbn. rewrite app_nil_r.
  repeat split.
  - rewrite app_length. lia.
  - apply pre_wants. left. exists []. now rewrite app_nil_r.
  - apply pre_wants. right. eauto.
Qed.
Lemma pre_nth spec : forall suf i d dv, ~ In 113 spec -> pre_ok 1 spec suf -> (S i < length suf)%nat -> (i < length spec)%nat ->
  wants (nth i spec d) (nth i suf dv).
Proof.
  induction spec as [|c r IH]; intros [|v s] i d dv N H L1 L2; cbn in L1, L2; try lia.
  cbn [pre_ok] in H. replace (1 <? zlen (v :: s)) with true in H.
  2:{ symmetry. apply Z.ltb_lt. unfold zlen. cbn. lia. }
  destruct H as [H1 H2].
  destruct i; cbn [nth].
  - apply check_one_ok; [intros ->; apply N; now left | exact H1].
  - apply IH; [intros I; apply N; now right | exact H2 | lia | lia].
Qed.
Lemma params_must man opt args : plain_spec man -> plain_spec opt ->
  check_params (man ++ BAR :: opt) args = CkOk ->
  exists a b, args = a ++ b /\ Forall2 wants man a /\
    forall i d dv, (S i < length b)%nat -> (i < length opt)%nat -> wants (nth i opt d) (nth i b dv).
Proof.
  intros [NM QM] [NO QO] H. apply params_bar in H; [|exact NM|exact NO]. destruct H as (L & PM & PO).
  exists (firstn (length man) args), (skipn (length man) args).
  split; [now rewrite firstn_skipn|]. split.
  - apply pre_all; [exact QM | rewrite firstn_length; lia | exact PM].
  - intros i d dv L1 L2. now apply pre_nth.
Qed.

(** * Queues *)

Definition used (o : option lv) : bool := match o with Some _ => true | None => false end.
Definition cnt (l : list (option lv)) : Z := zlen (filter used l).
Lemma free_unused l : nth_error l (free_place l) = None \/ nth_error l (free_place l) = Some None.
Proof. induction l as [|[x|] r IH]; cbn; auto. Qed.
Lemma upd_nth_error_same A (l : list A) : forall p x, (p < length l)%nat -> nth_error (upd_nth l p x) p = Some x.
Proof. induction l as [|y r IH]; intros [|p] x L; cbn in *; try lia; [reflexivity | apply IH; lia]. Qed.
Lemma upd_nth_error_other A (l : list A) : forall p p' x, p <> p' -> nth_error (upd_nth l p x) p' = nth_error l p'.
Proof.
  induction l as [|y r IH]; intros [|p] [|p'] x N; cbn; try reflexivity; try contradiction.
  apply IH. congruence.
Qed.
Lemma cnt_upd_none l : forall p v, nth_error l p = Some (Some v) -> cnt (upd_nth l p None) = cnt l - 1.
Proof.
  unfold cnt. induction l as [|y r IH]; intros [|p] v H; cbn in H; try discriminate.
  - injection H as ->. cbn -[zlen]. rewrite zlen_cons. lia.
  - cbn -[zlen]. destruct (used y); rewrite ?zlen_cons; rewrite (IH p v H); lia.
Qed.
Lemma cnt_upd_some l : forall p v, nth_error l p = Some None -> cnt (upd_nth l p (Some v)) = cnt l + 1.
Proof.
  unfold cnt. induction l as [|y r IH]; intros [|p] v H; cbn in H; try discriminate.
  - injection H as ->. cbn -[zlen]. rewrite zlen_cons. lia.
  - cbn -[zlen]. destruct (used y); rewrite ?zlen_cons; rewrite (IH p v H); lia.
Qed.
Lemma lref_spec l v l' p : lref l v = (l', p) ->
  nth_error l' p = Some (Some v) /\
  (nth_error l p = None \/ nth_error l p = Some None) /\
  (forall p', p' <> p -> nth_error l p' <> None -> nth_error l' p' = nth_error l p') /\
  cnt l' = cnt l + 1.
Proof.
  unfold lref. intros E. injection E as <- <-.
  destruct (Nat.ltb_spec (free_place l) (length l)) as [L|L].
  - assert (U : nth_error l (free_place l) = Some None).
    { destruct (free_unused l) as [H|H]; [|exact H]. apply nth_error_None in H. lia. }
    repeat split.
    + now apply upd_nth_error_same.
    + now right.
    + intros p' N _. apply upd_nth_error_other. congruence.
    + now apply cnt_upd_some.
  - assert (EQ : free_place l = length l).
    { assert (F : forall l, (free_place l <= length l)%nat) by (clear; induction l as [|[x|] r IH]; cbn; lia).
      pose proof (F l). lia. }
    rewrite EQ. repeat split.
    + rewrite nth_error_app2 by lia. now rewrite Nat.sub_diag.
    + left. apply nth_error_None. lia.
    + intros p' N D. apply nth_error_app1. now apply nth_error_Some.
    + unfold cnt. rewrite filter_app, zlen_app. reflexivity.
Qed.

Definition holds (l : list (option lv)) (o : lobj) (v : lv) : Prop :=
  o_type o = ltype_of v /\ (ltype_of v = TyRef -> nth_error l (o_ref o) = Some (Some v)).
Definition handles (items : list lobj) : list nat :=
  flat_map (fun o => match o_type o with TyRef => [o_ref o] | _ => [] end) items.
Definition qinv (q : lq) (vals : list lv) : Prop :=
  Forall2 (holds (q_refs q)) (q_items q) vals /\ NoDup (handles (q_items q)) /\
  cnt (q_refs q) = zlen (handles (q_items q)).

Lemma handles_used l items vals : Forall2 (holds l) items vals ->
  forall p, In p (handles items) -> exists v, nth_error l p = Some (Some v).
Proof.
  induction 1 as [|o v items vals [T R] F IH]; intros p I; cbn in I; [contradiction|].
  destruct (o_type o) eqn:E; cbn in I; auto.
  destruct I as [<-|I]; auto. exists v. apply R. congruence.
Qed.
Lemma holds_mono l l' items vals :
  (forall p, In p (handles items) -> nth_error l' p = nth_error l p) ->
  Forall2 (holds l) items vals -> Forall2 (holds l') items vals.
Proof.
  intros M F. induction F as [|o v items vals [T R] F IH]; constructor.
  - split; [exact T|]. intros TV. rewrite M; [auto|]. cbn. rewrite T, TV. now left.
  - apply IH. intros p I. apply M. cbn. apply in_or_app. now right.
Qed.
Lemma handles_app a b : handles (a ++ b) = handles a ++ handles b.
Proof. apply flat_map_app. Qed.
Lemma nodup_snoc A (l : list A) x : NoDup l -> ~ In x l -> NoDup (l ++ [x]).
Proof.
  intros ND NI. rewrite <- (rev_involutive (l ++ [x])), rev_app_distr. apply NoDup_rev. cbn. constructor.
  - intros I. apply NI. now apply in_rev.
  - now apply NoDup_rev.
Qed.
Lemma forall2_snoc A B (R : A -> B -> Prop) l l' x y : Forall2 R l l' -> R x y -> Forall2 R (l ++ [x]) (l' ++ [y]).
Proof. intros F H. apply Forall2_app; [exact F | now constructor]. Qed.

Lemma push_inv q vals v : qinv q vals -> qinv (q_push q v) (vals ++ [v]).
Proof.
  intros (F & ND & C). unfold q_push, obj_new. destruct (ltype_of v) eqn:T.
  - repeat split; cbn; [apply forall2_snoc; [exact F | split; cbn; congruence]| |]; rewrite handles_app; cbn;
      rewrite app_nil_r; assumption.
  - repeat split; cbn; [apply forall2_snoc; [exact F | split; cbn; congruence]| |]; rewrite handles_app; cbn;
      rewrite app_nil_r; assumption.
  - destruct (lref (q_refs q) v) as [l' p] eqn:E. apply lref_spec in E. destruct E as (N1 & N2 & N3 & N4).
    assert (NI : ~ In p (handles (q_items q))).
    { intros I. destruct (handles_used _ _ _ F p I) as [w W]. destruct N2; congruence. }
    repeat split; cbn.
    + apply forall2_snoc.
      * apply (holds_mono (q_refs q)); [|exact F]. intros p' I.
        destruct (handles_used _ _ _ F p' I) as [w W]. apply N3; [intros ->; contradiction | congruence].
      * split; cbn; [congruence | intros _; exact N1].
    + rewrite handles_app. cbn. now apply nodup_snoc.
    + rewrite handles_app, zlen_app, N4, C. reflexivity.
Qed.
Lemma unref_inv l o r v vals : Forall2 (holds l) (o :: r) (v :: vals) -> NoDup (handles (o :: r)) ->
  cnt l = zlen (handles (o :: r)) ->
  Forall2 (holds (obj_unref l o)) r vals /\ NoDup (handles r) /\ cnt (obj_unref l o) = zlen (handles r).
Proof.
  intros F ND C. inversion F as [|? ? ? ? [T R] F']; subst. unfold obj_unref.
  cbn [handles flat_map] in ND, C. fold (handles r) in ND, C. destruct (o_type o) eqn:E.
  - auto.
  - auto.
  - cbn in ND. inversion ND as [|? ? NI ND']; subst. repeat split.
    + apply (holds_mono l); [|exact F']. intros p I. apply upd_nth_error_other. intros EQ. apply NI. now rewrite EQ.
    + exact ND'.
    + unfold lunref. rewrite (cnt_upd_none l (o_ref o) v) by (apply R; congruence).
      rewrite C, zlen_app. change (zlen [o_ref o]) with 1. lia.
Qed.
Lemma pop_inv q v vals st : qinv q (v :: vals) ->
  exists w q', q_pop q st = Some (w, q') /\ qinv q' vals /\ ((forall b, v <> LBool b) -> w = v).
Proof.
  intros (F & ND & C). inversion F as [|o ? r ? [T R] F' EI EV]; subst. unfold q_pop. rewrite <- EI.
  rewrite <- EI in F, ND, C.
  eexists _, _. split; [reflexivity|]. split.
  - exact (unref_inv _ _ _ _ _ F ND C).
  - intros NB. unfold obj_push. rewrite T. destruct (ltype_of v) eqn:TV.
    + destruct v; cbn in TV; (reflexivity || discriminate).
    + destruct v; cbn in TV; try discriminate. exfalso. now apply (NB b).
    + rewrite R by reflexivity. reflexivity.
Qed.
Lemma qrun_inv es : forall q vals out q', qinv q vals -> qrun q es = (out, q') ->
  no_bools (vals ++ pushes es) -> exists l, fifo vals es = (out, l) /\ qinv q' l /\ no_bools l.
Proof.
  induction es as [|e es IH]; intros q vals out q' I E NB; cbn in E.
  - injection E as <- <-. exists vals. rewrite app_nil_r in NB. auto.
  - destruct e as [v|st]; cbn [fifo].
    + cbn in NB. apply (IH _ _ _ _ (push_inv _ _ v I) E). now rewrite <- app_assoc.
    + cbn in NB. destruct vals as [|v vals].
      * destruct I as (F & ND & C). unfold q_pop in E. inversion F as [EI|]. rewrite <- EI in E.
        apply (IH q [] out q'); [|exact E|exact NB]. repeat split; assumption.
      * destruct (pop_inv q v vals st I) as (w & q1 & P & I' & W). rewrite P in E.
        destruct (qrun q1 es) as [o2 q2] eqn:R. injection E as <- <-.
        assert (NB' : no_bools (vals ++ pushes es)) by (intros b J; apply (NB b); now right).
        destruct (IH _ _ _ _ I' R NB') as (l & FI & Q & NL). exists l. rewrite FI.
        rewrite W; [auto|]. intros b ->. apply (NB b). now left.
Qed.
Lemma qinv_new : qinv q_new [].
Proof. repeat split; cbn; constructor. Qed.
Lemma cnt_vals q vals : qinv q vals -> no_bools vals -> kept q = non_nil vals.
Proof.
  intros (F & _ & C) NB. change (kept q) with (cnt (q_refs q)). rewrite C. clear C. unfold non_nil.
  induction F as [|o v items vals [T R] F IH]; [reflexivity|].
  assert (NB' : no_bools vals) by (intros b J; apply (NB b); now right).
  cbn [handles flat_map filter]. fold (handles items). rewrite zlen_app, IH by exact NB'. rewrite T.
  destruct v; cbn -[zlen]; rewrite ?zlen_cons; try reflexivity. elim (NB b). now left.
Qed.
Lemma queue_fifo es out q : no_bools (pushes es) -> qrun q_new es = (out, q) ->
  exists l, fifo [] es = (out, l) /\ kept q = non_nil l.
Proof.
  intros NB E. destruct (qrun_inv es q_new [] out q qinv_new E NB) as (l & F & I & NL).
  exists l. split; [exact F | now apply cnt_vals].
Qed.
Lemma qrun_any es : forall q vals out q', qinv q vals -> qrun q es = (out, q') -> exists l, qinv q' l.
Proof.
  induction es as [|e es IH]; intros q vals out q' I E; cbn in E.
  - injection E as <- <-. eauto.
  - destruct e as [v|st].
    + exact (IH _ _ _ _ (push_inv _ _ v I) E).
    + destruct vals as [|v vals].
      * destruct I as (F & ND & C). unfold q_pop in E. inversion F as [EI|]. rewrite <- EI in E.
        apply (IH q [] out q'); [|exact E]. repeat split; assumption.
      * destruct (pop_inv q v vals st I) as (w & q1 & P & I' & W). rewrite P in E.
        destruct (qrun q1 es) as [o2 q2] eqn:R. injection E as <- <-. eapply IH; eassumption.
Qed.
Lemma queue_released es out q : qrun q_new es = (out, q) -> kept (q_gc q) = 0.
Proof.
  intros E. destruct (qrun_any es q_new [] out q qinv_new E) as (vals & F & ND & C).
  change (kept (q_gc q)) with (cnt (fold_left obj_unref (q_items q) (q_refs q))). clear E.
  revert F ND C. generalize (q_refs q). generalize (q_items q). intros items l. revert l vals.
  induction items as [|o r IH]; intros l vals F ND C; cbn [fold_left]; [exact C|].
  inversion F; subst. destruct (unref_inv _ _ _ _ _ F ND C) as (F' & ND' & C').
  apply (IH _ _ F' ND' C').
Qed.

(** ** Unlocks and pauses *)
Theorem unlock_held w t l : w_lock w l <> None -> (unlock w t l = UB <-> w_lock w l <> Some (Some t)).
Proof.
  unfold unlock. destruct (w_lock w l) as [[t'|]|]; intros H; [|split; [discriminate|auto]|congruence].
  destruct (t' =? t) eqn:E; [apply Z.eqb_eq in E; subst; split; [discriminate|congruence]|apply Z.eqb_neq in E; split; [congruence|auto]].
Qed.
Theorem pause_some us : 0 <= us -> 0 < fst (ev_tv us) * 1000000 + snd (ev_tv us).
Proof. intros H. unfold ev_tv. destruct (1000000 <=? us) eqn:E; cbn [fst snd]; [lia|]. destruct (us =? 0) eqn:Z; lia. Qed.
