(** Proofs about the timeouts. *)
From Coq Require Import Lia.
From Verif Require Import Base CodecModel HdrModel HdrProofs RpcModel RpcSpec RpcProofs2 TmoModel TmoSpec.

(** * Numbers and their text *)
Lemma digits_spec : forall f n acc, 0 <= n < 10 ^ Z.of_nat f -> (0 < f)%nat ->
  exists ds, digits_of f n acc = ds ++ acc /\ Forall figure ds /\ ds <> [] /\ digits_value ds = n.
Proof.
  induction f as [|f IH]; intros n acc B P; [lia|]. cbn [digits_of]. destruct (Z.ltb_spec n 10) as [L|L].
  - exists [48 + n]. conj; auto; try discriminate.
    + constructor; [unfold figure; lia|constructor].
    + unfold digits_value. cbn [fold_left]. lia.
  - rewrite Nat2Z.inj_succ, Z.pow_succ_r in B by lia.
    destruct f as [|f].
    { cbn in B. lia. }
    assert (B' : 0 <= n / 10 < 10 ^ Z.of_nat (S f)) by (split; [apply Z.div_pos; lia|apply Z.div_lt_upper_bound; lia]).
    destruct (IH (n / 10) (48 + n mod 10 :: acc) B' ltac:(lia)) as (ds & E & F & N & V).
    exists (ds ++ [48 + n mod 10]). rewrite E. pose proof (Z.mod_pos_bound n 10 ltac:(lia)). conj.
    + rewrite <- app_assoc. reflexivity.
    + apply Forall_app. split; auto. constructor; [unfold figure; lia|constructor].
    + intros H'. apply app_eq_nil in H'. destruct H'. discriminate.
    + unfold digits_value in *. rewrite fold_left_app, V. cbn [fold_left]. pose proof (Z_div_mod_eq_full n 10). lia.
Qed.
Lemma show_notation : forall v, - two63 <= v < two63 -> notation (show_ld v) v.
Proof.
  intros v R. assert (T : two63 < 10 ^ Z.of_nat 20) by reflexivity. unfold show_ld. destruct (Z.ltb_spec v 0).
  - destruct (digits_spec 20 (- v) []) as (ds & E & F & N & V); [lia|lia|]. rewrite E, app_nil_r. apply (Notation _ v [] [45] ds); auto. right; right. split; auto. lia.
  - destruct (digits_spec 20 v []) as (ds & E & F & N & V); [lia|lia|]. rewrite E, app_nil_r. apply (Notation _ v [] [] ds); auto.
Qed.
Lemma getenv_configured : forall v, - two63 <= v < two63 -> getenv_int (configured v) = s32 v.
Proof.
  intros v R. unfold configured. destruct (Z.eqb_spec v 0) as [->|]; [reflexivity|]. unfold getenv_int.
  rewrite (strtol_notation _ v (show_notation v R)). cbn [fst]. f_equal. unfold clamp. lia.
Qed.
Lemma int_s32 : forall v, int_value v -> s32 v = v.
Proof. intros v R. apply s32_id. exact R. Qed.
Lemma getenv_int_value : forall v, int_value v -> getenv_int (configured v) = v.
Proof. intros v R. rewrite getenv_configured, int_s32; auto. unfold int_value, two31, two63 in *. lia. Qed.

(** * The contexts *)
Lemma ctx_ok : forall w c t, ctx_of w c = Ok t <-> nth_error (w_ctxs w) c = Some t.
Proof. intros. unfold ctx_of. destruct nth_error; split; intros E; inversion E; auto. Qed.
Lemma ctx_put_same : forall w c t t', ctx_of w c = Ok t -> ctx_of (put_ctx w c t') c = Ok t'.
Proof.
  intros w c t t' E. apply ctx_ok in E. apply ctx_ok. cbn. apply nth_upd_same. apply nth_error_Some. rewrite E. discriminate.
Qed.
Lemma ctx_put_other : forall w c c' t', c' <> c -> ctx_of (put_ctx w c' t') c = ctx_of w c.
Proof. intros. unfold ctx_of, put_ctx. cbn. rewrite nth_upd_other; auto. Qed.
Lemma ctx_new : forall w c t e ce, ctx_of w c = Ok t -> ctx_of (mkW e ce (w_ctxs w ++ [fresh_ctx])) c = Ok t.
Proof.
  intros w c t e ce E. apply ctx_ok in E. apply ctx_ok. cbn. rewrite nth_error_app1; auto. apply nth_error_Some. rewrite E. discriminate.
Qed.
Lemma ctx_env : forall e ce l w c, w_ctxs w = l -> ctx_of (mkW e ce l) c = ctx_of w c.
Proof. intros. subst. reflexivity. Qed.

Ltac inv_ok :=
  repeat match goal with
  | [ H : obind ?m _ = Ok _ |- _ ] => let E := fresh "E" in destruct m eqn:E; cbn [obind] in H; [|discriminate H]
  | [ x : _ * _ |- _ ] => destruct x
  | [ H : Ok _ = Ok _ |- _ ] => inversion H; clear H; subst
  end.

Ltac uniq :=
  repeat match goal with
  | [ H : ctx_of ?w ?c = Ok ?a, K : ctx_of ?w ?c = Ok ?b |- _ ] =>
      let Q := fresh "Q" in assert (Q : a = b) by congruence; first [subst a | subst b]; clear K
  end.
Ltac cases b := destruct b eqn:?.
Ltac fin_if := match goal with [ H : (if ?b then _ else _) = Ok _ |- _ ] => destruct b eqn:?; inversion H; clear H; subst end.
Ltac same_ctx t f :=
  match goal with [ H : ctx_of (f _ _) _ = Ok ?a |- _ ] => assert (a = t) by (unfold ctx_of, f in *; cbn in *; congruence) end.

(** What a call does to a context, its own fields of the synchronous timeout. *)
Lemma call_sync : forall w k w' x c t, do_call w k = Ok (w', x) -> ctx_of w c = Ok t ->
  exists t', ctx_of w' c = Ok t' /\
    ((t_std t' = t_std t /\ t_checked t' = t_checked t /\ k <> CGet c) \/
     (exists v, k = CSet c v /\ t_std t' = t_std t /\ t_checked t' = false) \/
     (k = CGet c /\ t_checked t' = true /\ x = Some (t_std t') /\
      t_std t' = (if t_checked t then t_std t else if getenv_int (w_env w) =? 0 then t_std t else getenv_int (w_env w)))).
Proof.
  intros w k w' x c t H C. destruct k as [|c' v|c'|c' v|c']; cbn [do_call] in H.
  - inv_ok. exists t. split; [apply ctx_new; auto|]. left. repeat split; auto. discriminate.
  - unfold set_flag in H. inv_ok. destruct (Nat.eq_dec c' c) as [->|N].
    + same_ctx t set_env. subst.
      eexists. split; [eapply ctx_put_same; eauto|]. right; left. exists v. auto.
    + exists t. split; [rewrite ctx_put_other; auto|]. left. repeat split; auto. discriminate.
  - unfold get_read, get_lock in H. inv_ok. destruct (Nat.eq_dec c' c) as [->|N].
    + uniq. fin_if; (eexists; split; [eapply ctx_put_same; eauto|]; right; right; cbn; conj; auto);
        destruct (t_checked _); auto; rewrite Heqb; auto.
    + exists t. split; [|left; repeat split; auto; congruence]. uniq. fin_if; rewrite ctx_put_other; auto.
  - unfold cset_flag in H. inv_ok. destruct (Nat.eq_dec c' c) as [->|N].
    + same_ctx t cset_env. subst.
      eexists. split; [eapply ctx_put_same; eauto|]. left. cbn. repeat split; auto. discriminate.
    + exists t. split; [rewrite ctx_put_other; auto|]. left. repeat split; auto. discriminate.
  - unfold cget in H. inv_ok. destruct (Nat.eq_dec c' c) as [->|N].
    + uniq. fin_if.
      * eexists. split; eauto. left. repeat split; auto. discriminate.
      * eexists. split; [eapply ctx_put_same; eauto|]. left. cbn. repeat split; auto. discriminate.
    + exists t. split; [|left; repeat split; auto; discriminate]. fin_if; auto. rewrite ctx_put_other; auto.
Qed.
Lemma call_connect : forall w k w' x c t, do_call w k = Ok (w', x) -> ctx_of w c = Ok t ->
  exists t', ctx_of w' c = Ok t' /\
    ((t_cstd t' = t_cstd t /\ t_cchecked t' = t_cchecked t /\ k <> CCGet c) \/
     (exists v, k = CCSet c v /\ t_cstd t' = t_cstd t /\ t_cchecked t' = false) \/
     (k = CCGet c /\ t_cchecked t' = true /\ x = Some (t_cstd t') /\
      t_cstd t' = (if t_cchecked t then t_cstd t else getenv_int (w_cenv w)))).
Proof.
  intros w k w' x c t H C. destruct k as [|c' v|c'|c' v|c']; cbn [do_call] in H.
  - inv_ok. exists t. split; [apply ctx_new; auto|]. left. repeat split; auto. discriminate.
  - unfold set_flag in H. inv_ok. destruct (Nat.eq_dec c' c) as [->|N].
    + same_ctx t set_env. subst.
      eexists. split; [eapply ctx_put_same; eauto|]. left. cbn. repeat split; auto. discriminate.
    + exists t. split; [rewrite ctx_put_other; auto|]. left. repeat split; auto. discriminate.
  - unfold get_read, get_lock in H. inv_ok. destruct (Nat.eq_dec c' c) as [->|N].
    + uniq. fin_if; (eexists; split; [eapply ctx_put_same; eauto|]; left; cbn; repeat split; auto; discriminate).
    + exists t. split; [|left; repeat split; auto; discriminate]. uniq. fin_if; rewrite ctx_put_other; auto.
  - unfold cset_flag in H. inv_ok. destruct (Nat.eq_dec c' c) as [->|N].
    + same_ctx t cset_env. subst.
      eexists. split; [eapply ctx_put_same; eauto|]. right; left. exists v. auto.
    + exists t. split; [rewrite ctx_put_other; auto|]. left. repeat split; auto. discriminate.
  - unfold cget in H. inv_ok. destruct (Nat.eq_dec c' c) as [->|N].
    + uniq. fin_if.
      * eexists. split; eauto. right; right. auto.
      * eexists. split; [eapply ctx_put_same; eauto|]. right; right. cbn. auto.
    + exists t. split; [|left; repeat split; auto; congruence]. fin_if; auto. rewrite ctx_put_other; auto.
Qed.
Lemma call_env : forall w k w' x, do_call w k = Ok (w', x) ->
  w_env w' = (match k with CSet _ v => configured v | _ => w_env w end) /\
  w_cenv w' = (match k with CCSet _ v => configured v | _ => w_cenv w end).
Proof.
  intros w k w' x H. destruct k as [|c v|c|c v|c]; cbn [do_call] in H; unfold set_flag, cset_flag, get_read, get_lock, cget in H; inv_ok; auto.
  - fin_if; auto.
  - fin_if; auto.
Qed.
(** A call for a context that exists is defined. *)
Lemma get_defined : forall w c t, ctx_of w c = Ok t -> exists w' r, do_call w (CGet c) = Ok (w', Some r).
Proof.
  intros w c t C. cbn [do_call]. unfold get_read, get_lock. rewrite C. cbn [obind].
  match goal with [ |- context[if ?b then Ok _ else Ok _] ] => destruct b end; cbn [obind]; eauto.
Qed.
Lemma cget_defined : forall w c t, ctx_of w c = Ok t -> exists w' r, do_call w (CCGet c) = Ok (w', Some r).
Proof. intros w c t C. cbn [do_call]. unfold cget. rewrite C. cbn [obind]. destruct (t_cchecked t); cbn [obind]; eauto. Qed.
Lemma get_returns : forall w c t, ctx_of w c = Ok t ->
  exists w', do_call w (CGet c) = Ok (w', Some (if t_checked t then t_std t else if getenv_int (w_env w) =? 0 then t_std t else getenv_int (w_env w))).
Proof.
  intros w c t C. destruct (get_defined w c t C) as (w' & r & E). destruct (call_sync _ _ _ _ _ _ E C) as (t' & C' & [(_ & _ & K)|[(v & K & _)|(_ & _ & K & K')]]); try congruence.
  exists w'. rewrite E. congruence.
Qed.
Lemma cget_returns : forall w c t, ctx_of w c = Ok t ->
  exists w', do_call w (CCGet c) = Ok (w', Some (if t_cchecked t then t_cstd t else getenv_int (w_cenv w))).
Proof.
  intros w c t C. destruct (cget_defined w c t C) as (w' & r & E). destruct (call_connect _ _ _ _ _ _ E C) as (t' & C' & [(_ & _ & K)|[(v & K & _)|(_ & _ & K & K')]]); try congruence.
  exists w'. rewrite E. congruence.
Qed.

(** * One thread *)
Lemma calls_inv : forall (I : world -> Prop) (P : call -> Prop),
  (forall w k w' x, I w -> P k -> do_call w k = Ok (w', x) -> I w') ->
  forall l w w' xs, I w -> Forall P l -> do_calls w l = Ok (w', xs) -> I w'.
Proof.
  intros I P ST. induction l as [|k l IH]; intros w w' xs A F H; cbn [do_calls] in H; inv_ok; auto.
  inversion F; subst. eapply IH; [|eauto|eauto]. eapply ST; eauto.
Qed.

(** A context that will return [v]: read again from the variable, or already known. *)
Definition will (c : nat) (v : Z) (w : world) : Prop :=
  exists t, ctx_of w c = Ok t /\ ((t_checked t = true /\ t_std t = v) \/ (t_checked t = false /\ getenv_int (w_env w) = v /\ v <> 0)).
Definition cwill (c : nat) (v : Z) (w : world) : Prop :=
  exists t, ctx_of w c = Ok t /\ ((t_cchecked t = true /\ t_cstd t = v) \/ (t_cchecked t = false /\ getenv_int (w_cenv w) = v)).
(** The same for the default. *)
Definition kept (c : nat) (v : Z) (w : world) : Prop :=
  exists t, ctx_of w c = Ok t /\ t_std t = v /\ (t_checked t = true \/ getenv_int (w_env w) = 0).

Lemma will_step : forall c v w k w' x, will c v w -> ~ sets_sync k -> do_call w k = Ok (w', x) -> will c v w'.
Proof.
  intros c v w k w' x (t & C & D) NS H. destruct (call_sync _ _ _ _ _ _ H C) as (t' & C' & O). destruct (call_env _ _ _ _ H) as (EV & _).
  exists t'. split; auto. destruct O as [(A & B & _)|[(v' & -> & _)|(-> & A & B & S')]].
  - rewrite A, B. replace (w_env w') with (w_env w); auto. rewrite EV. destruct k; auto. cbn in NS. contradiction.
  - cbn in NS. contradiction.
  - left. split; auto. rewrite S'. destruct D as [(-> & D)|(-> & D & N)]; auto. destruct (Z.eqb_spec (getenv_int (w_env w)) 0); congruence.
Qed.
Lemma cwill_step : forall c v w k w' x, cwill c v w -> ~ sets_connect k -> do_call w k = Ok (w', x) -> cwill c v w'.
Proof.
  intros c v w k w' x (t & C & D) NS H. destruct (call_connect _ _ _ _ _ _ H C) as (t' & C' & O). destruct (call_env _ _ _ _ H) as (_ & EV).
  exists t'. split; auto. destruct O as [(A & B & _)|[(v' & -> & _)|(-> & A & B & S')]].
  - rewrite A, B. replace (w_cenv w') with (w_cenv w); auto. rewrite EV. destruct k; auto. cbn in NS. contradiction.
  - cbn in NS. contradiction.
  - left. split; auto. rewrite S'. destruct D as [(-> & D)|(-> & D)]; auto.
Qed.
Lemma kept_step : forall c v w k w' x, kept c v w -> ~ sets_sync k -> do_call w k = Ok (w', x) -> kept c v w'.
Proof.
  intros c v w k w' x (t & C & D & D') NS H. destruct (call_sync _ _ _ _ _ _ H C) as (t' & C' & O). destruct (call_env _ _ _ _ H) as (EV & _).
  exists t'. split; auto. destruct O as [(A & B & _)|[(v' & -> & _)|(-> & A & B & S')]].
  - rewrite A, B. replace (w_env w') with (w_env w); auto. rewrite EV. destruct k; auto. cbn in NS. contradiction.
  - cbn in NS. contradiction.
  - split; auto. rewrite S'. destruct D' as [->|D']; auto. rewrite D'. cbn. destruct (t_checked t); auto.
Qed.
Lemma will_get : forall c v w, will c v w -> exists w', do_call w (CGet c) = Ok (w', Some v).
Proof.
  intros c v w (t & C & D). destruct (get_returns w c t C) as (w' & E). exists w'. rewrite E.
  destruct D as [(-> & D)|(-> & D & N)]; [congruence|]. destruct (Z.eqb_spec (getenv_int (w_env w)) 0); congruence.
Qed.
Lemma kept_get : forall c v w, kept c v w -> exists w', do_call w (CGet c) = Ok (w', Some v).
Proof.
  intros c v w (t & C & D & D'). destruct (get_returns w c t C) as (w' & E). exists w'. rewrite E.
  destruct D' as [->|D']; [congruence|]. rewrite D'. destruct (t_checked t); cbn; congruence.
Qed.
Lemma cwill_get : forall c v w, cwill c v w -> exists w', do_call w (CCGet c) = Ok (w', Some v).
Proof.
  intros c v w (t & C & D). destruct (cget_returns w c t C) as (w' & E). exists w'. rewrite E.
  destruct D as [(-> & D)|(-> & D)]; congruence.
Qed.
Lemma set_inv : forall w c v w' x, do_call w (CSet c v) = Ok (w', x) ->
  exists t, ctx_of w c = Ok t /\ w' = put_ctx (set_env w v) c (mkT (t_std t) false (t_cstd t) (t_cchecked t)).
Proof. intros w c v w' x H. cbn [do_call] in H. unfold set_flag in H. inv_ok. eexists. split; [eassumption|reflexivity]. Qed.

Lemma set_get : forall w c v l w' xs, int_value v -> v <> 0 -> Forall (fun k => ~ sets_sync k) l ->
  do_calls w (CSet c v :: l) = Ok (w', xs) -> exists w2, do_call w' (CGet c) = Ok (w2, Some v).
Proof.
  intros w c v l w' xs R N F H. cbn [do_calls] in H. inv_ok. apply will_get.
  eapply (calls_inv (will c v) (fun k => ~ sets_sync k)); [|  |exact F|eauto].
  - intros. eapply will_step; eauto.
  - destruct (set_inv _ _ _ _ _ E) as (t & C & ->). eexists. split; [eapply ctx_put_same; exact C|]. right. cbn. rewrite getenv_int_value; auto.
Qed.
Lemma cset_cget : forall w c v l w' xs, int_value v -> Forall (fun k => ~ sets_connect k) l ->
  do_calls w (CCSet c v :: l) = Ok (w', xs) -> exists w2, do_call w' (CCGet c) = Ok (w2, Some v).
Proof.
  intros w c v l w' xs R F H. cbn [do_calls] in H. inv_ok. apply cwill_get.
  eapply (calls_inv (cwill c v) (fun k => ~ sets_connect k)); [|  |exact F|eauto].
  - intros. eapply cwill_step; eauto.
  - cbn [do_call] in E. unfold cset_flag in E. inv_ok. eexists. split; [eapply ctx_put_same; eassumption|]. right. cbn. rewrite getenv_int_value; auto.
Qed.
(** What was got last is what 0 leaves. *)
Lemma reset_keeps : forall w c r w0 l w1 xs1 w2 x l' w3 xs3,
  do_call w (CGet c) = Ok (w0, Some r) -> Forall (fun k => ~ sets_sync k) l -> do_calls w0 l = Ok (w1, xs1) ->
  do_call w1 (CSet c 0) = Ok (w2, x) -> Forall (fun k => ~ sets_sync k) l' -> do_calls w2 l' = Ok (w3, xs3) ->
  exists w4, do_call w3 (CGet c) = Ok (w4, Some r).
Proof.
  intros w c r w0 l w1 xs1 w2 x l' w3 xs3 G F1 H1 S0 F2 H2.
  assert (K0 : kept c r w0).
  { assert (exists t, ctx_of w c = Ok t) as (t & C).
    { cbn [do_call] in G. unfold get_read in G. inv_ok. eauto. }
    destruct (call_sync _ _ _ _ _ _ G C) as (t' & C' & [(_ & _ & K)|[(v & K & _)|(_ & A & B & _)]]); try congruence.
    exists t'. split; auto. split; [congruence|auto]. }
  assert (K1 : kept c r w1) by (eapply (calls_inv (kept c r) (fun k => ~ sets_sync k)); [intros; eapply kept_step; eauto|exact K0|exact F1|exact H1]).
  assert (K2 : kept c r w2).
  { destruct (set_inv _ _ _ _ _ S0) as (t & C & ->). destruct K1 as (t' & C' & D & _). rewrite C in C'. inversion C'; subst.
    eexists. split; [eapply ctx_put_same; exact C|]. cbn. auto. }
  apply kept_get. eapply (calls_inv (kept c r) (fun k => ~ sets_sync k)); [intros; eapply kept_step; eauto|exact K2|exact F2|exact H2].
Qed.

(** * The contexts of others *)
Definition settled (c : nat) (v : Z) (w : world) : Prop := exists t, ctx_of w c = Ok t /\ t_checked t = true /\ t_std t = v.
Definition csettled (c : nat) (v : Z) (w : world) : Prop := exists t, ctx_of w c = Ok t /\ t_cchecked t = true /\ t_cstd t = v.
Lemma got_settled : forall w c r w', do_call w (CGet c) = Ok (w', Some r) -> settled c r w'.
Proof.
  intros w c r w' G. assert (exists t, ctx_of w c = Ok t) as (t & C).
  { cbn [do_call] in G. unfold get_read in G. inv_ok. eauto. }
  destruct (call_sync _ _ _ _ _ _ G C) as (t' & C' & [(_ & _ & K)|[(v & K & _)|(_ & A & B & _)]]); try congruence.
  exists t'. split; auto. split; [auto|congruence].
Qed.
Lemma settled_step : forall c v w k w' x, settled c v w -> ~ sets_sync_of c k -> do_call w k = Ok (w', x) -> settled c v w'.
Proof.
  intros c v w k w' x (t & C & D & D') NS H. destruct (call_sync _ _ _ _ _ _ H C) as (t' & C' & O).
  exists t'. split; auto. destruct O as [(A & B & _)|[(v' & -> & _)|(-> & A & B & S')]].
  - rewrite A, B. auto.
  - cbn in NS. congruence.
  - split; auto. rewrite S', D. auto.
Qed.
Lemma others : forall w c r w0 l w1 xs, do_call w (CGet c) = Ok (w0, Some r) -> Forall (fun k => ~ sets_sync_of c k) l ->
  do_calls w0 l = Ok (w1, xs) -> exists w2, do_call w1 (CGet c) = Ok (w2, Some r).
Proof.
  intros w c r w0 l w1 xs G F H. apply kept_get.
  assert (S1 : settled c r w1) by (eapply (calls_inv (settled c r) (fun k => ~ sets_sync_of c k)); [intros; eapply settled_step; eauto|eapply got_settled; eauto|exact F|exact H]).
  destruct S1 as (t & C & D & D'). exists t. auto.
Qed.
Lemma cothers : forall w c r w0 l w1 xs, do_call w (CCGet c) = Ok (w0, Some r) -> Forall (fun k => ~ sets_connect_of c k) l ->
  do_calls w0 l = Ok (w1, xs) -> exists w2, do_call w1 (CCGet c) = Ok (w2, Some r).
Proof.
  intros w c r w0 l w1 xs G F H. apply cwill_get.
  assert (S1 : csettled c r w1).
  { eapply (calls_inv (csettled c r) (fun k => ~ sets_connect_of c k)); [| |exact F|exact H].
    - intros w' k w'' x (t & C & D & D') NS H'. destruct (call_connect _ _ _ _ _ _ H' C) as (t' & C' & O).
      exists t'. split; auto. destruct O as [(A & B & _)|[(v' & -> & _)|(-> & A & B & S')]].
      + rewrite A, B. auto.
      + cbn in NS. congruence.
      + split; auto. rewrite S', D. auto.
    - assert (exists t, ctx_of w c = Ok t) as (t & C).
      { cbn [do_call] in G. unfold cget in G. inv_ok. eauto. }
      destruct (call_connect _ _ _ _ _ _ G C) as (t' & C' & [(_ & _ & K)|[(v & K & _)|(_ & A & B & _)]]); try congruence.
      exists t'. split; auto. split; [auto|congruence]. }
  destruct S1 as (t & C & D & D'). exists t. auto.
Qed.

(** * Nothing configured *)
Definition virgin (w : world) : Prop :=
  w_env w = None /\ w_cenv w = None /\ Forall (fun t => t_std t = 60000000 /\ t_cstd t = 0) (w_ctxs w).
Lemma Forall_upd : forall A (P : A -> Prop) l i x, Forall P l -> P x -> Forall P (upd_nth l i x).
Proof. induction l as [|y l IH]; intros i x F X; destruct i; cbn; auto; inversion F; subst; constructor; auto. Qed.
Lemma ctx_Forall : forall P w c t, Forall P (w_ctxs w) -> ctx_of w c = Ok t -> P t.
Proof. intros P w c t F C. apply ctx_ok in C. apply nth_error_In in C. rewrite Forall_forall in F. auto. Qed.
Lemma virgin_step : forall w k w' x, virgin w -> ~ sets_sync k /\ ~ sets_connect k -> do_call w k = Ok (w', x) ->
  virgin w' /\ (forall c, k = CGet c -> x = Some 60000000) /\ (forall c, k = CCGet c -> x = Some 0).
Proof.
  intros w k w' x (A & B & F) (N1 & N2) H. destruct k as [|c v|c|c v|c]; cbn [do_call] in H.
  - inv_ok. unfold virgin. cbn. (conj; auto; try discriminate); try (apply Forall_app; split; auto; constructor; auto).
  - cbn in N1. contradiction.
  - unfold get_read, get_lock in H. inv_ok. uniq.
    match goal with [ K : ctx_of _ _ = Ok ?a |- _ ] => pose proof (ctx_Forall _ _ _ _ F K) as (P1 & P2); rename a into t end.
    rewrite A in *. cbn [getenv_int] in *. rewrite P1 in *. destruct (t_checked t); fin_if; try discriminate; unfold virgin; cbn; (conj; auto; try discriminate; try (apply Forall_upd; cbn; auto)).
  - cbn in N2. contradiction.
  - unfold cget in H. inv_ok. match goal with [ K : ctx_of _ _ = Ok ?a |- _ ] => pose proof (ctx_Forall _ _ _ _ F K) as (P1 & P2); rename a into t end.
    rewrite B in *. cbn [getenv_int] in *. fin_if; unfold virgin; cbn; (conj; auto; try discriminate; try (intros; congruence); try (apply Forall_upd; cbn; auto)).
Qed.
Lemma default : forall l k r, Forall (fun k => ~ sets_sync k /\ ~ sets_connect k) l -> returns started l k r ->
  (forall c, k = CGet c -> r = 60000000) /\ (forall c, k = CCGet c -> r = 0).
Proof.
  intros l k r F (w1 & xs & w2 & H & G).
  assert (V : virgin w1).
  { eapply (calls_inv virgin (fun k => ~ sets_sync k /\ ~ sets_connect k)); [intros w k' w' x V P H'; eapply virgin_step; eauto| |exact F|exact H].
    unfold virgin, started. cbn. auto. }
  split; intros c ->.
  - destruct (virgin_step w1 (CGet c) _ _ V ltac:(split; intros []) G) as (_ & P & _). specialize (P c eq_refl). congruence.
  - destruct (virgin_step w1 (CCGet c) _ _ V ltac:(split; intros []) G) as (_ & _ & Q). specialize (Q c eq_refl). congruence.
Qed.

(** * Any number of threads *)
Ltac uniqt t :=
  repeat match goal with
  | [ H : ctx_of ?w ?c = Ok ?a, K : ctx_of ?w ?c = Ok t |- _ ] =>
      lazymatch a with t => fail | _ => let Q := fresh "Q" in assert (Q : a = t) by congruence; subst a end
  end.
(** The context has its value, and the calls under way read it. *)
Definition calm (c : nat) (v : Z) (s : conc) : Prop :=
  (exists t, ctx_of (n_w s) c = Ok t /\ t_checked t = true /\ t_std t = v) /\
  (forall i d, nth_error (n_runs s) i = Some (RGet c d) -> d = v) /\
  (forall i, nth_error (n_runs s) i <> Some (RSet c)).
Lemma nth_snoc : forall A (l : list A) x i y, nth_error (l ++ [x]) i = Some y -> nth_error l i = Some y \/ (i = List.length l /\ y = x).
Proof.
  intros A l x i y H. destruct (Nat.lt_ge_cases i (List.length l)) as [L|L].
  - rewrite nth_error_app1 in H by auto. auto.
  - rewrite nth_error_app2 in H by auto. right. destruct (i - List.length l)%nat as [|n] eqn:Q; cbn in H; [split; [lia|congruence]|]. destruct n; discriminate H.
Qed.
Lemma nth_upd_inv : forall A (l : list A) i x j y, nth_error (upd_nth l i x) j = Some y -> (j = i /\ y = x) \/ (j <> i /\ nth_error l j = Some y).
Proof.
  intros A l i x j y H. destruct (Nat.eq_dec j i) as [->|N].
  - left. split; auto. assert (L : (i < List.length (upd_nth l i x))%nat) by (apply nth_error_Some; congruence).
    rewrite upd_nth_length in L. rewrite nth_upd_same in H; auto. congruence.
  - right. rewrite nth_upd_other in H; auto.
Qed.
Lemma calm_step : forall c v s e s', calm c v s -> ~ is_set c e -> nstep s e = Ok s' ->
  calm c v s' /\ (forall i r, nth_error (n_runs s') i = Some (RGot c r) -> nth_error (n_runs s) i = Some (RGot c r) \/ r = v).
Proof.
  intros c v s e s' ((t & C & CK & ST) & RG & RS) NS H. destruct e as [c' v'|c'|i]; cbn [nstep] in H.
  - inv_ok. cbn in NS. split.
    + unfold calm. cbn. conj.
      * exists t. auto.
      * intros i d K. apply nth_snoc in K. destruct K as [K|(_ & K)]; [eauto|discriminate].
      * intros i K. apply nth_snoc in K. destruct K as [K|(_ & K)]; [eapply RS; eauto|congruence].
    + cbn. intros i r K. apply nth_snoc in K. destruct K as [K|(_ & K)]; [auto|discriminate].
  - unfold get_read in H. inv_ok. split.
    + unfold calm. cbn. conj.
      * exists t. auto.
      * intros i d K. apply nth_snoc in K. destruct K as [K|(_ & K)]; [eauto|]. inversion K; subst. uniqt t. auto.
      * intros i K. apply nth_snoc in K. destruct K as [K|(_ & K)]; [eapply RS; eauto|discriminate].
    + cbn. intros i r K. apply nth_snoc in K. destruct K as [K|(_ & K)]; [auto|discriminate].
  - destruct (nth_error (n_runs s) i) as [[c'|c' d|c'|c' r]|] eqn:N.
    + unfold set_flag in H. inv_ok. assert (c' <> c) by (intros ->; eapply RS; eauto). split.
      * unfold calm. cbn. conj.
        -- exists t. rewrite ctx_put_other; auto.
        -- intros j d K. apply nth_upd_inv in K. destruct K as [(_ & K)|(_ & K)]; [discriminate|eauto].
        -- intros j K. apply nth_upd_inv in K. destruct K as [(_ & K)|(_ & K)]; [discriminate|eapply RS; eauto].
      * cbn. intros j r K. apply nth_upd_inv in K. destruct K as [(_ & K)|(_ & K)]; [discriminate|auto].
    + unfold get_lock in H. inv_ok. destruct (Nat.eq_dec c' c) as [->|D].
      * uniqt t. rewrite CK in *. assert (Q : d = t_std t) by eauto. subst d.
        assert (W : exists t2, ctx_of w c = Ok t2 /\ t_checked t2 = true /\ t_std t2 = t_std t /\ z = t_std t).
        { fin_if; (eexists; split; [eapply ctx_put_same; eauto|]; cbn; auto). }
        destruct W as (t2 & W1 & W2 & W3 & ->). split.
        -- unfold calm. cbn. conj.
           ++ exists t2. auto.
           ++ intros j d K. apply nth_upd_inv in K. destruct K as [(_ & K)|(_ & K)]; [discriminate|eauto].
           ++ intros j K. apply nth_upd_inv in K. destruct K as [(_ & K)|(_ & K)]; [discriminate|eapply RS; eauto].
        -- cbn. intros j r K. apply nth_upd_inv in K. destruct K as [(_ & K)|(_ & K)]; [right; congruence|auto].
      * assert (W : ctx_of w c = Ok t) by (fin_if; rewrite ctx_put_other; auto). split.
        -- unfold calm. cbn. conj.
           ++ exists t. auto.
           ++ intros j d0 K. apply nth_upd_inv in K. destruct K as [(_ & K)|(_ & K)]; [discriminate|eauto].
           ++ intros j K. apply nth_upd_inv in K. destruct K as [(_ & K)|(_ & K)]; [discriminate|eapply RS; eauto].
        -- cbn. intros j r K. apply nth_upd_inv in K. destruct K as [(_ & K)|(_ & K)]; [congruence|auto].
    + inv_ok. unfold calm. split; [conj; eauto|auto].
    + inv_ok. unfold calm. split; [conj; eauto|auto].
    + inv_ok. unfold calm. split; [conj; eauto|auto].
Qed.
Lemma calm_run : forall c v l s s', calm c v s -> Forall (fun e => ~ is_set c e) l -> nrun s l = Ok s' ->
  calm c v s' /\ (forall i r, nth_error (n_runs s') i = Some (RGot c r) -> nth_error (n_runs s) i = Some (RGot c r) \/ r = v).
Proof.
  intros c v. induction l as [|e l IH]; intros s s' K F H; cbn [nrun] in H; inv_ok; auto.
  inversion F; subst. destruct (calm_step _ _ _ _ _ K H2 E) as (K1 & G1). destruct (IH _ _ K1 H3 H) as (K2 & G2). split; auto.
  intros i r N. destruct (G2 i r N) as [N'|N']; auto.
Qed.
(** Nothing is under way: one call returned [v]. *)
Lemma concurrent : forall s c v w l s', (forall i r, nth_error (n_runs s) i = Some r -> ~ under_way c r) ->
  do_call (n_w s) (CGet c) = Ok (w, Some v) -> Forall (fun e => ~ is_set c e) l -> nrun (mkC w (n_runs s)) l = Ok s' ->
  forall i r, (List.length (n_runs s) <= i)%nat -> nth_error (n_runs s') i = Some (RGot c r) -> r = v.
Proof.
  intros s c v w l s' U G F H i r L N.
  assert (K : calm c v (mkC w (n_runs s))).
  { unfold calm. cbn. conj.
    - destruct (got_settled _ _ _ _ G) as (t & C & A & B). exists t. auto.
    - intros j d J. apply U in J. cbn in J. congruence.
    - intros j J. apply U in J. cbn in J. congruence. }
  destruct (calm_run _ _ _ _ _ K F H) as (_ & G'). destruct (G' i r N) as [N'|N']; auto. cbn in N'.
  assert (nth_error (n_runs s) i <> None) by congruence. apply nth_error_Some in H0. lia.
Qed.

(** Where a value comes from. *)
Definition known (c : nat) (P : Z -> Prop) (s : conc) : Prop :=
  (exists t, ctx_of (n_w s) c = Ok t /\ P (t_std t)) /\ (getenv_int (w_env (n_w s)) = 0 \/ P (getenv_int (w_env (n_w s)))) /\
  (forall i d, nth_error (n_runs s) i = Some (RGet c d) -> P d) /\
  (forall i r, nth_error (n_runs s) i = Some (RGot c r) -> P r).
Definition sets_only (P : Z -> Prop) (e : event) : Prop := match e with EBeginSet _ v => getenv_int (configured v) = 0 \/ P (getenv_int (configured v)) | _ => True end.
Lemma known_step : forall c P s e s', known c P s -> sets_only P e -> nstep s e = Ok s' -> known c P s'.
Proof.
  intros c P s e s' ((t & C & PS) & PE & PG & PR) SO H. destruct e as [c' v'|c'|i]; cbn [nstep] in H.
  - inv_ok. unfold known. cbn. conj; auto.
    + exists t. auto.
    + intros i d K. apply nth_snoc in K. destruct K as [K|(_ & K)]; [eauto|discriminate].
    + intros i r K. apply nth_snoc in K. destruct K as [K|(_ & K)]; [eauto|discriminate].
  - unfold get_read in H. inv_ok. unfold known. cbn. conj; auto.
    + exists t. auto.
    + intros i d K. apply nth_snoc in K. destruct K as [K|(_ & K)]; [eauto|]. inversion K; subst. uniqt t. auto.
    + intros i r K. apply nth_snoc in K. destruct K as [K|(_ & K)]; [eauto|discriminate].
  - destruct (nth_error (n_runs s) i) as [[c'|c' d|c'|c' r]|] eqn:N.
    + unfold set_flag in H. inv_ok. unfold known. cbn. conj; auto.
      * destruct (Nat.eq_dec c' c) as [->|D].
        -- uniqt t. eexists. split; [eapply ctx_put_same; eauto|]. auto.
        -- exists t. rewrite ctx_put_other; auto.
      * intros j d K. apply nth_upd_inv in K. destruct K as [(_ & K)|(_ & K)]; [discriminate|eauto].
      * intros j r K. apply nth_upd_inv in K. destruct K as [(_ & K)|(_ & K)]; [discriminate|eauto].
    + unfold get_lock in H. inv_ok.
      assert (W : exists t2, ctx_of w c = Ok t2 /\ P (t_std t2) /\ (c' = c -> P z) /\ w_env w = w_env (n_w s)).
      { destruct (Nat.eq_dec c' c) as [->|D].
        - uniqt t. assert (Pd : P d) by eauto. fin_if; (eexists; split; [eapply ctx_put_same; eauto|]; cbn; conj; auto);
            destruct (t_checked t); auto; destruct PE as [PE|PE]; auto; rewrite PE in *; discriminate.
        - exists t. fin_if; (split; [rewrite ctx_put_other; auto|]; conj; auto; congruence). }
      destruct W as (t2 & W1 & W2 & W3 & W4). unfold known. cbn. rewrite W4. conj; auto.
      * exists t2. auto.
      * intros j d0 K. apply nth_upd_inv in K. destruct K as [(_ & K)|(_ & K)]; [discriminate|eauto].
      * intros j r K. apply nth_upd_inv in K. destruct K as [(_ & K)|(_ & K)]; [inversion K; subst; auto|eauto].
    + inv_ok. unfold known. conj; eauto.
    + inv_ok. unfold known. conj; eauto.
    + inv_ok. unfold known. conj; eauto.
Qed.
Lemma known_run : forall c P l s s', known c P s -> Forall (sets_only P) l -> nrun s l = Ok s' -> known c P s'.
Proof.
  intros c P. induction l as [|e l IH]; intros s s' K F H; cbn [nrun] in H; inv_ok; auto.
  inversion F; subst. eapply IH; [eapply known_step; eauto|auto|eauto].
Qed.
Lemma nth_repeat_lt : forall A (x : A) n c, (c < n)%nat -> nth_error (repeat x n) c = Some x.
Proof. induction n as [|n IH]; intros c L; [lia|]. destruct c; cbn; auto. apply IH. lia. Qed.
(** Every value returned is the default or one that was set, as an int. *)
Lemma where_from : forall n l s' i c r, (c < n)%nat -> nrun (mkC (mkW None None (repeat fresh_ctx n)) []) l = Ok s' ->
  Forall (fun e => match e with EBeginSet _ v => - two63 <= v < two63 | _ => True end) l ->
  nth_error (n_runs s') i = Some (RGot c r) ->
  r = 60000000 \/ exists c' v, In (EBeginSet c' v) l /\ r = s32 v /\ r <> 0.
Proof.
  intros n l s' i c r L H F N.
  set (P := fun r => r = 60000000 \/ exists c' v, In (EBeginSet c' v) l /\ r = s32 v /\ r <> 0).
  assert (K : known c P s').
  { eapply known_run; [| |exact H].
    - unfold known. cbn. conj; auto.
      + exists fresh_ctx. split; [|left; reflexivity]. apply ctx_ok. cbn. apply nth_repeat_lt. auto.
      + intros j d J. destruct j; discriminate J.
      + intros j d J. destruct j; discriminate J.
    - rewrite Forall_forall in *. intros e I. specialize (F e I). destruct e as [c' v|c'|j]; cbn; auto.
      rewrite getenv_configured by auto. destruct (Z.eq_dec (s32 v) 0); auto. right. right. exists c', v. auto. }
  destruct K as (_ & _ & _ & K). exact (K i r N).
Qed.

Theorem new_context : forall w w1 x w2 r, do_call w CNew = Ok (w1, x) ->
  (do_call w1 (CGet (List.length (w_ctxs w))) = Ok (w2, Some r) ->
     r = if getenv_int (w_env w) =? 0 then 60000000 else getenv_int (w_env w)) /\
  (do_call w1 (CCGet (List.length (w_ctxs w))) = Ok (w2, Some r) -> r = getenv_int (w_cenv w)).
Proof.
  intros w w1 x w2 r E. injection E as <- <-.
  assert (N : nth_error (w_ctxs w ++ [fresh_ctx]) (List.length (w_ctxs w)) = Some fresh_ctx).
  { rewrite nth_error_app2 by lia. rewrite Nat.sub_diag. reflexivity. }
  split; intros H; cbn [do_call] in H.
  - unfold get_read, get_lock, ctx_of in H. cbn [w_ctxs w_env] in H. rewrite N in H. cbn [obind] in H. rewrite ?N in H.
    cbn [obind fresh_ctx t_checked t_std] in H. destruct (getenv_int (w_env w) =? 0); injection H as _ <-; reflexivity.
  - unfold cget, ctx_of in H. cbn [w_ctxs w_cenv] in H. rewrite N in H. cbn [obind fresh_ctx t_cchecked] in H. injection H as _ <-. reflexivity.
Qed.
