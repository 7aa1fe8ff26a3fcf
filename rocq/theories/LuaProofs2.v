(** Proofs about the Lua bindings: the lock and the descriptor of the events. *)
From Coq Require Import String Lia.
From Verif Require Import Base GreetModel HdrModel HdrProofs LuaModel LuaSpec LuaProofs.
Open Scope list_scope.
Open Scope Z_scope.

(** * The lock *)

Record linv (w : lw) : Prop := {
  li_neg : forall t, t < 0 -> w_th w t = TIdle;
  li_main : w_th w 0 = TLua 0 \/ w_th w 0 = TBlocked 0;
  li_th : forall t, t <> 0 -> w_th w t = TIdle \/
            ((w_th w t = TLua 0 \/ w_th w t = TBlocked 0) /\ w_lock w 0 = Some (Some t));
  li_mlock : w_th w 0 = TLua 0 -> w_lock w 0 = Some (Some 0);
  li_zero : w_lock w 0 <> None;
  li_hold : forall t, w_lock w 0 = Some (Some t) -> w_th w t = TLua 0 \/ (t <> 0 /\ w_th w t = TBlocked 0);
  li_own : forall t, t <> 0 -> w_lock w t = None \/ w_lock w t = Some (Some t) \/
            (w_lock w t = Some None /\ w_th w t = TBlocked 0);
  li_blk : forall t, t <> 0 -> w_th w t = TBlocked 0 -> w_lock w t <> Some (Some t);
  li_regs : forall l, In l (w_regs w) -> l = 0 }.

Lemma linv_init : linv lw_init.
Proof.
  constructor; cbn.
  - intros t L. replace (t =? 0) with false by (symmetry; apply Z.eqb_neq; lia). reflexivity.
  - auto.
  - intros t N. apply Z.eqb_neq in N. rewrite N. auto.
  - auto.
  - discriminate.
  - intros t E. injection E as <-. auto.
  - intros t N. apply Z.eqb_neq in N. rewrite N. auto.
  - intros t N. apply Z.eqb_neq in N. rewrite N. discriminate.
  - contradiction.
Qed.

Ltac zcase t t' := destruct (Z.eqb_spec t t').

Lemma linv_step w e : linv w -> tame e -> exists w', lstep w e = Ok w' /\ linv w'.
Proof.
  intros I T. assert (I' := I). destruct I as [NEG MAIN TH ML ZE HO OWN BLK REG].
  destruct e as [t l|t|t|t|t|t|t]; cbn in T |- *.
  - (* ECall *)
    destruct (w_th w t) eqn:ET; try (eexists; split; [reflexivity|assumption]).
    destruct (Z.ltb_spec 0 t) as [P|P]; cbn [andb]; [|eexists; split; [reflexivity|assumption]].
    destruct (existsb (Z.eqb l) (w_regs w)) eqn:EX; [|eexists; split; [reflexivity|assumption]].
    apply existsb_exists in EX. destruct EX as (l' & IL & EL). apply Z.eqb_eq in EL. subst l'.
    pose proof (REG l IL) as ->. unfold lock.
    destruct (w_lock w 0) as [[o|]|] eqn:EL.
    + eexists; split; [reflexivity|assumption].
    + eexists; split; [reflexivity|]. constructor; cbn -[Z.eqb].
      * intros t' L. zcase t' t; [lia | now apply NEG].
      * zcase 0 t; [lia|]. exact MAIN.
      * intros t' N. zcase t' t; [subst; right; split; [now left | reflexivity]|].
        destruct (TH t' N) as [H|[_ H]]; [now left | discriminate H].
      * zcase 0 t; [lia|]. intros H. apply ML in H. discriminate H.
      * discriminate.
      * intros t' E. injection E as <-. rewrite Z.eqb_refl. now left.
      * intros t' N. zcase t' 0; [contradiction|]. zcase t' t; [|now apply OWN].
        subst. destruct (OWN t N) as [H|[H|[_ H]]]; [auto | auto | congruence].
      * intros t' N. zcase t' 0; [contradiction|]. zcase t' t; [discriminate | now apply BLK].
      * exact REG.
    + contradiction.
  - (* ERet *)
    destruct (w_th w t) eqn:ET; try (eexists; split; [reflexivity|assumption]).
    destruct (Z.ltb_spec 0 t) as [P|P]; [|eexists; split; [reflexivity|assumption]].
    destruct (TH t ltac:(lia)) as [H|[H LK]]; [congruence|].
    assert (l = 0) by (destruct H; congruence). subst l.
    unfold unlock. rewrite LK, Z.eqb_refl. cbn [obind]. eexists; split; [reflexivity|]. constructor; cbn -[Z.eqb].
    + intros t' L. zcase t' t; [reflexivity | now apply NEG].
    + zcase 0 t; [lia | exact MAIN].
    + intros t' N. zcase t' t; [now left|]. destruct (TH t' N) as [H'|[_ H']]; [now left | congruence].
    + zcase 0 t; [lia|]. intros H'. apply ML in H'. congruence.
    + discriminate.
    + discriminate.
    + intros t' N. zcase t' 0; [contradiction|]. zcase t' t; [|now apply OWN].
      subst. destruct (OWN t N) as [H'|[H'|[_ H']]]; [auto | auto | congruence].
    + intros t' N. zcase t' 0; [contradiction|]. zcase t' t; [discriminate | now apply BLK].
    + exact REG.
  - (* EWait *)
    destruct (w_th w t) eqn:ET; try (eexists; split; [reflexivity|assumption]). unfold state_of, unlock.
    destruct (Z.eq_dec t 0) as [->|N0].
    + assert (l = 0) by (destruct MAIN; congruence). subst l.
      rewrite (ML ET), Z.eqb_refl. cbn [obind]. eexists; split; [reflexivity|]. constructor; cbn -[Z.eqb].
      * intros t' L. zcase t' 0; [lia | now apply NEG].
      * now right.
      * intros t' N. zcase t' 0; [contradiction|]. destruct (TH t' N) as [H'|[_ H']]; [now left|].
        rewrite (ML ET) in H'. congruence.
      * discriminate.
      * discriminate.
      * discriminate.
      * intros t' N. zcase t' 0; [contradiction|]. now apply OWN.
      * intros t' N. zcase t' 0; [contradiction|]. now apply BLK.
      * exact REG.
    + destruct (TH t N0) as [H|[H LK]]; [congruence|].
      assert (l = 0) by (destruct H; congruence). subst l.
      assert (NB : w_th w t <> TBlocked 0) by congruence.
      destruct (OWN t N0) as [O|[O|[_ O]]]; [| |contradiction]; rewrite O; rewrite ?Z.eqb_refl; cbn [obind];
        eexists; (split; [reflexivity|]); constructor; cbn -[Z.eqb].
      * intros t' L. zcase t' t; [subst; rewrite NEG in ET by exact L; discriminate | now apply NEG].
      * zcase 0 t; [congruence|]. exact MAIN.
      * intros t' N. zcase t' t; [subst; right; auto | now apply TH].
      * zcase 0 t; [congruence|]. exact ML.
      * exact ZE.
      * intros t' E. zcase t' t; [subst; now right | now apply HO].
      * intros t' N. zcase t' t; [subst; now left | now apply OWN].
      * intros t' N. zcase t' t; [subst; congruence | now apply BLK].
      * exact REG.
      * intros t' L. zcase t' t; [subst; rewrite NEG in ET by exact L; discriminate | now apply NEG].
      * zcase 0 t; [congruence|]. exact MAIN.
      * intros t' N. zcase 0 t; [congruence|]. zcase t' t; [subst; right; auto | now apply TH].
      * zcase 0 t; [congruence|]. exact ML.
      * zcase 0 t; [congruence|]. exact ZE.
      * zcase 0 t; [congruence|]. intros t' E. zcase t' t; [subst; now right | now apply HO].
      * intros t' N. zcase t' t; [subst; right; now right | now apply OWN].
      * intros t' N. zcase t' t; [subst; discriminate | now apply BLK].
      * exact REG.
  - (* EWake *)
    destruct (w_th w t) eqn:ET; try (eexists; split; [reflexivity|assumption]). unfold state_of, lock.
    destruct (Z.eq_dec t 0) as [->|N0].
    + assert (l = 0) by (destruct MAIN; congruence). subst l.
      destruct (w_lock w 0) as [[o|]|] eqn:EL; [eexists; split; [reflexivity|assumption]| |contradiction].
      eexists; split; [reflexivity|]. constructor; cbn -[Z.eqb].
      * intros t' L. zcase t' 0; [lia | now apply NEG].
      * now left.
      * intros t' N. zcase t' 0; [contradiction|]. destruct (TH t' N) as [H'|[_ H']]; [now left | discriminate H'].
      * auto.
      * discriminate.
      * intros t' E. injection E as <-. now left.
      * intros t' N. zcase t' 0; [contradiction|]. now apply OWN.
      * intros t' N. zcase t' 0; [contradiction|]. now apply BLK.
      * exact REG.
    + destruct (TH t N0) as [H|[H LK]]; [congruence|].
      assert (l = 0) by (destruct H; congruence). subst l.
      assert (G : exists w', match w_lock w t with
                             | Some (Some _) => None
                             | _ => Some (set_lock w t (Some t))
                             end = Some w' /\ w' = set_lock w t (Some t)).
      { destruct (OWN t N0) as [O|[O|[O _]]]; rewrite O; eauto. elim (BLK t N0 ET O). }
      destruct G as (w' & G & ->). 
      replace (match w_lock w t with Some (Some _) => None | _ => Some (set_lock w t (Some t)) end)
        with (Some (set_lock w t (Some t))).
      eexists; split; [reflexivity|]. constructor; cbn -[Z.eqb].
      * intros t' L. zcase t' t; [subst; rewrite NEG in ET by exact L; discriminate | now apply NEG].
      * zcase 0 t; [congruence|]. exact MAIN.
      * intros t' N. zcase 0 t; [congruence|]. zcase t' t; [subst; right; auto | now apply TH].
      * zcase 0 t; [congruence|]. exact ML.
      * zcase 0 t; [congruence|]. exact ZE.
      * zcase 0 t; [congruence|]. intros t' E. zcase t' t; [subst; now left | now apply HO].
      * intros t' N. zcase t' t; [subst; auto | now apply OWN].
      * intros t' N. zcase t' t; [discriminate | now apply BLK].
      * exact REG.
  - (* EReg *)
    destruct (w_th w t) eqn:ET; try (eexists; split; [reflexivity|assumption]).
    eexists; split; [reflexivity|]. constructor; cbn; try assumption.
    intros l' [<-|H]; [exact T | now apply REG].
  - contradiction.
  - (* EListened *)
    destruct (w_th w t) eqn:ET; try (eexists; split; [reflexivity|assumption]).
    destruct (Z.eq_dec t 0) as [->|N0]; [destruct MAIN; congruence|].
    destruct (TH t N0) as [H|[H _]]; [congruence|]. destruct H; congruence.
Qed.
Lemma linv_runs es : forall w, linv w -> Forall tame es -> exists w', lruns w es = Ok w' /\ linv w'.
Proof.
  induction es as [|e es IH]; intros w I F; cbn; [eauto|].
  inversion F as [|? ? T F']; subst. destruct (linv_step w e I T) as (w1 & E & I1). rewrite E. cbn. now apply IH.
Qed.
Lemma lock_exclusive es : Forall tame es -> exists w, lruns lw_init es = Ok w /\ one_at_a_time w.
Proof.
  intros F. destruct (linv_runs es lw_init linv_init F) as (w & E & [NEG MAIN TH ML ZE HO OWN BLK REG]).
  exists w. split; [exact E|].
  assert (H : forall t, in_lua w t -> w_lock w 0 = Some (Some t)).
  { intros t [l L]. destruct (Z.eq_dec t 0) as [->|N].
    - apply ML. destruct MAIN; congruence.
    - destruct (TH t N) as [X|[X K]]; congruence. }
  intros t t' A B. apply H in A. apply H in B. congruence.
Qed.
Lemma lock_left es w : Forall tame es -> lruns lw_init es = Ok w ->
  w_th w 0 = TBlocked 0 -> (forall t, t <> 0 -> w_th w t = TIdle) -> w_lock w 0 = Some None.
Proof.
  intros F E B A. destruct (linv_runs es lw_init linv_init F) as (w' & E' & [NEG MAIN TH ML ZE HO OWN BLK REG]).
  rewrite E in E'. injection E' as <-.
  destruct (w_lock w 0) as [[t|]|] eqn:L; [|reflexivity|contradiction].
  destruct (HO t eq_refl) as [H|[N H]].
  - destruct (Z.eq_dec t 0) as [->|N]; [congruence|]. rewrite A in H by exact N. discriminate.
  - rewrite A in H by exact N. discriminate.
Qed.

(** * The descriptor *)

Definition finv (f : fdw) : Prop :=
  0 <= f_wait f /\ 0 <= f_in f /\ 0 <= f_out f /\ f_pipe f = Some (f_wait f + f_in f + f_out f).
Lemma finv_runs es : forall f, no_open es -> finv f -> finv (fruns f es).
Proof.
  unfold fruns. induction es as [|e es IH]; intros f N I; cbn [fold_left]; [exact I|].
  apply IH. { intros J. apply N. now right. }
  destruct I as (A & B & C & D). destruct e; cbn; unfold finv.
  - cbn. rewrite D. repeat split; try lia. f_equal. lia.
  - destruct (Z.ltb_spec 0 (f_wait f)); cbn; [|auto]. destruct (f_in f =? 0); cbn; [|auto].
    rewrite D. repeat split; try lia. f_equal. lia.
  - destruct (Z.ltb_spec 0 (f_in f)); cbn; [|auto]. rewrite D. repeat split; try lia. f_equal. lia.
  - destruct (Z.ltb_spec 0 (f_out f)); cbn; [|auto]. rewrite D.
    destruct (Z.ltb_spec 0 (f_wait f + f_in f + f_out f)); [|lia]. repeat split; try lia. f_equal. lia.
  - elim N. now left.
Qed.
Lemma fd_tells es f : no_open es -> fruns (fstep fd_init FOpen) es = f ->
  (0 < f_wait f -> fd_readable f = true) /\ (f_wait f = 0 -> f_in f = 0 -> f_out f = 0 -> fd_readable f = false).
Proof.
  intros N <-. assert (I : finv (fruns (fstep fd_init FOpen) es)).
  { apply finv_runs; [exact N|]. cbn. unfold finv. cbn. repeat split; lia. }
  destruct I as (A & B & C & D). unfold fd_readable. rewrite D. split.
  - intros W. apply Z.ltb_lt. lia.
  - intros W1 W2 W3. apply Z.ltb_ge. lia.
Qed.

Lemma ev_tv_pos us : 0 < us -> fst (ev_tv us) * 1000000 + snd (ev_tv us) = us /\
  0 <= fst (ev_tv us) /\ 0 <= snd (ev_tv us) < 1000000.
Proof.
  intros P. unfold ev_tv. destruct (Z.leb_spec 1000000 us); cbn [fst snd].
  - pose proof (Z.div_mod us 1000000 ltac:(lia)). pose proof (Z.mod_pos_bound us 1000000 ltac:(lia)).
    pose proof (Z.div_pos us 1000000 ltac:(lia) ltac:(lia)). lia.
  - destruct (Z.eqb_spec us 0); lia.
Qed.
Lemma select_pos us r : 0 < us -> select_on (ev_tv us) r = if r then 1 else 0.
Proof.
  intros P. destruct (ev_tv_pos us P) as (_ & A & B & C). unfold select_on.
  destruct (Z.ltb_spec (snd (ev_tv us)) 0); [lia|]. destruct (Z.leb_spec 1000000 (snd (ev_tv us))); [lia|].
  destruct (Z.ltb_spec (fst (ev_tv us)) 0); [lia|]. reflexivity.
Qed.
Lemma wait_some us r rs : 0 < us -> wait_events us (r :: rs) = Some r.
Proof.
  intros P. cbn [wait_events]. rewrite select_pos by exact P. destruct (Z.eqb_spec us 0); [lia|]. now destruct r.
Qed.
Lemma wait_ever rs : wait_events 0 rs = if existsb (fun b => b) rs then Some true else None.
Proof. induction rs as [|[|] rs IH]; [reflexivity | reflexivity | cbn in *; exact IH]. Qed.
Lemma wait_bad us r rs : us < 0 -> wait_events us (r :: rs) = Some false.
Proof.
  intros N. cbn [wait_events]. unfold ev_tv. destruct (Z.leb_spec 1000000 us); [lia|].
  destruct (Z.eqb_spec us 0); [lia|]. unfold select_on. cbn [fst snd].
  destruct (Z.ltb_spec us 0); [reflexivity | lia].
Qed.
