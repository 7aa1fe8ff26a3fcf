(** Proofs about waiting and unlocking. *)
From Verif Require Import Base ListenModel ListenSpec ListenProofs.

Definition mid (p : upc) : Prop := p <> UIdle /\ p <> UOut.
Definition all_idle (s : wst) : Prop := forall t, u_pc s t = UIdle.
Definition quiet (s : wst) : Prop := forall t, u_pc s t = UIdle \/ u_pc s t = UOut \/ u_pc s t = USkip.
Definition cleared (s : wst) : Prop := w_lock s = None /\ quiet s /\ exists t, u_pc s t = UOut.
Definition nulling (s : wst) : Prop :=
  w_lock s = Some O /\ exists t, u_pc s t = UNull /\ forall t', t' <> t -> u_pc s t' = UIdle.
Definition working (s : wst) : Prop :=
  w_lock s = Some O /\ forall t, u_pc s t = UIdle \/ u_pc s t = UPick \/ u_pc s t = UPush.

Definition phase (s : wst) : Prop :=
  match w_pc s O with
  | WIdle => w_m1 s = None /\ w_lock s = None /\ w_qs s = [] /\ quiet s
  | WTest => w_lock s = None /\ w_qs s = [] /\ all_idle s
  | WCheck | WRead => w_lock s = Some O /\ w_qs s = [mkQ 0 0 true] /\ all_idle s
  | WPop q => q = Some O /\ w_lock s = Some O /\ w_qs s = [mkQ 0 0 true] /\ all_idle s
  | WBlock q => q = O /\
      ((working s /\ w_qs s = [mkQ 0 1 true]) \/ ((nulling s \/ cleared s) /\ w_qs s = [mkQ 1 1 true]))
  | WUnref q => q = Some O /\ (nulling s \/ cleared s) /\ w_qs s = [mkQ 0 0 true]
  | WOut => nulling s \/ cleared s
  end.
Definition winv (s : wst) : Prop :=
  (forall t, mid (u_pc s t) -> w_m2 s = Some t) /\ (forall t, w_m2 s = Some t -> mid (u_pc s t)) /\
  (w_skip s = true -> exists t, u_pc s t = UOut) /\ ((exists t, u_pc s t = UOut) -> w_pc s O = WIdle -> w_skip s = true) /\
  phase s.

Lemma wset_same {A} (f : nat -> A) c p : wset f c p c = p.
Proof. unfold wset. rewrite Nat.eqb_refl. reflexivity. Qed.
Lemma wset_other {A} (f : nat -> A) c p x : x <> c -> wset f c p x = f x.
Proof. intro H. unfold wset. destruct (Nat.eqb_spec x c); [contradiction|reflexivity]. Qed.

(** The steps of the waiting thread do not change the unlocking ones. *)
Lemma wait_inv s : winv s -> (w_pc s O = WIdle -> w_m2 s = None) -> exists s', wait_step s O = Ok s' /\ winv s'.
Proof.
  destruct s as [lock skip qs m1 m2 pc up]. intros (I1 & I2 & I3 & I4 & I5) D.
  unfold phase, quiet, all_idle, working, nulling, cleared in I5.
  unfold wait_step. cbn [w_pc w_m1 w_m2 w_lock w_skip w_qs u_pc] in *.
  destruct (pc O) as [| | | |q|q|q|] eqn:Hp.
  - destruct I5 as (-> & -> & -> & HQ). rewrite (D eq_refl) in *. destruct skip eqn:Hs.
    + eexists. split; [reflexivity|]. unfold winv, phase, set_wpc, nulling, cleared, quiet. cbn [w_pc w_m1 w_m2 w_lock w_skip w_qs u_pc].
      rewrite wset_same. split; [exact I1|]. split; [exact I2|]. split; [exact I3|]. split; [discriminate|].
      right. split; [reflexivity|]. split; [exact HQ|]. exact (I3 eq_refl).
    + eexists. split; [reflexivity|]. unfold winv, phase, set_m1, set_wpc, all_idle. cbn [w_pc w_m1 w_m2 w_lock w_skip w_qs u_pc].
      rewrite wset_same. split; [exact I1|]. split; [exact I2|]. split; [exact I3|]. split; [discriminate|].
      split; [reflexivity|]. split; [reflexivity|]. intro t.
      destruct (HQ t) as [H|[H|H]]; [exact H| |].
      * assert (false = true) by (apply I4; [exists t; exact H|reflexivity]). discriminate.
      * assert (None = Some t) by (apply I1; rewrite H; split; discriminate). discriminate.
  - destruct I5 as (-> & -> & HQ). eexists. split; [reflexivity|].
    unfold winv, phase, set_lock, set_m1, set_wpc, all_idle. cbn [w_pc w_m1 w_m2 w_lock w_skip w_qs u_pc length app].
    rewrite wset_same. split; [exact I1|]. split; [exact I2|]. split; [exact I3|]. split; [discriminate|]. auto.
  - destruct I5 as (-> & -> & HQ). eexists. split; [reflexivity|].
    unfold winv, phase, set_wpc, all_idle. cbn [w_pc w_m1 w_m2 w_lock w_skip w_qs u_pc].
    rewrite wset_same. split; [exact I1|]. split; [exact I2|]. split; [exact I3|]. split; [discriminate|]. auto.
  - destruct I5 as (-> & -> & HQ). eexists. split; [reflexivity|].
    unfold winv, phase, set_wpc, all_idle. cbn [w_pc w_m1 w_m2 w_lock w_skip w_qs u_pc].
    rewrite wset_same. split; [exact I1|]. split; [exact I2|]. split; [exact I3|]. split; [discriminate|]. auto.
  - destruct I5 as (-> & -> & -> & HQ). eexists. split; [reflexivity|].
    unfold winv, phase, set_wpc, set_q, working. cbn [w_pc w_m1 w_m2 w_lock w_skip w_qs u_pc upd q_items q_wait].
    rewrite wset_same. split; [exact I1|]. split; [exact I2|]. split; [exact I3|]. split; [discriminate|].
    split; [reflexivity|]. left. split; [|reflexivity]. split; [reflexivity|]. intro t. left. apply HQ.
  - destruct I5 as (-> & [(HW & ->)|(HN & ->)]).
    + eexists. split; [reflexivity|]. cbn [q_items]. unfold winv, phase, working. cbn [w_pc w_m1 w_m2 w_lock w_skip w_qs u_pc].
      rewrite Hp. split; [exact I1|]. split; [exact I2|]. split; [exact I3|]. split; [discriminate|].
      split; [reflexivity|]. left. split; [exact HW|reflexivity].
    + eexists. split; [reflexivity|]. unfold winv, phase, set_wpc, set_q, nulling, cleared, quiet. cbn [w_pc w_m1 w_m2 w_lock w_skip w_qs u_pc upd q_items q_wait pred].
      rewrite wset_same. split; [exact I1|]. split; [exact I2|]. split; [exact I3|]. split; [discriminate|].
      split; [reflexivity|]. split; [exact HN|reflexivity].
  - destruct I5 as (-> & HN & ->). eexists. split; [reflexivity|].
    unfold winv, phase, set_wpc, set_q, nulling, cleared, quiet. cbn [w_pc w_m1 w_m2 w_lock w_skip w_qs u_pc upd q_items q_wait].
    rewrite wset_same. split; [exact I1|]. split; [exact I2|]. split; [exact I3|]. split; [discriminate|]. exact HN.
  - eexists. split; [reflexivity|]. unfold winv, phase. cbn [w_pc w_m1 w_m2 w_lock w_skip w_qs u_pc]. rewrite Hp.
    split; [exact I1|]. split; [exact I2|]. split; [exact I3|]. split; [discriminate|]. exact I5.
Qed.

Lemma only_mid s t : winv s -> mid (u_pc s t) -> forall t', t' <> t -> u_pc s t' = UIdle \/ u_pc s t' = UOut.
Proof.
  intros (I1 & _) Hm t' Hn. destruct (u_pc s t') eqn:Hu; auto;
    (assert (H : w_m2 s = Some t') by (apply I1; rewrite Hu; split; discriminate);
     rewrite (I1 t Hm) in H; injection H as <-; contradiction).
Qed.

(** A step that only moves thread [t] of the unlocking ones. *)
Lemma unlock_inv s t : winv s -> (u_pc s t = UIdle -> settled (w_pc s O)) -> exists s', unlock_step s t = Ok s' /\ winv s'.
Proof.
  intros HI D. pose proof HI as (I1 & I2 & I3 & I4 & I5). unfold unlock_step.
  destruct (u_pc s t) eqn:Hu.
  - (* starts *)
    destruct (w_m2 s) as [o|] eqn:Hm; [eexists; split; [reflexivity|exact HI]|].
    specialize (D eq_refl).
    assert (HM : forall x, u_pc s x = UIdle \/ u_pc s x = UOut).
    { intro x. destruct (u_pc s x) eqn:Hx; auto;
        (assert (H : None = Some x) by (apply I1; rewrite Hx; split; discriminate); discriminate H). }
    destruct (w_lock s) as [q|] eqn:Hl.
    + eexists. split; [reflexivity|]. unfold winv, set_m2, set_upc. cbn [w_pc w_m1 w_m2 w_lock w_skip w_qs u_pc].
      split; [|split; [|split; [|split]]].
      * intros x Hx. destruct (Nat.eq_dec x t) as [->|Hn]; [reflexivity|]. rewrite wset_other in Hx by exact Hn.
        destruct (HM x) as [H|H]; rewrite H in Hx; destruct Hx; congruence.
      * intros x Hx. injection Hx as <-. rewrite wset_same. split; discriminate.
      * intro H. destruct (I3 H) as (x & Hx). exists x. rewrite wset_other; [exact Hx|]. intros ->. congruence.
      * intros (x & Hx) Hw. apply I4; [|exact Hw]. exists x. destruct (Nat.eq_dec x t) as [->|Hn];
          [rewrite wset_same in Hx; discriminate Hx|]. rewrite wset_other in Hx by exact Hn. exact Hx.
      * unfold phase in *. cbn [w_pc w_m1 w_m2 w_lock w_skip w_qs u_pc].
        destruct (w_pc s O) as [| | | |q'|q'|q'|] eqn:Hp; cbn in D; try contradiction.
        -- destruct I5 as (_ & H & _). congruence.
        -- destruct I5 as (-> & [(HW & HQ)|([HN|HN] & HQ)]).
           ++ split; [reflexivity|]. left. split; [|exact HQ]. destruct HW as (W1 & W2).
              split; [cbn; congruence|]. cbn [u_pc]. intro x. destruct (Nat.eq_dec x t) as [->|Hn];
                [rewrite wset_same; auto|rewrite wset_other by exact Hn; apply W2].
           ++ exfalso. destruct HN as (_ & x & Hx & _). destruct (HM x) as [H|H]; congruence.
           ++ exfalso. destruct HN as (H & _). congruence.
        -- exfalso. destruct I5 as [(_ & x & Hx & _)|(H & _)]; [destruct (HM x) as [H|H]; congruence|congruence].
    + eexists. split; [reflexivity|]. unfold winv, set_m2, set_upc. cbn [w_pc w_m1 w_m2 w_lock w_skip w_qs u_pc].
      assert (HQ : forall x, wset (u_pc s) t USkip x = UIdle \/ wset (u_pc s) t USkip x = UOut \/ wset (u_pc s) t USkip x = USkip).
      { intro x. destruct (Nat.eq_dec x t) as [->|Hn]; [rewrite wset_same; auto|rewrite wset_other by exact Hn].
        destruct (HM x); auto. }
      assert (HO : (exists x, u_pc s x = UOut) -> exists x, wset (u_pc s) t USkip x = UOut).
      { intros (x & Hx). exists x. rewrite wset_other; [exact Hx|]. intros ->. congruence. }
      split; [|split; [|split; [|split]]].
      * intros x Hx. destruct (Nat.eq_dec x t) as [->|Hn]; [reflexivity|]. rewrite wset_other in Hx by exact Hn.
        destruct (HM x) as [H|H]; rewrite H in Hx; destruct Hx; congruence.
      * intros x Hx. injection Hx as <-. rewrite wset_same. split; discriminate.
      * intro H. exact (HO (I3 H)).
      * intros (x & Hx) Hw. apply I4; [|exact Hw]. exists x. destruct (Nat.eq_dec x t) as [->|Hn];
          [rewrite wset_same in Hx; discriminate Hx|]. rewrite wset_other in Hx by exact Hn. exact Hx.
      * unfold phase in *. cbn [w_pc w_m1 w_m2 w_lock w_skip w_qs u_pc].
        destruct (w_pc s O) as [| | | |q'|q'|q'|] eqn:Hp; cbn in D; try contradiction.
        -- destruct I5 as (H1 & H2 & H3 & _). auto.
        -- destruct I5 as (-> & [(HW & _)|([HN|HN] & HH)]).
           ++ destruct HW. congruence.
           ++ destruct HN. congruence.
           ++ split; [reflexivity|]. right. split; [|exact HH]. right. destruct HN as (_ & _ & N).
              split; [exact Hl|]. split; [exact HQ|]. exact (HO N).
        -- right. destruct I5 as [(H & _)|(_ & _ & N)]; [congruence|].
           split; [exact Hl|]. split; [exact HQ|]. exact (HO N).
  - (* asks for the waiters: only while the thread is blocked and nothing was pushed *)
    assert (HW : exists q', w_pc s O = WBlock q' /\ q' = O /\ working s /\ w_qs s = [mkQ 0 1 true]).
    { unfold phase in I5. destruct (w_pc s O) as [| | | |q'|q'|q'|].
      - destruct I5 as (_ & _ & _ & HQ). destruct (HQ t) as [H|[H|H]]; congruence.
      - destruct I5 as (_ & _ & HQ). rewrite HQ in Hu. discriminate Hu.
      - destruct I5 as (_ & _ & HQ). rewrite HQ in Hu. discriminate Hu.
      - destruct I5 as (_ & _ & HQ). rewrite HQ in Hu. discriminate Hu.
      - destruct I5 as (_ & _ & _ & HQ). rewrite HQ in Hu. discriminate Hu.
      - destruct I5 as (-> & [(HW & HH)|([HN|HN] & HH)]).
        + exists O. auto.
        + destruct HN as (_ & x & Hx & HN). destruct (Nat.eq_dec t x) as [->|Hn]; [congruence|]. rewrite (HN t Hn) in Hu. discriminate Hu.
        + destruct HN as (_ & HQ & _). destruct (HQ t) as [H|[H|H]]; congruence.
      - destruct I5 as (_ & [HN|HN] & _).
        + destruct HN as (_ & x & Hx & HN). destruct (Nat.eq_dec t x) as [->|Hn]; [congruence|]. rewrite (HN t Hn) in Hu. discriminate Hu.
        + destruct HN as (_ & HQ & _). destruct (HQ t) as [H|[H|H]]; congruence.
      - destruct I5 as [HN|HN].
        + destruct HN as (_ & x & Hx & HN). destruct (Nat.eq_dec t x) as [->|Hn]; [congruence|]. rewrite (HN t Hn) in Hu. discriminate Hu.
        + destruct HN as (_ & HQ & _). destruct (HQ t) as [H|[H|H]]; congruence. }
    destruct HW as (q' & Hp & -> & (W1 & W2) & HH). rewrite W1. unfold with_q. rewrite HH. cbn [nth_error q_live q_wait].
    eexists. split; [reflexivity|]. unfold winv, set_upc. cbn [w_pc w_m1 w_m2 w_lock w_skip w_qs u_pc].
    split; [|split; [|split; [|split]]].
    + intros x Hx. destruct (Nat.eq_dec x t) as [->|Hn]; [apply I1; rewrite Hu; split; discriminate|].
      rewrite wset_other in Hx by exact Hn. exact (I1 x Hx).
    + intros x Hx. destruct (Nat.eq_dec x t) as [->|Hn]; [rewrite wset_same; split; discriminate|].
      rewrite wset_other by exact Hn. exact (I2 x Hx).
    + intro H. destruct (I3 H) as (x & Hx). destruct (W2 x) as [G|[G|G]]; congruence.
    + intros _ Hw. congruence.
    + unfold phase. cbn [w_pc w_qs]. rewrite Hp. split; [reflexivity|]. left. split; [|exact HH].
      split; [exact W1|]. cbn [u_pc]. intro x. destruct (Nat.eq_dec x t) as [->|Hn];
        [rewrite wset_same; auto|rewrite wset_other by exact Hn; apply W2].
  - (* pushes *)
    assert (HW : exists q', w_pc s O = WBlock q' /\ q' = O /\ working s /\ w_qs s = [mkQ 0 1 true]).
    { unfold phase in I5. destruct (w_pc s O) as [| | | |q'|q'|q'|].
      - destruct I5 as (_ & _ & _ & HQ). destruct (HQ t) as [H|[H|H]]; congruence.
      - destruct I5 as (_ & _ & HQ). rewrite HQ in Hu. discriminate Hu.
      - destruct I5 as (_ & _ & HQ). rewrite HQ in Hu. discriminate Hu.
      - destruct I5 as (_ & _ & HQ). rewrite HQ in Hu. discriminate Hu.
      - destruct I5 as (_ & _ & _ & HQ). rewrite HQ in Hu. discriminate Hu.
      - destruct I5 as (-> & [(HW & HH)|([HN|HN] & HH)]).
        + exists O. auto.
        + destruct HN as (_ & x & Hx & HN). destruct (Nat.eq_dec t x) as [->|Hn]; [congruence|]. rewrite (HN t Hn) in Hu. discriminate Hu.
        + destruct HN as (_ & HQ & _). destruct (HQ t) as [H|[H|H]]; congruence.
      - destruct I5 as (_ & [HN|HN] & _).
        + destruct HN as (_ & x & Hx & HN). destruct (Nat.eq_dec t x) as [->|Hn]; [congruence|]. rewrite (HN t Hn) in Hu. discriminate Hu.
        + destruct HN as (_ & HQ & _). destruct (HQ t) as [H|[H|H]]; congruence.
      - destruct I5 as [HN|HN].
        + destruct HN as (_ & x & Hx & HN). destruct (Nat.eq_dec t x) as [->|Hn]; [congruence|]. rewrite (HN t Hn) in Hu. discriminate Hu.
        + destruct HN as (_ & HQ & _). destruct (HQ t) as [H|[H|H]]; congruence. }
    destruct HW as (q' & Hp & -> & (W1 & W2) & HH). rewrite W1. unfold with_q. rewrite HH. cbn [nth_error q_live q_wait q_items].
    eexists. split; [reflexivity|]. unfold winv, set_upc, set_q. cbn [w_pc w_m1 w_m2 w_lock w_skip w_qs u_pc].
    assert (Hmid : mid (u_pc s t)) by (rewrite Hu; split; discriminate).
    split; [|split; [|split; [|split]]].
    + intros x Hx. destruct (Nat.eq_dec x t) as [->|Hn]; [exact (I1 t Hmid)|].
      rewrite wset_other in Hx by exact Hn. exact (I1 x Hx).
    + intros x Hx. destruct (Nat.eq_dec x t) as [->|Hn]; [rewrite wset_same; split; discriminate|].
      rewrite wset_other by exact Hn. exact (I2 x Hx).
    + intro H. destruct (I3 H) as (x & Hx). destruct (W2 x) as [G|[G|G]]; congruence.
    + intros _ Hw. congruence.
    + unfold phase. cbn [w_pc w_qs]. rewrite Hp. split; [reflexivity|]. right. rewrite HH. split; [|reflexivity]. left.
      split; [exact W1|]. exists t. cbn [u_pc]. rewrite wset_same. split; [reflexivity|].
      intros x Hn. rewrite wset_other by exact Hn.
      destruct (only_mid s t HI Hmid x Hn) as [H|H]; [exact H|]. destruct (W2 x) as [G|[G|G]]; congruence.
  - (* frees: never *)
    exfalso. unfold phase in I5. destruct (w_pc s O) as [| | | |q'|q'|q'|].
    + destruct I5 as (_ & _ & _ & HQ). destruct (HQ t) as [H|[H|H]]; congruence.
    + destruct I5 as (_ & _ & HQ). rewrite HQ in Hu. discriminate Hu.
    + destruct I5 as (_ & _ & HQ). rewrite HQ in Hu. discriminate Hu.
    + destruct I5 as (_ & _ & HQ). rewrite HQ in Hu. discriminate Hu.
    + destruct I5 as (_ & _ & _ & HQ). rewrite HQ in Hu. discriminate Hu.
    + destruct I5 as (_ & [(HW & _)|([HN|HN] & _)]).
      * destruct HW as (_ & HW). destruct (HW t) as [H|[H|H]]; congruence.
      * destruct HN as (_ & x & Hx & HN). destruct (Nat.eq_dec t x) as [->|Hn]; [congruence|]. rewrite (HN t Hn) in Hu. discriminate Hu.
      * destruct HN as (_ & HQ & _). destruct (HQ t) as [H|[H|H]]; congruence.
    + destruct I5 as (_ & [HN|HN] & _).
      * destruct HN as (_ & x & Hx & HN). destruct (Nat.eq_dec t x) as [->|Hn]; [congruence|]. rewrite (HN t Hn) in Hu. discriminate Hu.
      * destruct HN as (_ & HQ & _). destruct (HQ t) as [H|[H|H]]; congruence.
    + destruct I5 as [HN|HN].
      * destruct HN as (_ & x & Hx & HN). destruct (Nat.eq_dec t x) as [->|Hn]; [congruence|]. rewrite (HN t Hn) in Hu. discriminate Hu.
      * destruct HN as (_ & HQ & _). destruct (HQ t) as [H|[H|H]]; congruence.
  - (* clears the pointer *)
    assert (Hmid : mid (u_pc s t)) by (rewrite Hu; split; discriminate).
    assert (HN : forall x, x <> t -> u_pc s x = UIdle \/ u_pc s x = UOut) by (exact (only_mid s t HI Hmid)).
    eexists. split; [reflexivity|]. unfold winv, set_m2, set_upc, set_lock. cbn [w_pc w_m1 w_m2 w_lock w_skip w_qs u_pc].
    assert (HC : forall m2 pc, cleared (mkW None (w_skip s) (w_qs s) (w_m1 s) m2 pc (wset (u_pc s) t UOut))).
    { intros m2 pc. split; [reflexivity|]. split; [|exists t; cbn; apply wset_same].
      intro x. cbn [u_pc]. destruct (Nat.eq_dec x t) as [->|Hn]; [rewrite wset_same; auto|rewrite wset_other by exact Hn].
      destruct (HN x Hn); auto. }
    split; [|split; [|split; [|split]]].
    + intros x Hx. exfalso. destruct (Nat.eq_dec x t) as [->|Hn]; [rewrite wset_same in Hx; destruct Hx; congruence|].
      rewrite wset_other in Hx by exact Hn. destruct (HN x Hn) as [H|H]; rewrite H in Hx; destruct Hx; congruence.
    + discriminate.
    + intros _. exists t. apply wset_same.
    + intros _ Hw. exfalso. unfold phase in I5. rewrite Hw in I5. destruct I5 as (_ & _ & _ & HQ).
      destruct (HQ t) as [H|[H|H]]; congruence.
    + unfold phase in *. cbn [w_pc w_m1 w_m2 w_lock w_skip w_qs u_pc].
      destruct (w_pc s O) as [| | | |q'|q'|q'|].
      * destruct I5 as (_ & _ & _ & HQ). destruct (HQ t) as [H|[H|H]]; congruence.
      * destruct I5 as (_ & _ & HQ). rewrite HQ in Hu. discriminate Hu.
      * destruct I5 as (_ & _ & HQ). rewrite HQ in Hu. discriminate Hu.
      * destruct I5 as (_ & _ & HQ). rewrite HQ in Hu. discriminate Hu.
      * destruct I5 as (_ & _ & _ & HQ). rewrite HQ in Hu. discriminate Hu.
      * destruct I5 as (-> & [(HW & _)|(_ & HH)]).
        -- destruct HW as (_ & HW). destruct (HW t) as [H|[H|H]]; congruence.
        -- split; [reflexivity|]. right. split; [right; apply HC|exact HH].
      * destruct I5 as (-> & _ & HH). split; [reflexivity|]. split; [right; apply HC|exact HH].
      * right. apply HC.
  - (* sets the flag *)
    assert (Hmid : mid (u_pc s t)) by (rewrite Hu; split; discriminate).
    assert (HN : forall x, x <> t -> u_pc s x = UIdle \/ u_pc s x = UOut) by (exact (only_mid s t HI Hmid)).
    eexists. split; [reflexivity|]. unfold winv, set_m2, set_upc, set_skip. cbn [w_pc w_m1 w_m2 w_lock w_skip w_qs u_pc].
    assert (HQ' : forall x, wset (u_pc s) t UOut x = UIdle \/ wset (u_pc s) t UOut x = UOut \/ wset (u_pc s) t UOut x = USkip).
    { intro x. destruct (Nat.eq_dec x t) as [->|Hn]; [rewrite wset_same; auto|rewrite wset_other by exact Hn].
      destruct (HN x Hn); auto. }
    split; [|split; [|split; [|split]]].
    + intros x Hx. exfalso. destruct (Nat.eq_dec x t) as [->|Hn]; [rewrite wset_same in Hx; destruct Hx; congruence|].
      rewrite wset_other in Hx by exact Hn. destruct (HN x Hn) as [H|H]; rewrite H in Hx; destruct Hx; congruence.
    + discriminate.
    + intros _. exists t. apply wset_same.
    + reflexivity.
    + unfold phase in *. cbn [w_pc w_m1 w_m2 w_lock w_skip w_qs u_pc].
      assert (HO : exists x, wset (u_pc s) t UOut x = UOut) by (exists t; apply wset_same).
      destruct (w_pc s O) as [| | | |q'|q'|q'|].
      * destruct I5 as (H1 & H2 & H3 & _). auto.
      * destruct I5 as (_ & _ & HQ). rewrite HQ in Hu. discriminate Hu.
      * destruct I5 as (_ & _ & HQ). rewrite HQ in Hu. discriminate Hu.
      * destruct I5 as (_ & _ & HQ). rewrite HQ in Hu. discriminate Hu.
      * destruct I5 as (_ & _ & _ & HQ). rewrite HQ in Hu. discriminate Hu.
      * destruct I5 as (-> & [(HW & _)|([H|H] & HH)]).
        -- destruct HW as (_ & HW). destruct (HW t) as [H|[H|H]]; congruence.
        -- destruct H as (_ & x & Hx & H). destruct (Nat.eq_dec t x) as [->|Hn]; [congruence|]. rewrite (H t Hn) in Hu. discriminate Hu.
        -- split; [reflexivity|]. right. split; [|exact HH]. right. split; [exact (proj1 H)|]. split; [exact HQ'|exact HO].
      * destruct I5 as (-> & [H|H] & HH).
        -- destruct H as (_ & x & Hx & H). destruct (Nat.eq_dec t x) as [->|Hn]; [congruence|]. rewrite (H t Hn) in Hu. discriminate Hu.
        -- split; [reflexivity|]. split; [|exact HH]. right. split; [exact (proj1 H)|]. split; [exact HQ'|exact HO].
      * destruct I5 as [H|H].
        -- destruct H as (_ & x & Hx & H). destruct (Nat.eq_dec t x) as [->|Hn]; [congruence|]. rewrite (H t Hn) in Hu. discriminate Hu.
        -- right. split; [exact (proj1 H)|]. split; [exact HQ'|exact HO].
  - eexists. split; [reflexivity|exact HI].
Qed.

Lemma winit_inv : winv winit.
Proof.
  unfold winv. cbn. split; [intros t [H _]; congruence|]. split; [discriminate|]. split; [discriminate|].
  split; [intros (t & H); discriminate H|]. unfold phase. cbn. repeat split. intro t. left. reflexivity.
Qed.

Lemma wrun_inv s ops : winv s -> all_disciplined s ops -> exists s', wrun s ops = Ok s' /\ winv s'.
Proof.
  revert s. induction ops as [|o r IH]; intros s HI HD; [exists s; auto|]. cbn [all_disciplined] in HD.
  destruct HD as (D1 & D2). cbn [wrun].
  assert (K : exists s1, wstep s o = Ok s1 /\ winv s1).
  { destruct o as [t|t]; cbn [wstep disciplined] in *.
    - destruct D1 as (-> & D1). exact (wait_inv s HI D1).
    - exact (unlock_inv s t HI D1). }
  destruct K as (s1 & H1 & HI1). rewrite H1. cbn [obind]. exact (IH s1 HI1 (D2 s1 H1)).
Qed.

(** A completed unlock lets the waiting thread go. *)
Lemma woken s : winv s -> (exists t, u_pc s t = UOut) ->
  exists s', wrun s [SWait O; SWait O] = Ok s' /\ w_pc s' O = WOut.
Proof.
  destruct s as [lock skip qs m1 m2 pc up]. intros (I1 & I2 & I3 & I4 & I5) (t & Ht). unfold phase in I5. cbn [wrun wstep].
  unfold wait_step. cbn [w_pc w_m1 w_m2 w_lock w_skip w_qs u_pc] in *.
  destruct (pc O) as [| | | |q|q|q|] eqn:Hp.
  - destruct I5 as (-> & _). rewrite (I4 (ex_intro _ t Ht) eq_refl). cbn [obind set_wpc w_pc]. rewrite wset_same.
    eexists. split; reflexivity.
  - destruct I5 as (_ & _ & HQ). rewrite HQ in Ht. discriminate Ht.
  - destruct I5 as (_ & _ & HQ). rewrite HQ in Ht. discriminate Ht.
  - destruct I5 as (_ & _ & HQ). rewrite HQ in Ht. discriminate Ht.
  - destruct I5 as (_ & _ & _ & HQ). rewrite HQ in Ht. discriminate Ht.
  - destruct I5 as (-> & [(HW & _)|(HN & ->)]).
    + destruct HW as (_ & HW). cbn in HW. destruct (HW t) as [H|[H|H]]; congruence.
    + cbn. eexists. split; [reflexivity|]. reflexivity.
  - destruct I5 as (-> & _ & ->). cbn. eexists. split; [reflexivity|]. reflexivity.
  - cbn [obind w_pc]. rewrite Hp. eexists. split; [reflexivity|exact Hp].
Qed.

Lemma wait_ok ops : all_disciplined winit ops ->
  exists s, wrun winit ops = Ok s /\
    ((exists t, u_pc s t = UOut) -> exists s', wrun s [SWait O; SWait O] = Ok s' /\ w_pc s' O = WOut) /\
    (w_pc s O = WOut -> exists t, u_pc s t = UNull \/ u_pc s t = UOut).
Proof.
  intro HD. destruct (wrun_inv winit ops winit_inv HD) as (s & Hr & HI). exists s. split; [exact Hr|].
  split; [exact (woken s HI)|]. intro Hw. destruct HI as (_ & _ & _ & _ & I5). unfold phase in I5. rewrite Hw in I5.
  destruct I5 as [(_ & t & Ht & _)|(_ & _ & t & Ht)]; exists t; auto.
Qed.

(** One thread waits, another one unlocks while the first is on its way: the
    queue is destroyed under it. *)
Lemma wait_ub : wrun winit [SWait 0; SWait 0; SWait 0; SWait 0; SUnlock 1; SUnlock 1; SUnlock 1; SUnlock 1; SWait 0] = UB.
Proof. vm_compute. reflexivity. Qed.

(** Nothing but the waiting threads: the blocked one stays blocked. *)
Definition lost (s : wst) : Prop := w_pc s O = WBlock O /\ w_qs s = [mkQ 0 1 true] /\ w_skip s = true /\ w_m1 s = None /\
  forall t, t <> O -> w_pc s t = WIdle \/ w_pc s t = WOut.
Lemma lost_step s t : lost s -> exists s', wait_step s t = Ok s' /\ lost s'.
Proof.
  intros (H1 & H2 & H3 & H4 & H5). unfold wait_step. destruct (Nat.eq_dec t O) as [->|Hn].
  - rewrite H1. unfold with_q. rewrite H2. cbn. exists s. unfold lost. auto 10.
  - destruct (H5 t Hn) as [H|H]; rewrite H.
    + rewrite H4, H3. eexists. split; [reflexivity|]. unfold lost, set_wpc. cbn [w_pc w_m1 w_m2 w_lock w_skip w_qs u_pc].
      rewrite wset_other by congruence. conj; auto. intros x Hx. destruct (Nat.eq_dec x t) as [->|Hxt];
        [rewrite wset_same; auto|rewrite wset_other by exact Hxt; auto].
    + exists s. unfold lost. auto 10.
Qed.
Lemma lost_forever s ts : lost s -> exists s', wrun s (map SWait ts) = Ok s' /\ lost s'.
Proof.
  revert s. induction ts as [|t r IH]; intros s H; [exists s; auto|]. cbn [map wrun wstep].
  destruct (lost_step s t H) as (s1 & -> & H1). cbn [obind]. exact (IH s1 H1).
Qed.

Definition lost_ops : list wop := [SWait 0; SUnlock 1; SWait 0; SUnlock 1; SWait 0; SWait 0; SWait 0].
Definition lost_state : wst := match wrun winit lost_ops with Ok x => x | UB => winit end.
Lemma wait_lost : exists s, wrun winit lost_ops = Ok s /\ u_pc s 1%nat = UOut /\
  forall ts, exists s', wrun s (map SWait ts) = Ok s' /\ w_pc s' O <> WOut.
Proof.
  exists lost_state. split; [vm_compute; reflexivity|]. split; [reflexivity|]. intro ts.
  destruct (lost_forever lost_state ts) as (s' & H & HL).
  - unfold lost, lost_state. vm_compute. repeat split. intros t Ht. destruct t; [contradiction|]. left. reflexivity.
  - exists s'. split; [exact H|]. destruct HL as (-> & _). discriminate.
Qed.

(** Two threads wait, one unlock: the first that wakes up destroys the queue of the other. *)
Definition two_ops : list wop :=
  [SWait 0; SWait 0; SWait 0; SWait 0; SWait 0; SWait 1; SWait 1; SWait 1; SWait 1; SWait 1;
   SUnlock 2; SUnlock 2; SUnlock 2; SUnlock 2; SWait 0; SWait 0].
Lemma wait_two : exists s, wrun winit two_ops = Ok s /\ w_pc s 0%nat = WOut /\ w_pc s 1%nat = WBlock 0 /\ u_pc s 2%nat = UOut /\
  wrun s [SWait 1] = UB.
Proof. eexists. split; [vm_compute; reflexivity|]. repeat split; vm_compute; reflexivity. Qed.

(** The forms used in the properties. *)
Lemma wait_freed : exists ops,
  (forall t, In (SWait t) ops -> t = 0%nat) /\ (forall t, In (SUnlock t) ops -> t = 1%nat) /\ wrun winit ops = UB.
Proof.
  eexists. split; [|split; [|exact wait_ub]]; intros t H; cbn in H;
    repeat (destruct H as [H|H]; [first [discriminate H|injection H; auto]|]); destruct H.
Qed.
Lemma wait_lost_thm : exists ops s, wrun winit ops = Ok s /\ u_pc s 1%nat = UOut /\
  In (SWait 0) ops /\ (forall t, In (SUnlock t) ops -> t = 1%nat) /\
  forall ts, exists s', wrun s (map SWait ts) = Ok s' /\ w_pc s' 0%nat <> WOut.
Proof.
  destruct wait_lost as (s & H1 & H2 & H3). exists lost_ops, s. split; [exact H1|]. split; [exact H2|].
  split; [left; reflexivity|]. split; [|exact H3]. intros t H. cbn in H.
  repeat (destruct H as [H|H]; [first [discriminate H|injection H; auto]|]); destruct H.
Qed.
Lemma wait_two_thm : exists ops s, wrun winit ops = Ok s /\ w_pc s 0%nat = WOut /\ w_pc s 1%nat = WBlock 0 /\
  u_pc s 2%nat = UOut /\ wrun s [SWait 1] = UB.
Proof. exists two_ops. exact wait_two. Qed.
Lemma wait_skip_case : exists s, wrun winit [SUnlock 1; SUnlock 1; SWait 0; SWait 5] = Ok s /\
  w_pc s 0%nat = WOut /\ w_pc s 5%nat = WOut.
Proof. eexists. split; [vm_compute; reflexivity|]. split; reflexivity. Qed.
Lemma wait_case : exists s,
  all_disciplined winit [SWait 0; SWait 0; SWait 0; SWait 0; SWait 0; SUnlock 1; SUnlock 1; SUnlock 1; SUnlock 1] /\
  wrun winit [SWait 0; SWait 0; SWait 0; SWait 0; SWait 0; SUnlock 1; SUnlock 1; SUnlock 1; SUnlock 1] = Ok s /\
  w_pc s 0%nat = WBlock 0 /\ u_pc s 1%nat = UOut.
Proof.
  eexists. split; [|split; [vm_compute; reflexivity|split; reflexivity]].
  cbn [all_disciplined].
  repeat (split; [cbn; try split; auto; try discriminate; reflexivity|];
          let s' := fresh in let H := fresh in intros s' H; cbn in H; injection H as <-).
  exact Logic.I.
Qed.
