From Verif Require Import Base RegistryModel RegistrySpec RegistryProofs.

(** The table: one channel for each number. *)
Lemma drop_in l n e : In e (drop_chan l n) <-> In e l /\ fst e <> n.
Proof. unfold drop_chan. rewrite filter_In. split; intros (A & B); split; auto; lia. Qed.
Lemma drop_nodup l n : NoDup (map fst l) -> NoDup (map fst (drop_chan l n)).
Proof.
  induction l as [|e l IH]; cbn; [auto|]. intros D. inversion_clear D as [|x y N D'].
  destruct (negb (fst e =? n)); cbn; auto. constructor; auto.
  intros X. apply N. apply in_map_iff in X. destruct X as (e' & E & X). apply drop_in in X. apply in_map_iff. exists e'. tauto.
Qed.
Lemma at_in r n c : chan_at r n = Some c -> In (n, c) (rg_chans r).
Proof.
  unfold chan_at. destruct (find _ (rg_chans r)) as [[n' c']|] eqn:F; [|discriminate]. cbn. intros H. injection H as <-.
  apply find_some in F. destruct F as (F & E). cbn in E. replace n with n' by lia. exact F.
Qed.
Lemma at_none r n c : chan_at r n = None -> ~ In (n, c) (rg_chans r).
Proof.
  unfold chan_at. destruct (find _ (rg_chans r)) eqn:F; [discriminate|]. intros _ X. apply (find_none _ _ F) in X. cbn in X. lia.
Qed.
Lemma in_at r n c : NoDup (map fst (rg_chans r)) -> In (n, c) (rg_chans r) -> chan_at r n = Some c.
Proof.
  intros D X. destruct (chan_at r n) as [c'|] eqn:A.
  - apply at_in in A. f_equal. revert D X A. generalize (rg_chans r). induction l as [|[n1 c1] l IH]; intros D X A; [destruct X|].
    cbn in D. inversion_clear D as [|x y N D']. destruct X as [X|X], A as [A|A].
    + congruence.
    + injection X as -> ->. exfalso. apply N. apply in_map_iff. exists (n, c'). auto.
    + injection A as -> ->. exfalso. apply N. apply in_map_iff. exists (n, c). auto.
    + apply IH; auto.
  - exfalso. eapply at_none; eauto.
Qed.

Definition tinv (r : reg) : Prop :=
  NoDup (map fst (rg_chans r)) /\ (forall n c, In (n, c) (rg_chans r) -> c < rg_next r).
Lemma tinv_step r e r' : tinv r -> rstep r e = Ok r' -> tinv r'.
Proof.
  intros (D & B) H.
  assert (K : forall r', (rg_chans r' = rg_chans r \/ exists n, rg_chans r' = drop_chan (rg_chans r) n) -> rg_next r' = rg_next r -> tinv r').
  { intros r1 C N. unfold tinv. rewrite N. destruct C as [->|(n & ->)]; split; auto.
    - apply drop_nodup. exact D.
    - intros n' c X. apply drop_in in X. eapply B. apply X. }
  destruct (step_cases _ _ _ H) as [(t & _ & _ & _ & n & _ & _ & C & _ & _ & N & _)|_]; [apply K; auto|].
  destruct e as [t|t n|t|t ok|t|t|n|]; cbn [rstep] in H.
  - destruct (thr_of r t); [injection H as <-; apply K; auto|].
    assert (Q : try_next r t = Ok r' -> tinv r').
    { intros X. apply try_noted in X. destruct X as (n & _ & _ & C & _ & _ & N & _). apply K; auto. }
    destruct (held_by r t); [auto|]. destruct (locked r); [injection H as <-; apply K; auto|].
    destruct (rg_up r); [auto|]. injection H as <-; apply K; auto.
  - destruct (thr_of r t); [|destruct (held_by r t || (n =? 0)); [|destruct (exists_chan r n)]]; injection H as <-; apply K; auto.
  - destruct (thr_of r t) as [[n|n c|n c]|]; try (injection H as <-; apply K; auto; fail).
    destruct (locked r); [injection H as <-; apply K; auto|]. destruct (chan_at r n) eqn:A; injection H as <-; [apply K; auto|].
    split; cbn.
    + constructor; [|exact D]. intros X. apply in_map_iff in X. destruct X as ([n' c] & E & X). cbn in E. subst n'.
      eapply at_none; eauto.
    + intros n' c [E|X]; [injection E as <- <-; lia|]. specialize (B _ _ X). lia.
  - destruct (thr_of r t) as [[n|n c|n c]|]; try (injection H as <-; apply K; auto; fail).
    destruct ok; injection H as <-; apply K; cbn; eauto.
  - destruct (thr_of r t) as [[n|n c|n c]|]; injection H as <-; apply K; cbn; eauto.
  - destruct (thr_of r t) as [[n|n c|n c]|]; injection H as <-; apply K; cbn; eauto.
  - destruct (chan_at r n); injection H as <-; apply K; cbn; eauto.
  - injection H as <-. apply K; auto.
Qed.
Lemma tinv_run es : forall r r', tinv r -> rrun r es = Ok r' -> tinv r'.
Proof.
  induction es as [|e es IH]; cbn [rrun]; intros r r' I H; [injection H as <-; auto|].
  destruct (rstep r e) as [r1|] eqn:E; [|discriminate]. eapply IH; [eapply tinv_step; eauto|exact H].
Qed.
Lemma tinv0 i : tinv (reg0 i). Proof. split; cbn; [constructor|intros n c []]. Qed.
Lemma one_each i es r : rrun (reg0 i) es = Ok r -> NoDup (map fst (rg_chans r)).
Proof. intros H. apply (tinv_run _ _ _ (tinv0 i) H). Qed.

(** A thread at a number. *)
Definition works (r : reg) (t n c : Z) : Prop := thr_of r t = Some (TAdded n c) \/ thr_of r t = Some (TDenied n c).
Lemma find_end l t u : option_map snd (find (fun e : Z * tstate => fst e =? u) (end_thr l t)) =
  if u =? t then None else option_map snd (find (fun e => fst e =? u) l).
Proof.
  unfold end_thr. induction l as [|[v x] l IH]; cbn; [destruct (u =? t); reflexivity|].
  destruct (v =? t) eqn:E; cbn.
  - rewrite IH. destruct (u =? t) eqn:F; [reflexivity|]. replace (v =? u) with false by lia. reflexivity.
  - destruct (v =? u) eqn:F; cbn; [replace (u =? t) with false by lia; reflexivity|]. exact IH.
Qed.
Lemma find_to l t x u : option_map snd (find (fun e : Z * tstate => fst e =? u) (thr_to l t x)) =
  if u =? t then Some x else option_map snd (find (fun e => fst e =? u) l).
Proof.
  unfold thr_to. cbn [find fst]. rewrite (Z.eqb_sym t u). destruct (u =? t) eqn:E; [reflexivity|]. rewrite find_end, E. reflexivity.
Qed.

Record linv (r : reg) : Prop := {
  li_tab : tinv r;
  li_new : forall t n c, In (OCreated t n c) (rg_log r) -> c < rg_next r;
  li_own : forall t n c, works r t n c -> c < rg_next r /\ (forall c', In (n, c') (rg_chans r) -> c' = c) /\
             (forall t' n', ~ In (OCreated t' n' c) (rg_log r));
  li_sep : forall t n c t' n' c', works r t n c -> works r t' n' c' -> t <> t' -> n <> n' /\ c <> c';
  li_add : forall t n c, thr_of r t = Some (TAdded n c) -> In (n, c) (rg_chans r) \/ In (OClosed n c) (rg_log r);
  li_cre : forall t n c, In (OCreated t n c) (rg_log r) -> In (n, c) (rg_chans r) \/ In (OClosed n c) (rg_log r)
}.
(** Steps that change neither the table nor what threads have added. *)
Lemma linv_same r r' o : linv r -> rg_chans r' = rg_chans r -> rg_next r' = rg_next r -> rg_log r' = rg_log r ++ o ->
  (forall t n c, ~ In (OCreated t n c) o) ->
  (forall u n c, thr_of r' u = Some (TAdded n c) -> thr_of r u = Some (TAdded n c)) ->
  (forall u n c, thr_of r' u = Some (TDenied n c) -> thr_of r u = Some (TDenied n c)) -> linv r'.
Proof.
  intros L C N O NO TA TD.
  assert (W : forall t n c, works r' t n c -> works r t n c) by (intros t n c [X|X]; [left|right]; auto).
  assert (CR : forall t n c, In (OCreated t n c) (rg_log r') -> In (OCreated t n c) (rg_log r)).
  { intros t n c X. rewrite O in X. apply in_app_or in X. destruct X as [X|X]; [exact X|]. exfalso. eapply NO. exact X. }
  constructor.
  - destruct (li_tab r L) as (D & B). split; rewrite C; [exact D|]. rewrite N. exact B.
  - intros t n c X. rewrite N. eapply (li_new r L). apply CR. exact X.
  - intros t n c X. apply W in X. destruct (li_own r L _ _ _ X) as (A & B & D). rewrite N, C. split; [exact A|]. split; [exact B|].
    intros t' n' Y. apply CR in Y. eapply D. exact Y.
  - intros t n c t' n' c' X Y NE. eapply (li_sep r L); eauto.
  - intros t n c X. apply TA in X. destruct (li_add r L _ _ _ X) as [Y|Y]; [left; rewrite C; exact Y|right; rewrite O; apply in_or_app; auto].
  - intros t n c X. apply CR in X. destruct (li_cre r L _ _ _ X) as [Y|Y]; [left; rewrite C; exact Y|right; rewrite O; apply in_or_app; auto].
Qed.
(** A thread removes the number it has added. *)
Lemma linv_drop r r' t n c o : linv r -> works r t n c -> rg_chans r' = drop_chan (rg_chans r) n -> rg_next r' = rg_next r ->
  rg_log r' = rg_log r ++ o -> (forall t n c, ~ In (OCreated t n c) o) ->
  (forall u n' c', thr_of r' u = Some (TAdded n' c') -> u <> t /\ thr_of r u = Some (TAdded n' c')) ->
  (forall u n' c', thr_of r' u = Some (TDenied n' c') -> (u = t /\ n' = n /\ c' = c) \/ thr_of r u = Some (TDenied n' c')) -> linv r'.
Proof.
  intros L WK C N O NO TA TD.
  assert (W : forall t n c, works r' t n c -> works r t n c).
  { intros t1 n1 c1 [X|X]; [left; apply TA; exact X|]. apply TD in X. destruct X as [(-> & -> & ->)|X]; [exact WK|right; exact X]. }
  assert (CR : forall t n c, In (OCreated t n c) (rg_log r') -> In (OCreated t n c) (rg_log r)).
  { intros t1 n1 c1 X. rewrite O in X. apply in_app_or in X. destruct X as [X|X]; [exact X|]. exfalso. eapply NO. exact X. }
  destruct (li_tab r L) as (D & B). destruct (li_own r L _ _ _ WK) as (_ & OWN & NC).
  constructor.
  - split; rewrite C; [apply drop_nodup; exact D|]. rewrite N. intros n1 c1 X. apply drop_in in X. eapply B. apply X.
  - intros t1 n1 c1 X. rewrite N. eapply (li_new r L). apply CR. exact X.
  - intros t1 n1 c1 X. apply W in X. destruct (li_own r L _ _ _ X) as (A1 & B1 & D1). rewrite N, C. split; [exact A1|]. split.
    + intros c' Y. apply drop_in in Y. apply B1. apply Y.
    + intros t' n' Y. apply CR in Y. eapply D1. exact Y.
  - intros t1 n1 c1 t' n' c' X Y NE. eapply (li_sep r L); eauto.
  - intros t1 n1 c1 X. apply TA in X. destruct X as (NE & X).
    destruct (li_add r L _ _ _ X) as [Y|Y]; [left; rewrite C; apply drop_in; split; [exact Y|]|right; rewrite O; apply in_or_app; auto].
    cbn. eapply (li_sep r L t1 n1 c1 t n c); eauto. left. exact X.
  - intros t1 n1 c1 X. apply CR in X.
    destruct (li_cre r L _ _ _ X) as [Y|Y]; [left; rewrite C; apply drop_in; split; [exact Y|]|right; rewrite O; apply in_or_app; auto].
    cbn. intros ->. apply OWN in Y. subst c1. eapply NC. exact X.
Qed.

Lemma end_keeps r r' t x : rg_thr r' = end_thr (rg_thr r) t -> forall u, thr_of r' u = Some x -> u <> t /\ thr_of r u = Some x.
Proof.
  intros E u. unfold thr_of. rewrite E, find_end. destruct (u =? t) eqn:F; [discriminate|]. intros H. split; [lia|exact H].
Qed.
Lemma to_keeps r r' t y x : rg_thr r' = thr_to (rg_thr r) t y -> forall u, thr_of r' u = Some x ->
  (u = t /\ y = x) \/ (u <> t /\ thr_of r u = Some x).
Proof.
  intros E u. unfold thr_of. rewrite E, find_to. destruct (u =? t) eqn:F; intros H; [left|right]; split; try lia; congruence.
Qed.
Ltac nocr := let H := fresh in intros ? ? ? H; cbn in H; repeat (destruct H as [H|H]; [discriminate H|]); destruct H.
Lemma linv_step r e r' : linv r ->
  match e with
  | RAdd t => forall n, thr_of r t = Some (TNum n) -> forall u c, thr_of r u <> Some (TAdded n c) /\ thr_of r u <> Some (TDenied n c)
  | _ => True
  end -> rstep r e = Ok r' -> linv r'.
Proof.
  intros L CM H. pose proof (tinv_step _ _ _ (li_tab r L) H) as TI.
  assert (SAME : forall o, rg_chans r' = rg_chans r -> rg_next r' = rg_next r -> rg_thr r' = rg_thr r -> rg_log r' = rg_log r ++ o ->
    (forall t n c, ~ In (OCreated t n c) o) -> linv r').
  { intros o C N T O NO. apply (linv_same r r' o); auto; unfold thr_of; rewrite T; auto. }
  assert (ENDS : forall t o, rg_chans r' = rg_chans r -> rg_next r' = rg_next r -> rg_thr r' = end_thr (rg_thr r) t ->
    rg_log r' = rg_log r ++ o -> (forall t n c, ~ In (OCreated t n c) o) -> linv r').
  { intros t o C N T O NO. apply (linv_same r r' o); auto; intros u n c X; eapply end_keeps in X; eauto; tauto. }
  assert (NUM : forall t n o, rg_chans r' = rg_chans r -> rg_next r' = rg_next r -> rg_thr r' = thr_to (rg_thr r) t (TNum n) ->
    rg_log r' = rg_log r ++ o -> (forall t n c, ~ In (OCreated t n c) o) -> linv r').
  { intros t m o C N T O NO. apply (linv_same r r' o); auto; intros u n c X; eapply to_keeps in X; eauto; (destruct X as [(_ & X)|X]; [discriminate|tauto]). }
  assert (TRY : forall t, try_next r t = Ok r' -> linv r').
  { intros t X. apply try_noted in X. destruct X as (n & _ & _ & C & _ & _ & N & [(_ & O & T & _)|(_ & O & T & _)]).
    - apply (SAME [OVisit n]); auto. nocr.
    - apply (NUM t n _ C N T O). nocr. }
  assert (STAY : r' = r -> linv r') by (intros ->; exact L).
  destruct e as [t|t n|t|t ok|t|t|n|]; cbn [rstep] in H.
  - destruct (thr_of r t); [injection H as <-; auto|]. destruct (held_by r t); [eauto|]. destruct (locked r); [injection H as <-; auto|].
    destruct (rg_up r); [eauto|]. injection H as <-. apply (SAME [ORefused t]); auto. nocr.
  - destruct (thr_of r t); [injection H as <-; auto|]. destruct (held_by r t || (n =? 0)); [injection H as <-; auto|].
    destruct (exists_chan r n); injection H as <-.
    + apply (SAME [ORefused t]); auto. nocr.
    + apply (NUM t n []); auto.
  - destruct (thr_of r t) as [[n|n c|n c]|] eqn:T; try (injection H as <-; auto; fail).
    destruct (locked r); [injection H as <-; auto|]. destruct (chan_at r n) eqn:A.
    { injection H as <-. apply (ENDS t [ORefused t]); auto. nocr. }
    specialize (CM n eq_refl). apply ok_inj in H.
    assert (TA : forall u n' c', thr_of r' u = Some (TAdded n' c') -> (u = t /\ n' = n /\ c' = rg_next r) \/ thr_of r u = Some (TAdded n' c')).
    { intros u n' c' X. rewrite <- H in X. eapply to_keeps in X; [|reflexivity]. destruct X as [(-> & X)|(_ & X)]; [left|right]; [|exact X].
      injection X as <- <-. auto. }
    assert (TD : forall u n' c', thr_of r' u = Some (TDenied n' c') -> thr_of r u = Some (TDenied n' c')).
    { intros u n' c' X. rewrite <- H in X. eapply to_keeps in X; [|reflexivity]. destruct X as [(-> & X)|(_ & X)]; [discriminate|exact X]. }
    assert (W : forall u n' c', works r' u n' c' -> (u = t /\ n' = n /\ c' = rg_next r) \/ (works r u n' c' /\ n' <> n /\ c' < rg_next r)).
    { intros u n' c' X. assert (Y : (u = t /\ n' = n /\ c' = rg_next r) \/ works r u n' c').
      { destruct X as [X|X]; [apply TA in X|apply TD in X]; unfold works; tauto. }
      destruct Y as [Y|Y]; [left; exact Y|]. right. split; [exact Y|]. split; [|apply (li_own r L _ _ _ Y)].
      intros ->. destruct (CM u c') as (C1 & C2). destruct Y as [Y|Y]; contradiction. }
    assert (CH : rg_chans r' = (n, rg_next r) :: rg_chans r) by (subst r'; reflexivity).
    assert (NX : rg_next r' = rg_next r + 1) by (subst r'; reflexivity).
    assert (LG : rg_log r' = rg_log r) by (subst r'; reflexivity).
    constructor; rewrite ?CH, ?NX, ?LG.
    + exact TI.
    + intros t1 n1 c1 X. apply (li_new r L) in X. lia.
    + intros t1 n1 c1 X. apply W in X. destruct X as [(-> & -> & ->)|(X & NE & _)].
      * split; [lia|]. split.
        -- intros c' [Y|Y]; [congruence|]. exfalso. eapply at_none; eauto.
        -- intros t' n' Y. apply (li_new r L) in Y. lia.
      * destruct (li_own r L _ _ _ X) as (A1 & B1 & D1). split; [lia|]. split; [|exact D1].
        intros c' [Y|Y]; [congruence|auto].
    + intros t1 n1 c1 t2 n2 c2 X Y NE. apply W in X, Y.
      destruct X as [(-> & -> & ->)|(X & NX1 & LX)], Y as [(-> & -> & ->)|(Y & NY & LY)].
      * congruence.
      * split; [congruence|lia].
      * split; [congruence|lia].
      * eapply (li_sep r L); eauto.
    + intros t1 n1 c1 X. apply TA in X. destruct X as [(-> & -> & ->)|X]; [left; left; reflexivity|].
      destruct (li_add r L _ _ _ X) as [Y|Y]; [left; right; exact Y|right; exact Y].
    + intros t1 n1 c1 X. destruct (li_cre r L _ _ _ X) as [Y|Y]; [left; right; exact Y|right; exact Y].
  - destruct (thr_of r t) as [[n|n c|n c]|] eqn:T; try (injection H as <-; auto; fail).
    assert (WK : works r t n c) by (left; exact T).
    destruct ok; injection H as <-.
    + destruct (li_own r L _ _ _ WK) as (A1 & B1 & D1).
      assert (TH : forall u x, thr_of (with_thr r (end_thr (rg_thr r) t) [OCreated t n c]) u = Some x -> u <> t /\ thr_of r u = Some x).
      { intros u x X. exact (end_keeps r (with_thr r (end_thr (rg_thr r) t) [OCreated t n c]) t x eq_refl u X). }
      constructor; cbn [with_thr rg_chans rg_next rg_log].
      * exact TI.
      * intros t1 n1 c1 X. apply in_app_or in X. destruct X as [X|[X|[]]]; [eapply (li_new r L); exact X|]. injection X as <- <- <-. exact A1.
      * intros t1 n1 c1 X. assert (Y : t1 <> t /\ works r t1 n1 c1). { destruct X as [X|X]; apply TH in X; destruct X; split; auto; [left|right]; auto. }
        destruct Y as (NE & Y). destruct (li_own r L _ _ _ Y) as (A2 & B2 & D2). split; [exact A2|]. split; [exact B2|].
        intros t' n' Z0. apply in_app_or in Z0. destruct Z0 as [Z0|[Z0|[]]]; [eapply D2; exact Z0|]. injection Z0 as <- <- <-.
        destruct (li_sep r L _ _ _ _ _ _ Y WK NE). congruence.
      * intros t1 n1 c1 t2 n2 c2 X Y NE. eapply (li_sep r L); [| |exact NE]; [destruct X as [Q|Q]|destruct Y as [Q|Q]]; apply TH in Q; [left|right|left|right]; apply Q.
      * intros t1 n1 c1 X. apply TH in X. destruct X as (_ & X). destruct (li_add r L _ _ _ X) as [Y|Y]; [left; exact Y|right; apply in_or_app; auto].
      * intros t1 n1 c1 X. apply in_app_or in X. destruct X as [X|[X|[]]].
        -- destruct (li_cre r L _ _ _ X) as [Y|Y]; [left; exact Y|right; apply in_or_app; auto].
        -- injection X as <- <- <-. destruct (li_add r L _ _ _ T) as [Y|Y]; [left; exact Y|right; apply in_or_app; auto].
    + eapply (linv_drop r _ t n c []); [exact L|exact WK|reflexivity|reflexivity|reflexivity|nocr| |]; intros u n' c' X; eapply to_keeps in X; try reflexivity; destruct X as [(E & X)|X].
      * discriminate.
      * exact X.
      * injection X as <- <-. left. auto.
      * right. apply X.
  - destruct (thr_of r t) as [[n|n c|n c]|] eqn:T; try (injection H as <-; auto; fail).
    assert (WK : works r t n c) by (left; exact T). injection H as <-.
    eapply (linv_drop r _ t n c [ORefused t]); [exact L|exact WK|reflexivity|reflexivity|reflexivity|nocr| |]; intros u n' c' X; eapply end_keeps in X; try reflexivity; tauto.
  - destruct (thr_of r t) as [[n|n c|n c]|] eqn:T; try (injection H as <-; auto; fail).
    assert (WK : works r t n c) by (right; exact T). injection H as <-.
    eapply (linv_drop r _ t n c [ORefused t]); [exact L|exact WK|reflexivity|reflexivity|reflexivity|nocr| |]; intros u n' c' X; eapply end_keeps in X; try reflexivity; tauto.
  - destruct (chan_at r n) as [c|] eqn:A; injection H as <-; [|auto].
    destruct (li_tab r L) as (D & B).
    assert (KEEP : forall n1 c1, In (n1, c1) (rg_chans r) \/ In (OClosed n1 c1) (rg_log r) ->
      In (n1, c1) (drop_chan (rg_chans r) n) \/ In (OClosed n1 c1) (rg_log r ++ [OClosed n c])).
    { intros n1 c1 [Y|Y]; [|right; apply in_or_app; auto]. destruct (Z.eq_dec n1 n) as [->|NE].
      - right. apply in_or_app. right. left. rewrite (in_at r n c1 D Y) in A. congruence.
      - left. apply drop_in. auto. }
    assert (CR : forall t n1 c1, In (OCreated t n1 c1) (rg_log r ++ [OClosed n c]) -> In (OCreated t n1 c1) (rg_log r)).
    { intros t1 n1 c1 X. apply in_app_or in X. destruct X as [X|[X|[]]]; [exact X|discriminate]. }
    constructor; cbn [with_chans rg_chans rg_next rg_log].
    + exact TI.
    + intros t1 n1 c1 X. eapply (li_new r L). apply CR. exact X.
    + intros t1 n1 c1 X. destruct (li_own r L t1 n1 c1 X) as (A1 & B1 & D1). split; [exact A1|]. split.
      * intros c' Y. apply drop_in in Y. apply B1, Y.
      * intros t' n' Y. apply CR in Y. eapply D1. exact Y.
    + intros t1 n1 c1 t2 n2 c2 X Y NE. eapply (li_sep r L); eauto.
    + intros t1 n1 c1 X. apply KEEP. eapply (li_add r L). exact X.
    + intros t1 n1 c1 X. apply KEEP. eapply (li_cre r L). apply CR. exact X.
  - injection H as <-. apply (SAME []); auto. cbn. rewrite app_nil_r. reflexivity.
Qed.
Lemma linv_run es : forall r r', linv r -> calm r es -> rrun r es = Ok r' -> linv r'.
Proof.
  induction es as [|e es IH]; cbn [rrun calm]; intros r r' L C H; [injection H as <-; auto|].
  destruct (rstep r e) as [r1|] eqn:E; [|discriminate]. destruct C as (C1 & C2).
  eapply IH; [eapply linv_step; eauto|apply C2; reflexivity|exact H].
Qed.
Lemma linv0 i : linv (reg0 i).
Proof.
  constructor; [apply tinv0| | | | |]; try (intros t n c []; fail).
  - intros t n c [X|X]; discriminate X.
  - intros t n c t' n' c' [X|X]; discriminate X.
  - intros t n c X; discriminate X.
Qed.
Lemma open_found i es r n c : calm (reg0 i) es -> rrun (reg0 i) es = Ok r -> open_chan (rg_log r) n c -> chan_at r n = Some c.
Proof.
  intros C H ((t & X) & N). pose proof (linv_run _ _ _ (linv0 i) C H) as L. destruct (li_tab r L) as (D & _).
  apply in_at; auto. destruct (li_cre r L _ _ _ X); [auto|contradiction].
Qed.
Lemma lost_channel : exists es r n c, rrun (reg0 true) es = Ok r /\ open_chan (rg_log r) n c /\ chan_at r n = None.
Proof.
  exists [RChoose 1 5; RAdd 1; RReply 1 false; RChoose 2 5; RAdd 2; RReply 2 true; RDenied 1].
  eexists. exists 5, 1. split; [vm_compute; reflexivity|]. split; [|reflexivity]. split; [exists 2; cbn; auto|]. cbn. intuition discriminate.
Qed.
