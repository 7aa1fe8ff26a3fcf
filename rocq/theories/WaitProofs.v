(** Proofs about the threads that wait. *)
From Verif Require Import Base WaitModel WaitSpec.

Ltac conj := repeat match goal with |- _ /\ _ => split end.
Lemma ok_inj {A} (a b : A) : Ok a = Ok b -> a = b.
Proof. congruence. Qed.

Lemma frame_not_broken f : frame_address f -> is_broken f = false.
Proof.
  intros [_ M]. unfold is_broken, s32, BROKEN. apply Z.eqb_neq. intros E. unfold two31, two32 in E.
  pose proof (Z.div_mod (f + 2147483648) 4294967296 ltac:(lia)) as D. pose proof (Z.div_mod f 8 ltac:(lia)) as D8. lia.
Qed.
Lemma broken_broken : is_broken BROKEN = true.
Proof. reflexivity. Qed.
Lemma broken_inv v : v = BROKEN \/ v = 0 \/ frame_address v -> is_broken v = true -> v = BROKEN.
Proof. intros [H|[H|H]] E; [exact H|subst; discriminate|rewrite (frame_not_broken v H) in E; discriminate]. Qed.

(** ** What is returned *)
Definition known (l : list Z) (v : Z) : Prop := v = 0 \/ v = BROKEN \/ In v l.
Definition values (l : list Z) (w : wst) : Prop :=
  Forall (known l) (w_queue w) /\ w_sent w = false /\
  match w_pc w with
  | W3 v | W4 v | W5 v => known l v
  | WDone r => r = 0 \/ In r l
  | _ => True
  end.
Lemma known_app l v f : known l v -> known (l ++ f) v.
Proof. unfold known. rewrite in_app_iff. tauto. Qed.
Lemma values_app l w f : values l w -> values (l ++ f) w.
Proof.
  intros (A & B & C). unfold values. conj; auto.
  - eapply Forall_impl; [|exact A]. intros v. apply known_app.
  - destruct (w_pc w); auto; try (apply known_app; exact C). rewrite in_app_iff. tauto.
Qed.
Lemma values_push l w v w' : values l w -> known l v -> push w v = Ok w' -> values l w'.
Proof.
  intros (A & B & C) K H. unfold push in H. destruct (queue_gone w); [discriminate|]. apply ok_inj in H. subst w'.
  unfold values. cbn. conj; auto. apply Forall_app. split; auto.
Qed.
Lemma values_go l w : values l w -> values l (waiter w).
Proof.
  intros (A & B & C). unfold waiter. destruct (w_pc w) eqn:P.
  - destruct (w_conn w); unfold values; cbn; auto.
  - unfold values; cbn; auto.
  - destruct (w_queue w) as [|v q] eqn:Q; [unfold values; rewrite P, Q; auto|]. inversion A; subst. unfold values; cbn; auto.
  - destruct (w_h w); unfold values; cbn; auto; destruct (is_broken v && negb (w_sent w)); cbn; auto.
  - destruct (w_queue w) as [|x q] eqn:Q; [unfold values; rewrite P, Q; auto|]. inversion A; subst. unfold values; cbn; auto.
  - rewrite B. destruct (is_broken v || (v =? 0)) eqn:E; unfold values; cbn; conj; auto.
    apply orb_false_iff in E. destruct E as [E1 E2]. apply Z.eqb_neq in E2. destruct C as [C|[C|C]]; [congruence|subst; discriminate|auto].
  - unfold values. rewrite P. auto.
Qed.
Lemma values_frame l w w' : values l w -> w_queue w' = w_queue w -> w_sent w' = w_sent w -> w_pc w' = w_pc w -> values l w'.
Proof. intros (A & B & C) E1 E2 E3. unfold values. rewrite E1, E2, E3. auto. Qed.
Lemma values_step l w e w' : values l w -> wstep w e = Ok w' -> values (l ++ frames [e]) w'.
Proof.
  intros V H. destruct e; cbn [frames flat_map app] in *; rewrite ?app_nil_r; cbn [wstep] in H.
  - apply ok_inj in H. subst w'. apply values_go, V.
  - destruct V as (A & B & C). destruct (w_pc w) eqn:P; try (apply ok_inj in H; subst w'; unfold values; rewrite P; auto; fail).
    destruct (w_queue w) eqn:Q; [|apply ok_inj in H; subst w'; unfold values; rewrite P, Q; auto]. rewrite B in H. apply ok_inj in H. subst w'.
    unfold values. cbn. rewrite Q. conj; auto. left. reflexivity.
  - destruct (w_entry w); [|apply ok_inj in H; subst w'; apply values_app, V].
    destruct (push w f) as [x|] eqn:P; [|discriminate]. cbn in H. apply ok_inj in H. subst w'.
    apply (values_frame _ x); auto. eapply values_push; [apply values_app, V| |exact P]. unfold known. rewrite in_app_iff. cbn. auto.
  - destruct ((0 <? w_refs w) && negb (w_sent w)); [|apply ok_inj in H; subst w'; apply values_app, V].
    eapply values_push; [apply values_app, V| |exact H]. unfold known. rewrite in_app_iff. cbn. auto.
  - destruct V as (A & B & C). rewrite B, andb_false_r in H. apply ok_inj in H. subst w'. unfold values. auto.
  - apply ok_inj in H. subst w'. destruct (w_conn w); [|exact V]. apply (values_frame _ w); auto.
  - destruct (w_h w); try (apply ok_inj in H; subst w'; exact V). destruct (w_closing w); apply ok_inj in H; subst w'; [|exact V]. apply (values_frame _ w); auto.
  - destruct (w_h w); apply ok_inj in H; subst w'; try exact V.
  - destruct (w_h w); try (apply ok_inj in H; subst w'; exact V). eapply values_push; [|right; left; reflexivity|exact H]. apply (values_frame _ w); auto.
  - destruct (w_h w); apply ok_inj in H; subst w'; try exact V; apply (values_frame _ w); auto.
  - destruct (w_entry w); apply ok_inj in H; subst w'; [|exact V]. apply (values_frame _ w); auto.
  - destruct (w_pc w) eqn:P; try (apply ok_inj in H; subst w'; exact V). destruct r; try (apply ok_inj in H; subst w'; exact V).
    destruct (w_freed w); apply ok_inj in H; subst w'; [exact V|]. apply (values_frame _ w); auto; cbn; congruence.
Qed.
Lemma values_run es l w w' : values l w -> wrun w es = Ok w' -> values (l ++ frames es) w'.
Proof.
  revert l w. induction es as [|e es IH]; intros l w V H; cbn [wrun] in H; [apply ok_inj in H; subst; cbn; rewrite app_nil_r; exact V|].
  destruct (wstep w e) as [x|] eqn:E; [|discriminate]. cbn in H.
  change (frames (e :: es)) with (frames ([e] ++ es)). unfold frames. rewrite flat_map_app, app_assoc. fold (frames [e]). fold (frames es).
  apply (IH _ x); [eapply values_step; eauto|exact H].
Qed.
Lemma result_thm es w r : wrun wait0 es = Ok w -> w_pc w = WDone r -> r = 0 \/ In r (frames es).
Proof.
  intros R P. assert (V : values [] wait0) by (unfold values; cbn; auto).
  destruct (values_run es [] wait0 w V R) as (_ & _ & C). rewrite P in C. exact C.
Qed.

(** ** No frame is missed while the connection is open *)
Definition open_ok (w : wst) : Prop :=
  w_conn w = true /\ w_closing w = false /\ w_sent w = false /\ Forall frame_address (w_queue w) /\
  match w_pc w with
  | W0 | W1 => w_h w = HNone
  | W2 => w_h w = HIn
  | W3 v => w_h w = HIn /\ frame_address v
  | W4 _ => False
  | W5 v => w_h w = HRemoved /\ frame_address v
  | WDone r => w_h w = HRemoved /\ r <> 0
  end.
Lemma open_push w v w' : open_ok w -> frame_address v -> push w v = Ok w' -> open_ok w'.
Proof.
  intros (A & B & C & D & E) F H. unfold push in H. destruct (queue_gone w); [discriminate|]. apply ok_inj in H. subst w'.
  unfold open_ok. cbn. conj; auto. apply Forall_app. auto.
Qed.
Lemma open_step w e w' : open_ok w -> e <> EClose -> e <> ETimeout -> Forall frame_address (frames [e]) -> wstep w e = Ok w' -> open_ok w'.
Proof.
  intros O N1 N2 F H. pose proof O as (A & B & C & D & E). destruct e; cbn [wstep] in H; try congruence.
  - apply ok_inj in H. subst w'. unfold waiter. destruct (w_pc w) eqn:P.
    + rewrite A. unfold open_ok; cbn; conj; auto.
    + unfold open_ok; cbn; conj; auto.
    + destruct (w_queue w) as [|v q] eqn:Q; [exact O|]. inversion D; subst. unfold open_ok; cbn; conj; auto.
    + destruct E as [E1 E2]. rewrite E1. unfold open_ok; cbn; conj; auto.
    + contradiction.
    + destruct E as [E1 E2]. rewrite C, (frame_not_broken v E2). destruct (v =? 0) eqn:Z; [apply Z.eqb_eq in Z; destruct E2; contradiction|].
      apply Z.eqb_neq in Z. unfold open_ok; cbn; conj; auto.
    + exact O.
  - cbn in F. inversion F; subst. destruct (w_entry w); [|apply ok_inj in H; subst; exact O]. destruct (push w f) as [x|] eqn:P; [|discriminate].
    cbn in H. apply ok_inj in H. subst w'. exact (open_push w f x O H2 P).
  - cbn in F. inversion F; subst. destruct ((0 <? w_refs w) && negb (w_sent w)); [|apply ok_inj in H; subst; exact O]. eapply open_push; eauto.
  - rewrite C, andb_false_r in H. apply ok_inj in H. subst; exact O.
  - rewrite B in H. destruct (w_h w); apply ok_inj in H; subst; exact O.
  - assert (Q : w_h w <> HTaken) by (destruct (w_pc w); try tauto; try (rewrite E; discriminate); destruct E as [E _]; rewrite E; discriminate).
    destruct (w_h w); try congruence; apply ok_inj in H; subst; exact O.
  - assert (Q : w_h w <> HTaken) by (destruct (w_pc w); try tauto; try (rewrite E; discriminate); destruct E as [E _]; rewrite E; discriminate).
    destruct (w_h w); try congruence; apply ok_inj in H; subst; exact O.
  - destruct (w_h w) eqn:Hh; apply ok_inj in H; subst w'; try exact O; unfold open_ok; cbn; rewrite ?Hh; conj; auto.
  - destruct (w_entry w); apply ok_inj in H; subst w'; [|exact O]. unfold open_ok; cbn; conj; auto.
  - destruct (w_pc w) eqn:P; try (apply ok_inj in H; subst w'; exact O). destruct r; try (apply ok_inj in H; subst w'; exact O).
    exfalso. destruct E as [_ E]. congruence.
Qed.
Lemma frames_cons e es : frames (e :: es) = frames [e] ++ frames es.
Proof. change (e :: es) with ([e] ++ es). unfold frames. apply flat_map_app. Qed.
Lemma open_run es w w' : open_ok w -> ~ In EClose es -> ~ In ETimeout es -> Forall frame_address (frames es) -> wrun w es = Ok w' -> open_ok w'.
Proof.
  revert w. induction es as [|e es IH]; intros w O N1 N2 F H; cbn [wrun] in H; [apply ok_inj in H; subst; exact O|].
  destruct (wstep w e) as [x|] eqn:E; [|discriminate]. cbn in H. rewrite frames_cons in F. apply Forall_app in F. destruct F as [F1 F2].
  apply (IH x); [|intros I; apply N1; right; exact I|intros I; apply N2; right; exact I|exact F2|exact H].
  apply (open_step w e); [exact O|intros ->; apply N1; left; reflexivity|intros ->; apply N2; left; reflexivity|exact F1|exact E].
Qed.
Lemma no_null_thm es w r : wrun wait0 es = Ok w -> ~ In EClose es -> ~ In ETimeout es -> Forall frame_address (frames es) ->
  w_pc w = WDone r -> In r (frames es).
Proof.
  intros R N1 N2 F P. assert (O : open_ok wait0) by (unfold open_ok; cbn; conj; auto).
  destruct (open_run es wait0 w O N1 N2 F R) as (_ & _ & _ & _ & E). rewrite P in E. destruct E as [_ E].
  destruct (result_thm es w r R P) as [Z|I]; [contradiction|exact I].
Qed.

(** ** One reply or one timeout *)
Definition b2z (b : bool) : Z := if b then 1 else 0.
Definition up (h : hst) : Prop := h = HIn \/ h = HTaken \/ h = HLost \/ h = HCalled.
Definition only_broken (w : wst) : Prop := w_queue w = match w_h w with HCalled => [BROKEN] | _ => [] end.
Definition few (b : nat) (w : wst) : Prop := exists fs, (length fs <= b)%nat /\ Forall frame_address fs /\
  match w_h w with HCalled => w_queue w = BROKEN :: fs \/ w_queue w = fs ++ [BROKEN] | _ => w_queue w = fs end.
Definition safe (b : nat) (w : wst) : Prop :=
  (b <= 1)%nat /\ w_sent w = false /\ w_refs w = b2z (w_entry w) + b2z (negb (w_freed w)) /\
  (w_freed w = true -> exists r, w_pc w = WDone r) /\
  match w_pc w with
  | W0 | W1 => w_h w = HNone /\ w_hold w = false /\ few b w
  | W2 => up (w_h w) /\ w_hold w = true /\ few b w
  | W3 v => up (w_h w) /\ w_hold w = true /\
            ((v = BROKEN /\ w_h w = HCalled /\ exists fs, w_queue w = fs /\ (length fs <= b)%nat /\ Forall frame_address fs)
             \/ (b = 1%nat /\ (v = 0 \/ frame_address v) /\ only_broken w))
  | W4 v => (w_h w = HTaken \/ w_h w = HLost \/ w_h w = HCalled) /\ w_hold w = true /\ b = 1%nat /\ (v = 0 \/ frame_address v) /\ only_broken w
  | W5 v => (w_h w = HRemoved \/ w_h w = HCalled) /\ w_hold w = true
  | WDone r => (w_h w = HNone \/ w_h w = HRemoved \/ w_h w = HCalled) /\ w_hold w = false
  end.
Lemma safe_taken b w : safe b w -> w_h w = HTaken -> w_hold w = true.
Proof.
  intros (_ & _ & _ & _ & E) H. destruct (w_pc w); rewrite H in E;
  repeat match goal with X : _ /\ _ |- _ => destruct X | X : _ \/ _ |- _ => destruct X end; try discriminate; assumption.
Qed.
Definition cost (e : wev) : nat := match e with EReply _ | EOk _ | ETimeout => 1 | _ => 0 end.

Lemma few_le b c w : (b <= c)%nat -> few b w -> few c w.
Proof. intros L (fs & A & B & C). exists fs. conj; auto. lia. Qed.
Lemma safe_le b w : safe b w -> forall c, (b <= c <= 1)%nat -> safe c w.
Proof.
  intros (A & B & C & D & E) c L. unfold safe. conj; auto; [lia|]. destruct (w_pc w); auto.
  - destruct E as (E1 & E2 & E3). conj; auto. eapply few_le; [|exact E3]. lia.
  - destruct E as (E1 & E2 & E3). conj; auto. eapply few_le; [|exact E3]. lia.
  - destruct E as (E1 & E2 & E3). conj; auto. eapply few_le; [|exact E3]. lia.
  - destruct E as (E1 & E2 & E3). conj; auto. destruct E3 as [(F1 & F2 & fs & F3 & F4 & F5)|(F1 & F2 & F3)].
    + left. conj; auto. exists fs. conj; auto. lia.
    + right. conj; auto. lia.
  - destruct E as (E1 & E2 & E3 & E4 & E5). conj; auto. lia.
Qed.
(** A frame is pushed. *)
Lemma safe_push w f : safe 0 w -> frame_address f -> queue_gone w = false -> exists w', push w f = Ok w' /\ safe 1 w' /\ w_entry w' = w_entry w /\ w_freed w' = w_freed w.
Proof.
  intros (A & B & C & D & E) F G. unfold push. rewrite G. eexists. split; [reflexivity|]. split; [|split; reflexivity].
  unfold safe; cbn. conj; auto. destruct (w_pc w) eqn:P.
  - destruct E as (E1 & E2 & fs & E3 & E4 & E5). conj; auto. exists (fs ++ [f]). cbn. rewrite E1 in *. conj; [rewrite app_length; cbn; lia|apply Forall_app; auto|congruence].
  - destruct E as (E1 & E2 & fs & E3 & E4 & E5). conj; auto. exists (fs ++ [f]). cbn. rewrite E1 in *. conj; [rewrite app_length; cbn; lia|apply Forall_app; auto|congruence].
  - destruct E as (E1 & E2 & fs & E3 & E4 & E5). conj; auto. exists (fs ++ [f]). cbn. destruct fs; [|cbn in E3; lia].
    conj; [cbn; lia|apply Forall_app; auto|]. destruct (w_h w); try (rewrite E5; reflexivity). left. destruct E5 as [E5|E5]; rewrite E5; reflexivity.
  - destruct E as (E1 & E2 & E3). conj; auto. destruct E3 as [(F1 & F2 & fs & F3 & F4 & F5)|(F1 & _)]; [|discriminate].
    left. conj; auto. exists (fs ++ [f]). rewrite F3. conj; [reflexivity|rewrite app_length; cbn; lia|apply Forall_app; auto].
  - destruct E as (_ & _ & X & _). discriminate.
  - exact E.
  - exact E.
Qed.
Lemma not_gone w b : safe b w -> 0 < w_refs w -> queue_gone w = false.
Proof. intros _ H. unfold queue_gone. destruct (w_refs w =? 0) eqn:E; [apply Z.eqb_eq in E; lia|reflexivity]. Qed.

Lemma safe_go b w : safe b w -> safe b (waiter w).
Proof.
  intros S. pose proof S as (A & B & C & D & E). unfold waiter. destruct (w_pc w) eqn:P.
  - destruct (w_conn w); unfold safe; cbn; conj; auto; try tauto; intros X; destruct (D X) as [r Y]; discriminate.
  - destruct E as (E1 & E2 & E3). unfold safe; cbn. conj; auto; [| |rewrite B; reflexivity|].
    + intros X. destruct (D X) as [r Y]. discriminate.
    + left. reflexivity.
    + destruct E3 as (fs & F1 & F2 & F3). exists fs. rewrite E1 in F3. cbn. auto.
  - destruct E as (E1 & E2 & fs & E3 & E4 & E5). destruct (w_queue w) as [|v q] eqn:Q; [exact S|].
    unfold safe; cbn. conj; auto; [intros X; destruct (D X) as [r Y]; discriminate|].
    unfold only_broken; cbn.
    assert (G : forall h, h <> HCalled -> w_h w = h -> v :: q = fs -> b = 1%nat /\ (v = 0 \/ frame_address v) /\ q = []).
    { intros h N Hh X. subst fs. cbn in E3. inversion E4; subst. conj; auto; [lia|]. destruct q; [reflexivity|cbn in E3; lia]. }
    destruct (w_h w) eqn:Hh; try (right; eapply G; [|reflexivity|exact E5]; discriminate).
    destruct E5 as [E5|E5].
    + injection E5 as -> ->. left. conj; auto. exists fs. auto.
    + destruct fs as [|f fs]; [injection E5 as -> ->; left; conj; auto; exists []; auto|]. cbn in E3. destruct fs; [|cbn in E3; lia].
      injection E5 as -> ->. inversion E4; subst. right. conj; auto. lia.
  - destruct E as (E1 & E2 & E3). rewrite B, andb_true_r.
    assert (D' : w_freed w = true -> False) by (intros X; destruct (D X) as [r Y]; discriminate).
    destruct E3 as [(-> & F2 & fs & F3 & F4 & F5)|(F1 & F2 & F3)].
    + rewrite F2. cbn [is_broken]. rewrite broken_broken. unfold safe; cbn; conj; auto; try tauto. 
    + assert (NB : is_broken v = false) by (destruct F2 as [->|F2]; [reflexivity|apply frame_not_broken, F2]).
      destruct E1 as [Hh|[Hh|[Hh|Hh]]]; rewrite Hh; rewrite ?NB; unfold safe; cbn; unfold only_broken in *; cbn; rewrite ?Hh in *; conj; auto; tauto.
  - assert (D' : w_freed w = true -> False) by (intros X; destruct (D X) as [r Y]; discriminate).
    destruct E as (E1 & E2 & E3 & E4 & E5). unfold only_broken in E5. destruct (w_queue w) as [|x q] eqn:Q; [exact S|].
    destruct E1 as [Hh|[Hh|Hh]]; rewrite Hh in E5; try discriminate. unfold safe; cbn. conj; auto; tauto.
  - assert (D' : w_freed w = true -> False) by (intros X; destruct (D X) as [r Y]; discriminate).
    destruct E as (E1 & E2). rewrite B. destruct (is_broken v || (v =? 0)); unfold safe; cbn; conj; auto; try tauto.
    + destruct (w_freed w); [exfalso; auto|]. unfold b2z in *. cbn in *. lia.
    + intros _. eauto.
  - exact S.
Qed.
Lemma safe_frame b w w' : safe b w -> w_sent w' = w_sent w -> w_pc w' = w_pc w -> w_h w' = w_h w -> w_queue w' = w_queue w ->
  w_refs w' = b2z (w_entry w') + b2z (negb (w_freed w')) -> (w_freed w' = true -> exists r, w_pc w' = WDone r) -> w_hold w' = w_hold w -> safe b w'.
Proof.
  intros (A & B & C & D & E) E1 E2 E3 E4 E5 E6 E7. unfold safe. conj; auto; [congruence|]. rewrite E2. unfold few, only_broken in *. rewrite E3, E4, E7. exact E.
Qed.
Lemma safe_step b w e : safe b w -> (b + cost e <= 1)%nat -> Forall frame_address (frames [e]) -> exists w', wstep w e = Ok w' /\ safe (b + cost e) w'.
Proof.
  intros S L F. pose proof S as (A & B & C & D & E). destruct e; cbn [cost wstep] in *; rewrite ?Nat.add_0_r in *.
  - eexists. split; [reflexivity|]. apply safe_go, S.
  - assert (b = 0)%nat by lia. subst b. destruct (w_pc w) eqn:P; try (eexists; split; [reflexivity|]; apply (safe_le 0); auto).
    destruct (w_queue w) eqn:Q; [|eexists; split; [reflexivity|]; apply (safe_le 0); auto]. rewrite B. eexists. split; [reflexivity|].
    destruct E as (E1 & E2 & fs & E3 & E4 & E5). unfold safe; cbn. conj; auto; [intros X; destruct (D X) as [r Y]; discriminate|].
    right. unfold only_broken. cbn. rewrite Q. conj; auto. destruct (w_h w) eqn:Hh; auto. exfalso. rewrite Q in E5. destruct E5 as [E5|E5]; [discriminate|destruct fs; discriminate].
  - assert (b = 0)%nat by lia. subst b. inversion F as [|? ? Ff _]; subst. destruct (w_entry w) eqn:En; [|eexists; split; [reflexivity|]; apply (safe_le 0); auto].
    assert (G : queue_gone w = false) by (apply (not_gone w 0 S); rewrite C; destruct (w_freed w); cbn; lia).
    destruct (safe_push w f S Ff G) as (x & P1 & P2 & P3 & P4). rewrite P1. cbn [obind]. eexists. split; [reflexivity|].
    pose proof P2 as (_ & _ & C' & D' & _). apply (safe_frame _ x); auto. cbn. rewrite C', P3; try rewrite En; destruct (w_freed x); cbn; lia.
  - assert (b = 0)%nat by lia. subst b. inversion F as [|? ? Ff _]; subst. destruct (0 <? w_refs w) eqn:Rf; cbn [andb]; [|eexists; split; [reflexivity|]; apply (safe_le 0); auto].
    rewrite B. cbn [negb]. apply Z.ltb_lt in Rf. destruct (safe_push w f S Ff (not_gone w 0 S Rf)) as (x & P1 & P2 & _). eauto.
  - rewrite B, andb_false_r. eauto.
  - eexists. split; [reflexivity|]. destruct (w_conn w); [|exact S]. apply (safe_frame _ w); auto.
  - destruct (w_h w) eqn:Hh; eauto. destruct (w_closing w); eauto. eexists. split; [reflexivity|].
    unfold safe, few, only_broken in *; cbn in *; rewrite Hh in *. conj; auto. destruct (w_pc w); auto; unfold up in *;
    repeat match goal with X : _ /\ _ |- _ => destruct X | X : _ \/ _ |- _ => destruct X end; try discriminate; conj; auto.
  - destruct (w_h w) eqn:Hh; eauto. eexists. split; [reflexivity|].
    unfold safe, few, only_broken in *; cbn in *; rewrite Hh in *. conj; auto. destruct (w_pc w); auto; unfold up in *;
    repeat match goal with X : _ /\ _ |- _ => destruct X | X : _ \/ _ |- _ => destruct X end; try discriminate; conj; auto.
  - destruct (w_h w) eqn:Hh; eauto. pose proof (safe_taken b w S Hh) as Hold. unfold push, queue_gone, set_h. cbn. rewrite Hold, andb_false_r.
    eexists. split; [reflexivity|]. unfold safe; cbn. conj; auto. destruct (w_pc w) eqn:P; try rewrite Hh in E; try (destruct E as [E _]; discriminate).
    + destruct E as (E1 & E2 & fs & E3 & E4 & E5). unfold up. conj; auto. exists fs. cbn. try rewrite Hh in E5. rewrite E5. auto.
    + destruct E as (E1 & E2 & [(_ & X & _)|(F1 & F2 & F3)]); [discriminate|]. unfold up, only_broken in *. try rewrite Hh in F3. cbn. conj; auto. right. rewrite F3. auto.
    + destruct E as (E1 & E2 & E3 & E4 & E5). unfold only_broken in *. try rewrite Hh in E5. cbn. rewrite E5. conj; auto.
    + destruct E as ([X|X] & _); discriminate.
    + destruct E as ([X|[X|X]] & _); discriminate.
  - destruct (w_h w) eqn:Hh; eauto; eexists; (split; [reflexivity|]); apply (safe_frame _ w); auto.
  - destruct (w_entry w) eqn:En; eauto. eexists. split; [reflexivity|]. apply (safe_frame _ w); auto. cbn. rewrite C. destruct (w_freed w); cbn; lia.
  - destruct (w_pc w) eqn:P; eauto. destruct r; eauto. destruct (w_freed w) eqn:Fr; eauto. eexists. split; [reflexivity|].
    apply (safe_frame _ w); auto; cbn; [rewrite C; destruct (w_entry w); cbn; lia|intros _; eauto].
Qed.
Definition total (es : list wev) : nat := fold_right (fun e n => (cost e + n)%nat) 0%nat es.
Lemma total_eq es : total es = (length (frames es) + timeouts es)%nat.
Proof.
  unfold timeouts. induction es as [|e es IH]; [reflexivity|]. rewrite frames_cons. change (total (e :: es)) with (cost e + total es)%nat. rewrite IH, app_length.
  destruct e; cbn; lia.
Qed.
Lemma safe_run es b w : safe b w -> (b + total es <= 1)%nat -> Forall frame_address (frames es) -> exists w', wrun w es = Ok w' /\ safe (b + total es) w'.
Proof.
  revert b w. induction es as [|e es IH]; intros b w S L F; [exists w; cbn; rewrite Nat.add_0_r; auto|].
  change (total (e :: es)) with (cost e + total es)%nat in *. rewrite frames_cons in F. apply Forall_app in F. destruct F as [F1 F2].
  destruct (safe_step b w e S) as (x & E & Sx); [lia|exact F1|]. cbn [wrun]. rewrite E. cbn [obind]. rewrite Nat.add_assoc. apply IH; auto. lia.
Qed.
Lemma safe0 : safe 0 wait0.
Proof. unfold safe; cbn. conj; auto; try discriminate. exists []. cbn. auto. Qed.
Lemma push_h w v w' : push w v = Ok w' -> w_h w' = w_h w.
Proof. unfold push. destruct (queue_gone w); [discriminate|]. intros H. apply ok_inj in H. subst. reflexivity. Qed.
Lemma lost_step w e w' : e <> ELose -> w_h w <> HLost -> wstep w e = Ok w' -> w_h w' <> HLost.
Proof.
  intros N L H. destruct e; cbn [wstep] in H; try congruence.
  - apply ok_inj in H. subst w'. unfold waiter. destruct (w_pc w); auto.
    + destruct (w_conn w); exact L.
    + discriminate.
    + destruct (w_queue w); exact L.
    + destruct (w_h w) eqn:Hh; try (destruct (is_broken v && negb (w_sent w)); cbn; rewrite Hh; discriminate); [discriminate|congruence].
    + destruct (w_queue w); exact L.
    + destruct (w_sent w); [exact L|]. destruct (is_broken v || (v =? 0)); exact L.
  - destruct (w_pc w), (w_queue w), (w_sent w); apply ok_inj in H; subst w'; exact L.
  - destruct (w_entry w); [|apply ok_inj in H; subst; exact L]. destruct (push w f) as [x|] eqn:P; [|discriminate]. cbn in H. apply ok_inj in H. subst w'.
    cbn. rewrite (push_h _ _ _ P). exact L.
  - destruct ((0 <? w_refs w) && negb (w_sent w)); [|apply ok_inj in H; subst; exact L]. rewrite (push_h _ _ _ H). exact L.
  - destruct ((0 <? w_refs w) && w_sent w); [|apply ok_inj in H; subst; exact L]. rewrite (push_h _ _ _ H). exact L.
  - apply ok_inj in H. subst. destruct (w_conn w); exact L.
  - destruct (w_h w) eqn:Hh; try (apply ok_inj in H; subst; rewrite Hh; discriminate); [|congruence].
    destruct (w_closing w); apply ok_inj in H; subst; cbn; [discriminate|rewrite Hh; discriminate].
  - destruct (w_h w) eqn:Hh; try (apply ok_inj in H; subst; rewrite Hh; discriminate); [|congruence]. rewrite (push_h _ _ _ H). discriminate.
  - destruct (w_h w) eqn:Hh; apply ok_inj in H; subst; cbn; try (rewrite Hh; discriminate); congruence.
  - destruct (w_entry w); apply ok_inj in H; subst; exact L.
  - destruct (w_pc w) as [| | | | | |r]; try (apply ok_inj in H; subst; exact L). destruct r; try (apply ok_inj in H; subst; exact L).
    destruct (w_freed w); apply ok_inj in H; subst; exact L.
Qed.
Lemma lost_run es w w' : ~ In ELose es -> w_h w <> HLost -> wrun w es = Ok w' -> w_h w' <> HLost.
Proof.
  revert w. induction es as [|e es IH]; intros w N L H; cbn [wrun] in H; [apply ok_inj in H; subst; exact L|].
  destruct (wstep w e) as [x|] eqn:E; [|discriminate]. cbn in H. apply (IH x); [intros I; apply N; right; exact I| |exact H].
  apply (lost_step w e); [intros ->; apply N; left; reflexivity|exact L|exact E].
Qed.
Lemma safe_thm es : (length (frames es) + timeouts es <= 1)%nat -> Forall frame_address (frames es) -> ~ In ELose es ->
  exists w, wrun wait0 es = Ok w /\ (idle w -> returned w \/ (w_pc w = W2 /\ w_queue w = []) \/ w_h w = HTaken).
Proof.
  intros L F NL. rewrite <- total_eq in L. destruct (safe_run es 0 wait0 safe0 L F) as (w & R & S). exists w. split; [exact R|].
  assert (NH : w_h w <> HLost) by (apply (lost_run es wait0 w NL); [discriminate|exact R]).
  destruct S as (A & B & C & D & E). unfold idle, waiter, returned. destruct (w_pc w) eqn:P; intros I; eauto.
  - apply (f_equal w_pc) in I. rewrite P in I. destruct (w_conn w); discriminate.
  - apply (f_equal w_pc) in I. rewrite P in I. discriminate.
  - destruct (w_queue w); [auto|]. apply (f_equal w_pc) in I. rewrite P in I. discriminate.
  - apply (f_equal w_pc) in I. rewrite P in I. exfalso. destruct (w_h w); cbn in I; try discriminate; destruct (is_broken v && negb (w_sent w)); discriminate.
  - destruct E as ([H|[H|H]] & _ & _ & _ & E5); [auto|contradiction|]. unfold only_broken in E5. rewrite H in E5. rewrite E5 in I.
    apply (f_equal w_pc) in I. rewrite P in I. discriminate.
  - apply (f_equal w_pc) in I. rewrite P, B in I. destruct (is_broken v || (v =? 0)); discriminate.
Qed.

Lemma push_pc w v w' : push w v = Ok w' -> w_pc w' = w_pc w /\ w_sent w' = w_sent w.
Proof. unfold push. destruct (queue_gone w); [discriminate|]. intros H. apply ok_inj in H. subst. auto. Qed.
Lemma has_step w e w' f : frame_address f -> w_sent w = false -> has w f -> wstep w e = Ok w' -> w_sent w' = false /\ has w' f.
Proof.
  intros A B G H. destruct A as [A1 A2].
  assert (NB : is_broken f = false) by (apply frame_not_broken; split; assumption).
  destruct e; cbn [wstep] in H.
  - apply ok_inj in H. subst w'. unfold waiter, has in *. destruct G as [G|[G|[G|G]]]; rewrite G in *.
    + rewrite NB. cbn [andb]. destruct (w_h w); cbn; split; auto.
    + destruct (w_queue w); cbn; auto.
    + rewrite B, NB. apply Z.eqb_neq in A1. rewrite A1. cbn. auto.
    + auto.
  - assert (w' = w) as -> by (destruct G as [G|[G|[G|G]]]; rewrite G in H; destruct (w_queue w); apply ok_inj in H; auto). auto.
  - destruct (w_entry w); [|apply ok_inj in H; subst; auto]. destruct (push w f0) as [x|] eqn:P; [|discriminate]. cbn in H. apply ok_inj in H. subst w'.
    apply push_pc in P. destruct P as [P1 P2]. unfold has in *. cbn. rewrite P1, P2. auto.
  - destruct ((0 <? w_refs w) && negb (w_sent w)); [|apply ok_inj in H; subst; auto]. apply push_pc in H. destruct H as [P1 P2]. unfold has in *. rewrite P1, P2. auto.
  - destruct ((0 <? w_refs w) && w_sent w); [|apply ok_inj in H; subst; auto]. apply push_pc in H. destruct H as [P1 P2]. unfold has in *. rewrite P1, P2. auto.
  - apply ok_inj in H. subst. destruct (w_conn w); auto.
  - destruct (w_h w); try (apply ok_inj in H; subst; auto; fail). destruct (w_closing w); apply ok_inj in H; subst; auto.
  - destruct (w_h w); apply ok_inj in H; subst; auto.
  - destruct (w_h w); try (apply ok_inj in H; subst; auto; fail). apply push_pc in H. destruct H as [P1 P2]. unfold has in *. rewrite P1, P2. cbn. auto.
  - destruct (w_h w); apply ok_inj in H; subst; auto.
  - destruct (w_entry w); apply ok_inj in H; subst; auto.
  - assert (w' = w) as -> by (destruct G as [G|[G|[G|G]]]; rewrite G in H; try (apply ok_inj in H; auto; fail); destruct f; [congruence|apply ok_inj in H; auto|apply ok_inj in H; auto]). auto.
Qed.
Lemma sent_same w e w' : wstep w e = Ok w' -> w_sent w = false -> w_sent w' = false.
Proof.
  intros H B. destruct e; cbn [wstep] in H.
  - apply ok_inj in H. subst. unfold waiter. destruct (w_pc w); cbn; auto; [destruct (w_conn w); auto|destruct (w_queue w); auto| |destruct (w_queue w); auto|].
    + destruct (w_h w); try destruct (is_broken v && negb (w_sent w)); auto.
    + rewrite B. destruct (is_broken v || (v =? 0)); reflexivity.
  - destruct (w_pc w); try (apply ok_inj in H; subst; auto; fail). destruct (w_queue w); [|apply ok_inj in H; subst; auto]. rewrite B in H. apply ok_inj in H. subst. exact B.
  - destruct (w_entry w); [|apply ok_inj in H; subst; auto]. destruct (push w f) as [x|] eqn:P; [|discriminate]. cbn in H. apply ok_inj in H. subst w'. apply push_pc in P. cbn. destruct P as [_ ->]. exact B.
  - destruct ((0 <? w_refs w) && negb (w_sent w)); [|apply ok_inj in H; subst; auto]. apply push_pc in H. destruct H as [_ ->]. exact B.
  - destruct ((0 <? w_refs w) && w_sent w); [|apply ok_inj in H; subst; auto]. apply push_pc in H. destruct H as [_ ->]. exact B.
  - apply ok_inj in H. subst. destruct (w_conn w); auto.
  - destruct (w_h w); try (apply ok_inj in H; subst; auto; fail). destruct (w_closing w); apply ok_inj in H; subst; auto.
  - destruct (w_h w); apply ok_inj in H; subst; auto.
  - destruct (w_h w); try (apply ok_inj in H; subst; auto; fail). apply push_pc in H. destruct H as [_ ->]. exact B.
  - destruct (w_h w); apply ok_inj in H; subst; auto.
  - destruct (w_entry w); apply ok_inj in H; subst; auto.
  - destruct (w_pc w) as [| | | | | |r]; try (apply ok_inj in H; subst; auto; fail). destruct r; try (apply ok_inj in H; subst; auto; fail). destruct (w_freed w); apply ok_inj in H; subst; auto.
Qed.
Lemma kept_thm es w f more w' r : wrun wait0 es = Ok w -> frame_address f -> has w f -> wrun w more = Ok w' -> w_pc w' = WDone r -> r = f.
Proof.
  intros R A G M P.
  assert (B : w_sent w = false).
  { revert R. generalize wait0 (eq_refl : w_sent wait0 = false). induction es as [|e es IH]; intros s B R; cbn [wrun] in R; [apply ok_inj in R; subst; exact B|].
    destruct (wstep s e) as [x|] eqn:E; [|discriminate]. cbn in R. apply (IH x); [|exact R]. apply (sent_same s e); auto. }
  clear R. revert w B G M. induction more as [|e more IH]; intros w B G M; cbn [wrun] in M.
  - apply ok_inj in M. subst w'. unfold has in G. rewrite P in G. destruct G as [G|[G|[G|G]]]; try discriminate. injection G; auto.
  - destruct (wstep w e) as [x|] eqn:E; [|discriminate]. cbn in M. destruct (has_step w e x f A B G E) as [B' G']. apply (IH x); auto.
Qed.
