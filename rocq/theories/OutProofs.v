(** Proofs about the requesting side of a channel. *)
From Verif Require Import Base CodecModel OutModel OutSpec.

Ltac conj := repeat match goal with |- _ /\ _ => split end.

Lemma snoc_split : forall (A : Type) (l : list A) o a x b,
  l ++ [o] = a ++ x :: b ->
  (b = [] /\ x = o /\ a = l) \/ exists b', b = b' ++ [o] /\ l = a ++ x :: b'.
Proof.
  intros A l o a x b H.
  destruct (exists_last (l := x :: b)) as (b' & y & E); [discriminate|].
  rewrite E, app_assoc in H.
  apply app_inj_tail in H as [H1 H2]. subst y.
  destruct b' as [|z b'].
  - cbn in E. injection E as -> ->. left. rewrite app_nil_r in H1. auto.
  - cbn in E. injection E as -> ->. right. exists b'. auto.
Qed.

Lemma snoc_split2 : forall (A : Type) (l : list A) o a b,
  l ++ [o] = a ++ b -> (b = [] /\ a = l ++ [o]) \/ exists b', b = b' ++ [o] /\ l = a ++ b'.
Proof.
  intros A l o a b H. destruct b as [|x b].
  - left. rewrite app_nil_r in H. auto.
  - right. apply snoc_split in H as [(-> & -> & ->)|(b' & -> & ->)].
    + exists []. split; auto. now rewrite app_nil_r.
    + exists (x :: b'). split; auto.
Qed.

Lemma pending_snoc : forall l o, pending (l ++ [o]) = pstep (pending l) o.
Proof. intros. unfold pending. now rewrite fold_left_app. Qed.

Lemma find_item_In : forall l n, find_item l n = true <-> In n l.
Proof.
  intros. unfold find_item. rewrite existsb_exists. split.
  - intros (x & H & E). apply Z.eqb_eq in E. now subst.
  - intros. exists n. split; auto. apply Z.eqb_refl.
Qed.

(** A paused transfer that is resumed was started before. *)
Definition resumed_known (l : list oobs) : Prop :=
  forall a b id n more ok, l = a ++ OQueued id n more true ok :: b ->
    exists id' more' ok', In (OQueued id' n more' false ok') a.

Lemma resumed_known_snoc : forall l o, resumed_known (l ++ [o]) -> resumed_known l.
Proof.
  intros l o H a b id n more ok E. subst l.
  apply (H a (b ++ [o]) id n more ok). now rewrite <- app_assoc.
Qed.

Definition started (l : list oobs) (n : Z) : Prop := exists id more ok, In (OQueued id n more false ok) l.

Lemma started_app : forall a b n, started a n -> started (a ++ b) n.
Proof. intros a b n (i & m & k & H). exists i, m, k. apply in_or_app. auto. Qed.

(** Part of the invariant that does not need anything about resumed transfers. *)
Record oinv (c : ochan) : Prop := mkOI {
  oi_pending : pending (oc_log c) = mkP (0 <=? oc_more c) (oc_out c);
  oi_more : oc_more c = -1 \/ 0 <= oc_more c;
  oi_next : -1 <= oc_next c < two31;
  oi_lt : oc_more c <= oc_next c;
  oi_started : forall n, started (oc_log c) n -> 0 <= n <= oc_next c;
  oi_closed : In OClosed (oc_log c) -> oc_up c = false;
  oi_silent : silent_after_close (oc_log c)
}.

Lemma oinv0 : oinv oc0.
Proof.
  constructor; cbn [oc_log oc_more oc_out oc_next oc_up oc0].
  - reflexivity.
  - auto.
  - unfold two31. lia.
  - lia.
  - intros n (i & m & k & []).
  - intros [].
  - intros a b H. destruct a; discriminate.
Qed.

Lemma started_snoc : forall l o n, started (l ++ [o]) n ->
  started l n \/ exists id more ok, o = OQueued id n more false ok.
Proof.
  intros l o n (i & m & k & H). apply in_app_or in H as [H|[H|[]]].
  - left. exists i, m, k. auto.
  - right. exists i, m, k. auto.
Qed.

Lemma silent_snoc : forall l o up, silent_after_close l ->
  (In OClosed l -> up = false) -> (forall t n f, o = ODeliver t n f -> up = true) ->
  silent_after_close (l ++ [o]).
Proof.
  intros l o up H Hc Ho a b E t n f I.
  apply snoc_split in E as [(-> & E & ->)|(b' & -> & ->)].
  - destruct I.
  - apply in_app_or in I as [I|[I|[]]].
    + eapply H; eauto.
    + rewrite Hc in Ho. 2: apply in_or_app; right; left; auto.
      specialize (Ho _ _ _ I). discriminate.
Qed.

Lemma get_next_ok : forall next n, -1 <= next -> get_next_msg_no next = Ok n -> n = next + 1 /\ n < two31.
Proof.
  intros next n H. unfold get_next_msg_no.
  destruct (Z.leb_spec two31 (next + 1)); [discriminate|].
  destruct (Z.eqb_spec (next + 1) (-1)); intros E; inversion E; subst; lia.
Qed.

(** What sending does. *)
Lemma send_go_cases : forall c q c', oinv c -> send_go c q = Ok c' ->
  exists n next more' out,
    c' = olog (oset c next more' out)
              (OQueued (q_id q) n (q_more q) (match q_resume q with Some _ => true | None => false end) (q_ok q)) /\
    oc_next c <= next < two31 /\ (more' = -1 \/ 0 <= more') /\ more' <= next /\
    (0 <=? more') = q_more q /\ (q_more q = true -> q_resume q = None -> more' = n) /\
    match q_resume q with
    | Some m => n = m /\ out = (if in_dec Z.eq_dec n (oc_out c) then oc_out c else oc_out c ++ [n])
    | None =>
      if 0 <=? oc_more c then n = oc_more c /\ next = oc_next c /\ out = oc_out c
      else n = oc_next c + 1 /\ next = n /\ out = oc_out c ++ [n]
    end.
Proof.
  intros c q c' I H. destruct I as [Ip Im In' Il Is _ _].
  unfold send_go in H.
  destruct (Z.leb_spec 0 (oc_more c)) as [Hm|Hm].
  - cbn [obind] in H.
    assert (Em : (oc_more c =? -1) = false) by lia. rewrite Em, andb_false_r in H.
    destruct (q_resume q) as [m|] eqn:Er; inversion H; subst c'; clear H.
    + exists m, (oc_next c), (if q_more q then oc_more c else -1),
             (if in_dec Z.eq_dec m (oc_out c) then oc_out c else oc_out c ++ [m]).
      conj; auto; try lia; try (destruct (q_more q); cbn; lia);
        try (intros -> X; first [discriminate X | reflexivity]).
      unfold olog, oset. cbn. f_equal.
      * destruct (q_more q); reflexivity.
      * destruct (in_dec Z.eq_dec m (oc_out c)) as [i|i].
        -- apply find_item_In in i. rewrite i. reflexivity.
        -- destruct (find_item (oc_out c) m) eqn:E; auto. apply find_item_In in E. contradiction.
    + exists (oc_more c), (oc_next c), (if q_more q then oc_more c else -1), (oc_out c).
      conj; auto; try lia; try (destruct (q_more q); cbn; lia);
        try (intros -> X; first [discriminate X | reflexivity]).
      unfold olog, oset. cbn. f_equal.
      destruct (q_more q); reflexivity.
  - assert (oc_more c = -1) by lia.
    destruct (get_next_msg_no (oc_next c)) as [n|] eqn:En; [|discriminate].
    apply get_next_ok in En; [|lia]. destruct En as [En1 En2].
    cbn [obind andb] in H. rewrite H0, Z.eqb_refl, andb_true_r in H.
    destruct (q_resume q) as [m|] eqn:Er; inversion H; subst c'; clear H.
    + exists m, n, (if q_more q then n else -1),
             (if in_dec Z.eq_dec m (oc_out c) then oc_out c else oc_out c ++ [m]).
      conj; auto; try lia; try (destruct (q_more q); cbn; lia);
        try (intros -> X; first [discriminate X | reflexivity]).
      unfold olog, oset. cbn. f_equal.
      destruct (in_dec Z.eq_dec m (oc_out c)) as [i|i].
      * apply find_item_In in i. rewrite i. reflexivity.
      * destruct (find_item (oc_out c) m) eqn:E; auto. apply find_item_In in E. contradiction.
    + exists n, n, (if q_more q then n else -1), (oc_out c ++ [n]).
      conj; auto; try lia; try (destruct (q_more q); cbn; lia);
        try (intros -> X; first [discriminate X | reflexivity]).
Qed.

Lemma oinv_same : forall c d, oinv c -> oc_log d = oc_log c -> oc_more d = oc_more c ->
  oc_out d = oc_out c -> oc_next d = oc_next c -> (oc_up c = false -> oc_up d = false) -> oinv d.
Proof.
  intros c d [Ip Im In' Il Is Ic Iq] E1 E2 E3 E4 E5.
  constructor; rewrite ?E1, ?E2, ?E3, ?E4; auto.
Qed.

Lemma oinv_quiet : forall c o, oinv c ->
  pstep (pending (oc_log c)) o = pending (oc_log c) ->
  (forall id n m ok, o <> OQueued id n m false ok) ->
  (o = OClosed -> oc_up c = false) -> (forall t n f, o = ODeliver t n f -> oc_up c = true) ->
  oinv (olog c o).
Proof.
  intros c o [Ip Im In' Il Is Ic Iq] E1 E2 E3 E4.
  constructor; cbn [olog oc_log oc_more oc_out oc_next oc_up]; auto.
  - now rewrite pending_snoc, E1.
  - intros n S. apply started_snoc in S as [S|(i & m & k & S)]; auto. exfalso. eapply E2; eauto.
  - intros I. apply in_app_or in I as [I|[I|[]]]; auto.
  - eapply silent_snoc with (up := oc_up c); eauto.
Qed.

Lemma oinv_send_go : forall c q c', oinv c -> send_go c q = Ok c' -> oinv c'.
Proof.
  intros c q c' I H. pose proof I as I0. destruct I0 as [Ip Im In' Il Is Ic Iq].
  destruct (send_go_cases _ _ _ I H) as (n & next & more' & out & -> & Hn & Hm & Hl & Ho & Hs' & Hc).
  constructor; cbn [olog oset oc_log oc_more oc_out oc_next oc_up]; auto; try lia.
  - rewrite pending_snoc, Ip. cbn [pstep p_open p_msgs]. rewrite <- Ho. f_equal.
    destruct (q_resume q) as [m|].
    + destruct Hc as [-> ->]. reflexivity.
    + destruct (0 <=? oc_more c).
      * destruct Hc as (-> & -> & ->). reflexivity.
      * destruct Hc as (-> & -> & ->). reflexivity.
  - intros k S. apply started_snoc in S as [S|(i & m & o & S)].
    + specialize (Is _ S). lia.
    + destruct (q_resume q); inversion S; subst.
      destruct (Z.leb_spec 0 (oc_more c)); destruct Hc as (? & ? & ?); subst; lia.
  - intros J. apply in_app_or in J as [J|[J|[]]]; auto. discriminate.
  - eapply silent_snoc with (up := oc_up c); eauto. intros; discriminate.
Qed.

Lemma oinv_send_check : forall c q c', oinv c -> send_check c q = Ok c' -> oinv c'.
Proof.
  intros c q c' I H. unfold send_check in H.
  destruct ((0 <? oc_limit c) && (oc_limit c <=? zlen (oc_out c))).
  - destruct (oc_fail c); inversion H; subst.
    + apply oinv_quiet; auto; intros; discriminate.
    + eapply oinv_same; eauto.
  - eapply oinv_send_go; eauto.
Qed.

Definition op_ok (o : oop) : Prop :=
  match o with
  | OpReply _ n _ _ => n <> -1
  | _ => True
  end.

Lemma pstep_nonfinal : forall p t n, pstep p (ODeliver t n false) = p.
Proof. reflexivity. Qed.

(** What a reply does. *)
Lemma recv_reply_cases : forall c t n more empty, n <> -1 ->
  (recv_reply c t n more empty = olog (odown c) OClosed) \/
  (exists r, oc_out c = n :: r /\ recv_reply c t n more empty = olog c (ODeliver t n false)) \/
  (exists r w k, oc_out c = n :: r /\
     recv_reply c t n more empty =
     olog (othreads (oset c (oc_next c) (oc_more c) r) w k) (ODeliver t n true)).
Proof.
  intros c t n more empty Hn. unfold recv_reply, next_expected_reply.
  destruct (oc_out c) as [|m r] eqn:Eo.
  - destruct (Z.eqb_spec (-1) n); [lia|]. cbn. auto.
  - destruct (Z.eqb_spec m n) as [->|]; [|cbn; auto]. cbn [negb].
    destruct (ftype_eqb t TNUL && (negb empty || more)); [auto|].
    right. unfold remove_first_outstanding. rewrite Eo, Z.eqb_refl. cbn [tl].
    match goal with |- context [if ?f then _ else _] => destruct f end.
    + right. cbn [oset oc_waiting].
      destruct (oc_waiting c) as [|q w] eqn:Ew.
      * exists r, [], (oc_woken c). split; auto. unfold oset, othreads, olog. cbn. now rewrite Ew.
      * exists r, w, (oc_woken c ++ [q]). split; auto.
    + left. exists r. auto.
Qed.

Lemma oinv_step : forall c o c', oinv c -> op_ok o -> ostep c o = Ok c' -> oinv c'.
Proof.
  intros c o c' I Ho H. destruct o as [q|i|t n more empty|l f|]; cbn [ostep op_ok] in *.
  - unfold send_msg in H. destruct (oc_up c).
    + eapply oinv_send_check; eauto.
    + inversion H. subst. apply oinv_quiet; auto; intros; discriminate.
  - destruct (nth_error (oc_woken c) i) as [q|].
    + eapply oinv_send_check; [|eauto]. eapply oinv_same; eauto.
    + inversion H; now subst.
  - inversion H. destruct (oc_up c) eqn:Eu; subst; auto.
    destruct (recv_reply_cases c t n more empty Ho) as [E|[(r & Eo & E)|(r & w & k & Eo & E)]]; rewrite E.
    + apply oinv_quiet; auto; try (intros; discriminate).
      eapply oinv_same; eauto.
    + apply oinv_quiet; auto; try (intros; discriminate).
    + destruct I as [Ip Im In' Il Is Ic Iq].
      constructor; cbn [othreads olog oset oc_log oc_more oc_out oc_next oc_up]; auto; try lia.
      * rewrite pending_snoc, Ip, Eo. reflexivity.
      * intros k' S. apply started_snoc in S as [S|(? & ? & ? & S)]; auto. discriminate.
      * intros J. apply in_app_or in J as [J|[J|[]]]; auto. discriminate.
      * eapply silent_snoc with (up := oc_up c); eauto.
  - inversion H. subst. unfold set_limit. destruct (l <? 0); auto. eapply oinv_same; eauto.
  - inversion H. subst. eapply oinv_same; eauto.
Qed.

(** Each step adds at most one observation. *)
Lemma send_check_log : forall c q c', send_check c q = Ok c' ->
  exists l, oc_log c' = oc_log c ++ l /\ (l = [] \/ (exists o, l = [o])).
Proof.
  intros c q c' H. unfold send_check in H.
  destruct ((0 <? oc_limit c) && (oc_limit c <=? zlen (oc_out c))).
  - destruct (oc_fail c); inversion H; subst.
    + exists [ORefused (q_id q)]. split; eauto.
    + exists []. split; auto. symmetry. apply app_nil_r.
  - unfold send_go in H.
    match type of H with obind ?m _ = _ => destruct m as [[a b]|] end; [|discriminate].
    cbn [obind] in H.
    destruct (match q_resume q with Some m => _ | None => _ end).
    inversion H. subst. eexists. split; [reflexivity|]. right. eexists. reflexivity.
Qed.

Lemma ostep_log : forall c o c', op_ok o -> ostep c o = Ok c' ->
  oc_log c' = oc_log c \/ exists x, oc_log c' = oc_log c ++ [x].
Proof.
  intros c o c' Ho H.
  assert (S : forall d q, send_check d q = Ok c' -> oc_log d = oc_log c ->
              oc_log c' = oc_log c \/ exists x, oc_log c' = oc_log c ++ [x]).
  { intros d q Hs E. apply send_check_log in Hs as (l & El & [->|(x & ->)]); rewrite El, E.
    - left. apply app_nil_r.
    - right. eauto. }
  destruct o as [q|i|t n more empty|l f|]; cbn [ostep op_ok] in *.
  - unfold send_msg in H. destruct (oc_up c); eauto.
    inversion H. subst. right. cbn. eauto.
  - destruct (nth_error (oc_woken c) i); eauto. inversion H. auto.
  - inversion H. destruct (oc_up c); auto.
    destruct (recv_reply_cases c t n more empty Ho) as [E|[(r & Eo & E)|(r & w & k & Eo & E)]];
      rewrite E; cbn; eauto.
  - inversion H. subst. unfold set_limit. destruct (l <? 0); auto.
  - inversion H. auto.
Qed.

Lemma ostep_resumed : forall c o c', op_ok o -> ostep c o = Ok c' -> resumed_known (oc_log c') -> resumed_known (oc_log c).
Proof.
  intros c o c' Ho H R. destruct (ostep_log _ _ _ Ho H) as [E|(x & E)]; rewrite E in R; auto.
  eapply resumed_known_snoc; eauto.
Qed.

Lemma orun_app : forall a b c, orun c (a ++ b) = let! d := orun c a in orun d b.
Proof.
  induction a as [|o a IH]; intros b c; cbn; auto.
  destruct (ostep c o) as [d|]; cbn; auto.
Qed.

Lemma orun_snoc : forall a o c c', orun c (a ++ [o]) = Ok c' ->
  exists d, orun c a = Ok d /\ ostep d o = Ok c'.
Proof.
  intros a o c c' H. rewrite orun_app in H.
  destruct (orun c a) as [d|]; [|discriminate]. cbn in H.
  destruct (ostep d o) as [e|] eqn:E; [|discriminate]. cbn in H. inversion H. subst. eauto.
Qed.

Lemma oinv_run : forall os c, Forall op_ok os -> orun oc0 os = Ok c -> oinv c.
Proof.
  induction os as [|o os IH] using rev_ind; intros c W H.
  - inversion H. apply oinv0.
  - apply Forall_app in W as [W1 W2]. inversion W2; subst.
    apply orun_snoc in H as (d & HA & HB).
    eapply oinv_step; eauto.
Qed.

(** ** Message numbers *)

(** Whatever is waiting was started before. *)
Lemma pending_started : forall l, resumed_known l -> forall n, In n (p_msgs (pending l)) -> started l n.
Proof.
  induction l as [|o l IH] using rev_ind; intros R n I; [destruct I|].
  rewrite pending_snoc in I.
  assert (R' := resumed_known_snoc _ _ R).
  assert (K : In n (p_msgs (pending l)) -> started (l ++ [o]) n).
  { intros J. apply started_app. auto. }
  destruct o as [id m more resumed ok|id|t m final|]; cbn [pstep p_msgs] in I; auto.
  - destruct resumed.
    + destruct (in_dec Z.eq_dec m (p_msgs (pending l))); auto.
      apply in_app_or in I as [I|[I|[]]]; auto. subst m.
      destruct (R l [] id n more ok) as (id' & m' & k' & J); [reflexivity|].
      exists id', m', k'. apply in_or_app. auto.
    + destruct (p_open (pending l)); auto.
      apply in_app_or in I as [I|[I|[]]]; auto. subst m.
      exists id, more, ok. apply in_or_app. right. now left.
  - destruct final; auto. cbn [p_msgs] in I.
    destruct (p_msgs (pending l)) as [|x r]; cbn in I; [tauto|]. apply K. now right.
Qed.

Lemma oinv_resumed_fresh : forall os c, Forall op_ok os -> orun oc0 os = Ok c ->
  resumed_known (oc_log c) -> fresh_numbers (oc_log c).
Proof.
  induction os as [|o os IH] using rev_ind; intros c W H R.
  - inversion H. subst. intros a b id n more ok E. destruct a; discriminate.
  - apply Forall_app in W as [W1 W2]. inversion W2; subst.
    apply orun_snoc in H as (d & H1 & H2').
    assert (Id := oinv_run _ _ W1 H1).
    assert (Rd := ostep_resumed _ _ _ H2 H2' R).
    specialize (IH _ W1 H1 Rd).
    assert (S : forall e q, send_check e q = Ok c -> oinv e -> oc_log e = oc_log d -> fresh_numbers (oc_log c)).
    { intros e q Hs Ie Ee. unfold send_check in Hs.
      destruct ((0 <? oc_limit e) && (oc_limit e <=? zlen (oc_out e))).
      - destruct (oc_fail e); inversion Hs; subst; cbn [olog oc_log othreads]; rewrite Ee; auto.
        intros a b id n more ok E. apply snoc_split in E as [(-> & E & ->)|(b' & -> & E)]; [discriminate|].
        eapply IH; eauto.
      - destruct (send_go_cases _ _ _ Ie Hs) as (n & next & more' & out & -> & Hn & Hm & Hl & Ho & Hs' & Hc).
        cbn [olog oset oc_log]. rewrite Ee.
        intros a b id k more ok E. apply snoc_split in E as [(-> & E & ->)|(b' & -> & E)]; [|eapply IH; eauto].
        injection E as -> -> -> Er ->. intros Op. rewrite <- Ee in Op. rewrite (oi_pending _ Ie) in Op. cbn [p_open] in Op.
        destruct (q_resume q); [discriminate|]. rewrite Op in Hc. destruct Hc as (-> & -> & ->).
        destruct Ie as [Ip Im In' Il Is _ _]. split; [lia|].
        intros J. rewrite <- Ee in J. apply pending_started in J; [|now rewrite Ee].
        apply Is in J. lia. }
    destruct o as [q|i|t n more empty|l f|]; cbn [ostep op_ok] in *.
    + unfold send_msg in H2'. destruct (oc_up d); [eapply S; eauto|].
      inversion H2'. subst. cbn. intros a b id n more ok E.
      apply snoc_split in E as [(-> & E & ->)|(b' & -> & E)]; [discriminate|]. eapply IH; eauto.
    + destruct (nth_error (oc_woken d) i); [|inversion H2'; now subst].
      eapply S; eauto. eapply oinv_same; eauto.
    + inversion H2'. destruct (oc_up d); subst; auto.
      destruct (recv_reply_cases d t n more empty H2) as [E|[(r & Eo & E)|(r & w & k & Eo & E)]];
        rewrite E; cbn; intros a b id m mo ok E';
        apply snoc_split in E' as [(-> & E' & ->)|(b' & -> & E')]; try discriminate; eapply IH; eauto.
    + inversion H2'. subst. unfold set_limit. destruct (l <? 0); auto.
    + inversion H2'. auto.
Qed.

(** The number of the message being sent is the one of its last piece. *)
Definition not_queued (o : oobs) : Prop := forall i k mo r ok, o <> OQueued i k mo r ok.
Definition open_number (c : ochan) : Prop :=
  forall a m id n ok, oc_log c = a ++ OQueued id n true false ok :: m ->
    Forall not_queued m -> oc_more c = n.

Lemma open_number_quiet : forall c d o, open_number c -> not_queued o ->
  oc_log d = oc_log c ++ [o] -> oc_more d = oc_more c -> open_number d.
Proof.
  intros c d o H Ho E1 E2 a m id n ok E F. rewrite E1 in E. rewrite E2.
  apply snoc_split in E as [(-> & E & ->)|(b' & -> & E)].
  - exfalso. eapply Ho. eauto.
  - apply Forall_app in F as [F _]. eapply H; eauto.
Qed.

Lemma open_number_same : forall c d, open_number c -> oc_log d = oc_log c -> oc_more d = oc_more c -> open_number d.
Proof. intros c d H E1 E2 a m id n ok E F. rewrite E1 in E. rewrite E2. eauto. Qed.

Lemma orun_same_number : forall os c, Forall op_ok os -> orun oc0 os = Ok c ->
  open_number c /\ same_number (oc_log c).
Proof.
  induction os as [|o os IH] using rev_ind; intros c W H.
  - inversion H. subst. split.
    + intros a m id n ok E. destruct a; discriminate.
    + intros a m b id n more ok id' n' more' ok' E. destruct a; discriminate.
  - apply Forall_app in W as [W1 W2]. apply Forall_inv in W2.
    apply orun_snoc in H as (d & H1 & H2).
    assert (Id := oinv_run _ _ W1 H1). destruct (IH _ W1 H1) as [ON SN]. clear IH.
    assert (Q : forall l x, same_number l -> (forall i k mo ok, x <> OQueued i k mo false ok) -> same_number (l ++ [x])).
    { intros l x S N a m b id n more ok id' n' more' ok' E.
      rewrite app_comm_cons, app_assoc in E.
      apply snoc_split in E as [(-> & E & Ea)|(b' & -> & E)].
      - exfalso. eapply N. symmetry. exact E.
      - rewrite <- app_assoc in E. eapply S; eauto. }
    assert (S : forall e q, send_check e q = Ok c -> oinv e -> oc_log e = oc_log d -> oc_more e = oc_more d ->
                open_number c /\ same_number (oc_log c)).
    { intros e q Hs Ie E1 E2. unfold send_check in Hs.
      destruct ((0 <? oc_limit e) && (oc_limit e <=? zlen (oc_out e))).
      - destruct (oc_fail e); inversion Hs; subst; cbn [olog oc_log othreads].
        + split.
          * eapply open_number_quiet with (c := d) (o := ORefused (q_id q)); auto; cbn; try congruence; intros ? ? ? ? ?; discriminate.
          * rewrite E1. apply Q; auto. intros; discriminate.
        + rewrite E1. split; auto. eapply open_number_same; eauto.
      - destruct (send_go_cases _ _ _ Ie Hs) as (n & next & more' & out & -> & Hn & Hm & Hl & Ho & Hs' & Hc).
        cbn [olog oset oc_log]. rewrite E1. split.
        + intros a m id k ok E F. cbn [olog oset oc_log oc_more] in *. rewrite E1 in E.
          apply snoc_split in E as [(-> & E & ->)|(b' & -> & E)].
          * injection E as -> -> E3 E4 ->. apply Hs'; auto. destruct (q_resume q); congruence.
          * apply Forall_app in F as [_ F]. apply Forall_inv in F. exfalso. eapply F. reflexivity.
        + intros a m b id k more ok id' n' mo' ok' E.
          rewrite app_comm_cons, app_assoc in E.
          apply snoc_split in E as [(-> & E & Ea)|(b' & -> & E)].
          * injection E as -> -> E3 E4 ->. intros -> F.
            destruct (q_resume q); [discriminate|].
            assert (EM : oc_more d = k).
            { eapply ON; [symmetry; exact Ea|]. apply Forall_forall. intros x J i j mo r okk. apply F. exact J. }
            rewrite E2 in Hc. destruct (Z.leb_spec 0 (oc_more d)).
            -- destruct Hc as (-> & _). auto.
            -- assert (P := oi_started _ Id k). assert (0 <= k <= oc_next d).
               { apply P. exists id, true, ok. rewrite <- Ea. apply in_or_app. right. now left. }
               lia.
          * rewrite <- app_assoc in E. eapply SN; eauto. }
    destruct o as [q|i|t n more empty|l f|]; cbn [ostep op_ok] in *.
    + unfold send_msg in H2. destruct (oc_up d); [eapply S; eauto|].
      inversion H2. subst. split.
      * eapply open_number_quiet with (c := d) (o := ORefused (q_id q)); eauto. intros ? ? ? ? ?; discriminate.
      * cbn. apply Q; auto. intros; discriminate.
    + destruct (nth_error (oc_woken d) i); [|inversion H2; now subst].
      eapply S; eauto. eapply oinv_same; eauto.
    + inversion H2. destruct (oc_up d); subst; auto.
      destruct (recv_reply_cases d t n more empty W2) as [E|[(r & Eo & E)|(r & w & k & Eo & E)]];
        rewrite E; (split;
        [eapply open_number_quiet with (c := d); eauto; try reflexivity; intros ? ? ? ? ?; discriminate
        | cbn; apply Q; auto; intros; discriminate]).
    + inversion H2. subst. unfold set_limit. destruct (l <? 0); auto.
    + inversion H2. subst. split; auto.
Qed.

(** ** Replies *)
Lemma oldest_snoc : forall l o, oldest_answered l ->
  (forall t n f, o = ODeliver t n f -> exists r, p_msgs (pending l) = n :: r) -> oldest_answered (l ++ [o]).
Proof.
  intros l o H Ho a b t n f E. apply snoc_split in E as [(-> & E & ->)|(b' & -> & E)]; eauto.
Qed.

Lemma orun_oldest : forall os c, Forall op_ok os -> orun oc0 os = Ok c -> oldest_answered (oc_log c).
Proof.
  induction os as [|o os IH] using rev_ind; intros c W H.
  - inversion H. intros a b t n f E. destruct a; discriminate.
  - apply Forall_app in W as [W1 W2]. inversion W2; subst.
    apply orun_snoc in H as (d & H1 & H2').
    assert (Id := oinv_run _ _ W1 H1). specialize (IH _ W1 H1).
    assert (S : forall e q, send_check e q = Ok c -> oc_log e = oc_log d -> oldest_answered (oc_log c)).
    { intros e q Hs Ee. unfold send_check in Hs.
      destruct ((0 <? oc_limit e) && (oc_limit e <=? zlen (oc_out e))).
      - destruct (oc_fail e); inversion Hs; subst; cbn [olog oc_log othreads]; rewrite Ee; auto.
        apply oldest_snoc; auto. intros; discriminate.
      - unfold send_go in Hs.
        match type of Hs with obind ?m _ = _ => destruct m as [[x y]|] end; [|discriminate].
        cbn [obind] in Hs. destruct (match q_resume q with Some m => _ | None => _ end).
        inversion Hs. subst. cbn [olog oset oc_log]. rewrite Ee. apply oldest_snoc; auto. intros; discriminate. }
    destruct o as [q|i|t n more empty|l f|]; cbn [ostep op_ok] in *.
    + unfold send_msg in H2'. destruct (oc_up d); [eapply S; eauto|].
      inversion H2'. subst. cbn. apply oldest_snoc; auto. intros; discriminate.
    + destruct (nth_error (oc_woken d) i); [|inversion H2'; now subst].
      eapply S; eauto.
    + inversion H2'. destruct (oc_up d); subst; auto.
      destruct (recv_reply_cases d t n more empty H2) as [E|[(r & Eo & E)|(r & w & k & Eo & E)]];
        rewrite E; cbn; apply oldest_snoc; auto; try (intros; discriminate);
        intros t' n' f' E'; injection E' as <- <- <-; exists r; rewrite (oi_pending _ Id), Eo; reflexivity.
    + inversion H2'. subst. unfold set_limit. destruct (l <? 0); auto.
    + inversion H2'. auto.
Qed.

(** A reply that is not for the oldest message closes the connection; one that
    is (and is well formed) is delivered. *)
Lemma reply_decision : forall os c t n more empty, Forall op_ok os -> orun oc0 os = Ok c ->
  n <> -1 -> oc_up c = true ->
  let c' := recv_reply c t n more empty in
  (exists r, p_msgs (pending (oc_log c)) = n :: r /\ (t = TNUL -> more = false /\ empty = true) /\
             exists final, oc_log c' = oc_log c ++ [ODeliver t n final] /\ oc_up c' = true /\
               (final = true <-> t = TNUL \/ (t = TRPY \/ t = TERR) /\ more = false)) \/
  ((forall r, p_msgs (pending (oc_log c)) <> n :: r) \/ t = TNUL /\ (more = true \/ empty = false)) /\
  oc_log c' = oc_log c ++ [OClosed] /\ oc_up c' = false.
Proof.
  intros os c t n more empty W H Hn Hu c'. subst c'.
  assert (I := oinv_run _ _ W H). rewrite (oi_pending _ I). cbn [p_msgs].
  unfold recv_reply, next_expected_reply.
  destruct (oc_out c) as [|m r] eqn:Eo.
  - destruct (Z.eqb_spec (-1) n); [lia|]. cbn. right. conj; auto. left. intros; discriminate.
  - destruct (Z.eqb_spec m n) as [->|D]; cbn [negb].
    2: { right. conj; auto. left. intros r' E. inversion E. congruence. }
    destruct (ftype_eqb t TNUL && (negb empty || more)) eqn:En.
    + right. conj; auto. right.
      destruct t; cbn in En; try discriminate. destruct empty, more; cbn in En; try discriminate; auto.
    + left. exists r. conj; auto.
      * intros ->. cbn in En. destruct empty, more; cbn in En; try discriminate; auto.
      * unfold remove_first_outstanding. rewrite Eo, Z.eqb_refl. cbn [tl oset oc_waiting].
        destruct t, more; cbn [negb]; destruct (oc_waiting c); eexists; conj; cbn; eauto;
          split; intros X; try discriminate; try tauto;
          destruct X as [X|[[X|X] X']]; discriminate.
Qed.

(** ** Outstanding limit *)
Definition limit_below (L : Z) (o : oop) : Prop :=
  match o with OpLimit l _ => l < 0 \/ 0 < l <= L | _ => True end.

Lemma ostep_limit : forall L c o c', op_ok o -> limit_below L o -> ostep c o = Ok c' ->
  oinv c -> 0 < oc_limit c <= L -> zlen (oc_out c) <= L ->
  0 < oc_limit c' <= L /\ zlen (oc_out c') <= L.
Proof.
  intros L c o c' Ho Hl H I Hc Hz.
  assert (S : forall e q, send_check e q = Ok c' -> oinv e -> oc_limit e = oc_limit c -> oc_out e = oc_out c ->
              0 < oc_limit c' <= L /\ zlen (oc_out c') <= L).
  { intros e q Hs Ie E1 E2. unfold send_check in Hs. rewrite E1, E2 in Hs.
    destruct ((0 <? oc_limit c) && (oc_limit c <=? zlen (oc_out c))) eqn:El.
    - destruct (oc_fail e); inversion Hs; subst; cbn; rewrite E1, E2; auto.
    - assert (zlen (oc_out c) < oc_limit c) by lia.
      destruct (send_go_cases _ _ _ Ie Hs) as (n & next & more' & out & -> & Hn & Hm & Hl' & Ho' & Hs' & Hc').
      cbn [olog oset oc_limit oc_out]. rewrite E1. split; auto.
      rewrite E2 in Hc'.
      assert (X : zlen out <= zlen (oc_out c) + 1).
      { assert (Y : forall x, zlen (oc_out c ++ [x]) = zlen (oc_out c) + 1)
          by (intros; unfold zlen; rewrite app_length; cbn; lia).
        destruct (q_resume q).
        - destruct Hc' as [-> ->].
          match goal with |- context [in_dec ?a ?b ?d] => destruct (in_dec a b d) end; rewrite ?Y; lia.
        - destruct (0 <=? oc_more e); destruct Hc' as (_ & _ & ->); rewrite ?Y; lia. }
      lia. }
  destruct o as [q|i|t n more empty|l f|]; cbn [ostep op_ok limit_below] in *.
  - unfold send_msg in H. destruct (oc_up c); [eapply S; eauto|].
    inversion H. subst. cbn. auto.
  - destruct (nth_error (oc_woken c) i); [|inversion H; now subst].
    eapply S; eauto. eapply oinv_same; eauto.
  - inversion H. destruct (oc_up c); subst; auto.
    destruct (recv_reply_cases c t n more empty Ho) as [E|[(r & Eo & E)|(r & w & k & Eo & E)]]; rewrite E; cbn; auto.
    split; auto. rewrite Eo in Hz. unfold zlen in *. cbn in Hz. lia.
  - inversion H. subst. unfold set_limit. destruct (Z.ltb_spec l 0); auto. cbn. split; auto. lia.
  - inversion H. subst. cbn. auto.
Qed.

Lemma orun_limit : forall L f os c, 0 < L -> Forall op_ok os -> Forall (limit_below L) os ->
  orun oc0 (OpLimit L f :: os) = Ok c ->
  (0 < oc_limit c <= L /\ zlen (oc_out c) <= L) /\ within_limit L (oc_log c).
Proof.
  intros L f os c HL. revert c. induction os as [|o os IH] using rev_ind; intros c W V H.
  - cbn in H. unfold set_limit in H. destruct (Z.ltb_spec L 0); [lia|]. inversion H. subst.
    cbn [oc_limit oc_out oc_log]. conj; try (cbn; lia).
    intros a b E. destruct a; cbn in E; [|discriminate]. cbn. lia.
  - apply Forall_app in W as [W1 W2]. apply Forall_inv in W2.
    apply Forall_app in V as [V1 V2]. apply Forall_inv in V2.
    rewrite app_comm_cons in H. apply orun_snoc in H as (d & H1 & H3).
    destruct (IH _ W1 V1 H1) as [[A B] C].
    assert (Id : oinv d) by (eapply oinv_run; [|exact H1]; constructor; cbn; auto).
    assert (D := ostep_limit L _ _ _ W2 V2 H3 Id A B).
    split; auto.
    assert (Ic : oinv c) by (eapply oinv_step; eauto).
    destruct (ostep_log _ _ _ W2 H3) as [E|(x & E)]; rewrite E; auto.
    intros a b E'. apply snoc_split2 in E' as [(-> & ->)|(b' & -> & E')].
    + rewrite <- E, (oi_pending _ Ic). cbn. apply D.
    + eapply C; eauto.
Qed.

(** ** Sends that never finish *)

(** After the connection is lost nobody wakes a waiting sender. *)
Lemma down_waiting : forall os c c', oc_up c = false -> orun c os = Ok c' ->
  oc_up c' = false /\ forall q, In q (oc_waiting c) -> In q (oc_waiting c').
Proof.
  induction os as [|o os IH]; intros c c' Hu H.
  - inversion H. subst. auto.
  - cbn in H. destruct (ostep c o) as [d|] eqn:E; [|discriminate]. cbn in H.
    assert (S : oc_up d = false /\ forall q, In q (oc_waiting c) -> In q (oc_waiting d)).
    { assert (X : forall e q, send_check e q = Ok d -> oc_up e = false -> oc_waiting e = oc_waiting c ->
                 oc_up d = false /\ forall q, In q (oc_waiting c) -> In q (oc_waiting d)).
      { intros e q Hs E1 E2. unfold send_check in Hs.
        destruct ((0 <? oc_limit e) && (oc_limit e <=? zlen (oc_out e))).
        - destruct (oc_fail e); inversion Hs; subst; cbn; rewrite E2; split; auto.
          intros. apply in_or_app. auto.
        - unfold send_go in Hs.
          match type of Hs with obind ?m _ = _ => destruct m as [[x y]|] end; [|discriminate].
          cbn [obind] in Hs. destruct (match q_resume q with Some m => _ | None => _ end).
          inversion Hs. subst. cbn. rewrite E2. auto. }
      destruct o as [q|i|t n more empty|l f|]; cbn [ostep] in E.
      - unfold send_msg in E. rewrite Hu in E. inversion E. subst. cbn. auto.
      - destruct (nth_error (oc_woken c) i); [eapply X; eauto|]. inversion E. subst. auto.
      - rewrite Hu in E. inversion E. subst. auto.
      - inversion E. subst. unfold set_limit. destruct (l <? 0); cbn; auto.
      - inversion E. subst. cbn. auto. }
    destruct S as [S1 S2]. destruct (IH _ _ S1 H) as [A B]. split; auto.
Qed.

(** With a full channel and nobody answering, no sender goes on. *)
Definition no_reply (o : oop) : Prop :=
  match o with OpReply _ _ _ _ => False | OpLimit _ _ => False | _ => True end.

Lemma full_stuck : forall os c c', Forall no_reply os -> 0 < oc_limit c <= zlen (oc_out c) ->
  oc_woken c = [] -> oc_fail c = false -> orun c os = Ok c' ->
  exists l, oc_log c' = oc_log c ++ l /\ (forall o, In o l -> exists id, o = ORefused id) /\
            (forall q, In q (oc_waiting c) -> In q (oc_waiting c')).
Proof.
  induction os as [|o os IH]; intros c c' W Hl Hw Hf H.
  - inversion H. subst. exists []. rewrite app_nil_r. conj; auto. intros ? [].
  - inversion W; subst. cbn in H. destruct (ostep c o) as [d|] eqn:E; [|discriminate]. cbn in H.
    assert (S : 0 < oc_limit d <= zlen (oc_out d) /\ oc_woken d = [] /\ oc_fail d = false /\
                (exists l, oc_log d = oc_log c ++ l /\ (forall o, In o l -> exists id, o = ORefused id)) /\
                (forall q, In q (oc_waiting c) -> In q (oc_waiting d))).
    { destruct o as [q|i|t n more empty|l f|]; cbn [ostep no_reply] in *; try contradiction.
      - unfold send_msg, send_check in E.
        destruct (oc_up c).
        + assert (X : (0 <? oc_limit c) && (oc_limit c <=? zlen (oc_out c)) = true) by lia.
          rewrite X, Hf in E. inversion E. subst. cbn. conj; auto; try lia.
          * exists []. rewrite app_nil_r. split; auto. intros ? [].
          * intros. apply in_or_app. auto.
        + inversion E. subst. cbn. conj; auto; try lia.
          exists [ORefused (q_id q)]. split; auto. intros o [<-|[]]. eauto.
      - rewrite Hw in E. destruct i; cbn in E; inversion E; subst; conj; auto; try lia;
          exists []; rewrite app_nil_r; split; auto; intros ? [].
      - inversion E. subst. cbn. conj; auto; try lia. exists []. rewrite app_nil_r; split; auto; intros ? []. }
    destruct S as (S1 & S2 & S3 & (l & S4 & S5) & S6).
    destruct (IH _ _ H3 S1 S2 S3 H) as (l' & A & B & C).
    exists (l ++ l'). rewrite A, S4, app_assoc. conj; auto.
    intros o' I. apply in_app_or in I as [I|I]; auto.
Qed.

(** ** The counter *)
Definition plain (id : Z) : sreq := mkQ id false None true.
Definition exchange : list oop := [OpSend (plain 0)].

Lemma sends_next : forall k c, oinv c -> oc_up c = true -> oc_limit c = 0 -> oc_more c = -1 ->
  oc_next c + Z.of_nat k < two31 ->
  exists c', orun c (repeat (OpSend (plain 0)) k) = Ok c' /\ oc_next c' = oc_next c + Z.of_nat k /\
             oinv c' /\ oc_up c' = true /\ oc_limit c' = 0 /\ oc_more c' = -1.
Proof.
  induction k as [|k IH]; intros c I Hu Hl Hm Hk.
  - exists c. cbn. conj; auto; lia.
  - cbn [repeat orun ostep]. unfold send_msg, send_check. rewrite Hu, Hl. cbn [Z.ltb andb Z.compare].
    assert (exists d, send_go c (plain 0) = Ok d /\ oc_next d = oc_next c + 1 /\ oc_up d = true /\
                      oc_limit d = 0 /\ oc_more d = -1) as (d & Hd & D1 & D2 & D3 & D4).
    { unfold send_go. rewrite Hm. cbn [Z.leb Z.compare]. unfold get_next_msg_no.
      destruct (Z.leb_spec two31 (oc_next c + 1)); [lia|].
      destruct (Z.eqb_spec (oc_next c + 1) (-1)); [destruct I; lia|].
      cbn. eexists. split; [reflexivity|]. cbn. auto. }
    rewrite Hd. cbn [obind].
    destruct (IH d) as (c' & E & A & B & C & D & F); auto.
    + eapply oinv_send_go; eauto.
    + lia.
    + exists c'. conj; auto. lia.
Qed.

Lemma counter_overflow_gen : forall k, Z.of_nat k = two31 ->
  orun oc0 (repeat (OpSend (plain 0)) (k + 1)) = UB.
Proof.
  intros k Hk. rewrite repeat_app, orun_app.
  destruct (sends_next k oc0 oinv0 eq_refl eq_refl eq_refl) as (c' & A & B & C & D & F & G).
  - rewrite Hk. cbn [oc_next oc0]. lia.
  - rewrite A. cbn [obind repeat orun ostep].
    rewrite Hk in B. cbn [oc_next oc0] in B.
    unfold send_msg, send_check. rewrite D, F. cbn [Z.ltb Z.compare andb].
    unfold send_go. rewrite G. cbn [Z.leb Z.compare]. unfold get_next_msg_no.
    rewrite B. destruct (Z.leb_spec two31 (-1 + two31 + 1)); [reflexivity|lia].
Qed.

Lemma counter_overflow : exists os, Forall op_ok os /\ zlen os = two31 + 1 /\ orun oc0 os = UB.
Proof.
  exists (repeat (OpSend (plain 0)) (Z.to_nat two31 + 1)).
  assert (H : Z.of_nat (Z.to_nat two31) = two31) by (apply Z2Nat.id; unfold two31; lia).
  revert H. generalize (Z.to_nat two31). intros k H. conj.
  - apply Forall_forall. intros o I. apply repeat_spec in I. subst. exact Logic.I.
  - unfold zlen. rewrite repeat_length, Nat2Z.inj_add, H. reflexivity.
  - now apply counter_overflow_gen.
Qed.

(** The frame reader never produces a data frame numbered -1, the value that
    stands for "no message" in the functions above. *)
Lemma decide_line_msgno : forall chans n line f,
  decide_line chans n line = Ok (DBody f) -> f_msgno f <> -1.
Proof.
  intros chans n line f H. unfold decide_line in H.
  match type of H with (if ?b then _ else _) = _ => destruct b end; [discriminate|].
  destruct (type_of_line line) as [t|]; [|discriminate].
  destruct (get_header_data t (skipn 4 line)) as [h|] eqn:Eh; [|discriminate].
  cbn [obind] in H.
  destruct (h_code h =? -2); [discriminate|].
  match type of H with (match ?b with Some _ => _ | None => _ end) = _ => destruct b end; [|discriminate].
  destruct (ftype_eqb t TSEQ) eqn:Et; [discriminate|].
  destruct (Z.ltb_spec (h_code h) 5) as [|Hc]; [discriminate|].
  destruct (negb (h_more_char h =? DOT) && negb (h_more_char h =? STAR)); [discriminate|].
  match type of H with (if ?b then _ else _) = _ => destruct b end; [discriminate|].
  inversion H. subst. cbn [f_msgno]. clear H.
  intros Em. unfold get_header_data in Eh.
  destruct (zlen (skipn 4 line) =? 0); [inversion Eh; subst; cbn in Hc; lia|].
  match type of Eh with obind ?m _ = _ => destruct m as [[[ch s1] sh1]|] end; [|discriminate].
  cbn [obind] in Eh.
  destruct (check_int ch s1) as [k|] eqn:E1.
  { inversion Eh; subst. cbn in Hc. unfold check_int, check_index in E1.
    destruct (ch =? -1); [inversion E1; subst; lia|].
    destruct ((ch =? -2) || (zlen s1 <=? 1)); inversion E1; subst; lia. }
  assert (K : forall k m s, check_int m s = Some k -> k = -1 \/ k = -2).
  { intros k m s E. unfold check_int, check_index in E. destruct (m =? -1); [inversion E; auto|].
    destruct ((m =? -2) || (zlen s <=? 1)); inversion E; auto. }
  destruct t; try discriminate;
    (match type of Eh with obind ?m _ = _ => destruct m as [[[mn s2] sh2]|] end; [|discriminate];
     cbn [obind] in Eh;
     destruct (check_int mn s2) as [k|] eqn:E2;
     [inversion Eh; subst; cbn in Hc; destruct (K _ _ _ E2); lia|];
     destruct s2 as [|x [|y s2]]; try discriminate;
     repeat (cbn [ftype_eqb obind] in Eh;
             match type of Eh with obind ?m _ = _ => destruct m as [[[? ?] ?]|]; [|discriminate] end);
     cbn [ftype_eqb obind] in Eh; inversion Eh; subst; cbn in Em; subst;
     unfold check_int, check_index in E2; discriminate).
Qed.
