(** The pieces of a message, the levels of configuration, and the end of a
    one-to-many reply. *)
From Coq Require Import String.
From Verif Require Import Base CodecModel FlowModel MimeModel MimeSpec MimeProofs MimeProofs2 SequencerModel HeadModel HeadSpec HeadProofs HeadProofs2 HeadProofs3.
Local Open Scope list_scope.
Local Open Scope Z_scope.

(** * Pieces *)

Definition lastmore (d : bool) (l : list sent) : bool := fold_left (fun _ o => o_more o) l d.
Lemma pieces_app : forall l d o, pieces d (l ++ [o]) <-> pieces d l /\ (lastmore d l = true -> o_content o = o_msg o).
Proof.
  induction l as [|x l IH]; intros d o; cbn [app pieces lastmore fold_left]; [tauto|]. rewrite IH. unfold lastmore. tauto.
Qed.
Lemma lastmore_app : forall l d o, lastmore d (l ++ [o]) = o_more o.
Proof. intros. unfold lastmore. now rewrite fold_left_app. Qed.
Definition PI (s : hst) : Prop := forall i r, pieces false (filter (about i r) (h_log s)) /\
  lastmore false (filter (about i r) (h_log s)) = skipsi (nth_error (h_chans s) i) r.

(** A step either leaves the log, and who skips its headers, or is a message. *)
Lemma step_cases : forall s e s', hstep s e = Ok s' ->
  (h_log s' = h_log s /\ forall i r, skipsi (nth_error (h_chans s') i) r = skipsi (nth_error (h_chans s) i) r) \/
  (exists i r msg more c o, e = HSend i r msg more /\ nth_error (h_chans s) i = Some c /\
    h_log s' = h_log s ++ [o] /\ o_chan o = i /\ o_reply o = r /\ o_msg o = msg /\ o_more o = more /\
    o_auto o = (if skips c r then ch_auto c else decide s c) /\
    (skips c r = true \/ o_auto o = 2 -> o_content o = msg) /\
    h_chans s' = set_nth (h_chans s) i (marked c r more (o_auto o))).
Proof.
  intros s e s' H. destruct e as [| |m t|v|v|i v| |i r msg more]; cbn [hstep] in H.
  - apply ok_eq in H. left. subst. destruct (h_profile s); cbn; auto.
  - apply ok_eq in H. left. subst. destruct (h_profile s); cbn; auto.
  - apply ok_eq in H. left. subst. destruct (h_profile s); cbn; auto. destruct m, t; cbn; auto.
  - apply ok_eq in H. left. subst. destruct (h_profile s); cbn; auto. destruct (valid_auto v); cbn; auto.
  - apply ok_eq in H. left. subst. cbn; auto.
  - apply ok_eq in H. left. subst. destruct (nth_error (h_chans s) i) as [c|] eqn:E; auto. destruct (valid_auto v); cbn; auto. split; [reflexivity|].
    intros j r. destruct (Nat.eq_dec i j) as [<-|N]; [|now rewrite nth_set_other by exact N]. rewrite (nth_set_same _ _ _ _ E), E. destruct r; reflexivity.
  - apply ok_eq in H. left. subst. cbn. split; [reflexivity|]. intros i r.
    destruct (Nat.lt_ge_cases i (List.length (h_chans s))) as [A|A]; [now rewrite nth_error_app1 by exact A|].
    rewrite nth_error_app2 by exact A. assert (N : nth_error (h_chans s) i = None) by now apply nth_error_None.
    rewrite N. cbn. destruct (i - _)%nat as [|k]; cbn; [|destruct k; cbn; reflexivity]. destruct (h_profile s); destruct r; reflexivity.
  - destruct (nth_error (h_chans s) i) as [c|] eqn:E; [|apply ok_eq in H; subst; auto].
    right. cbv zeta in H. set (auto := if skips c r then ch_auto c else decide s c) in *.
    destruct (if negb (skips c r) && negb (auto =? 2) then _ else _) as [b|] eqn:B; [|discriminate]. cbn [obind] in H. apply ok_eq in H. subst s'.
    exists i, r, msg, more, c, (mkSent i r msg more b auto). cbn. conj; auto.
    intros Q. destruct (skips c r) eqn:SK; cbn [negb andb] in B; [|destruct Q as [Q|Q]; [discriminate|rewrite Q in B; change (negb (2 =? 2)) with false in B; cbv iota in B]];
      rewrite content_none in B; now apply ok_eq in B.
Qed.
Lemma PI_step : forall s e s', PI s -> hstep s e = Ok s' -> PI s'.
Proof.
  intros s e s' P H. destruct (step_cases _ _ _ H) as [[L K]|(i & r & msg & more & c & o & -> & E & L & O1 & O2 & O3 & O4 & O5 & O6 & CH)].
  - intros i r. rewrite L, K. apply P.
  - intros j r'. rewrite L, CH, filter_app. cbn [filter]. destruct (P j r') as [P1 P2]. destruct (about j r' o) eqn:A.
    + apply about_same in A. rewrite O1, O2 in A. destruct A as [<- <-]. rewrite pieces_app, lastmore_app, (nth_set_same _ _ _ _ E). cbn [skipsi]. rewrite skips_marked_same.
      conj; auto. rewrite P2, E. cbn [skipsi]. intros Q. rewrite O3. auto.
    + rewrite app_nil_r. split; [exact P1|]. rewrite P2. destruct (Nat.eq_dec i j) as [<-|N]; [|now rewrite nth_set_other by exact N].
      rewrite (nth_set_same _ _ _ _ E), E. cbn [skipsi]. rewrite skips_marked_other; [reflexivity|]. intros <-.
      assert (about i r o = true) by (apply about_same; auto). congruence.
Qed.
Lemma PI_run : forall es s s', PI s -> hrun s es = Ok s' -> PI s'.
Proof.
  induction es as [|e es IH]; intros s s' P H; cbn [hrun] in H; [apply ok_eq in H; now subst|].
  destruct (hstep s e) as [s1|] eqn:E; [|discriminate]. cbn [obind] in H. eapply IH; [|exact H]. eapply PI_step; eauto.
Qed.
Lemma PI0 : forall lib, PI (hst0 lib).
Proof. intros lib i r. cbn. destruct i; auto. Qed.
Lemma pieces_thm : forall lib es s i r, hrun (hst0 lib) es = Ok s -> pieces false (filter (about i r) (h_log s)).
Proof. intros lib es s i r H. exact (proj1 (PI_run _ _ _ (PI0 lib) H i r)). Qed.

(** * Levels *)

Lemma open_last : forall l g, (match fst (fold_left gather l g) with None => false | Some _ => true end) =
  lastmore (match fst g with None => false | Some _ => true end) l.
Proof.
  induction l as [|o l IH]; intros g; [reflexivity|]. cbn [fold_left lastmore]. rewrite IH. unfold lastmore. f_equal.
  unfold gather. destruct (o_more o); destruct (fst g) as [[[? ?] ?]|]; reflexivity.
Qed.
Definition auto_of (s : hst) (i : nat) : option Z := option_map ch_auto (nth_error (h_chans s) i).
Lemma decide_level : forall s c, decide s c = level (ch_auto c) (profile_auto s) (h_lib s).
Proof.
  intros s c. unfold decide, level. cbn [filter]. destruct (ch_auto c =? 0); cbn [negb]; [|reflexivity].
  destruct (profile_auto s =? 0); cbn [negb]; [|reflexivity]. destruct (h_lib s =? 0); reflexivity.
Qed.
Lemma marked_auto : forall c r more a, ch_auto (marked c r more a) = a. Proof. intros c [n|] more a; reflexivity. Qed.
Lemma level_thm : forall lib es s i r msg more s' a, hrun (hst0 lib) es = Ok s -> auto_of s i = Some a ->
  fst (messages (h_log s) i r) = None -> hstep s (HSend i r msg more) = Ok s' ->
  auto_of s' i = Some (level a (profile_auto s) (h_lib s)) /\
  (level a (profile_auto s) (h_lib s) = 2 -> exists o, h_log s' = h_log s ++ [o] /\ o_content o = msg).
Proof.
  intros lib es s i r msg more s' a R A M H. pose proof (PI_run _ _ _ (PI0 lib) R i r) as [_ P].
  unfold auto_of in A. destruct (nth_error (h_chans s) i) as [c|] eqn:E; [|discriminate]. injection A as <-. cbn [skipsi] in P.
  unfold messages in M. pose proof (open_last (filter (about i r) (h_log s)) (None, [])) as Q. cbn [fst] in Q. rewrite M in Q. rewrite <- Q in P.
  destruct (step_cases _ _ _ H) as [[L K]|(i' & r' & msg' & more' & c' & o & X & E' & L & O1 & O2 & O3 & O4 & O5 & O6 & CH)].
  - exfalso. cbn [hstep] in H. rewrite E in H. cbv zeta in H. destruct (if negb (skips c r) && _ then _ else _) as [b|]; [|discriminate]. cbn [obind] in H.
    apply ok_eq in H. subst s'. cbn in L. clear -L. apply (f_equal (@List.length sent)) in L. rewrite app_length in L. cbn in L. lia.
  - injection X as <- <- <- <-. rewrite E in E'. injection E' as <-. rewrite <- P in O5. rewrite decide_level in O5. rewrite <- O5. split.
    + unfold auto_of. rewrite CH, (nth_set_same _ _ _ _ E). cbn. now rewrite marked_auto.
    + intros Q2. exists o. auto.
Qed.
Lemma level_pos : forall a p l, level a p l <> 0.
Proof.
  intros a p l. unfold level. destruct (filter _ _) as [|v k] eqn:E; [discriminate|].
  assert (H : In v (filter (fun v => negb (v =? 0)) [a; p; l])) by (rewrite E; now left). apply filter_In in H. destruct H as [_ H]. apply negb_true_iff, Z.eqb_neq in H. exact H.
Qed.
Lemma kept_thm : forall es s s' i a, a <> 0 -> auto_of s i = Some a -> (forall v, ~ In (HChanAuto i v) es) -> hrun s es = Ok s' ->
  auto_of s' i = Some a /\ exists new, h_log s' = h_log s ++ new /\ forall o, In o new -> o_chan o = i -> o_auto o = a.
Proof.
  induction es as [|e es IH]; intros s s' i a NZ A N H; cbn [hrun] in H.
  { apply ok_eq in H. subst. split; [exact A|]. exists []. split; [now rewrite app_nil_r|]. intros o []. }
  destruct (hstep s e) as [s1|] eqn:E; [|discriminate]. cbn [obind] in H.
  assert (K : auto_of s1 i = Some a /\ exists new, h_log s1 = h_log s ++ new /\ forall o, In o new -> o_chan o = i -> o_auto o = a).
  { destruct (step_cases _ _ _ E) as [[L _]|(i' & r' & msg' & more' & c' & o & X & E' & L & O1 & O2 & O3 & O4 & O5 & O6 & CH)].
    - split; [|exists []; split; [now rewrite app_nil_r|intros o []]].
      unfold auto_of in *. destruct (nth_error (h_chans s) i) as [c|] eqn:C; [|discriminate]. injection A as <-.
      destruct e as [| |m t|v|v|j v| |j r msg more]; cbn [hstep] in E.
      + apply ok_eq in E. subst. destruct (h_profile s); cbn; now rewrite C.
      + apply ok_eq in E. subst. destruct (h_profile s); cbn; now rewrite C.
      + apply ok_eq in E. subst. destruct (h_profile s); cbn; [|now rewrite C]. destruct m, t; cbn; now rewrite C.
      + apply ok_eq in E. subst. destruct (h_profile s); cbn; [|now rewrite C]. destruct (valid_auto v); cbn; now rewrite C.
      + apply ok_eq in E. subst. cbn. now rewrite C.
      + assert (NE : j <> i) by (intros ->; apply (N v); now left).
        apply ok_eq in E. subst. destruct (nth_error (h_chans s) j) as [cj|]; [|now rewrite C]. destruct (valid_auto v); cbn; [|now rewrite C].
        rewrite nth_set_other by exact NE. now rewrite C.
      + apply ok_eq in E. subst. cbn. rewrite nth_error_app1 by (apply nth_error_Some; congruence). now rewrite C.
      + destruct (nth_error (h_chans s) j) as [cj|]; [|apply ok_eq in E; subst; now rewrite C]. exfalso. cbv zeta in E.
        destruct (if negb (skips cj r) && _ then _ else _) as [b|]; [|discriminate]. cbn [obind] in E.
        apply ok_eq in E. subst s1. cbn in L. clear -L. apply (f_equal (@List.length sent)) in L. rewrite app_length in L. cbn in L. lia.
    - unfold auto_of in *. destruct (nth_error (h_chans s) i) as [c|] eqn:C; [|discriminate]. injection A as <-.
      destruct (Nat.eq_dec i' i) as [->|NE].
      + rewrite C in E'. injection E' as <-. assert (OA : o_auto o = ch_auto c).
        { rewrite O5. destruct (skips c r'); [reflexivity|]. unfold decide. destruct (ch_auto c =? 0) eqn:Z0; [apply Z.eqb_eq in Z0; contradiction|reflexivity]. }
        split.
        * rewrite CH, (nth_set_same _ _ _ _ C). cbn. now rewrite marked_auto, OA.
        * exists [o]. split; [exact L|]. intros x [<-|[]] _. exact OA.
      + split.
        * rewrite CH, nth_set_other by exact NE. now rewrite C.
        * exists [o]. split; [exact L|]. intros x [<-|[]] Q. congruence. }
  destruct K as (A1 & n1 & L1 & K1). destruct (IH s1 s' i a NZ A1) as (A2 & n2 & L2 & K2); [intros v Q; apply (N v); now right|exact H|].
  split; [exact A2|]. exists (n1 ++ n2). split; [rewrite L2, L1; now rewrite app_assoc|]. intros o Q. apply in_app_iff in Q. destruct Q; auto.
Qed.

(** * NUL *)

Lemma nul_total : forall more b, exists ok, nul_accepted more b = Ok (Some ok) /\ (more = true -> ok = false).
Proof.
  intros more b. destruct (process_sock b) as (ok & f & P & _). unfold nul_accepted. rewrite P. cbn [obind]. eexists. split; [reflexivity|].
  intros ->. apply andb_false_r.
Qed.
Lemma nul_entity : forall b hs, entity b hs [] -> nul_accepted false b = Ok (Some true).
Proof.
  intros b hs E. destruct (process_found b hs [] trailer ltac:(discriminate) E) as (f & P & _ & _ & _ & SZ & _).
  unfold nul_accepted, sock_mem. rewrite P. cbn [obind]. rewrite SZ. reflexivity.
Qed.
Lemma nul_content : forall m t b, plain m -> (t = None \/ t = Some d_encoding) -> content true (Some m) t [] = Ok b -> nul_accepted false b = Ok (Some true).
Proof.
  intros m t b P T H. rewrite content_plain in H by (destruct T as [->| ->]; reflexivity). apply ok_eq in H. subst b.
  eapply nul_entity. now apply lead_entity.
Qed.
Lemma nul_frames : forall ops a wsize max_seq first_seq cap fcap ch msgno ansno b bs payload complete n d cap' fcap',
  nul_accepted false b = Ok (Some true) ->
  build_packet ops a wsize max_seq first_seq cap fcap (nul_data ch msgno ansno b) = Ok (PFrame bs payload complete n d, cap', fcap') ->
  (nul_accepted (negb complete) payload = Ok (Some true) <-> complete = true) /\ (complete = true -> payload = b).
Proof.
  intros ops a wsize max_seq first_seq cap fcap ch msgno ansno b bs payload complete n d cap' fcap' N H.
  assert (K : complete = true -> payload = b).
  { unfold build_packet, nul_data in H. cbn [q_size q_type q_feeder q_msg q_step q_msgno] in H. destruct (zlen b =? 0) eqn:Z0; cbn [andb ftype_eqb] in H.
    - apply Z.eqb_eq in Z0. destruct b; [|rewrite zlen_cons' in Z0; pose proof (zlen_pos b); lia]. destruct (build_up cap _ _ _ _); [|discriminate]. cbn [obind] in H. injection H; intros; congruence.
    - destruct (_ || _); [discriminate|]. destruct (check_and_increase _ _); [|discriminate]. cbn [obind] in H.
      destruct (SequencerModel.slice b 0 _) as [p|] eqn:S; [|discriminate]. cbn [obind] in H. destruct (build_up _ _ _ _ _); [|discriminate]. cbn [obind] in H.
      injection H as _ <- EC _ _ _ _. intros Q. rewrite Q in EC. apply Z.eqb_eq in EC. rewrite EC in S. unfold SequencerModel.slice in S. destruct (_ && _); [|discriminate]. injection S as <-.
      cbn [Z.to_nat skipn]. unfold zlen. rewrite Nat2Z.id. apply firstn_all. }
  split; [|exact K]. split; [|intros ->; cbn; now rewrite K by reflexivity].
  intros Q. destruct complete; [reflexivity|]. destruct (nul_total true payload) as (ok & E & F). cbn [negb] in Q. rewrite E in Q. rewrite F in Q by reflexivity. discriminate.
Qed.

(** * At the other end *)

Lemma nonblank : forall c, 33 <= c <= 126 -> ~ blank c.
Proof. intros c H [B|[B|[B|B]]]; lia. Qed.
Lemma blanks_nil : forall a r, Forall blank a -> (forall c, In c (a ++ r) -> ~ blank c) -> a = [].
Proof. intros [|x a] r F N; [reflexivity|]. inversion F; subst. exfalso. apply (N x); [now left|assumption]. Qed.
Lemma text_value : forall m t, plain m -> text_of (32 :: m) t -> t = m.
Proof.
  intros m t [N P] H.
  assert (NB : forall c, In c m -> ~ blank c) by (intros c I; apply nonblank; now apply (proj1 (Forall_forall _ _) P)).
  destruct H as (a & z & E & A & Z0 & T). { constructor; [discriminate|]. eapply Forall_impl; [|exact P]. cbn. intros c Hc. lia. }
  destruct a as [|x a].
  - exfalso. destruct T as [->|[(c & r & -> & B) _]].
    + cbn in E. destruct z as [|y z]; [discriminate|]. injection E as <- E. assert (FB : Forall blank m) by (rewrite E; now inversion Z0). destruct m as [|q m]; [contradiction|]. apply (NB q); [now left|]. now inversion FB.
    + cbn in E. injection E as <- _. apply B. now left.
  - cbn in E. injection E as <- E. inversion A as [|x0 y0 A1 A2]. subst x0 y0. subst m. assert (a = []) by (apply blanks_nil with (r := t ++ z); [assumption|exact NB]). subst a. cbn in *.
    assert (z = []). { destruct z as [|y z]; [reflexivity|]. exfalso. inversion Z0; subst. apply (NB y); [apply in_app_iff; right; now left|assumption]. }
    subst z. now rewrite app_nil_r.
Qed.
Lemma type_of_fields : forall m body c X, X <> [] -> plain m -> entity c (fields_of (m, d_encoding)) body -> exists f,
  mime_process (mf_new (c ++ X) (zlen c)) = Ok (Some (true, f)) /\ get_payload f = body /\ get_content_type f = Some m.
Proof.
  intros m body c X NX P E. destruct (process_found _ _ _ X NX E) as (f & F & _ & B & _).
  destruct (content_type_spec _ _ _ X NX E) as (f' & F' & T). rewrite F in F'. injection F' as <-. exists f. conj; auto.
  unfold fields_of in T. cbn [fst snd] in T. change (bytes_eqb d_encoding d_encoding) with true in T. cbv iota in T.
  destruct (bytes_eqb m d_type) eqn:D.
  - apply bytes_eqb_true in D. subst m. exact T.
  - rewrite app_nil_r in T. change (values [(ztext "Content-Type", ztext " " ++ m)] (ztext "content-type")) with [(ztext "Content-Type", 32 :: m)] in T.
    cbn [last snd] in T. destruct T as (t & T1 & T2). rewrite T1. f_equal. now apply text_value.
Qed.
Lemma received_thm : forall lib es, steady false es -> usual_types es -> exists s, hrun (hst0 lib) es = Ok s /\
  forall i r a c m mt te X, In (a, c, m) (snd (messages (h_log s) i r)) -> a <> 2 -> X <> [] ->
  nth_error (cf_chans (conf_of es)) i = Some (Some (mt, te)) ->
  exists f, mime_process (mf_new (c ++ X) (zlen c)) = Ok (Some (true, f)) /\ get_payload f = m /\ get_content_type f = Some mt.
Proof.
  intros lib es S U. destruct (HI_run es _ _ _ (HI0 lib) S U) as (s & o & R & H). exists s. split; [exact R|].
  intros i r a c m mt te X M NA NX N. destruct (i_log _ _ _ H i r) as [_ L]. destruct (L _ (or_intror M)) as (cf & N' & G).
  change (fold_left conf_step es (mkConf None [])) with (conf_of es) in N'. rewrite N in N'. injection N' as <-.
  assert (K : plain mt). { pose proof (i_chans _ _ _ H) as Q. change (fold_left conf_step es (mkConf None [])) with (conf_of es) in Q. clear -Q N. revert i N. induction Q as [|x y l cs K Q IH]; intros [|i] N; try discriminate; cbn in N; [|eauto]. injection N as ->. cbn in K. tauto. }
  cbn in G. replace (a =? 2) with false in G by (symmetry; now apply Z.eqb_neq). subst c.
  apply type_of_fields; [exact NX|exact K|]. now apply lead_entity.
Qed.

Lemma fresh_thm : forall s s', hstep s HOpen = Ok s' -> auto_of s' (length (h_chans s)) = Some 0.
Proof.
  intros s s' H. unfold auto_of. cbn [hstep] in H. injection H as <-. cbn [h_chans].
  rewrite nth_error_app2, Nat.sub_diag by lia. destruct (h_profile s); reflexivity.
Qed.
