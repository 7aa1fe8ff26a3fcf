(** SASL, the listener: what the calls of the library keep. *)
From Verif Require Import Base SaslModel SaslSpec.

Ltac conj := repeat match goal with |- _ /\ _ => split end.

Definition mem (s : sst) (g : sess) : Prop :=
  (forall a, In a (s_freed s) -> (a < s_next s)%nat) /\
  (forall p a v, fast g p = Some (a, v) -> (a < s_next s)%nat /\ ~ In a (s_freed s)) /\
  (forall p q a v w, fast g p = Some (a, v) -> fast g q = Some (a, w) -> p = q).

Definition secret (m : mech) : Prop := m = MCram \/ m = MDigest.
Definition known (h : handlers) (s : sst) (g : sess) : Prop :=
  secret (g_mech g) -> forall pw, value (g_password g) = Some pw ->
  s_method s = Some (g_mech g) /\
  exists c, In (OSaid (g_mech g) c (HPassword pw)) (since (s_log s)) /\ says h (g_mech g) c = HPassword pw.

Definition said (h : handlers) (m : mech) (o : sobs) : Prop := exists c, o = OSaid m c (says h m c).
(** From one state to another within a step. *)
Record goes (h : handlers) (s : sst) (g : sess) (s' : sst) (g' : sess) : Prop := {
  go_data : s_data s = Some (Some g) -> s_data s' = Some (Some g');
  go_mech : g_mech g' = g_mech g;
  go_neg : s_neg s' = s_neg s;
  go_chans : s_chans s' = s_chans s;
  go_mask : s_mask s' = s_mask s;
  go_flag : s_flag s' = s_flag s;
  go_method : s_method s' = s_method s \/ s_method s' = Some (g_mech g);
  go_log : exists d, s_log s' = s_log s ++ d /\ Forall (said h (g_mech g)) d;
  go_mem : mem s g -> mem s' g';
  go_known : known h s g -> known h s' g' }.

Lemma fast_put_eq : forall g p v, fast (put g p v) p = v.
Proof. intros g [] v; reflexivity. Qed.
Lemma fast_put_neq : forall g p q v, p <> q -> fast (put g p v) q = fast g q.
Proof. intros g [] [] v H; try reflexivity; contradiction H; reflexivity. Qed.
Lemma gprop_dec : forall p q : gprop, {p = q} + {p <> q}.
Proof. decide equality. Qed.
Lemma mech_put : forall g p v, g_mech (put g p v) = g_mech g.
Proof. intros g [] v; reflexivity. Qed.

Lemma since_said : forall l o, (forall m, o <> OSession m) -> since (l ++ [o]) = since l ++ [o].
Proof.
  intros l o H. unfold since. rewrite fold_left_app. cbn [fold_left]. destruct o; try reflexivity.
  exfalso. apply (H m). reflexivity.
Qed.
Lemma since_said_app : forall h m d l, Forall (said h m) d -> since (l ++ d) = since l ++ d.
Proof.
  intros h m d. induction d as [|o d IH]; intros l H; [rewrite !app_nil_r; reflexivity|].
  inversion H as [|x y [c E] H2]; subst. change (OSaid m c (says h m c) :: d) with ([OSaid m c (says h m c)] ++ d).
  rewrite app_assoc, IH by assumption. rewrite since_said by discriminate. rewrite <- app_assoc. reflexivity.
Qed.

Lemma goes_refl : forall h s g, goes h s g s g.
Proof.
  intros h s g. constructor; auto. exists []. split; [rewrite app_nil_r; reflexivity|constructor].
Qed.
Lemma goes_trans : forall h s g s1 g1 s2 g2, goes h s g s1 g1 -> goes h s1 g1 s2 g2 -> goes h s g s2 g2.
Proof.
  intros h s g s1 g1 s2 g2 [] []. constructor; auto; try congruence.
  - destruct go_method1 as [E|E]; [rewrite E|right; congruence]. assumption.
  - destruct go_log0 as [d [E F]]. destruct go_log1 as [d1 [E1 F1]]. exists (d ++ d1). split.
    + rewrite E1, E, app_assoc. reflexivity.
    + apply Forall_app. split; [assumption|]. rewrite go_mech0 in F1. assumption.
Qed.

Lemma mem_set : forall s g p v s' g', mem s g -> prop_set s g p v = (s', g') -> mem s' g'.
Proof.
  intros s g p v s' g' [M1 [M2 M3]] E. unfold prop_set in E. injection E as <- <-. unfold mem. cbn [s_freed s_next].
  assert (PL : forall a, In a (place (fast g p)) -> exists w, fast g p = Some (a, w)).
  { intros a Ia. destruct (fast g p) as [[b w]|]; [|destruct Ia]. destruct Ia as [<-|[]]. exists w. reflexivity. }
  conj.
  - intros a Ia. apply in_app_or in Ia. destruct Ia as [Ia|Ia].
    + specialize (M1 a Ia). lia.
    + destruct (PL a Ia) as [w Ew]. destruct (M2 _ _ _ Ew) as [L _]. lia.
  - intros q a w Eq. destruct (gprop_dec p q) as [->|N].
    + rewrite fast_put_eq in Eq. destruct v as [z|]; [|discriminate]. injection Eq as <- <-. split; [lia|].
      intro Ia. apply in_app_or in Ia. destruct Ia as [Ia|Ia].
      * specialize (M1 _ Ia). lia.
      * destruct (PL _ Ia) as [w Ew]. destruct (M2 _ _ _ Ew) as [L _]. lia.
    + rewrite fast_put_neq in Eq by assumption. destruct (M2 _ _ _ Eq) as [L F]. split; [lia|].
      intro Ia. apply in_app_or in Ia. destruct Ia as [Ia|Ia]; [contradiction|].
      destruct (PL _ Ia) as [w' Ew]. apply N. apply (M3 _ _ _ _ _ Ew Eq).
  - intros q q2 a w w2 Eq Eq2.
    destruct (gprop_dec p q) as [->|N]; destruct (gprop_dec q q2) as [Q|N2]; try assumption.
    + rewrite fast_put_eq in Eq. rewrite fast_put_neq in Eq2 by assumption.
      destruct v as [z|]; [|discriminate]. injection Eq as <- <-. destruct (M2 _ _ _ Eq2) as [L _]. lia.
    + rewrite fast_put_neq in Eq by assumption. destruct (gprop_dec p q2) as [->|N3].
      * rewrite fast_put_eq in Eq2. destruct v as [z|]; [|discriminate]. injection Eq2 as <- <-.
        destruct (M2 _ _ _ Eq) as [L _]. lia.
      * rewrite fast_put_neq in Eq2 by assumption. apply (M3 _ _ _ _ _ Eq Eq2).
Qed.
Lemma mem_same : forall s g s', s_freed s' = s_freed s -> s_next s' = s_next s -> mem s g -> mem s' g.
Proof. intros s g s' F N M. unfold mem in *. rewrite F, N. assumption. Qed.

(** Setting a property other than a password. *)
Lemma goes_set : forall h s g p v s' g',
  (secret (g_mech g) -> p <> PPassword) -> prop_set s g p v = (s', g') -> goes h s g s' g'.
Proof.
  intros h s g p v s' g' NP E. pose proof E as E0. unfold prop_set in E. injection E as <- <-.
  constructor; cbn [s_data s_neg s_chans s_mask s_flag s_method s_log]; auto.
  - apply mech_put.
  - exists []. split; [rewrite app_nil_r; reflexivity|constructor].
  - intro M. exact (mem_set _ _ _ _ _ _ M E0).
  - intros K S pw P. rewrite mech_put in *. cbn [s_method s_log]. apply K; [assumption|]. specialize (NP S).
    change (g_password (put g p (option_map (fun z => (s_next s, z)) v)))
      with (fast (put g p (option_map (fun z => (s_next s, z)) v)) PPassword) in P.
    rewrite fast_put_neq in P by assumption. exact P.
Qed.

(** keep and the rest of the bookkeeping leave the memory and the log alone. *)
Record inert (s s' : sst) : Prop := {
  in_next : s_next s' = s_next s; in_freed : s_freed s' = s_freed s; in_data : s_data s' = s_data s;
  in_neg : s_neg s' = s_neg s; in_chans : s_chans s' = s_chans s; in_mask : s_mask s' = s_mask s;
  in_flag : s_flag s' = s_flag s; in_log : s_log s' = s_log s }.
Lemma inert_keep : forall s p v, inert s (keep s p v).
Proof. intros s [] [x|]; constructor; reflexivity. Qed.
Lemma inert_method : forall s m, inert s (with_method s m).
Proof. intros. constructor; reflexivity. Qed.
Lemma inert_trans : forall a b c, inert a b -> inert b c -> inert a c.
Proof. intros a b c [] []. constructor; congruence. Qed.
Lemma inert_refl : forall a, inert a a.
Proof. intros. constructor; reflexivity. Qed.
Lemma method_keep : forall s p v, s_method (keep s p v) = s_method s.
Proof. intros s [] [x|]; reflexivity. Qed.

Ltac inerts := repeat first [apply inert_refl | eapply inert_trans; [|apply inert_method] | eapply inert_trans; [|apply inert_keep]].

(** The application says no, or yes without a password, or yes with one. *)
Lemma goes_no : forall h s g c r, says h (g_mech g) c = r -> goes h s g (note s [OSaid (g_mech g) c r]) g.
Proof.
  intros h s g c r E. constructor; cbn [note s_data s_neg s_chans s_mask s_flag s_method s_log]; auto.
  - exists [OSaid (g_mech g) c r]. split; [reflexivity|]. constructor; [|constructor]. exists c. rewrite E. reflexivity.
  - intros K S pw P. destruct (K S pw P) as [M [c' [I E']]]. split; [assumption|]. exists c'. split; [|assumption].
    cbn [note s_log]. rewrite since_said by discriminate. apply in_or_app. left. assumption.
Qed.
Lemma goes_yes : forall h s g c r s',
  says h (g_mech g) c = r -> inert (note s [OSaid (g_mech g) c r]) s' -> s_method s' = Some (g_mech g) ->
  goes h s g s' g.
Proof.
  intros h s g c r s' E [] M. destruct (goes_no h s g c r E). constructor; auto; try congruence.
  - intro D. rewrite in_data0. auto.
  - rewrite in_log0. assumption.
  - intro X. specialize (go_mem0 X). apply (mem_same _ g s') in go_mem0; assumption.
  - intros K S pw P. destruct (go_known0 K S pw P) as [_ X]. split; [assumption|].
    rewrite in_log0. assumption.
Qed.
Lemma goes_password : forall h s g c pw s1 g1 s',
  says h (g_mech g) c = HPassword pw ->
  prop_set (note s [OSaid (g_mech g) c (HPassword pw)]) g PPassword (Some pw) = (s1, g1) ->
  inert s1 s' -> s_method s' = Some (g_mech g) -> goes h s g s' g1.
Proof.
  intros h s g c pw s1 g1 s' E P [] M. pose proof P as P0. unfold prop_set in P. injection P as <- <-.
  cbn [s_next s_freed s_data s_neg s_chans s_mask s_flag s_log note] in *.
  constructor; auto; try congruence; try (intros; congruence).
  - exists [OSaid (g_mech g) c (HPassword pw)]. split; [assumption|]. constructor; [|constructor]. exists c. rewrite E. reflexivity.
  - intro X. apply (mem_same s g (note s [OSaid (g_mech g) c (HPassword pw)])) in X; [|reflexivity..].
    pose proof (mem_set _ _ _ _ _ _ X P0) as Y. apply (mem_same _ _ s') in Y; assumption.
  - intros K S pw' P'. cbn [put g_password value option_map snd] in P'. injection P' as <-. cbn [put g_mech] in *.
    split; [assumption|]. exists c. split; [|assumption]. rewrite in_log0, since_said by discriminate.
    apply in_or_app. right. left. reflexivity.
Qed.

(** The state after a yes: the identity kept is the one the session has. *)
Definition kept0 (s' : sst) (g' : sess) (c : creds) : Prop :=
  (g_mech g' = MPlain \/ secret (g_mech g') -> c_token c = None ->
     s_authid s' = g_authid g' /\ c_authid c = value (g_authid g') /\ g_authid g' <> None) /\
  (forall z, c_authzid c = Some z -> s_authzid s' = g_authzid g' /\ value (g_authzid g') = Some z).
Definition kept (s' : sst) (g' : sess) (c : creds) : Prop :=
  kept0 s' g' c /\ (forall k, c_token c = Some k -> s_authid s' = g_token g' /\ value (g_token g') = Some k) /\
  (g_mech g' = MExternal -> c_authzid c <> None) /\ (g_mech g' = MAnon -> c_token c <> None).
Definition yes (h : handlers) (s : sst) (g : sess) (s' : sst) (g' : sess) : Prop :=
  s_method s' = Some (g_mech g) /\
  exists c, s_log s' = s_log s ++ [OSaid (g_mech g) c (says h (g_mech g) c)] /\
            says h (g_mech g) c <> HDeny /\ kept s' g' c.

Lemma keep_authid : forall s p v, p <> PAuthid -> p <> PToken -> s_authid (keep s p v) = s_authid s.
Proof. intros s [] [x|] A B; try reflexivity; contradiction. Qed.
Lemma keep_authzid : forall s p v, p <> PAuthzid -> s_authzid (keep s p v) = s_authzid s.
Proof. intros s [] [x|] A; try reflexivity; contradiction. Qed.

Lemma generic_ok : forall h f s g s' g' r,
  s_neg s = Some (g_mech g) -> h_common h (g_mech g) = Some f -> check_properties (s_neg s) g = true ->
  generic f (g_mech g) s g = (s', g', r) ->
  goes h s g s' g' /\ (r = GOk -> yes h s g s' g').
Proof.
  intros h f s g s' g' r N H CP E. unfold generic in E.
  set (c := creds_all g) in *.
  assert (SY : says h (g_mech g) c = f c) by (unfold says; rewrite H; reflexivity).
  assert (KP : forall s1 g1, g_authid g1 = g_authid g -> g_authzid g1 = g_authzid g -> g_token g1 = g_token g -> g_mech g1 = g_mech g ->
    kept (with_method (keep (keep (keep (keep s1 PAuthid (g_authid g1)) PAuthzid (g_authzid g1)) PRealm (g_realm g1)) PToken (g_token g1)) (g_mech g)) g1 c).
  { intros s1 g1 EA EZ ET EM. split; [split|split; [|split]].
    - intros M TK. cbn [creds_all c c_token] in TK. rewrite ET. destruct (g_token g) as [[? ?]|]; [discriminate|].
      cbn [keep with_method s_authid]. rewrite keep_authid, keep_authid by discriminate.
      rewrite N in CP. rewrite EA. rewrite EM in M. destruct (g_mech g); try (exfalso; destruct M as [M|[M|M]]; discriminate M);
        cbn [check_properties] in CP; destruct (g_authid g) as [a|] eqn:EGA; try discriminate CP; cbn [keep s_authid]; conj;
          solve [reflexivity | discriminate | subst c; cbn [creds_all c_authid]; rewrite EGA; reflexivity].
    - intros z Z1. cbn [with_method s_authzid]. rewrite keep_authzid, keep_authzid by discriminate.
      subst c. cbn [creds_all c_authzid] in Z1. rewrite EZ. destruct (g_authzid g) as [a|]; [|discriminate].
      cbn [keep s_authzid]. split; [reflexivity|assumption].
    - intros k TK. subst c. cbn [creds_all c_token] in TK. cbn [with_method s_authid]. rewrite ET.
      destruct (g_token g) as [a|]; [|discriminate]. cbn [keep s_authid]. split; [reflexivity|assumption].
    - intros M. rewrite EM in M. rewrite N, M in CP. cbn [check_properties] in CP. subst c. cbn [creds_all c_authzid].
      destruct (g_authzid g); [discriminate|discriminate CP].
    - intros M. rewrite EM in M. rewrite N, M in CP. cbn [check_properties] in CP. subst c. cbn [creds_all c_token].
      destruct (g_token g); [discriminate|discriminate CP]. }
  destruct (f c) as [| |pw] eqn:F.
  - injection E as <- <- <-. split; [|discriminate]. apply goes_no. assumption.
  - injection E as <- <- <-. split.
    + eapply goes_yes; [exact SY|inerts|reflexivity].
    + intros _. split; [reflexivity|]. exists c. rewrite SY. conj.
      * cbn [with_method s_log].
        rewrite (in_log _ _ (inert_keep _ _ _)), (in_log _ _ (inert_keep _ _ _)), (in_log _ _ (inert_keep _ _ _)), (in_log _ _ (inert_keep _ _ _)). reflexivity.
      * discriminate.
      * apply KP; reflexivity.
  - destruct (prop_set (note s [OSaid (g_mech g) c (HPassword pw)]) g PPassword (Some pw)) as [s1 g1] eqn:P.
    injection E as <- <- <-. split.
    + eapply goes_password; [exact SY|exact P|inerts|reflexivity].
    + intros _. split; [reflexivity|]. exists c. rewrite SY. conj.
      * cbn [with_method s_log].
        rewrite (in_log _ _ (inert_keep _ _ _)), (in_log _ _ (inert_keep _ _ _)), (in_log _ _ (inert_keep _ _ _)), (in_log _ _ (inert_keep _ _ _)).
        unfold prop_set in P. injection P as <- <-. reflexivity.
      * discriminate.
      * unfold prop_set in P. injection P as <- <-. apply KP; reflexivity.
Qed.

Lemma realm_ok : forall h s g s' g' r, realm h s g = (s', g', r) ->
  goes h s g s' g' /\ s_log s' = s_log s /\ s_neg s' = s_neg s /\ g_authid g' = g_authid g /\ g_authzid g' = g_authzid g /\ g_mech g' = g_mech g.
Proof.
  intros h s g s' g' r E. unfold realm in E. destruct (h_realm h) as [z|].
  - destruct (prop_set s g PRealm (Some z)) as [s1 g1] eqn:P. injection E as <- <- <-.
    split; [eapply goes_set; [|exact P]; discriminate|]. unfold prop_set in P. injection P as <- <-. conj; reflexivity.
  - injection E as <- <- <-. split; [apply goes_refl|]. conj; reflexivity.
Qed.

Lemma says_check : forall h m f c, h_common h m = None -> h_check h m = Some f -> ~ secret m ->
  says h m c = if f c then HAccept else HDeny.
Proof.
  intros h m f c A B N. unfold says. rewrite A. destruct m; try (rewrite B; reflexivity); exfalso; apply N; [left|right]; reflexivity.
Qed.
Lemma says_pass : forall h m f c, h_common h m = None -> h_pass h m = Some f -> secret m ->
  says h m c = match f c with Some p => HPassword p | None => HDeny end.
Proof. intros h m f c A B [->| ->]; unfold says; rewrite A, B; reflexivity. Qed.
Lemma not_secret : ~ secret MPlain /\ ~ secret MAnon /\ ~ secret MExternal.
Proof. conj; intros [E|E]; discriminate. Qed.

Ltac logs := cbn [with_method s_log]; repeat rewrite (in_log _ _ (inert_keep _ _ _)).

Lemma anonymous_ok : forall h s g s' g' r,
  g_mech g = MAnon -> h_common h MAnon = None -> check_properties (Some MAnon) g = true -> anonymous h s g = (s', g', r) ->
  goes h s g s' g' /\ (r = GOk -> yes h s g s' g').
Proof.
  intros h s g s' g' r M N CP E. unfold anonymous in E. destruct (h_check h MAnon) as [f|] eqn:F.
  2:{ injection E as <- <- <-. split; [apply goes_refl|discriminate]. }
  set (c := mkC None None None (value (g_token g)) None) in *.
  pose proof (says_check h MAnon f c N F (proj1 (proj2 not_secret))) as SY.
  destruct (f c); injection E as <- <- <-; rewrite <- M in *.
  - split; [eapply goes_yes; [exact SY|inerts|reflexivity]|]. intros _. split; [reflexivity|]. exists c. rewrite SY. conj.
    + logs. reflexivity.
    + discriminate.
    + split; [split; [intros [X|[X|X]]; rewrite M in X; discriminate|]; intros z Z1; discriminate|].
      split; [|split; [intros X; congruence|]].
      * intros k TK. subst c. cbn [c_token] in TK. cbn [with_method s_authid].
        destruct (g_token g) as [a|]; [|discriminate]. cbn [keep s_authid]. split; [reflexivity|assumption].
      * intros _. rewrite M in CP. cbn [check_properties] in CP. subst c. cbn [c_token]. destruct (g_token g); [discriminate|discriminate CP].
  - split; [apply goes_no; assumption|discriminate].
Qed.
Lemma external_ok : forall h s g s' g' r,
  g_mech g = MExternal -> h_common h MExternal = None -> check_properties (Some MExternal) g = true -> external h s g = (s', g', r) ->
  goes h s g s' g' /\ (r = GOk -> yes h s g s' g').
Proof.
  intros h s g s' g' r M N CP E. unfold external in E. destruct (h_check h MExternal) as [f|] eqn:F.
  2:{ injection E as <- <- <-. split; [apply goes_refl|discriminate]. }
  set (c := mkC None (value (g_authzid g)) None None None) in *.
  pose proof (says_check h MExternal f c N F (proj2 (proj2 not_secret))) as SY.
  destruct (f c); injection E as <- <- <-; rewrite <- M in *.
  - split; [eapply goes_yes; [exact SY|inerts|reflexivity]|]. intros _. split; [reflexivity|]. exists c. rewrite SY. conj.
    + logs. reflexivity.
    + discriminate.
    + split; [|split; [intros k TK; discriminate|split; [|intros X; congruence]];
        intros _; rewrite M in CP; cbn [check_properties] in CP; subst c; cbn [c_authzid]; destruct (g_authzid g); [discriminate|discriminate CP]].
      split; [intros [X|[X|X]]; rewrite M in X; discriminate|]. intros z Z1. cbn [with_method s_authzid]. subst c. cbn [c_authzid] in Z1.
      destruct (g_authzid g) as [a|]; [|discriminate]. cbn [keep s_authzid]. split; [reflexivity|assumption].
  - split; [apply goes_no; assumption|discriminate].
Qed.
Lemma plain_ok : forall h s g s' g' r,
  g_mech g = MPlain -> h_common h MPlain = None -> check_properties (Some MPlain) g = true -> plain h s g = (s', g', r) ->
  goes h s g s' g' /\ (r = GOk -> yes h s g s' g').
Proof.
  intros h s g s' g' r M N CP E. unfold plain in E. destruct (h_check h MPlain) as [f|] eqn:F.
  2:{ injection E as <- <- <-. split; [apply goes_refl|discriminate]. }
  set (c := mkC (value (g_authid g)) (value (g_authzid g)) (value (g_password g)) None None) in *.
  pose proof (says_check h MPlain f c N F (proj1 not_secret)) as SY.
  destruct (f c); injection E as <- <- <-; rewrite <- M in *.
  - split; [eapply goes_yes; [exact SY|inerts|reflexivity]|]. intros _. split; [reflexivity|]. exists c. rewrite SY. conj.
    + logs. reflexivity.
    + discriminate.
    + split; [|split; [intros k TK; discriminate|split; intros X; cbn [put g_mech] in X; congruence]]. split.
      * intros _ _. cbn [with_method s_authid]. rewrite keep_authid by discriminate. subst c. cbn [c_authid].
        rewrite M in CP. cbn [check_properties] in CP.
        destruct (g_authid g) as [a|]; [|discriminate CP]. cbn [keep s_authid]. conj; [reflexivity..|discriminate].
      * intros z Z1. cbn [with_method s_authzid]. subst c. cbn [c_authzid] in Z1.
        destruct (g_authzid g) as [a|]; [|discriminate]. cbn [keep s_authzid]. split; [reflexivity|assumption].
  - split; [apply goes_no; assumption|discriminate].
Qed.
Lemma cram_ok : forall h s g s' g' r,
  g_mech g = MCram -> h_common h MCram = None -> check_properties (Some MCram) g = true -> cram h s g = (s', g', r) ->
  goes h s g s' g' /\ (r = GOk -> yes h s g s' g').
Proof.
  intros h s g s' g' r M N CP E. unfold cram in E. destruct (h_pass h MCram) as [f|] eqn:F.
  2:{ injection E as <- <- <-. split; [apply goes_refl|discriminate]. }
  set (c := mkC (value (g_authid g)) None None None None) in *.
  pose proof (says_pass h MCram f c N F (or_introl eq_refl)) as SY.
  destruct (f c) as [pw|].
  - rewrite <- M in *. destruct (prop_set _ _ _ _) as [s1 g1] eqn:P. injection E as <- <- <-.
    split; [eapply goes_password; [exact SY|exact P|inerts|reflexivity]|].
    intros _. split; [reflexivity|]. exists c. rewrite SY. unfold prop_set in P. injection P as <- <-. conj.
    + logs. reflexivity.
    + discriminate.
    + split; [|split; [intros k TK; discriminate|split; intros X; cbn [put g_mech] in X; congruence]]. split.
      * intros _ _. cbn [with_method s_authid]. subst c. cbn [c_authid put g_authid].
        rewrite M in CP. cbn [check_properties] in CP.
        destruct (g_authid g) as [a|]; [|discriminate CP]. cbn [keep s_authid]. conj; [reflexivity..|discriminate].
      * intros z Z1. discriminate.
  - injection E as <- <- <-. rewrite <- M in *. split; [apply goes_no; assumption|discriminate].
Qed.
Lemma digest_ok : forall h s g s' g' r,
  g_mech g = MDigest -> h_common h MDigest = None -> check_properties (Some MDigest) g = true -> digest h s g = (s', g', r) ->
  goes h s g s' g' /\ (r = GOk -> yes h s g s' g').
Proof.
  intros h s g s' g' r M N CP E. unfold digest in E. destruct (h_pass h MDigest) as [f|] eqn:F.
  2:{ injection E as <- <- <-. split; [apply goes_refl|discriminate]. }
  assert (R : exists s1 g1 r1, match g_realm g with Some _ => (s, g, GOk) | None => realm h s g end = (s1, g1, r1) /\
     (goes h s g s1 g1 /\ s_log s1 = s_log s /\ s_neg s1 = s_neg s /\ g_authid g1 = g_authid g /\ g_authzid g1 = g_authzid g /\ g_mech g1 = g_mech g)).
  { destruct (g_realm g).
    - exists s, g, GOk. split; [reflexivity|]. split; [apply goes_refl|conj; reflexivity].
    - destruct (realm h s g) as [[s1 g1] r1] eqn:RE. exists s1, g1, r1. split; [reflexivity|]. eapply realm_ok. exact RE. }
  destruct R as [s1 [g1 [r1 [RE [G1 [L1 [N1 [A1 [Z1 M1]]]]]]]]]. rewrite RE in E. clear RE.
  set (c := mkC (value (g_authid g1)) (value (g_authzid g1)) None None (value (g_realm g1))) in *.
  pose proof (says_pass h MDigest f c N F (or_intror eq_refl)) as SY.
  rewrite M in M1. destruct (f c) as [pw|].
  - rewrite <- M1 in *. destruct (prop_set _ _ _ _) as [s2 g2] eqn:P. injection E as <- <- <-.
    split; [eapply goes_trans; [exact G1|]; eapply goes_password; [exact SY|exact P|inerts|reflexivity]|].
    intros _. unfold yes. rewrite M. split; [reflexivity|]. exists c. rewrite SY. unfold prop_set in P. injection P as <- <-. conj.
    + logs. cbn [note s_log]. rewrite L1. reflexivity.
    + discriminate.
    + split; [|split; [intros k TK; discriminate|split; intros X; cbn [put g_mech] in X; congruence]]. split.
      * intros _ _. cbn [with_method s_authid]. rewrite keep_authid, keep_authid by discriminate. subst c. cbn [c_authid put g_authid].
        rewrite M1 in CP. cbn [check_properties] in CP. rewrite A1.
        destruct (g_authid g) as [a|]; [|discriminate CP]. cbn [keep s_authid]. conj; [reflexivity..|discriminate].
      * intros z Z2. cbn [with_method s_authzid]. rewrite keep_authzid by discriminate. subst c. cbn [c_authzid] in Z2. cbn [put g_authzid].
        destruct (g_authzid g1) as [a|]; [|discriminate]. cbn [keep s_authzid]. split; [reflexivity|assumption].
  - injection E as <- <- <-. rewrite <- M1 in *. split; [eapply goes_trans; [exact G1|]; apply goes_no; assumption|discriminate].
Qed.

Lemma validation_ok : forall h s g a s' g' r,
  s_neg s = Some (g_mech g) -> own (g_mech g) (GCall a) -> validation h s g a = (s', g', r) ->
  goes h s g s' g' /\ (r = GOk -> a <> AskProp PRealm -> yes h s g s' g').
Proof.
  intros h s g a s' g' r N O E.
  assert (G : a = AskProp PRealm \/
    (a <> AskProp PRealm /\
    (if negb (check_properties (s_neg s) g) then (s, g, GNoCallback) else
      match s_neg s with
      | None => (s, g, GNoCallback)
      | Some m =>
          match h_common h m with
          | Some f => generic f m s g
          | None =>
              match a with
              | AskAnon => anonymous h s g
              | AskSimple => plain h s g
              | AskProp PPassword =>
                  match m with
                  | MCram => cram h s g
                  | MDigest => digest h s g
                  | _ => (s, g, GNoCallback)
                  end
              | AskExternal => external h s g
              | _ => (s, g, GNoCallback)
              end
          end
      end) = (s', g', r))).
  { unfold validation in E. destruct a as [[]| | | |]; try (left; reflexivity); right; (split; [discriminate|]); exact E. }
  destruct G as [->|[A E']].
  - cbn [validation] in E. destruct (realm_ok h s g s' g' r E) as [X _]. split; [exact X|]. intros _ NE. contradiction NE. reflexivity.
  - clear E. rename E' into E. destruct (check_properties (s_neg s) g) eqn:CP; cbn [negb] in E.
    2:{ injection E as <- <- <-. split; [apply goes_refl|discriminate]. }
    rewrite N in E, CP. destruct (h_common h (g_mech g)) as [f|] eqn:HC.
    + rewrite <- N in CP. destruct (generic_ok h f s g s' g' r N HC CP E) as [G Y]. split; [exact G|]. intros R _. exact (Y R).
    + assert (D : (s, g, GNoCallback) = (s', g', r) -> goes h s g s' g' /\ (r = GOk -> a <> AskProp PRealm -> yes h s g s' g')).
      { intro X. injection X as <- <- <-. split; [apply goes_refl|discriminate]. }
      destruct a as [p| | | |].
      * destruct p; try (exact (D E)). destruct (g_mech g) eqn:M; try (exact (D E)).
        -- destruct (cram_ok h s g s' g' r M HC CP E) as [G Y]. split; [exact G|]. intros R _. exact (Y R).
        -- destruct (digest_ok h s g s' g' r M HC CP E) as [G Y]. split; [exact G|]. intros R _. exact (Y R).
      * cbn [own] in O. rewrite O in *. destruct (anonymous_ok h s g s' g' r O HC CP E) as [G Y]. split; [exact G|]. intros R _. exact (Y R).
      * cbn [own] in O. rewrite O in *. destruct (plain_ok h s g s' g' r O HC CP E) as [G Y]. split; [exact G|]. intros R _. exact (Y R).
      * cbn [own] in O. rewrite O in *. destruct (external_ok h s g s' g' r O HC CP E) as [G Y]. split; [exact G|]. intros R _. exact (Y R).
      * exact (D E).
Qed.

Lemma op_ok : forall h s g o s' g' r,
  s_neg s = Some (g_mech g) -> own (g_mech g) o -> op h s g o = (s', g', r) ->
  goes h s g s' g' /\ (r = Some GOk -> (exists a, o = GCall a /\ a <> AskProp PRealm) \/ o = GGet PPassword -> yes h s g s' g').
Proof.
  intros h s g o s' g' r N O E. destruct o as [p v|p|a]; cbn [op] in E.
  - destruct (prop_set s g p v) as [s1 g1] eqn:P. injection E as <- <- <-. split; [|discriminate].
    eapply goes_set; [|exact P]. intros S ->. cbn [own] in O. destruct O as [A B]. destruct S; contradiction.
  - destruct (fast g p) eqn:F.
    + injection E as <- <- <-. split; [apply goes_refl|discriminate].
    + destruct (validation h s g (AskProp p)) as [[s1 g1] r1] eqn:V. injection E as <- <- <-.
      destruct (validation_ok h s g (AskProp p) s1 g1 r1 N Logic.I V) as [G Y]. split; [exact G|].
      intros R [[a [X _]]|X]; [discriminate|]. injection X as ->. injection R as ->. apply Y; [reflexivity|discriminate].
  - destruct (validation h s g a) as [[s1 g1] r1] eqn:V. injection E as <- <- <-.
    destruct (validation_ok h s g a s1 g1 r1 N O V) as [G Y]. split; [exact G|].
    intros R [[b [X NE]]|X]; [|discriminate]. injection X as <-. injection R as ->. apply Y; [reflexivity|assumption].
Qed.

Lemma ops_ok : forall h l s g last s' g' r,
  s_neg s = Some (g_mech g) -> Forall (own (g_mech g)) l -> ops h s g l last = (s', g', r) -> goes h s g s' g'.
Proof.
  intros h l. induction l as [|o l IH]; intros s g last s' g' r N O E; cbn [ops] in E.
  - injection E as <- <- <-. apply goes_refl.
  - inversion O as [|x y O1 O2]; subst. destruct (op h s g o) as [[s1 g1] r1] eqn:P.
    destruct (op_ok h s g o s1 g1 r1 N O1 P) as [G _]. eapply goes_trans; [exact G|].
    assert (M : g_mech g1 = g_mech g) by apply (go_mech _ _ _ _ _ G).
    eapply IH; [|rewrite M; exact O2|exact E]. rewrite (go_neg _ _ _ _ _ G), M. exact N.
Qed.
Lemma ops_app : forall h l1 l2 s g last,
  ops h s g (l1 ++ l2) last = let '(s1, g1, r1) := ops h s g l1 last in ops h s1 g1 l2 r1.
Proof.
  intros h l1. induction l1 as [|o l1 IH]; intros l2 s g last; cbn [ops app]; [reflexivity|].
  destruct (op h s g o) as [[s1 g1] r1]. apply IH.
Qed.
