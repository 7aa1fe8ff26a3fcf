(** SASL, the listener: the identity, and how long it lasts. *)
From Verif Require Import Base SaslModel SaslSpec SaslProofs SaslProofs2 SaslProofs3.

Ltac conj := repeat match goal with |- _ /\ _ => split end.

(** Filling in the properties. *)
Lemma fills_ok : forall h l s g last s' g' r,
  s_neg s = Some (g_mech g) -> Forall (own (g_mech g)) l -> Forall fills l -> ops h s g l last = (s', g', r) ->
  s_log s' = s_log s /\ (secret (g_mech g) -> g_password g' = g_password g).
Proof.
  intros h l. induction l as [|o l IH]; intros s g last s' g' r N O F E; cbn [ops] in E.
  - injection E as <- <- <-. split; auto.
  - inversion O as [|x y O1 O2]; subst. inversion F as [|x y F1 F2]; subst.
    destruct (op h s g o) as [[s1 g1] r1] eqn:P.
    destruct (op_ok h s g o s1 g1 r1 N O1 P) as [G _].
    assert (M : g_mech g1 = g_mech g) by apply (go_mech _ _ _ _ _ G).
    assert (ONE : s_log s1 = s_log s /\ (secret (g_mech g) -> g_password g1 = g_password g)).
    { destruct F1 as [[p [v ->]]| ->]; cbn [op] in P.
      - destruct (prop_set s g p v) as [s2 g2] eqn:Q. injection P as <- <- <-. unfold prop_set in Q. injection Q as <- <-.
        split; [reflexivity|]. intro S. destruct p; try reflexivity. exfalso. cbn [own] in O1. destruct O1 as [OA OB]. destruct S as [S|S]; contradiction.
      - destruct (fast g PRealm); [injection P as <- <- <-; split; auto|]. cbn [validation] in P. unfold realm in P.
        destruct (h_realm h) as [z|].
        + destruct (prop_set s g PRealm (Some z)) as [s2 g2] eqn:Q. injection P as <- <- <-. unfold prop_set in Q. injection Q as <- <-.
          split; reflexivity.
        + injection P as <- <- <-. split; auto. }
    destruct ONE as [L1 P1]. rewrite <- M in O2. destruct (IH s1 g1 r1 s' g' r) as [L2 P2]; try assumption.
    + rewrite (go_neg _ _ _ _ _ G), M. exact N.
    + split; [congruence|]. intro S. rewrite P2 by (rewrite M; exact S). auto.
Qed.

(** Asking for the password: without GSASL_OK it is not set. *)
Lemma ask_password : forall h s g s' g' r,
  validation h s g (AskProp PPassword) = (s', g', r) -> r <> GOk -> g_password g' = g_password g.
Proof.
  intros h s g s' g' r E NR. unfold validation in E.
  assert (D : (s, g, GNoCallback) = (s', g', r) -> g_password g' = g_password g).
  { intro X. injection X as <- <- <-. reflexivity. }
  destruct (negb (check_properties (s_neg s) g)); [exact (D E)|].
  destruct (s_neg s) as [m|]; [|exact (D E)].
  destruct (h_common h m) as [f|].
  - unfold generic in E. destruct (f (creds_all g)).
    + injection E as <- <- <-. reflexivity.
    + injection E as <- <- <-. contradiction NR. reflexivity.
    + destruct (prop_set _ _ _ _) as [s1 g1]. injection E as <- <- <-. contradiction NR. reflexivity.
  - destruct m; try (exact (D E)).
    + unfold cram in E. destruct (h_pass h MCram) as [f|]; [|exact (D E)]. destruct (f _).
      * destruct (prop_set _ _ _ _) as [s1 g1]. injection E as <- <- <-. contradiction NR. reflexivity.
      * injection E as <- <- <-. reflexivity.
    + unfold digest in E. destruct (h_pass h MDigest) as [f|]; [|exact (D E)].
      assert (RR : exists s1 g1 r1, match g_realm g with Some _ => (s, g, GOk) | None => realm h s g end = (s1, g1, r1) /\ g_password g1 = g_password g).
      { destruct (g_realm g); [exists s, g, GOk; auto|]. unfold realm. destruct (h_realm h) as [z|]; [|exists s, g, GNoCallback; auto].
        destruct (prop_set s g PRealm (Some z)) as [s2 g2] eqn:Q. exists s2, g2, GOk. split; [reflexivity|].
        unfold prop_set in Q. injection Q as <- <-. reflexivity. }
      destruct RR as [s1 [g1 [r1 [RE PE]]]]. rewrite RE in E. destruct (f _).
      * destruct (prop_set _ _ _ _) as [s2 g2]. injection E as <- <- <-. contradiction NR. reflexivity.
      * injection E as <- <- <-. exact PE.
Qed.

(** Events that are not messages, after the completion. *)
Lemma later : forall h l s s', s_mask s = true -> (forall e, In e l -> is_frame e = false) -> srun h s l = Ok s' ->
  s_mask s' = true /\ s_freed s' = s_freed s /\ s_authid s' = s_authid s /\ s_authzid s' = s_authzid s.
Proof.
  intros h l. induction l as [|e l IH]; intros s s' M F E; cbn [srun] in E.
  - injection E as <-. auto.
  - apply obind_ok in E. destruct E as [s1 [E1 E2]].
    assert (X : s_mask s1 = true /\ s_freed s1 = s_freed s /\ s_authid s1 = s_authid s /\ s_authzid s1 = s_authzid s).
    { destruct e as [ch m bg b l0 r|ch b l0 r|ch]; cbn [sstep] in E1.
      - rewrite M, orb_true_r in E1. injection E1 as <-. auto.
      - specialize (F _ (or_introl eq_refl)). discriminate.
      - injection E1 as <-. auto. }
    destruct X as [M1 [F1 [A1 Z1]]]. destruct (IH s1 s' M1 (fun e H => F e (or_intror H)) E2) as [M2 [F2 [A2 Z2]]].
    conj; congruence.
Qed.

Lemma read_session : forall s g p a v, mem s g -> fast g p = Some (a, v) -> read s (Some (a, v)) = Ok (Some v).
Proof.
  intros s g p a v [_ [M _]] F. cbn [read]. destruct (existsb (Nat.eqb a) (s_freed s)) eqn:X; [|reflexivity].
  exfalso. apply existsb_exists in X. destruct X as [b [I B]]. apply Nat.eqb_eq in B. subst b. exact (proj2 (M p a v F) I).
Qed.

Theorem identity_thm : forall h l s e s' d m resp l' o l2 s2,
  faithful h sasl0 l -> srun h sasl0 l = Ok s -> library h s e -> sstep h s e = Ok s' ->
  s_log s' = s_log s ++ d -> In (OComplete m resp) d ->
  ops_of e = l' ++ [o] -> Forall fills l' -> asks m o -> (is_frame e = true -> not_asked (s_log s)) ->
  (forall e2, In e2 l2 -> is_frame e2 = false) -> srun h s' l2 = Ok s2 ->
  exists c, In (OSaid m c (says h m c)) d /\ says h m c <> HDeny /\
    (m = MCram \/ m = MDigest -> exists pw, says h m c = HPassword pw /\ resp = Some pw) /\
    (m = MPlain \/ m = MCram \/ m = MDigest -> c_token c = None -> c_authid c <> None /\ auth_id s2 = Ok (c_authid c)) /\
    (forall z, c_authzid c = Some z -> authz_id s2 = Ok (Some z)) /\
    (forall k, c_token c = Some k -> auth_id s2 = Ok (Some k)) /\
    (m = MExternal -> c_authzid c <> None) /\ (m = MAnon -> c_token c <> None).
Proof.
  intros h l s e s' d m resp l' o l2 s2 FA RUN LIB ST LOG IN OPS FI AS NA LA R2.
  pose proof (run_inv h l sasl0 s (inv0 h) FA RUN) as I.
  destruct (complete_step h s e s' m resp d I LIB ST LOG IN)
    as [s0 [g [s1 [g1 [last [pre [b [D [GM [I0 [LP [WHERE [OP [[OW CT] [-> FIN]]]]]]]]]]]]]]].
  specialize (CT eq_refl). rewrite OPS in OP, OW, CT. pose proof (v_neg _ _ I0 g D) as N.
  rewrite ops_app in OP. destruct (ops h s0 g l' None) as [[sa ga] ra] eqn:OA.
  rewrite Forall_app in OW. destruct OW as [OW1 OW2]. inversion OW2 as [|x y OWO _]; subst x y.
  rewrite <- GM in OW1, OWO. pose proof (ops_ok h l' s0 g None sa ga ra N OW1 OA) as GA.
  destruct (fills_ok h l' s0 g None sa ga ra N OW1 FI OA) as [LA0 PA].
  cbn [ops] in OP. destruct (op h sa ga o) as [[sb gb] rb] eqn:OB. injection OP as -> -> ->.
  assert (MA : g_mech ga = g_mech g) by apply (go_mech _ _ _ _ _ GA).
  assert (NN : s_neg sa = Some (g_mech ga)) by (rewrite (go_neg _ _ _ _ _ GA), MA; exact N).
  rewrite <- MA in OWO.
  destruct (op_ok h sa ga o s1 g1 last NN OWO OB) as [GB YES].
  (* the secret was not known before *)
  assert (NP : secret m -> g_password ga = None).
  { intro S. rewrite <- GM in S. rewrite (PA S).
    destruct FIN as [[FR [-> _]]|[FR [-> _]]].
    - destruct (g_password g) as [[a pw]|] eqn:PG; [|reflexivity]. exfalso.
      destruct (v_known _ _ I g D S pw) as [_ [c [X _]]]; [rewrite PG; reflexivity|]. exact (NA FR _ _ _ X).
    - cbn [new_session with_data s_data] in D. injection D as <-. reflexivity. }
  assert (Y : yes h sa ga s1 g1).
  { apply YES.
    - destruct m; cbn [asks] in AS; cbv iota in CT; try (apply CT);
        (subst o; cbn [op] in OB; specialize (NP (ltac:(unfold secret; auto))); cbn [fast] in OB; rewrite NP in OB;
         destruct (validation h sa ga (AskProp PPassword)) as [[sv gv] rv] eqn:V; injection OB as -> -> <-;
         destruct rv; [reflexivity| |];
         exfalso; apply (proj1 CT); rewrite (ask_password _ _ _ _ _ _ V), NP by discriminate; reflexivity).
    - destruct m; cbn [asks] in AS; subst o; try (right; reflexivity); left; eexists; (split; [reflexivity|discriminate]). }
  destruct Y as [MM [c [LC [ND KP]]]]. rewrite MA, GM in MM, LC, ND.
  assert (DD : d = pre ++ [OSaid m c (says h m c); OComplete m (resp_of b)]).
  { assert (LX : s_log s' = s_log s ++ pre ++ [OSaid m c (says h m c); OComplete m (resp_of b)]).
    { assert (L1 : s_log s' = s_log s1 ++ [OComplete m (resp_of b)]) by (destruct FIN as [[_ [_ ->]]|[_ [_ [ch ->]]]]; reflexivity).
      rewrite L1, LC, LA0, LP, <- !app_assoc. reflexivity. }
    rewrite LOG in LX. apply app_inv_head in LX. exact LX. }
  exists c. conj.
  - subst d. apply in_or_app. right. left. reflexivity.
  - exact ND.
  - intros S.
    assert (CT2 : value (g_password g1) <> None /\ resp_of b = value (g_password g1)) by (destruct S as [->| ->]; exact CT).
    destruct CT2 as [PW RP]. destruct (value (g_password g1)) as [pw|] eqn:PE; [|contradiction PW; reflexivity].
    exists pw. split; [|exact RP].
    assert (K0 : known h sa ga).
    { intros _ pw0 X. rewrite (NP S) in X. discriminate. }
    assert (GS : secret (g_mech g1)) by (rewrite (go_mech _ _ _ _ _ GB), MA, GM; exact S).
    destruct (go_known _ _ _ _ _ GB K0 GS pw PE) as [_ [c2 [X Y2]]].
    rewrite (go_mech _ _ _ _ _ GB), MA, GM in X. rewrite LC, since_said in X by discriminate.
    apply in_app_or in X. destruct X as [X|[X|[]]]; [|injection X; intros; congruence].
    exfalso. rewrite LA0 in X. destruct FIN as [[FR [-> _]]|[FR [-> _]]].
    + exact (NA FR _ _ _ X).
    + cbn [new_session s_log with_data] in X. unfold since in X. rewrite fold_left_app in X. cbn [fold_left] in X. destruct X.
  - intros S TK. destruct KP as [[KP _] _]. rewrite (go_mech _ _ _ _ _ GB), MA, GM in KP.
    destruct (KP S TK) as [K1 [K2 K3]]. rewrite K2. split; [destruct (g_authid g1); [discriminate|contradiction K3; reflexivity]|].
    assert (MK : s_mask s' = true) by (destruct FIN as [[_ [_ ->]]|[_ [_ [ch ->]]]]; reflexivity).
    destruct (later h l2 s' s2 MK LA R2) as [_ [F2 [A2 _]]].
    assert (X : s_freed s' = s_freed s1 /\ s_authid s' = s_authid s1) by (destruct FIN as [[_ [_ ->]]|[_ [_ [ch ->]]]]; split; reflexivity).
    destruct X as [X1 X2]. unfold auth_id, read. rewrite A2, F2, X1, X2, K1.
    destruct (g_authid g1) as [[a v]|] eqn:GAU; [|reflexivity].
    assert (M1 : mem s1 g1) by (apply (go_mem _ _ _ _ _ GB), (go_mem _ _ _ _ _ GA), (v_mem _ _ I0 g D)).
    exact (read_session s1 g1 PAuthid a v M1 GAU).
  - intros z CZ. destruct KP as [[_ KP] _]. destruct (KP z CZ) as [K1 K2].
    assert (MK : s_mask s' = true) by (destruct FIN as [[_ [_ ->]]|[_ [_ [ch ->]]]]; reflexivity).
    destruct (later h l2 s' s2 MK LA R2) as [_ [F2 [_ A2]]].
    assert (X : s_freed s' = s_freed s1 /\ s_authzid s' = s_authzid s1) by (destruct FIN as [[_ [_ ->]]|[_ [_ [ch ->]]]]; split; reflexivity).
    destruct X as [X1 X2]. unfold authz_id, read. rewrite A2, F2, X1, X2, K1.
    destruct (g_authzid g1) as [[a v]|] eqn:GAU; [|discriminate].
    assert (M1 : mem s1 g1) by (apply (go_mem _ _ _ _ _ GB), (go_mem _ _ _ _ _ GA), (v_mem _ _ I0 g D)).
    rewrite <- K2. exact (read_session s1 g1 PAuthzid a v M1 GAU).
  - intros z CZ. destruct KP as [_ [KP _]]. destruct (KP z CZ) as [K1 K2].
    assert (MK : s_mask s' = true) by (destruct FIN as [[_ [_ ->]]|[_ [_ [ch ->]]]]; reflexivity).
    destruct (later h l2 s' s2 MK LA R2) as [_ [F2 [A2 _]]].
    assert (X : s_freed s' = s_freed s1 /\ s_authid s' = s_authid s1) by (destruct FIN as [[_ [_ ->]]|[_ [_ [ch ->]]]]; split; reflexivity).
    destruct X as [X1 X2]. unfold auth_id, read. rewrite A2, F2, X1, X2, K1.
    destruct (g_token g1) as [[a v]|] eqn:GAU; [|discriminate].
    assert (M1 : mem s1 g1) by (apply (go_mem _ _ _ _ _ GB), (go_mem _ _ _ _ _ GA), (v_mem _ _ I0 g D)).
    rewrite <- K2. exact (read_session s1 g1 PToken a v M1 GAU).
  - intros X. destruct KP as [_ [_ [KP _]]]. apply KP. rewrite (go_mech _ _ _ _ _ GB), MA, GM. exact X.
  - intros X. destruct KP as [_ [_ [_ KP]]]. apply KP. rewrite (go_mech _ _ _ _ _ GB), MA, GM. exact X.
Qed.

Lemma mech_eqb_refl : forall m, mech_eqb m m = true.
Proof. intros []; reflexivity. Qed.
Lemma mech_eqb_eq : forall a b, mech_eqb a b = true -> a = b.
Proof. intros [] []; try reflexivity; discriminate. Qed.

Lemma channel_lem : forall s, is_authenticated s = true <->
  s_flag s = true /\ exists m ch, s_method s = Some m /\ In (ch, m) (s_chans s).
Proof.
  intros s. unfold is_authenticated. split.
  - intros E. apply andb_prop in E. destruct E as [F E]. split; [exact F|].
    destruct (s_method s) as [m|] eqn:M; [|discriminate].
    apply existsb_exists in E. destruct E as [[c m'] [E1 E2]]. cbn [snd] in E2. apply mech_eqb_eq in E2. subst m'.
    exists m, c. auto.
  - intros [F [m [c [M E]]]]. rewrite F, M. apply existsb_exists. exists (c, m). split; [exact E|apply mech_eqb_refl].
Qed.

Theorem completes_thm : forall h l s e s' d m resp,
  faithful h sasl0 l -> srun h sasl0 l = Ok s -> library h s e -> sstep h s e = Ok s' ->
  s_log s' = s_log s ++ d -> In (OComplete m resp) d ->
  (is_frame e = true -> exists ch, In (ch, m) (s_chans s)) ->
  is_authenticated s' = true.
Proof.
  intros h l s e s' d m resp FA RUN LIB ST LOG IN CH.
  pose proof (run_inv h l sasl0 s (inv0 h) FA RUN) as I.
  destruct (complete_step h s e s' m resp d I LIB ST LOG IN)
    as [s0 [g [s1 [g1 [last [pre [b [D [GM [I0 [LP [WHERE [OP [CT [RS FIN]]]]]]]]]]]]]]].
  rewrite <- GM in CT. destruct (ops_vouched h s0 g (ops_of e) s1 g1 last (resp_of b) D I0 CT OP) as [_ MM]. rewrite GM in MM.
  pose proof (ops_ok h (ops_of e) s0 g None s1 g1 last (v_neg _ _ I0 g D) (proj1 CT) OP) as G.
  destruct FIN as [[FR [-> ->]]|[FR [-> [ch ->]]]]; unfold is_authenticated; cbn [open_chan note complete s_flag s_method s_chans andb]; rewrite MM.
  - destruct (CH FR) as [c X]. rewrite (go_chans _ _ _ _ _ G). apply existsb_exists. exists (c, m). split; [exact X|apply mech_eqb_refl].
  - rewrite existsb_app. cbn [existsb snd]. rewrite mech_eqb_refl. cbn [orb]. apply orb_true_r.
Qed.

Definition ends (e : sev) : Prop :=
  match e with SClose _ => True | SFrame _ BBad _ _ => True | _ => False end.
Theorem stays_thm : forall h l s e s',
  faithful h sasl0 l -> srun h sasl0 l = Ok s -> is_authenticated s = true ->
  library h s e -> ~ ends e -> sstep h s e = Ok s' -> is_authenticated s' = true.
Proof.
  intros h l s e s' FA RUN A LIB NE ST. pose proof (run_inv h l sasl0 s (inv0 h) FA RUN) as I.
  pose proof A as A0. unfold is_authenticated in A0. apply andb_true_iff in A0. destruct A0 as [FL CH].
  destruct (v_flag _ _ I FL) as [_ [MK ME]].
  destruct e as [ch m bg b l0 r|ch b l0 r|ch]; cbn [sstep] in ST.
  - rewrite MK, orb_true_r in ST. injection ST as <-. exact A.
  - destruct (has_chan s ch); cbn [negb] in ST; [|injection ST as <-; exact A].
    apply obind_ok in ST. destruct ST as [[[s1 ok] rep] [E1 E2]].
    destruct rep; [|discriminate]. injection E2 as <-.
    assert (STEP : match s_data s with
      | None => UB
      | Some None => UB
      | Some (Some g) =>
          let '(s, g, _) := ops h s g l0 None in
          match r with
          | RMore => Ok (note s [OContinue], true, true)
          | RAuthError => Ok (note s [OError 535], false, true)
          | ROk => Ok (note (complete s) [OComplete (g_mech g) (resp_of b)], true, true)
          | ROther => Ok (note s [OError 454], false, true)
          end
      end = Ok (s1, ok, true)).
    { destruct b; cbn [iterate] in E1; try exact E1; [exfalso; apply NE; exact Logic.I|discriminate]. }
    cbn [library] in LIB. destruct (s_data s) as [[g|]|] eqn:D; try discriminate.
    destruct (ops h s g l0 None) as [[sx gx] last] eqn:OP.
    pose proof (ops_ok h l0 s g None sx gx last (v_neg _ _ I g D) (proj1 LIB) OP) as G.
    assert (SX : s_flag sx = true /\ s_method sx = s_method s /\ s_chans sx = s_chans s).
    { conj; [rewrite (go_flag _ _ _ _ _ G); exact FL| |apply (go_chans _ _ _ _ _ G)].
      destruct (go_method _ _ _ _ _ G) as [X|X]; [exact X|]. rewrite X, ME. symmetry. exact (v_neg _ _ I g D). }
    destruct SX as [SF [SM SC]].
    destruct r; injection STEP as <- <-; unfold is_authenticated; cbn [note complete s_flag s_method s_chans]; rewrite ?SF, SM, SC; exact CH.
  - exfalso. apply NE. exact Logic.I.
Qed.
