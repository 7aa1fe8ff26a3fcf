(** Proofs about the Lua bindings: stacks, thread states, content, connections and SASL. *)
From Coq Require Import String Lia.
From Verif Require Import Base GreetModel HdrModel HdrProofs CodecProofs LuaModel LuaSpec LuaProofs.
Open Scope list_scope.
Open Scope Z_scope.

(** * Stacks *)

Lemma last_snoc A (l : list A) x d : last (l ++ [x]) d = x.
Proof. induction l as [|y [|z r] IH]; [reflexivity | reflexivity | exact IH]. Qed.
Lemma bridge_top st r b st' : bridge BTop st r = Ok (b, st') -> b = said r.
Proof.
  unfold bridge. destruct (MINSTACK <? zlen st + CALLROOM); [discriminate|]. intros E.
  assert (E' : (as_bool (last (match r with HRet v => st ++ [v] | HErr m => st ++ [LStr m] end) LNil)) = b)
    by (destruct r; congruence).
  rewrite <- E'. destruct r; rewrite last_snoc; [destruct v|]; reflexivity.
Qed.
Lemma bridges_top cs : forall st bs st', Forall (fun c => fst c <> BEvent) cs -> bridges st cs = Ok (bs, st') ->
  bs = map (fun c => match fst c with BTop => said (snd c) | _ => false end) cs.
Proof.
  induction cs as [|[k r] cs IH]; intros st bs st' F E; cbn [bridges] in E.
  - injection E as <- _. reflexivity.
  - inversion F as [|? ? N F']; subst. destruct (bridge k st r) as [[b st1]|] eqn:B; [|discriminate]. cbn [obind] in E.
    destruct (bridges st1 cs) as [[bs2 st2]|] eqn:R; [|discriminate]. cbn [obind] in E. injection E as <- _.
    cbn [map fst snd]. rewrite (IH _ _ _ F' R). f_equal. destruct k.
    + now elim N.
    + now apply (bridge_top st r b st1).
    + unfold bridge in B. destruct (MINSTACK <? zlen st + CALLROOM); [discriminate|]. congruence.
Qed.
Lemma bridge_room k st r : zlen st <= 16 -> exists b st', bridge k st r = Ok (b, st') /\ zlen st' <= zlen st + 1.
Proof.
  intros L. unfold bridge, MINSTACK, CALLROOM. destruct (Z.ltb_spec 20 (zlen st + 4)); [lia|].
  destruct k, r; eexists _, _; (split; [reflexivity|]); rewrite ?zlen_app; change (zlen [_]) with 1; lia.
Qed.
Lemma bridges_room cs : forall st, zlen st + zlen cs <= 17 -> exists bs st', bridges st cs = Ok (bs, st').
Proof.
  induction cs as [|[k r] cs IH]; intros st L; cbn [bridges]; [eauto|].
  rewrite zlen_cons in L. pose proof (zlen_pos _ cs).
  destruct (bridge_room k st r ltac:(lia)) as (b & st' & E & L'). rewrite E. cbn [obind].
  destruct (IH st' ltac:(lia)) as (bs & st2 & E2). rewrite E2. cbn [obind]. eauto.
Qed.
Lemma bridges_void cs : Forall (fun c => fst c = BVoid /\ exists v, snd c = HRet v) cs ->
  exists bs, bridges [] cs = Ok (bs, []).
Proof.
  induction 1 as [|[k r] cs [K [v R]] F [bs IH]]; cbn [bridges]; [eauto|].
  cbn in K, R. subst k r. cbn. rewrite IH. cbn. eauto.
Qed.

(** * The states of the threads *)

Lemma find_app tbl k k' s : find_state (tbl ++ [(k', s)]) k =
  match find_state tbl k with Some x => Some x | None => if k' =? k then Some s else None end.
Proof. induction tbl as [|[a b] r IH]; cbn; [reflexivity|]. destruct (a =? k); auto. Qed.
Lemma state_kept tbl tid' x : find_state tbl x <> None ->
  find_state (snd (thread_state tbl tid')) x = find_state tbl x.
Proof.
  intros N. unfold thread_state. destruct (find_state tbl (u32 tid')); [reflexivity|]. cbn [snd].
  rewrite find_app. destruct (find_state tbl x); [reflexivity | contradiction].
Qed.
Lemma state_found tbl tid : find_state (snd (thread_state tbl tid)) (u32 tid) = Some (fst (thread_state tbl tid)).
Proof.
  unfold thread_state. destruct (find_state tbl (u32 tid)) eqn:E; cbn [fst snd]; [exact E|].
  rewrite find_app, E, Z.eqb_refl. reflexivity.
Qed.
Lemma states_kept tids : forall tbl x s, find_state tbl x = Some s -> find_state (states tbl tids) x = Some s.
Proof.
  unfold states. induction tids as [|t r IH]; intros tbl x s E; cbn [fold_left]; [exact E|].
  apply IH. rewrite state_kept; [exact E | congruence].
Qed.
Lemma state_same tbl tid tids :
  fst (thread_state (states (snd (thread_state tbl tid)) tids) tid) = fst (thread_state tbl tid).
Proof.
  unfold thread_state at 1. rewrite (states_kept tids _ _ _ (state_found tbl tid)). reflexivity.
Qed.
(** States are handed out one after the other. *)
Definition tinv (tbl : list (Z * nat)) : Prop :=
  (forall k s, find_state tbl k = Some s -> (s < length tbl)%nat) /\
  (forall k k' s, find_state tbl k = Some s -> find_state tbl k' = Some s -> k = k').
Lemma tinv_step tbl tid : tinv tbl -> tinv (snd (thread_state tbl tid)).
Proof.
  intros [A B]. unfold thread_state. destruct (find_state tbl (u32 tid)) eqn:E; cbn [snd]; [now split|]. split.
  - intros k s. rewrite find_app, app_length. cbn [length]. destruct (find_state tbl k) eqn:F.
    + intros H. injection H as <-. apply A in F. lia.
    + destruct (u32 tid =? k); [|discriminate]. intros H. injection H as <-. lia.
  - intros k k' s. rewrite !find_app. destruct (find_state tbl k) eqn:F; destruct (find_state tbl k') eqn:F'.
    + intros H H'. apply (B k k' s); congruence.
    + destruct (u32 tid =? k'); [|discriminate]. intros H H'. apply A in F. injection H as <-. injection H' as <-. lia.
    + destruct (u32 tid =? k); [|discriminate]. intros H H'. apply A in F'. assert (n = length tbl) by congruence. lia.
    + destruct (Z.eqb_spec (u32 tid) k); [|discriminate]. destruct (Z.eqb_spec (u32 tid) k'); [congruence|discriminate].
Qed.
Lemma tinv_states tids : forall tbl, tinv tbl -> tinv (states tbl tids).
Proof. unfold states. induction tids as [|t r IH]; intros tbl I; cbn [fold_left]; [exact I|]. apply IH. now apply tinv_step. Qed.
Lemma state_apart tids a b : u32 a <> u32 b ->
  let tbl := states [] tids in
  fst (thread_state tbl a) <> fst (thread_state (snd (thread_state tbl a)) b).
Proof.
  intros N tbl E.
  assert (I : tinv tbl) by (apply tinv_states; split; cbn; discriminate).
  set (t1 := snd (thread_state tbl a)) in *.
  pose proof (tinv_step t1 b (tinv_step tbl a I)) as [_ I2].
  pose proof (state_found t1 b) as FB. pose proof (state_found tbl a) as FA. fold t1 in FA.
  apply N. apply (I2 (u32 a) (u32 b) (fst (thread_state t1 b))); [|exact FB].
  rewrite state_kept by congruence. congruence.
Qed.

(** * Content *)

Lemma until_whole s : ~ In NULc s -> until_nul s = s.
Proof.
  induction s as [|c r IH]; intros N; cbn; [reflexivity|].
  destruct (Z.eqb_spec c NULc); [elim N; now left|]. rewrite IH; [reflexivity|]. intros I. apply N. now right.
Qed.
Lemma content_whole s : ~ In NULc s -> lua_content s (-1) = Ok s.
Proof. intros N. unfold lua_content. cbn. now rewrite until_whole. Qed.
Lemma content_part s n : 0 <= n <= zlen s -> lua_content s n = Ok (firstn (Z.to_nat n) s).
Proof.
  intros B. unfold lua_content. destruct (Z.eqb_spec n (-1)); [lia|].
  destruct (Z.leb_spec 0 n); [|lia]. destruct (Z.leb_spec n (zlen s + 1)); [|lia]. cbn [andb].
  rewrite firstn_app. unfold zlen in B. replace (Z.to_nat n - length s)%nat with 0%nat by lia.
  cbn. now rewrite app_nil_r.
Qed.

(** * Connections *)

Definition tcount (l : list (option bool)) : Z := zlen (filter (fun o => match o with Some _ => true | None => false end) l).
Definition b1 (b : bool) : Z := if b then 1 else 0.
Definition cinv (c : lc) : Prop := exists m ts x,
  c_objs c = m :: ts /\ (m = None \/ m = Some false) /\ Forall (fun o => o <> Some false) ts /\
  c_rc c = b1 (c_reader c) + tcount ts + x /\ 0 <= x /\ (m = Some false -> 1 <= x).
Lemma tcount_pos l : 0 <= tcount l.
Proof. apply zlen_pos. Qed.
Lemma tcount_none l : forall i b, nth i l None = Some b -> tcount (upd_nth l i None) = tcount l - 1 /\ 1 <= tcount l.
Proof.
  unfold tcount. induction l as [|y r IH]; intros [|i] b H; cbn in H; try discriminate.
  - subst y. cbn -[zlen]. rewrite zlen_cons. pose proof (zlen_pos _ (filter (fun o : option bool => match o with Some _ => true | None => false end) r)). lia.
  - cbn -[zlen]. destruct (IH i b H) as [A B]. destruct y; rewrite ?zlen_cons; rewrite A; lia.
Qed.
Lemma ts_upd ts : forall i, Forall (fun o => o <> Some false) ts -> Forall (fun o : option bool => o <> Some false) (upd_nth ts i None).
Proof.
  induction ts as [|y r IH]; intros [|i] F; cbn; inversion F; subst; constructor; auto; discriminate.
Qed.
Lemma ts_nth ts i b : Forall (fun o : option bool => o <> Some false) ts -> nth i ts None = Some b -> b = true.
Proof.
  intros F. revert i. induction F as [|y r H F IH]; intros [|i] E; cbn in E; try discriminate; eauto.
  subst y. destruct b; [reflexivity | now elim H].
Qed.
Lemma cinv_new : cinv lc_new.
Proof. exists (Some false), [], 1. cbn. repeat split; auto; try lia. Qed.

Lemma touch_ok c : 0 < c_rc c -> touch c = Ok c.
Proof. intros P. unfold touch. destruct (Z.ltb_spec 0 (c_rc c)); [reflexivity | lia]. Qed.
Lemma unref_ok c : 0 < c_rc c -> unref c = Ok (add_rc c (-1)).
Proof. intros P. unfold unref. now rewrite touch_ok. Qed.
Lemma close_ok c closes : 0 < c_rc c -> exists r c', conn_close c closes = Ok (r, c') /\
  c_reader c' = c_reader c /\ c_objs c' = c_objs c /\
  ((c_called c = true /\ r = true /\ c_rc c' = c_rc c /\ c_called c' = true) \/
   (c_called c = false /\ r = false /\ c_ok c = true /\ closes = false /\ c_rc c' = c_rc c /\ c_called c' = false) \/
   (c_called c = false /\ r = true /\ c_rc c' = c_rc c - 1 /\ c_called c' = true)).
Proof.
  intros P. unfold conn_close. rewrite touch_ok by exact P. cbn [obind].
  destruct (c_called c) eqn:E. { eexists _, _. split; [reflexivity|]. repeat split. auto 6. }
  destruct (c_ok c && negb closes) eqn:F.
  - apply andb_prop in F. destruct F as [F1 F2]. destruct closes; [discriminate|].
    eexists _, _. split; [reflexivity|]. repeat split. auto 9.
  - rewrite unref_ok by exact P. cbn [obind]. eexists _, _. split; [reflexivity|]. cbn. repeat split.
    right. right. repeat split.
Qed.

Ltac fields := cbn [c_rc c_ok c_called c_reader c_objs set_obj add_rc upd_nth].
Lemma cinv_step c e : (forall i, e <> CTls i) -> cinv c -> exists c', cstep c e = Ok c' /\ cinv c'.
Proof.
  intros NT (m & ts & x & EO & EM & F & RC & X & MX).
  assert (I0 : cinv c) by (exists m, ts, x; auto 9).
  pose proof (tcount_pos ts) as TP. assert (RB : 0 <= b1 (c_reader c)) by (destruct (c_reader c); cbn; lia).
  destruct e as [|i|i closes|i| |]; cbn [cstep].
  - destruct (c_reader c) eqn:R; [|eauto]. unfold b1 in RC. rewrite touch_ok by lia. cbn [obind].
    eexists. split; [reflexivity|]. exists m, (ts ++ [Some true]), x. fields. rewrite EO, R.
    repeat match goal with |- _ /\ _ => split end; auto.
    + apply Forall_app. split; [exact F|]. repeat constructor. discriminate.
    + unfold tcount. rewrite filter_app, zlen_app. cbn [filter]. change (zlen [Some true]) with 1.
      unfold tcount in RC. unfold b1. lia.
  - rewrite EO. destruct i as [|i]; cbn [nth].
    + destruct m as [[|]|]; [destruct EM; discriminate| |eauto]. specialize (MX eq_refl).
      rewrite touch_ok by lia. cbn [obind].
      destruct (close_ok (mklc (c_rc c) false (c_called c) (c_reader c) (c_objs c)) true) as (r & c' & E & R1 & R2 & R3).
      { cbn. lia. }
      rewrite E. cbn [obind]. eexists. split; [reflexivity|]. cbn in R1, R2, R3.
      destruct R3 as [(_ & _ & R3 & _)|[(_ & _ & R3 & _)|(_ & _ & R3 & _)]]; [|discriminate|].
      * exists None, ts, x. fields. rewrite R1, R2, EO. fields. repeat match goal with |- _ /\ _ => split end; auto; try lia; discriminate.
      * exists None, ts, (x - 1). fields. rewrite R1, R2, EO. fields. repeat match goal with |- _ /\ _ => split end; auto; try lia; discriminate.
    + destruct (nth i ts None) as [b|] eqn:N; [|eauto]. pose proof (ts_nth ts i b F N) as ->.
      destruct (tcount_none ts i true N) as [T1 T2].
      rewrite unref_ok by lia. cbn [obind]. eexists. split; [reflexivity|].
      exists m, (upd_nth ts i None), x. fields. rewrite EO. fields.
      repeat match goal with |- _ /\ _ => split end; auto using ts_upd. lia.
  - destruct (nth i (c_objs c) None) as [b|] eqn:N; [|eauto].
    assert (P : 0 < c_rc c).
    { rewrite EO in N. destruct i as [|i]; cbn in N.
      - subst m. destruct EM as [EM|EM]; [discriminate|]. specialize (MX EM). lia.
      - destruct (tcount_none ts i b N). lia. }
    destruct (close_ok c closes P) as (r & c' & E & R1 & R2 & R3). rewrite E. cbn [obind].
    eexists. split; [reflexivity|].
    assert (D : (r = false /\ c_rc c' = c_rc c) \/ (r = true /\ (c_rc c' = c_rc c \/ c_rc c' = c_rc c - 1))) by tauto.
    destruct D as [[-> D]|[-> D]].
    + exists m, ts, x. rewrite R1, R2, D. auto 9.
    + rewrite EO in N. destruct i as [|i]; cbn in N.
      * subst m. destruct EM as [EM|EM]; [discriminate|]. specialize (MX EM).
        destruct D as [D|D]; [exists None, ts, x | exists None, ts, (x - 1)]; fields; rewrite R1, R2, D, EO; fields;
          (repeat match goal with |- _ /\ _ => split end); auto; try lia; discriminate.
      * destruct (tcount_none ts i b N) as [T1 T2].
        destruct D as [D|D]; [exists m, (upd_nth ts i None), (x + 1) | exists m, (upd_nth ts i None), x];
          fields; rewrite R1, R2, D, EO; fields;
          (repeat match goal with |- _ /\ _ => split end); auto using ts_upd; try lia; intros EE; specialize (MX EE); lia.
  - now elim (NT i).
  - eexists. split; [reflexivity|]. exists m, ts, x. fields. auto 9.
  - destruct (c_reader c) eqn:R; cbn [andb]; [|eauto]. destruct (c_ok c); cbn [negb]; [eauto|].
    unfold b1 in RC. rewrite unref_ok by lia. cbn [obind]. eexists. split; [reflexivity|].
    exists m, ts, x. fields. repeat match goal with |- _ /\ _ => split end; auto. unfold b1. lia.
Qed.
Lemma cinv_runs es : forall c, no_tls es -> cinv c -> exists c', cruns c es = Ok c' /\ cinv c'.
Proof.
  induction es as [|e es IH]; intros c N I; cbn [cruns]; [eauto|].
  destruct (cinv_step c e) as (c1 & E & I1); [intros i ->; apply (N i); now left | exact I|].
  rewrite E. cbn [obind]. apply IH; [|exact I1]. intros i J. apply (N i). now right.
Qed.
Lemma conn_safe es : no_tls es -> exists c, cruns lc_new es = Ok c /\ (some_alive c -> 0 < c_rc c).
Proof.
  intros N. destruct (cinv_runs es lc_new N cinv_new) as (c & E & m & ts & x & EO & EM & F & RC & X & MX).
  exists c. split; [exact E|]. intros (i & b & A). rewrite EO in A.
  pose proof (tcount_pos ts). assert (0 <= b1 (c_reader c)) by (destruct (c_reader c); cbn; lia).
  destruct i as [|i]; cbn in A.
  - subst m. destruct EM as [EM|EM]; [discriminate|]. specialize (MX EM). lia.
  - destruct (tcount_none ts i b A). lia.
Qed.

(** Without closes, the references are exactly those of the reader and of the objects. *)
Definition cex (c : lc) : Prop := c_rc c = b1 (c_reader c) + tcount (c_objs c) /\
  exists m ts, c_objs c = m :: ts /\ (m = None \/ (m = Some false /\ c_called c = false)) /\ Forall (fun o => o <> Some false) ts.
Lemma cex_step c e : (forall i, e <> CTls i) -> (forall i b, e <> CClose i b) -> cex c -> exists c', cstep c e = Ok c' /\ cex c'.
Proof.
  intros NT NC (RC & m & ts & EO & EM & F). assert (I0 : cex c) by (split; [exact RC | exists m, ts; auto]).
  pose proof (tcount_pos (c_objs c)) as TP. assert (RB : 0 <= b1 (c_reader c)) by (destruct (c_reader c); cbn; lia).
  destruct e as [|i|i closes|i| |]; cbn [cstep].
  - destruct (c_reader c) eqn:R; [|eauto]. unfold b1 in RC. rewrite touch_ok by lia. cbn [obind].
    eexists. split; [reflexivity|]. split; fields.
    + unfold tcount in *. rewrite filter_app, zlen_app. cbn [filter]. change (zlen [Some true]) with 1. rewrite R. unfold b1. lia.
    + exists m, (ts ++ [Some true]). rewrite EO. repeat split; auto.
      apply Forall_app. split; [exact F|]. repeat constructor. discriminate.
  - destruct (nth i (c_objs c) None) as [[|]|] eqn:N; [| |eauto].
    + destruct (tcount_none (c_objs c) i true N) as [T1 T2]. rewrite unref_ok by lia. cbn [obind].
      eexists. split; [reflexivity|]. split; fields; [lia|].
      destruct i as [|i]; rewrite EO in N |- *; cbn in N |- *.
      * subst m. destruct EM as [EM|[EM _]]; discriminate.
      * exists m, (upd_nth ts i None). auto using ts_upd.
    + destruct (tcount_none (c_objs c) i false N) as [T1 T2]. rewrite touch_ok by lia. cbn [obind].
      destruct i as [|i].
      2:{ rewrite EO in N. cbn in N. pose proof (ts_nth ts i false F N). discriminate. }
      assert (CF : c_called c = false).
      { rewrite EO in N. cbn in N. subst m. destruct EM as [EM|[_ EM]]; [discriminate | exact EM]. }
      destruct (close_ok (mklc (c_rc c) false (c_called c) (c_reader c) (c_objs c)) true) as (r & c' & E & R1 & R2 & R3).
      { cbn. lia. }
      rewrite E. cbn [obind]. eexists. split; [reflexivity|]. cbn in R1, R2, R3.
      destruct R3 as [(R3 & _)|[(_ & _ & R3 & _)|(_ & _ & R3 & _)]]; [congruence | discriminate |].
      split; fields; rewrite ?R1, R2; [lia|]. rewrite EO. fields. exists None, ts. auto.
  - now elim (NC i closes).
  - now elim (NT i).
  - eexists. split; [reflexivity|]. split; fields; [exact RC | eauto].
  - destruct (c_reader c) eqn:R; cbn [andb]; [|eauto]. destruct (c_ok c); cbn [negb]; [eauto|].
    unfold b1 in RC. rewrite unref_ok by lia. cbn [obind]. eexists. split; [reflexivity|].
    split; fields; [unfold b1; lia | eauto].
Qed.
Lemma cex_runs es : forall c, no_tls es -> no_close es -> cex c -> exists c', cruns c es = Ok c' /\ cex c'.
Proof.
  induction es as [|e es IH]; intros c N C I; cbn [cruns]; [eauto|].
  destruct (cex_step c e) as (c1 & E & I1);
    [intros i ->; apply (N i); now left | intros i b ->; apply (C i b); now left | exact I|].
  rewrite E. cbn [obind]. apply IH; [| |exact I1].
  - intros i J. apply (N i). now right.
  - intros i b J. apply (C i b). now right.
Qed.
Lemma gone_count l : (forall i, nth i l None = None) -> tcount l = 0.
Proof.
  induction l as [|y r IH]; intros H; [reflexivity|]. pose proof (H 0%nat) as H0. cbn in H0. subst y.
  apply IH. intros i. exact (H (S i)).
Qed.
Lemma conn_freed es c : no_tls es -> no_close es -> cruns lc_new es = Ok c ->
  all_gone c -> c_reader c = false -> c_rc c = 0.
Proof.
  intros N C E G R. destruct (cex_runs es lc_new N C) as (c' & E' & RC & _).
  { split; [reflexivity|]. exists (Some false), []. cbn. auto. }
  rewrite E in E'. injection E' as <-. rewrite RC, R. cbn. now apply gone_count.
Qed.

(** * SASL *)

Lemma casecmp_low a p : casecmp a p = true -> map low p = map low a.
Proof. unfold casecmp. intros E. symmetry. now apply bytes_eqb_eq. Qed.
Lemma sasl_known m p : In m mechs -> casecmp (asc m) p = true -> sasl_name p = Some (mech m).
Proof.
  intros I C. apply casecmp_low in C.
  assert (L : (length p <= 11)%nat).
  { rewrite <- (map_length low p), C, map_length.
    repeat (destruct I as [<-|I]; [vm_compute; lia|]). contradiction. }
  unfold sasl_name.
  replace (bytes_eqb (firstn 25 p) FAMILY) with false.
  2:{ symmetry. destruct (bytes_eqb (firstn 25 p) FAMILY) eqn:E; [|reflexivity].
      apply bytes_eqb_eq in E. apply (f_equal (@length Z)) in E. rewrite firstn_length in E.
      change (length FAMILY) with 25%nat in E. lia. }
  unfold casecmp. rewrite C. clear C L.
  repeat (destruct I as [<-|I]; [vm_compute; reflexivity|]). contradiction.
Qed.
Lemma sasl_full p : firstn 25 p = FAMILY -> sasl_name p = Some p.
Proof. intros E. unfold sasl_name. rewrite E, bytes_eqb_refl. reflexivity. Qed.
Lemma auth_accept tostr ex r : auth_answer tostr ex r = AAccept <-> ex = false /\ r = HRet (LBool true).
Proof.
  unfold auth_answer. split.
  - destruct ex; [discriminate|]. destruct r as [[| [|] | | | | | | |]|]; (discriminate || auto).
  - intros [-> ->]. reflexivity.
Qed.

Lemma tls_closes c i c1 c2 : nth i (c_objs c) None <> None -> c_ok c = true -> cstep c (CTls i) = Ok c1 ->
  cstep c1 (CGc (List.length (c_objs c))) = Ok c2 -> c_ok c1 = true /\ c_ok c2 = false /\ c_called c2 = true.
Proof.
  intros N K H1 H2. unfold cstep in H1. destruct (nth i (c_objs c) None) as [b|]; [|contradiction].
  unfold unref, touch, add_rc in H1.
  repeat match type of H1 with
  | context [if ?b then _ else _] => destruct b eqn:?; cbn in H1; try discriminate
  end.
  all: try congruence.
  all: injection H1 as <-; cbn in H2.
  all: rewrite app_nth2 in H2 by lia; rewrite Nat.sub_diag in H2; cbn in H2.
  all: unfold touch in H2; cbn in H2.
  all: repeat match type of H2 with
  | context [if ?b then _ else _] => destruct b eqn:?; unfold unref, touch in H2; cbn in H2; try discriminate
  end.
  unfold conn_close, unref, touch, add_rc in H2. cbn in H2. rewrite Heqb4 in H2. cbn in H2.
  destruct (c_called c) eqn:CC; cbn in H2; [injection H2 as <-; cbn; auto|].
  rewrite Heqb4 in H2. cbn in H2. injection H2 as <-. cbn. auto.
Qed.
