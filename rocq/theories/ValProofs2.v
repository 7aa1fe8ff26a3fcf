From Coq Require Import String.
From Verif Require Import Base CodecModel GreetModel HdrModel HdrProofs MsgModel ValModel ValSpec ValProofs.
Open Scope list_scope.
Open Scope Z_scope.

Definition fine (s : vst) (own : list ref) : Prop := sound (s_heap s) (own ++ chan_refs (s_chan s)).

Ltac counts :=
  let r := fresh "r" in intros r;
  repeat match goal with H : Permutation _ _ |- _ => pose proof (cnt_perm _ _ H r); clear H end;
  repeat match goal with H : context [cnt _ (_ ++ _)] |- _ => rewrite cnt_app in H end;
  repeat (rewrite cnt_app || cbn [cnt app kids kids_of opt]);
  cbn [cnt app kids kids_of opt] in *; repeat rewrite cnt_app; try lia.

Lemma give_fine s own c own' : sound (s_heap s) own -> (forall r, cnt r own = cnt r (kids c ++ own' ++ chan_refs (s_chan s))) -> count_of c = 1 -> wfc c ->
  exists s' p, give s c = Ok (s', RPtr (Some p)) /\ fine s' ((tag_of c, p) :: own') /\ s_chan s' = s_chan s /\ s_heap s' = s_heap s ++ [Some c] /\ p = length (s_heap s).
Proof.
  intros S E N W. unfold give, alloc. do 2 eexists. split; [reflexivity|]. unfold fine; cbn. split; auto.
  apply (sound_alloc _ own); auto.
Qed.
Lemma dropped_fine s own w rest : fine s own -> (forall r, cnt r own = cnt r (w ++ rest)) ->
  exists s', dropped s w = Ok (s', RNone) /\ fine s' rest /\ s_chan s' = s_chan s /\ frame (s_heap s) (s_heap s').
Proof.
  intros S P. unfold dropped. destruct (drop_sound (s_heap s) w (rest ++ chan_refs (s_chan s))) as (h & E & S' & F).
  { apply (sound_perm _ (own ++ chan_refs (s_chan s))); auto. intros r. specialize (P r). rewrite !cnt_app in *. lia. }
  rewrite E. cbn. eexists. split; [reflexivity|]. cbn. auto.
Qed.
Lemma put_sound h ext ext' p c c' : sound h ext -> cell_at h p = Some c -> tag_of c' = tag_of c -> count_of c' = count_of c -> wfc c' ->
  (forall r, cnt r ext' + cnt r (kids c') = cnt r ext + cnt r (kids c))%nat -> sound (put h p c') ext'.
Proof.
  intros S C T N W E. refine (sound_upd _ _ _ _ _ _ S C _ _).
  - intros d X. injection X as <-. auto.
  - intros r. specialize (E r). cbn [kids_o own_o]. rewrite T, N. lia.
Qed.
Lemma ref_more_sound h ext t p : sound h ext -> In (t, p) ext \/ In (t, p) (all_kids h) -> t = TStruct \/ t = TArr ->
  exists h', ref_more h (t, p) = Ok h' /\ sound h' ((t, p) :: ext).
Proof.
  intros S I T. destruct (sound_look _ _ _ S I) as (c & E & C & Q). unfold ref_more. rewrite E. cbn [obind]. eexists. split; [reflexivity|].
  pose proof (proj2 S _ _ C) as [W1 W2]. cbn [snd fst] in *. refine (sound_upd _ _ _ _ _ _ S C _ _).
  - intros d X. injection X as <-. apply wfc_recount; [split; auto|lia].
  - intros r. cbn [kids_o]. rewrite own_recount, kids_recount, count_recount by (right; rewrite Q; auto). cbn [own_o cnt]. rewrite Q.
    destruct (ref_eqb (t, p) r); lia.
Qed.
Lemma look_val h v c : look h (TVal, v) = Ok c -> exists k, c = CVal k.
Proof. unfold look. destruct (cell_at h (snd (TVal, v))) as [[]|]; cbn; try discriminate. intros X; injection X as <-. eauto. Qed.
Lemma val_at_cell h v k : val_at h v = Ok k -> cell_at h v = Some (CVal k).
Proof. unfold val_at, look; cbn. destruct (cell_at h v) as [[]|]; cbn; try discriminate. congruence. Qed.
Lemma cell_val_at h v k : cell_at h v = Some (CVal k) -> val_at h v = Ok k.
Proof. unfold val_at, look; cbn. intros ->. reflexivity. Qed.
Lemma fine_val h ext v : sound h ext -> In (TVal, v) ext \/ In (TVal, v) (all_kids h) -> exists k, val_at h v = Ok k /\ cell_at h v = Some (CVal k).
Proof.
  intros S I. destruct (sound_look _ _ _ S I) as (c & E & C & T). destruct c; cbn in T; try discriminate. exists k. split; auto. apply cell_val_at. auto.
Qed.
Lemma fine_str h ext v : sound h ext -> In (TStr, v) ext \/ In (TStr, v) (all_kids h) -> exists b, bytes_at h v = Ok b /\ cell_at h v = Some (CStr b).
Proof.
  intros S I. destruct (sound_look _ _ _ S I) as (c & E & C & T). destruct c; cbn in T; try discriminate. exists b. split; auto. unfold bytes_at. rewrite E. reflexivity.
Qed.
Lemma fine_resp h ext r : sound h ext -> In (TResp, r) ext \/ In (TResp, r) (all_kids h) -> exists v t f, resp_at h r = Ok (mkR v t f) /\ cell_at h r = Some (CResp v t f).
Proof.
  intros S I. destruct (sound_look _ _ _ S I) as (c & E & C & T). destruct c; cbn in T; try discriminate. exists v, text, fault. split; auto. unfold resp_at. rewrite E. reflexivity.
Qed.
Lemma kid_of h p c r : cell_at h p = Some c -> In r (kids c) -> In r (all_kids h).
Proof. intros C I. unfold all_kids. apply in_flat_map. exists (Some c). split; auto. apply cell_at_nth in C. apply nth_error_In in C. auto. Qed.
Lemma fine_use s own r : fine s own -> usable s own r -> In r (own ++ chan_refs (s_chan s)) \/ In r (all_kids (s_heap s)).
Proof. intros F [H|H]; auto. left. apply in_or_app. auto. Qed.
Lemma look_cell h r c : cell_at h (snd r) = Some c -> tag_of c = fst r -> look h r = Ok c.
Proof. unfold look. intros -> ->. rewrite (proj2 (tag_eqb_eq _ _) eq_refl). reflexivity. Qed.

Lemma text_fine s own b64 b : fine s own -> exists s' p, new_text s b64 b = Ok (s', RPtr (Some p)) /\ fine s' ((TVal, p) :: own) /\ s_chan s' = s_chan s /\
  s_heap s' = s_heap s ++ [Some (CStr b); Some (CVal (text_kind b64 (length (s_heap s))))] /\ p = S (length (s_heap s)).
Proof.
  intros F. unfold new_text. cbn [alloc].
  assert (S1 : sound (s_heap s ++ [Some (CStr b)]) ((TStr, length (s_heap s)) :: own ++ chan_refs (s_chan s))).
  { apply (sound_alloc _ (own ++ chan_refs (s_chan s)) (CStr b)); auto. split; cbn; auto. lia. }
  destruct (give_fine (mkV (s_heap s ++ [Some (CStr b)]) (s_chan s)) _ (CVal (text_kind b64 (length (s_heap s)))) own S1) as (s' & p & E & F' & C & H & P).
  - intros r. destruct b64; reflexivity.
  - reflexivity.
  - split; cbn; auto; lia.
  - exists s', p. split; auto. split; auto. split; auto. cbn in H, P. split; [rewrite H, <- app_assoc; reflexivity|]. rewrite P, app_length. cbn. lia.
Qed.

Lemma flat_upd n vs v : (n < length vs)%nat -> flat_map (opt TVal) (firstn (S n) (upd_nth vs n v)) = flat_map (opt TVal) (firstn n vs) ++ opt TVal v.
Proof.
  revert vs. induction n as [|n IH]; intros [|x vs] L; cbn in L; try lia; [cbn; rewrite app_nil_r; reflexivity|].
  change (opt TVal x ++ flat_map (opt TVal) (firstn (S n) (upd_nth vs n v)) = (opt TVal x ++ flat_map (opt TVal) (firstn n vs)) ++ opt TVal v).
  rewrite IH by lia. rewrite app_assoc. reflexivity.
Qed.
Lemma flat_set n vs i v : (i < n)%nat -> (n <= length vs)%nat -> forall r,
  (cnt r (flat_map (opt TVal) (firstn n (upd_nth vs i v))) + cnt r (opt TVal (nth i vs None)) = cnt r (flat_map (opt TVal) (firstn n vs)) + cnt r (opt TVal v))%nat.
Proof.
  intros L M r. revert n vs L M. induction i as [|i IH]; intros [|n] [|x vs] L M; cbn in L, M; try lia; cbn [upd_nth firstn flat_map nth]; rewrite !cnt_app; [lia|].
  pose proof (IH n vs ltac:(lia) ltac:(lia)). lia.
Qed.

(** vortex_xml_rpc_method_value_copy. *)
Lemma copy_fine s own v : fine s own -> usable s own (TVal, v) -> exists s' x, copy s v = Ok (s', x) /\ fine s' (got TVal x own).
Proof.
  intros F U. destruct (fine_val _ _ _ F (fine_use _ _ _ F U)) as (k & E & C). unfold copy. rewrite E. cbn [obind].
  assert (G : kids_of k = [] -> exists s' x, give s (CVal k) = Ok (s', x) /\ fine s' (got TVal x own)).
  { intros N. destruct (give_fine s _ (CVal k) own F) as (s' & p & E1 & F1 & _); [cbn; rewrite N; auto|reflexivity|split; cbn; auto; lia|]. do 2 eexists. split; [exact E1|]. exact F1. }
  assert (G0 : exists s' x, give s (CVal KNone) = Ok (s', x) /\ fine s' (got TVal x own)).
  { destruct (give_fine s _ (CVal KNone) own F) as (s' & p & E1 & F1 & _); [auto|reflexivity|split; cbn; auto; lia|]. do 2 eexists. split; [exact E1|]. exact F1. }
  assert (T : forall b64 b, exists s' x, new_text s b64 b = Ok (s', x) /\ fine s' (got TVal x own)).
  { intros b64 b. destruct (text_fine s own b64 b F) as (s' & p & E1 & F1 & _). do 2 eexists. split; [exact E1|exact F1]. }
  assert (R : forall t p, t = TStruct \/ t = TArr -> kids_of k = [(t, p)] ->
    exists s' x, (let! h := ref_more (s_heap s) (t, p) in give (mkV h (s_chan s)) (CVal k)) = Ok (s', x) /\ fine s' (got TVal x own)).
  { intros t p T0 N. destruct (ref_more_sound (s_heap s) _ t p F) as (h & E1 & S1); auto.
    - right. apply (kid_of _ _ _ _ C). cbn. rewrite N. cbn; auto.
    - rewrite E1. cbn [obind]. destruct (give_fine (mkV h (s_chan s)) _ (CVal k) own S1) as (s' & q & E2 & F2 & _); [cbn; rewrite N; auto|reflexivity|split; cbn; auto; lia|].
      do 2 eexists. split; [exact E2|exact F2]. }
  destruct k as [z|z|g|[p|]|[p|]|[p|]|[p|]| |]; auto.
  - destruct (fine_str _ _ p F) as (b & B & _); [right; apply (kid_of _ _ _ _ C); cbn; auto|]. rewrite B. apply T.
  - destruct (fine_str _ _ p F) as (b & B & _); [right; apply (kid_of _ _ _ _ C); cbn; auto|]. rewrite B. apply T.
  - do 2 eexists. split; [reflexivity|]. exact F.
Qed.

Lemma nullify_fine h ext v k : sound h ext -> cell_at h v = Some (CVal k) ->
  nullify h v = Ok (put h v (CVal (null_kind k))) /\ sound (put h v (CVal (null_kind k))) (kids_of k ++ ext).
Proof.
  intros S C. unfold nullify. rewrite (cell_val_at _ _ _ C). cbn [obind]. split; auto.
  apply (put_sound h ext _ v (CVal k)); auto.
  - split; cbn; auto; lia.
  - intros r. rewrite cnt_app. cbn [kids]. destruct k as [| | |[p|]|[p|]|[p|]|[p|]| |]; cbn; lia.
Qed.

Lemma chan_split b l : forall r, (cnt r (chan_refs (filter (same b) l)) + cnt r (chan_refs (filter (fun e => negb (same b e)) l)) = cnt r (chan_refs l))%nat.
Proof. intros r. induction l as [|e l IH]; cbn [filter]; auto. destruct (same b e); cbn [negb chan_refs map cnt] in *; unfold chan_refs in *; lia. Qed.
Lemma keep_fine s own b : fine s own -> exists s' p, keep_fault s b = Ok (s', Some p) /\ fine s' own /\ In (b, p) (s_chan s') /\ cell_at (s_heap s') p = Some (CStr b) /\
  (forall e, In e (s_chan s') -> e = (b, p) \/ In e (s_chan s)) /\ (forall e, In e (s_chan s) -> fst e <> b -> In e (s_chan s')) /\
  frame (s_heap s ++ [Some (CStr b)]) (s_heap s').
Proof.
  intros F. unfold keep_fault. cbn [alloc].
  assert (S1 : sound (s_heap s ++ [Some (CStr b)]) ((TStr, length (s_heap s)) :: own ++ chan_refs (s_chan s))).
  { apply (sound_alloc _ (own ++ chan_refs (s_chan s)) (CStr b)); auto. split; cbn; auto. lia. }
  destruct (drop_sound (s_heap s ++ [Some (CStr b)]) (chan_refs (filter (same b) (s_chan s)))
     ((TStr, length (s_heap s)) :: own ++ chan_refs (filter (fun e => negb (same b e)) (s_chan s)))) as (h & E & S2 & Fr).
  { refine (sound_perm _ _ _ _ S1). intros r. pose proof (chan_split b (s_chan s) r). rewrite !cnt_app. cbn [cnt]. rewrite !cnt_app. lia. }
  rewrite E. cbn [obind]. do 2 eexists. split; [reflexivity|]. cbn [s_chan s_heap].
  assert (X : sound h (own ++ chan_refs ((b, length (s_heap s)) :: filter (fun e => negb (same b e)) (s_chan s)))).
  { refine (sound_perm _ _ _ _ S2). intros r. cbn [chan_refs map snd]. rewrite !cnt_app. cbn [cnt]. rewrite !cnt_app. unfold chan_refs. lia. }
  split; [exact X|]. split; [left; auto|]. split.
  - destruct (fine_str _ _ (length (s_heap s)) X) as (b' & _ & C'); [left; apply in_or_app; right; cbn; auto|].
    destruct (proj2 Fr _ _ C') as (d & n & D & Q). rewrite cell_at_app, Nat.eqb_refl in D. injection D as <-. cbn in Q. injection Q as ->. auto.
  - split; [|split; [|exact Fr]].
    + intros e [<-|I]; auto. apply filter_In in I. tauto.
    + intros e I N. right. apply filter_In. split; auto. unfold same. destruct (bytes_eqb (fst e) b) eqn:Q; auto.
      exfalso. apply N. clear - Q. revert Q. generalize (fst e). induction b as [|y b IH]; intros [|x l]; cbn; try discriminate; auto. intros Q. apply andb_prop in Q. destruct Q as [X Y]. f_equal; [lia|auto].
Qed.

Lemma sync_fine s own r rest get num clear : fine s own -> (forall x, cnt x own = cnt x ((TResp, r) :: rest)) ->
  (clear = true -> forall c v k, resp_at (s_heap s) r = Ok c -> r_val c = Some v -> val_at (s_heap s) v = Ok k -> kids_of k = opt TStr (get k)) ->
  exists s' x n f, sync s r get num clear = Ok (s', RSync x n f) /\
    fine s' ((if clear then opt TStr x else []) ++ rest).
Proof.
  intros F P K. assert (Rin : In (TResp, r) own) by (apply cnt_pos; rewrite P; cbn [cnt]; rewrite ref_eqb_refl; lia).
  destruct (fine_resp _ _ r F) as (v & t & f & R & C); [left; apply in_or_app; auto|].
  unfold sync, common_sync. rewrite R. cbn [obind r_fault r_val].
  destruct f as [[code q]|]; [|destruct v as [v|]]; cbn [obind].
  - destruct (fine_str _ _ q F) as (b & B & _). { right. apply (kid_of _ _ _ _ C). cbn. apply in_or_app; right. apply in_or_app; right. left; auto. }
    rewrite B. cbn [obind]. destruct (keep_fine s own b F) as (s1 & p & E1 & F1 & _). rewrite E1. cbn [obind].
    destruct (dropped_fine s1 own [(TResp, r)] rest F1) as (s2 & E2 & F2 & _); [exact P|]. rewrite E2. cbn [obind].
    do 4 eexists. split; [reflexivity|]. destruct clear; exact F2.
  - assert (I : In (TVal, v) (all_kids (s_heap s))) by (apply (kid_of _ _ _ _ C); cbn; auto).
    destruct (fine_val _ _ v F (or_intror I)) as (k & Ek & Ck). rewrite Ek. cbn [obind].
    destruct clear.
    + destruct (nullify_fine _ _ _ _ F Ck) as [E1 S1]. rewrite E1. cbn [obind].
      specialize (K eq_refl _ _ _ R eq_refl Ek).
      destruct (dropped_fine (mkV (put (s_heap s) v (CVal (null_kind k))) (s_chan s)) (kids_of k ++ own) [(TResp, r)] (opt TStr (get k) ++ rest)) as (s2 & E2 & F2 & _).
      * unfold fine. cbn [s_heap s_chan]. rewrite <- app_assoc. exact S1.
      * intros x. specialize (P x). rewrite K, !cnt_app. cbn [cnt] in *. rewrite ?cnt_app. lia.
      * rewrite E2. cbn [obind]. do 4 eexists. split; [reflexivity|]. exact F2.
    + cbn [obind]. destruct s as [h ch]. cbn [s_heap s_chan] in *. destruct (dropped_fine (mkV h ch) own [(TResp, r)] rest F P) as (s2 & E2 & F2 & _). rewrite E2. cbn [obind].
      do 4 eexists. split; [reflexivity|]. exact F2.
  - destruct (dropped_fine s own [(TResp, r)] rest F P) as (s2 & E2 & F2 & _). rewrite E2. cbn [obind]. do 4 eexists. split; [reflexivity|]. destruct clear; exact F2.
Qed.

Lemma alloc_give s own c rest : fine s own -> (forall r, cnt r own = cnt r (kids c ++ rest)) -> count_of c = 1 -> wfc c ->
  exists s' x, give s c = Ok (s', x) /\ fine s' (got (tag_of c) x rest).
Proof.
  intros F P N W. destruct (give_fine s (own ++ chan_refs (s_chan s)) c rest) as (s' & p & E & F' & _); auto.
  - intros r. specialize (P r). rewrite !cnt_app in *. lia.
  - do 2 eexists. split; [exact E|exact F'].
Qed.

Theorem step_fine s own o k : fine s own -> fair s own o k -> exists s' x, step s o = Ok (s', x) /\ fine s' (k x).
Proof.
  intros F H. destruct H.
  - apply (alloc_give s own (CStr b)); auto. split; cbn; auto; lia.
  - apply (alloc_give s own (CVal (KInt z))); auto. split; cbn; auto; lia.
  - apply (alloc_give s own (CVal (KBool z))); auto. split; cbn; auto; lia.
  - apply (alloc_give s own (CVal (KDbl g))); auto. split; cbn; auto; lia.
  - apply (alloc_give s own (CVal KNone)); auto. split; cbn; auto; lia.
  - destruct b; cbn [step]; [apply (alloc_give s own (CVal KDate)); auto; split; cbn; auto; lia|]. do 2 eexists. split; [reflexivity|]. exact F.
  - cbn [step]. destruct (text_fine s own b64 (match b with Some b => b | None => [] end) F) as (s' & p & E & F' & _). do 2 eexists. split; [exact E|exact F'].
  - destruct p as [p|]; cbn [step].
    + apply (alloc_give s own (CVal (text_kind b64 p)) rest); auto; [intros r; rewrite (cnt_perm _ _ H r); destruct b64; reflexivity|destruct b64; split; cbn; auto; lia].
    + destruct (text_fine s own b64 [] F) as (s' & p & E & F' & _). do 2 eexists. split; [exact E|]. refine (sound_perm _ _ _ _ F'). cbn [got]. counts.
  - destruct p as [p|]; cbn [step].
    + apply (alloc_give s own (CVal (KStruct (Some p))) rest); auto; [apply (cnt_perm _ _ H)|split; cbn; auto; lia].
    + apply (alloc_give s own (CVal KNone) rest); auto; [apply (cnt_perm _ _ H)|split; cbn; auto; lia].
  - destruct p as [p|]; cbn [step].
    + apply (alloc_give s own (CVal (KArr (Some p))) rest); auto; [apply (cnt_perm _ _ H)|split; cbn; auto; lia].
    + apply (alloc_give s own (CVal KNone) rest); auto; [apply (cnt_perm _ _ H)|split; cbn; auto; lia].
  - apply copy_fine; auto.
  - cbn [step on_heap]. destruct (nullify_fine _ _ v k F (val_at_cell _ _ _ H0)) as [E S]. rewrite E. cbn [on_heap obind].
    do 2 eexists. split; [reflexivity|]. unfold fine; cbn [s_heap s_chan]. rewrite <- app_assoc. exact S.
  - destruct (dropped_fine s own [(t, p)] rest F) as (s' & E & F' & _); [apply (cnt_perm _ _ H)|].
    exists s', RNone. split; auto. destruct t; subst o; exact E.
  - cbn [step]. destruct (0 <? n) eqn:N; [|do 2 eexists; split; [reflexivity|]; exact F]. apply (alloc_give s own (CStruct n 1 [])); auto. split; cbn; unfold zlen; cbn; lia.
  - cbn [step on_heap]. destruct (ref_more_sound _ _ TStruct p F (fine_use _ _ _ F H)) as (h & E & S); auto. rewrite E. cbn [on_heap obind]. do 2 eexists. split; [reflexivity|]. exact S.
  - destruct v as [v|]; cbn [step].
    + apply (alloc_give s own (CMem name v) rest); auto; [apply (cnt_perm _ _ H)|split; cbn; auto; lia].
    + do 2 eexists. split; [reflexivity|]. refine (sound_perm _ _ _ _ F). cbn [got]. counts.
  - cbn [step on_heap]. unfold add_member. rewrite (look_cell _ (TStruct, p) _ H0 eq_refl). cbn [on_heap obind]. do 2 eexists. split; [reflexivity|]. unfold fine; cbn [s_heap s_chan].
    pose proof (proj2 F _ _ H0) as [W1 W2]. cbn in W1, W2.
    destruct (zlen ms <? count) eqn:Q; [|exact F]. refine (put_sound _ _ _ _ _ _ F H0 _ _ _ _); auto.
    + split; cbn; auto. unfold zlen in *. rewrite app_length. cbn. lia.
    + intros r. pose proof (cnt_perm _ _ H1 r) as P. cbn [kids]. rewrite map_app, !cnt_app. cbn [map cnt] in *. lia.
  - cbn [step]. destruct (0 <=? n) eqn:N; [|do 2 eexists; split; [reflexivity|]; exact F]. apply (alloc_give s own (CArr 1 0 (repeat None (Z.to_nat n)))); auto. split; cbn; lia.
  - cbn [step on_heap]. destruct (ref_more_sound _ _ TArr p F (fine_use _ _ _ F H)) as (h & E & S); auto. rewrite E. cbn [on_heap obind]. do 2 eexists. split; [reflexivity|]. exact S.
  - cbn [step on_heap]. unfold arr_add. rewrite (look_cell _ (TArr, a) _ H0 eq_refl). cbn [on_heap obind]. do 2 eexists. split; [reflexivity|]. unfold fine; cbn [s_heap s_chan].
    pose proof (proj2 F _ _ H0) as [W1 W2]. cbn in W1, W2.
    destruct (n <? length vs)%nat eqn:Q; [|exact F]. apply Nat.ltb_lt in Q. refine (put_sound _ _ _ _ _ _ F H0 _ _ _ _); auto.
    + split; cbn [count_of]; auto. rewrite upd_nth_length. lia.
    + intros r. pose proof (cnt_perm _ _ H1 r) as P. cbn [kids]. rewrite flat_upd by auto. rewrite !cnt_app in *. lia.
  - cbn [step on_heap]. unfold arr_set. rewrite (look_cell _ (TArr, a) _ H0 eq_refl). cbn [on_heap obind]. do 2 eexists. split; [reflexivity|]. unfold fine; cbn [s_heap s_chan].
    pose proof (proj2 F _ _ H0) as [W1 W2]. cbn in W1, W2. replace ((0 <=? i) && (i <? zlen vs)) with true by (unfold zlen; lia).
    refine (put_sound _ _ _ _ _ _ F H0 _ _ _ _); auto.
    + split; cbn [count_of]; auto. rewrite upd_nth_length. lia.
    + intros r. pose proof (cnt_perm _ _ H2 r) as P. cbn [kids]. pose proof (flat_set n vs (Z.to_nat i) v ltac:(lia) W2 r). rewrite !cnt_app in *. lia.
  - cbn [step]. destruct (0 <=? n) eqn:N; [|do 2 eexists; split; [reflexivity|]; exact F]. apply (alloc_give s own (CCall 0 (repeat None (Z.to_nat n)))); auto. split; cbn; lia.
  - cbn [step on_heap]. unfold call_add. rewrite (look_cell _ (TCall, c) _ H0 eq_refl). cbn [on_heap obind]. do 2 eexists. split; [reflexivity|]. unfold fine; cbn [s_heap s_chan].
    pose proof (proj2 F _ _ H0) as [W1 W2]. cbn in W1, W2.
    destruct (n =? length vs)%nat eqn:Q; [exact F|]. apply Nat.eqb_neq in Q. refine (put_sound _ _ _ _ _ _ F H0 _ _ _ _); auto.
    + split; cbn [count_of]; auto. rewrite upd_nth_length. lia.
    + intros r. pose proof (cnt_perm _ _ H1 r) as P. cbn [kids]. rewrite flat_upd by lia. rewrite !cnt_app in *. cbn [opt cnt] in *. lia.
  - cbn [step on_heap]. unfold call_set. rewrite (look_cell _ (TCall, c) _ H0 eq_refl). cbn [obind].
    pose proof (proj2 F _ _ H0) as [W1 W2]. cbn in W1, W2. replace ((0 <=? i) && (i <? zlen vs)) with true by (unfold zlen; lia).
    destruct (drop_sound (put (s_heap s) c (CCall n (upd_nth vs (Z.to_nat i) (Some v)))) (opt TVal (nth (Z.to_nat i) vs None)) (rest ++ chan_refs (s_chan s))) as (h & E & S & _).
    + refine (put_sound _ _ _ _ _ _ F H0 _ _ _ _); auto.
      * split; cbn [count_of]; auto. rewrite upd_nth_length. lia.
      * intros r. pose proof (cnt_perm _ _ H2 r) as P. cbn [kids]. pose proof (flat_set n vs (Z.to_nat i) (Some v) ltac:(lia) W2 r). rewrite !cnt_app in *. cbn [opt cnt] in *. lia.
    + rewrite E. cbn [on_heap obind]. do 2 eexists. split; [reflexivity|]. exact S.
  - cbn [step]. destruct (text_fine s own false b F) as (s1 & v & E & F1 & Ch & Hp & Pv). rewrite E. cbn [obind].
    assert (C1 : cell_at (s_heap s1) c = Some (CCall n vs)).
    { rewrite Hp. change [Some (CStr b); Some (CVal (text_kind false (length (s_heap s))))] with ([Some (CStr b)] ++ [Some (CVal (text_kind false (length (s_heap s))))]).
      rewrite app_assoc, !cell_at_app. pose proof (cell_at_len _ _ _ H0) as L. rewrite app_length. cbn [length].
      replace (Nat.eqb c (length (s_heap s) + 1)) with false by (symmetry; apply Nat.eqb_neq; lia). replace (Nat.eqb c (length (s_heap s))) with false by (symmetry; apply Nat.eqb_neq; lia). exact H0. }
    unfold call_add. rewrite (look_cell _ (TCall, c) _ C1 eq_refl). cbn [on_heap obind]. do 2 eexists. split; [reflexivity|]. unfold fine; cbn [s_heap s_chan].
    replace (n =? length vs)%nat with false by (symmetry; apply Nat.eqb_neq; lia). refine (put_sound _ _ _ _ _ _ F1 C1 _ _ _ _); auto.
    + split; cbn [count_of]; [lia|]. rewrite upd_nth_length. lia.
    + intros r. cbn [kids]. rewrite flat_upd by lia. rewrite !cnt_app. cbn [opt cnt app]. rewrite ?cnt_app. lia.
  - apply (alloc_give s own (CResp (Some v) None None) rest); auto; [apply (cnt_perm _ _ H)|split; cbn; auto; lia].
  - cbn [step alloc].
    assert (S1 : sound (s_heap s ++ [Some (CStr text)]) ((TStr, length (s_heap s)) :: own ++ chan_refs (s_chan s))).
    { apply (sound_alloc _ (own ++ chan_refs (s_chan s)) (CStr text)); auto. split; cbn; auto. lia. }
    apply (alloc_give (mkV (s_heap s ++ [Some (CStr text)]) (s_chan s)) ((TStr, length (s_heap s)) :: own) (CResp None None (Some (code, length (s_heap s)))) own S1); auto. split; cbn; auto; lia.
  - destruct (fine_resp _ _ r F (fine_use _ _ _ F H)) as (v & t & f & R & C). assert (c = mkR v t f) by congruence. subst c.
    cbn [step]. rewrite R. cbn [obind r_text r_fault r_val]. do 2 eexists. split; [reflexivity|]. unfold fine; cbn [s_heap s_chan].
    refine (put_sound _ _ _ _ _ _ F C _ _ _ _); auto; [split; cbn; auto; lia|]. intros x. cbn [kids opt]. rewrite !cnt_app. cbn [cnt]. lia.
  - destruct (fine_resp _ _ r F (fine_use _ _ _ F H)) as (v & t & f & R & C). cbn [step]. rewrite R. cbn [obind r_text r_fault r_val].
    destruct f as [f|]; [do 2 eexists; split; [reflexivity|]; exact F|]. destruct t as [t|]; [do 2 eexists; split; [reflexivity|]; exact F|].
    assert (exists b, stringify (s_heap s) v = Ok b) as [b B].
    { destruct v as [v|]; cbn [stringify]; eauto. destruct (fine_val _ _ v F) as (k & Ek & Ck); [right; apply (kid_of _ _ _ _ C); cbn; auto|]. rewrite Ek. cbn [obind].
      destruct k as [z|z|g|[p|]|[p|]| | | |]; eauto; (destruct (fine_str _ _ p F) as (b & B & _); [right; apply (kid_of _ _ _ _ Ck); cbn; auto|]; rewrite B; cbn; eauto). }
    rewrite B. cbn [obind]. destruct b as [b|]; [|do 2 eexists; split; [reflexivity|]; exact F].
    cbn [alloc]. do 2 eexists. split; [reflexivity|]. unfold fine; cbn [s_heap s_chan].
    assert (S1 : sound (s_heap s ++ [Some (CStr b)]) ((TStr, length (s_heap s)) :: own ++ chan_refs (s_chan s))).
    { apply (sound_alloc _ (own ++ chan_refs (s_chan s)) (CStr b)); auto. split; cbn; auto. lia. }
    assert (C1 : cell_at (s_heap s ++ [Some (CStr b)]) r = Some (CResp v None None)).
    { rewrite cell_at_app. pose proof (cell_at_len _ _ _ C) as L. replace (Nat.eqb r (length (s_heap s))) with false by (symmetry; apply Nat.eqb_neq; lia). exact C. }
    refine (put_sound _ _ _ _ _ _ S1 C1 _ _ _ _); auto; [split; cbn; auto; lia|]. intros x. cbn [kids opt]. rewrite !cnt_app. cbn [cnt app]. rewrite !cnt_app. lia.
  - cbn [step]. destruct (sync_fine s own r rest (fun _ => None) as_num false F (cnt_perm _ _ H)) as (s' & x & n & f & E & F'); [discriminate|]. do 2 eexists. split; [exact E|exact F'].
  - cbn [step]. destruct (sync_fine s own r rest as_text (fun _ => -1) true F (cnt_perm _ _ H)) as (s' & x & n & f & E & F').
    + intros _ c v k Rc Rv Vk. specialize (H0 _ _ _ Rc Rv Vk). destruct k as [| | |[|]|[|]|[|]|[|]| |]; cbn in *; tauto.
    + do 2 eexists. split; [exact E|]. destruct x; exact F'.
  - cbn [step]. destruct (sync_fine s own r rest as_struct (fun _ => -1) false F (cnt_perm _ _ H)) as (s' & x & n & f & E & F'); [discriminate|]. do 2 eexists. split; [exact E|exact F'].
  - cbn [step]. destruct (sync_fine s own r rest as_arr (fun _ => -1) false F (cnt_perm _ _ H)) as (s' & x & n & f & E & F'); [discriminate|]. do 2 eexists. split; [exact E|exact F'].
  - cbn [step]. destruct (drop_sound (s_heap s) (chan_refs (s_chan s)) own) as (h & E & S & _).
    + refine (sound_perm _ _ _ _ F). intros r. rewrite !cnt_app. lia.
    + rewrite E. cbn [obind]. do 2 eexists. split; [reflexivity|]. unfold fine; cbn. rewrite app_nil_r. exact S.
Qed.

Lemma look_tag h t p c : cell_at h p = Some c -> tag_of c = t -> look h (t, p) = Ok c.
Proof. intros E <-. unfold look. cbn [snd fst]. rewrite E. destruct c; reflexivity. Qed.
Theorem other_taken s r v t k s' x : cell_at (s_heap s) r = Some (CResp (Some v) t None) -> cell_at (s_heap s) v = Some (CVal k) -> (forall q, k <> KStr q) ->
  step s (OStrSync r) = Ok (s', x) -> x = RSync None (-1) None.
Proof.
  intros R V K. cbn [step]. unfold sync, common_sync, resp_at, val_at, nullify. rewrite (look_tag _ TResp _ _ R eq_refl). cbn [obind r_fault r_val].
  rewrite (look_tag _ TVal _ _ V eq_refl). cbn [obind]. unfold val_at. rewrite (look_tag _ TVal _ _ V eq_refl). cbn [obind]. destruct (dropped _ _) as [[s1 y]|]; [|discriminate]. cbn [obind].
  intros H. injection H as <- <-. destruct k; cbn; auto. exfalso. eapply K; eauto.
Qed.
Theorem shown s r v k b : cell_at (s_heap s) r = Some (CResp (Some v) None None) -> cell_at (s_heap s) v = Some (CVal k) -> shows (s_heap s) k b ->
  exists s' p, step s (OShow r) = Ok (s', RPtr (Some p)) /\ cell_at (s_heap s) p = None /\ cell_at (s_heap s') p = Some (CStr b) /\
  cell_at (s_heap s') r = Some (CResp (Some v) (Some p) None) /\ step s' (OShow r) = Ok (s', RPtr (Some p)).
Proof.
  intros R V SH. assert (E : stringify (s_heap s) (Some v) = Ok (Some b)).
  { unfold stringify, val_at. rewrite (look_tag _ TVal _ _ V eq_refl). cbn [obind]. inversion SH; subst; auto; unfold bytes_at; erewrite look_tag by eauto; reflexivity. }
  cbn [step]. unfold resp_at at 1. rewrite (look_tag _ TResp _ _ R eq_refl). cbn [obind r_fault r_text r_val]. rewrite E. cbn [obind alloc].
  assert (L : (r < length (s_heap s))%nat) by (apply nth_error_Some; unfold cell_at in R; destruct (nth_error (s_heap s) r); congruence).
  set (h' := put (s_heap s ++ [Some (CStr b)]) r (CResp (Some v) (Some (length (s_heap s))) None)).
  assert (UP : forall (l : heap) i j y, nth_error (upd_nth l i y) j = if Nat.eqb i j then (match nth_error l i with Some _ => Some y | None => None end) else nth_error l j).
  { clear. induction l as [|a l IH]; intros [|i] [|j] y; cbn; auto. destruct (Nat.eqb i j); auto. }
  assert (R' : cell_at h' r = Some (CResp (Some v) (Some (length (s_heap s))) None)).
  { unfold h', put, cell_at. rewrite UP, Nat.eqb_refl, nth_error_app1 by auto. destruct (nth_error (s_heap s) r) eqn:N; auto. apply nth_error_None in N. lia. }
  exists (mkV h' (s_chan s)), (length (s_heap s)). split; [reflexivity|]. cbn [s_heap]. split; [unfold cell_at; rewrite (proj2 (nth_error_None _ _)) by lia; reflexivity|]. split.
  - unfold h', put, cell_at. rewrite UP. destruct (Nat.eqb r (length (s_heap s))) eqn:X; [apply Nat.eqb_eq in X; lia|]. rewrite nth_error_app2, Nat.sub_diag by lia. reflexivity.
  - split; auto. unfold resp_at. rewrite (look_tag _ TResp _ _ R' eq_refl). reflexivity.
Qed.
