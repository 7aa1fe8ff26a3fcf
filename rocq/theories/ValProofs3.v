From Coq Require Import String.
From Verif Require Import Base CodecModel GreetModel HdrModel HdrProofs MsgModel ValModel ValSpec ValProofs ValProofs2.
Open Scope list_scope.
Open Scope Z_scope.

Lemma careful_run : forall os s own last, fine s own -> careful s own os last -> exists s', vrun s os = Ok s' /\ fine s' last.
Proof.
  induction os as [|o os IH]; intros s own last F C; cbn in C.
  - subst. eexists. split; [reflexivity|exact F].
  - destruct C as (k & Fa & C). destruct (step_fine _ _ _ _ F Fa) as (s1 & x & E & F1). cbn [vrun]. rewrite E. cbn [obind].
    apply (IH _ _ _ F1). apply C. exact E.
Qed.
Lemma fine0 : fine v0 [].
Proof. split; cbn; intros; [unfold rcount, cell_at; destruct (snd r); reflexivity|]. unfold cell_at in H. destruct p; discriminate. Qed.

Theorem never_astray : forall os last, careful v0 [] os last -> exists s, vrun v0 os = Ok s /\
  (forall r, In r last -> exists c, look (s_heap s) r = Ok c) /\
  (forall p c r, cell_at (s_heap s) p = Some c -> In r (kids c) -> exists d, look (s_heap s) r = Ok d).
Proof.
  intros os last C. destruct (careful_run _ _ _ _ fine0 C) as (s & E & F). exists s. split; auto. split.
  - intros r I. apply (sound_alive _ _ _ F). apply in_or_app; auto.
  - intros p c r H I. destruct (sound_kid _ _ _ _ _ F H I) as (d & L & _). eauto.
Qed.

Lemma in_use_nil h : (forall p, cell_at h p = None) -> in_use h = [].
Proof. intros H. unfold in_use. induction (seq 0 (length h)) as [|p l IH]; cbn; auto. rewrite H. auto. Qed.
Lemma rank_max (rank : nat -> nat) h : exists M, forall p c, cell_at h p = Some c -> (rank p <= M)%nat.
Proof.
  assert (X : forall n, exists M, forall p, (p < n)%nat -> (rank p <= M)%nat).
  { induction n as [|n (M & H)]; [exists O; lia|]. exists (Nat.max M (rank n)). intros p L. destruct (Nat.eq_dec p n) as [->|N]; [lia|]. specialize (H p). lia. }
  destruct (X (length h)) as (M & H). exists M. intros p c C. apply H. apply (cell_at_len _ _ _ C).
Qed.
Lemma no_orphan h : sound h [] -> acyclic h -> forall p, cell_at h p = None.
Proof.
  intros [A B] (rank & R). destruct (rank_max rank h) as (M & HM).
  assert (X : forall n p c, (M - rank p < n)%nat -> cell_at h p = Some c -> False).
  { induction n as [|n IH]; [lia|]. intros p c L C. specialize (A (tag_of c, p)). unfold rcount in A. cbn [snd] in A. rewrite C in A. cbn [own_o cnt] in A. rewrite ref_eqb_refl in A.
    pose proof (proj1 (B _ _ C)). assert (I : In (tag_of c, p) (all_kids h)) by (apply cnt_pos; lia).
    unfold all_kids in I. apply in_flat_map in I. destruct I as ([d|] & I & K); [|destruct K]. apply In_nth_error in I. destruct I as [q Q].
    assert (D : cell_at h q = Some d) by (unfold cell_at; rewrite Q; auto). pose proof (R q d _ D K). cbn [snd] in *. pose proof (HM q d D). apply (IH q d); auto. lia. }
  intros p. destruct (cell_at h p) as [c|] eqn:C; auto. exfalso. apply (X (S (M - rank p)) p c); auto.
Qed.
Theorem nothing_left : forall os s, careful v0 [] os [] -> vrun v0 os = Ok s -> s_chan s = [] -> acyclic (s_heap s) -> in_use (s_heap s) = [].
Proof.
  intros os s C E N Ac. destruct (careful_run _ _ _ _ fine0 C) as (s' & E' & F). assert (s' = s) by congruence. subst s'.
  apply in_use_nil. apply no_orphan; auto. unfold fine in F. rewrite N in F. exact F.
Qed.

(** * Copies *)
Lemma cell_at_app_old h l p : (p < length h)%nat -> cell_at (h ++ l) p = cell_at h p.
Proof. intros L. unfold cell_at. rewrite nth_error_app1; auto. Qed.
Lemma text_app h l o : (forall p, o = Some p -> (p < length h)%nat) -> text_or (h ++ l) o = text_or h o.
Proof. destruct o as [p|]; cbn; auto. intros H. rewrite cell_at_app_old; auto. Qed.
Lemma text_recount h p c n o : cell_at h p = Some c -> (tag_of c = TStruct \/ tag_of c = TArr) -> text_or (put h p (recount c n)) o = text_or h o.
Proof.
  intros C T. destruct o as [q|]; auto. cbn. unfold put. rewrite cell_at_upd by apply (cell_at_len _ _ _ C). destruct (Nat.eqb p q) eqn:E; auto.
  apply Nat.eqb_eq in E. subst. rewrite C. destruct c; cbn in T; destruct T; try discriminate; reflexivity.
Qed.

Theorem copied : forall s own v s' x, fine s own -> usable s own (TVal, v) -> step s (OCopy v) = Ok (s', x) ->
  exists k, cell_at (s_heap s) v = Some (CVal k) /\ cell_at (s_heap s') v = Some (CVal k) /\ (x = RPtr None <-> k = KDate) /\
  (forall w, x = RPtr (Some w) -> exists k', cell_at (s_heap s') w = Some (CVal k') /\ cell_at (s_heap s) w = None /\
     holding (s_heap s') k' = holding (s_heap s) k /\ forall p, In (TStr, p) (kids_of k') -> ~ In (TStr, p) (own ++ all_kids (s_heap s))).
Proof.
  intros s own v s' x F U E. destruct (fine_val _ _ _ F (fine_use _ _ _ F U)) as (k & Ek & C). pose proof (cell_at_len _ _ _ C) as L.
  cbn [step] in E. unfold copy in E. rewrite Ek in E. cbn [obind] in E. exists k. split; auto.
  assert (Fresh : forall p, (length (s_heap s) <= p)%nat -> ~ In (TStr, p) (own ++ all_kids (s_heap s))).
  { intros p Lp I. apply in_app_or in I. destruct (sound_look _ _ (TStr, p) F) as (c & _ & Cc & _); [destruct I; [left; apply in_or_app; auto|right; auto]|].
    apply cell_at_len in Cc. cbn in Cc. lia. }
  assert (G : forall k2 s1, give s1 (CVal k2) = Ok (s', x) -> length (s_heap s1) = length (s_heap s) -> cell_at (s_heap s1) v = Some (CVal k) -> cell_at (s_heap s1) (length (s_heap s)) = None ->
     holding (s_heap s1 ++ [Some (CVal k2)]) k2 = holding (s_heap s) k -> (forall p, ~ In (TStr, p) (kids_of k2)) -> k <> KDate ->
     cell_at (s_heap s') v = Some (CVal k) /\ (x = RPtr None <-> k = KDate) /\
     (forall w, x = RPtr (Some w) -> exists k', cell_at (s_heap s') w = Some (CVal k') /\ cell_at (s_heap s) w = None /\
     holding (s_heap s') k' = holding (s_heap s) k /\ forall p, In (TStr, p) (kids_of k') -> ~ In (TStr, p) (own ++ all_kids (s_heap s)))).
  { intros k2 s1 G L1 C1 C2 H N D. unfold give, alloc in G. injection G as <- <-. cbn [s_heap]. rewrite cell_at_app_old by lia. split; auto. split; [split; [discriminate|congruence]|].
    intros w X. injection X as <-. exists k2. rewrite cell_at_app, Nat.eqb_refl. split; auto. split; [apply cell_at_over; lia|]. split; auto. intros p I. elim (N _ I). }
  assert (T : forall b64 b, new_text s b64 b = Ok (s', x) -> holding (s_heap s) k = (if b64 then HB64 b else HStr b) -> k <> KDate ->
     cell_at (s_heap s') v = Some (CVal k) /\ (x = RPtr None <-> k = KDate) /\
     (forall w, x = RPtr (Some w) -> exists k', cell_at (s_heap s') w = Some (CVal k') /\ cell_at (s_heap s) w = None /\
     holding (s_heap s') k' = holding (s_heap s) k /\ forall p, In (TStr, p) (kids_of k') -> ~ In (TStr, p) (own ++ all_kids (s_heap s)))).
  { intros b64 b T H D. unfold new_text, give, alloc in T. injection T as <- <-. cbn [s_heap]. rewrite !cell_at_app_old by (rewrite ?app_length; cbn [length]; lia).
    split; auto. split; [split; [discriminate|congruence]|]. intros w X. injection X as <-. exists (text_kind b64 (length (s_heap s))).
    rewrite cell_at_app, Nat.eqb_refl. split; auto. split; [apply cell_at_over; rewrite app_length; lia|]. split.
    - assert (Q : cell_at ((s_heap s ++ [Some (CStr b)]) ++ [Some (CVal (text_kind b64 (length (s_heap s))))]) (length (s_heap s)) = Some (CStr b)).
      { rewrite cell_at_app_old by (rewrite app_length; cbn; lia). rewrite cell_at_app, Nat.eqb_refl. auto. }
      rewrite H. destruct b64; cbn [text_kind] in *; cbn [holding text_or]; rewrite Q; reflexivity.
    - intros p I. destruct b64; cbn in I; destruct I as [I|[]]; injection I as <-; apply Fresh; lia. }
  assert (L0 : cell_at (s_heap s) (length (s_heap s)) = None) by (apply cell_at_over; lia).
  assert (Rm : forall t p, t = TStruct \/ t = TArr -> In (t, p) (kids_of k) -> forall h, ref_more (s_heap s) (t, p) = Ok h ->
     length h = length (s_heap s) /\ cell_at h v = Some (CVal k) /\ cell_at h (length (s_heap s)) = None).
  { intros t p T0 I h R. destruct (sound_look _ _ (t, p) F) as (c & Lc & Cc & Tc); [right; apply (kid_of _ _ _ _ C); auto|]. unfold ref_more in R. rewrite Lc in R. cbn [obind] in R. injection R as <-.
    cbn [snd fst] in *. unfold put. rewrite upd_nth_length. split; auto. pose proof (cell_at_len _ _ _ Cc). rewrite !cell_at_upd by auto.
    replace (Nat.eqb p (length (s_heap s))) with false by (symmetry; apply Nat.eqb_neq; lia). split; auto.
    destruct (Nat.eqb p v) eqn:Q; auto. apply Nat.eqb_eq in Q. subst p. rewrite C in Cc. injection Cc as <-. cbn in Tc. destruct T0; congruence. }
  destruct k as [z|z|g|[p|]|[p|]|[p|]|[p|]| |].
  - apply (G _ _ E); auto; discriminate.
  - apply (G _ _ E); auto; discriminate.
  - apply (G _ _ E); auto; discriminate.
  - destruct (fine_str _ _ p F) as (b & B & Cb); [right; apply (kid_of _ _ _ _ C); cbn; auto|]. rewrite B in E. cbn [obind] in E. apply (T _ _ E); [cbn; rewrite Cb; auto|discriminate].
  - apply (T _ _ E); [reflexivity|discriminate].
  - destruct (fine_str _ _ p F) as (b & B & Cb); [right; apply (kid_of _ _ _ _ C); cbn; auto|]. rewrite B in E. cbn [obind] in E. apply (T _ _ E); [cbn; rewrite Cb; auto|discriminate].
  - apply (T _ _ E); [reflexivity|discriminate].
  - destruct (ref_more (s_heap s) (TStruct, p)) as [h|] eqn:R; [|discriminate]. cbn [obind] in E. destruct (Rm TStruct p ltac:(auto) ltac:(cbn; auto) h R) as (R1 & R2 & R3).
    apply (G _ _ E); auto; [cbn; intros q [X|[]]; discriminate|discriminate].
  - apply (G _ _ E); auto; discriminate.
  - destruct (ref_more (s_heap s) (TArr, p)) as [h|] eqn:R; [|discriminate]. cbn [obind] in E. destruct (Rm TArr p ltac:(auto) ltac:(cbn; auto) h R) as (R1 & R2 & R3).
    apply (G _ _ E); auto; [cbn; intros q [X|[]]; discriminate|discriminate].
  - apply (G _ _ E); auto; discriminate.
  - injection E as <- <-. split; auto. split; [tauto|]. intros w X. discriminate.
  - apply (G _ _ E); auto; discriminate.
Qed.

(** What is left after a release holds what it held. *)
Theorem kept : forall s own w rest v k s' x, fine s own -> Permutation own (w :: rest) -> dropped s [w] = Ok (s', x) ->
  In (TVal, v) rest -> cell_at (s_heap s) v = Some (CVal k) -> cell_at (s_heap s') v = Some (CVal k) /\ holding (s_heap s') k = holding (s_heap s) k.
Proof.
  intros s own w rest v k s' x F P E I C. destruct (dropped_fine s own [w] rest F (cnt_perm _ _ P)) as (s1 & E1 & F1 & _ & Fr).
  rewrite E1 in E. injection E as <- <-. destruct (fine_val _ _ v F1) as (k1 & _ & C1); [left; apply in_or_app; auto|].
  destruct (proj2 Fr _ _ C1) as (d & n & D & Q). rewrite C in D. injection D as <-. cbn in Q. injection Q as ->. split; auto.
  assert (X : forall o, (forall p, o = Some p -> In (TStr, p) (kids_of k)) -> text_or (s_heap s1) o = text_or (s_heap s) o).
  { intros [p|] H; auto. cbn. destruct (fine_str _ _ p F1) as (b & _ & B); [right; apply (kid_of _ _ _ _ C1); cbn; auto|]. rewrite B.
    destruct (proj2 Fr _ _ B) as (d & m & D & Q). destruct d; cbn in Q; try discriminate. injection Q as ->. rewrite D. auto. }
  destruct k as [z|z|g|o|o|[p|]|[p|]| |]; cbn [holding]; auto; f_equal; apply X; intros p ->; cbn; auto.
Qed.

(** * Struct checks *)
Lemma bytes_eqb_eq a b : bytes_eqb a b = true <-> a = b.
Proof.
  revert b. induction a as [|x a IH]; intros [|y b]; cbn; split; intros H; try discriminate; auto.
  - apply andb_prop in H. destruct H as [X Y]. apply IH in Y. f_equal; auto. lia.
  - injection H as -> ->. rewrite Z.eqb_refl. apply IH. auto.
Qed.
Lemma nth_member_ok h ms es i e : members h ms es -> nth_error es i = Some e -> nth_member h ms i = Ok e.
Proof.
  intros M. revert i. induction M as [|m e0 ms es (v & A & B) M IH]; intros [|i] H; cbn in H; try discriminate.
  - injection H as <-. unfold nth_member. cbn [nth_error]. rewrite (look_cell _ (TMem, m) _ A eq_refl). cbn [obind]. rewrite (cell_val_at _ _ _ B). cbn [obind]. destruct e0; auto.
  - apply (IH _ H).
Qed.
Lemma check_from_ok h ms es ok : members h ms es -> forall l i, (i + length l <= length es)%nat ->
  exists b, check_from h ms ok i l = Ok b /\ (b = true <-> Forall2 (fun t e => ok t e = true) l (firstn (length l) (skipn i es))).
Proof.
  intros M. induction l as [|t l IH]; intros i L; cbn [length] in *.
  - exists true. split; auto. split; auto. intros _. constructor.
  - cbn [check_from]. destruct (nth_error es i) as [e|] eqn:N; [|apply nth_error_None in N; lia]. rewrite (nth_member_ok _ _ _ _ _ M N). cbn [obind].
    assert (SK : skipn i es = e :: skipn (S i) es). { clear - N. revert i N. induction es as [|x es IH]; intros [|i] N; cbn in *; try discriminate; [congruence|auto]. }
    rewrite SK. cbn [firstn]. destruct (ok t e) eqn:O.
    + destruct (IH (S i)) as (b & E & B); [lia|]. exists b. split; auto. rewrite B. split; intros H; [constructor; auto|inversion H; subst; auto].
    + exists false. split; auto. split; [discriminate|]. intros H. inversion H. congruence.
Qed.
Lemma same_length {A B} (R : A -> B -> Prop) l m : Forall2 R l m -> length l = length m.
Proof. induction 1; cbn; auto. Qed.
Lemma check_struct_ok h s count refs ms es ok l : cell_at h s = Some (CStruct count refs ms) -> members h ms es -> zlen ms = count ->
  exists b, check_struct h s ok l = Ok b /\ (b = true <-> Forall2 (fun t e => ok t e = true) l es).
Proof.
  intros C M N. unfold check_struct. rewrite (look_cell _ (TStruct, s) _ C eq_refl). cbn [obind].
  assert (L : length ms = length es) by (apply (same_length _ _ _ M)).
  destruct (count =? zlen l) eqn:Q.
  - destruct (check_from_ok h ms es ok M l 0) as (b & E & B); [unfold zlen in *; lia|]. exists b. split; auto. rewrite B. cbn [skipn].
    replace (length l) with (length es) by (unfold zlen in *; lia). rewrite firstn_all. tauto.
  - exists false. split; auto. split; [discriminate|]. intros H. apply same_length in H. unfold zlen in *. lia.
Qed.
Theorem names_checked : forall h s count refs ms es l, cell_at h s = Some (CStruct count refs ms) -> members h ms es -> zlen ms = count ->
  exists b, check_names h s l = Ok b /\ (b = true <-> l = map fst es).
Proof.
  intros h s count refs ms es l C M N. destruct (check_struct_ok h s count refs ms es (fun t m => bytes_eqb (fst m) t) l C M N) as (b & E & B).
  exists b. split; auto. rewrite B. clear. split.
  - induction 1 as [|t e l es H F IH]; cbn; auto. apply bytes_eqb_eq in H. congruence.
  - intros ->. induction es; cbn; constructor; auto. apply bytes_eqb_eq. auto.
Qed.
Lemma type_ok_names t k : In t type_names -> (type_ok t k = true <-> In t (names_of k)).
Proof.
  intros I. cbn in I. destruct I as [<-|[<-|[<-|[<-|[<-|[<-|[<-|[<-|[]]]]]]]]]; destruct k; cbn; split; intros H;
    try reflexivity; try discriminate; try (left; reflexivity); try (right; left; reflexivity);
    repeat (destruct H as [H|H]; try discriminate); try contradiction.
Qed.
Theorem types_checked : forall h s count refs ms es l, cell_at h s = Some (CStruct count refs ms) -> members h ms es -> zlen ms = count ->
  (forall t, In t l -> In t type_names) ->
  exists b, check_types h s l = Ok b /\ (b = true <-> Forall2 (fun t e => In t (names_of (snd e))) l es).
Proof.
  intros h s count refs ms es l C M N K. destruct (check_struct_ok h s count refs ms es (fun t m => type_ok t (snd m)) l C M N) as (b & E & B).
  exists b. split; auto. rewrite B. clear - K. split; intros H; induction H as [|t e l es H F IH]; constructor;
    try (apply type_ok_names; auto; apply K; cbn; auto); apply IH; intros t' I; apply K; cbn; auto.
Qed.

(** * Arrays and calls *)
Theorem array_added : forall h a refs n vs v, cell_at h a = Some (CArr refs n vs) -> (n < length vs)%nat ->
  exists h', arr_add h a v = Ok h' /\ arr_get h' a (Z.of_nat n) = Ok v /\ (forall i, 0 <= i < Z.of_nat n -> arr_get h' a i = arr_get h a i) /\
  (forall i, Z.of_nat n < i -> arr_get h' a i = Ok None).
Proof.
  intros h a refs n vs v C L. pose proof (cell_at_len _ _ _ C) as La. unfold arr_add. rewrite (look_cell _ (TArr, a) _ C eq_refl). cbn [obind]. replace (n <? length vs)%nat with true by (symmetry; apply Nat.ltb_lt; auto).
  eexists. split; [reflexivity|]. unfold arr_get. rewrite (look_cell _ (TArr, a) _ C eq_refl).
  assert (C' : cell_at (put h a (CArr refs (S n) (upd_nth vs n v))) a = Some (CArr refs (S n) (upd_nth vs n v))) by (unfold put; rewrite cell_at_upd, Nat.eqb_refl by auto; auto).
  rewrite (look_cell _ (TArr, a) _ C' eq_refl). cbn [obind]. split; [|split].
  - replace ((0 <=? Z.of_nat n) && (Z.of_nat n <? Z.of_nat (S n))) with true by lia. rewrite Nat2Z.id. f_equal. apply nth_error_nth. apply nth_upd_same; auto.
  - intros i R. replace ((0 <=? i) && (i <? Z.of_nat (S n))) with true by lia. replace ((0 <=? i) && (i <? Z.of_nat n)) with true by lia. f_equal.
    assert (D : n <> Z.to_nat i) by lia. destruct (nth_error vs (Z.to_nat i)) as [y|] eqn:Y.
    + rewrite (nth_error_nth _ _ None Y). apply nth_error_nth. rewrite nth_upd_other; auto.
    + apply nth_error_None in Y. lia.
  - intros i R. replace ((0 <=? i) && (i <? Z.of_nat (S n))) with false by lia. auto.
Qed.
Theorem array_set : forall h a refs n vs i v, cell_at h a = Some (CArr refs n vs) -> 0 <= i < Z.of_nat n -> (n <= length vs)%nat ->
  exists h', arr_set h a i v = Ok h' /\ arr_get h' a i = Ok v /\ forall j, j <> i -> arr_get h' a j = arr_get h a j.
Proof.
  intros h a refs n vs i v C R L. pose proof (cell_at_len _ _ _ C) as La. unfold arr_set. rewrite (look_cell _ (TArr, a) _ C eq_refl). cbn [obind].
  replace ((0 <=? i) && (i <? zlen vs)) with true by (unfold zlen; lia). eexists. split; [reflexivity|]. unfold arr_get. rewrite (look_cell _ (TArr, a) _ C eq_refl).
  assert (C' : cell_at (put h a (CArr refs n (upd_nth vs (Z.to_nat i) v))) a = Some (CArr refs n (upd_nth vs (Z.to_nat i) v))) by (unfold put; rewrite cell_at_upd, Nat.eqb_refl by auto; auto).
  rewrite (look_cell _ (TArr, a) _ C' eq_refl). cbn [obind]. split.
  - replace ((0 <=? i) && (i <? Z.of_nat n)) with true by lia. f_equal. apply nth_error_nth. apply nth_upd_same. lia.
  - intros j D. destruct ((0 <=? j) && (j <? Z.of_nat n)) eqn:Q; auto. f_equal. assert (Z.to_nat i <> Z.to_nat j) by lia.
    destruct (nth_error vs (Z.to_nat j)) as [y|] eqn:Y; [rewrite (nth_error_nth _ _ None Y); apply nth_error_nth; rewrite nth_upd_other; auto|]. apply nth_error_None in Y. lia.
Qed.

(** * Taking the value out of a response *)
Theorem text_taken : forall s own r rest v t p b, fine s own -> Permutation own ((TResp, r) :: rest) ->
  cell_at (s_heap s) r = Some (CResp (Some v) t None) -> cell_at (s_heap s) v = Some (CVal (KStr (Some p))) -> cell_at (s_heap s) p = Some (CStr b) ->
  exists s', step s (OStrSync r) = Ok (s', RSync (Some p) (-1) None) /\ cell_at (s_heap s') p = Some (CStr b) /\ fine s' ((TStr, p) :: rest).
Proof.
  intros s own r rest v t p b F P Cr Cv Cp.
  assert (Rr : resp_at (s_heap s) r = Ok (mkR (Some v) t None)) by (unfold resp_at; rewrite (look_cell _ (TResp, r) _ Cr eq_refl); auto).
  cbn [step]. unfold sync, common_sync. rewrite Rr. cbn [obind r_fault r_val]. rewrite (cell_val_at _ _ _ Cv). cbn [obind].
  destruct (nullify_fine _ _ _ _ F Cv) as [E1 S1]. rewrite E1. cbn [obind].
  destruct (dropped_fine (mkV (put (s_heap s) v (CVal (null_kind (KStr (Some p))))) (s_chan s)) ((TStr, p) :: own) [(TResp, r)] ((TStr, p) :: rest)) as (s2 & E2 & F2 & _ & Fr).
  - exact S1.
  - intros x. pose proof (cnt_perm _ _ P x). cbn [app cnt] in *. lia.
  - rewrite E2. cbn [obind]. eexists. split; [reflexivity|]. split; auto.
    destruct (fine_str _ _ p F2) as (b' & _ & B'); [left; apply in_or_app; left; left; auto|]. rewrite B'.
    destruct (proj2 Fr _ _ B') as (d & n & D & Q). cbn [s_heap] in D. unfold put in D. rewrite cell_at_upd in D by apply (cell_at_len _ _ _ Cv).
    destruct (Nat.eqb v p) eqn:Z0; [injection D as <-; cbn in Q; discriminate|]. rewrite Cp in D. injection D as <-. cbn in Q. congruence.
Qed.
Theorem fault_told : forall s own r rest v t code q b get num clear, fine s own -> Permutation own ((TResp, r) :: rest) ->
  cell_at (s_heap s) r = Some (CResp v t (Some (code, q))) -> cell_at (s_heap s) q = Some (CStr b) ->
  exists s' p, sync s r get num clear = Ok (s', RSync None code (Some p)) /\ cell_at (s_heap s') p = Some (CStr b) /\ fine s' rest /\
    (forall e, In e (s_chan s) -> fst e <> b -> In e (s_chan s')).
Proof.
  intros s own r rest v t code q b get num clear F P Cr Cq.
  assert (Rr : resp_at (s_heap s) r = Ok (mkR v t (Some (code, q)))) by (unfold resp_at; rewrite (look_cell _ (TResp, r) _ Cr eq_refl); auto).
  unfold sync, common_sync. rewrite Rr. cbn [obind r_fault r_val]. unfold bytes_at. rewrite (look_cell _ (TStr, q) _ Cq eq_refl). cbn [obind].
  destruct (keep_fine s own b F) as (s1 & p & E1 & F1 & I1 & C1 & _ & K1 & _). rewrite E1. cbn [obind].
  destruct (dropped_fine s1 own [(TResp, r)] rest F1 (cnt_perm _ _ P)) as (s2 & E2 & F2 & Ch & Fr). rewrite E2. cbn [obind].
  do 2 eexists. split; [reflexivity|]. split; [|split; auto; rewrite Ch; exact K1].
  destruct (fine_str _ _ p F2) as (b' & _ & B').
  - left. apply in_or_app. right. rewrite Ch. unfold chan_refs. apply in_map_iff. exists (b, p). auto.
  - rewrite B'. destruct (proj2 Fr _ _ B') as (d & n & D & Q). rewrite C1 in D. injection D as <-. cbn in Q. congruence.
Qed.

(** * For the states a careful program reaches *)
Lemma reached_fine s own : reached s own -> fine s own.
Proof. intros (os & C & E). destruct (careful_run _ _ _ _ fine0 C) as (s' & E' & F). congruence. Qed.
Theorem copied_r : forall s own v s' x, reached s own -> usable s own (TVal, v) -> step s (OCopy v) = Ok (s', x) ->
  exists k, cell_at (s_heap s) v = Some (CVal k) /\ cell_at (s_heap s') v = Some (CVal k) /\ (x = RPtr None <-> k = KDate) /\
  (forall w, x = RPtr (Some w) -> exists k', cell_at (s_heap s') w = Some (CVal k') /\ cell_at (s_heap s) w = None /\
     holding (s_heap s') k' = holding (s_heap s) k /\ forall p, In (TStr, p) (kids_of k') -> ~ In (TStr, p) (own ++ all_kids (s_heap s))).
Proof. intros s own v s' x R. apply copied. apply reached_fine, R. Qed.
Theorem kept_r : forall s own w rest v k s' x, reached s own -> Permutation own (w :: rest) -> dropped s [w] = Ok (s', x) ->
  In (TVal, v) rest -> cell_at (s_heap s) v = Some (CVal k) -> cell_at (s_heap s') v = Some (CVal k) /\ holding (s_heap s') k = holding (s_heap s) k.
Proof. intros s own w rest v k s' x R. apply kept. apply reached_fine, R. Qed.
Theorem text_taken_r : forall s own r rest v t p b, reached s own -> Permutation own ((TResp, r) :: rest) ->
  cell_at (s_heap s) r = Some (CResp (Some v) t None) -> cell_at (s_heap s) v = Some (CVal (KStr (Some p))) -> cell_at (s_heap s) p = Some (CStr b) ->
  exists s', step s (OStrSync r) = Ok (s', RSync (Some p) (-1) None) /\ cell_at (s_heap s') p = Some (CStr b) /\ forall q, In q rest -> exists c, look (s_heap s') q = Ok c.
Proof.
  intros s own r rest v t p b R P A B C. destruct (text_taken s own r rest v t p b (reached_fine _ _ R) P A B C) as (s' & E & K & F).
  exists s'. split; [exact E|]. split; [exact K|]. intros q I. apply (sound_alive _ _ _ F). apply in_or_app. left. right. exact I.
Qed.
Theorem fault_told_r : forall s own r rest v t code q b get num clear, reached s own -> Permutation own ((TResp, r) :: rest) ->
  cell_at (s_heap s) r = Some (CResp v t (Some (code, q))) -> cell_at (s_heap s) q = Some (CStr b) ->
  exists s' p, sync s r get num clear = Ok (s', RSync None code (Some p)) /\ cell_at (s_heap s') p = Some (CStr b) /\ (forall q, In q rest -> exists c, look (s_heap s') q = Ok c) /\
    (forall e, In e (s_chan s) -> fst e <> b -> In e (s_chan s') /\ exists c, look (s_heap s') (TStr, snd e) = Ok c).
Proof.
  intros s own r rest v t code q b get num clear R P A B. destruct (fault_told s own r rest v t code q b get num clear (reached_fine _ _ R) P A B) as (s' & p & E & K & F & G).
  exists s', p. split; [exact E|]. split; [exact K|]. split.
  - intros x I. apply (sound_alive _ _ _ F). apply in_or_app. left. exact I.
  - intros e I N. pose proof (G e I N) as I'. split; auto. apply (sound_alive _ _ _ F). apply in_or_app. right. unfold chan_refs. apply in_map_iff. exists e. auto.
Qed.
