From Coq Require Import String.
From Verif Require Import Base CodecModel GreetModel HdrModel HdrProofs MsgModel ValModel ValSpec.
Open Scope list_scope.
Open Scope Z_scope.

(** * Counting references *)
Definition ref_eqb (a b : ref) : bool := tag_eqb (fst a) (fst b) && Nat.eqb (snd a) (snd b).
Lemma tag_eqb_eq a b : tag_eqb a b = true <-> a = b.
Proof. destruct a, b; cbn; split; intros; congruence. Qed.
Lemma ref_eqb_eq a b : ref_eqb a b = true <-> a = b.
Proof.
  destruct a as [a p], b as [b q]. unfold ref_eqb; cbn. rewrite andb_true_iff, tag_eqb_eq, Nat.eqb_eq. split; [intros [X Y]|intros X; split]; congruence.
Qed.
Lemma ref_eqb_refl a : ref_eqb a a = true.
Proof. apply ref_eqb_eq. reflexivity. Qed.
Fixpoint cnt (r : ref) (l : list ref) : nat :=
  match l with [] => O | x :: l => ((if ref_eqb x r then 1 else 0) + cnt r l)%nat end.
Lemma cnt_app r a b : cnt r (a ++ b) = (cnt r a + cnt r b)%nat.
Proof. induction a; cbn; lia. Qed.
Lemma cnt_perm a b : Permutation a b -> forall r, cnt r a = cnt r b.
Proof. induction 1; intros r; cbn; try rewrite IHPermutation; auto; try lia. rewrite IHPermutation1. apply IHPermutation2. Qed.
Lemma cnt_in r l : In r l -> (1 <= cnt r l)%nat.
Proof. induction l; cbn; [tauto|]. intros [->|H]; [rewrite ref_eqb_refl; lia|apply IHl in H; lia]. Qed.
Lemma cnt_pos r l : (1 <= cnt r l)%nat -> In r l.
Proof. induction l; cbn; [lia|]. destruct (ref_eqb a r) eqn:E; [apply ref_eqb_eq in E; auto|]. intros H. right. apply IHl. lia. Qed.

Definition kids_o (o : option cell) : list ref := match o with Some c => kids c | None => [] end.
Definition own_o (o : option cell) (p : nat) (r : ref) : nat :=
  match o with Some c => if ref_eqb (tag_of c, p) r then Z.to_nat (count_of c) else O | None => O end.
Definition rcount (h : heap) (r : ref) : nat := own_o (cell_at h (snd r)) (snd r) r.

Definition wfc (c : cell) : Prop :=
  1 <= count_of c /\ match c with CStruct count _ ms => zlen ms <= count | CArr _ n vs | CCall n vs => (n <= length vs)%nat | _ => True end.
Definition sound (h : heap) (ext : list ref) : Prop :=
  (forall r, (cnt r ext + cnt r (all_kids h))%nat = rcount h r) /\ (forall p c, cell_at h p = Some c -> wfc c).

Lemma all_kids_app a b : all_kids (a ++ b) = all_kids a ++ all_kids b.
Proof. unfold all_kids. apply flat_map_app. Qed.
Lemma all_kids_cons o h : all_kids (o :: h) = kids_o o ++ all_kids h.
Proof. reflexivity. Qed.
Lemma upd_split {A} : forall (l : list A) p x, nth_error l p = Some x -> exists a b, l = a ++ x :: b /\ length a = p /\ forall y, upd_nth l p y = a ++ y :: b.
Proof.
  induction l as [|z l IH]; intros [|p] x H; cbn in *; try discriminate.
  - injection H as <-. exists [], l. auto.
  - destruct (IH _ _ H) as (a & b & -> & <- & U). exists (z :: a), b. cbn. split; auto. split; auto. intros y. rewrite U. auto.
Qed.
Lemma cell_at_nth h p c : cell_at h p = Some c -> nth_error h p = Some (Some c).
Proof. unfold cell_at. destruct (nth_error h p) as [[d|]|]; congruence. Qed.
Lemma cell_at_len h p c : cell_at h p = Some c -> (p < length h)%nat.
Proof. intros H. apply cell_at_nth in H. apply nth_error_Some. congruence. Qed.
Lemma all_kids_upd h p c o : cell_at h p = Some c -> forall r, (cnt r (all_kids (upd_nth h p o)) + cnt r (kids c) = cnt r (all_kids h) + cnt r (kids_o o))%nat.
Proof.
  intros H r. destruct (upd_split _ _ _ (cell_at_nth _ _ _ H)) as (a & b & E & _ & U). rewrite U, E.
  rewrite !all_kids_app, !all_kids_cons, !cnt_app. cbn [kids_o]. lia.
Qed.
Lemma len_kids_upd h p c o : cell_at h p = Some c -> (length (all_kids (upd_nth h p o)) + length (kids c) = length (all_kids h) + length (kids_o o))%nat.
Proof.
  intros H. destruct (upd_split _ _ _ (cell_at_nth _ _ _ H)) as (a & b & E & _ & U). rewrite U, E.
  rewrite !all_kids_app, !all_kids_cons, !app_length. cbn [kids_o]. lia.
Qed.
Lemma cell_at_upd h p o q : (p < length h)%nat -> cell_at (upd_nth h p o) q = if Nat.eqb p q then o else cell_at h q.
Proof.
  intros L. unfold cell_at. destruct (Nat.eqb p q) eqn:E.
  - apply Nat.eqb_eq in E. subst. rewrite nth_upd_same by auto. destruct o; auto.
  - apply Nat.eqb_neq in E. rewrite nth_upd_other; auto.
Qed.

Lemma sound_upd h ext p c o ext' : sound h ext -> cell_at h p = Some c -> (forall d, o = Some d -> wfc d) ->
  (forall r, cnt r ext' + cnt r (kids_o o) + own_o (Some c) p r = cnt r ext + cnt r (kids c) + own_o o p r)%nat ->
  sound (upd_nth h p o) ext'.
Proof.
  intros [A B] H W E. pose proof (cell_at_len _ _ _ H) as L. split.
  - intros r. specialize (A r). specialize (E r). pose proof (all_kids_upd h p c o H r). unfold rcount in *.
    rewrite cell_at_upd by auto. destruct (Nat.eqb p (snd r)) eqn:Q.
    + apply Nat.eqb_eq in Q. rewrite <- Q in *. rewrite H in A. lia.
    + assert (Z1 : own_o (Some c) p r = O). { cbn. unfold ref_eqb; cbn. rewrite Q, andb_false_r. auto. }
      assert (Z2 : own_o o p r = O). { destruct o; cbn; auto. unfold ref_eqb; cbn. rewrite Q, andb_false_r. auto. }
      lia.
  - intros q d. rewrite cell_at_upd by auto. destruct (Nat.eqb p q); [apply W|apply B].
Qed.
Lemma cell_at_app h c q : cell_at (h ++ [Some c]) q = if Nat.eqb q (length h) then Some c else cell_at h q.
Proof.
  unfold cell_at. destruct (Nat.eqb q (length h)) eqn:E.
  - apply Nat.eqb_eq in E. subst. rewrite nth_error_app2, Nat.sub_diag by lia. reflexivity.
  - apply Nat.eqb_neq in E. destruct (Nat.lt_ge_cases q (length h)).
    + rewrite nth_error_app1 by auto. reflexivity.
    + rewrite nth_error_app2 by lia. rewrite (proj2 (nth_error_None h q)) by lia.
      destruct (q - length h)%nat eqn:D; [lia|]. cbn. destruct n; auto.
Qed.
Lemma cell_at_over h q : (length h <= q)%nat -> cell_at h q = None.
Proof. intros. unfold cell_at. rewrite (proj2 (nth_error_None h q)); auto. Qed.
Lemma sound_alloc h ext c ext' : sound h ext -> (forall r, cnt r ext = cnt r (kids c ++ ext')) -> count_of c = 1 -> wfc c ->
  sound (h ++ [Some c]) ((tag_of c, length h) :: ext').
Proof.
  intros [A B] E N W. split.
  - intros r. specialize (A r). specialize (E r). rewrite cnt_app in E. rewrite all_kids_app, cnt_app. unfold all_kids at 2; cbn. rewrite app_nil_r.
    unfold rcount in *. rewrite cell_at_app. destruct (Nat.eqb (snd r) (length h)) eqn:Q.
    + apply Nat.eqb_eq in Q. cbn [own_o]. rewrite Q in *. rewrite cell_at_over in A by lia. cbn in A. rewrite N. destruct (ref_eqb (tag_of c, length h) r); lia.
    + assert (ref_eqb (tag_of c, length h) r = false). { unfold ref_eqb; cbn. rewrite Nat.eqb_sym, Q, andb_false_r. auto. } rewrite H. lia.
  - intros p d. rewrite cell_at_app. destruct (Nat.eqb p (length h)); [|apply B]. intros X; injection X as <-; auto.
Qed.
Lemma sound_perm h a b : (forall r, cnt r a = cnt r b) -> sound h a -> sound h b.
Proof. intros P [A B]. split; auto. intros r. rewrite <- P. auto. Qed.
Lemma sound_look h ext r : sound h ext -> In r ext \/ In r (all_kids h) -> exists c, look h r = Ok c /\ cell_at h (snd r) = Some c /\ tag_of c = fst r.
Proof.
  intros [A _] H. specialize (A r). assert (1 <= rcount h r)%nat by (destruct H as [H|H]; apply cnt_in in H; lia).
  unfold rcount, own_o in H0. unfold look. destruct (cell_at h (snd r)) as [c|]; [|lia]. exists c.
  destruct (ref_eqb (tag_of c, snd r) r) eqn:E; [|lia]. apply ref_eqb_eq in E. rewrite <- E. cbn. rewrite (proj2 (tag_eqb_eq _ _) eq_refl). auto.
Qed.
Lemma sound_kid h ext p c r : sound h ext -> cell_at h p = Some c -> In r (kids c) -> exists d, look h r = Ok d /\ cell_at h (snd r) = Some d /\ tag_of d = fst r.
Proof.
  intros S H I. apply (sound_look _ _ _ S). right. unfold all_kids. apply in_flat_map. exists (Some c). split; auto.
  apply cell_at_nth in H. apply nth_error_In in H. auto.
Qed.

(** * Releasing *)
Lemma own_recount c n p r : own_o (Some (recount c n)) p r = if ref_eqb (tag_of c, p) r then Z.to_nat (count_of (recount c n)) else O.
Proof. destruct c; reflexivity. Qed.
Lemma tag_recount c n : tag_of (recount c n) = tag_of c.
Proof. destruct c; auto. Qed.
Lemma kids_recount c n : kids (recount c n) = kids c.
Proof. destruct c; auto. Qed.
Lemma count_recount c n : count_of c <> 1 \/ (tag_of c = TStruct \/ tag_of c = TArr) -> count_of (recount c n) = n.
Proof. destruct c; cbn; auto; intros [X|[X|X]]; congruence. Qed.
Lemma recount_same c n : count_of (recount c n) = 1 \/ count_of (recount c n) = n.
Proof. destruct c; cbn; auto. Qed.
Lemma recount_twice c n m : recount (recount c n) m = recount c m.
Proof. destruct c; auto. Qed.
Lemma recount_own c : recount c (count_of c) = c.
Proof. destruct c; auto. Qed.
Lemma wfc_recount c n : wfc c -> 1 <= n -> wfc (recount c n).
Proof. destruct c; cbn; unfold wfc; cbn; intuition lia. Qed.

(** Every cell left is what it was, but for its count. *)
Definition frame (h h' : heap) : Prop := length h' = length h /\
  forall p c, cell_at h' p = Some c -> exists d n, cell_at h p = Some d /\ c = recount d n.
Lemma frame_refl h : frame h h.
Proof. split; auto. intros p c H. exists c, (count_of c). rewrite recount_own. auto. Qed.
Lemma frame_trans a b c : frame a b -> frame b c -> frame a c.
Proof.
  intros [L F] [L' F']. split; [congruence|]. intros p x H. destruct (F' _ _ H) as (d & n & D & ->). destruct (F _ _ D) as (e & m & E & ->).
  exists e, n. split; auto. apply recount_twice.
Qed.

Lemma release_sound : forall fuel h w ext, sound h (w ++ ext) -> (length w + length (all_kids h) <= fuel)%nat ->
  exists h', release fuel h w = Ok h' /\ sound h' ext /\ frame h h'.
Proof.
  induction fuel as [|fuel IH]; intros h [|r w] ext S L; try (eexists; split; [reflexivity|]; split; [exact S|apply frame_refl]); cbn in L; [lia|].
  cbn [release]. destruct (sound_look _ _ r S) as (c & E & C & T); [left; left; auto|]. rewrite E. cbn [obind].
  pose proof (proj2 S _ _ C) as W. pose proof (proj1 W) as W1.
  assert (R : (tag_of c, snd r) = r) by (rewrite T; destruct r; auto).
  destruct (count_of c - 1 =? 0) eqn:Z0.
  - destruct (IH (upd_nth h (snd r) None) (kids c ++ w) ext) as (h' & E' & S' & F').
    + refine (sound_upd _ _ _ _ None _ S C _ _); [discriminate|]. intros x. cbn [kids_o own_o cnt app]. rewrite R.
      rewrite <- app_assoc, !cnt_app. cbn [cnt]. rewrite ?cnt_app. destruct (ref_eqb r x); lia.
    + pose proof (len_kids_upd h (snd r) c None C). cbn in H. rewrite app_length. lia.
    + exists h'. split; auto. split; auto. apply (frame_trans _ (upd_nth h (snd r) None)); auto. split; [apply upd_nth_length|].
      intros p d. rewrite cell_at_upd by (apply (cell_at_len _ _ _ C)). destruct (Nat.eqb (snd r) p); [discriminate|]. intros X.
      exists d, (count_of d). rewrite recount_own. auto.
  - destruct (IH (put h (snd r) (recount c (count_of c - 1))) w ext) as (h' & E' & S' & F').
    + refine (sound_upd _ _ _ _ _ _ S C _ _).
      * intros d X. injection X as <-. apply wfc_recount; auto. lia.
      * intros x. cbn [kids_o]. rewrite own_recount, kids_recount, count_recount by (left; lia). cbn [own_o]. rewrite R. cbn [app cnt]. rewrite ?cnt_app. destruct (ref_eqb r x); lia.
    + pose proof (len_kids_upd h (snd r) c (Some (recount c (count_of c - 1))) C). cbn [kids_o] in H. rewrite kids_recount in H. unfold put. lia.
    + exists h'. split; auto. split; auto. refine (frame_trans _ _ _ _ F'). split; [apply upd_nth_length|].
      intros p d. unfold put. rewrite cell_at_upd by (apply (cell_at_len _ _ _ C)). destruct (Nat.eqb (snd r) p) eqn:Q.
      * intros X. injection X as <-. apply Nat.eqb_eq in Q. subst p. eauto.
      * intros X. exists d, (count_of d). rewrite recount_own. auto.
Qed.
Lemma drop_sound h w ext : sound h (w ++ ext) -> exists h', drop h w = Ok h' /\ sound h' ext /\ frame h h'.
Proof. intros S. apply release_sound; auto. Qed.

(** What is still referred to is still there. *)
Lemma sound_alive h ext r : sound h ext -> In r ext -> exists c, look h r = Ok c.
Proof. intros S I. destruct (sound_look _ _ _ S (or_introl I)) as (c & E & _). eauto. Qed.
