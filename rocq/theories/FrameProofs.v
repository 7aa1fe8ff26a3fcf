(** Memory safety of the frame functions under their contract. *)
From Verif Require Import Base CodecModel MimeModel MimeSpec HdrModel HdrSpec FrameModel FrameSpec MimeProofs HdrProofs.

(** * Counting the frames *)
Fixpoint cnt (P : frame -> bool) (fs : list (option frame)) : nat :=
  match fs with
  | [] => O
  | Some f :: r => ((if P f then 1 else 0) + cnt P r)%nat
  | None :: r => cnt P r
  end.
Definition c1 (P : frame -> bool) (x : option frame) : nat :=
  match x with Some f => if P f then 1%nat else 0%nat | None => O end.
Lemma cnt_cons : forall P x r, cnt P (x :: r) = (c1 P x + cnt P r)%nat.
Proof. intros P [f|] r; reflexivity. Qed.
Lemma cnt_snoc : forall P fs x, cnt P (fs ++ [x]) = (cnt P fs + c1 P x)%nat.
Proof. induction fs as [|y fs IH]; intro x; cbn [app]; rewrite !cnt_cons; [cbn; lia|]. rewrite IH. lia. Qed.
Lemma cnt_upd : forall P fs i x y, nth_error fs i = Some x ->
  (cnt P (upd_nth fs i y) + c1 P x = cnt P fs + c1 P y)%nat.
Proof.
  induction fs as [|z fs IH]; intros i x y H; destruct i; cbn [nth_error] in H; try discriminate.
  - inversion H; subst. cbn [upd_nth]. rewrite !cnt_cons. lia.
  - cbn [upd_nth]. rewrite !cnt_cons. specialize (IH i x y H). lia.
Qed.
Lemma cnt_ge : forall P fs i x, nth_error fs i = Some x -> (c1 P x <= cnt P fs)%nat.
Proof.
  induction fs as [|z fs IH]; intros i x H; destruct i; cbn [nth_error] in H; try discriminate; rewrite cnt_cons.
  - inversion H; subst. lia.
  - specialize (IH i x H). lia.
Qed.
Lemma cnt_two : forall P fs i j f g, i <> j -> nth_error fs i = Some (Some f) -> nth_error fs j = Some (Some g) ->
  P f = true -> cnt P fs = 1%nat -> P g = false.
Proof.
  intros P fs i j f g Hd Hi Hj Pf C. destruct (P g) eqn:Pg; auto. exfalso.
  pose proof (cnt_upd P fs i (Some f) None Hi) as U. cbn [c1] in U. rewrite Pf, C in U.
  assert (Hj' : nth_error (upd_nth fs i None) j = Some (Some g)) by (rewrite nth_upd_other; auto).
  pose proof (cnt_ge P _ j (Some g) Hj') as G. cbn [c1] in G. rewrite Pg in G. lia.
Qed.

(** * The invariant *)
Definition own (f : frame) : option nat :=
  match f_buffer f, f_content f, f_payload f with
  | Some b, _, _ => Some b
  | None, Some (b, _), _ => Some b
  | None, None, Some (b, _) => Some b
  | None, None, None => None
  end.
Definition owns (b : nat) (f : frame) : bool := match own f with Some x => Nat.eqb x b | None => false end.
Definition refs (k : nat) (f : frame) : bool := match f_hdr f with Some x => Nat.eqb x k | None => false end.

Definition heap_ok (H : list (option bytes)) (fs : list (option frame)) : Prop :=
  forall b, cnt (owns b) fs = match nth_error H b with Some (Some _) => 1%nat | _ => 0%nat end.
Definition stat_ok (S : list (option (Z * hst))) (fs : list (option frame)) : Prop :=
  forall k, match nth_error S k with
            | Some (Some (c, h)) => c = Z.of_nat (cnt (refs k) fs) /\ (0 < cnt (refs k) fs)%nat /\ exists E, hinv h E
            | _ => cnt (refs k) fs = 0%nat
            end.

Definition some {A} (x : option A) : bool := match x with Some _ => true | None => false end.

Record wff (H : list (option bytes)) (f : frame) (t : tk) : Prop := mkWff {
  w_ref : f_ref f = t_held t;
  w_size : f_size f = t_size t;
  w_hsize : f_hsize f = t_hsize t;
  w_pos : 0 <= f_size f < two31;
  w_hpos : 0 <= f_hsize f < two31;
  w_hdr : t_hdrs t = false -> f_hdr f = None;
  w_recv : t_recv t = some (f_buffer f);
  w_proc : t_proc t = some (f_content f);
  w_gone : t_gone t = true -> f_payload f = None;
  w_mem : match f_payload f with
          | None => f_buffer f = None /\ f_content f = None /\ (t_gone t = false -> f_size f = 0) /\
                    (t_exact t = true -> f_hsize f = 0)
          | Some (b, off) =>
              (f_buffer f = None \/ f_buffer f = Some b) /\
              (f_content f = None /\ off = 0 \/ f_content f = Some (b, 0) /\ 0 < off) /\
              exists l, nth_error H b = Some (Some l) /\ 0 <= off /\ off + f_size f <= zlen l /\ off + f_size f < two31 - 1 /\
                defined (firstn (Z.to_nat (off + f_size f)) l) /\
                (t_exact t = true -> f_hsize f = off) /\
                (t_term t = true -> nth_error l (Z.to_nat (off + f_size f)) = Some 0) /\
                (t_recv t = true -> t_proc t = false -> exists c, l = sock_mem c /\ zlen c = f_size f /\ defined c)
          end
}.

Definition frames_ok (H : list (option bytes)) (fs : list (option frame)) (T : list tk) : Prop :=
  length fs = length T /\
  forall i t, nth_error T i = Some t ->
    match nth_error fs i with
    | Some (Some f) => 0 < t_held t /\ wff H f t
    | Some None => t_held t = 0
    | None => False
    end.

Record inv (s : fm) (T : list tk) : Prop := mkInv {
  i_heap : heap_ok (m_heap s) (m_frames s);
  i_stat : stat_ok (m_stat s) (m_frames s);
  i_frames : frames_ok (m_heap s) (m_frames s) T;
  i_next : m_next s = 1 + zlen T;
  i_ctx : m_ctx s = Z.of_nat (cnt (fun _ => true) (m_frames s))
}.

Lemma inv0 : inv fm0 [].
Proof.
  constructor; cbn; auto.
  - intro b. cbn. destruct b; reflexivity.
  - intro k. cbn. destruct k; reflexivity.
  - split; auto. intros i t H. destruct i; discriminate.
Qed.

(** The block a live frame has its payload in is the one it owns. *)
Lemma wff_own : forall H f t b off, wff H f t -> f_payload f = Some (b, off) -> own f = Some b.
Proof.
  intros H f t b off W E. destruct W as [_ _ _ _ _ _ _ _ _ M]. rewrite E in M. destruct M as (Hb & Hc & _).
  unfold own. rewrite E. destruct Hb as [-> | ->]; auto. destruct Hc as [[-> _]|[-> _]]; auto.
Qed.
Lemma wff_own_none : forall H f t, wff H f t -> f_payload f = None -> own f = None.
Proof.
  intros H f t W E. destruct W as [_ _ _ _ _ _ _ _ _ M]. rewrite E in M. destruct M as (Hb & Hc & _).
  unfold own. rewrite E, Hb, Hc. reflexivity.
Qed.
(** A frame is as good in another heap with the same block. *)
Lemma wff_heap : forall H H' f t, wff H f t ->
  (forall b, own f = Some b -> nth_error H' b = nth_error H b) -> wff H' f t.
Proof.
  intros H H' f t W E. assert (W' := W). destruct W as [A1 A2 A3 A4 A5 A6 A7 A8 A9 M]. constructor; auto.
  destruct (f_payload f) as [[b off]|] eqn:P; auto. destruct M as (Hb & Hc & l & Hl & M).
  split; auto. split; auto. exists l. rewrite (E b); auto. eapply wff_own; eauto.
Qed.

Lemma live_frame : forall s T i t, inv s T -> nth_error T i = Some t -> 0 < t_held t ->
  exists f, nth_error (m_frames s) i = Some (Some f) /\ get s i = Ok f /\ wff (m_heap s) f t.
Proof.
  intros s T i t I Hi Hh. destruct (i_frames s T I) as (_ & F). specialize (F i t Hi).
  unfold get. destruct (nth_error (m_frames s) i) as [[f|]|]; [|lia|contradiction].
  exists f. destruct F. auto.
Qed.

(** * Frames added and changed *)
Lemma heap_ok_add : forall H fs f x,
  heap_ok H fs ->
  (own f = None /\ x = [] \/ exists l, own f = Some (length H) /\ x = [Some l]) ->
  heap_ok (H ++ x) (fs ++ [Some f]).
Proof.
  intros H fs f x K D b. rewrite cnt_snoc, (K b). cbn [c1]. unfold owns. destruct D as [[O X]|(l & O & X)]; subst x; rewrite O.
  - rewrite app_nil_r. lia.
  - destruct (Nat.eqb (length H) b) eqn:E.
    + apply Nat.eqb_eq in E. subst b. rewrite nth_app_new.
      assert (nth_error H (length H) = None) by (apply nth_error_None; lia). rewrite H0. reflexivity.
    + apply Nat.eqb_neq in E. destruct (Nat.lt_ge_cases b (length H)) as [L|L].
      * rewrite nth_error_app1 by auto. lia.
      * assert (nth_error H b = None) by (apply nth_error_None; lia).
        assert (nth_error (H ++ [Some l]) b = None) by (apply nth_error_None; rewrite app_length; cbn; lia).
        rewrite H0, H1. reflexivity.
Qed.
Lemma heap_ok_upd : forall H fs i f f', heap_ok H fs -> nth_error fs i = Some (Some f) -> own f' = own f ->
  heap_ok H (upd_nth fs i (Some f')).
Proof.
  intros H fs i f f' K E O b. pose proof (cnt_upd (owns b) fs i (Some f) (Some f') E) as U. cbn [c1] in U.
  unfold owns in U at 2 4. rewrite O in U. fold (owns b) in U. rewrite <- (K b). unfold owns in *. lia.
Qed.
Lemma heap_ok_drop : forall H fs i f b x, heap_ok H fs -> nth_error fs i = Some (Some f) -> own f = Some b ->
  match x with Some f' => own f' = None | None => True end ->
  heap_ok (upd_nth H b None) (upd_nth fs i x).
Proof.
  intros H fs i f b x K E O X b'.
  pose proof (cnt_upd (owns b') fs i (Some f) x E) as U. cbn [c1] in U.
  assert (C0 : c1 (owns b') x = 0%nat). { destruct x as [f'|]; auto. cbn. unfold owns. rewrite X. reflexivity. }
  rewrite C0 in U. pose proof (K b') as Kb. unfold owns in U at 2. rewrite O in U.
  destruct (Nat.eqb b b') eqn:B.
  - apply Nat.eqb_eq in B. subst b'.
    assert (L : cnt (owns b) fs = 1%nat). { rewrite Kb in *. destruct (nth_error H b) as [[l|]|]; lia. }
    rewrite Kb in L. destruct (nth_error H b) as [[l|]|] eqn:N; try lia.
    rewrite nth_upd_same by (eapply nth_lt; eauto). lia.
  - apply Nat.eqb_neq in B. rewrite nth_upd_other by auto. lia.
Qed.
Lemma heap_ok_write : forall H fs b l l', heap_ok H fs -> nth_error H b = Some (Some l) -> heap_ok (upd_nth H b (Some l')) fs.
Proof.
  intros H fs b l l' K E b'. rewrite (K b'). destruct (Nat.eq_dec b b') as [->|D].
  - rewrite E, nth_upd_same by (eapply nth_lt; eauto). reflexivity.
  - rewrite nth_upd_other by auto. reflexivity.
Qed.
Lemma heap_ok_noown : forall H fs i f x, heap_ok H fs -> nth_error fs i = Some (Some f) -> own f = None ->
  match x with Some f' => own f' = None | None => True end -> heap_ok H (upd_nth fs i x).
Proof.
  intros H fs i f x K E O X b. pose proof (cnt_upd (owns b) fs i (Some f) x E) as U. cbn [c1] in U.
  assert (C0 : c1 (owns b) x = 0%nat). { destruct x as [f'|]; auto. cbn. unfold owns. rewrite X. reflexivity. }
  unfold owns in U at 2. rewrite O, C0 in U. rewrite <- (K b). lia.
Qed.

(** The frames other than [i] do not own what [i] owns. *)
Lemma not_owned : forall H fs i f b j g, heap_ok H fs -> nth_error fs i = Some (Some f) -> own f = Some b ->
  i <> j -> nth_error fs j = Some (Some g) -> own g <> Some b.
Proof.
  intros H fs i f b j g K E O D Ej Og.
  assert (C : cnt (owns b) fs = 1%nat).
  { pose proof (cnt_ge (owns b) fs i (Some f) E) as G. cbn [c1] in G. unfold owns in G at 1. rewrite O, Nat.eqb_refl in G.
    rewrite (K b) in *. destruct (nth_error H b) as [[l|]|]; lia. }
  assert (P : owns b f = true) by (unfold owns; rewrite O; apply Nat.eqb_refl).
  pose proof (cnt_two (owns b) fs i j f g D E Ej P C) as Q. unfold owns in Q. rewrite Og, Nat.eqb_refl in Q. discriminate.
Qed.
(** What a frame owns is in the heap. *)
Lemma owned_live : forall H fs i f b, heap_ok H fs -> nth_error fs i = Some (Some f) -> own f = Some b ->
  exists l, nth_error H b = Some (Some l).
Proof.
  intros H fs i f b K E O. pose proof (cnt_ge (owns b) fs i (Some f) E) as G. cbn [c1] in G. unfold owns in G at 1.
  rewrite O, Nat.eqb_refl in G. rewrite (K b) in G. destruct (nth_error H b) as [[l|]|]; try lia. eauto.
Qed.

Lemma frames_ok_add : forall H H' fs T f t, frames_ok H fs T -> wff H' f t -> 0 < t_held t ->
  (forall i g b, nth_error fs i = Some (Some g) -> own g = Some b -> nth_error H' b = nth_error H b) ->
  frames_ok H' (fs ++ [Some f]) (T ++ [t]).
Proof.
  intros H H' fs T f t (L & F) W Hh E. split; [rewrite !app_length, L; reflexivity|].
  intros i u Hu. destruct (Nat.eq_dec i (length T)) as [->|D].
  - rewrite nth_app_new in Hu. inversion Hu; subst u. rewrite <- L, nth_app_new. auto.
  - pose proof (nth_lt _ _ _ _ Hu) as Lt. rewrite app_length in Lt. cbn in Lt.
    rewrite nth_error_app1 in Hu by lia. rewrite nth_error_app1 by lia. specialize (F i u Hu).
    destruct (nth_error fs i) as [[g|]|] eqn:G; auto. destruct F as (F1 & F2). split; auto.
    apply wff_heap with H; auto. intros b Hb. apply (E i g b); auto.
Qed.
Lemma frames_ok_upd : forall H H' fs T i f t, frames_ok H fs T -> (i < length T)%nat -> wff H' f t -> 0 < t_held t ->
  (forall j g b, i <> j -> nth_error fs j = Some (Some g) -> own g = Some b -> nth_error H' b = nth_error H b) ->
  frames_ok H' (upd_nth fs i (Some f)) (upd_nth T i t).
Proof.
  intros H H' fs T i f t (L & F) Hi W Hh E. split; [rewrite !upd_nth_length; auto|].
  intros j u Hu. destruct (Nat.eq_dec i j) as [->|D].
  - rewrite nth_upd_same in Hu by auto. inversion Hu; subst u. rewrite nth_upd_same by lia. auto.
  - rewrite nth_upd_other in Hu by auto. rewrite nth_upd_other by auto. specialize (F j u Hu).
    destruct (nth_error fs j) as [[g|]|] eqn:G; auto. destruct F as (F1 & F2). split; auto.
    apply wff_heap with H; auto. intros b Hb. apply (E j g b); auto.
Qed.
Lemma frames_ok_end : forall H H' fs T i t, frames_ok H fs T -> (i < length T)%nat -> t_held t = 0 ->
  (forall j g b, i <> j -> nth_error fs j = Some (Some g) -> own g = Some b -> nth_error H' b = nth_error H b) ->
  frames_ok H' (upd_nth fs i None) (upd_nth T i t).
Proof.
  intros H H' fs T i t (L & F) Hi Hh E. split; [rewrite !upd_nth_length; auto|].
  intros j u Hu. destruct (Nat.eq_dec i j) as [->|D].
  - rewrite nth_upd_same in Hu by auto. inversion Hu; subst u. rewrite nth_upd_same by lia. auto.
  - rewrite nth_upd_other in Hu by auto. rewrite nth_upd_other by auto. specialize (F j u Hu).
    destruct (nth_error fs j) as [[g|]|] eqn:G; auto. destruct F as (F1 & F2). split; auto.
    apply wff_heap with H; auto. intros b Hb. apply (E j g b); auto.
Qed.

(** * The header tables *)
Definition refn (k : nat) (x : option frame) : nat := c1 (refs k) x.
Lemma stat_ok_cnt : forall S fs fs', stat_ok S fs -> (forall k, cnt (refs k) fs' = cnt (refs k) fs) -> stat_ok S fs'.
Proof. intros S fs fs' K E k. specialize (K k). rewrite (E k). exact K. Qed.
Lemma stat_ok_upd : forall S fs i f f', stat_ok S fs -> nth_error fs i = Some (Some f) -> f_hdr f' = f_hdr f ->
  stat_ok S (upd_nth fs i (Some f')).
Proof.
  intros S fs i f f' K E O. apply stat_ok_cnt with fs; auto. intro k.
  pose proof (cnt_upd (refs k) fs i (Some f) (Some f') E) as U. cbn [c1] in U. unfold refs in U at 2 4. rewrite O in U. lia.
Qed.
Lemma stat_ok_add_none : forall S fs f, stat_ok S fs -> f_hdr f = None -> stat_ok S (fs ++ [Some f]).
Proof.
  intros S fs f K E. apply stat_ok_cnt with fs; auto. intro k. rewrite cnt_snoc. cbn [c1]. unfold refs at 2. rewrite E. lia.
Qed.
(** A new table for one more reference. *)
Lemma stat_ok_new : forall S fs fs' h E, stat_ok S fs -> hinv h E ->
  (forall k, cnt (refs k) fs' = (cnt (refs k) fs + if Nat.eqb (length S) k then 1 else 0)%nat) ->
  stat_ok (S ++ [Some (1, h)]) fs'.
Proof.
  intros S fs fs' h E K I C k. rewrite (C k). specialize (K k). destruct (Nat.eqb (length S) k) eqn:B.
  - apply Nat.eqb_eq in B. subst k. rewrite nth_app_new.
    assert (N : nth_error S (length S) = None) by (apply nth_error_None; lia). rewrite N in K. rewrite K. cbn. split; auto. split; eauto.
  - apply Nat.eqb_neq in B. rewrite Nat.add_0_r. destruct (Nat.lt_ge_cases k (length S)) as [L|L].
    + rewrite nth_error_app1 by auto. exact K.
    + assert (N1 : nth_error S k = None) by (apply nth_error_None; lia).
      assert (N2 : nth_error (S ++ [Some (1, h)]) k = None) by (apply nth_error_None; rewrite app_length; cbn; lia).
      rewrite N1 in K. rewrite N2. exact K.
Qed.
Lemma stat_ok_set : forall S fs k c h h' E, stat_ok S fs -> nth_error S k = Some (Some (c, h)) -> hinv h' E ->
  stat_ok (upd_nth S k (Some (c, h'))) fs.
Proof.
  intros S fs k c h h' E K N I k'. specialize (K k'). destruct (Nat.eq_dec k k') as [->|D].
  - rewrite nth_upd_same by (eapply nth_lt; eauto). rewrite N in K. destruct K as (A & B & _). eauto.
  - rewrite nth_upd_other by auto. exact K.
Qed.
Lemma ref_table : forall S fs i f k, stat_ok S fs -> nth_error fs i = Some (Some f) -> f_hdr f = Some k ->
  exists c h E, nth_error S k = Some (Some (c, h)) /\ hinv h E /\ c = Z.of_nat (cnt (refs k) fs) /\ (0 < cnt (refs k) fs)%nat.
Proof.
  intros S fs i f k K N H. pose proof (cnt_ge (refs k) fs i (Some f) N) as G. cbn [c1] in G. unfold refs in G at 1.
  rewrite H, Nat.eqb_refl in G. specialize (K k). destruct (nth_error S k) as [[[c h]|]|]; try lia.
  destruct K as (A & B & E & I). exists c, h, E. auto.
Qed.
