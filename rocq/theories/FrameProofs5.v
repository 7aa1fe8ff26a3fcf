(** Joins, references, comparison; every call under the contract. *)
From Verif Require Import Base CodecModel MimeModel MimeSpec HdrModel HdrSpec FrameModel FrameSpec MimeProofs HdrProofs FrameProofs FrameProofs2 FrameProofs3 FrameProofs4.

Definition joined (s : fm) (a b : frame) (blk : nat) : frame :=
  mkFr (m_next s) (f_type a) (f_ch a) (f_msgno a) (f_more a && f_more b) (f_seqno a) (f_size a + f_size b) (f_ans a)
       (f_hsize a) (Some (blk, 0)) None None (f_chref a) 1 (f_hdr a).
Definition joined_left (r : bool) (a : frame) : frame :=
  set_hdr (if r then set_payload a None else a) (f_hsize a) None.

Lemma upd_same : forall A (l : list A) i x, nth_error l i = Some x -> upd_nth l i x = l.
Proof. induction l as [|y l IH]; destruct i; intros x E; cbn in *; try discriminate; [injection E as ->; reflexivity|]. rewrite IH; auto. Qed.

Lemma skipn_repeat : forall A (x : A) n m, skipn n (repeat x m) = repeat x (m - n).
Proof. induction n as [|n IH]; intros m; destruct m; cbn; auto. Qed.

Lemma write_last : forall H st fs nx cx l off src, 0 <= off -> off + zlen src <= zlen l ->
  write (mkFM (H ++ [Some l]) st fs nx cx) (length H) off src =
  Ok (mkFM (H ++ [Some (firstn (Z.to_nat off) l ++ src ++ skipn (Z.to_nat off + length src) l)]) st fs nx cx).
Proof.
  intros H st fs nx cx l off src H1 H2. unfold write, block_of. cbn [m_heap]. rewrite nth_app_new. cbn [obind].
  replace ((0 <=? off) && (off + zlen src <=? zlen l)) with true by lia. unfold with_heap. cbn [m_heap m_stat m_frames m_next m_ctx].
  rewrite upd_nth_last. reflexivity.
Qed.

(** The second half of the join. *)
Lemma join_tail : forall s Hb st fs nx cx i j a a1 b tb l0 va tot,
  nth_error fs i = Some (Some a1) -> nth_error fs j = Some (Some b) ->
  f_size a1 = f_size a -> f_type a1 = f_type a -> f_ch a1 = f_ch a -> f_msgno a1 = f_msgno a -> f_more a1 = f_more a ->
  f_seqno a1 = f_seqno a -> f_ans a1 = f_ans a -> f_hsize a1 = f_hsize a -> f_chref a1 = f_chref a -> f_hdr a1 = f_hdr a ->
  wff (Hb ++ [Some l0]) b tb -> t_gone tb = false -> 0 <= f_size a ->
  zlen l0 = f_size a + f_size b + 1 -> firstn (Z.to_nat (f_size a)) l0 = va -> tot = f_size a + f_size b ->
  (let s0 := mkFM (Hb ++ [Some l0]) st fs nx cx in
   let! a := get s0 i in
   let! b := get s0 j in
   let! src := read s0 (f_payload b) (f_size b) in
   let! s0 := write s0 (length Hb) (f_size a) src in
   let r := mkFr (m_next s) (f_type a) (f_ch a) (f_msgno a) (f_more a && f_more b) (f_seqno a) tot (f_ans a)
                    (f_hsize a) (Some (length Hb, 0)) None None (f_chref a) 1 (f_hdr a) in
   let s0 := put s0 i (Some (set_hdr a (f_hsize a) None)) in
   let (s0, k) := add_frame s0 r in
   Ok (s0, Some k)) =
  Ok (mkFM (Hb ++ [Some (va ++ view (Hb ++ [Some l0]) b ++ skipn (Z.to_nat (f_size a + f_size b)) l0)]) st
       (upd_nth fs i (Some (set_hdr a1 (f_hsize a) None)) ++ [Some (joined s a b (length Hb))]) nx cx, Some (length fs)).
Proof.
  intros s Hb st fs nx cx i j a a1 b tb l0 va tot Ni Nj E1 E2 E3 E4 E5 E6 E7 E8 E9 E10 Wb Gb Pa Zl Va ->.
  cbv zeta. unfold get at 1. cbn [m_frames]. rewrite Ni. cbn [obind]. unfold get at 1. cbn [m_frames]. rewrite Nj. cbn [obind].
  pose proof (payload_read (mkFM (Hb ++ [Some l0]) st fs nx cx) b tb Wb Gb) as Rd. cbn [m_heap] in Rd. rewrite Rd. cbn [obind].
  destruct (view_len _ _ _ Wb Gb) as (Vl & _). cbn [m_heap] in Vl.
  rewrite E1, write_last by qlia. cbn [obind]. unfold put, add_frame. cbn [m_heap m_stat m_frames m_next m_ctx].
  rewrite upd_nth_length, E2, E3, E4, E5, E6, E7, E8, E9, E10, Va.
  replace (Z.to_nat (f_size a) + length (view (Hb ++ [Some l0]) b))%nat with (Z.to_nat (f_size a + f_size b)).
  2:{ pose proof (w_pos _ _ _ Wb). unfold zlen in Vl. qlia. }
  reflexivity.
Qed.

(** The state after a join, from the heap without its new block. *)
Lemma join_inv : forall s T i j r ta tb a b Hb R,
  inv s T -> room T -> i <> j -> nth_error T i = Some ta -> nth_error T j = Some tb -> 0 < t_held ta ->
  nth_error (m_frames s) i = Some (Some a) -> wff (m_heap s) a ta -> f_size b = t_size tb -> 0 <= f_size b ->
  t_gone ta = false ->
  (r = true -> t_recv ta = false /\ t_proc ta = false) ->
  t_size ta + t_size tb + 1 < two31 ->
  zlen R = f_size a + f_size b + 1 -> defined (firstn (Z.to_nat (f_size a + f_size b)) R) ->
  (r = false -> nth_error R (Z.to_nat (f_size a + f_size b)) = Some 0) ->
  (r = false -> Hb = m_heap s) ->
  (r = true -> Hb = match f_payload a with Some (b0, _) => upd_nth (m_heap s) b0 None | None => m_heap s end) ->
  inv (mkFM (Hb ++ [Some R]) (m_stat s) (upd_nth (m_frames s) i (Some (joined_left r a)) ++ [Some (joined s a b (length Hb))])
            (m_next s + 1) (m_ctx s + 1))
      (upd_nth T i (mkTK (t_held ta) (t_recv ta) (t_proc ta) (t_exact ta) (t_term ta) (r || t_gone ta) false (t_size ta) (t_hsize ta))
          ++ [mkTK 1 false false (t_hsize ta =? 0) (negb r) false (t_hdrs ta) (t_size ta + t_size tb) (t_hsize ta)]).
Proof.
  intros s T i j r ta tb a b Hb R I Rm D Hi Hj Hh N W Sb Pb Hg Rr Tot Zl Df Tm B0 B1.
  assert (I0 := I). destruct I0 as [I1 I2 I3 I4 I5].
  assert (W0 := W). destruct W0 as [W1 W2 W3 W4 W5 W6 W7 W8 W9 M].
  assert (ON : r = true -> own (joined_left r a) = None).
  { intro X. rewrite X. destruct (Rr X) as (R1 & R2). rewrite R1 in W7. rewrite R2 in W8. unfold own, joined_left. fsimpl.
    destruct (f_buffer a); [discriminate|]. destruct (f_content a); [discriminate|]. reflexivity. }
  (* the heap without the new block *)
  assert (K1 : heap_ok Hb (upd_nth (m_frames s) i (Some (joined_left r a)))).
  { destruct r.
    - rewrite (B1 eq_refl). specialize (ON eq_refl). destruct (f_payload a) as [[b0 off]|] eqn:P.
      + apply heap_ok_drop with a; auto. eapply wff_own; eauto.
      + apply heap_ok_noown with a; auto. eapply wff_own_none; eauto.
    - rewrite (B0 eq_refl). apply heap_ok_upd with a; auto. }
  assert (HE : forall j g x, i <> j -> nth_error (m_frames s) j = Some (Some g) -> own g = Some x -> nth_error Hb x = nth_error (m_heap s) x).
  { intros j' g x Dj Nj Og. destruct r; [|rewrite (B0 eq_refl); reflexivity]. rewrite (B1 eq_refl).
    destruct (f_payload a) as [[b0 off]|] eqn:P; auto. apply nth_upd_other. intros <-.
    exact (not_owned _ _ _ _ _ _ _ I1 N (wff_own _ _ _ _ _ W P) Dj Nj Og). }
  assert (WL : wff Hb (joined_left r a) (mkTK (t_held ta) (t_recv ta) (t_proc ta) (t_exact ta) (t_term ta) (r || t_gone ta) false (t_size ta) (t_hsize ta))).
  { destruct r.
    - destruct (Rr eq_refl) as (R1 & R2). constructor; unfold joined_left; fsimpl; auto.
      rewrite R1 in W7. rewrite R2 in W8. destruct (f_buffer a); [discriminate|]. destruct (f_content a); [discriminate|].
      conj; auto; [discriminate|]. intro He. destruct (f_payload a) as [[b0 off]|].
      + destruct M as (_ & [[_ ->]|[X _]] & l & _ & _ & _ & _ & _ & M5 & _); [auto|discriminate].
      + destruct M as (_ & _ & _ & M). auto.
    - rewrite (B0 eq_refl). constructor; unfold joined_left; fsimpl; auto. }
  assert (WR : wff (Hb ++ [Some R]) (joined s a b (length Hb))
     (mkTK 1 false false (t_hsize ta =? 0) (negb r) false (t_hdrs ta) (t_size ta + t_size tb) (t_hsize ta))).
  { constructor; unfold joined; fsimpl; auto; try qlia; try discriminate.
    split; [auto|]. split; [auto|]. exists R. rewrite nth_app_new. cbn [Z.add]. conj; auto; try qlia.
    - intro X. apply Tm. destruct r; [discriminate|reflexivity]. }
  constructor; cbn [m_heap m_stat m_frames m_next m_ctx].
  - apply heap_ok_add; auto. right. eexists. split; reflexivity.
  - apply stat_ok_cnt with (m_frames s); auto. intro k. rewrite cnt_snoc. cbn [c1].
    pose proof (cnt_upd (refs k) (m_frames s) i (Some a) (Some (joined_left r a)) N) as U. cbn [c1] in U.
    assert (X1 : refs k (joined_left r a) = false) by reflexivity.
    assert (X2 : refs k (joined s a b (length Hb)) = refs k a) by reflexivity.
    rewrite X1 in U. rewrite X2. qlia.
  - apply frames_ok_add with Hb; auto.
    + apply frames_ok_upd with (m_heap s); auto. rewrite <- (proj1 I3). eapply nth_lt; eauto.
    + cbn. qlia.
    + intros i' g x Ng Og. destruct (owned_live _ _ _ _ _ K1 Ng Og) as (l & Hl). apply nth_error_app1. eapply nth_lt; eauto.
  - unfold zlen in *. rewrite app_length, upd_nth_length. cbn [length]. qlia.
  - rewrite cnt_snoc. cbn [c1].
    pose proof (cnt_upd (fun _ => true) (m_frames s) i (Some a) (Some (joined_left r a)) N) as U. cbn [c1] in U. qlia.
Qed.

Lemma join_ok : forall s T r i j, inv s T -> allowed T (FJoin r i j) -> exists s' k a b,
  join s r i j = Ok (s', k) /\ get s i = Ok a /\ get s j = Ok b /\
  inv s' (track T (FJoin r i j, match k with Some k => ONew k | None => ONull end)) /\
  (joinable a b = false -> s' = s /\ k = None) /\
  (joinable a b = true -> k = Some (length (m_frames s)) /\ exists blk H,
     s' = mkFM H (m_stat s) (upd_nth (m_frames s) i (Some (joined_left r a)) ++ [Some (joined s a b blk)]) (m_next s + 1) (m_ctx s + 1) /\
     view H (joined s a b blk) = view (m_heap s) a ++ view (m_heap s) b /\
     (forall j' g x, i <> j' \/ r = false -> nth_error (m_frames s) j' = Some (Some g) -> own g = Some x ->
        nth_error H x = nth_error (m_heap s) x)).
Proof.
  intros s T r i j I (Rm & D & A). destruct (usable_frame s T i _ I A) as (ta & a & Hi & Hh & Hg & (Rr & B) & N & G & W).
  destruct (usable_frame s T j _ I B) as (tb & b & Hj & Hhb & Hgb & Tot & Nb & Gb & Wb).
  unfold join. rewrite G, Gb. cbn [obind].
  destruct (joinable a b) eqn:J.
  2:{ exists s, None, a, b. cbn [track]. split; [reflexivity|]. split; [reflexivity|]. split; [reflexivity|]. split; [exact I|]. rewrite J. split; [auto|discriminate]. }
  rewrite (next_ok s T I Rm). cbn [obind].
  pose proof (w_size _ _ _ W) as Sa. pose proof (w_size _ _ _ Wb) as Sb. pose proof (w_pos _ _ _ W) as Pa. pose proof (w_pos _ _ _ Wb) as Pb.
  set (tot := f_size a + f_size b).
  replace ((0 <=? f_size a) && (0 <=? f_size b) && (tot + 1 <? two31)) with true by (symmetry; unfold tot; qlia).
  assert (Nn : forall f, nth_error (upd_nth (m_frames s) i f) j = Some (Some b)) by (intro; rewrite nth_upd_other; auto).
  assert (Ni : forall f, nth_error (upd_nth (m_frames s) i f) i = Some f) by (intro; apply nth_upd_same; eapply nth_lt; eauto).
  assert (WB : forall Hb l0, (forall x, own b = Some x -> nth_error Hb x = nth_error (m_heap s) x) -> wff (Hb ++ [Some l0]) b tb).
  { intros Hb l0 E. apply wff_heap with (m_heap s); auto. intros x Ox. rewrite <- (E x Ox). apply nth_error_app1.
    destruct (owned_live _ _ _ _ _ (i_heap _ _ I) Nb Ox) as (l & Hl). rewrite <- (E x Ox) in Hl. eapply nth_lt; eauto. }
  assert (VB : forall Hb l0, (forall x, own b = Some x -> nth_error Hb x = nth_error (m_heap s) x) ->
     view (Hb ++ [Some l0]) b = view (m_heap s) b).
  { intros Hb l0 E. unfold view. destruct (f_payload b) as [[x off]|] eqn:P; auto.
    pose proof (wff_own _ _ _ _ _ Wb P) as Ox. rewrite <- (E x Ox).
    destruct (owned_live _ _ _ _ _ (i_heap _ _ I) Nb Ox) as (l & Hl). rewrite <- (E x Ox) in Hl.
    rewrite nth_error_app1 by (eapply nth_lt; eauto). reflexivity. }
  destruct (view_len _ _ _ W Hg) as (Va & Da). destruct (view_len _ _ _ Wb Hgb) as (Vb & Db).
  set (R := fun l0 : bytes => view (m_heap s) a ++ view (m_heap s) b ++ skipn (Z.to_nat tot) l0).
  assert (RL : forall l0, zlen l0 = tot + 1 -> zlen (R l0) = tot + 1).
  { intros l0 E. unfold R. unfold zlen in *. rewrite !app_length, skipn_length. unfold tot in *. qlia. }
  assert (RF : forall l0, firstn (Z.to_nat tot) (R l0) = view (m_heap s) a ++ view (m_heap s) b).
  { intro l0. unfold R. rewrite app_assoc. apply firstn_exact. unfold zlen in *. rewrite app_length. unfold tot. qlia. }
  assert (RV : forall Hb l0, view (Hb ++ [Some (R l0)]) (joined s a b (length Hb)) = view (m_heap s) a ++ view (m_heap s) b).
  { intros Hb l0. unfold view at 1, joined. fsimpl. rewrite nth_app_new. change (Z.to_nat 0) with O. cbn [skipn]. apply RF. }
  assert (RD : forall l0, defined (firstn (Z.to_nat tot) (R l0))).
  { intro l0. rewrite RF. apply defined_app; auto. }
  destruct r.
  - (* with the memory of the first *)
    destruct (Rr eq_refl) as (R1 & R2).
    destruct (f_payload a) as [[b0 off]|] eqn:P.
    + assert (M := w_mem _ _ _ W). rewrite P in M. destruct M as (Mb & Mc & l & Hl & M1 & M2 & M3 & M4 & M5 & M6 & M7).
      assert (X := w_proc _ _ _ W). rewrite R2 in X. destruct Mc as [[Mc ->]|[Mc _]]; [|rewrite Mc in X; discriminate].
      cbn [Z.add] in *.
      set (Hb := upd_nth (m_heap s) b0 None). set (l0 := firstn (Z.to_nat (tot + 1)) l ++ repeat UNDEF (Z.to_nat (tot + 1) - length l)).
      assert (HE : forall x, own b = Some x -> nth_error Hb x = nth_error (m_heap s) x).
      { intros x Ox. apply nth_upd_other. intros <-.
        exact (not_owned _ _ _ _ _ _ _ (i_heap _ _ I) N (wff_own _ _ _ _ _ W P) D Nb Ox). }
      assert (L0 : zlen l0 = tot + 1).
      { unfold l0, zlen in *. rewrite app_length, firstn_length, repeat_length. unfold tot in *. qlia. }
      assert (F0 : firstn (Z.to_nat (f_size a)) l0 = view (m_heap s) a).
      { unfold view. rewrite P, Hl. change (Z.to_nat 0) with O. cbn [skipn]. unfold l0. rewrite firstn_app, firstn_firstn, firstn_length.
        replace (Z.to_nat (f_size a) - Nat.min (Z.to_nat (tot + 1)) (length l))%nat with O by (unfold zlen in *; unfold tot; qlia).
        cbn [firstn]. rewrite app_nil_r. f_equal. unfold tot. qlia. }
      assert (BL : length Hb = length (m_heap s)) by apply upd_nth_length.
      assert (Q : realloc (mkFM (m_heap s) (m_stat s) (m_frames s) (m_next s + 1) (m_ctx s + 1)) (Some (b0, 0)) (f_size a) (tot + 1) =
        Ok (mkFM (Hb ++ [Some l0]) (m_stat s) (m_frames s) (m_next s + 1) (m_ctx s + 1), length Hb)).
      { unfold realloc, mfree, block_of, malloc, with_heap. cbn [m_heap m_stat m_frames m_next m_ctx fst snd obind].
        rewrite Hl. cbn [obind Z.eqb m_heap m_stat m_frames m_next m_ctx]. fold Hb l0. reflexivity. }
      rewrite Q. cbn [obind].
      pose proof (join_tail s Hb (m_stat s) (upd_nth (m_frames s) i (Some (set_payload a None))) (m_next s + 1) (m_ctx s + 1) i j a
        (set_payload a None) b tb l0 (view (m_heap s) a) tot (Ni _) (Nn _) eq_refl eq_refl eq_refl eq_refl eq_refl eq_refl eq_refl eq_refl eq_refl eq_refl
        (WB Hb l0 HE) Hgb (proj1 Pa) ltac:(unfold tot in L0; qlia) F0 eq_refl) as Jt.
      cbv zeta in Jt. unfold put in *. cbn [m_heap m_stat m_frames m_next m_ctx] in *. 
      rewrite (VB Hb l0 HE), upd_nth_twice, upd_nth_length in Jt. 
      eexists. exists (Some (length (m_frames s))), a, b. split; [exact Jt|]. clear Jt.
      split; [reflexivity|]. split; [reflexivity|]. split; [|split; [rewrite J; discriminate|]].
      * cbn [track]. rewrite Hi, Hj. apply (join_inv s T i j true ta tb a b Hb (R l0)); auto; try qlia; try exact (RL l0 L0); try exact (RD l0); try discriminate; intros _; rewrite P; reflexivity.
      * intros _. split; [reflexivity|]. exists (length Hb), (Hb ++ [Some (R l0)]). split; [reflexivity|]. split; [apply RV|].
        intros j' g x [Dj|Dj] Nj Og; [|discriminate].
        assert (HE' : nth_error Hb x = nth_error (m_heap s) x).
        { apply nth_upd_other. intros <-. exact (not_owned _ _ _ _ _ _ _ (i_heap _ _ I) N (wff_own _ _ _ _ _ W P) Dj Nj Og). }
        rewrite <- HE'. apply nth_error_app1. rewrite BL. destruct (owned_live _ _ _ _ _ (i_heap _ _ I) Nj Og) as (l' & Hl'). eapply nth_lt; eauto.
    + assert (M := w_mem _ _ _ W). rewrite P in M. destruct M as (_ & _ & M & _). specialize (M Hg).
      set (l0 := repeat UNDEF (Z.to_nat (tot + 1))).
      assert (L0 : zlen l0 = tot + 1).
      { unfold l0, zlen in *. rewrite repeat_length. unfold tot in *. qlia. }
      assert (F0 : firstn (Z.to_nat (f_size a)) l0 = view (m_heap s) a).
      { unfold view. rewrite P, M. reflexivity. }
      assert (Q : realloc (mkFM (m_heap s) (m_stat s) (m_frames s) (m_next s + 1) (m_ctx s + 1)) None (f_size a) (tot + 1) =
        Ok (mkFM (m_heap s ++ [Some l0]) (m_stat s) (m_frames s) (m_next s + 1) (m_ctx s + 1), length (m_heap s))).
      { unfold realloc, malloc, with_heap. rewrite M. cbn [m_heap m_stat m_frames m_next m_ctx Z.eqb]. reflexivity. }
      rewrite Q. cbn [obind].
      pose proof (join_tail s (m_heap s) (m_stat s) (upd_nth (m_frames s) i (Some (set_payload a None))) (m_next s + 1) (m_ctx s + 1) i j a
        (set_payload a None) b tb l0 (view (m_heap s) a) tot (Ni _) (Nn _) eq_refl eq_refl eq_refl eq_refl eq_refl eq_refl eq_refl eq_refl eq_refl eq_refl
        (WB _ l0 (fun x _ => eq_refl)) Hgb (proj1 Pa) ltac:(unfold tot in L0; qlia) F0 eq_refl) as Jt.
      cbv zeta in Jt. unfold put in *. cbn [m_heap m_stat m_frames m_next m_ctx] in *. 
      rewrite (VB _ l0 (fun x _ => eq_refl)), upd_nth_twice, upd_nth_length in Jt. 
      eexists. exists (Some (length (m_frames s))), a, b. split; [exact Jt|]. clear Jt.
      split; [reflexivity|]. split; [reflexivity|]. split; [|split; [rewrite J; discriminate|]].
      * cbn [track]. rewrite Hi, Hj. apply (join_inv s T i j true ta tb a b (m_heap s) (R l0)); auto; try qlia; try exact (RL l0 L0); try exact (RD l0); try discriminate; intros _; rewrite P; reflexivity.
      * intros _. split; [reflexivity|]. exists (length (m_heap s)), (m_heap s ++ [Some (R l0)]). split; [reflexivity|]. split; [apply RV|].
      intros j' g x _ Nj Og. destruct (owned_live _ _ _ _ _ (i_heap _ _ I) Nj Og) as (l' & Hl'). apply nth_error_app1. eapply nth_lt; eauto.
  - (* in new memory *)
    set (l1 := repeat 0 (Z.to_nat (tot + 1))).
    assert (L1 : zlen l1 = tot + 1) by (unfold l1, zlen; rewrite repeat_length; unfold tot; qlia).
    set (l0 := firstn (Z.to_nat 0) l1 ++ view (m_heap s) a ++ skipn (Z.to_nat 0 + length (view (m_heap s) a)) l1).
    assert (L0 : zlen l0 = tot + 1).
    { unfold l0. change (Z.to_nat 0) with O. cbn [firstn app Nat.add]. unfold zlen in *. rewrite app_length, skipn_length. unfold tot in *. qlia. }
    assert (F0 : firstn (Z.to_nat (f_size a)) l0 = view (m_heap s) a).
    { unfold l0. change (Z.to_nat 0) with O. cbn [firstn app Nat.add]. apply firstn_exact. exact Va. }
    assert (WA : wff (m_heap s ++ [Some l1]) a ta).
    { apply wff_heap with (m_heap s); auto. intros x Ox. apply nth_error_app1.
      destruct (owned_live _ _ _ _ _ (i_heap _ _ I) N Ox) as (l & Hl). eapply nth_lt; eauto. }
    assert (VA : view (m_heap s ++ [Some l1]) a = view (m_heap s) a).
    { unfold view. destruct (f_payload a) as [[x off]|] eqn:P; auto. pose proof (wff_own _ _ _ _ _ W P) as Ox.
      destruct (owned_live _ _ _ _ _ (i_heap _ _ I) N Ox) as (l & Hl). rewrite nth_error_app1 by (eapply nth_lt; eauto). reflexivity. }
    unfold malloc, with_heap. cbn [m_heap m_stat m_frames m_next m_ctx]. fold l1.
    pose proof (payload_read (mkFM (m_heap s ++ [Some l1]) (m_stat s) (m_frames s) (m_next s + 1) (m_ctx s + 1)) a ta WA Hg) as Rd.
    cbn [m_heap] in Rd. rewrite Rd, VA. cbn [obind]. rewrite write_last by (unfold tot in L1; qlia). cbn [obind]. fold l0.
    pose proof (join_tail s (m_heap s) (m_stat s) (m_frames s) (m_next s + 1) (m_ctx s + 1) i j a
        a b tb l0 (view (m_heap s) a) tot N Nb eq_refl eq_refl eq_refl eq_refl eq_refl eq_refl eq_refl eq_refl eq_refl eq_refl
        (WB _ l0 (fun x _ => eq_refl)) Hgb (proj1 Pa) ltac:(unfold tot in L0; qlia) F0 eq_refl) as Jt.
    cbv zeta in Jt. rewrite (VB _ l0 (fun x _ => eq_refl)) in Jt.
    eexists. exists (Some (length (m_frames s))), a, b. split; [exact Jt|]. clear Jt.
    split; [reflexivity|]. split; [reflexivity|]. split; [|split; [rewrite J; discriminate|]].
    + cbn [track]. rewrite Hi, Hj. apply (join_inv s T i j false ta tb a b (m_heap s) (R l0)); auto; try qlia; try discriminate; try exact (RL l0 L0); try exact (RD l0).
        intros _. unfold R. rewrite app_assoc.
        assert (Le : length (view (m_heap s) a ++ view (m_heap s) b) = Z.to_nat tot).
        { unfold zlen in *. rewrite app_length. unfold tot. qlia. }
        fold tot. rewrite nth_error_app2 by (rewrite Le; auto). rewrite Le, Nat.sub_diag.
        assert (S0 : skipn (Z.to_nat tot) l0 = [0]).
        { unfold l0. change (Z.to_nat 0) with O. cbn [firstn app Nat.add]. rewrite skipn_app.
          rewrite skipn_all2 by (unfold zlen in *; unfold tot; qlia). cbn [app]. unfold l1.
          rewrite !skipn_repeat.
          replace (Z.to_nat (tot + 1) - length (view (m_heap s) a) - (Z.to_nat tot - length (view (m_heap s) a)))%nat with 1%nat
            by (unfold zlen in *; unfold tot; qlia). reflexivity. }
        rewrite S0. reflexivity.
    + intros _. split; [reflexivity|]. exists (length (m_heap s)), (m_heap s ++ [Some (R l0)]). split; [reflexivity|]. split; [apply RV|].
      intros j' g x _ Nj Og. destruct (owned_live _ _ _ _ _ (i_heap _ _ I) Nj Og) as (l' & Hl'). apply nth_error_app1. eapply nth_lt; eauto.
Qed.
