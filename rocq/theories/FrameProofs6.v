(** References, comparison, reading; every call and every program under the contract. *)
From Verif Require Import Base CodecModel MimeModel MimeSpec HdrModel HdrSpec FrameModel FrameSpec MimeProofs HdrProofs FrameProofs FrameProofs2 FrameProofs3 FrameProofs4 FrameProofs5.

Lemma ref_ok : forall s T i, inv s T -> allowed T (FRef i) -> exists s' f,
  frame_ref s i = Ok s' /\ get s i = Ok f /\ s' = put s i (Some (set_ref f (f_ref f + 1))) /\ inv s' (track T (FRef i, OUnit)).
Proof.
  intros s T i I (t & Ht & Hh & Lt). destruct (live_frame s T i t I Ht Hh) as (f & N & G & W).
  unfold frame_ref. rewrite G. cbn [obind]. rewrite (w_ref _ _ _ W). replace (t_held t <? two31 - 1) with true by (symmetry; qlia).
  exists (put s i (Some (set_ref f (t_held t + 1)))), f. split; [reflexivity|]. split; [reflexivity|].
  split; [rewrite (w_ref _ _ _ W); reflexivity|]. cbn [track]. rewrite Ht. apply inv_upd with f; auto.
  - destruct W as [W1 W2 W3 W4 W5 W6 W7 W8 W9 M]. constructor; unfold with_held; fsimpl; auto.
  - unfold with_held. fsimpl. qlia.
  - apply stat_ok_upd with f; auto. apply (i_stat _ _ I).
Qed.

Lemma status_free_ok : forall s T i f, inv s T -> nth_error (m_frames s) i = Some (Some f) -> exists st,
  status_free s (f_hdr f) = Ok (with_stat s st) /\ stat_ok st (upd_nth (m_frames s) i None).
Proof.
  intros s T i f I N. unfold status_free. pose proof (i_stat _ _ I) as K.
  destruct (f_hdr f) as [k|] eqn:Hk.
  - destruct (ref_table _ _ _ _ _ K N Hk) as (c & h & E & Nk & Ih & Ec & Pc). rewrite Nk. eexists. split; [reflexivity|].
    intro k'. specialize (K k'). pose proof (cnt_upd (refs k') (m_frames s) i (Some f) None N) as U. cbn [c1] in U.
    unfold refs in U at 2. rewrite Hk in U. destruct (Nat.eq_dec k k') as [<-|D].
    + rewrite nth_upd_same by (eapply nth_lt; eauto). rewrite Nat.eqb_refl in U. destruct (c - 1 =? 0) eqn:C.
      * apply Z.eqb_eq in C. qlia.
      * apply Z.eqb_neq in C. split; [qlia|]. split; [qlia|]. exists E. exact Ih.
    + rewrite nth_upd_other by auto. assert (X : Nat.eqb k k' = false) by (apply Nat.eqb_neq; auto). rewrite X in U.
      replace (cnt (refs k') (upd_nth (m_frames s) i None)) with (cnt (refs k') (m_frames s)) by qlia. exact K.
  - exists (m_stat s). split; [destruct s; reflexivity|]. apply stat_ok_cnt with (m_frames s); auto. intro k.
    pose proof (cnt_upd (refs k) (m_frames s) i (Some f) None N) as U. cbn [c1] in U. unfold refs in U at 2. rewrite Hk in U. qlia.
Qed.

Lemma free_ok : forall s T i f t f', inv s T -> nth_error (m_frames s) i = Some (Some f) -> wff (m_heap s) f t -> nth_error T i = Some t ->
  f_hdr f' = f_hdr f -> f_buffer f' = f_buffer f -> f_content f' = f_content f -> f_payload f' = f_payload f ->
  exists s' H st, frame_free s i f' = Ok s' /\ inv s' (upd_nth T i (with_held t 0)) /\
    s' = mkFM H st (upd_nth (m_frames s) i None) (m_next s) (m_ctx s - 1) /\
    (forall j g b, i <> j -> nth_error (m_frames s) j = Some (Some g) -> own g = Some b -> nth_error H b = nth_error (m_heap s) b).
Proof.
  intros s T i f t f' I N W Ht E1 E2 E3 E4. unfold frame_free. rewrite E1, E2, E3, E4.
  destruct (status_free_ok s T i f I N) as (st & Q & K). rewrite Q. cbn [obind].
  assert (L : (i < length T)%nat) by (eapply nth_lt; eauto).
  assert (Fin : forall H, heap_ok H (upd_nth (m_frames s) i None) ->
    (forall j g b, i <> j -> nth_error (m_frames s) j = Some (Some g) -> own g = Some b -> nth_error H b = nth_error (m_heap s) b) ->
    inv (mkFM H st (upd_nth (m_frames s) i None) (m_next s) (m_ctx s - 1)) (upd_nth T i (with_held t 0))).
  { intros H KH E. destruct I as [I1 I2 I3 I4 I5]. constructor; cbn [m_heap m_stat m_frames m_next m_ctx]; auto.
    - apply frames_ok_end with (m_heap s); auto.
    - unfold zlen in *. rewrite upd_nth_length. exact I4.
    - pose proof (cnt_upd (fun _ => true) (m_frames s) i (Some f) None N) as U. cbn [c1] in U. qlia. }
  assert (Fr : forall b, own f = Some b -> exists s' H st', (let! s := mfree (with_stat s st) (b, 0) in
       Ok (mkFM (m_heap s) (m_stat s) (upd_nth (m_frames s) i None) (m_next s) (m_ctx s - 1))) = Ok s' /\ inv s' (upd_nth T i (with_held t 0)) /\
       s' = mkFM H st' (upd_nth (m_frames s) i None) (m_next s) (m_ctx s - 1) /\
       (forall j g b, i <> j -> nth_error (m_frames s) j = Some (Some g) -> own g = Some b -> nth_error H b = nth_error (m_heap s) b)).
  { intros b Ob. destruct (owned_live _ _ _ _ _ (i_heap _ _ I) N Ob) as (l & Hl). unfold mfree, block_of, with_stat, with_heap.
    cbn [fst snd m_heap m_stat m_frames m_next m_ctx]. rewrite Hl. cbn [obind Z.eqb m_heap m_stat m_frames m_next m_ctx].
    assert (HE : forall j g b', i <> j -> nth_error (m_frames s) j = Some (Some g) -> own g = Some b' ->
      nth_error (upd_nth (m_heap s) b None) b' = nth_error (m_heap s) b').
    { intros j g b' D Nj Og. apply nth_upd_other. intros <-. exact (not_owned _ _ _ _ _ _ _ (i_heap _ _ I) N Ob D Nj Og). }
    eexists. eexists. eexists. split; [reflexivity|]. split; [|split; [reflexivity|exact HE]]. apply Fin; auto.
    apply heap_ok_drop with f; auto. apply (i_heap _ _ I). }
  assert (M := w_mem _ _ _ W). destruct (f_payload f) as [[b off]|] eqn:P.
  - pose proof (wff_own _ _ _ _ _ W P) as Ob. destruct M as (Mb & Mc & _). specialize (Fr b Ob).
    destruct Mb as [-> | ->]; [|exact Fr]. destruct Mc as [[-> ->]|[-> _]]; exact Fr.
  - pose proof (wff_own_none _ _ _ W P) as Ob. destruct M as (-> & -> & _). cbn [obind]. eexists. eexists. eexists. split; [reflexivity|].
    split; [|split; [reflexivity|auto]]. unfold with_stat. cbn [m_heap m_stat m_frames m_next m_ctx]. apply Fin; auto.
    apply heap_ok_noown with f; auto. apply (i_heap _ _ I).
Qed.

Lemma unref_ok : forall s T i, inv s T -> allowed T (FUnref i) -> exists s',
  frame_unref s i = Ok s' /\ inv s' (track T (FUnref i, OUnit)) /\
  exists f x H, get s i = Ok f /\ m_frames s' = upd_nth (m_frames s) i x /\ m_heap s' = H /\
    match x with Some f' => f' = set_ref f (f_ref f - 1) /\ H = m_heap s | None => True end /\
    (forall j g b, i <> j -> nth_error (m_frames s) j = Some (Some g) -> own g = Some b -> nth_error H b = nth_error (m_heap s) b).
Proof.
  intros s T i I (t & Ht & Hh & _). destruct (live_frame s T i t I Ht Hh) as (f & N & G & W).
  unfold frame_unref. rewrite G. cbn [obind track]. rewrite Ht. cbv zeta. cbn [f_ref set_ref]. rewrite (w_ref _ _ _ W).
  destruct (t_held t - 1 =? 0) eqn:Z0.
  - apply Z.eqb_eq in Z0. rewrite Z0. destruct (free_ok s T i f t (set_ref f 0) I N W Ht eq_refl eq_refl eq_refl eq_refl) as (s' & H & st & E & J & Es & HE).
    exists s'. split; [exact E|]. split; [exact J|]. exists f, None, H. rewrite Es. cbn [m_frames m_heap]. conj; auto.
  - apply Z.eqb_neq in Z0. eexists. split; [reflexivity|]. split.
    2:{ exists f, (Some (set_ref f (f_ref f - 1))), (m_heap s). rewrite (w_ref _ _ _ W). conj; auto. }
    apply inv_upd with f; auto.
    + destruct W as [W1 W2 W3 W4 W5 W6 W7 W8 W9 M]. constructor; unfold with_held; fsimpl; auto.
    + unfold with_held. fsimpl. qlia.
    + apply stat_ok_upd with f; auto. apply (i_stat _ _ I).
Qed.

(** * The comparison *)
Lemma ccmp_ok : forall u v x y, defined u -> defined v -> ccmp (u ++ 0 :: x) (v ++ 0 :: y) = Ok (bytes_eqb (cstr u) (cstr v)).
Proof.
  induction u as [|a u IH]; intros [|b v] x y Du Dv; cbn [app ccmp cstr]; auto.
  - inversion Dv; subst. replace ((0 <? 0) || (b <? 0)) with false by lia.
    destruct (0 =? b) eqn:E; [replace (b =? 0) with true by lia; reflexivity|].
    replace (b =? 0) with false by lia. reflexivity.
  - inversion Du; subst. replace ((a <? 0) || (0 <? 0)) with false by lia. destruct (a =? 0) eqn:E; reflexivity.
  - inversion Du; inversion Dv; subst. replace ((a <? 0) || (b <? 0)) with false by lia.
    destruct (a =? b) eqn:E.
    + apply Z.eqb_eq in E. subst b. destruct (a =? 0) eqn:Z0; [reflexivity|]. cbn [bytes_eqb]. rewrite Z.eqb_refl. cbn [andb]. apply IH; auto.
    + destruct (a =? 0) eqn:Za, (b =? 0) eqn:Zb; cbn [bytes_eqb]; try (rewrite E); try reflexivity. lia.
Qed.
Lemma tail_view : forall s f t b off, wff (m_heap s) f t -> t_term t = true -> f_payload f = Some (b, off) ->
  exists r, tail_at s (b, off) = Ok (view (m_heap s) f ++ 0 :: r).
Proof.
  intros s f t b off W Tm P. assert (M := w_mem _ _ _ W). assert (Pz := w_pos _ _ _ W). rewrite P in M.
  destruct M as (_ & _ & l & Hl & M1 & M2 & M3 & M4 & M5 & M6 & M7). specialize (M6 Tm).
  unfold tail_at, block_of. cbn [fst snd]. rewrite Hl. cbn [obind]. replace (0 <=? off) with true by (symmetry; qlia).
  unfold view. rewrite P, Hl.
  destruct (nth_error_split _ _ M6) as (l1 & l2 & El & Ll).
  exists l2. f_equal. rewrite El. rewrite skipn_app.
  replace (Z.to_nat off - length l1)%nat with O by qlia. cbn [skipn]. rewrite firstn_app.
  assert (Ls : length (skipn (Z.to_nat off) l1) = Z.to_nat (f_size f)) by (rewrite skipn_length; qlia).
  rewrite Ls, Nat.sub_diag, <- Ls, firstn_all. cbn [firstn]. rewrite app_nil_r. reflexivity.
Qed.
(** The value of a field for a frame. *)
Definition field (s : fm) (f : frame) (name dflt : bytes) : option bytes :=
  match f_hdr f, f_content f with
  | None, None => None
  | None, _ => Some dflt
  | Some k, _ =>
      match nth_error (m_stat s) k with
      | Some (Some (_, h)) => match h_get h name with Ok (Some ((_, c) :: _)) => Some c | _ => Some dflt end
      | _ => None
      end
  end.
Lemma get_field_ok : forall s T i f name dflt, inv s T -> nth_error (m_frames s) i = Some (Some f) ->
  get_field s f name dflt = Ok (field s f name dflt).
Proof.
  intros s T i f name dflt I N. unfold get_field, get_header, field. destruct (f_hdr f) as [k|] eqn:K.
  - destruct (ref_table _ _ _ _ _ (i_stat _ _ I) N K) as (c & h & E & Nk & Ih & _). rewrite Nk, (get_ok h E name Ih). cbn [obind].
    destruct (E name) as [|[x y] r]; destruct (f_content f); reflexivity.
  - destruct (f_content f); reflexivity.
Qed.

Definition equal_frames (s : fm) (a b : frame) : bool :=
  ftype_eqb (f_type a) (f_type b) && Bool.eqb (f_more a) (f_more b) && (f_ch a =? f_ch b) &&
  (f_msgno a =? f_msgno b) && (f_seqno a =? f_seqno b) && (f_size a =? f_size b) && (f_ans a =? f_ans b) &&
  same_string (field s a h_ctype octets) (field s b h_ctype octets) &&
  same_string (field s a h_cte binary) (field s b h_cte binary) &&
  match f_payload a, f_payload b with
  | None, None => true
  | Some _, Some _ => bytes_eqb (cstr (view (m_heap s) a)) (cstr (view (m_heap s) b))
  | _, _ => false
  end.
Lemma equal_ok : forall s T i j, inv s T -> allowed T (FEqual i j) -> exists a b,
  get s i = Ok a /\ get s j = Ok b /\ are_equal s i j = Ok (equal_frames s a b).
Proof.
  intros s T i j I (A & B). destruct (usable_frame s T i _ I A) as (ta & a & Hi & Hh & Hg & Ta & N & G & W).
  destruct (usable_frame s T j _ I B) as (tb & b & Hj & Hhb & Hgb & Tb & Nb & Gb & Wb).
  exists a, b. split; [exact G|]. split; [exact Gb|]. unfold are_equal, equal_frames. rewrite G, Gb. cbn [obind].
  destruct (ftype_eqb (f_type a) (f_type b) && Bool.eqb (f_more a) (f_more b) && (f_ch a =? f_ch b) &&
     (f_msgno a =? f_msgno b) && (f_seqno a =? f_seqno b) && (f_size a =? f_size b) && (f_ans a =? f_ans b)); [|reflexivity].
  rewrite (get_field_ok s T i a _ _ I N), (get_field_ok s T j b _ _ I Nb). cbn [obind andb].
  destruct (same_string (field s a h_ctype octets) (field s b h_ctype octets)); [|reflexivity].
  rewrite (get_field_ok s T i a _ _ I N), (get_field_ok s T j b _ _ I Nb). cbn [obind andb].
  destruct (same_string (field s a h_cte binary) (field s b h_cte binary)); [|reflexivity]. cbn [andb]. unfold same_payload.
  destruct (f_payload a) as [[x ox]|] eqn:P, (f_payload b) as [[y oy]|] eqn:Pb; try reflexivity.
  destruct (tail_view s a ta x ox W Ta P) as (r & ->). destruct (tail_view s b tb y oy Wb Tb Pb) as (r' & ->). cbn [obind].
  apply ccmp_ok; [apply (view_len _ _ _ W Hg)|apply (view_len _ _ _ Wb Hgb)].
Qed.

(** * Every call *)
Lemma step_ok : forall s T o, inv s T -> allowed T o -> exists s' b, fstep s o = Ok (s', b) /\ inv s' (track T (o, b)).
Proof.
  intros s T o I A. destruct o as [a m|a m|a c l|i|i h|i|r i j|i|i|i j|i|i|i]; cbn [allowed] in A.
  - destruct A as (R & A). destruct (create_ok s T a m I R A) as (s' & f & E & J & _). cbn [fstep]. rewrite E. cbn [obind]. eauto.
  - destruct A as (R & A). destruct (create_ref_ok s T a m I R A) as (s' & E & J & _). cbn [fstep]. rewrite E. cbn [obind]. eauto.
  - destruct A as (R & D & B). destruct (receive_ok s T a c l I R D B) as (s' & E & J & _). cbn [fstep]. rewrite E. cbn [obind]. eauto.
  - destruct (process_ok s T i I A) as (s' & ok & f & f' & E & _ & G & J & _). cbn [fstep]. rewrite E. cbn [obind]. rewrite G. cbn [obind]. eauto.
  - destruct h as [n c|n]; [|contradiction]. destruct (head_ok s T i n c I A) as (s' & E & J & _). eauto.
  - destruct (copy_ok s T i I A) as (s' & f & p & ct & x & st & E & _ & J & _). cbn [fstep]. rewrite E. cbn [obind]. eauto.
  - destruct (join_ok s T r i j I A) as (s' & k & a & b & E & _ & _ & J & _). cbn [fstep]. rewrite E. cbn [obind]. eauto.
  - destruct (ref_ok s T i I A) as (s' & f & E & _ & _ & J). cbn [fstep]. rewrite E. cbn [obind]. eauto.
  - destruct (unref_ok s T i I A) as (s' & E & J & _). cbn [fstep]. rewrite E. cbn [obind]. eauto.
  - destruct (equal_ok s T i j I A) as (a & b & _ & _ & E). cbn [fstep]. rewrite E. cbn [obind]. eauto.
  - destruct (usable_frame s T i _ I A) as (t & f & Hi & Hh & Hg & _ & N & G & W). cbn [fstep]. unfold read_payload. rewrite G. cbn [obind].
    rewrite (payload_read s f t W Hg). cbn [obind]. eauto.
  - destruct (usable_frame s T i _ I A) as (t & f & Hi & Hh & Hg & He & N & G & W). cbn [fstep]. unfold read_content. rewrite G. cbn [obind].
    rewrite (content_read s f t W Hg He). cbn [obind]. eauto.
  - destruct (usable_frame s T i _ I A) as (t & f & Hi & Hh & Hg & _ & N & G & W). cbn [fstep]. rewrite G. cbn [obind]. eauto.
Qed.

Lemma tracked_snoc : forall log e, tracked (log ++ [e]) = track (tracked log) e.
Proof. intros. unfold tracked. rewrite fold_left_app. reflexivity. Qed.

Lemma run_ok : forall os s log, inv s (tracked log) -> keeps s log os ->
  exists s' log', frun s os = Ok (s', log') /\ inv s' (tracked (log ++ log')).
Proof.
  induction os as [|o os IH]; intros s log I K; cbn [frun].
  - exists s, []. rewrite app_nil_r. auto.
  - destruct K as (A & K). destruct (step_ok s _ o I A) as (s1 & b & E & J). rewrite E in *. cbn [obind].
    rewrite <- tracked_snoc in J. destruct (IH s1 _ J K) as (s2 & l & E2 & J2). rewrite E2. cbn [obind].
    exists s2, ((o, b) :: l). split; auto. rewrite <- app_assoc in J2. exact J2.
Qed.

Lemma released_nothing : forall s T, inv s T -> all_released T -> nothing_left s.
Proof.
  intros s T I A. destruct I as [I1 I2 I3 I4 I5].
  assert (F : forall x, In x (m_frames s) -> x = None).
  { intros x Hx. destruct (In_nth_error _ _ Hx) as (i & N). destruct I3 as (L & F).
    destruct (nth_error T i) as [t|] eqn:Ht.
    - specialize (F i t Ht). rewrite N in F. destruct x as [f|]; auto. destruct F as (F & _).
      rewrite (A t (nth_error_In _ _ Ht)) in F. lia.
    - apply nth_error_None in Ht. pose proof (nth_lt _ _ _ _ N). lia. }
  assert (C : forall P, cnt P (m_frames s) = O).
  { intro P. clear -F. induction (m_frames s) as [|x l IH]; auto. rewrite (F x (or_introl eq_refl)). cbn. apply IH. intros. apply F. right. auto. }
  unfold nothing_left. conj; auto.
  - intros x Hx. destruct (In_nth_error _ _ Hx) as (b & N). specialize (I1 b). rewrite C, N in I1. destruct x; auto. discriminate.
  - intros x Hx. destruct (In_nth_error _ _ Hx) as (k & N). specialize (I2 k). rewrite C, N in I2. destruct x as [[c h]|]; auto. lia.
  - rewrite I5, C. reflexivity.
Qed.

Lemma frames_safe : forall os, keeps fm0 [] os -> exists s log, frun fm0 os = Ok (s, log) /\ (all_released (tracked log) -> nothing_left s).
Proof.
  intros os K. destruct (run_ok os fm0 [] inv0 K) as (s & log & E & J). exists s, log. split; auto. intro A. eapply released_nothing; eauto.
Qed.
