(** Frames as values: what is read back. *)
From Verif Require Import Base CodecModel MimeModel MimeSpec HdrModel HdrSpec FrameModel FrameSpec MimeProofs HdrProofs FrameProofs FrameProofs2 FrameProofs3 FrameProofs4 FrameProofs5 FrameProofs6.

Definition vhead (H : list (option bytes)) (f : frame) : bytes :=
  match f_payload f with
  | Some (b, off) => match nth_error H b with Some (Some l) => firstn (Z.to_nat off) l | _ => [] end
  | None => []
  end.

Record vrel (H : list (option bytes)) (f : frame) (t : tk) (v : vf) (i : nat) : Prop := mkVR {
  r_id : f_id f = 1 + Z.of_nat i;
  r_type : f_type f = v_type v; r_ch : f_ch f = v_ch v; r_msgno : f_msgno f = v_msgno v; r_more : f_more f = v_more v;
  r_seqno : f_seqno f = v_seqno v; r_ans : f_ans f = v_ans v; r_chref : f_chref f = v_chref v; r_hsize : f_hsize f = v_hsize v;
  r_plain : v_plain v = true -> t_hdrs t = false /\ t_proc t = false;
  r_head : vhead H f = v_head v;
  r_body : view H f = v_body v
}.
Definition rel (H : list (option bytes)) (fs : list (option frame)) (T : list tk) (V : list vf) : Prop :=
  length V = length T /\
  forall i f t v, nth_error fs i = Some (Some f) -> nth_error T i = Some t -> nth_error V i = Some v -> t_gone t = false -> vrel H f t v i.

Lemma view_own : forall H H' f t, wff H f t -> (forall b, own f = Some b -> nth_error H' b = nth_error H b) ->
  view H' f = view H f /\ vhead H' f = vhead H f.
Proof.
  intros H H' f t W E. unfold view, vhead. destruct (f_payload f) as [[b off]|] eqn:P; auto.
  rewrite (E b) by (eapply wff_own; eauto). auto.
Qed.

Lemma rel_add : forall H H' fs T V f t v, frames_ok H fs T -> rel H fs T V ->
  (forall i g b, nth_error fs i = Some (Some g) -> own g = Some b -> nth_error H' b = nth_error H b) ->
  vrel H' f t v (length fs) -> rel H' (fs ++ [Some f]) (T ++ [t]) (V ++ [v]).
Proof.
  intros H H' fs T V f t v (L & F) (LV & R) E N. split; [rewrite !app_length, LV; reflexivity|].
  intros i g u w Hg Hu Hw Gn. destruct (Nat.eq_dec i (length fs)) as [->|D].
  - rewrite nth_app_new in Hg. rewrite L, nth_app_new in Hu. rewrite L, <- LV, nth_app_new in Hw. injection Hg as <-. injection Hu as <-. injection Hw as <-. exact N.
  - pose proof (nth_lt _ _ _ _ Hg) as Lt. rewrite app_length in Lt. cbn in Lt.
    rewrite nth_error_app1 in Hg by lia. rewrite nth_error_app1 in Hu by lia. rewrite nth_error_app1 in Hw by lia.
    specialize (R i g u w Hg Hu Hw Gn). specialize (F i u Hu). rewrite Hg in F. destruct F as (_ & W).
    destruct (view_own H H' g u W (fun b => E i g b Hg)) as (E1 & E2). destruct R. constructor; auto; congruence.
Qed.
Lemma rel_upd : forall H H' fs T V i x t v, frames_ok H fs T -> rel H fs T V ->
  (forall j g b, i <> j -> nth_error fs j = Some (Some g) -> own g = Some b -> nth_error H' b = nth_error H b) ->
  (forall f, x = Some f -> t_gone t = false -> vrel H' f t v i) -> rel H' (upd_nth fs i x) (upd_nth T i t) (upd_nth V i v).
Proof.
  intros H H' fs T V i x t v (L & F) (LV & R) E N. split; [rewrite !upd_nth_length; auto|].
  intros j g u w Hg Hu Hw Gn. destruct (Nat.eq_dec i j) as [<-|D].
  - assert (Lt : (i < length fs)%nat) by (pose proof (nth_lt _ _ _ _ Hg) as X; rewrite upd_nth_length in X; exact X).
    rewrite nth_upd_same in Hg by auto. rewrite nth_upd_same in Hu by lia. rewrite nth_upd_same in Hw by lia.
    injection Hg as ->. injection Hu as <-. injection Hw as <-. auto.
  - rewrite nth_upd_other in Hg by auto. rewrite nth_upd_other in Hu by auto. rewrite nth_upd_other in Hw by auto.
    specialize (R j g u w Hg Hu Hw Gn). specialize (F j u Hu). rewrite Hg in F. destruct F as (_ & W).
    destruct (view_own H H' g u W (fun b => E j g b D Hg)) as (E1 & E2). destruct R. constructor; auto; congruence.
Qed.
(** Only the frame changes, not the value. *)
Lemma rel_upd_same : forall H H' fs T V i x t v, frames_ok H fs T -> rel H fs T V -> nth_error V i = Some v ->
  (forall j g b, i <> j -> nth_error fs j = Some (Some g) -> own g = Some b -> nth_error H' b = nth_error H b) ->
  (forall f, x = Some f -> t_gone t = false -> vrel H' f t v i) -> rel H' (upd_nth fs i x) (upd_nth T i t) V.
Proof.
  intros H H' fs T V i x t v F R Hv E N. rewrite <- (upd_same _ V i v Hv). eapply rel_upd; eauto.
Qed.

Lemma value_of : forall H fs T V i t, rel H fs T V -> nth_error T i = Some t -> exists v, nth_error V i = Some v.
Proof.
  intros H fs T V i t (L & _) Ht. destruct (nth_error V i) as [v|] eqn:E; eauto. apply nth_error_None in E.
  pose proof (nth_lt _ _ _ _ Ht). lia.
Qed.
Lemma live_app : forall s T (x : option bytes), inv s T -> forall i g b, nth_error (m_frames s) i = Some (Some g) -> own g = Some b ->
  nth_error (m_heap s ++ [x]) b = nth_error (m_heap s) b.
Proof.
  intros s T x I i g b N O. destruct (owned_live _ _ _ _ _ (i_heap _ _ I) N O) as (l & Hl). apply nth_error_app1. eapply nth_lt; eauto.
Qed.

Lemma frames_len : forall s T, inv s T -> length (m_frames s) = length T.
Proof. intros s T I. apply (i_frames _ _ I). Qed.
Lemma next_len : forall s T, inv s T -> m_next s = 1 + Z.of_nat (length (m_frames s)).
Proof. intros s T I. rewrite (i_next _ _ I), (frames_len _ _ I). reflexivity. Qed.

(** * Step by step *)
Definition good (s : fm) (T : list tk) (V : list vf) (o : fop) : Prop :=
  exists s' b, fstep s o = Ok (s', b) /\ inv s' (track T (o, b)) /\ explains V (o, b) /\
    rel (m_heap s') (m_frames s') (track T (o, b)) (vnext V (o, b)).

Lemma firstn_zero : forall (a : fargs) (m : option bytes), a_size a = 0 -> given_bytes a m = [].
Proof. intros a m Z0. unfold given_bytes. rewrite Z0. destruct m; reflexivity. Qed.

Lemma good_create : forall s T V a m, inv s T -> rel (m_heap s) (m_frames s) T V -> allowed T (FCreate a m) -> good s T V (FCreate a m).
Proof.
  intros s T V a m I R (Rm & A). destruct (create_ok s T a m I Rm A) as (s' & f & E & J & Ef & (hd & p & Es & _ & P1 & P0) & _).
  destruct A as (Az & _ & A3).
  exists s', (ONew (length (m_frames s))). cbn [fstep explains vnext track] in *. rewrite E. cbn [obind]. split; [reflexivity|]. split; [exact J|].
  rewrite (frames_len _ _ I), (proj1 R). split; [reflexivity|]. rewrite Ef.
  destruct (Z.eq_dec (a_size a) 0) as [Z0|Z0].
  - destruct (P0 Z0) as (-> & ->). apply rel_add with (m_heap s); auto; [apply (i_frames _ _ I)|].
    rewrite Es. constructor; fsimpl; cbn [new_value v_type v_ch v_msgno v_more v_seqno v_ans v_chref v_hsize v_plain v_head v_body]; auto.
    + apply (next_len _ _ I).
    + intro X. destruct (has_heads a); [discriminate|auto].
    + rewrite (firstn_zero a m Z0). reflexivity.
  - destruct P1 as (l & -> & -> & ->); [lia|]. apply rel_add with (m_heap s); auto; [apply (i_frames _ _ I)|apply (live_app _ _ _ I)|].
    rewrite Es. constructor; fsimpl; cbn [new_value v_type v_ch v_msgno v_more v_seqno v_ans v_chref v_hsize v_plain v_head v_body]; auto.
    + apply (next_len _ _ I).
    + intro X. destruct (has_heads a); [discriminate|auto].
    + unfold vhead. fsimpl. rewrite nth_app_new. reflexivity.
    + unfold view. fsimpl. rewrite nth_app_new. change (Z.to_nat 0) with O. cbn [skipn given_bytes blank_frame f_size].
      rewrite firstn_app, firstn_firstn, Nat.min_id. replace (Z.to_nat (a_size a) - length (firstn (Z.to_nat (a_size a)) l))%nat with O.
      * cbn [firstn]. apply app_nil_r.
      * destruct A3 as (l' & El & Ll & _); [lia|]. injection El as <-. unfold zlen in Ll. rewrite firstn_length. lia.
Qed.

Lemma good_create_ref : forall s T V a m, inv s T -> rel (m_heap s) (m_frames s) T V -> allowed T (FCreateRef a m) -> good s T V (FCreateRef a m).
Proof.
  intros s T V a m I R (Rm & A). destruct (create_ref_ok s T a m I Rm A) as (s' & E & J & hd & p & Ef & P1 & P0).
  destruct A as (Az & _ & A3).
  exists s', (ONew (length (m_frames s))). cbn [fstep explains vnext track] in *. rewrite E. cbn [obind]. split; [reflexivity|]. split; [exact J|].
  rewrite (frames_len _ _ I), (proj1 R). split; [reflexivity|]. rewrite Ef.
  destruct (Z.eq_dec (a_size a) 0) as [Z0|Z0].
  - destruct (P0 Z0) as (-> & ->). apply rel_add with (m_heap s); auto; [apply (i_frames _ _ I)|].
    constructor; fsimpl; cbn [new_value v_type v_ch v_msgno v_more v_seqno v_ans v_chref v_hsize v_plain v_head v_body]; auto.
    + apply (next_len _ _ I).
    + intro X. destruct (has_heads a); [discriminate|auto].
    + rewrite (firstn_zero a m Z0). reflexivity.
  - destruct P1 as (l & -> & -> & ->); [lia|]. apply rel_add with (m_heap s); auto; [apply (i_frames _ _ I)|apply (live_app _ _ _ I)|].
    constructor; fsimpl; cbn [new_value v_type v_ch v_msgno v_more v_seqno v_ans v_chref v_hsize v_plain v_head v_body]; auto.
    + apply (next_len _ _ I).
    + intro X. destruct (has_heads a); [discriminate|auto].
    + unfold vhead. fsimpl. rewrite nth_app_new. reflexivity.
    + unfold view. fsimpl. rewrite nth_app_new. reflexivity.
Qed.

Lemma good_receive : forall s T V a ch c, inv s T -> rel (m_heap s) (m_frames s) T V -> allowed T (FReceive a ch c) -> good s T V (FReceive a ch c).
Proof.
  intros s T V a ch c I R (Rm & D & B). destruct (receive_ok s T a ch c I Rm D B) as (s' & E & J & Ef & Eh).
  exists s', (ONew (length (m_frames s))). cbn [fstep explains vnext track] in *. rewrite E. cbn [obind]. split; [reflexivity|]. split; [exact J|].
  rewrite (frames_len _ _ I), (proj1 R). split; [reflexivity|]. rewrite Ef, Eh.
  apply rel_add with (m_heap s); auto; [apply (i_frames _ _ I)|apply (live_app _ _ _ I)|].
  constructor; fsimpl; cbn [v_type v_ch v_msgno v_more v_seqno v_ans v_chref v_hsize v_plain v_head v_body]; auto.
  - apply (next_len _ _ I).
  - unfold vhead. fsimpl. rewrite nth_app_new. reflexivity.
  - unfold view. fsimpl. rewrite nth_app_new. change (Z.to_nat 0) with O. cbn [skipn]. unfold sock_mem. apply firstn_exact. reflexivity.
Qed.

(** What a value says of a frame. *)
Lemma rel_get : forall s T V i t f, inv s T -> rel (m_heap s) (m_frames s) T V -> nth_error T i = Some t -> t_gone t = false ->
  nth_error (m_frames s) i = Some (Some f) -> exists v, nth_error V i = Some v /\ vrel (m_heap s) f t v i.
Proof.
  intros s T V i t f I R Ht Hg N. destruct (value_of _ _ _ _ _ _ R Ht) as (v & Hv). exists v. split; auto. apply (proj2 R i f t v); auto.
Qed.

Lemma entity_tail : forall c hs body, entity c hs body -> skipn (Z.to_nat (zlen c - zlen body)) c = body.
Proof.
  intros c hs body En. destruct (entity_suffix _ _ _ En) as (h & ->). unfold zlen. rewrite app_length.
  replace (Z.to_nat (Z.of_nat (length h + length body) - Z.of_nat (length body))) with (length h) by lia.
  rewrite skipn_app, skipn_all, Nat.sub_diag. reflexivity.
Qed.

Lemma good_mime : forall s T V i, inv s T -> rel (m_heap s) (m_frames s) T V -> allowed T (FMime i) -> good s T V (FMime i).
Proof.
  intros s T V i I R A. cbn [allowed] in A. destruct (usable_frame s T i _ I A) as (t & f & Ht & Hh & Hg & (U1 & U2 & U3) & N & G & W).
  destruct (process_ok s T i I A) as (s' & ok & f0 & f' & E & G0 & G' & J & b & c & Hb & P & Zc & Fno & Fyes).
  rewrite G in G0. injection G0 as <-. destruct (rel_get _ _ _ _ _ _ I R Ht Hg N) as (v & Hv & VR). assert (VR0 := VR).
  destruct VR as [r1 r2 r3 r4 r5 r6 r7 r8 r9 r10 r11 r12].
  assert (Bv : v_body v = c).
  { rewrite <- r12. unfold view. rewrite P, Hb. change (Z.to_nat 0) with O. cbn [skipn]. rewrite <- Zc. unfold sock_mem. apply firstn_exact. reflexivity. }
  exists s', (OMime ok (f_hsize f')). cbn [fstep]. rewrite E. cbn [obind]. rewrite G'. cbn [obind]. split; [reflexivity|]. split; [exact J|].
  cbn [explains]. destruct ok.
  - destruct (Fyes eq_refl) as (Ty & st & hd & (hs & body & En & Sz & Hz) & Ef & Es). clear Fno Fyes. split.
    + exists v. split; [exact Hv|]. rewrite <- r2, Bv. split.
      * split; [|reflexivity]. intros _. split; [exact Ty|]. exists hs, body. exact En.
      * intros _. exists hs, body. split; [exact En|]. rewrite Hz. eapply entity_tail; eauto.
    + cbn [track vnext]. rewrite Ht, Hv, Es. cbn [m_heap m_frames].
      assert (Hp : 0 <= f_hsize f' <= f_size f). { pose proof (entity_size _ _ _ En). pose proof (zlen_pos _ body). qlia. }
      set (h := f_hsize f') in *. apply rel_upd with (m_heap s); auto; [apply (i_frames _ _ I)|].
      intros f1 Ef1 _. injection Ef1 as <-. rewrite Ef.
      constructor; fsimpl; cbn [v_type v_ch v_msgno v_more v_seqno v_ans v_chref v_hsize v_plain v_head v_body]; auto; try discriminate.
      * unfold vhead. fsimpl. rewrite Hb, Bv. unfold sock_mem. rewrite firstn_app.
        replace (Z.to_nat h - length c)%nat with O by (unfold zlen in Zc; qlia). cbn [firstn]. apply app_nil_r.
      * unfold view. fsimpl. rewrite Hb, Bv. unfold sock_mem. rewrite skipn_app, firstn_app, skipn_length.
        replace (Z.to_nat (f_size f - h) - (length c - Z.to_nat h))%nat with O by (unfold zlen in Zc; qlia). cbn [firstn]. rewrite app_nil_r.
        apply firstn_all2. rewrite skipn_length. unfold zlen in Zc; qlia.
  - destruct (Fno eq_refl) as (-> & Ne). clear Fno Fyes. split; [|exact R].
    exists v. split; [exact Hv|]. rewrite <- r2, Bv. split; [|discriminate]. split; [discriminate|]. intros (Ty & hs & body & En). exfalso. exact (Ne Ty hs body En).
Qed.

Lemma good_head : forall s T V i h, inv s T -> rel (m_heap s) (m_frames s) T V -> allowed T (FHead i h) -> good s T V (FHead i h).
Proof.
  intros s T V i h I R A. destruct h as [n c|n]; [|contradiction]. assert (A0 := A). cbn [allowed] in A0.
  destruct (usable_frame s T i _ I A0) as (t & f & Ht & Hh & Hg & _ & N & G & W).
  destruct (head_ok s T i n c I A) as (s' & E & J & Eh & f0 & k & G0 & Ef). rewrite G in G0. injection G0 as <-.
  destruct (rel_get _ _ _ _ _ _ I R Ht Hg N) as (v & Hv & VR).
  exists s', OUnit. split; [exact E|]. split; [exact J|]. split; [reflexivity|]. cbn [track vnext]. rewrite Ht, Hv, Ef, Eh.
  apply rel_upd with (m_heap s); auto; [apply (i_frames _ _ I)|]. intros f1 Ef1 _. injection Ef1 as <-.
  destruct VR as [r1 r2 r3 r4 r5 r6 r7 r8 r9 r10 r11 r12].
  constructor; unfold with_hsize; fsimpl; cbn [v_type v_ch v_msgno v_more v_seqno v_ans v_chref v_hsize v_plain v_head v_body]; auto; try discriminate.
  rewrite r9. reflexivity.
Qed.

Lemma whole_split : forall H f t, wff H f t -> whole H f = vhead H f ++ view H f.
Proof.
  intros H f t W. assert (M := w_mem _ _ _ W). assert (Pz := w_pos _ _ _ W). unfold whole, vhead, view. destruct (f_payload f) as [[b off]|]; auto.
  destruct M as (_ & _ & l & Hl & M1 & M2 & _). rewrite Hl.
  rewrite <- (firstn_skipn (Z.to_nat off) l) at 1. rewrite firstn_app, firstn_firstn, firstn_length. f_equal.
  - f_equal. qlia.
  - f_equal. unfold zlen in M2. qlia.
Qed.
Lemma head_proc : forall H f t, wff H f t -> t_gone t = false -> (vhead H f = [] <-> f_content f = None).
Proof.
  intros H f t W Hg. assert (M := w_mem _ _ _ W). assert (Pz := w_pos _ _ _ W). unfold vhead. destruct (f_payload f) as [[b off]|].
  - destruct M as (_ & [[-> ->]|[-> Po]] & l & Hl & M1 & M2 & _); rewrite Hl.
    + split; reflexivity.
    + split; [|discriminate]. intro X. apply (f_equal (@length Z)) in X. rewrite firstn_length in X. unfold zlen in M2. cbn in X. qlia.
  - destruct M as (_ & -> & _). split; reflexivity.
Qed.

Lemma good_copy : forall s T V i, inv s T -> rel (m_heap s) (m_frames s) T V -> allowed T (FCopy i) -> good s T V (FCopy i).
Proof.
  intros s T V i I R A. assert (A0 := A). destruct A0 as (Rm & A0).
  destruct (usable_frame s T i _ I A0) as (t & f & Ht & Hh & Hg & Ex & N & G & W).
  destruct (copy_ok s T i I A) as (s' & f0 & p & ct & x & st & E & G0 & J & Es & V1 & V2 & _). rewrite G in G0. injection G0 as <-.
  destruct (rel_get _ _ _ _ _ _ I R Ht Hg N) as (v & Hv & VR).
  exists s', (ONew (length (m_frames s))). cbn [fstep explains]. rewrite E. cbn [obind]. split; [reflexivity|]. split; [exact J|].
  split; [rewrite (frames_len _ _ I), (proj1 R); reflexivity|]. cbn [track vnext] in *. rewrite Ht, Hv in *. 
  set (tc := mkTK 1 false (t_proc t) true true false (t_hdrs t) (t_size t) (if t_proc t then t_hsize t else 0)) in *.
  assert (Wc : wff (m_heap s') (copied s f p ct) tc).
  { destruct (i_frames _ _ J) as (_ & F). specialize (F (length T) tc). rewrite nth_app_new in F. specialize (F eq_refl).
    rewrite Es in F. cbn [m_frames] in F. rewrite <- (frames_len _ _ I), nth_app_new in F. rewrite Es. apply F. }
  assert (HdE : vhead (m_heap s') (copied s f p ct) = vhead (m_heap s) f).
  { destruct (t_proc t) eqn:Pr.
    - assert (X := V2 t eq_refl (Ex eq_refl)). rewrite (whole_split _ _ _ Wc), (whole_split _ _ _ W), V1 in X. apply app_inv_tail in X. exact X.
    - assert (C1 := w_proc _ _ _ W). rewrite Pr in C1. assert (C2 := w_proc _ _ _ Wc). cbn [tc t_proc] in C2. 
      assert (X1 : vhead (m_heap s) f = []). { apply (head_proc _ _ _ W Hg). destruct (f_content f); [discriminate|reflexivity]. }
      assert (X2 : vhead (m_heap s') (copied s f p ct) = []).
      { apply (head_proc _ _ _ Wc eq_refl). destruct (f_content (copied s f p ct)); [discriminate|reflexivity]. }
      rewrite X1, X2. reflexivity. }
  assert (Hz : match f_content f with Some _ => f_hsize f | None => 0 end = match v_head v with [] => 0 | _ => v_hsize v end).
  { rewrite <- (r_head _ _ _ _ _ VR), <- (r_hsize _ _ _ _ _ VR). pose proof (head_proc _ _ _ W Hg) as HP.
    destruct (f_content f); destruct (vhead (m_heap s) f); auto.
    - destruct HP as (HP & _). discriminate (HP eq_refl).
    - destruct HP as (_ & HP). discriminate (HP eq_refl). }
  destruct VR as [r1 r2 r3 r4 r5 r6 r7 r8 r9 r10 r11 r12].
  rewrite Es. rewrite Es in V1, HdE. cbn [m_heap m_frames] in *. apply rel_add with (m_heap s); auto; [apply (i_frames _ _ I)| |].
  - intros i' g b Ng Og. destruct (owned_live _ _ _ _ _ (i_heap _ _ I) Ng Og) as (l & Hl). apply nth_error_app1. eapply nth_lt; eauto.
  - constructor; unfold copied in *; fsimpl; cbn [v_type v_ch v_msgno v_more v_seqno v_ans v_chref v_hsize v_plain v_head v_body]; auto.
    + apply (next_len _ _ I).
    + rewrite HdE. exact r11.
    + rewrite V1. exact r12.
Qed.

Lemma continues_iff : forall H a b ta tb va vb i j, wff H a ta -> t_gone ta = false -> vrel H a ta va i -> vrel H b tb vb j ->
  (joinable a b = true <-> continues va vb).
Proof.
  intros H a b ta tb va vb i j W Hg A B. destruct (view_len _ _ _ W Hg) as (L & _). 
  destruct A as [r1 r2 r3 r4 r5 r6 r7 r8 r9 r10 r11 r12]. destruct B as [q1 q2 q3 q4 q5 q6 q7 q8 q9 q10 q11 q12].
  unfold joinable, continues, u32. rewrite <- r12, L, <- r2, <- r3, <- r4, <- r5, <- r6, <- r7, <- r9, <- q2, <- q3, <- q4, <- q6, <- q7.
  rewrite !andb_true_iff, !Z.eqb_eq. split.
  - intros (((((X1 & X2) & X3) & X4) & X5) & X6). conj; auto. destruct (f_type a), (f_type b); try discriminate; reflexivity.
  - intros (X1 & X2 & X3 & X4 & X5 & X6). conj; auto. rewrite X1. destruct (f_type a); reflexivity.
Qed.

Lemma good_join : forall s T V r i j, inv s T -> rel (m_heap s) (m_frames s) T V -> allowed T (FJoin r i j) -> good s T V (FJoin r i j).
Proof.
  intros s T V r i j I R A. assert (A0 := A). destruct A0 as (Rm & D & A0).
  destruct (usable_frame s T i _ I A0) as (ta & a & Hi & Hh & Hg & (Rr & B) & N & G & W).
  destruct (usable_frame s T j _ I B) as (tb & b & Hj & Hhb & Hgb & Tot & Nb & Gb & Wb).
  destruct (join_ok s T r i j I A) as (s' & k & a0 & b0 & E & G0 & G1 & J & Fno & Fyes).
  rewrite G in G0. injection G0 as <-. rewrite Gb in G1. injection G1 as <-.
  destruct (rel_get _ _ _ _ _ _ I R Hi Hg N) as (va & Hva & VA). destruct (rel_get _ _ _ _ _ _ I R Hj Hgb Nb) as (vb & Hvb & VB).
  pose proof (continues_iff _ _ _ _ _ _ _ _ _ W Hg VA VB) as Cn.
  exists s', (match k with Some k => ONew k | None => ONull end). cbn [fstep]. rewrite E. cbn [obind]. split; [reflexivity|]. split; [exact J|].
  destruct (joinable a b) eqn:Jo.
  - destruct (Fyes eq_refl) as (-> & blk & H & -> & Vw & HE). split.
    + cbn [explains]. exists va, vb. split; [exact Hva|]. split; [exact Hvb|]. left. split; [apply Cn; reflexivity|].
      rewrite (frames_len _ _ I), (proj1 R). reflexivity.
    + cbn [track vnext] in *. rewrite Hi, Hj, Hva, Hvb in *. cbn [m_heap m_frames].
      set (t' := mkTK (t_held ta) (t_recv ta) (t_proc ta) (t_exact ta) (t_term ta) (r || t_gone ta) false (t_size ta) (t_hsize ta)) in *.
      set (tc := mkTK 1 false false (t_hsize ta =? 0) (negb r) false (t_hdrs ta) (t_size ta + t_size tb) (t_hsize ta)) in *.
      assert (LT : length (upd_nth (m_frames s) i (Some (joined_left r a))) = length (upd_nth T i t')).
      { rewrite !upd_nth_length. apply (frames_len _ _ I). }
      destruct VA as [r1 r2 r3 r4 r5 r6 r7 r8 r9 r10 r11 r12].
      (* the state without the new frame *)
      assert (R1 : rel H (upd_nth (m_frames s) i (Some (joined_left r a))) (upd_nth T i t') V).
      { apply rel_upd_same with (m_heap s) va; auto; [apply (i_frames _ _ I)|intros; eapply HE; eauto|].
        intros f1 Ef1 Gn. injection Ef1 as <-. cbn [t' t_gone] in Gn. destruct r; [discriminate|].
        destruct (view_own (m_heap s) H a ta W (fun x Ox => HE i a x (or_intror eq_refl) N Ox)) as (E1 & E2).
        constructor; unfold joined_left; fsimpl; auto.
        - intro X. destruct (r10 X). auto.
        - unfold vhead in *. fsimpl. rewrite E2. exact r11.
        - unfold view in *. fsimpl. rewrite E1. exact r12. }
      destruct R1 as (L1 & R1). split; [rewrite !app_length, L1; reflexivity|].
      intros i' g u w Hg' Hu Hw Gn. destruct (Nat.eq_dec i' (length (m_frames s))) as [->|Dn].
      * assert (Li : length (upd_nth (m_frames s) i (Some (joined_left r a))) = length (m_frames s)) by apply upd_nth_length.
        rewrite <- Li in Hg', Hu, Hw. rewrite nth_app_new in Hg'. injection Hg' as <-. rewrite LT, nth_app_new in Hu. injection Hu as <-.
        rewrite LT, <- L1, nth_app_new in Hw. injection Hw as <-.
        constructor; unfold joined in *; fsimpl; cbn [v_type v_ch v_msgno v_more v_seqno v_ans v_chref v_hsize v_plain v_head v_body]; auto.
        -- apply (next_len _ _ I).
        -- rewrite r5, (r_more _ _ _ _ _ VB). reflexivity.
        -- intro X. destruct (r10 X). auto.
        -- unfold vhead. fsimpl. destruct (nth_error H blk) as [[l|]|]; reflexivity.
        -- rewrite Vw, r12, (r_body _ _ _ _ _ VB). reflexivity.
      * pose proof (nth_lt _ _ _ _ Hg') as Lt. rewrite app_length, upd_nth_length in Lt. cbn [length] in Lt.
        pose proof (frames_len _ _ I) as FL. rewrite upd_nth_length in L1.
        rewrite nth_error_app1 in Hg' by (rewrite upd_nth_length; qlia). rewrite nth_error_app1 in Hu by (rewrite upd_nth_length; qlia).
        rewrite nth_error_app1 in Hw by qlia. apply (R1 i' g u w); auto.
  - destruct (Fno eq_refl) as (-> & ->). split; [|exact R]. cbn [explains]. exists va, vb. split; [exact Hva|]. split; [exact Hvb|]. right.
    split; [|reflexivity]. intro X. apply Cn in X. discriminate.
Qed.

Lemma good_ref : forall s T V i, inv s T -> rel (m_heap s) (m_frames s) T V -> allowed T (FRef i) -> good s T V (FRef i).
Proof.
  intros s T V i I R A. assert (A0 := A). destruct A0 as (t & Ht & Hh & _). destruct (live_frame s T i t I Ht Hh) as (f & N & G & W).
  destruct (ref_ok s T i I A) as (s' & f0 & E & G0 & Es & J). rewrite G in G0. injection G0 as <-.
  destruct (value_of _ _ _ _ _ _ R Ht) as (v & Hv).
  exists s', OUnit. cbn [fstep explains vnext track] in *. rewrite E. cbn [obind]. split; [reflexivity|]. split; [exact J|]. split; [reflexivity|].
  rewrite Ht, Es. unfold put. cbn [m_heap m_frames]. apply rel_upd_same with (m_heap s) v; auto; [apply (i_frames _ _ I)|].
  intros f1 Ef1 Gn. injection Ef1 as <-. destruct (proj2 R i f t v N Ht Hv Gn). constructor; unfold with_held; fsimpl; auto.
Qed.
Lemma good_unref : forall s T V i, inv s T -> rel (m_heap s) (m_frames s) T V -> allowed T (FUnref i) -> good s T V (FUnref i).
Proof.
  intros s T V i I R A. assert (A0 := A). destruct A0 as (t & Ht & Hh & _). destruct (live_frame s T i t I Ht Hh) as (f & N & G & W).
  destruct (unref_ok s T i I A) as (s' & E & J & f0 & x & H & G0 & Ef & Eh & Ex & HE). rewrite G in G0. injection G0 as <-.
  destruct (value_of _ _ _ _ _ _ R Ht) as (v & Hv).
  exists s', OUnit. cbn [fstep explains vnext track] in *. rewrite E. cbn [obind]. split; [reflexivity|]. split; [exact J|]. split; [reflexivity|].
  rewrite Ht, Ef, Eh. apply rel_upd_same with (m_heap s) v; auto; [apply (i_frames _ _ I)|].
  intros f1 Ef1 Gn. subst x. destruct Ex as (-> & ->). destruct (proj2 R i f t v N Ht Hv Gn). constructor; unfold with_held; fsimpl; auto.
Qed.

Lemma bytes_eqb_iff : forall a b, bytes_eqb a b = true <-> a = b.
Proof.
  induction a as [|x a IH]; destruct b as [|y b]; cbn; split; try discriminate; auto.
  - intro E. apply andb_true_iff in E. destruct E as (E1 & E2). apply Z.eqb_eq in E1. apply IH in E2. congruence.
  - intro E. injection E as -> ->. rewrite Z.eqb_refl. cbn. apply IH. reflexivity.
Qed.
Lemma ftype_eqb_iff : forall a b, ftype_eqb a b = true <-> a = b.
Proof. intros [] []; cbn; split; congruence. Qed.

Lemma good_equal : forall s T V i j, inv s T -> rel (m_heap s) (m_frames s) T V -> allowed T (FEqual i j) -> good s T V (FEqual i j).
Proof.
  intros s T V i j I R A. assert (A0 := A). destruct A0 as (A1 & A2).
  destruct (usable_frame s T i _ I A1) as (ta & a & Hi & Hh & Hg & Ta & N & G & W).
  destruct (usable_frame s T j _ I A2) as (tb & b & Hj & Hhb & Hgb & Tb & Nb & Gb & Wb).
  destruct (equal_ok s T i j I A) as (a0 & b0 & G0 & G1 & E). rewrite G in G0. injection G0 as <-. rewrite Gb in G1. injection G1 as <-.
  destruct (rel_get _ _ _ _ _ _ I R Hi Hg N) as (va & Hva & VA). destruct (rel_get _ _ _ _ _ _ I R Hj Hgb Nb) as (vb & Hvb & VB).
  exists s, (OBool (equal_frames s a b)). cbn [fstep track vnext]. rewrite E. cbn [obind]. split; [reflexivity|]. split; [exact I|]. split; [|exact R].
  cbn [explains]. exists va, vb. split; [exact Hva|]. split; [exact Hvb|].
  destruct (view_len _ _ _ W Hg) as (La & _). destruct (view_len _ _ _ Wb Hgb) as (Lb & _).
  destruct VA as [r1 r2 r3 r4 r5 r6 r7 r8 r9 r10 r11 r12]. destruct VB as [q1 q2 q3 q4 q5 q6 q7 q8 q9 q10 q11 q12].
  unfold same_fields. rewrite <- r12, <- q12, La, Lb, <- r2, <- r3, <- r4, <- r5, <- r6, <- r7, <- q2, <- q3, <- q4, <- q5, <- q6, <- q7.
  unfold equal_frames. split.
  - rewrite !andb_true_iff, !Z.eqb_eq, ftype_eqb_iff, Bool.eqb_true_iff.
    intros (((((((((X1 & X2) & X3) & X4) & X5) & X6) & X7) & X8) & X9) & X10). conj; auto.
    unfold view in *. destruct (f_payload a), (f_payload b); try discriminate; auto. apply bytes_eqb_iff. exact X10.
  - intros P1 P2 Ne (X1 & X2 & X3 & X4 & X5 & X6 & X7) Ec.
    rewrite (proj2 (ftype_eqb_iff _ _) X1), X4, Bool.eqb_reflx, X2, X3, X5, X6, X7, !Z.eqb_refl. cbn [andb].
    destruct (r10 P1) as (D1 & D2). destruct (q10 P2) as (D3 & D4).
    assert (F1 : f_hdr a = None) by (apply (w_hdr _ _ _ W); auto). assert (F2 : f_hdr b = None) by (apply (w_hdr _ _ _ Wb); auto).
    assert (C1 : f_content a = None). { assert (X := w_proc _ _ _ W). rewrite D2 in X. destruct (f_content a); [discriminate|reflexivity]. }
    assert (C2 : f_content b = None). { assert (X := w_proc _ _ _ Wb). rewrite D4 in X. destruct (f_content b); [discriminate|reflexivity]. }
    unfold field. rewrite F1, F2, C1, C2. cbn [same_string andb].
    assert (Nz : f_size a <> 0). { intro Z0. apply Ne. destruct (view (m_heap s) a); auto. exfalso. unfold zlen in La. cbn in La. qlia. }
    assert (M1 := w_mem _ _ _ W). assert (M2 := w_mem _ _ _ Wb).
    destruct (f_payload a). 2:{ exfalso. apply Nz. apply M1. exact Hg. }
    destruct (f_payload b). 2:{ exfalso. apply Nz. rewrite X7. apply M2. exact Hgb. }
    apply bytes_eqb_iff. exact Ec.
Qed.

Lemma good_step : forall s T V o, inv s T -> rel (m_heap s) (m_frames s) T V -> allowed T o -> good s T V o.
Proof.
  intros s T V o I R A. destruct o as [a m|a m|a c l|i|i h|i|r i j|i|i|i j|i|i|i].
  - apply good_create; auto.
  - apply good_create_ref; auto.
  - apply good_receive; auto.
  - apply good_mime; auto.
  - apply good_head; auto.
  - apply good_copy; auto.
  - apply good_join; auto.
  - apply good_ref; auto.
  - apply good_unref; auto.
  - apply good_equal; auto.
  - cbn [allowed] in A. destruct (usable_frame s T i _ I A) as (t & f & Hi & Hh & Hg & _ & N & G & W).
    destruct (rel_get _ _ _ _ _ _ I R Hi Hg N) as (v & Hv & VR).
    exists s, (OBytes (view (m_heap s) f)). cbn [fstep track vnext explains]. unfold read_payload. rewrite G. cbn [obind].
    rewrite (payload_read s f t W Hg). cbn [obind]. conj; auto. exists v. split; [exact Hv|apply (r_body _ _ _ _ _ VR)].
  - cbn [allowed] in A. destruct (usable_frame s T i _ I A) as (t & f & Hi & Hh & Hg & He & N & G & W).
    destruct (rel_get _ _ _ _ _ _ I R Hi Hg N) as (v & Hv & VR).
    exists s, (OBytes (whole (m_heap s) f)). cbn [fstep track vnext explains]. unfold read_content. rewrite G. cbn [obind].
    rewrite (content_read s f t W Hg He). cbn [obind]. conj; auto. exists v. split; [exact Hv|].
    rewrite (whole_split _ _ _ W), (r_body _ _ _ _ _ VR), (r_head _ _ _ _ _ VR). reflexivity.
  - cbn [allowed] in A. destruct (usable_frame s T i _ I A) as (t & f & Hi & Hh & Hg & _ & N & G & W).
    destruct (rel_get _ _ _ _ _ _ I R Hi Hg N) as (v & Hv & VR). destruct (view_len _ _ _ W Hg) as (La & _).
    eexists. eexists. cbn [fstep]. rewrite G. cbn [obind]. split; [reflexivity|]. cbn [track vnext explains]. conj; auto.
    exists v. rewrite <- (r_body _ _ _ _ _ VR), La. destruct VR. conj; auto.
Qed.

Lemma values_run : forall os s log V, inv s (tracked log) -> rel (m_heap s) (m_frames s) (tracked log) V -> keeps s log os ->
  exists s' log', frun s os = Ok (s', log') /\ as_values V log'.
Proof.
  induction os as [|o os IH]; intros s log V I R K; cbn [frun].
  - exists s, []. split; [reflexivity|exact Logic.I].
  - destruct K as (A & K). destruct (good_step s _ V o I R A) as (s1 & b & E & J & X & R1). rewrite E in *. cbn [obind].
    rewrite <- tracked_snoc in J, R1. destruct (IH s1 _ _ J R1 K) as (s2 & l & E2 & J2). rewrite E2. cbn [obind].
    exists s2, ((o, b) :: l). split; [reflexivity|]. split; [exact X|exact J2].
Qed.
Lemma frames_values : forall os, keeps fm0 [] os -> exists s log, frun fm0 os = Ok (s, log) /\ as_values [] log.
Proof.
  intros os K. apply (values_run os fm0 [] []); auto; [apply inv0|]. split; [reflexivity|]. intros i f t v N. destruct i; discriminate.
Qed.
