(** Headers, copies, joins, references. *)
From Verif Require Import Base CodecModel MimeModel MimeSpec HdrModel HdrSpec FrameModel FrameSpec MimeProofs HdrProofs FrameProofs FrameProofs2 FrameProofs3.

Ltac fsimpl := cbn [f_ref f_size f_hsize f_hdr f_buffer f_content f_payload f_id f_type f_ch f_msgno f_more f_seqno f_ans f_chref
  set_hdr set_body set_payload set_ref set_chref t_held t_size t_hsize t_hdrs t_recv t_proc t_gone t_exact t_term some
  m_heap m_stat m_frames m_next m_ctx put with_stat with_heap].

(** * Headers *)
Lemma head_ok : forall s T i n c, inv s T -> allowed T (FHead i (HSet n c)) -> exists s',
  fstep s (FHead i (HSet n c)) = Ok (s', OUnit) /\ inv s' (track T (FHead i (HSet n c), OUnit)) /\ m_heap s' = m_heap s /\
  exists f k, get s i = Ok f /\ m_frames s' = upd_nth (m_frames s) i (Some (set_hdr f (head_add (f_hsize f) (zlen n) (Some c)) (Some k))).
Proof.
  intros s T i n c I A. cbn [allowed] in A. destruct (usable_frame s T i _ I A) as (t & f & Ht & Hh & Hg & U & N & G & W).
  cbn [fstep track]. rewrite G, Ht. cbn [obind].
  assert (HB : 0 <= head_add (f_hsize f) (zlen n) (Some c) < two31).
  { rewrite (w_hsize _ _ _ W). pose proof (w_hpos _ _ _ W) as HP. rewrite (w_hsize _ _ _ W) in HP.
    pose proof (zlen_pos _ n). pose proof (zlen_pos _ c). cbn [head_add]. destruct (t_hsize t =? 0); qlia. }
  set (z := head_add (f_hsize f) (zlen n) (Some c)) in *.
  assert (WF : forall k, wff (m_heap s) (set_hdr f z (Some k))
     (mkTK (t_held t) (t_recv t) (t_proc t) false (t_term t) (t_gone t) true (t_size t) (head_add (t_hsize t) (zlen n) (Some c)))).
  { intro k. destruct W as [W1 W2 W3 W4 W5 W6 W7 W8 W9 M]. constructor; fsimpl; auto.
    - unfold z. rewrite W3. reflexivity.
    - discriminate.
    - destruct (f_payload f) as [[b off]|].
      + destruct M as (Mb & Mc & l & Hl & M1 & M2 & M3 & M4 & M5 & M6 & M7). split; [auto|]. split; [auto|].
        exists l. conj; auto. discriminate.
      + destruct M as (M1 & M2 & M3 & M4). conj; auto. discriminate. }
  assert (OW : forall k, own (set_hdr f z k) = own f) by reflexivity.
  destruct (f_hdr f) as [k|] eqn:K.
  - destruct (ref_table _ _ _ _ _ (i_stat _ _ I) N K) as (cc & h & E & Nk & Ih & Ec & _).
    destruct (head_more s f n c k cc h E K Nk Ih) as (h' & E' & R & Ih'); [fold z; qlia|]. rewrite R. cbn [obind]. fold z.
    eexists. split; [reflexivity|]. split; [|split; [reflexivity|exists f; eexists; split; reflexivity]]. unfold put, with_stat. fsimpl.
    apply inv_upd with f; auto. apply stat_ok_upd with f; auto.
    apply stat_ok_set with h E'; auto. apply (i_stat _ _ I).
  - destruct (head_new s f n c K) as (h & E & R & Ih); [fold z; qlia|]. rewrite R. cbn [obind]. fold z.
    eexists. split; [reflexivity|]. split; [|split; [reflexivity|exists f; eexists; split; reflexivity]]. unfold put, with_stat. fsimpl.
    apply inv_upd with f; auto. apply stat_ok_new with (m_frames s) E; auto. apply (i_stat _ _ I). intro k.
    pose proof (cnt_upd (refs k) (m_frames s) i (Some f) (Some (set_hdr f z (Some (length (m_stat s))))) N) as U'. cbn [c1] in U'.
    unfold refs in U' at 2 4. rewrite K in U'. cbn [f_hdr set_hdr] in U'. destruct (Nat.eqb (length (m_stat s)) k); qlia.
Qed.

(** * Reading *)
Definition view (H : list (option bytes)) (f : frame) : bytes :=
  match f_payload f with
  | Some (b, off) => match nth_error H b with Some (Some l) => firstn (Z.to_nat (f_size f)) (skipn (Z.to_nat off) l) | _ => [] end
  | None => []
  end.
Definition whole (H : list (option bytes)) (f : frame) : bytes :=
  match f_payload f with
  | Some (b, off) => match nth_error H b with Some (Some l) => firstn (Z.to_nat (off + f_size f)) l | _ => [] end
  | None => []
  end.
Lemma payload_read : forall s f t, wff (m_heap s) f t -> t_gone t = false -> read s (f_payload f) (f_size f) = Ok (view (m_heap s) f).
Proof.
  intros s f t W Hg. unfold read, view. destruct W as [W1 W2 W3 W4 W5 W6 W7 W8 W9 M].
  destruct (f_payload f) as [[b off]|].
  - destruct M as (_ & _ & l & Hl & M1 & M2 & M3 & _). unfold block_of. rewrite Hl. cbn [obind].
    destruct (f_size f =? 0) eqn:Z0.
    + apply Z.eqb_eq in Z0. rewrite Z0. reflexivity.
    + apply Z.eqb_neq in Z0.
      replace ((0 <=? off) && (0 <? f_size f) && (off + f_size f <=? zlen l)) with true by (symmetry; qlia). reflexivity.
  - destruct M as (_ & _ & M & _). rewrite (M Hg). reflexivity.
Qed.
Lemma view_len : forall H f t, wff H f t -> t_gone t = false -> zlen (view H f) = f_size f /\ defined (view H f).
Proof.
  intros H f t W Hg. unfold view. destruct W as [W1 W2 W3 W4 W5 W6 W7 W8 W9 M].
  destruct (f_payload f) as [[b off]|].
  - destruct M as (_ & _ & l & Hl & M1 & M2 & M3 & M4 & _). rewrite Hl. split.
    + unfold zlen in *. rewrite firstn_length, skipn_length. qlia.
    + replace (firstn (Z.to_nat (f_size f)) (skipn (Z.to_nat off) l)) with (skipn (Z.to_nat off) (firstn (Z.to_nat (off + f_size f)) l)).
      2:{ rewrite firstn_skipn_comm. f_equal. f_equal. qlia. }
      clear - M4. revert M4. generalize (firstn (Z.to_nat (off + f_size f)) l). generalize (Z.to_nat off). intro n. induction n; intros x D; auto.
      destruct x; auto. cbn. apply IHn. inversion D; auto.
  - destruct M as (_ & _ & M & _). rewrite (M Hg). split; [reflexivity|constructor].
Qed.
Lemma content_read : forall s f t, wff (m_heap s) f t -> t_gone t = false -> t_exact t = true ->
  read s (match f_content f with Some p => Some p | None => f_payload f end) (f_size f + f_hsize f) = Ok (whole (m_heap s) f).
Proof.
  intros s f t W Hg He. unfold read, whole. destruct W as [W1 W2 W3 W4 W5 W6 W7 W8 W9 M].
  destruct (f_payload f) as [[b off]|].
  - destruct M as (_ & Mc & l & Hl & M1 & M2 & M3 & M4 & M5 & _). specialize (M5 He).
    assert (X : match f_content f with Some p => Some p | None => Some (b, off) end = Some (b, 0)).
    { destruct Mc as [[-> ->]|[-> _]]; reflexivity. }
    rewrite X. unfold block_of. rewrite Hl. cbn [obind]. replace (off + f_size f) with (f_size f + f_hsize f) by qlia.
    destruct (f_size f + f_hsize f =? 0) eqn:Z0.
    + apply Z.eqb_eq in Z0. rewrite Z0. reflexivity.
    + apply Z.eqb_neq in Z0.
      replace ((0 <=? 0) && (0 <? f_size f + f_hsize f) && (0 + (f_size f + f_hsize f) <=? zlen l)) with true by (symmetry; qlia).
      change (Z.to_nat 0) with O. reflexivity.
  - destruct M as (_ & Mc & M1 & M2). rewrite Mc, (M1 Hg), (M2 He). reflexivity.
Qed.

(** * Copies *)
Lemma put_last : forall s fs f g, m_frames s = fs ++ [Some f] ->
  put s (length fs) (Some g) = mkFM (m_heap s) (m_stat s) (fs ++ [Some g]) (m_next s) (m_ctx s).
Proof. intros s fs f g E. unfold put. rewrite E, upd_nth_last. reflexivity. Qed.
Lemma get_last : forall h st fs f nx cx, get (mkFM h st (fs ++ [Some f]) nx cx) (length fs) = Ok f.
Proof. intros. unfold get. cbn [m_frames]. rewrite nth_app_new. reflexivity. Qed.

(** One more reference to a table of headers. *)
Lemma stat_ok_ref : forall S fs k c h f, stat_ok S fs -> nth_error S k = Some (Some (c, h)) -> f_hdr f = Some k ->
  stat_ok (upd_nth S k (Some (c + 1, h))) (fs ++ [Some f]).
Proof.
  intros S fs k c h f K N F k'. specialize (K k').
  assert (C : cnt (refs k') (fs ++ [Some f]) = (cnt (refs k') fs + if Nat.eqb k k' then 1 else 0)%nat).
  { rewrite cnt_snoc. cbn [c1]. unfold refs at 2. rewrite F. reflexivity. }
  rewrite C. destruct (Nat.eq_dec k k') as [<-|D].
  - rewrite nth_upd_same by (eapply nth_lt; eauto). rewrite N in K. destruct K as (A & B & E). rewrite Nat.eqb_refl.
    split; [lia|]. split; [lia|exact E].
  - rewrite nth_upd_other by auto. assert (X : Nat.eqb k k' = false) by (apply Nat.eqb_neq; auto). rewrite X, Nat.add_0_r.
    exact K.
Qed.

(** A frame added with the headers of another one. *)
Lemma inv_add_shared : forall s T f t x k c h, inv s T -> zlen T < two31 - 2 ->
  (own f = None /\ x = [] \/ exists l, own f = Some (length (m_heap s)) /\ x = [Some l]) ->
  nth_error (m_stat s) k = Some (Some (c, h)) -> f_hdr f = Some k ->
  wff (m_heap s ++ x) f t -> 0 < t_held t ->
  inv (mkFM (m_heap s ++ x) (upd_nth (m_stat s) k (Some (c + 1, h))) (m_frames s ++ [Some f]) (m_next s + 1) (m_ctx s + 1)) (T ++ [t]).
Proof.
  intros s T f t x k c h I R O Nk Hk W Hh.
  assert (W' : wff (m_heap s ++ x) (set_hdr f (f_hsize f) None) t).
  { destruct W as [W1 W2 W3 W4 W5 W6 W7 W8 W9 M]. constructor; fsimpl; auto. }
  pose proof (inv_add s T (set_hdr f (f_hsize f) None) t x [] I R O (or_introl (Logic.conj eq_refl eq_refl)) W' Hh) as J.
  destruct J as [J1 J2 J3 J4 J5]. cbn [m_heap m_stat m_frames m_next m_ctx] in *.
  constructor; cbn [m_heap m_stat m_frames m_next m_ctx]; auto.
  - intro b. specialize (J1 b). rewrite cnt_snoc in *. exact J1.
  - apply stat_ok_ref; auto. apply (i_stat _ _ I).
  - destruct J3 as (L & F). split; [rewrite app_length in *; exact L|]. intros i u Hu. specialize (F i u Hu).
    destruct (Nat.eq_dec i (length (m_frames s))) as [->|D].
    + rewrite nth_app_new in F. rewrite nth_app_new. destruct F as (F1 & F2). split; auto.
      rewrite (proj1 (i_frames _ _ I)), nth_app_new in Hu. injection Hu as <-. exact W.
    + pose proof (nth_lt _ _ _ _ Hu) as Lt. rewrite app_length in Lt. pose proof (proj1 (i_frames _ _ I)) as L'. cbn in Lt.
      rewrite nth_error_app1 in F by lia. rewrite nth_error_app1 by lia. exact F.
  - rewrite cnt_snoc in *. exact J5.
Qed.

(** The copy, from the frame that [create] leaves. *)
Definition copied (s : fm) (f : frame) (p ct : option (nat * Z)) : frame :=
  mkFr (m_next s) (f_type f) (f_ch f) (f_msgno f) false (f_seqno f) (f_size f) (f_ans f)
       (match f_content f with Some _ => f_hsize f | None => 0 end) p None ct (f_chref f) 1 (f_hdr f).

Lemma create_plain : forall s T a src, inv s T -> room T -> a_ctype a = None -> a_enc a = None ->
  (0 < a_size a -> exists l, src = Some l /\ a_size a <= zlen l) -> 0 <= a_size a ->
  let f := blank_frame (m_next s) (a_type a) (a_ch a) (a_msgno a) false (a_seqno a) (a_size a) (a_ans a) in
  (a_size a = 0 -> create s a src = Ok (mkFM (m_heap s) (m_stat s) (m_frames s ++ [Some f]) (m_next s + 1) (m_ctx s + 1), length (m_frames s))) /\
  (forall l, 0 < a_size a -> src = Some l ->
     create s a src = Ok (mkFM (m_heap s ++ [Some (firstn (Z.to_nat (a_size a)) l ++ [0])]) (m_stat s)
        (m_frames s ++ [Some (set_payload f (Some (length (m_heap s), 0)))]) (m_next s + 1) (m_ctx s + 1), length (m_frames s))).
Proof.
  intros s T a src I R C1 C2 S0 P f. unfold create. rewrite (next_ok s T I R). cbn [obind]. rewrite C1, C2. cbn [opt_head].
  split.
  - intro Z0. rewrite Z0. cbn [Z.ltb Z.compare]. destruct src; cbn [obind add_frame m_heap m_stat m_frames m_next m_ctx];
    unfold f; rewrite Z0; reflexivity.
  - intros l Z0 ->. destruct (S0 Z0) as (l' & E & L). injection E as <-.
    replace (0 <? a_size a) with true by lia. replace (a_size a <=? zlen l) with true by lia.
    unfold malloc, with_heap. cbn [obind add_frame m_heap m_stat m_frames m_next m_ctx]. reflexivity.
Qed.

Lemma firstn_exact : forall (l r : bytes) n, zlen l = n -> firstn (Z.to_nat n) (l ++ r) = l.
Proof.
  intros l r n E. replace (Z.to_nat n) with (length l) by (unfold zlen in E; lia).
  rewrite firstn_app, Nat.sub_diag, firstn_all, app_nil_r. reflexivity.
Qed.
Lemma nth_exact : forall (l : bytes) x n, zlen l = n -> nth_error (l ++ [x]) (Z.to_nat n) = Some x.
Proof. intros l x n E. replace (Z.to_nat n) with (length l) by (unfold zlen in E; lia). apply nth_app_new. Qed.

Lemma copy_ok : forall s T i, inv s T -> allowed T (FCopy i) -> exists s' f p ct x st,
  copy s i = Ok (s', length (m_frames s)) /\ get s i = Ok f /\ inv s' (track T (FCopy i, ONew (length (m_frames s)))) /\
  s' = mkFM (m_heap s ++ x) st (m_frames s ++ [Some (copied s f p ct)]) (m_next s + 1) (m_ctx s + 1) /\
  view (m_heap s') (copied s f p ct) = view (m_heap s) f /\
  (forall t, nth_error T i = Some t -> t_exact t = true -> whole (m_heap s') (copied s f p ct) = whole (m_heap s) f) /\
  (forall k, match nth_error st k, nth_error (m_stat s) k with
             | Some (Some (_, h)), Some (Some (_, h')) => h = h' | None, None => True | Some None, Some None => True | _, _ => False end).
Proof.
  intros s T i I (R & A). destruct (usable_frame s T i _ I A) as (t & f & Ht & Hh & Hg & U & N & G & W).
  assert (W0 := W). destruct W0 as [W1 W2 W3 W4 W5 W6 W7 W8 W9 M].
  (* the memory of the copy *)
  set (tc := mkTK 1 false (t_proc t) true true false (t_hdrs t) (t_size t) (if t_proc t then t_hsize t else 0)).
  assert (Q : exists p ct x,
    (let a := fun size => mkFA (f_type f) (f_ch f) (f_msgno f) (f_more f) (f_seqno f) size (f_ans f) None None in
     match f_content f with
     | Some (b, off) =>
        let csize := f_size f + f_hsize f in
        if (csize <? two31) && (- two31 <=? csize) then
          let! src := if 0 <? csize then let! l := read s (f_content f) csize in Ok (Some l) else Ok None in
          let! (s', j) := create s (a csize) src in
          let! r := get s' j in
          match f_payload r with
          | Some (b', _) =>
              if 0 <=? csize - f_size f
              then Ok (put s' j (Some (set_body r (Some (b', 0)) (Some (b', csize - f_size f)) (f_hsize f) (f_size f))), j)
              else UB
          | None => if csize - f_size f =? 0
                    then Ok (put s' j (Some (set_body r None None (f_hsize f) (f_size f))), j) else UB
          end
        else UB
     | None =>
        let! src := match f_payload f with
                    | Some _ => if 0 <? f_size f then let! l := read s (f_payload f) (f_size f) in Ok (Some l) else Ok None
                    | None => Ok None
                    end in
        create s (a (f_size f)) src
     end) = Ok (mkFM (m_heap s ++ x) (m_stat s) (m_frames s ++ [Some (set_hdr (set_chref (copied s f p ct) 0) (f_hsize (copied s f p ct)) None)])
                     (m_next s + 1) (m_ctx s + 1), length (m_frames s)) /\
    (forall c hd, (t_hdrs t = false -> hd = None) ->
       wff (m_heap s ++ x) (set_hdr (set_chref (copied s f p ct) c) (f_hsize (copied s f p ct)) hd) tc) /\
    (own (copied s f p ct) = None /\ x = [] \/ exists l, own (copied s f p ct) = Some (length (m_heap s)) /\ x = [Some l]) /\
    view (m_heap s ++ x) (copied s f p ct) = view (m_heap s) f /\
    (t_exact t = true -> whole (m_heap s ++ x) (copied s f p ct) = whole (m_heap s) f)).
  { destruct (f_content f) as [[b0 off0]|] eqn:Ct.
    - (* the headers and the body *)
      destruct (f_payload f) as [[b off]|] eqn:P.
      2:{ destruct M as (_ & M & _). discriminate. }
      destruct M as (Mb & Mc & l & Hl & M1 & M2 & M3 & M4 & M5 & M6 & M7).
      destruct Mc as [[Mc _]|[Mc Mo]]; [discriminate|]. injection Mc as -> ->.
      assert (He : t_exact t = true) by (apply U; rewrite W8; reflexivity). specialize (M5 He).
      assert (Ln : zlen (firstn (Z.to_nat (off + f_size f)) l) = off + f_size f) by (apply zto_len; qlia).
      set (cs := f_size f + f_hsize f). assert (Ecs : cs = off + f_size f) by (unfold cs; qlia).
      set (a := mkFA (f_type f) (f_ch f) (f_msgno f) (f_more f) (f_seqno f) cs (f_ans f) None None).
      assert (Rd : read s (Some (b, 0)) cs = Ok (firstn (Z.to_nat (off + f_size f)) l)).
      { unfold read. replace (cs =? 0) with false by (symmetry; qlia). unfold block_of. rewrite Hl. cbn [obind].
        replace ((0 <=? 0) && (0 <? cs) && (0 + cs <=? zlen l)) with true by (symmetry; qlia). rewrite Ecs. reflexivity. }
      destruct (create_plain s T a (Some (firstn (Z.to_nat (off + f_size f)) l)) I R eq_refl eq_refl) as (_ & C).
      { intros _. eexists. split; [reflexivity|]. cbn [a a_size]. qlia. }
      { cbn [a a_size]. qlia. }
      specialize (C _ ltac:(cbn [a a_size]; qlia) eq_refl). cbn [a a_size a_type a_ch a_msgno a_seqno a_ans] in C. fold a in C.
      assert (Emin : firstn (Z.to_nat cs) (firstn (Z.to_nat (off + f_size f)) l) = firstn (Z.to_nat (off + f_size f)) l)
        by (rewrite Ecs, firstn_firstn, Nat.min_id; reflexivity).
      rewrite Emin in C.
      exists (Some (length (m_heap s), off)), (Some (length (m_heap s), 0)), [Some (firstn (Z.to_nat (off + f_size f)) l ++ [0])].
      split; [|split; [|split; [|split]]].
      + cbv zeta. fold cs. replace ((cs <? two31) && (- two31 <=? cs)) with true by (symmetry; unfold two31 in *; qlia).
        replace (0 <? cs) with true by (symmetry; qlia). rewrite Rd. cbn [obind]. fold a. rewrite C. cbn [obind].
        rewrite get_last. cbn [obind]. fsimpl.
        replace (0 <=? cs - f_size f) with true by (symmetry; qlia).
        unfold put. cbn [m_heap m_stat m_frames m_next m_ctx]. rewrite upd_nth_last. replace (cs - f_size f) with off by qlia. unfold copied. rewrite Ct. reflexivity.
      + intros c hd Hd. unfold copied. rewrite Ct. constructor; fsimpl; auto; try qlia; try discriminate.
        * unfold tc. fsimpl. rewrite W8. cbn. exact W3.
        * split; [auto|]. split; [right; split; [reflexivity|exact Mo]|].
          exists (firstn (Z.to_nat (off + f_size f)) l ++ [0]). rewrite nth_app_new. conj; auto; try qlia.
          -- unfold zlen in *. rewrite app_length. cbn [length]. qlia.
          -- rewrite firstn_exact by exact Ln. exact M4.
          -- intros _. apply nth_exact. exact Ln.
          -- discriminate.
      + right. eexists. split; reflexivity.
      + unfold view, copied. fsimpl. rewrite P, nth_app_new, Hl. 
        replace (skipn (Z.to_nat off) (firstn (Z.to_nat (off + f_size f)) l ++ [0])) with
          (firstn (Z.to_nat (f_size f)) (skipn (Z.to_nat off) l) ++ [0]).
        { apply firstn_exact. unfold zlen in *. rewrite firstn_length, skipn_length. qlia. }
        rewrite skipn_app. f_equal.
        * rewrite firstn_skipn_comm. f_equal. f_equal. qlia.
        * replace (Z.to_nat off - length (firstn (Z.to_nat (off + f_size f)) l))%nat with O by (unfold zlen in Ln; qlia). reflexivity.
      + intros _. unfold whole, copied. fsimpl. rewrite P, nth_app_new, Hl. apply firstn_exact. exact Ln.
    - (* the payload *)
      set (a := mkFA (f_type f) (f_ch f) (f_msgno f) (f_more f) (f_seqno f) (f_size f) (f_ans f) None None).
      destruct (Z.eq_dec (f_size f) 0) as [Z0|Z0].
      + destruct (create_plain s T a None I R eq_refl eq_refl) as (C & _).
        { cbn [a a_size]. intro. exfalso. qlia. }
        { cbn [a a_size]. qlia. }
        specialize (C Z0). cbn [a a_size a_type a_ch a_msgno a_seqno a_ans] in C. fold a in C.
        exists None, None, []. rewrite app_nil_r. split; [|split; [|split; [|split]]].
        * cbv zeta. replace (0 <? f_size f) with false by (symmetry; qlia). fold a.
          destruct (f_payload f); cbn [obind]; rewrite C; unfold copied; rewrite Ct; reflexivity.
        * intros c hd Hd. unfold copied. rewrite Ct. constructor; fsimpl; auto; try (unfold two31; qlia); try discriminate.
          unfold tc. fsimpl. rewrite W8. reflexivity.
        * left. split; auto.
        * unfold view, copied. fsimpl. destruct (f_payload f) as [[b off]|]; auto. destruct (nth_error (m_heap s) b) as [[l|]|]; auto.
          rewrite Z0. reflexivity.
        * intros _. unfold whole, copied. fsimpl. destruct (f_payload f) as [[b off]|]; auto.
          destruct M as (_ & [[_ ->]|[M _]] & _); [|discriminate].
          destruct (nth_error (m_heap s) b) as [[l|]|]; auto. rewrite Z0. reflexivity.
      + destruct (f_payload f) as [[b off]|] eqn:P.
        2:{ destruct M as (_ & _ & M & _). exfalso. apply Z0. apply M. exact Hg. }
        pose proof (payload_read s f t W Hg) as Rd. destruct (view_len _ _ _ W Hg) as (Vl & Vd). rewrite P in Rd.
        destruct (create_plain s T a (Some (view (m_heap s) f)) I R eq_refl eq_refl) as (_ & C).
        { cbn [a a_size]. intros _. eexists. split; [reflexivity|]. qlia. }
        { cbn [a a_size]. qlia. }
        specialize (C _ ltac:(cbn [a a_size]; qlia) eq_refl). cbn [a a_size a_type a_ch a_msgno a_seqno a_ans] in C. fold a in C.
        assert (Fv : firstn (Z.to_nat (f_size f)) (view (m_heap s) f) = view (m_heap s) f).
        { rewrite <- (app_nil_r (view (m_heap s) f)) at 1. apply firstn_exact. exact Vl. }
        rewrite Fv in C.
        destruct M as (Mb & [[_ ->]|[Mc _]] & l & Hl & M1 & M2 & M3 & M4 & M5 & M6 & M7); [|discriminate].
        exists (Some (length (m_heap s), 0)), None, [Some (view (m_heap s) f ++ [0])]. split; [|split; [|split; [|split]]].
        * cbv zeta. replace (0 <? f_size f) with true by (symmetry; qlia). rewrite Rd. cbn [obind]. fold a. rewrite C.
          unfold copied. rewrite Ct. reflexivity.
        * intros c hd Hd. unfold copied. rewrite Ct. constructor; fsimpl; auto; try (unfold two31; qlia); try discriminate.
          -- unfold tc. fsimpl. rewrite W8. reflexivity.
          -- split; [auto|]. split; [auto|]. exists (view (m_heap s) f ++ [0]). rewrite nth_app_new. cbn [Z.add]. conj; auto; try qlia.
             ++ unfold zlen in *. rewrite app_length. cbn [length]. qlia.
             ++ rewrite firstn_exact by exact Vl. exact Vd.
             ++ intros _. apply nth_exact. exact Vl.
             ++ discriminate.
        * right. eexists. split; reflexivity.
        * unfold view at 1, copied. fsimpl. rewrite nth_app_new. change (Z.to_nat 0) with O. cbn [skipn]. apply firstn_exact. exact Vl.
        * intros _. unfold whole at 1, copied. fsimpl. rewrite nth_app_new. cbn [Z.add]. rewrite firstn_exact by exact Vl.
          unfold view, whole. rewrite P, Hl. change (Z.to_nat 0) with O. reflexivity. }
  destruct Q as (p & ct & x & Q & WF & OX & V1 & V2).
  exists (mkFM (m_heap s ++ x) (match f_hdr f with Some k => match nth_error (m_stat s) k with
        | Some (Some (c, h)) => upd_nth (m_stat s) k (Some (c + 1, h)) | _ => m_stat s end | None => m_stat s end)
        (m_frames s ++ [Some (copied s f p ct)]) (m_next s + 1) (m_ctx s + 1)), f, p, ct, x, (match f_hdr f with Some k => match nth_error (m_stat s) k with
        | Some (Some (c, h)) => upd_nth (m_stat s) k (Some (c + 1, h)) | _ => m_stat s end | None => m_stat s end).
  unfold copy. rewrite G. cbn [obind]. cbv zeta in Q. cbv zeta. rewrite Q. cbn [obind].
  rewrite get_last. cbn [obind track]. rewrite Ht. fold tc.
  assert (E1 : set_hdr (set_chref (copied s f p ct) (f_chref f)) (f_hsize (copied s f p ct)) (f_hdr f) = copied s f p ct) by reflexivity.
  assert (WF' : wff (m_heap s ++ x) (copied s f p ct) tc).
  { rewrite <- E1. apply WF. auto. }
  destruct (f_hdr f) as [k|] eqn:K.
  - destruct (ref_table _ _ _ _ _ (i_stat _ _ I) N K) as (cc & h & E & Nk & Ih & Ec & _). cbn [m_stat]. rewrite Nk.
    split; [unfold put, with_stat; fsimpl; rewrite upd_nth_last; unfold copied; rewrite K; reflexivity|].
    split; [reflexivity|]. split; [|split; [reflexivity|split; [exact V1|split]]].
    + apply inv_add_shared; auto. unfold tc. cbn. qlia.
    + intros t0 Ht0. injection Ht0 as <-. exact V2.
    + intro k'. destruct (Nat.eq_dec k k') as [<-|D].
      * rewrite nth_upd_same by (eapply nth_lt; eauto). rewrite Nk. reflexivity.
      * rewrite nth_upd_other by auto. destruct (nth_error (m_stat s) k') as [[[c' h']|]|]; auto.
  - split; [unfold put; fsimpl; rewrite upd_nth_last; unfold copied; rewrite K; reflexivity|].
    split; [reflexivity|]. split; [|split; [reflexivity|split; [exact V1|split]]].
    + rewrite <- (app_nil_r (m_stat s)). apply inv_add; auto. unfold tc. cbn. qlia.
    + intros t0 Ht0. injection Ht0 as <-. exact V2.
    + intro k'. destruct (nth_error (m_stat s) k') as [[[c' h']|]|]; auto.
Qed.
