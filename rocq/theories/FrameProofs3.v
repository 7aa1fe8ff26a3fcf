(** Reception, MIME processing, headers, copies. *)
From Verif Require Import Base CodecModel MimeModel MimeSpec HdrModel HdrSpec FrameModel FrameSpec MimeProofs HdrProofs FrameProofs FrameProofs2.

Ltac arith P :=
  lazymatch P with
  | (_ <= _)%Z => idtac | (_ < _)%Z => idtac | (_ <= _ < _)%Z => idtac | (_ <= _ <= _)%Z => idtac | @eq Z _ _ => idtac
  | (_ <= _)%nat => idtac | (_ < _)%nat => idtac | @eq nat _ _ => idtac | (_ > _)%Z => idtac
  | (@eq Z _ _ -> False) => idtac | ~ (@eq Z _ _) => idtac | (@eq nat _ _ -> False) => idtac | ~ (@eq nat _ _) => idtac
  end.
Ltac qlia := repeat match goal with H : ?P |- _ => first [ arith P; fail 1 | clear H ] end; lia.

Lemma create_ref_ok : forall s T a m, inv s T -> room T -> args_ok a m -> exists s',
  create_ref s a m = Ok (s', length (m_frames s)) /\ inv s' (track T (FCreateRef a m, ONew (length (m_frames s)))) /\
  exists hd p, m_frames s' = m_frames s ++ [Some (set_hdr (set_payload (blank_frame (m_next s) (a_type a) (a_ch a) (a_msgno a) false (a_seqno a) (a_size a) (a_ans a)) p)
                 (heads_size a) hd)] /\
     (0 < a_size a -> exists l, m = Some l /\ p = Some (length (m_heap s), 0) /\ m_heap s' = m_heap s ++ [Some l]) /\
     (a_size a = 0 -> p = None /\ m_heap s' = m_heap s).
Proof.
  intros s T a m I R (A1 & A2 & A3). unfold create_ref. rewrite (next_ok s T I R). cbn [obind track].
  set (f0 := blank_frame _ _ _ _ _ _ _ _).
  assert (P2 : 0 <= heads_size a).
  { unfold heads_size. pose proof (head_add_pos 0 12 (a_ctype a) ltac:(lia) ltac:(lia)).
    pose proof (head_add_pos _ 25 (a_enc a) H ltac:(lia)). lia. }
  assert (Z0 : has_heads a = false -> heads_size a = 0).
  { unfold has_heads, heads_size. destruct (a_ctype a), (a_enc a); try discriminate. reflexivity. }
  set (s1 := mkFM (m_heap s) (m_stat s) (m_frames s) (m_next s + 1) (m_ctx s + 1)).
  destruct (Z.eq_dec (a_size a) 0) as [E0|E0].
  - assert (Q : match m with
        | Some m0 => if 0 <? a_size a then let (s', b) := malloc s1 m0 in (s', set_payload f0 (Some (b, 0))) else (s1, f0)
        | None => (s1, f0)
        end = (s1, f0)).
    { rewrite E0. destruct m; reflexivity. }
    rewrite Q. clear Q.
    destruct (create_end s T a f0 [] (mkTK 1 false false (negb (has_heads a)) false false (has_heads a) (a_size a) (heads_size a))
      s1) as (s' & f' & R1 & R2 & R3 & R4 & (hd & R5 & R6) & R7); auto.
    + unfold s1. rewrite app_nil_r. reflexivity.
    + cbn. lia.
    + intros hd Hd. constructor; cbn; auto; try lia.
      conj; auto; try discriminate. intro X. apply Z0. destruct (has_heads a); auto; discriminate.
    + exists s'. rewrite app_nil_r in R4. split; auto. split; auto. exists hd, None. rewrite R3, R5. split; [reflexivity|].
      split; [intro; lia|]. intros _. split; [reflexivity|exact R4].
  - destruct A3 as (l & -> & A3 & A4); [lia|].
    replace (0 <? a_size a) with true by lia.
    unfold malloc, with_heap, s1. cbn [m_heap m_stat m_frames m_next m_ctx obind].
    destruct (create_end s T a (set_payload f0 (Some (length (m_heap s), 0))) [Some l]
      (mkTK 1 false false (negb (has_heads a)) false false (has_heads a) (a_size a) (heads_size a))
      (mkFM (m_heap s ++ [Some l]) (m_stat s) (m_frames s) (m_next s + 1) (m_ctx s + 1)))
      as (s' & f' & R1 & R2 & R3 & R4 & (hd & R5 & R6) & R7); auto.
    + right. eexists. split; reflexivity.
    + cbn. lia.
    + intros hd Hd.
      constructor; cbn [f_ref f_size f_hsize f_hdr f_buffer f_content f_payload set_hdr set_payload f0 blank_frame
                        t_held t_size t_hsize t_hdrs t_recv t_proc t_gone t_exact t_term some]; auto; try lia; try discriminate.
      split; [auto|]. split; [auto|]. exists l. rewrite nth_app_new. conj; auto; try lia; try discriminate.
      apply firstn_defined. auto.
    + exists s'. split; auto. split; auto. exists hd, (Some (length (m_heap s), 0)). rewrite R3, R5. split; [reflexivity|].
      split; [|intro; lia]. intros _. exists l. conj; auto.
Qed.

Lemma sock_len : forall c, zlen (sock_mem c) = zlen c + 5.
Proof. intro c. unfold sock_mem, zlen. rewrite app_length. cbn. lia. Qed.

Lemma receive_ok : forall s T a ch c, inv s T -> room T -> defined c -> zlen c + 6 < two31 -> exists s',
  receive s a ch c = Ok (s', length (m_frames s)) /\ inv s' (track T (FReceive a ch c, ONew (length (m_frames s)))) /\
  m_frames s' = m_frames s ++ [Some (mkFr (m_next s) (a_type a) (a_ch a) (a_msgno a) (a_more a) (a_seqno a) (zlen c) (a_ans a) 0
                (Some (length (m_heap s), 0)) (Some (length (m_heap s))) None ch 1 None)] /\
  m_heap s' = m_heap s ++ [Some (sock_mem c)].
Proof.
  intros s T a ch c I R D B. unfold receive. rewrite (next_ok s T I R).
  unfold malloc, with_heap, add_frame. cbn [obind m_heap m_stat m_frames m_next m_ctx track blank_frame f_id f_type f_ch f_msgno f_more f_seqno f_size f_ans].
  eexists. split; [reflexivity|]. split; [|split; reflexivity].
  rewrite <- (app_nil_r (m_stat s)). apply inv_add; auto.
  - right. exists (sock_mem c). split; reflexivity.
  - pose proof (zlen_pos _ c).
    constructor; cbn [f_ref f_size f_hsize f_hdr f_buffer f_content f_payload t_held t_size t_hsize t_hdrs t_recv t_proc t_gone t_exact t_term some];
      auto; try lia; try discriminate; try (unfold two31 in *; lia).
    split; [auto|]. split; [auto|]. exists (sock_mem c). rewrite nth_app_new. rewrite sock_len. conj; auto; try lia.
    + apply firstn_defined. apply defined_app; auto. repeat constructor; lia.
    + intros _. unfold sock_mem. rewrite nth_error_app2 by (unfold zlen; lia).
      replace (Z.to_nat (0 + zlen c) - length c)%nat with O by (unfold zlen; lia). reflexivity.
    + intros _ _. exists c. auto.
  - cbn. lia.
Qed.

(** * A change of one frame *)
Lemma inv_upd : forall s T i f f' t st, inv s T -> nth_error (m_frames s) i = Some (Some f) -> own f' = own f ->
  wff (m_heap s) f' t -> 0 < t_held t -> stat_ok st (upd_nth (m_frames s) i (Some f')) ->
  inv (mkFM (m_heap s) st (upd_nth (m_frames s) i (Some f')) (m_next s) (m_ctx s)) (upd_nth T i t).
Proof.
  intros s T i f f' t st I N O W Hh K. destruct I as [I1 I2 I3 I4 I5].
  assert (L : (i < length T)%nat) by (rewrite <- (proj1 I3); eapply nth_lt; eauto).
  constructor; cbn [m_heap m_stat m_frames m_next m_ctx]; auto.
  - apply heap_ok_upd with f; auto.
  - apply frames_ok_upd with (m_heap s); auto.
  - unfold zlen in *. rewrite upd_nth_length. exact I4.
  - pose proof (cnt_upd (fun _ => true) (m_frames s) i (Some f) (Some f') N) as U. cbn [c1] in U. lia.
Qed.
Lemma usable_frame : forall s T i P, inv s T -> usable T i P ->
  exists t f, nth_error T i = Some t /\ 0 < t_held t /\ t_gone t = false /\ P t /\
    nth_error (m_frames s) i = Some (Some f) /\ get s i = Ok f /\ wff (m_heap s) f t.
Proof.
  intros s T i P I (t & Ht & Hh & Hg & Hp). destruct (live_frame s T i t I Ht Hh) as (f & A & B & C). exists t, f. conj; auto.
Qed.

(** * MIME *)
Lemma entity_size : forall c hs body, entity c hs body -> zlen body < zlen c.
Proof.
  induction 1.
  - unfold zlen. rewrite app_length. destruct H; subst; cbn; lia.
  - unfold zlen in *. rewrite app_length. cbn [length]. rewrite !app_length. lia.
Qed.
Lemma store_all_ok : forall hs h E, hinv h E -> exists h' E', store_all h hs = Ok (Some h') /\ hinv h' E'.
Proof.
  induction hs as [|[n v] hs IH]; intros h E I; cbn [store_all]; [eauto|].
  destruct (store_ok h E n (trim (cstr v)) I) as (h1 & R & I1). rewrite R. cbn [obind]. eapply IH; eauto.
Qed.
Lemma existsb_defined : forall l, defined l -> existsb (fun c => c <? 0) l = false.
Proof.
  induction l as [|a l IH]; intro D; cbn; auto. inversion D; subst. rewrite (IH H2). replace (a <? 0) with false by lia. reflexivity.
Qed.


(** What the processing does, for a frame as the socket left it. *)
Lemma process_eval : forall s i f b c r, get s i = Ok f -> f_payload f = Some (b, 0) -> f_hdr f = None ->
  block_of s b = Ok (sock_mem c) -> defined c -> mime_parse (sock_mem c) (f_size f) = Ok r ->
  process s i = if ftype_eqb (f_type f) TSEQ then Ok (s, false) else
       match r with
       | MFuel => UB
       | MNone => Ok (s, false)
       | MPlain h => Ok (put s i (Some (set_body f (Some (b, 0)) (Some (b, h)) h (f_size f - h))), true)
       | MHead hs h =>
           let! x := store_all h_new hs in
           match x with
           | None => UB
           | Some t =>
               let s1 := with_stat s (m_stat s ++ [Some (1, t)]) in
               let f1 := set_body f (Some (b, 0)) (Some (b, h)) h (f_size f - h) in
               Ok (put s1 i (Some (set_hdr f1 h (Some (length (m_stat s))))), true)
           end
       end.
Proof.
  intros s i f b c r G P Hd B D Pr. unfold process. rewrite G. cbn [obind]. rewrite P, Hd.
  pose proof (zlen_pos _ (sock_mem c)) as ZP.
  assert (X : exists x y z, sock_mem c = x :: y :: z).
  { unfold sock_mem, trailer. destruct c as [|x [|y c']]; cbn; eauto. }
  destruct X as (x & y & z & X).
  assert (DD : existsb (fun c => c <? 0) (sock_mem c) = false).
  { apply existsb_defined. apply defined_app; auto. repeat constructor; qlia. }
  assert (Y : (0 <=? zlen (sock_mem c)) = true) by qlia.
  destruct (f_type f); try reflexivity; rewrite B; cbn [obind]; rewrite Y, DD; cbn [andb negb Z.leb Z.compare];
    change (skipn (Z.to_nat 0) (sock_mem c)) with (sock_mem c); cbv zeta;
    rewrite X at 1; cbn [rd obind]; rewrite X at 1; cbn [tl rd obind]; rewrite Pr; cbn [obind ftype_eqb]; destruct r; reflexivity.
Qed.

Lemma set_hdr_none : forall f z, f_hdr f = None -> f_hsize f = z -> set_hdr f z None = f.
Proof. intros [] z; cbn. intros -> ->. reflexivity. Qed.

Lemma process_ok : forall s T i, inv s T -> usable T i (fun t => t_recv t = true /\ t_proc t = false /\ t_hdrs t = false) ->
  exists s' ok f f', process s i = Ok (s', ok) /\ get s i = Ok f /\ get s' i = Ok f' /\
    inv s' (track T (FMime i, OMime ok (f_hsize f'))) /\
    exists b c, nth_error (m_heap s) b = Some (Some (sock_mem c)) /\ f_payload f = Some (b, 0) /\ zlen c = f_size f /\
     (ok = false -> s' = s /\ (f_type f <> TSEQ -> forall hs body, ~ entity c hs body)) /\
     (ok = true -> f_type f <> TSEQ /\ exists st hd, (exists hs body, entity c hs body /\ f_size f' = zlen body /\ f_hsize f' = zlen c - zlen body) /\
        f' = set_hdr (set_body f (Some (b, 0)) (Some (b, f_hsize f')) (f_hsize f') (f_size f - f_hsize f')) (f_hsize f') hd /\
        s' = mkFM (m_heap s) st (upd_nth (m_frames s) i (Some f')) (m_next s) (m_ctx s)).
Proof.
  intros s T i I U. destruct (usable_frame s T i _ I U) as (t & f & Ht & Hh & Hg & (U1 & U2 & U3) & N & G & W).
  assert (W0 := W). destruct W0 as [W1 W2 W3 W4 W5 W6 W7 W8 W9 M].
  destruct (f_payload f) as [[b off]|] eqn:P.
  2:{ destruct M as (Mb & _). rewrite U1, Mb in W7. discriminate. }
  destruct M as (Mb & Mc & l & Hl & M1 & M2 & M3 & M4 & M5 & M6 & M7).
  destruct Mc as [[Mc ->]|[Mc _]]; [|rewrite U2, Mc in W8; discriminate].
  destruct Mb as [Mb|Mb]; [rewrite U1, Mb in W7; discriminate|].
  destruct (M7 U1 U2) as (c & -> & Hc & Dc).
  assert (B : block_of s b = Ok (sock_mem c)) by (unfold block_of; rewrite Hl; reflexivity).
  destruct (parse_sock c) as (r & Pr & Nf & Fd). assert (Pr' := Pr). rewrite Hc in Pr.
  rewrite (process_eval s i f b c r G P (W6 U3) B Dc Pr).
  assert (WF : forall h hd, 0 < h -> h <= f_size f -> 
     wff (m_heap s) (set_hdr (set_body f (Some (b, 0)) (Some (b, h)) h (f_size f - h)) h hd)
         (mkTK (t_held t) (t_recv t) true true (t_term t) (t_gone t) true (t_size t - h) h)).
  { clear Pr Pr' Nf Fd I U W. intros h hd H1 H2. constructor; cbn [f_ref f_size f_hsize f_hdr f_buffer f_content f_payload set_hdr set_body
        t_held t_size t_hsize t_hdrs t_recv t_proc t_gone t_exact t_term some]; auto; try congruence; try qlia.
    split; [auto|]. split; [right; split; [reflexivity|exact H1]|]. exists (sock_mem c).
      replace (h + (f_size f - h)) with (0 + f_size f) by qlia. conj; auto; try qlia. }
  assert (OW : forall h hd, own (set_hdr (set_body f (Some (b, 0)) (Some (b, h)) h (f_size f - h)) h hd) = own f).
  { intros h hd. unfold own. cbn [f_buffer f_content f_payload set_hdr set_body]. rewrite Mb. reflexivity. }
  assert (IG : forall st fs x y f', get (mkFM x st (upd_nth (m_frames s) i (Some f')) y fs) i = Ok f').
  { intros. unfold get. cbn [m_frames]. rewrite nth_upd_same by (eapply nth_lt; eauto). reflexivity. }
  assert (NE : forall hs body, r = MNone -> ~ entity c hs body).
  { intros hs body -> En. destruct (parse_complete c hs body trailer En) as (r' & R' & F').
    unfold sock_mem in Pr'. rewrite Pr' in R'. injection R' as <-. discriminate. }
  destruct (ftype_eqb (f_type f) TSEQ) eqn:Ty.
  { exists s, false, f, f. cbn [track]. conj; auto. exists b, c. conj; auto; try discriminate. intros _. split; [reflexivity|]. intro X. destruct (f_type f); try discriminate. contradiction. }
  assert (Ty' : f_type f <> TSEQ) by (intro X; rewrite X in Ty; discriminate).
  destruct r as [|h|hs h|].
  - exists s, false, f, f. cbn [track]. conj; auto. exists b, c. conj; auto; try discriminate.
  - destruct (Fd [] h eq_refl) as (body & En & Eh). pose proof (entity_size _ _ _ En) as Es. pose proof (zlen_pos _ body).
    set (f' := set_hdr (set_body f (Some (b, 0)) (Some (b, h)) h (f_size f - h)) h None).
    assert (Ef : set_body f (Some (b, 0)) (Some (b, h)) h (f_size f - h) = f').
    { symmetry. apply set_hdr_none; auto. }
    rewrite Ef. exists (put s i (Some f')), true, f, f'. cbn [track].
    change (f_hsize f') with h. rewrite Ht. split; [reflexivity|]. split; [auto|]. split; [apply IG|]. split.
    + apply inv_upd with f; auto; try qlia.
      * apply OW.
      * apply WF; qlia.
      * apply stat_ok_upd with f; auto. apply (i_stat _ _ I). symmetry. apply (W6 U3).
    + exists b, c. split; [auto|]. split; [auto|]. split; [auto|]. split; [discriminate|]. intros _. split; [auto|].
      exists (m_stat s), None. split; [|split; reflexivity]. exists [], body. change (f_size f') with (f_size f - h). split; auto. qlia.
  - destruct (Fd hs h eq_refl) as (body & En & Eh). pose proof (entity_size _ _ _ En) as Es. pose proof (zlen_pos _ body).
    destruct (store_all_ok hs h_new _ hinv_new) as (t' & E' & St & It). rewrite St. cbn [obind]. cbv zeta.
    set (f' := set_hdr (set_body f (Some (b, 0)) (Some (b, h)) h (f_size f - h)) h (Some (length (m_stat s)))).
    exists (put (with_stat s (m_stat s ++ [Some (1, t')])) i (Some f')), true, f, f'. cbn [track].
    change (f_hsize f') with h. rewrite Ht. split; [reflexivity|]. split; [auto|]. split; [apply IG|]. split.
    + unfold put, with_stat. cbn [m_heap m_stat m_frames m_next m_ctx]. apply inv_upd with f; auto; try qlia.
      * apply OW.
      * apply WF; qlia.
      * apply stat_ok_new with (m_frames s) E'; auto. apply (i_stat _ _ I). intro k.
        pose proof (cnt_upd (refs k) (m_frames s) i (Some f) (Some f') N) as U'. cbn [c1] in U'.
        unfold refs in U' at 2 4. rewrite (W6 U3) in U'. cbn [f' f_hdr set_hdr] in U'. destruct (Nat.eqb (length (m_stat s)) k); qlia.
    + exists b, c. split; [auto|]. split; [auto|]. split; [auto|]. split; [discriminate|]. intros _. split; [auto|].
      exists (m_stat s ++ [Some (1, t')]), (Some (length (m_stat s))). split; [|split; reflexivity].
      exists hs, body. change (f_size f') with (f_size f - h). split; auto. qlia.
  - contradiction.
Qed.
