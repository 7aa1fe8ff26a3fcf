(** Lemmas about the window arithmetic. *)
From Verif Require Import Base CodecModel CodecProofs FlowModel FlowSpec.

Lemma u32_range x : 0 <= u32 x < two32.
Proof. unfold u32. apply Z.mod_pos_bound. reflexivity. Qed.
Lemma s32_range x : - two31 <= s32 x < two31.
Proof. unfold s32. pose proof (Z.mod_pos_bound (x + two31) two32 eq_refl). unfold two31, two32 in *. lia. Qed.
Lemma u32_id x : 0 <= x < two32 -> u32 x = x.
Proof. apply Z.mod_small. Qed.
Lemma s32_id x : - two31 <= x < two31 -> s32 x = x.
Proof. intros H. unfold s32. rewrite Z.mod_small; unfold two31, two32 in *; lia. Qed.
Lemma u32_spec x : exists k, u32 x = x + k * two32.
Proof. exists (- (x / two32)). unfold u32. rewrite Z.mod_eq by (unfold two32; lia). lia. Qed.
Lemma s32_spec x : exists k, s32 x = x + k * two32.
Proof. destruct (u32_spec (x + two31)) as (k & H). exists k. unfold s32. fold (u32 (x + two31)). lia. Qed.

(** [u32]/[s32] from a representation. *)
Lemma u32_eq x y k : x = y + k * two32 -> 0 <= y < two32 -> u32 x = y.
Proof. intros -> H. unfold u32. rewrite Z_mod_plus_full. apply Z.mod_small, H. Qed.
Lemma s32_eq x y k : x = y + k * two32 -> - two31 <= y < two31 -> s32 x = y.
Proof.
  intros -> H. unfold s32. replace (y + k * two32 + two31) with (y + two31 + k * two32) by lia.
  rewrite Z_mod_plus_full, Z.mod_small; unfold two31, two32 in *; lia.
Qed.
Lemma u32_congr x y k : x = y + k * two32 -> u32 x = u32 y.
Proof. intros ->. apply Z_mod_plus_full. Qed.
Lemma s32_congr x y k : x = y + k * two32 -> s32 x = s32 y.
Proof.
  intros ->. unfold s32. replace (y + k * two32 + two31) with (y + two31 + k * two32) by lia.
  now rewrite Z_mod_plus_full.
Qed.

(** ** Sending side *)

(** [window_available] is the signed distance from the acknowledgement to the
    right edge. *)
Lemma window_available_eq s ack : 0 <= sw_rc s < two32 -> 0 <= ack < two32 ->
  window_available s ack = s32 (sw_rc s + sw_rw s - ack).
Proof.
  intros Hr Ha. unfold window_available. destruct (Z.leb_spec (sw_rc s) ack).
  - destruct (u32_spec (ack - sw_rc s)) as (k & E). rewrite E.
    destruct (u32_spec (sw_rw s - (ack - sw_rc s + k * two32))) as (k' & E'). rewrite E'.
    apply s32_congr with (k := k' - k). lia.
  - apply s32_congr with (k := -1). lia.
Qed.

(** The right edge [e] of the sending window, as an unbounded number. *)
Definition edge (s : swin) (e : Z) : Prop := exists k, e = sw_rc s + sw_rw s + k * two32.

Definition swin_ok (s : swin) : Prop :=
  0 <= sw_rc s < two32 /\ - two31 <= sw_rw s < two31 /\ 0 <= sw_next s < two32.

Lemma recv_seq_ok s ack win s' : swin_ok s -> 0 <= ack < two32 -> 0 <= win < two32 ->
  recv_seq s ack win = Some s' -> swin_ok s' /\ sw_next s' = sw_next s /\ sw_wsize s' = sw_wsize s /\
    sw_rc s' = ack.
Proof.
  unfold recv_seq, swin_ok. intros (H1 & H2 & H3) Ha Hw E.
  destruct ((0 <=? window_available s ack) && (window_available s ack <? win)); [|discriminate].
  inversion E; subst. cbn. pose proof (s32_range win). auto.
Qed.

Lemma recv_seq_edge s e ack win s' : swin_ok s -> 0 <= ack < two32 -> 0 <= win < two32 -> edge s e ->
  recv_seq s ack win = Some s' ->
  exists e', edge s' e' /\ e < e' < e + two32 /\ exists k, e' = ack + win + k * two32.
Proof.
  unfold recv_seq. intros (H1 & H2 & H3) Ha Hw (k & Ek) E.
  rewrite window_available_eq in E by assumption.
  destruct (s32_spec (sw_rc s + sw_rw s - ack)) as (k1 & E1).
  set (wa := s32 (sw_rc s + sw_rw s - ack)) in *.
  destruct (Z.leb_spec 0 wa); [|discriminate]. destruct (Z.ltb_spec wa win); [|discriminate].
  inversion E; subst s'. clear E. exists (e + win - wa).
  destruct (s32_spec win) as (k2 & E2).
  split; [|split].
  - exists (k - k1 - k2). cbn. lia.
  - lia.
  - exists (k - k1). lia.
Qed.

(** Acceptance, with unbounded numbers. *)
Lemma recv_seq_exact s e A W : swin_ok s -> edge s e -> 0 <= W < two31 ->
  - two31 <= e - A < two31 ->
  (recv_seq s (u32 A) W <> None <-> A <= e < A + W).
Proof.
  intros Hok (k & Ek) HW Hd. unfold recv_seq. destruct Hok as (H1 & H2 & H3).
  rewrite window_available_eq by (auto using u32_range).
  destruct (u32_spec A) as (kA & EA). rewrite EA.
  rewrite (s32_eq _ (e - A) (- k - kA)) by lia.
  destruct (Z.leb_spec 0 (e - A)); cbn [andb].
  - destruct (Z.ltb_spec (e - A) W); split; intros; try lia; try congruence.
  - split; intros; [congruence|lia].
Qed.

(** Available octets, for an edge read at some point and the current number of
    octets sent. *)
Lemma remote_available_eq next max : 0 <= next < two32 -> 0 <= max < two32 ->
  remote_available next max = s32 (max + 1 - next).
Proof.
  intros Hn Hm. unfold remote_available. destruct (Z.leb_spec next max).
  - destruct (u32_spec (max - next + 1)) as (k & E). rewrite E. apply s32_congr with (k := k). lia.
  - apply s32_congr with (k := 1). lia.
Qed.

Lemma remote_available_le s e n : swin_ok s -> edge s e -> u32 n = sw_next s -> n <= e ->
  remote_available (sw_next s) (max_remote s) <= e - n.
Proof.
  intros (H1 & H2 & H3) (k & Ek) En Hle. unfold max_remote.
  rewrite remote_available_eq by (auto using u32_range).
  destruct (u32_spec (sw_rc s + sw_rw s - 1)) as (k1 & E1). rewrite E1.
  destruct (u32_spec n) as (k2 & E2). rewrite <- En, E2.
  rewrite (s32_congr _ (e - n) (k1 - k2 - k)) by lia.
  pose proof (s32_range (e - n)). destruct (s32_spec (e - n)) as (k3 & E3).
  destruct (Z.lt_ge_cases (e - n) two31).
  - rewrite s32_id by (unfold two31 in *; lia). lia.
  - unfold two31 in *. lia.
Qed.

Lemma default_nfs_le wsize next msize max :
  default_nfs wsize next msize max <= remote_available next max /\
  default_nfs wsize next msize max <= wsize /\
  default_nfs wsize next msize max <= msize /\
  default_nfs wsize next msize max <= 4096.
Proof. unfold default_nfs. lia. Qed.

Lemma default_nfs_pos wsize next msize max :
  0 < wsize -> 0 < msize -> 0 < remote_available next max -> 0 < default_nfs wsize next msize max.
Proof. unfold default_nfs. lia. Qed.

(** A channel that is not stalled and whose peer has not granted more than
    2^31 octets can send. *)
Lemma not_stalled_available s e n : swin_ok s -> edge s e -> u32 n = sw_next s ->
  n <= e < n + two31 -> is_stalled s = false -> 0 < remote_available (sw_next s) (max_remote s).
Proof.
  intros (H1 & H2 & H3) (k & Ek) En Hle Hst. unfold max_remote.
  rewrite remote_available_eq by (auto using u32_range).
  destruct (u32_spec (sw_rc s + sw_rw s - 1)) as (k1 & E1). rewrite E1.
  destruct (u32_spec n) as (k2 & E2).
  rewrite (s32_eq _ (e - n) (k1 - k2 - k)); [|lia|unfold two31 in *; lia].
  unfold is_stalled in Hst. destruct (Z.eqb_spec (sw_next s) (u32 (sw_rc s + sw_rw s))); [discriminate|].
  assert (n <> e); [|lia]. intros ->. apply n0. rewrite <- En. apply u32_congr with (k := k). lia.
Qed.

Lemma stalled_iff s e n : swin_ok s -> edge s e -> u32 n = sw_next s -> n <= e < n + two32 ->
  (is_stalled s = true <-> n = e).
Proof.
  intros (H1 & H2 & H3) (k & Ek) En Hle. unfold is_stalled.
  rewrite Z.eqb_eq. rewrite <- En. rewrite (u32_congr (sw_rc s + sw_rw s) e (- k)) by lia.
  split; [|congruence]. intros E.
  destruct (u32_spec n) as (k1 & E1). destruct (u32_spec e) as (k2 & E2). unfold two32 in *. lia.
Qed.

(** ** Receiving side *)

(** [C], [X]: octets acknowledged by the last SEQ and octets received, as
    unbounded numbers. *)
Definition rwin_at (r : rwin) (C X : Z) : Prop :=
  rw_consumed r = u32 C /\ rw_expected r = u32 X /\
  C <= X <= C + rw_window r /\ 0 < rw_window r < two31 /\
  0 < rw_wsize r < two31 /\ 0 < rw_desired r < two31.

Lemma check_exact r C X size : rwin_at r C X -> 0 <= size < two31 ->
  check_incoming_seqno (rw_consumed r, rw_window r) (u32 X) size = (X + size <=? C + rw_window r).
Proof.
  intros (Hc & Hx & HX & Hw & _) Hs. unfold check_incoming_seqno.
  destruct (u32_spec C) as (kc & Ec). destruct (u32_spec X) as (kx & Ex).
  rewrite Hc. pose proof (u32_range C). pose proof (u32_range X).
  destruct (Z.leb_spec (u32 C) (u32 X)).
  - rewrite (u32_eq _ (X - C + size) 0); [|unfold two31, two32 in *; lia|unfold two31, two32 in *; lia].
    destruct (Z.leb_spec (X - C + size) (rw_window r)); destruct (Z.leb_spec (X + size) (C + rw_window r)); lia.
  - replace (two32 - u32 C + u32 X + size) with (X - C + size) by (unfold two31, two32 in *; lia).
    destruct (Z.leb_spec (X - C + size) (rw_window r)); destruct (Z.leb_spec (X + size) (C + rw_window r)); lia.
Qed.

Lemma incoming_available_eq r C X size : rwin_at r C X -> 0 <= size -> X + size <= C + rw_window r ->
  incoming_available r (u32 X) size = C + rw_window r - (X + size).
Proof.
  intros (Hc & Hx & HX & Hw & _) Hs Hle. unfold incoming_available. rewrite Hc.
  destruct (u32_spec C) as (kc & Ec). destruct (u32_spec X) as (kx & Ex).
  pose proof (u32_range C). pose proof (u32_range X).
  destruct (Z.ltb_spec (u32 X) (u32 C)).
  - apply s32_eq with (k := 0); unfold two31, two32 in *; lia.
  - destruct (u32_spec (u32 X - u32 C)) as (k1 & E1). rewrite E1.
    destruct (u32_spec (rw_window r - (u32 X - u32 C + k1 * two32) - size)) as (k2 & E2). rewrite E2.
    apply s32_eq with (k := k2 - k1 + kc - kx); unfold two31, two32 in *; lia.
Qed.


(** The whole effect of a frame that arrives in sequence. *)
Lemma recv_data_in_order r C X off size : rwin_at r C X -> 0 <= size < two31 ->
  recv_data r off (u32 X) size =
    if X + size <=? C + rw_window r then
      if off || (rw_window r / 2 <? C + rw_window r - (X + size)) ||
         (negb (rw_wsize r =? rw_desired r) && (u32 (X + size + rw_desired r - 1) <? u32 (C + rw_window r - 1)))
      then (mkRW (rw_consumed r) (rw_window r) (rw_wsize r) (rw_desired r) (u32 (X + size)), None, true)
      else (mkRW (u32 (X + size)) (rw_desired r) (rw_desired r) (rw_desired r) (u32 (X + size)),
            Some (u32 (X + size), rw_desired r), true)
    else (r, None, false).
Proof.
  intros Hat Hs. unfold recv_data. rewrite (check_exact r C X) by assumption.
  destruct (Z.leb_spec (X + size) (C + rw_window r)); [|reflexivity].
  unfold update_incoming. rewrite (incoming_available_eq r C X) by (tauto || lia).
  destruct Hat as (Hc & Hx & HX & Hw & Hws & Hd).
  destruct (u32_spec X) as (kx & Ex). destruct (u32_spec C) as (kc & Ec).
  assert (E1 : u32 (u32 X + size) = u32 (X + size)) by (apply u32_congr with (k := kx); lia).
  assert (E2 : (u32 X + size) mod two32 = u32 (X + size)) by exact E1.
  rewrite (u32_id (C + rw_window r - (X + size))) by (unfold two31, two32 in *; lia).
  rewrite E1.
  assert (E3 : u32 (u32 (X + size) + rw_desired r - 1) = u32 (X + size + rw_desired r - 1)).
  { destruct (u32_spec (X + size)) as (k & E). apply u32_congr with (k := k). lia. }
  assert (E4 : max_accepted r = u32 (C + rw_window r - 1)).
  { unfold max_accepted. rewrite Hc. apply u32_congr with (k := kc). lia. }
  rewrite E3, E4.
  destruct off; cbn [orb]. { rewrite Hx, Z.eqb_refl, E2. reflexivity. }
  destruct (rw_window r / 2 <? C + rw_window r - (X + size)); cbn [orb].
  { rewrite Hx, Z.eqb_refl, E2. reflexivity. }
  destruct (Z.eqb_spec (rw_wsize r) (rw_desired r)) as [e|e]; cbn [negb andb].
  { cbn [rw_expected rw_consumed rw_window rw_wsize rw_desired].
    rewrite Hx, Z.eqb_refl, E2, e. rewrite (u32_id (rw_desired r)) by (unfold two31, two32 in *; lia). reflexivity. }
  destruct (u32 (X + size + rw_desired r - 1) <? u32 (C + rw_window r - 1)).
  { rewrite Hx, Z.eqb_refl, E2. reflexivity. }
  cbn [rw_expected rw_consumed rw_window rw_wsize rw_desired].
  rewrite Hx, Z.eqb_refl, E2. rewrite (u32_id (rw_desired r)) by (unfold two31, two32 in *; lia). reflexivity.
Qed.

Lemma update_incoming_expected r off seqno csize : rw_expected (fst (update_incoming r off seqno csize)) = rw_expected r.
Proof.
  unfold update_incoming.
  repeat match goal with |- context[if ?b then _ else _] => destruct b end; reflexivity.
Qed.

Lemma recv_data_out_of_order r off seqno csize : seqno <> rw_expected r ->
  snd (recv_data r off seqno csize) = false.
Proof.
  intros H. unfold recv_data. destruct (check_incoming_seqno _ _ _); [|reflexivity].
  pose proof (update_incoming_expected r off seqno csize) as E.
  destruct (update_incoming r off seqno csize) as (r1 & seq). cbn in E. rewrite E.
  destruct (Z.eqb_spec (rw_expected r) seqno); [congruence|reflexivity].
Qed.

Lemma rwin_at_none r C X size : rwin_at r C X -> 0 <= size -> X + size <= C + rw_window r ->
  rwin_at (mkRW (rw_consumed r) (rw_window r) (rw_wsize r) (rw_desired r) (u32 (X + size))) C (X + size).
Proof. intros (Hc & Hx & HX & Hw & Hws & Hd) Hs Hle. unfold rwin_at; cbn. repeat split; auto; lia. Qed.
Lemma rwin_at_seq X d : 0 < d < two31 -> rwin_at (mkRW (u32 X) d d d (u32 X)) X X.
Proof. intros H. unfold rwin_at; cbn. repeat split; auto; lia. Qed.

(** ** The receiver machine *)

Lemma rstep_frame_up st off seqno csize C : rr_up st = true -> rwin_at (rr_win st) C (rr_total st) ->
  0 <= seqno < two32 -> 0 <= csize < two31 ->
  rr_up (rstep st (RFrame off seqno csize)) = true ->
  let r := rr_win st in let X' := rr_total st + csize in
  seqno = u32 (rr_total st) /\ X' <= C + rw_window r /\
  ((rstep st (RFrame off seqno csize) =
      mkRR (mkRW (rw_consumed r) (rw_window r) (rw_wsize r) (rw_desired r) (u32 X')) (rr_log st) X' true /\
    (off = true \/ rw_window r / 2 < C + rw_window r - X' \/
     (rw_wsize r <> rw_desired r /\ u32 (X' + rw_desired r - 1) < u32 (C + rw_window r - 1)))) \/
   (rstep st (RFrame off seqno csize) =
      mkRR (mkRW (u32 X') (rw_desired r) (rw_desired r) (rw_desired r) (u32 X'))
           (rr_log st ++ [(X', (u32 X', rw_desired r))]) X' true /\
    C + rw_window r - X' <= rw_window r / 2 /\
    (rw_wsize r = rw_desired r \/ u32 (C + rw_window r - 1) <= u32 (X' + rw_desired r - 1)))).
Proof.
  intros Hup Hat Hq Hs Hup'. cbv zeta.
  unfold rstep in *. rewrite Hup in *.
  assert (Eq : seqno = u32 (rr_total st)).
  { destruct (Z.eq_dec seqno (rw_expected (rr_win st))) as [e|n].
    - rewrite e. apply Hat.
    - apply (recv_data_out_of_order (rr_win st) off seqno csize) in n.
      destruct (recv_data (rr_win st) off seqno csize) as ((r1 & s1) & u1). cbn in n, Hup'. congruence. }
  subst seqno. split; [reflexivity|].
  rewrite (recv_data_in_order _ C (rr_total st) off csize Hat Hs) in *.
  destruct (Z.leb_spec (rr_total st + csize) (C + rw_window (rr_win st))); [|discriminate].
  split; [assumption|].
  destruct off; cbn [orb] in *. { left. split; [reflexivity|auto]. }
  destruct (Z.ltb_spec (rw_window (rr_win st) / 2) (C + rw_window (rr_win st) - (rr_total st + csize))); cbn [orb] in *.
  { left. split; [reflexivity|auto]. }
  destruct (Z.eqb_spec (rw_wsize (rr_win st)) (rw_desired (rr_win st))) as [e|e]; cbn [negb andb] in *.
  { right. split; [reflexivity|auto]. }
  destruct (Z.ltb_spec (u32 (rr_total st + csize + rw_desired (rr_win st) - 1)) (u32 (C + rw_window (rr_win st) - 1))).
  - left. split; [reflexivity|]. auto.
  - right. split; [reflexivity|]. auto.
Qed.

Lemma set_window_at r C X d : rwin_at r C X -> - two31 <= d < two31 -> rwin_at (set_window r d) C X.
Proof.
  intros H Hd. unfold set_window. destruct (Z.ltb_spec 0 d); [|assumption].
  unfold rwin_at in *; cbn. tauto || (destruct H as (? & ? & ? & ? & ? & ?); repeat split; try tauto; lia).
Qed.

Lemma rrun_snoc es e : rrun (es ++ [e]) = rstep (rrun es) e.
Proof. unfold rrun. rewrite fold_left_app. reflexivity. Qed.

Lemma rstep_up st e : rr_up (rstep st e) = true -> rr_up st = true.
Proof. unfold rstep. destruct (rr_up st) eqn:E; [auto|congruence]. Qed.

(** Totals and the last grant. *)
Definition rinv (st : rrun_st) (C : Z) : Prop :=
  rwin_at (rr_win st) C (rr_total st) /\ granted (rr_log st) = C + rw_window (rr_win st) /\
  0 <= C /\ Forall (fun x => fst (snd x) = u32 (fst x) /\ 0 < snd (snd x) < two31 /\ 0 <= fst x <= rr_total st) (rr_log st).

Lemma granted_snoc log x : granted (log ++ [x]) = fst x + snd (snd x).
Proof. unfold granted, grants. rewrite map_app. cbn [map]. apply last_last. Qed.

Lemma rinv_run es : Forall rxev_ok es -> rr_up (rrun es) = true -> exists C, rinv (rrun es) C.
Proof.
  induction es as [|e es IH] using rev_ind; intros Hok Hup.
  - exists 0. split; [|split; [|split]]; cbn; try constructor; try lia; unfold rwin_at; cbn; unfold two31; repeat split; try lia; reflexivity.
  - apply Forall_app in Hok. destruct Hok as (Hok & He). inversion He as [|? ? He' _]; subst.
    rewrite rrun_snoc in *. pose proof (rstep_up _ _ Hup) as Hup0.
    destruct (IH Hok Hup0) as (C & Hat & Hg & HC & Hlog).
    destruct e as [off seqno csize | d].
    + destruct He' as (Hq & Hs).
      destruct (rstep_frame_up _ off seqno csize C Hup0 Hat Hq Hs Hup) as (-> & Hle & [(E & _)|(E & _)]); rewrite E.
      * exists C. split; [|split; [|split]]; cbn [rr_win rr_log rr_total rw_window]; auto.
        { apply rwin_at_none; auto; lia. }
        { eapply Forall_impl; [|exact Hlog]. cbn. intros; lia. }
      * exists (rr_total (rrun es) + csize). destruct Hat as (A1 & A2 & A3 & A4 & A5 & A6).
        split; [|split; [|split]]; cbn [rr_win rr_log rr_total rw_window].
        { apply rwin_at_seq. auto. }
        { rewrite granted_snoc. reflexivity. }
        { lia. }
        { apply Forall_app. split.
          - eapply Forall_impl; [|exact Hlog]. cbn. intros; lia.
          - constructor; [|constructor]. cbn. repeat split; lia. }
    + exists C. unfold rstep. rewrite Hup0. cbn [rr_win rr_log rr_total].
      split; [|split; [|split]]; cbn [rr_win rr_log rr_total]; auto.
      * apply set_window_at; [assumption|]. exact He'.
      * rewrite Hg. unfold set_window. destruct (0 <? d); reflexivity.
Qed.

(** Increasing lists grow at the end. *)
Lemma last_indep {A} (a : A) l x z : last (a :: l) x = last (a :: l) z.
Proof. revert a. induction l as [|b l IH]; intros a; [reflexivity|]. exact (IH b). Qed.
Lemma increasing_snoc x l y : increasing (x :: l) -> last l x < y -> increasing (x :: l ++ [y]).
Proof.
  revert x. induction l as [|z l IH]; intros x H Hlt.
  - cbn in *. auto.
  - destruct H as (H1 & H2). split; [exact H1|]. apply IH; [exact H2|].
    destruct l as [|a l]; [exact Hlt|]. change (last (z :: a :: l) x) with (last (a :: l) x) in Hlt.
    rewrite (last_indep a l z x). exact Hlt.
Qed.
Lemma non_decreasing_snoc x l y : non_decreasing (x :: l) -> last l x <= y -> non_decreasing (x :: l ++ [y]).
Proof.
  revert x. induction l as [|z l IH]; intros x H Hlt.
  - cbn in *. auto.
  - destruct H as (H1 & H2). split; [exact H1|]. apply IH; [exact H2|].
    destruct l as [|a l]; [exact Hlt|]. change (last (z :: a :: l) x) with (last (a :: l) x) in Hlt.
    rewrite (last_indep a l z x). exact Hlt.
Qed.
Lemma last_grants log : last (grants log) 4096 = granted log.
Proof. reflexivity. Qed.

(** C12 *)
Lemma rrun_wsize es : Forall rxev_ok es -> no_resize es -> rr_up (rrun es) = true ->
  rw_wsize (rr_win (rrun es)) = 4096 /\ rw_desired (rr_win (rrun es)) = 4096 /\ rw_window (rr_win (rrun es)) = 4096.
Proof.
  induction es as [|e es IH] using rev_ind; intros Hok Hno Hup.
  - cbn. auto.
  - apply Forall_app in Hok. destruct Hok as (Hok & He). inversion He as [|? ? He' _]; subst.
    apply Forall_app in Hno. destruct Hno as (Hno & Hn). inversion Hn as [|? ? Hn' _]; subst.
    rewrite rrun_snoc in *. pose proof (rstep_up _ _ Hup) as Hup0.
    destruct (IH Hok Hno Hup0) as (A & B & D). destruct (rinv_run es Hok Hup0) as (C & Hat & _).
    destruct e as [off seqno csize|d]; [|contradiction]. destruct He' as (Hq & Hs).
    destruct (rstep_frame_up _ off seqno csize C Hup0 Hat Hq Hs Hup) as (-> & Hle & [(E & _)|(E & _)]);
      rewrite E; cbn; auto.
Qed.

Theorem advertised_windows_grow es : Forall rxev_ok es -> no_resize es -> rr_up (rrun es) = true ->
  Forall (fun x => fst (snd x) = fst x mod 4294967296 /\ 0 <= fst x <= rr_total (rrun es)) (rr_log (rrun es)) /\
  increasing (4096 :: grants (rr_log (rrun es))).
Proof.
  intros Hok Hno Hup. split.
  { destruct (rinv_run es Hok Hup) as (C & _ & _ & _ & H). eapply Forall_impl; [|exact H].
    cbn. intros x (A & B & D). split; [exact A|exact D]. }
  revert Hok Hno Hup. induction es as [|e es IH] using rev_ind; intros Hok Hno Hup; [cbn; auto|].
  apply Forall_app in Hok. destruct Hok as (Hok & He). inversion He as [|? ? He' _]; subst.
  apply Forall_app in Hno. destruct Hno as (Hno & Hn). inversion Hn as [|? ? Hn' _]; subst.
  rewrite rrun_snoc in *. pose proof (rstep_up _ _ Hup) as Hup0.
  specialize (IH Hok Hno Hup0). destruct (rrun_wsize es Hok Hno Hup0) as (A & B & D).
  destruct (rinv_run es Hok Hup0) as (C & Hat & Hg & _).
  destruct e as [off seqno csize|d]; [|contradiction]. destruct He' as (Hq & Hs).
  destruct (rstep_frame_up _ off seqno csize C Hup0 Hat Hq Hs Hup) as (-> & Hle & [(E & _)|(E & Hhalf & _)]);
    rewrite E; cbn [rr_log]; [assumption|].
  unfold grants. rewrite map_app. cbn [map]. apply increasing_snoc; [exact IH|].
  fold (grants (rr_log (rrun es))). rewrite last_grants, Hg. cbn. rewrite B, D in *.
  change (4096 / 2) with 2048 in Hhalf. lia.
Qed.

(** C14 *)
Lemma bounded_windows hi es : 4096 <= hi -> Forall rxev_ok es -> resize_below hi es -> rr_up (rrun es) = true ->
  let r := rr_win (rrun es) in rw_wsize r <= hi /\ rw_desired r <= hi /\ rw_window r <= hi.
Proof.
  intros Hhi. induction es as [|e es IH] using rev_ind; intros Hok Hb Hup.
  - cbn. lia.
  - apply Forall_app in Hok. destruct Hok as (Hok & He). inversion He as [|? ? He' _]; subst.
    apply Forall_app in Hb. destruct Hb as (Hb & Hn). inversion Hn as [|? ? Hn' _]; subst.
    rewrite rrun_snoc in *. pose proof (rstep_up _ _ Hup) as Hup0.
    destruct (IH Hok Hb Hup0) as (A & B & D). destruct (rinv_run es Hok Hup0) as (C & Hat & _).
    destruct e as [off seqno csize|d].
    + destruct He' as (Hq & Hs).
      destruct (rstep_frame_up _ off seqno csize C Hup0 Hat Hq Hs Hup) as (-> & Hle & [(E & _)|(E & _)]);
        rewrite E; cbn; auto.
    + unfold rstep. rewrite Hup0. cbn [rr_win]. unfold set_window. destruct (0 <? d); cbn; auto.
Qed.

Lemma window_is_wsize es : Forall rxev_ok es -> rr_up (rrun es) = true ->
  rw_window (rr_win (rrun es)) = rw_wsize (rr_win (rrun es)).
Proof.
  induction es as [|e es IH] using rev_ind; intros Hok Hup; [reflexivity|].
  apply Forall_app in Hok. destruct Hok as (Hok & He). inversion He as [|? ? He' _]; subst.
  rewrite rrun_snoc in *. pose proof (rstep_up _ _ Hup) as Hup0.
  specialize (IH Hok Hup0). destruct (rinv_run es Hok Hup0) as (C & Hat & _).
  destruct e as [off seqno csize|d].
  - destruct He' as (Hq & Hs).
    destruct (rstep_frame_up _ off seqno csize C Hup0 Hat Hq Hs Hup) as (-> & Hle & [(E & _)|(E & _)]);
      rewrite E; cbn; auto.
  - unfold rstep. rewrite Hup0. cbn [rr_win]. unfold set_window. destruct (0 <? d); cbn; auto.
Qed.

Theorem resize_safe_far_from_wrap hi es : 4096 <= hi -> Forall rxev_ok es -> resize_below hi es ->
  rr_up (rrun es) = true -> rr_total (rrun es) + hi <= two32 ->
  non_decreasing (4096 :: grants (rr_log (rrun es))) /\
  (seq_on es -> rr_total (rrun es) < granted (rr_log (rrun es))).
Proof.
  intros Hhi. induction es as [|e es IH] using rev_ind; intros Hok Hb Hup Hfar.
  - cbn. split; [auto|]. intros. lia.
  - apply Forall_app in Hok. destruct Hok as (Hok & He). inversion He as [|? ? He' _]; subst.
    apply Forall_app in Hb. destruct Hb as (Hb & Hn). inversion Hn as [|? ? Hn' _]; subst.
    rewrite rrun_snoc in *. pose proof (rstep_up _ _ Hup) as Hup0.
    destruct (bounded_windows hi es Hhi Hok Hb Hup0) as (A & B & D).
    destruct (rinv_run es Hok Hup0) as (C & Hat & Hg & HC & _).
    destruct e as [off seqno csize|d].
    + destruct He' as (Hq & Hs).
      destruct (rstep_frame_up _ off seqno csize C Hup0 Hat Hq Hs Hup) as (-> & Hle & Hcase).
      assert (Hfar0 : rr_total (rrun es) + hi <= two32).
      { destruct Hcase as [(E & _)|(E & _)]; rewrite E in Hfar; cbn [rr_total] in Hfar; lia. }
      destruct (IH Hok Hb Hup0 Hfar0) as (IH1 & IH2).
      destruct Hat as (A1 & A2 & A3 & A4 & A5 & A6).
      destruct Hcase as [(E & Hwhy)|(E & Hhalf & Hwhy)]; rewrite E in *; cbn [rr_log rr_total] in *.
      * split; [assumption|]. intros Hon. apply Forall_app in Hon. destruct Hon as (Hon & Ho).
        inversion Ho as [|? ? Ho' _]; subst. rewrite Hg.
        destruct Hwhy as [F|[F|(Fne & F)]]; [discriminate| |].
        { pose proof (Z.div_pos (rw_window (rr_win (rrun es))) 2). lia. }
        { rewrite !u32_id in F by (unfold two32 in *; lia). lia. }
      * split.
        { unfold grants. rewrite map_app. cbn [map]. apply non_decreasing_snoc; [exact IH1|].
          fold (grants (rr_log (rrun es))). rewrite last_grants, Hg. cbn.
          assert (Hh : rw_window (rr_win (rrun es)) / 2 < rw_window (rr_win (rrun es))) by (apply Z.div_lt; lia).
          destruct Hwhy as [F|F].
          - pose proof (window_is_wsize es Hok Hup0). lia.
          - rewrite !u32_id in F by (unfold two32 in *; lia). lia. }
        { intros _. rewrite granted_snoc. cbn. lia. }
    + unfold rstep in *. rewrite Hup0 in Hfar |- *. cbn [rr_log rr_total] in *.
      destruct (IH Hok Hb Hup0 Hfar) as (IH1 & IH2). split; [assumption|].
      intros Hon. apply Forall_app in Hon. apply IH2, Hon.
Qed.

(** With requests that never make the window smaller every SEQ frame grants
    new octets, wherever the channel is. *)
Lemma requests_snoc es e : requests (es ++ [e]) = requests es ++ match e with RSetWindow d => [d] | _ => [] end.
Proof. unfold requests. rewrite flat_map_app. cbn. rewrite app_nil_r. reflexivity. Qed.

Lemma non_decreasing_prefix x l y : non_decreasing (x :: l ++ [y]) -> non_decreasing (x :: l) /\ last l x <= y.
Proof.
  revert x. induction l as [|z l IH]; intros x H.
  - cbn in *. tauto.
  - destruct H as (H1 & H2). destruct (IH z H2) as (A & B). split; [split; [exact H1|exact A]|].
    destruct l as [|a l]; [exact B|]. change (last (z :: a :: l) x) with (last (a :: l) x).
    rewrite (last_indep a l x z). exact B.
Qed.

Lemma grow_inv es : Forall rxev_ok es -> non_decreasing (4096 :: requests es) -> rr_up (rrun es) = true ->
  let r := rr_win (rrun es) in rw_wsize r <= rw_desired r /\ rw_desired r = last (requests es) 4096 /\
  4096 <= last (requests es) 4096.
Proof.
  induction es as [|e es IH] using rev_ind; intros Hok Hr Hup; [cbn; lia|].
  apply Forall_app in Hok. destruct Hok as (Hok & He). inversion He as [|? ? He' _]; subst.
  rewrite rrun_snoc in *. pose proof (rstep_up _ _ Hup) as Hup0. rewrite requests_snoc in *.
  destruct (rinv_run es Hok Hup0) as (C & Hat & _).
  destruct e as [off seqno csize|d].
  - rewrite app_nil_r in *. destruct (IH Hok Hr Hup0) as (A & B & D). destruct He' as (Hq & Hs).
    destruct (rstep_frame_up _ off seqno csize C Hup0 Hat Hq Hs Hup) as (-> & Hle & [(E & _)|(E & _)]);
      rewrite E; cbn; try lia.
  - destruct (non_decreasing_prefix _ _ _ Hr) as (Hr0 & Hlast).
    destruct (IH Hok Hr0 Hup0) as (A & B & D).
    unfold rstep. rewrite Hup0. cbn [rr_win]. unfold set_window.
    destruct (Z.ltb_spec 0 d); cbn [rw_wsize rw_desired]; rewrite last_last; lia.
Qed.

Theorem resize_grow es : Forall rxev_ok es -> non_decreasing (4096 :: requests es) -> rr_up (rrun es) = true ->
  increasing (4096 :: grants (rr_log (rrun es))).
Proof.
  induction es as [|e es IH] using rev_ind; intros Hok Hr Hup; [cbn; auto|].
  apply Forall_app in Hok. destruct Hok as (Hok & He). inversion He as [|? ? He' _]; subst.
  rewrite rrun_snoc in *. pose proof (rstep_up _ _ Hup) as Hup0. rewrite requests_snoc in *.
  destruct (rinv_run es Hok Hup0) as (C & Hat & Hg & HC & _).
  pose proof (window_is_wsize es Hok Hup0) as Hww.
  destruct e as [off seqno csize|d].
  - rewrite app_nil_r in *. destruct (grow_inv es Hok Hr Hup0) as (A & B & D). destruct He' as (Hq & Hs).
    specialize (IH Hok Hr Hup0). destruct Hat as (A1 & A2 & A3 & A4 & A5 & A6).
    destruct (rstep_frame_up _ off seqno csize C Hup0 ltac:(repeat split; auto; lia) Hq Hs Hup)
      as (-> & Hle & [(E & _)|(E & Hhalf & _)]); rewrite E; cbn [rr_log]; [assumption|].
    unfold grants. rewrite map_app. cbn [map]. apply increasing_snoc; [exact IH|].
    fold (grants (rr_log (rrun es))). rewrite last_grants, Hg. cbn.
    assert (Hh : rw_window (rr_win (rrun es)) / 2 < rw_window (rr_win (rrun es))) by (apply Z.div_lt; lia).
    lia.
  - destruct (non_decreasing_prefix _ _ _ Hr) as (Hr0 & Hlast).
    unfold rstep. rewrite Hup0. cbn [rr_log]. apply IH; auto.
Qed.

(** ** Statements with the vocabulary of the specification *)
Lemma right_edge_edge s e : right_edge s e <-> edge s e.
Proof.
  unfold right_edge, edge. change 4294967296 with two32. split.
  - intros H. apply Z.mod_divide in H; [|unfold two32; lia]. destruct H as (k & H). exists k. lia.
  - intros (k & ->). replace (sw_rc s + sw_rw s + k * two32 - (sw_rc s + sw_rw s)) with (k * two32) by lia.
    apply Z_mod_mult.
Qed.
Lemma sane_ok s : sane s <-> swin_ok s.
Proof. unfold sane, swin_ok, two31, two32. tauto. Qed.

Theorem window_only_grows s e ack win : sane s -> right_edge s e -> 0 <= ack < 4294967296 -> 0 <= win < 4294967296 ->
  match recv_seq s ack win with
  | Some s' => sane s' /\ sw_next s' = sw_next s /\
      exists e', right_edge s' e' /\ e < e' < e + 4294967296 /\ e' mod 4294967296 = (ack + win) mod 4294967296
  | None => True
  end.
Proof.
  intros Hs He Ha Hw. apply sane_ok in Hs. apply right_edge_edge in He.
  destruct (recv_seq s ack win) as [s'|] eqn:E; [|exact I].
  destruct (recv_seq_ok s ack win s' Hs Ha Hw E) as (A & B & _).
  destruct (recv_seq_edge s e ack win s' Hs Ha Hw He E) as (e' & H1 & H2 & k & H3).
  split; [apply sane_ok; exact A|]. split; [exact B|]. exists e'. split; [apply right_edge_edge; exact H1|].
  split; [exact H2|]. rewrite H3. apply Z_mod_plus_full.
Qed.

Theorem seq_acceptance s e A W : sane s -> right_edge s e -> 0 <= W < 2147483648 ->
  -2147483648 <= e - A < 2147483648 ->
  (recv_seq s (A mod 4294967296) W <> None <-> A <= e < A + W).
Proof.
  intros Hs He. apply sane_ok in Hs. apply right_edge_edge in He. apply recv_seq_exact; assumption.
Qed.

Theorem receive_check_exact es size : Forall rxev_ok es -> rr_up (rrun es) = true -> 0 <= size < 2147483648 ->
  let r := rr_win (rrun es) in let X := rr_total (rrun es) in
  check_incoming_seqno (rw_consumed r, rw_window r) (X mod 4294967296) size
  = (X + size <=? granted (rr_log (rrun es))).
Proof.
  intros Hok Hup Hs. cbv zeta. destruct (rinv_run es Hok Hup) as (C & Hat & Hg & _).
  rewrite Hg. apply (check_exact _ C _ size Hat Hs).
Qed.
