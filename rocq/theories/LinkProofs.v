(** Lemmas about both ends of a channel. *)
From Verif Require Import Base CodecModel CodecProofs FlowModel FlowSpec FlowProofs LinkModel.

Ltac conj := repeat match goal with |- _ /\ _ => split end; auto; try lia.

Definition dsum (q : list (Z * Z)) : Z := fold_right (fun x acc => snd x + acc) 0 q.

Lemma dsum_cons s k q : dsum ((s, k) :: q) = k + dsum q.
Proof. reflexivity. Qed.

(** Frames in transit: consecutive numbers from [x] on. *)
Fixpoint transit (x : Z) (q : list (Z * Z)) : Prop :=
  match q with
  | [] => True
  | (seqno, size) :: q' => seqno = u32 x /\ 0 <= size <= 4096 /\ transit (x + size) q'
  end.

(** SEQ frames in transit: each grants more than the ones before; [e] is the
    last edge the sender knows, [lim] the octets received when the SEQ frame was
    sent are not more than [X], and the last one leads to the edge [C + 4096]. *)
Fixpoint acks (e X final : Z) (q : list (Z * Z)) : Prop :=
  match q with
  | [] => e = final
  | (a, w) :: q' => w = 4096 /\ exists A, a = u32 A /\ A <= X /\ 0 <= A /\ A <= e < A + 4096 /\ acks (A + 4096) X final q'
  end.

Lemma acks_mono q : forall e X X' final, X <= X' -> acks e X final q -> acks e X' final q.
Proof.
  induction q as [|(a & w) q IH]; intros e X X' final Hle H; [exact H|].
  destruct H as (Hw & A & Ha & HA & H0 & He & Hr). split; [exact Hw|].
  exists A. repeat split; auto; try lia. eapply IH; eauto.
Qed.

Lemma acks_snoc q : forall e X final A, acks e X final q -> 0 <= A <= X -> A <= final < A + 4096 ->
  acks e X (A + 4096) (q ++ [(u32 A, 4096)]).
Proof.
  induction q as [|(a & w) q IH]; intros e X final A H HA Hf; cbn [app].
  - cbn in H. subst. cbn. split; [reflexivity|]. exists A. repeat split; try lia.
  - destruct H as (Hw & B & Ha & HB & H0 & He & Hr). split; [exact Hw|]. exists B.
    repeat split; auto; try lia. eapply IH; eauto.
Qed.

Lemma acks_le q : forall e X final, acks e X final q -> e <= final.
Proof.
  induction q as [|(a & w) q IH]; intros e X final H; [cbn in H; lia|].
  destruct H as (Hw & B & Ha & HB & H0 & He & Hr). apply IH in Hr. lia.
Qed.

Lemma transit_app q : forall x n size, transit x q -> x + dsum q = n -> 0 <= size <= 4096 ->
  transit x (q ++ [(u32 n, size)]).
Proof.
  induction q as [|(s & k) q IH]; intros x n size H Hs Hb.
  - cbn in *. replace n with x by lia. auto.
  - rewrite dsum_cons in Hs. cbn [app transit] in *. destruct H as (H1 & H2 & H3).
    split; [exact H1|]. split; [exact H2|]. apply IH; auto; lia.
Qed.
Lemma dsum_app q s k : dsum (q ++ [(s, k)]) = dsum q + k.
Proof. induction q as [|(a & b) q IH]; [cbn; lia|]. cbn [app]. rewrite !dsum_cons, IH. lia. Qed.
Lemma dsum_nonneg q : forall x, transit x q -> 0 <= dsum q.
Proof. induction q as [|(a & b) q IH]; intros x H; [cbn; lia|]. destruct H as (_ & H & H'). apply IH in H'. rewrite dsum_cons. lia. Qed.

(** The invariant: [C] octets acknowledged at the receiver, [e] edge known to
    the sender. *)
Definition linv (l : link) (C e : Z) : Prop :=
  l_up l = true /\ 0 <= C /\
  swin_ok (l_s l) /\ edge (l_s l) e /\ sw_next (l_s l) = u32 (l_sent l) /\ 0 < sw_wsize (l_s l) < two31 /\
  l_sent l <= e /\ 
  l_sent l = l_recv l + dsum (l_data l) /\ transit (l_recv l) (l_data l) /\
  rwin_at (l_r l) C (l_recv l) /\ rw_window (l_r l) = 4096 /\ rw_wsize (l_r l) = 4096 /\ rw_desired (l_r l) = 4096 /\
  2048 < C + 4096 - l_recv l /\
  acks e (l_recv l) (C + 4096) (l_seqs l).

Lemma linv0 : linv link0 0 4096.
Proof.
  assert (Hat : rwin_at rwin0 0 0) by (unfold rwin_at; cbn; unfold two31; repeat split; try lia; reflexivity).
  unfold linv, link0, swin_ok; cbn [l_up l_s l_sent l_recv l_data l_r l_seqs].
  split; [reflexivity|]. split; [lia|]. split; [cbn; unfold two31, two32; lia|].
  split; [exists 0; reflexivity|]. split; [reflexivity|]. split; [cbn; unfold two31; lia|].
  split; [lia|]. split; [reflexivity|]. split; [exact I|]. split; [exact Hat|]. cbn. repeat split; lia.
Qed.

Definition lev_ok (e : lev) : Prop :=
  match e with LSend m => 0 < m < two31 | LWin w => 0 < w < two31 | _ => True end.

Lemma advance_ok s size : swin_ok s -> swin_ok (advance s size).
Proof. intros (A & B & D). unfold swin_ok, advance; cbn [sw_next sw_rc sw_rw].
  split; [exact A|]. split; [exact B|]. apply Z.mod_pos_bound; reflexivity. Qed.
Lemma advance_edge s size e : edge s e -> edge (advance s size) e.
Proof. intros H. exact H. Qed.
Lemma advance_next s size n : sw_next s = u32 n -> sw_next (advance s size) = u32 (n + size).
Proof.
  intros H. unfold advance; cbn. rewrite H. destruct (u32_spec n) as (k & E). rewrite E.
  change ((n + k * two32 + size) mod two32) with (u32 (n + k * two32 + size)). apply u32_congr with (k := k). lia.
Qed.

Lemma lsend_inv l C e size : linv l C e -> 0 <= size <= 4096 -> l_sent l + size <= e ->
  linv (lsend l size) C e.
Proof.
  intros (Hup & HC & Hok & He & Hn & Hw & Hle & Hsum & Htr & Hat & W1 & W2 & W3 & Hhalf & Hacks) Hs Hfit.
  unfold linv, lsend; cbn [l_up l_s l_data l_r l_seqs l_sent l_recv]. split; [reflexivity|]. split; [exact HC|].
  split; [apply advance_ok; assumption|]. split; [exact He|].
  split; [apply advance_next; assumption|]. split; [exact Hw|]. split; [lia|].
  split; [rewrite dsum_app; lia|]. split; [rewrite Hn; apply transit_app; auto; lia|].
  conj.
Qed.

Lemma linv_sent_lt l C e : linv l C e -> e < l_sent l + two31.
Proof.
  intros (Hup & HC & Hok & He & Hn & Hw & Hle & Hsum & Htr & Hat & W1 & W2 & W3 & Hhalf & Hacks).
  apply acks_le in Hacks. apply dsum_nonneg in Htr. destruct Hat as (_ & _ & Hx & _). unfold two31. lia.
Qed.

Lemma lstep_inv l C e ev : linv l C e -> lev_ok ev ->
  (exists C' e', linv (lstep l ev) C' e') \/
  (ev = LAck /\ exists a w rest, l_seqs l = (a, w) :: rest /\ 4294967294 <= a).
Proof.
  intros Hinv Hev. pose proof (linv_sent_lt l C e Hinv) as Hlt. pose proof Hinv as Hinv0.
  destruct Hinv as (Hup & HC & Hok & He & Hn & Hw & Hle & Hsum & Htr & Hat & W1 & W2 & W3 & Hhalf & Hacks).
  unfold lstep. rewrite Hup. destruct ev as [m| |w| |].
  - (* LSend *)
    left. destruct (is_stalled (l_s l)) eqn:Hst; [eauto|].
    pose proof (remote_available_le _ _ _ Hok He (eq_sym Hn) Hle) as Hav.
    pose proof (not_stalled_available _ _ _ Hok He (eq_sym Hn) ltac:(lia) Hst) as Hpos.
    cbn in Hev.
    pose proof (default_nfs_le (sw_wsize (l_s l)) (sw_next (l_s l)) m (max_remote (l_s l))) as (D1 & D2 & D3 & D4).
    pose proof (default_nfs_pos (sw_wsize (l_s l)) (sw_next (l_s l)) m (max_remote (l_s l)) ltac:(lia) ltac:(lia) Hpos) as D5.
    cbv zeta.
    set (size := default_nfs _ _ _ _) in *.
    destruct (Z.ltb_spec m size); [lia|]. destruct (Z.leb_spec size 0); [lia|]. cbn [orb].
    exists C, e. apply lsend_inv; auto; lia.
  - left. destruct (is_stalled (l_s l)) eqn:Hst; [eauto|]. exists C, e. apply lsend_inv; auto; lia.
  - left. exists C, e. unfold linv; cbn [l_up l_s l_data l_r l_seqs l_sent l_recv sw_next sw_rc sw_rw sw_wsize rw_consumed rw_window rw_wsize rw_desired rw_expected]. cbn in Hev.
    assert (Hok' : swin_ok (mkSW (sw_next (l_s l)) (sw_rc (l_s l)) (sw_rw (l_s l)) w)) by exact Hok.
    assert (He' : edge (mkSW (sw_next (l_s l)) (sw_rc (l_s l)) (sw_rw (l_s l)) w) e) by exact He.
    conj.
  - (* LRecv *)
    left. destruct (l_data l) as [|(seqno & size) rest] eqn:Hd; [eauto|].
    destruct Htr as (-> & Hsize & Htr).
    pose proof (dsum_nonneg _ _ Htr) as Hrest. rewrite dsum_cons in Hsum.
    pose proof (acks_le _ _ _ _ Hacks) as Hfin.
    rewrite (recv_data_in_order _ C (l_recv l) false size Hat ltac:(unfold two31; lia)).
    rewrite W1, W2, W3. rewrite Z.eqb_refl. cbn [negb andb orb].
    destruct (Z.leb_spec (l_recv l + size) (C + 4096)); [|lia].
    rewrite orb_false_r. change (4096 / 2) with 2048.
    destruct (Z.ltb_spec 2048 (C + 4096 - (l_recv l + size))).
    + exists C, e. unfold linv; cbn [l_up l_s l_data l_r l_seqs l_sent l_recv sw_next sw_rc sw_rw sw_wsize rw_consumed rw_window rw_wsize rw_desired rw_expected].
      pose proof (rwin_at_none (l_r l) C (l_recv l) size Hat ltac:(lia) ltac:(lia)) as Hat'. rewrite W1, W2, W3 in Hat'.
     
      conj. eapply acks_mono; [|exact Hacks]. lia.
    + exists (l_recv l + size), e. unfold linv; cbn [l_up l_s l_data l_r l_seqs l_sent l_recv sw_next sw_rc sw_rw sw_wsize rw_consumed rw_window rw_wsize rw_desired rw_expected].
      pose proof (rwin_at_seq (l_recv l + size) 4096 ltac:(unfold two31; lia)) as Hat'.
      destruct Hat as (_ & _ & Hx & _).
      conj.
      eapply acks_snoc; [eapply acks_mono; [|exact Hacks]; lia| lia | lia].
  - (* LAck *)
    destruct (l_seqs l) as [|(a & w) rest] eqn:Hq; [left; eauto|].
    destruct Hacks as (-> & A & Ha & HAX & HA0 & HAe & Hrest).
    destruct (Z.le_gt_cases 4294967294 a) as [Hbad|Hgood].
    { right. split; [reflexivity|]. exists a, 4096, rest. auto. }
    left. unfold seq_over_wire.
    destruct (Z.eqb_spec a (two32 - 1)); [unfold two32 in *; lia|].
    destruct (Z.eqb_spec a (two32 - 2)); [unfold two32 in *; lia|].
    pose proof (recv_seq_exact (l_s l) e A 4096 Hok He ltac:(unfold two31; lia) ltac:(unfold two31; lia)) as Hex.
    rewrite <- Ha in Hex.
    destruct (recv_seq (l_s l) a 4096) as [s'|] eqn:Er; [|exfalso; apply Hex; [lia|reflexivity]].
    assert (Hau : 0 <= a < two32) by (rewrite Ha; apply u32_range).
    destruct (recv_seq_ok (l_s l) a 4096 s' Hok Hau ltac:(unfold two32; lia) Er) as (Hok' & N1 & N2 & N3).
    exists C, (A + 4096). unfold linv; cbn [l_up l_s l_data l_r l_seqs l_sent l_recv sw_next sw_rc sw_rw sw_wsize rw_consumed rw_window rw_wsize rw_desired rw_expected]. rewrite N1, N2.
    assert (He' : edge s' (A + 4096)).
    { unfold recv_seq in Er. destruct ((0 <=? window_available (l_s l) a) && (window_available (l_s l) a <? 4096)); [|discriminate].
      inversion Er; subst s'. destruct (u32_spec A) as (k & Ek). exists (- k). cbn [sw_rc sw_rw].
      change (s32 4096) with 4096. lia. }
    conj.
Qed.

Lemma lrun_app l es1 es2 : lrun l (es1 ++ es2) = lrun (lrun l es1) es2.
Proof. apply fold_left_app. Qed.

(** Every run keeps the invariant until a SEQ frame with one of the two
    topmost acknowledgements is read. *)
Lemma lrun_inv es : Forall lev_ok es ->
  (exists C e, linv (lrun link0 es) C e) \/
  (exists es1 es2 a w rest, es = es1 ++ LAck :: es2 /\ l_up (lrun link0 es1) = true /\
     l_seqs (lrun link0 es1) = (a, w) :: rest /\ 4294967294 <= a).
Proof.
  induction es as [|e es IH] using rev_ind; intros Hok.
  - left. exists 0, 4096. apply linv0.
  - apply Forall_app in Hok. destruct Hok as (Hok & He). inversion He as [|? ? He' _]; subst.
    destruct (IH Hok) as [(C & ed & Hinv)|(es1 & es2 & a & w & rest & E & Hup & Hq & Ha)].
    + rewrite lrun_app. cbn [lrun fold_left]. fold (lrun link0 es) in *.
      destruct (lstep_inv _ C ed e Hinv He') as [(C' & e' & H)|(-> & a & w & rest & Hq & Ha)].
      * left. exists C', e'. exact H.
      * right. exists es, [], a, w, rest. repeat split; auto. apply Hinv.
    + right. exists es1, (es2 ++ [e]), a, w, rest. repeat split; auto. rewrite E, <- app_assoc. reflexivity.
Qed.

(** Delivering what is in transit. *)
Definition drain (l : link) : list lev := repeat LRecv (length (l_data l)).

Lemma recv_all l C e : linv l C e ->
  exists C', linv (lrun l (drain l)) C' e /\ l_data (lrun l (drain l)) = [] /\ l_s (lrun l (drain l)) = l_s l /\
             l_sent (lrun l (drain l)) = l_sent l.
Proof.
  unfold drain. remember (length (l_data l)) as k eqn:Hk. revert l C Hk. induction k as [|k IH]; intros l C Hk Hinv.
  - exists C. cbn. destruct (l_data l); [auto|discriminate].
  - cbn [repeat lrun fold_left]. fold (lrun (lstep l LRecv) (repeat LRecv k)).
    destruct (l_data l) as [|(s & n) rest] eqn:Hd; [discriminate|].
    assert (E : l_data (lstep l LRecv) = rest /\ l_s (lstep l LRecv) = l_s l /\ l_sent (lstep l LRecv) = l_sent l).
    { unfold lstep. destruct Hinv as (-> & _). rewrite Hd. destruct (recv_data (l_r l) false s n) as ((r & q) & u). auto. }
    destruct E as (E1 & E2 & E3).
    destruct (lstep_inv l C e LRecv Hinv I) as [(C' & e' & H)|(X & _)]; [|discriminate].
    assert (He' : exists C'', linv (lstep l LRecv) C'' e).
    { (* the edge known to the sender does not change *)
      assert (e' = e); [|subst; exists C'; exact H].
      pose proof (linv_sent_lt _ _ _ Hinv). pose proof (linv_sent_lt _ _ _ H).
      destruct H as (_ & _ & _ & (k1 & K1) & _ & _ & Hle & _). destruct Hinv as (_ & _ & _ & (k0 & K0) & _ & _ & Hle0 & _).
      rewrite E2 in K1. rewrite E3 in *. unfold two31, two32 in *. lia. }
    destruct He' as (C'' & H'). clear H.
    assert (Hk' : k = length (l_data (lstep l LRecv))) by (rewrite E1; cbn in Hk; congruence).
    destruct (IH (lstep l LRecv) C'' Hk' H') as (C3 & G1 & G2 & G3 & G4).
    exists C3. conj; congruence.
Qed.

Lemma linv_stalled l C e : linv l C e -> (is_stalled (l_s l) = true <-> l_sent l = e).
Proof.
  intros H. pose proof (linv_sent_lt _ _ _ H) as Hlt.
  destruct H as (_ & _ & Hok & He & Hn & _ & Hle & _).
  apply (stalled_iff (l_s l) e (l_sent l)); auto; unfold two31, two32 in *; lia.
Qed.

Theorem link_progress es : Forall lev_ok es -> l_up (lrun link0 es) = true ->
  (forall es1 es2 a w rest, es = es1 ++ LAck :: es2 -> l_seqs (lrun link0 es1) = (a, w) :: rest -> a < 4294967294) ->
  is_stalled (l_s (lrun link0 es)) = true ->
  exists a w rest,
    let l := lrun link0 (es ++ repeat LRecv (length (l_data (lrun link0 es)))) in
    l_up l = true /\ l_data l = [] /\ l_seqs l = (a, w) :: rest /\
    (a < 4294967294 -> l_up (lstep l LAck) = true /\ is_stalled (l_s (lstep l LAck)) = false).
Proof.
  intros Hok Hup Hfine Hst.
  destruct (lrun_inv es Hok) as [(C & e & Hinv)|(es1 & es2 & a & w & rest & E & _ & Hq & Ha)];
    [|exfalso; pose proof (Hfine _ _ _ _ _ E Hq); lia].
  pose proof (proj1 (linv_stalled _ _ _ Hinv) Hst) as Hse.
  destruct (recv_all _ _ _ Hinv) as (C' & Hinv' & Hd & Hs & Hsent). unfold drain in *.
  rewrite lrun_app. set (l := lrun (lrun link0 es) _) in *. pose proof Hinv' as Hinv2.
  destruct Hinv' as (Hup' & HC & Hok' & He & Hn & Hw & Hle & Hsum & Htr & Hat & W1 & W2 & W3 & Hhalf & Hacks).
  rewrite Hd in Hsum. cbn [dsum fold_right] in Hsum.
  destruct (l_seqs l) as [|(a & w) rest] eqn:Hq.
  { cbn in Hacks. lia. }
  exists a, w, rest. cbv zeta. split; [exact Hup'|]. split; [exact Hd|]. split; [reflexivity|].
  intros Ha. destruct (lstep_inv l C' e LAck Hinv2 I) as [(C2 & e2 & H2)|(_ & a' & w' & r' & Hq' & Ha')];
    [|rewrite Hq in Hq'; inversion Hq'; subst; lia].
  split; [apply H2|].
  destruct (is_stalled (l_s (lstep l LAck))) eqn:Hst2; [|reflexivity]. exfalso.
  apply (proj1 (linv_stalled _ _ _ H2)) in Hst2.
  (* the edge moved *)
  destruct Hacks as (-> & A & HaA & HAX & HA0 & HAe & Hrest).
  assert (Es : l_s (lstep l LAck) = mkSW (sw_next (l_s l)) a 4096 (sw_wsize (l_s l)) /\ l_sent (lstep l LAck) = l_sent l).
  { destruct H2 as (Hu & _). unfold lstep in *. rewrite Hup', Hq in *. unfold seq_over_wire in *.
    destruct (Z.eqb_spec a (two32 - 1)); [unfold two32 in *; lia|].
    destruct (Z.eqb_spec a (two32 - 2)); [unfold two32 in *; lia|].
    unfold recv_seq in *. destruct ((0 <=? window_available (l_s l) a) && (window_available (l_s l) a <? 4096)); [|discriminate].
    split; reflexivity. }
  destruct Es as (Es & Esent). pose proof (linv_sent_lt _ _ _ H2) as Hlt2.
  destruct H2 as (_ & _ & _ & (k & K) & _). rewrite Es in K. cbn in K.
  destruct (u32_spec A) as (kA & EA). unfold two31, two32 in *. lia.
Qed.

Theorem link_no_loss es : Forall lev_ok es ->
  (forall es1 es2 a w rest, es = es1 ++ LAck :: es2 -> l_seqs (lrun link0 es1) = (a, w) :: rest -> a < 4294967294) ->
  let l := lrun link0 es in
  l_up l = true /\ l_sent l = l_recv l + dsum (l_data l) /\
  exists l', l' = lrun l (repeat LRecv (length (l_data l))) /\ l_up l' = true /\ l_recv l' = l_sent l.
Proof.
  intros Hok Hfine. cbv zeta.
  destruct (lrun_inv es Hok) as [(C & e & Hinv)|(es1 & es2 & a & w & rest & E & _ & Hq & Ha)];
    [|exfalso; pose proof (Hfine _ _ _ _ _ E Hq); lia].
  split; [apply Hinv|]. split; [apply Hinv|].
  destruct (recv_all _ _ _ Hinv) as (C' & Hinv' & Hd & Hs & Hsent). unfold drain in *.
  eexists. split; [reflexivity|]. split; [apply Hinv'|].
  destruct Hinv' as (_ & _ & _ & _ & _ & _ & _ & Hsum & _). rewrite Hd in Hsum. cbn [dsum fold_right] in Hsum. lia.
Qed.

(** ** Reaching the wrap *)
Definition cycle : list lev := [LSend 4096; LRecv; LAck].
Definition at_total (k : nat) : link :=
  let t := u32 (4096 * Z.of_nat k) in
  mkL (mkSW t t 4096 4096) [] (mkRW t 4096 4096 4096 t) [] true (4096 * Z.of_nat k) (4096 * Z.of_nat k).

Lemma u32_mult k : exists j, u32 (4096 * k) = 4096 * j /\ 0 <= j < 1048576.
Proof.
  destruct (u32_spec (4096 * k)) as (q & E). pose proof (u32_range (4096 * k)).
  exists (k + q * 1048576). unfold two32 in *. lia.
Qed.

Lemma cycle_step k : lrun (at_total k) cycle = at_total (S k).
Proof.
  destruct (u32_mult (Z.of_nat k)) as (j & Ej & Hj).
  assert (E1 : u32 (4096 * Z.of_nat (S k)) = u32 (4096 * j + 4096)).
  { destruct (u32_spec (4096 * Z.of_nat k)) as (q & E). rewrite <- Ej, E.
    symmetry. apply u32_congr with (k := q). lia. }
  unfold at_total. rewrite E1, Ej. replace (4096 * Z.of_nat (S k)) with (4096 * Z.of_nat k + 4096) by lia.
  set (T := 4096 * Z.of_nat k). clearbody T. clear Ej E1 k. set (t := 4096 * j) in *.
  assert (Ht : 0 <= t < two32) by (unfold t, two32; lia).
  unfold cycle, lrun. cbn [fold_left].
  unfold lstep at 3. cbn [l_up l_s]. unfold is_stalled. cbn [sw_next sw_rc sw_rw sw_wsize l_s].
  assert (Hne : t =? u32 (t + 4096) = false).
  { apply Z.eqb_neq. destruct (u32_spec (t + 4096)) as (q & E). rewrite E. unfold two32 in *. lia. }
  rewrite Hne. unfold max_remote. cbn [sw_rc sw_rw].
  assert (Hav : remote_available t (u32 (t + 4096 - 1)) = 4096).
  { rewrite remote_available_eq by (auto using u32_range).
    destruct (u32_spec (t + 4096 - 1)) as (q & E). rewrite E. apply s32_eq with (k := q); unfold two31; lia. }
  unfold default_nfs. rewrite Hav. change (Z.min 4096 (Z.min 4096 (Z.min 4096 4096))) with 4096.
  change ((4096 <? 4096) || (4096 <=? 0)) with false. cbv iota beta zeta.
  unfold lsend. cbn [l_up l_s l_data l_r l_seqs l_sent l_recv app sw_next advance].
  unfold advance. cbn [sw_next sw_rc sw_rw sw_wsize]. change ((t + 4096) mod two32) with (u32 (t + 4096)).
  unfold lstep at 2. cbn [l_up l_s l_data l_r l_seqs l_sent l_recv].
  assert (Hat : rwin_at (mkRW t 4096 4096 4096 t) t t).
  { unfold rwin_at; cbn [rw_consumed rw_window rw_wsize rw_desired rw_expected]. rewrite u32_id by assumption.
    unfold two31. conj. }
  replace t with (u32 t) at 1 by (apply u32_id; assumption).
  rewrite (u32_id t Ht) at 1.
  pose proof (recv_data_in_order _ t t false 4096 Hat ltac:(unfold two31; lia)) as Hrd.
  rewrite u32_id in Hrd by assumption. rewrite Hrd. clear Hrd.
  cbn [rw_consumed rw_window rw_wsize rw_desired rw_expected].
  rewrite Z.leb_refl. replace (t + 4096 - (t + 4096)) with 0 by lia.
  change (4096 / 2 <? 0) with false. change (4096 =? 4096) with true. cbn [orb andb negb].
  unfold lstep. cbn [l_up l_s l_data l_r l_seqs l_sent l_recv app].
  pose proof (u32_range (t + 4096)) as Hr. destruct (u32_spec (t + 4096)) as (q & Eq).
  unfold seq_over_wire.
  destruct (Z.eqb_spec (u32 (t + 4096)) (two32 - 1)); [unfold two32, t in *; lia|].
  destruct (Z.eqb_spec (u32 (t + 4096)) (two32 - 2)); [unfold two32, t in *; lia|].
  unfold recv_seq. rewrite window_available_eq by (cbn [sw_rc]; assumption). cbn [sw_rc sw_rw sw_next sw_wsize].
  rewrite (s32_eq _ 0 (- q)); [|rewrite Eq; lia|unfold two31; lia].
  change ((0 <=? 0) && (0 <? 4096)) with true. cbv iota. change (s32 4096) with 4096. reflexivity.
Qed.

Lemma cycles k : lrun link0 (concat (repeat cycle k)) = at_total k.
Proof.
  assert (H : forall k j, lrun (at_total j) (concat (repeat cycle k)) = at_total (j + k)).
  { clear k. induction k as [|k IH]; intros j; [cbn; f_equal; lia|].
    cbn [repeat concat]. rewrite lrun_app, cycle_step, IH. f_equal. lia. }
  exact (H k O).
Qed.

Definition to_wrap (k : nat) : list lev := concat (repeat cycle k) ++ [LSend 4095; LRecv; LAck].

Lemma to_wrap_ok k : Forall lev_ok (to_wrap k).
Proof.
  apply Forall_app. split.
  - induction k; [constructor|]. cbn [repeat concat].
    apply Forall_app. split; [|assumption]. unfold cycle, lev_ok, two31. repeat constructor.
  - unfold lev_ok, two31. repeat constructor.
Qed.

Lemma to_wrap_down k : Z.of_nat k = 1048575 -> l_up (lrun link0 (to_wrap k)) = false.
Proof.
  intros Hk. unfold to_wrap. rewrite lrun_app, cycles. unfold at_total. rewrite Hk. vm_compute. reflexivity.
Qed.

Lemma wrap_down : exists es, Forall lev_ok es /\ l_up (lrun link0 es) = false.
Proof.
  assert (H : exists k, Z.of_nat k = 1048575) by (exists (Z.to_nat 1048575); apply Z2Nat.id; lia).
  destruct H as (k & Hk). exists (to_wrap k). split; [apply to_wrap_ok|apply to_wrap_down, Hk].
Qed.
