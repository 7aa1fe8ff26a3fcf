(** Lemmas about joining fragments. *)
From Verif Require Import Base CodecModel FlowModel MimeModel MimeSpec MimeProofs OutModel ReplyModel.
From Verif Require Import ReassemblyModel ReassemblySpec.

Definition frame_of (m : message) (x : bool * Z * bytes) : wframe :=
  let '(more, s, p) := x in mkW (m_type m) (m_msgno m) (m_ansno m) more s p.
Definition frames_of (s : Z) (m : message) : list wframe := map (frame_of m) (cut s (m_pieces m)).
Fixpoint wire (s : Z) (ms : list message) : list wframe :=
  match ms with [] => [] | m :: r => frames_of s m ++ wire (seq_after s m) r end.
Definition feed (ws : list wframe) : list fgev := map (fun w => RFrag (received w)) ws.

Lemma fgrun_app : forall a b s, fgrun s (a ++ b) =
  let! r := fgrun s a in match r with Some s' => fgrun s' b | None => Ok None end.
Proof.
  induction a as [|e a IH]; intros b s; [reflexivity|]. cbn [app fgrun].
  destruct (fgstep s e) as [[s'|]|]; cbn [obind]; auto.
Qed.

(** What it is to deliver a message. *)
Definition delivers (s : Z) (m : message) (g : gframe) : Prop :=
  g_type g = m_type m /\ g_msgno g = m_msgno m /\ g_ansno g = m_ansno m /\ g_more g = false /\ g_seqno g = s /\
  get_content (g_mf g) = m_bytes m /\ get_content_size (g_mf g) = zlen (m_bytes m) /\
  (forall hs body, entity (m_bytes m) hs body -> m_type m <> TNUL -> get_payload (g_mf g) = body).

Definition msg_ok (m : message) : Prop :=
  m_pieces m <> [] /\ zlen (m_bytes m) + 1 < two31 /\
  ((exists p, m_pieces m = [p]) \/ m_type m <> TNUL /\ exists hs body, entity (m_bytes m) hs body).
Definition fits (s : rst) (m : message) : Prop :=
  eff_limit s <= 0 \/ zlen (m_bytes m) <= eff_limit s.

Lemma ftype_eqb_refl : forall t, ftype_eqb t t = true.
Proof. destruct t; reflexivity. Qed.
Lemma ftype_eqb_true : forall a b, ftype_eqb a b = true <-> a = b.
Proof. intros [] []; cbn; split; congruence. Qed.

Lemma copy_received : forall w, copy_frame (received w) = Ok (w_content w).
Proof.
  intros w. unfold copy_frame, received. cbn [g_mf]. unfold get_content_size, mf_new. cbn [mf_size mf_hsize mf_off mf_mem].
  unfold sock_mem. rewrite zlen_app'. change (zlen trailer) with 5. rewrite Z.add_0_r, Z.add_0_l.
  destruct (zlen (w_content w) <=? zlen (w_content w) + 5) eqn:E; [|lia]. rewrite slice_all. reflexivity.
Qed.
Lemma copy_all : forall ws, copy_frames (map received ws) = Ok (concat (map w_content ws)).
Proof.
  induction ws as [|w ws IH]; [reflexivity|]. cbn [map copy_frames concat]. rewrite copy_received, IH. reflexivity.
Qed.
Lemma sum_all : forall ws, sum_content (map received ws) = zlen (concat (map w_content ws)).
Proof.
  induction ws as [|w ws IH]; [reflexivity|]. cbn [map concat]. rewrite zlen_app'.
  change (sum_content (received w :: map received ws)) with (g_content_size (received w) + sum_content (map received ws)).
  rewrite IH. unfold g_content_size, get_content_size, received. cbn. lia.
Qed.

(** State while a message is arriving: the frames [ws] of it are stored. *)
Definition holding (s : rst) (ws : list wframe) (s' : rst) : Prop :=
  s' = mkR (map received ws) (zlen (concat (map w_content ws))) (r_flag s) (r_limit s) (r_climit s) true (r_log s).

Lemma store_ok : forall s ws s' w, holding s ws s' ->
  zlen (concat (map w_content (ws ++ [w]))) < two31 ->
  eff_limit s <= 0 \/ zlen (concat (map w_content (ws ++ [w]))) <= eff_limit s ->
  exists s'', store_frame s' (received w) = Ok s'' /\ holding s (ws ++ [w]) s''.
Proof.
  intros s ws s' w H L F. unfold holding in H. subst s'. unfold store_frame.
  cbn [r_bytes r_prev r_flag r_limit r_climit r_up r_log].
  rewrite map_app, concat_app, zlen_app' in *. cbn [map concat] in *. rewrite app_nil_r in *.
  change (g_payload_size (received w)) with (zlen (w_content w)).
  destruct (two31 <=? _) eqn:E; [lia|].
  set (s2 := mkR _ _ _ _ _ _ _).
  assert (eff_limit s2 = eff_limit s) as EL by reflexivity. rewrite EL.
  destruct ((0 <? eff_limit s) && (eff_limit s <? _)) eqn:E1; [lia|].
  exists s2. split; [reflexivity|]. unfold holding, s2. rewrite !map_app, concat_app, zlen_app'. cbn [map concat].
  rewrite app_nil_r. reflexivity.
Qed.

(** The next fragment of the same message is joinable with the last stored. *)
Definition follows (w w' : wframe) : Prop :=
  w_type w = w_type w' /\ w_msgno w = w_msgno w' /\ w_ansno w = w_ansno w' /\ w_more w = true /\
  (w_seqno w + zlen (w_content w)) mod two32 = w_seqno w'.
Lemma joinable_ok : forall w w', follows w w' -> are_joinable (received w) (received w') = true.
Proof.
  intros w w' (T & N & A & M & S). unfold are_joinable, received. cbn [g_type g_more g_msgno g_ansno g_seqno g_mf mf_new mf_size mf_hsize].
  rewrite T, N, A, M, ftype_eqb_refl, !Z.eqb_refl. cbn [negb andb]. unfold u32. rewrite Z.add_0_r, S. apply Z.eqb_refl.
Qed.

Lemma last_snoc' : forall {A} (l : list A) x d, last (l ++ [x]) d = x.
Proof.
  intros A l x d. induction l as [|y l IH]; [reflexivity|]. cbn.
  destruct (l ++ [x]) eqn:E; [destruct l; discriminate|]. exact IH.
Qed.

(** All but the last frame are stored. *)
Lemma stored_run : forall s m ps k ws s', r_flag s = true -> holding s ws s' ->
  (forall w, In w ws -> w_more w = true) ->
  (ws = [] \/ exists l w, ws = l ++ [w] /\ w_type w = m_type m /\ w_msgno w = m_msgno m /\ w_ansno w = m_ansno m /\
                          (w_seqno w + zlen (w_content w)) mod two32 = k) ->
  (1 < length ps)%nat -> zlen (concat (map w_content ws)) + zlen (concat ps) + 1 < two31 ->
  eff_limit s <= 0 \/ zlen (concat (map w_content ws)) + zlen (concat ps) <= eff_limit s ->
  exists n, (0 < n < length ps)%nat /\ n = (length ps - 1)%nat /\
    forall j, (j <= n)%nat -> exists s'',
      fgrun s' (feed (map (frame_of m) (firstn j (cut k ps)))) = Ok (Some s'') /\
      holding s (ws ++ map (frame_of m) (firstn j (cut k ps))) s''.
Proof.
  intros s m ps. induction ps as [|p ps IH]; intros k ws s' FL H W C L B E; [cbn in L; lia|].
  exists (length (p :: ps) - 1)%nat. split; [cbn in *; lia|]. split; [reflexivity|].
  intros j J. destruct j as [|j].
  { exists s'. split; [reflexivity|]. cbn [firstn map]. rewrite app_nil_r. exact H. }
  destruct ps as [|p2 ps]; [cbn in L; lia|].
  change (cut k (p :: p2 :: ps)) with ((true, k, p) :: cut ((k + zlen p) mod two32) (p2 :: ps)).
  cbn [firstn map feed fgrun]. set (w := frame_of m (true, k, p)).
  cbn [concat] in B, E. rewrite zlen_app' in B, E.
  pose proof (zlen_pos (concat (p2 :: ps))) as P2. cbn [concat] in P2.
  assert (CW : zlen (concat (map w_content (ws ++ [w]))) = zlen (concat (map w_content ws)) + zlen p).
  { rewrite map_app, concat_app, zlen_app'. cbn. rewrite app_nil_r. reflexivity. }
  destruct (store_ok s ws s' w H) as (s1 & S1 & H1); [lia|lia|].
  assert (ST : fgstep s' (RFrag (received w)) = Ok (Some s1)).
  { cbn [fgstep]. pose proof H as H0. unfold holding in H0.
    replace (r_up s') with true by (rewrite H0; reflexivity).
    unfold fragment. change (g_more (received w)) with true.
    destruct (r_prev s') as [|g0 pr] eqn:PR.
    - replace (r_flag s') with true by (rewrite H0; cbn; auto). rewrite S1. reflexivity.
    - assert (NE : ws <> []) by (intro X; subst ws; rewrite H0 in PR; discriminate).
      destruct C as [C|(l & wl & C1 & C2 & C3 & C4 & C5)]; [contradiction|].
      assert (LST : last (r_prev s') (received w) = received wl).
      { rewrite H0. cbn [r_prev]. rewrite C1, map_app. apply last_snoc'. }
      rewrite PR in LST. rewrite LST.
      rewrite (joinable_ok wl w); [|repeat split; auto].
      + cbn [negb]. rewrite S1. reflexivity.
      + apply W. rewrite C1. apply in_or_app. right. left. reflexivity. }
  rewrite ST. cbn [obind].
  assert (W1 : forall x, In x (ws ++ [w]) -> w_more x = true).
  { intros x I. apply in_app_or in I. destruct I as [I|[<-|[]]]; auto. }
  assert (C1 : ws ++ [w] = [] \/ exists l x, ws ++ [w] = l ++ [x] /\ w_type x = m_type m /\ w_msgno x = m_msgno m /\
     w_ansno x = m_ansno m /\ (w_seqno x + zlen (w_content x)) mod two32 = (k + zlen p) mod two32).
  { right. exists ws, w. repeat split; auto. }
  destruct ps as [|p3 ps].
  - assert (j = 0)%nat by (cbn in J; lia). subst j. exists s1. split; [reflexivity|exact H1].
  - destruct (IH ((k + zlen p) mod two32) (ws ++ [w]) s1 FL H1 W1 C1) as (n & N1 & N2 & N3);
      [cbn; lia| | |].
    + rewrite CW. cbn [concat] in *. lia.
    + rewrite CW. cbn [concat] in *. lia.
    + destruct (N3 j) as (s2 & R2 & H2); [cbn in *; lia|]. exists s2. split; [exact R2|].
      rewrite <- app_assoc in H2. exact H2.
Qed.

Lemma cut_length : forall ps k, length (cut k ps) = length ps.
Proof. induction ps as [|p ps IH]; intros; [reflexivity|]. cbn. rewrite IH. reflexivity. Qed.

Lemma cut_contents : forall m ps k, map w_content (map (frame_of m) (cut k ps)) = ps.
Proof. induction ps as [|p ps IH]; intros; [reflexivity|]. cbn. rewrite IH. reflexivity. Qed.

Lemma cut_last : forall ps k, (0 < length ps)%nat -> exists k' p,
  cut k ps = firstn (length ps - 1) (cut k ps) ++ [(false, k', p)].
Proof.
  induction ps as [|p ps IH]; intros k L; [cbn in L; lia|]. destruct ps as [|p2 ps].
  - exists k, p. reflexivity.
  - destruct (IH ((k + zlen p) mod two32)) as (k' & q & E); [cbn; lia|]. exists k', q.
    change (cut k (p :: p2 :: ps)) with ((true, k, p) :: cut ((k + zlen p) mod two32) (p2 :: ps)).
    replace (length (p :: p2 :: ps) - 1)%nat with (S (length (p2 :: ps) - 1)) by (cbn; lia).
    cbn [firstn app]. rewrite <- E. reflexivity.
Qed.

Definition idle (s : rst) : Prop := r_prev s = [] /\ r_bytes s = 0 /\ r_up s = true.

Lemma holding_idle : forall s, idle s -> holding s [] s.
Proof. intros [] (A & B & C). cbn in *. subst. unfold holding. reflexivity. Qed.

Lemma deliver_single : forall s m k p, idle s -> r_flag s = true -> m_pieces m = [p] ->
  exists g, fgrun s (feed (frames_of k m)) =
    Ok (Some (mkR [] 0 (r_flag s) (r_limit s) (r_climit s) true (r_log s ++ [g]))) /\ delivers k m g.
Proof.
  intros s m k p (I1 & I2 & I3) FL E. unfold frames_of. rewrite E. cbn [cut map feed fgrun fgstep].
  rewrite I3. unfold fragment. change (g_more (received (frame_of m (false, k, p)))) with false. cbv iota.
  rewrite I1. unfold deliver. change (g_more (received (frame_of m (false, k, p)))) with false.
  change (g_type (received (frame_of m (false, k, p)))) with (m_type m). rewrite FL. cbn [negb andb].
  assert (MB : m_bytes m = p) by (unfold m_bytes; rewrite E; cbn; apply app_nil_r).
  rewrite andb_true_r.
  destruct (ftype_eqb (m_type m) TNUL) eqn:TN; cbn [negb].
  - rewrite I1, I2, I3. eexists. split; [reflexivity|]. unfold delivers. cbn. rewrite MB.
    repeat split; auto.
    + unfold get_content, get_content_size. cbn. rewrite Z.add_0_r. apply slice_all.
    + unfold get_content_size. cbn. lia.
    + intros hs body _ X. apply ftype_eqb_true in TN. contradiction.
  - change (g_mf (received (frame_of m (false, k, p)))) with (mf_new (sock_mem p) (zlen p)).
    destruct (process_sock p) as (ok & f' & P & G1 & G2 & G3 & G4). rewrite P. cbn [obind]. rewrite I1, I2, I3.
    eexists. split; [reflexivity|]. unfold delivers. cbn. rewrite MB. repeat split; auto.
    intros hs body EN _. destruct ok.
    + destruct (G3 eq_refl) as (hs' & body' & EN' & ->). eapply (proj2 (entity_det _ _ _ _ _ EN' EN)).
    + exfalso. eapply (proj1 (G4 eq_refl)); eauto.
Qed.

Lemma deliver_joined : forall s m k, idle s -> r_flag s = true -> (1 < length (m_pieces m))%nat ->
  zlen (m_bytes m) + 1 < two31 -> fits s m -> m_type m <> TNUL -> (exists hs body, entity (m_bytes m) hs body) ->
  exists g, fgrun s (feed (frames_of k m)) =
    Ok (Some (mkR [] 0 (r_flag s) (r_limit s) (r_climit s) true (r_log s ++ [g]))) /\ delivers k m g.
Proof.
  intros s m k I FL L B F T (hs & body & EN).
  destruct (stored_run s m (m_pieces m) k [] s FL (holding_idle s I)) as (n & N1 & N2 & N3);
    [intros w []|left; reflexivity|exact L| | |].
  { change (zlen (concat (map w_content []))) with 0. unfold m_bytes in B. lia. }
  { change (zlen (concat (map w_content []))) with 0. unfold fits, m_bytes in F. exact F. }
  destruct (N3 n (le_n n)) as (s1 & R1 & H1). cbn [app] in H1.
  destruct (cut_last (m_pieces m) k) as (k' & p & CL); [lia|].
  unfold frames_of. rewrite CL, <- N2. unfold feed. rewrite !map_app. rewrite fgrun_app.
  unfold feed in R1. rewrite R1. cbn [obind map fgrun].
  set (ws := map (frame_of m) (firstn n (cut k (m_pieces m)))) in *.
  set (w := frame_of m (false, k', p)).
  assert (WC : concat (map w_content (ws ++ [w])) = m_bytes m).
  { unfold m_bytes. rewrite <- (cut_contents m (m_pieces m) k). rewrite CL, <- N2.
    rewrite !map_app. reflexivity. }
  destruct (store_ok s ws s1 w H1) as (s2 & S2 & H2); [rewrite WC; lia|rewrite WC; exact F|].
  assert (NE : exists w0 r, ws = w0 :: r /\ w_seqno w0 = k /\ w_type w0 = m_type m /\ w_msgno w0 = m_msgno m /\ w_ansno w0 = m_ansno m).
  { unfold ws. destruct (m_pieces m) as [|p0 [|p1 ps]]; cbn in L; try lia.
    destruct n as [|n]; [lia|]. cbn. eauto 10. }
  destruct NE as (w0 & wr & NE & W1 & W2 & W3 & W4).
  cbn [fgstep]. pose proof H1 as H1'. unfold holding in H1'.
  replace (r_up s1) with true by (rewrite H1'; reflexivity).
  unfold fragment. change (g_more (received w)) with false. cbv iota.
  assert (PR : r_prev s1 = received w0 :: map received wr) by (rewrite H1', NE; reflexivity).
  rewrite PR. rewrite S2. cbn [obind].
  unfold build_single. unfold holding in H2.
  assert (PR2 : r_prev s2 = received w0 :: map received (wr ++ [w])) by (rewrite H2, NE; reflexivity).
  assert (PR3 : r_prev s2 = map received (ws ++ [w])) by (rewrite H2; reflexivity).
  rewrite PR2. rewrite <- PR2, PR3, sum_all, copy_all, WC.
  destruct (two31 <=? zlen (m_bytes m) + 1) eqn:E1; [lia|]. cbn [obind].
  unfold deliver. cbn [g_more negb andb r_flag]. change (g_type (received w)) with (m_type m).
  destruct (ftype_eqb (m_type m) TNUL) eqn:TN; [apply ftype_eqb_true in TN; contradiction|].
  replace (r_flag s2) with true by (rewrite H2; cbn; auto). cbn [negb andb].
  cbn [g_mf]. destruct (process_joined (m_bytes m) hs body EN) as (f' & P & G1 & G2 & G3 & G4).
  rewrite P. cbn [obind r_prev r_bytes r_limit r_climit r_up r_log].
  rewrite H2. cbn [r_limit r_climit r_up r_log]. rewrite FL.
  eexists. split; [reflexivity|]. unfold delivers, g_set. cbn [g_type g_msgno g_ansno g_more g_seqno g_mf].
  unfold received. cbn [g_type g_msgno g_ansno g_seqno]. rewrite W1, W2, W3, W4. repeat split; auto.
  intros hs' body' EN' _. rewrite G2. exact (proj2 (entity_det _ _ _ _ _ EN EN')).
Qed.

Lemma deliver_msg : forall s m k, idle s -> r_flag s = true -> msg_ok m -> fits s m ->
  exists g, fgrun s (feed (frames_of k m)) =
    Ok (Some (mkR [] 0 (r_flag s) (r_limit s) (r_climit s) true (r_log s ++ [g]))) /\ delivers k m g.
Proof.
  intros s m k I FL (NE & B & D) F. destruct (m_pieces m) as [|p [|p2 ps]] eqn:E.
  - contradiction.
  - eapply deliver_single; eauto.
  - destruct D as [(q & D)|(T & D)]; [discriminate|]. apply deliver_joined; auto. rewrite E. cbn. lia.
Qed.

(** The sequence numbers of the messages of a stream. *)
Fixpoint starts (k : Z) (ms : list message) : list (Z * message) :=
  match ms with [] => [] | m :: r => (k, m) :: starts (seq_after k m) r end.
Fixpoint end_of (k : Z) (ms : list message) : Z :=
  match ms with [] => k | m :: r => end_of (seq_after k m) r end.

Lemma deliver_stream : forall ms k s, idle s -> r_flag s = true -> Forall msg_ok ms -> Forall (fits s) ms ->
  exists ds, fgrun s (feed (wire k ms)) =
    Ok (Some (mkR [] 0 (r_flag s) (r_limit s) (r_climit s) true (r_log s ++ ds))) /\
    Forall2 (fun x g => delivers (fst x) (snd x) g) (starts k ms) ds.
Proof.
  induction ms as [|m ms IH]; intros k s I FL O F.
  - exists []. split; [|constructor]. cbn. rewrite app_nil_r. destruct s, I as (I1 & I2 & I3). cbn in *. subst. reflexivity.
  - inversion O; subst. inversion F; subst.
    destruct (deliver_msg s m k I FL H1 H3) as (g & R & D).
    cbn [wire]. unfold feed in *. rewrite map_app, fgrun_app, R. cbn [obind].
    set (s1 := mkR _ _ _ _ _ _ _).
    destruct (IH (seq_after k m) s1) as (ds & R1 & D1); [repeat split|exact FL|auto| |].
    { eapply Forall_impl; [|exact H4]. intros a X. exact X. }
    exists (g :: ds). split; [|constructor; auto]. rewrite R1. unfold s1. cbn [r_flag r_limit r_climit r_log].
    rewrite <- app_assoc. reflexivity.
Qed.

(** Complete messages and then part of another one. *)
Lemma deliver_partial : forall ms m k j s, idle s -> r_flag s = true -> Forall msg_ok (m :: ms) -> Forall (fits s) (m :: ms) ->
  (j < length (m_pieces m))%nat ->
  exists s' ds, fgrun s (feed (wire k ms ++ firstn j (frames_of (end_of k ms) m))) = Ok (Some s') /\
    r_up s' = true /\ r_log s' = r_log s ++ ds /\
    Forall2 (fun x g => delivers (fst x) (snd x) g) (starts k ms) ds.
Proof.
  intros ms m k j s I FL O F J. inversion O; subst. inversion F; subst.
  destruct (deliver_stream ms k s I FL H2 H4) as (ds & R & D).
  unfold feed in *. rewrite map_app, fgrun_app, R. cbn [obind].
  set (s1 := mkR _ _ _ _ _ _ _). set (e := end_of k ms).
  destruct (Nat.eq_dec j 0) as [->|NZ].
  - exists s1, ds. cbn. repeat split; auto.
  - destruct H1 as (NE & B & _).
    destruct (stored_run s1 m (m_pieces m) e [] s1 FL) as (n & N1 & N2 & N3).
    + apply holding_idle. repeat split.
    + intros w [].
    + left; reflexivity.
    + lia.
    + change (zlen (concat (map w_content []))) with 0. unfold m_bytes in B. lia.
    + change (zlen (concat (map w_content []))) with 0. unfold fits, m_bytes in H3. exact H3.
    + destruct (N3 j) as (s2 & R2 & H5); [lia|]. exists s2, ds.
      unfold frames_of. rewrite firstn_map. unfold feed in R2. rewrite R2.
      unfold holding in H5. rewrite H5. cbn. repeat split; auto.
Qed.

(** With the complete flag off each frame is delivered as it comes. *)
Lemma deliver_each : forall ws s, r_prev s = [] -> r_flag s = false -> r_up s = true ->
  fgrun s (feed ws) = Ok (Some (mkR [] (r_bytes s) false (r_limit s) (r_climit s) true (r_log s ++ map received ws))).
Proof.
  induction ws as [|w ws IH]; intros s P F U.
  - cbn. rewrite app_nil_r. destruct s. cbn in *. subst. reflexivity.
  - cbn [feed map fgrun fgstep]. rewrite U. unfold fragment. rewrite P, F.
    assert (D : deliver s (g_type (received w)) (received w) =
       Ok (Some (mkR [] (r_bytes s) false (r_limit s) (r_climit s) true (r_log s ++ [received w])))).
    { unfold deliver. rewrite F, andb_false_r, P, U. reflexivity. }
    rewrite D. destruct (g_more (received w)); cbn [obind]; unfold feed in IH; rewrite IH by reflexivity;
      cbn [r_bytes r_limit r_climit r_log]; rewrite <- app_assoc; reflexivity.
Qed.
