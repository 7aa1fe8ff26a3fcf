(** Proofs about the sequencer. *)
From Verif Require Import Base CodecModel CodecSpec CodecProofs FlowModel FlowSpec FlowProofs SequencerModel SequencerSpec.

Ltac conj := repeat match goal with |- _ /\ _ => split end.

Definition B : Z := 1073741774.

Lemma grow_loop_ok size : 0 <= size <= B -> forall fuel cap, 100 < cap < two31 ->
  size <= (cap - 100) * 2 ^ Z.of_nat fuel ->
  exists cap', grow_loop (S fuel) size cap = Ok cap' /\ size + 100 <= cap' /\ cap <= cap' < two31.
Proof.
  intros Hs. unfold B in Hs. induction fuel as [|fuel IH]; intros cap Hc Hf.
  - cbn [grow_loop]. change (2 ^ Z.of_nat 0) with 1 in Hf.
    destruct (Z.ltb_spec cap (size + 100)); [lia|]. exists cap. split; [reflexivity|lia].
  - cbn [grow_loop]. destruct (Z.ltb_spec cap (size + 100)).
    + destruct (Z.leb_spec two31 ((cap - 100) * 2 + 100)); [unfold two31 in *; lia|].
      destruct (IH ((cap - 100) * 2 + 100)) as (cap' & H1 & H2 & H3); [lia| |].
      * replace ((cap - 100) * 2 + 100 - 100) with ((cap - 100) * 2) by lia.
        rewrite Nat2Z.inj_succ, Z.pow_succ_r in Hf by lia. lia.
      * exists cap'. cbn [grow_loop] in H1. split; [exact H1|]. lia.
    + exists cap. split; [reflexivity|lia].
Qed.

Lemma check_and_increase_ok size cap : 0 <= size <= B -> 0 <= cap < two31 ->
  exists cap', check_and_increase size cap = Ok cap' /\ size + 100 <= cap' /\ cap <= cap' < two31.
Proof.
  intros Hs Hc. unfold check_and_increase, B in *.
  destruct (Z.leb_spec two31 (size + 100)); [unfold two31 in *; lia|].
  destruct (Z.ltb_spec cap (size + 100)).
  - destruct (Z.ltb_spec 100 cap).
    + apply (grow_loop_ok size Hs 39 cap); [lia|].
      assert (1 * 2 ^ Z.of_nat 39 <= (cap - 100) * 2 ^ Z.of_nat 39).
      { apply Z.mul_le_mono_nonneg_r; [lia|lia]. }
      change (2 ^ Z.of_nat 39) with 549755813888 in *. lia.
    + exists (size + 100). split; [reflexivity|]. lia.
  - exists cap. split; [reflexivity|]. lia.
Qed.

Lemma next_frame_size_below b a wsize next msize max : 4096 <= b -> answers_below b a ->
  next_frame_size a wsize next msize max <= b.
Proof.
  intros Hb (H1 & H2 & H3). unfold next_frame_size.
  destruct (h_chan a) as [v|]; [auto|].
  assert (Hd : default_nfs wsize next msize max <= b) by (unfold default_nfs; lia).
  destruct (h_conn a) as [v|]; destruct (h_ctx a) as [u|]; try destruct (0 <? v); auto;
    change (0 <? -1) with false; cbn iota; auto.
Qed.

Section P.
Context {A : Type} (ops : fops A) (good : A -> Prop) (Hgood : good_feeder ops good).

(** What every pending message keeps. *)
Definition static (d : qdata A) : Prop :=
  q_type d <> TSEQ /\ 0 <= q_ch d < two31 /\ 0 <= q_msgno d < two31 /\
  (if ftype_eqb (q_type d) TANS then 0 <= q_ansno d < two31 else q_ansno d = 0) /\
  zlen (q_msg d) < two31.
Definition pending_ok (d : qdata A) : Prop :=
  static d /\
  match q_feeder d with
  | None => 0 <= q_step d /\ 0 <= q_size d /\ q_step d + q_size d = zlen (q_msg d)
  | Some f => good (fe_state f)
  end.
Definition safe (s : @chst A) : Prop :=
  swin_ok (c_win s) /\ 4196 <= c_cap s < two31 /\ 0 <= c_fcap s < two31 /\ Forall pending_ok (c_pend s).

Lemma queueable_pending d : queueable good d -> pending_ok d.
Proof.
  intros (H1 & H2 & H3 & H4 & H5 & H6 & H7). split; [unfold static, two31; auto|].
  destruct (q_feeder d); [tauto|]. pose proof (zlen_nonneg (q_msg d)). lia.
Qed.

Lemma build_up_ok cap d complete first payload : static d -> 0 <= first < two32 ->
  zlen payload <= B -> zlen payload + 68 <= cap ->
  exists w, build_up cap d complete first payload = Ok (Some w) /\
    data_wire (mkFrame (q_type d) (q_ch d) (q_msgno d) (negb complete || q_fixed d) first (zlen payload) (q_ansno d) payload) w.
Proof.
  intros (H1 & H2 & H3 & H4 & H5) Hf Hp Hc.
  destruct (build_frame_wire cap (q_type d) (q_ch d) (q_msgno d) (negb complete || q_fixed d) first (q_ansno d) payload)
    as (w & Hw & Hd & _); auto; [unfold B, two31 in *; lia|].
  exists w. split; [exact Hw|exact Hd].
Qed.

Lemma slice_ok msg step n : 0 <= step -> 0 <= n -> step + n <= zlen msg ->
  exists p, slice msg step n = Ok p /\ zlen p = n /\ p = firstn (Z.to_nat n) (skipn (Z.to_nat step) msg).
Proof.
  intros H1 H2 H3. unfold slice.
  destruct (Z.leb_spec 0 step); [|lia]. destruct (Z.leb_spec 0 n); [|lia].
  destruct (Z.leb_spec (step + n) (zlen msg)); [|lia]. cbn [andb].
  eexists. split; [reflexivity|]. split; [|reflexivity].
  unfold zlen in *. rewrite firstn_length, skipn_length. lia.
Qed.

Lemma feeder_is_finished_spec f : exists f', feeder_is_finished ops f = (op_finished ops (fe_state f), f') /\
  fe_state f' = fe_state f /\ fe_status f' = fe_status f /\ fe_close f' = fe_close f /\ fe_transferred f' = fe_transferred f /\
  fe_handler f' = fe_handler f.
Proof.
  unfold feeder_is_finished. destruct (op_finished ops (fe_state f) && fe_handler f && negb (fe_notified f)); eexists;
    split; try reflexivity; auto 10.
Qed.

(** Everything [build_packet] can do to a well formed message. *)
Inductive built (a : nfs_answers) (wsize max_seq first : Z) (d : qdata A) : @packet A -> Prop :=
| built_shut : let size := next_frame_size a wsize first (q_size d) max_seq in
    (q_size d < size \/ size <= 0) -> ~ (q_size d = 0 /\ q_type d = TNUL) -> built a wsize max_seq first d PShut
| built_paused f : q_feeder d = Some f -> fe_status f <> 0 -> fe_close f = false -> built a wsize max_seq first d PPaused
| built_nul w : q_feeder d = None -> q_size d = 0 -> q_type d = TNUL ->
    data_wire (mkFrame TNUL (q_ch d) (q_msgno d) (q_fixed d) first 0 (q_ansno d) []) w ->
    built a wsize max_seq first d (PFrame (Some w) [] true 0 d)
| built_nul_feeder w f f' c : q_feeder d = Some f -> q_size d = 0 -> q_type d = TNUL ->
    fe_state f' = fe_state f -> fe_status f' = fe_status f ->
    data_wire (mkFrame TNUL (q_ch d) (q_msgno d) (negb c || q_fixed d) first 0 (q_ansno d) []) w ->
    built a wsize max_seq first d (PFrame (Some w) [] c 0 (with_feeder d f'))
| built_msg w p : let size := next_frame_size a wsize first (q_size d) max_seq in
    0 < size <= q_size d -> q_feeder d = None ->
    zlen p = size -> p = firstn (Z.to_nat size) (skipn (Z.to_nat (q_step d)) (q_msg d)) ->
    data_wire (mkFrame (q_type d) (q_ch d) (q_msgno d) (negb (size =? q_size d) || q_fixed d) first size (q_ansno d) p) w ->
    built a wsize max_seq first d (PFrame (Some w) p (size =? q_size d) (q_msgno d) d)
| built_feeder w p f f' : let size := next_frame_size a wsize first (q_size d) max_seq in
    0 < size <= q_size d -> q_feeder d = Some f -> fe_status f = 0 ->
    op_content ops (fe_state f) size = Ok (p, fe_state f') -> zlen p <= size -> good (fe_state f') ->
    fe_status f' = 0 ->
    data_wire (mkFrame (q_type d) (q_ch d) (q_msgno d) (negb (op_finished ops (fe_state f')) || q_fixed d) first (zlen p) (q_ansno d) p) w ->
    built a wsize max_seq first d (PFrame (Some w) p (op_finished ops (fe_state f')) (q_msgno d) (with_feeder d f'))
| built_cancel w f : q_feeder d = Some f -> fe_status f <> 0 -> fe_close f = true ->
    data_wire (mkFrame (q_type d) (q_ch d) (q_msgno d) (q_fixed d) first 0 (q_ansno d) []) w ->
    built a wsize max_seq first d (PFrame (Some w) [] true (q_msgno d) d).

Lemma ftype_eqb_spec a b : ftype_eqb a b = true <-> a = b.
Proof. destruct a, b; cbn; split; congruence. Qed.

Lemma build_packet_ok a wsize max_seq first cap fcap d :
  answers_below B a -> pending_ok d -> 0 <= first < two32 -> 4196 <= cap < two31 -> 0 <= fcap < two31 ->
  exists p cap' fcap', build_packet ops a wsize max_seq first cap fcap d = Ok (p, cap', fcap') /\
    4196 <= cap' < two31 /\ 0 <= fcap' < two31 /\ built a wsize max_seq first d p.
Proof.
  intros Ha (Hst & Hd) Hf Hc Hfc. unfold build_packet.
  destruct ((q_size d =? 0) && ftype_eqb (q_type d) TNUL) eqn:E0.
  - apply andb_prop in E0. destruct E0 as (E1 & E2). apply Z.eqb_eq in E1. apply ftype_eqb_spec in E2.
    destruct (q_feeder d) as [f|] eqn:Ef.
    + destruct (feeder_is_finished_spec f) as (f' & Hff & Hs1 & Hs2 & _). rewrite Hff.
      set (q := if negb (fe_status f =? 0) && fe_close f then (true, f) else (op_finished ops (fe_state f), f')).
      assert (Hq : exists c f1, q = (c, f1) /\ fe_state f1 = fe_state f /\ fe_status f1 = fe_status f).
      { unfold q. destruct (negb (fe_status f =? 0) && fe_close f); eauto 6. }
      destruct Hq as (c & f1 & -> & Q1 & Q2).
      destruct (build_up_ok cap d c first []) as (w & Hw & Hd'); auto; [unfold B; cbn; lia|cbn; lia|].
      rewrite Hw. cbn [obind]. do 3 eexists. split; [reflexivity|]. split; [lia|]. split; [lia|].
      rewrite E2 in Hd'. change (zlen (@nil Z)) with 0 in Hd'. eapply built_nul_feeder; eauto.
    + destruct (build_up_ok cap d true first []) as (w & Hw & Hd'); auto; [unfold B; cbn; lia|cbn; lia|].
      rewrite Hw. cbn [obind]. do 3 eexists. split; [reflexivity|]. split; [lia|]. split; [lia|].
      rewrite E2 in Hd'. apply built_nul; auto.
  - assert (Hnn : ~ (q_size d = 0 /\ q_type d = TNUL)).
    { intros (X & Y). rewrite X, Y in E0. discriminate. }
    pose proof (next_frame_size_below B a wsize first (q_size d) max_seq ltac:(unfold B; lia) Ha) as Hle.
    set (size := next_frame_size a wsize first (q_size d) max_seq) in *.
    destruct ((q_size d <? size) || (size <=? 0)) eqn:E1.
    { do 3 eexists. split; [reflexivity|]. split; [lia|]. split; [lia|]. apply built_shut; [fold size; lia|exact Hnn]. }
    assert (Hsz : 0 < size <= q_size d) by lia. clear E1.
    destruct (q_feeder d) as [f|] eqn:Ef.
    + destruct (Z.eqb_spec (fe_status f) 0) as [Es|Es].
      * destruct (Hgood _ Hd) as (_ & Hco).
        destruct (Hco size ltac:(lia)) as (bs & st' & E & Hl & Hg).
        destruct (check_and_increase_ok size fcap ltac:(lia) Hfc) as (fcap' & E2 & L2 & M2).
        rewrite E2. cbn [obind]. unfold feeder_get_content. rewrite E. cbn [obind].
        destruct (Z.ltb_spec fcap' (zlen bs)); [lia|]. cbn [obind].
        pose proof (zlen_nonneg bs).
        assert (Hcap : exists cap', (if 0 <? zlen bs then check_and_increase (zlen bs) cap else Ok cap) = Ok cap' /\
                  zlen bs + 68 <= cap' /\ 4196 <= cap' < two31).
        { destruct (Z.ltb_spec 0 (zlen bs)).
          - destruct (check_and_increase_ok (zlen bs) cap ltac:(lia) ltac:(lia)) as (cap' & E3 & L3 & M3).
            exists cap'. split; [exact E3|]. lia.
          - exists cap. split; [reflexivity|]. lia. }
        destruct Hcap as (cap' & -> & L3 & M3). cbn [obind].
        set (f1 := mkFeeder st' _ _ _ _ _ _).
        destruct (feeder_is_finished_spec f1) as (f2 & Hff & Hs1 & Hs2 & _). rewrite Hff.
        destruct (build_up_ok cap' d (op_finished ops (fe_state f1)) first bs) as (w & Hw & Hd'); auto; [lia|].
        rewrite Hw. cbn [obind]. do 3 eexists. split; [reflexivity|]. split; [lia|]. split; [lia|].
        change (fe_state f1) with st' in *. rewrite <- Hs1 in *.
        eapply built_feeder with (f := f); fold size; auto. rewrite Hs2. exact Es.
      * destruct (fe_close f) eqn:Ecl.
        -- destruct (build_up_ok cap d true first []) as (w & Hw & Hd'); auto; [unfold B; cbn; lia|cbn; lia|].
           rewrite Hw. cbn [obind]. do 3 eexists. split; [reflexivity|]. split; [lia|]. split; [lia|].
           eapply built_cancel; eauto.
        -- do 3 eexists. split; [reflexivity|]. split; [lia|]. split; [lia|]. eapply built_paused; eauto.
    + destruct (check_and_increase_ok size cap ltac:(lia) ltac:(lia)) as (cap' & E2 & L2 & M2).
      rewrite E2. cbn [obind].
      destruct (slice_ok (q_msg d) (q_step d) size) as (p & Hp & Hl & Hpe); [lia..|].
      rewrite Hp. cbn [obind].
      destruct (build_up_ok cap' d (size =? q_size d) first p) as (w & Hw & Hd'); auto; [lia|lia|].
      rewrite Hw. cbn [obind]. do 3 eexists. split; [reflexivity|]. split; [lia|]. split; [lia|].
      rewrite Hl in Hd'. unfold size in *. eapply built_msg; eauto.
Qed.

Lemma pause_nth_ok n close l : Forall pending_ok l -> Forall pending_ok (pause_nth n close l).
Proof.
  intros H. revert n. induction H as [|d l Hd Hl IH]; intros [|n]; cbn [pause_nth]; constructor; auto.
  destruct Hd as (Hs & Hd). unfold pause, pending_ok. destruct (q_feeder d) as [f|] eqn:E.
  - split; [exact Hs|]. exact Hd.
  - split; [exact Hs|]. rewrite E. exact Hd.
Qed.

Lemma advance_ok w n : swin_ok w -> swin_ok (advance w n).
Proof. intros (H1 & H2 & H3). unfold advance, swin_ok; cbn [sw_next sw_rc sw_rw]. split; [auto|]. split; [auto|]. apply Z.mod_pos_bound. unfold two32; lia. Qed.

Lemma built_safe a wsize max_seq first d bs p c m d' : pending_ok d ->
  built a wsize max_seq first d (PFrame bs p c m d') -> c = false -> pending_ok (step_data d' (zlen p)).
Proof.
  intros (Hs & Hd) Hb Hc. subst c. inversion Hb; subst; try discriminate;
    match goal with H : q_feeder _ = _ |- _ => rename H into Hq end.
  - split; [exact Hs|]. unfold step_data, with_feeder; cbn [q_feeder]. rewrite Hq in Hd.
    match goal with H : fe_state _ = fe_state _ |- _ => rewrite H end. exact Hd.
  - split; [exact Hs|]. unfold step_data; cbn [q_feeder q_step q_size q_msg]. rewrite Hq in Hd |- *. lia.
  - split; [exact Hs|]. assumption.
Qed.

Lemma sstep_safe s e : safe s -> sev_ok good e ->
  match e with EEnd a => answers_below B a | _ => True end ->
  exists s', sstep ops s e = Ok s' /\ safe s'.
Proof.
  intros (Hw & Hc & Hf & Hp) He Ha. destruct e as [d|ack win|w|n close| | |a]; cbn [sstep].
  - eexists. split; [reflexivity|]. repeat split; cbn [c_win c_cap c_fcap c_pend]; try tauto; try apply Hw.
    apply Forall_app. split; [exact Hp|]. constructor; [|constructor]. apply queueable_pending, He.
  - destruct (c_up s); [|eauto 6]. 2:{ exists s. split; [reflexivity|]. repeat split; try tauto; apply Hw. }
    cbn [sev_ok] in He.
    destruct (recv_seq (c_win s) ack win) as [w|] eqn:E; eexists; (split; [reflexivity|]).
    + destruct (recv_seq_ok _ ack win w Hw ltac:(unfold two32; lia) ltac:(unfold two32; lia) E) as (Hw' & _).
      unfold safe; cbn [c_win c_cap c_fcap c_pend]. auto.
    + unfold safe; cbn [c_win c_cap c_fcap c_pend]. auto.
  - eexists. split; [reflexivity|]. unfold safe; cbn [c_win c_cap c_fcap c_pend].
    split; [|auto]. exact Hw.
  - eexists. split; [reflexivity|]. unfold safe; cbn [c_win c_cap c_fcap c_pend].
    split; [exact Hw|]. split; [exact Hc|]. split; [exact Hf|]. apply pause_nth_ok, Hp.
  - eexists. split; [reflexivity|]. unfold safe; cbn [c_win c_cap c_fcap c_pend]. auto.
  - destruct (c_round s); [exists s; split; [reflexivity|]; unfold safe; auto|].
    destruct (c_pend s) as [|d rest] eqn:Ep; [exists s; split; [reflexivity|]; unfold safe; rewrite Ep; auto|].
    destruct (is_stalled (c_win s)); [exists s; split; [reflexivity|]; unfold safe; rewrite Ep; auto|].
    inversion Hp as [|? ? Hd Hrest]; subst.
    assert (Hr : exists d', refresh ops d = Ok d' /\ pending_ok d').
    { unfold refresh. destruct (q_feeder d) as [f|] eqn:Ef; [|exists d; auto].
      destruct Hd as (Hs & Hd). rewrite Ef in Hd. destruct (Hgood _ Hd) as ((n & ->) & _). cbn [obind].
      eexists. split; [reflexivity|]. split; [exact Hs|]. cbn [q_feeder]. exact Hd. }
    destruct Hr as (d' & -> & Hd'). cbn [obind]. eexists. split; [reflexivity|].
    unfold safe; cbn [c_win c_cap c_fcap c_pend]. auto.
  - destruct (c_round s) as [m|]; [|exists s; split; [reflexivity|]; unfold safe; auto].
    destruct (c_pend s) as [|d rest] eqn:Ep; [exists s; split; [reflexivity|]; unfold safe; rewrite Ep; auto|].
    inversion Hp as [|? ? Hd Hrest]; subst.
    destruct (build_packet_ok a (sw_wsize (c_win s)) m (sw_next (c_win s)) (c_cap s) (c_fcap s) d Ha Hd (proj2 (proj2 Hw)) Hc Hf)
      as (p & cap' & fcap' & -> & Hc' & Hf' & Hb). cbn [obind].
    destruct p as [| |bs pl c mn d']; eexists; (split; [reflexivity|]); unfold safe; cbn [c_win c_cap c_fcap c_pend];
      (split; [try apply advance_ok; exact Hw|]); (split; [lia|]); (split; [lia|]); auto.
    destruct c; [exact Hrest|]. constructor; [|exact Hrest]. eapply built_safe; eauto.
Qed.

Lemma srun_snoc s es e : srun ops s (es ++ [e]) = (let! s' := srun ops s es in sstep ops s' e).
Proof.
  revert s. induction es as [|x es IH]; intros s; cbn [app srun].
  - cbn [obind]. destruct (sstep ops s e); reflexivity.
  - destruct (sstep ops s x); cbn [obind]; [apply IH|reflexivity].
Qed.

Lemma chst0_safe : safe chst0.
Proof. unfold safe, chst0; cbn. repeat split; try constructor; cbn; unfold two31, two32; lia. Qed.

Theorem no_overflow es : Forall (sev_ok good) es -> handlers_below B es ->
  exists s, srun ops chst0 es = Ok s /\ safe s.
Proof.
  induction es as [|e es IH] using rev_ind; intros Ho Hh.
  - exists chst0. split; [reflexivity|]. apply chst0_safe.
  - apply Forall_app in Ho, Hh. destruct Ho as (Ho & He), Hh as (Hh & Hhe).
    destruct (IH Ho Hh) as (s & Hs & Hsafe). rewrite srun_snoc, Hs. cbn [obind].
    inversion He; inversion Hhe; subst. apply sstep_safe; assumption.
Qed.

(** ** Segmentation *)
Lemma segment_snoc (d : qdata A) cs c b seq :
  segment d seq b (cs ++ [c]) = segment d seq true cs ++
    [mkFrame (q_type d) (q_ch d) (q_msgno d) b ((seq + zlen (concat cs)) mod two32) (zlen c) (q_ansno d) c].
Proof.
  revert seq. induction cs as [|x cs IH]; intros seq; cbn [app segment concat].
  - change (zlen (@nil Z)) with 0. rewrite Z.add_0_r. reflexivity.
  - rewrite IH. unfold zlen. rewrite app_length, Nat2Z.inj_add, Z.add_assoc.
    destruct cs; reflexivity.
Qed.
Lemma stream_snoc l (d : qdata A) cs seq :
  stream seq (l ++ [(d, cs)]) = stream seq l ++ segment d (seq + octets l) (q_fixed d) cs.
Proof.
  revert seq. induction l as [|(x, xs) l IH]; intros seq; cbn [app stream octets fold_right snd].
  - rewrite app_nil_r, Z.add_0_r. reflexivity.
  - rewrite IH, <- app_assoc. fold (@octets A l). rewrite Z.add_assoc. reflexivity.
Qed.
Lemma octets_snoc l (d : qdata A) cs : octets (l ++ [(d, cs)]) = octets l + zlen (concat cs).
Proof. induction l as [|(x, xs) l IH]; cbn [app octets fold_right snd] in *; [lia|]. fold (@octets A l). unfold octets in *. rewrite IH. lia. Qed.
Lemma concat_snoc (cs : list bytes) c : zlen (concat (cs ++ [c])) = zlen (concat cs) + zlen c.
Proof. rewrite concat_app. cbn [concat]. rewrite app_nil_r. unfold zlen. rewrite app_length. lia. Qed.
Lemma queued_snoc es (e : @sev A) : queued (es ++ [e]) = queued es ++ match e with EQueue d => [d] | _ => [] end.
Proof. unfold queued. rewrite flat_map_app. cbn [flat_map]. rewrite app_nil_r. reflexivity. Qed.

Definition progress (d0 d : qdata A) (cs : list bytes) : Prop :=
  q_type d = q_type d0 /\ q_ch d = q_ch d0 /\ q_msgno d = q_msgno d0 /\ q_ansno d = q_ansno d0 /\
  q_msg d = q_msg d0 /\ q_fixed d = q_fixed d0 /\ queueable good d0 /\
  match q_feeder d0 with
  | None => q_feeder d = None /\ q_step d = zlen (concat cs) /\ q_size d = zlen (q_msg d0) - q_step d /\
      q_msg d0 = concat cs ++ skipn (length (concat cs)) (q_msg d0) /\ Forall (fun c => c <> []) cs /\ (cs <> [] -> 0 < q_size d)
  | Some f0 => exists f, q_feeder d = Some f /\ feeds ops (fe_state f0) cs (fe_state f) /\ fe_status f = 0
  end.
Lemma progress_start d : queueable good d -> progress d d [].
Proof.
  intros H. pose proof H as (_ & _ & _ & _ & _ & Hz & Hf). unfold progress.
  do 6 (split; [reflexivity|]). split; [exact H|]. destruct (q_feeder d) as [f|].
  - exists f. split; [reflexivity|]. split; [constructor|tauto].
  - split; [reflexivity|]. cbn [concat length app]. change (zlen (@nil Z)) with 0. split; [lia|]. split; [lia|].
    split; [reflexivity|]. split; [constructor|]. congruence.
Qed.
Lemma progress_begun d0 d cs : progress d0 d cs -> cs = [] \/ begun ops d0 cs.
Proof.
  intros (_ & _ & _ & _ & _ & _ & _ & H). destruct cs as [|c cs]; [auto|]. right. unfold begun.
  destruct (q_feeder d0) as [f0|].
  - destruct H as (f & _ & Hf & _). eauto.
  - destruct H as (_ & H1 & H2 & H3 & H4 & H5). split; [exact H4|].
    eexists. split; [|exact H3]. intros E. specialize (H5 ltac:(discriminate)).
    rewrite E, app_nil_r in H3. rewrite H3 in H2. lia.
Qed.

(** Frames of the message being sent. *)
Definition current (waiting : list (qdata A)) (seq : Z) (cur : list bytes) : list frame :=
  match waiting with [] => [] | d :: _ => segment d seq true cur end.

Definition done_replies (l : list (qdata A * list bytes)) : list Z :=
  map (fun x => reported (fst x)) (filter (fun x => is_reply (fst x)) l).

Definition seginv (es : list (@sev A)) (s : @chst A) (dn : list (qdata A * list bytes)) (cur : list bytes)
  (waiting : list (qdata A)) (sent rest : list frame) : Prop :=
  queued es = map fst dn ++ waiting /\
  Forall (fun x => whole ops (fst x) (snd x)) dn /\
  match waiting with
  | [] => c_pend s = [] /\ cur = []
  | d0 :: ws => exists d, c_pend s = d :: ws /\ progress d0 d cur /\ Forall (queueable good) ws
  end /\
  (octets dn + zlen (concat cur)) mod two32 = sw_next (c_win s) /\
  stream 0 dn ++ current waiting (octets dn) cur = sent ++ rest /\
  Forall2 data_wire sent (c_out s) /\
  (c_up s = true -> rest = []) /\
  c_replies s = done_replies dn.

Definition quiet (s s' : @chst A) : Prop :=
  c_pend s' = c_pend s /\ sw_next (c_win s') = sw_next (c_win s) /\ c_out s' = c_out s /\
  (c_up s' = true -> c_up s = true) /\ c_replies s' = c_replies s.
Lemma quiet_inv es s e s' dn cur wa sent rest : quiet s s' -> (forall d, e <> EQueue d) ->
  seginv es s dn cur wa sent rest -> seginv (es ++ [e]) s' dn cur wa sent rest.
Proof.
  intros (Q1 & Q2 & Q3 & Q4 & Q5) He (I1 & I2 & I3 & I4 & I5 & I6 & I7 & I8).
  unfold seginv. rewrite queued_snoc.
  assert (match e with EQueue d => [d] | _ => [] end = []) as -> by (destruct e; try reflexivity; exfalso; eapply He; reflexivity).
  rewrite app_nil_r, Q1, Q2, Q3, Q5. conj; auto.
Qed.

Lemma feeds_progress d0 d cs f0 : progress d0 d cs -> q_feeder d0 = Some f0 -> exists f, q_feeder d = Some f /\ feeds ops (fe_state f0) cs (fe_state f) /\ fe_status f = 0.
Proof. intros (_ & _ & _ & _ & _ & _ & _ & H) E. rewrite E in H. exact H. Qed.

Lemma skipn_add (m : bytes) k n : skipn n (skipn k m) = skipn (k + n) m.
Proof. revert m. induction k as [|k IH]; intros m; cbn [skipn Nat.add]; [reflexivity|]. destruct m; [apply skipn_nil|apply IH]. Qed.

(** A frame goes out: the message goes on, or is finished. *)
Lemma emit_more es s s' dn cur d0 ws sent rest c w d e a :
  seginv es s dn cur (d0 :: ws) sent rest -> e = EEnd a ->
  c_pend s' = d :: ws -> progress d0 d (cur ++ [c]) ->
  c_win s' = advance (c_win s) (zlen c) -> c_up s' = c_up s -> c_replies s' = c_replies s ->
  c_out s' = (if c_up s then c_out s ++ [w] else c_out s) ->
  data_wire (mkFrame (q_type d0) (q_ch d0) (q_msgno d0) true (sw_next (c_win s)) (zlen c) (q_ansno d0) c) w ->
  exists sent' rest', seginv (es ++ [e]) s' dn (cur ++ [c]) (d0 :: ws) sent' rest'.
Proof.
  intros (I1 & I2 & (dd & I3 & I3' & I3'') & I4 & I5 & I6 & I7 & I8) -> Hp Hpr Hw Hu Hr Ho Hd.
  set (f := mkFrame _ _ _ _ _ _ _ _) in Hd.
  exists (if c_up s then sent ++ [f] else sent), (if c_up s then [] else rest ++ [f]).
  unfold seginv. rewrite queued_snoc, app_nil_r, Hw, Hu, Hr, Ho.
  split; [exact I1|]. split; [exact I2|]. split; [eauto|]. split.
  { unfold advance; cbn [sw_next]. rewrite concat_snoc, Z.add_assoc, <- I4, Zplus_mod_idemp_l. reflexivity. }
  split. { cbn [current]. rewrite segment_snoc. change two32 with 4294967296 in I4. rewrite app_assoc. cbn [current] in I5.
    rewrite I5. change two32 with 4294967296. rewrite I4. fold f. destruct (c_up s).
    - rewrite (I7 eq_refl), !app_nil_r. reflexivity.
    - rewrite app_assoc. reflexivity. }
  split. { destruct (c_up s); [|exact I6]. apply Forall2_app; [exact I6|]. constructor; [exact Hd|constructor]. }
  split; [|exact I8]. intros ->. reflexivity.
Qed.

Lemma emit_last es s s' dn cur d0 ws sent rest c w a :
  seginv es s dn cur (d0 :: ws) sent rest ->
  c_pend s' = ws -> whole ops d0 (cur ++ [c]) ->
  c_win s' = advance (c_win s) (zlen c) -> c_up s' = c_up s ->
  c_replies s' = c_replies s ++ (if is_reply d0 then [reported d0] else []) ->
  c_out s' = (if c_up s then c_out s ++ [w] else c_out s) ->
  data_wire (mkFrame (q_type d0) (q_ch d0) (q_msgno d0) (q_fixed d0) (sw_next (c_win s)) (zlen c) (q_ansno d0) c) w ->
  exists sent' rest', seginv (es ++ [EEnd a]) s' (dn ++ [(d0, cur ++ [c])]) [] ws sent' rest'.
Proof.
  intros (I1 & I2 & (dd & I3 & I3' & I3'') & I4 & I5 & I6 & I7 & I8) Hp Hwh Hw Hu Hr Ho Hd.
  set (f := mkFrame _ _ _ _ _ _ _ _) in Hd.
  exists (if c_up s then sent ++ [f] else sent), (if c_up s then [] else rest ++ [f]).
  unfold seginv. rewrite queued_snoc, app_nil_r, Hw, Hu, Hr, Ho.
  split. { rewrite map_app, <- app_assoc. exact I1. }
  split. { apply Forall_app. split; [exact I2|]. constructor; [exact Hwh|constructor]. }
  split. { destruct ws as [|d1 ws]; [auto|]. exists d1. inversion I3''; subst. split; [exact Hp|]. split; [apply progress_start; assumption|assumption]. }
  split. { unfold advance; cbn [sw_next]. rewrite octets_snoc, concat_snoc. change (zlen (concat [])) with 0.
    rewrite <- I4, Zplus_mod_idemp_l. f_equal. lia. }
  split. { replace (current ws (octets (dn ++ [(d0, cur ++ [c])])) []) with (@nil frame) by (destruct ws; reflexivity).
    rewrite app_nil_r, stream_snoc, segment_snoc, Z.add_0_l, app_assoc. cbn [current] in I5. rewrite I5, I4. fold f. destruct (c_up s).
    - rewrite (I7 eq_refl), !app_nil_r. reflexivity.
    - rewrite app_assoc. reflexivity. }
  split. { destruct (c_up s); [|exact I6]. apply Forall2_app; [exact I6|]. constructor; [exact Hd|constructor]. }
  split; [intros ->; reflexivity|]. rewrite I8. unfold done_replies. rewrite filter_app, map_app. f_equal.
  cbn [filter fst]. destruct (is_reply d0); reflexivity.
Qed.

Lemma reported_msg (d : qdata A) : q_msg d <> [] \/ q_type d <> TNUL -> reported d = q_msgno d.
Proof. unfold reported. destruct (q_msg d), (q_type d); intros [H|H]; congruence. Qed.

Lemma is_reply_end_eq (d d0 : qdata A) c : q_type d = q_type d0 -> q_fixed d = q_fixed d0 ->
  is_reply_end (q_type d) && c && negb (q_fixed d) = is_reply d0 && c.
Proof. unfold is_reply_end, is_reply. intros -> ->. destruct c; rewrite ?andb_true_r, ?andb_false_r; reflexivity. Qed.

Lemma sstep_seg es s e s' : (exists dn cur wa sent rest, seginv es s dn cur wa sent rest) -> safe s ->
  sev_ok good e -> match e with EEnd a => answers_below B a | EPause _ _ => False | _ => True end ->
  sstep ops s e = Ok s' ->
  exists dn cur wa sent rest, seginv (es ++ [e]) s' dn cur wa sent rest.
Proof.
  intros (dn & cur & wa & sent & rest & I) (Hw & Hc & Hf & Hp) He Ha Hst.
  destruct e as [d|ack win|w|n close| | |a]; cbn [sstep] in Hst.
  - injection Hst as <-. destruct I as (I1 & I2 & I3 & I4 & I5 & I6 & I7 & I8).
    exists dn, cur, (wa ++ [d]), sent, rest. unfold seginv. rewrite queued_snoc.
    cbn [c_pend c_win c_out c_up c_replies]. split; [rewrite I1, <- app_assoc; reflexivity|]. split; [exact I2|].
    split. { destruct wa as [|d0 ws]; cbn [app].
      - destruct I3 as (I3 & I3c). rewrite I3, I3c. exists d. split; [reflexivity|]. split; [apply progress_start; exact He|constructor].
      - destruct I3 as (dd & I3 & I3' & I3''). rewrite I3. exists dd. split; [reflexivity|]. split; [exact I3'|].
        apply Forall_app; split; [exact I3''|]. constructor; [exact He|constructor]. }
    split; [exact I4|]. split; [|auto]. rewrite <- I5. f_equal. destruct wa; [|reflexivity].
    destruct I3 as (_ & ->). reflexivity.
  - exists dn, cur, wa, sent, rest. eapply quiet_inv; [|discriminate|exact I]. cbn [sev_ok] in He.
    destruct (c_up s) eqn:Eu; [|injection Hst as <-; unfold quiet; auto 10].
    destruct (recv_seq (c_win s) ack win) as [w|] eqn:E; injection Hst as <-; unfold quiet; cbn [c_pend c_win c_out c_up c_replies]; conj; auto.
    apply (recv_seq_ok _ ack win w Hw ltac:(unfold two32; lia) ltac:(unfold two32; lia) E).
  - injection Hst as <-. exists dn, cur, wa, sent, rest. eapply quiet_inv; [|discriminate|exact I]. unfold quiet; cbn; auto 10.
  - contradiction.
  - injection Hst as <-. exists dn, cur, wa, sent, rest. eapply quiet_inv; [|discriminate|exact I]. unfold quiet; cbn; auto 10.
    conj; auto. discriminate.
  - destruct (c_round s); [injection Hst as <-; exists dn, cur, wa, sent, rest; eapply quiet_inv; [|discriminate|exact I]; unfold quiet; auto 10|].
    destruct (c_pend s) as [|d rs] eqn:Ep; [injection Hst as <-; exists dn, cur, wa, sent, rest; eapply quiet_inv; [|discriminate|exact I]; unfold quiet; auto 10|].
    destruct (is_stalled (c_win s)); [injection Hst as <-; exists dn, cur, wa, sent, rest; eapply quiet_inv; [|discriminate|exact I]; unfold quiet; auto 10|].
    destruct (refresh ops d) as [d'|] eqn:Er; [|discriminate]. cbn [obind] in Hst. injection Hst as <-.
    exists dn, cur, wa, sent, rest. destruct I as (I1 & I2 & I3 & I4 & I5 & I6 & I7 & I8).
    unfold seginv. rewrite queued_snoc, app_nil_r. cbn [c_pend c_win c_out c_up c_replies]. conj; auto.
    destruct wa as [|d0 ws]; [destruct I3; congruence|]. destruct I3 as (dd & I3 & I3' & I3'').
    rewrite Ep in I3. injection I3 as -> ->. exists d'. split; [reflexivity|]. split; [|exact I3''].
    unfold refresh in Er. destruct (q_feeder dd) as [f|] eqn:Ef; [|injection Er as <-; exact I3'].
    destruct (op_size ops (fe_state f)) as [n|]; [|discriminate]. cbn [obind] in Er. injection Er as <-.
    destruct I3' as (P1 & P2 & P3 & P4 & P5 & P6 & P7 & P8). unfold progress; cbn. conj; auto.
    destruct (q_feeder d0) as [f0|].
    + destruct P8 as (f1 & Q1 & Q2). exists f1. split; [congruence|exact Q2].
    + destruct P8 as (Q1 & _). congruence.
  - destruct (c_round s) as [m|]; [|injection Hst as <-; exists dn, cur, wa, sent, rest; eapply quiet_inv; [|discriminate|exact I]; unfold quiet; auto 10].
    destruct (c_pend s) as [|d rs] eqn:Ep; [injection Hst as <-; exists dn, cur, wa, sent, rest; eapply quiet_inv; [|discriminate|exact I]; unfold quiet; auto 10|].
    inversion Hp as [|? ? Hd Hrest]; subst.
    destruct (build_packet_ok a (sw_wsize (c_win s)) m (sw_next (c_win s)) (c_cap s) (c_fcap s) d Ha Hd (proj2 (proj2 Hw)) Hc Hf)
      as (p & cap' & fcap' & E & Hc' & Hf' & Hb). rewrite E in Hst. cbn [obind] in Hst.
    destruct wa as [|d0 ws]; [destruct I as (_ & _ & (I3 & _) & _); congruence|].
    pose proof I as (_ & _ & (dd & I3 & I3' & I3'') & _). rewrite Ep in I3. injection I3 as <- ->.
    pose proof I3' as (P1 & P2 & P3 & P4 & P5 & P6 & P7 & P8).
    inversion Hb; subst p; injection Hst as <-.
    + (* shut *) exists dn, cur, (d0 :: ws), sent, rest. eapply quiet_inv; [|discriminate|exact I]. unfold quiet; cbn. rewrite <- Ep. conj; auto. discriminate.
    + (* paused: not without pauses *)
      destruct (q_feeder d0) as [f0|].
      * destruct P8 as (f1 & Q1 & Q2 & Q3). congruence.
      * destruct P8; congruence.
    + (* NUL *)
      rename H into Hq. destruct (q_feeder d0) as [f0|] eqn:Ef0; [destruct P8 as (f1 & Q1 & _); congruence|].
      destruct P8 as (Q1 & Q2 & Q3 & Q4 & Q5 & Q6).
      assert (cur = []) as -> by (destruct cur; [reflexivity|]; specialize (Q6 ltac:(discriminate)); lia).
      cbn [concat] in Q2. change (zlen []) with 0 in Q2.
      assert (Hm : q_msg d0 = []). { assert (zlen (q_msg d0) = 0) by lia. destruct (q_msg d0); [reflexivity|unfold zlen in *; cbn in *; lia]. }
      destruct (emit_last es s (mkCh (advance (c_win s) (zlen (@nil Z))) (c_up s) ws cap' fcap' None (if c_up s then c_out s ++ [w] else c_out s)
           (if is_reply_end (q_type d) && true && negb (q_fixed d) then c_replies s ++ [0] else c_replies s))
           dn [] d0 ws sent rest [] w a I) as (sent' & rest' & HH).
      * reflexivity.
      * unfold whole. rewrite Ef0. cbn [app concat]. rewrite Hm. split; [reflexivity|]. right. split; [reflexivity|]. split; [congruence|reflexivity].
      * reflexivity.
      * reflexivity.
      * cbn [c_replies]. rewrite (is_reply_end_eq d d0) by assumption. rewrite andb_true_r.
        unfold reported. rewrite Hm. replace (q_type d0) with TNUL by congruence.
        destruct (is_reply d0); [reflexivity|rewrite app_nil_r; reflexivity].
      * reflexivity.
      * match goal with H : data_wire _ _ |- _ => rewrite P2, P3, P4, P6 in H; rewrite <- P1; replace (q_type d) with TNUL; exact H end.
      * eauto 6.
    + (* NUL with a feeder *)
      destruct P7 as (_ & _ & _ & _ & _ & _ & P7). destruct (q_feeder d0) as [f0|]; [destruct P7 as (_ & _ & P7); congruence|]. destruct P8; congruence.
    + (* message *)
      rename p0 into pl. match goal with H : q_feeder d = None |- _ => rename H into Hq end.
      destruct (q_feeder d0) as [f0|] eqn:Ef0; [destruct P8 as (f1 & Q1 & _); congruence|].
      destruct P8 as (Q1 & Q2 & Q3 & Q4 & Q5 & Q6).
      subst size; set (size := next_frame_size a (sw_wsize (c_win s)) (sw_next (c_win s)) (q_size d) m) in *.
      match goal with H : data_wire _ _ |- _ => rename H into Hd' end.
      match goal with H : pl = _ |- _ => rename H into Hpl end.
      match goal with H : zlen pl = _ |- _ => rename H into Hzl end.
      match goal with H : 0 < size <= _ |- _ => rename H into Hsz end.
      assert (Hne : pl <> []) by (intros ->; unfold zlen in Hzl; cbn in Hzl; lia).
      assert (Hk : Z.to_nat (q_step d) = length (concat cur)) by (rewrite Q2; unfold zlen; lia).
      assert (Hlen : (length (concat cur) + length pl <= length (q_msg d0))%nat) by (unfold zlen in *; lia).
      assert (Hcat : q_msg d0 = concat (cur ++ [pl]) ++ skipn (length (concat (cur ++ [pl]))) (q_msg d0)).
      { rewrite concat_app. cbn [concat]. rewrite app_nil_r, app_length, <- app_assoc.
        transitivity (concat cur ++ skipn (length (concat cur)) (q_msg d0)); [exact Q4|]. f_equal.
        rewrite <- (firstn_skipn (Z.to_nat size) (skipn (length (concat cur)) (q_msg d0))) at 1.
        rewrite Hpl at 1. rewrite P5, Hk. f_equal. rewrite skipn_add. f_equal. unfold zlen in Hzl. lia. }
      destruct (Z.eqb_spec size (q_size d)) as [Es|Es].
      * destruct (emit_last es s (mkCh (advance (c_win s) (zlen pl)) (c_up s) ws cap' fcap' None (if c_up s then c_out s ++ [w] else c_out s)
           (if is_reply_end (q_type d) && true && negb (q_fixed d) then c_replies s ++ [q_msgno d] else c_replies s))
           dn cur d0 ws sent rest pl w a I) as (sent' & rest' & HH); try reflexivity.
        -- unfold whole. rewrite Ef0. split.
           ++ rewrite Hcat at 1. rewrite skipn_all2; [rewrite app_nil_r; reflexivity|].
              rewrite concat_app, app_length. cbn [concat]. rewrite app_nil_r. unfold zlen in *. lia.
           ++ left. apply Forall_app. split; [exact Q5|]. constructor; [exact Hne|constructor].
        -- cbn [c_replies]. rewrite (is_reply_end_eq d d0) by assumption. rewrite andb_true_r.
           rewrite reported_msg, P3; [destruct (is_reply d0); [reflexivity|rewrite app_nil_r; reflexivity]|].
           left. intros Hm. rewrite Hm in Hlen. destruct pl; [congruence|]. cbn in Hlen. lia.
        -- rewrite P1, P2, P3, P4, P6, <- Hzl in Hd'. exact Hd'.
        -- eauto 6.
      * destruct (emit_more es s (mkCh (advance (c_win s) (zlen pl)) (c_up s) (step_data d (zlen pl) :: ws) cap' fcap' None (if c_up s then c_out s ++ [w] else c_out s)
           (if is_reply_end (q_type d) && false && negb (q_fixed d) then c_replies s ++ [q_msgno d] else c_replies s))
           dn cur d0 ws sent rest pl w (step_data d (zlen pl)) (EEnd a) a I) as (sent' & rest' & HH); try reflexivity.
        -- unfold progress, step_data; cbn [q_type q_ch q_msgno q_ansno q_msg q_fixed q_feeder q_step q_size].
           conj; auto. rewrite Ef0. conj; auto.
           ++ rewrite concat_snoc. lia.
           ++ lia.
           ++ apply Forall_app. split; [exact Q5|]. constructor; [exact Hne|constructor].
           ++ intros _. lia.
        -- cbn [c_replies]. rewrite andb_false_r. reflexivity.
        -- rewrite P1, P2, P3, P4, <- Hzl in Hd'. exact Hd'.
        -- eauto 6.
    + (* feeder *)
      rename p0 into pl. match goal with H : q_feeder d = Some _ |- _ => rename H into Hq end.
      destruct (q_feeder d0) as [f0|] eqn:Ef0; [|destruct P8; congruence].
      destruct P8 as (f1 & Q1 & Q2 & Q3). assert (f1 = f) as -> by congruence.
      match goal with H : data_wire _ _ |- _ => rename H into Hd' end.
      assert (Hfd : feeds ops (fe_state f0) (cur ++ [pl]) (fe_state f')).
      { match goal with H : 0 < _ <= q_size d |- _ => destruct H as (Hsz & _) end. eapply feeds_snoc; eauto. }
      destruct (op_finished ops (fe_state f')) eqn:Efin.
      * destruct (emit_last es s (mkCh (advance (c_win s) (zlen pl)) (c_up s) ws cap' fcap' None (if c_up s then c_out s ++ [w] else c_out s)
           (if is_reply_end (q_type d) && true && negb (q_fixed d) then c_replies s ++ [q_msgno d] else c_replies s))
           dn cur d0 ws sent rest pl w a I) as (sent' & rest' & HH); try reflexivity.
        -- unfold whole. rewrite Ef0. eauto.
        -- cbn [c_replies]. rewrite (is_reply_end_eq d d0) by assumption. rewrite andb_true_r.
           rewrite reported_msg, P3; [destruct (is_reply d0); [reflexivity|rewrite app_nil_r; reflexivity]|].
           right. destruct P7 as (_ & _ & _ & _ & _ & _ & P7). rewrite Ef0 in P7. tauto.
        -- rewrite P1, P2, P3, P4, P6 in Hd'. exact Hd'.
        -- eauto 6.
      * destruct (emit_more es s (mkCh (advance (c_win s) (zlen pl)) (c_up s) (step_data (with_feeder d f') (zlen pl) :: ws) cap' fcap' None (if c_up s then c_out s ++ [w] else c_out s)
           (if is_reply_end (q_type d) && false && negb (q_fixed d) then c_replies s ++ [q_msgno d] else c_replies s))
           dn cur d0 ws sent rest pl w (step_data (with_feeder d f') (zlen pl)) (EEnd a) a I) as (sent' & rest' & HH); try reflexivity.
        -- unfold progress, step_data, with_feeder; cbn [q_type q_ch q_msgno q_ansno q_msg q_fixed q_feeder q_step q_size].
           conj; auto. rewrite Ef0. eauto.
        -- cbn [c_replies]. rewrite andb_false_r. reflexivity.
        -- rewrite P1, P2, P3, P4 in Hd'. exact Hd'.
        -- eauto 6.
    + (* cancelled *)
      destruct (q_feeder d0) as [f0|]; [destruct P8 as (f1 & Q1 & Q2 & Q3); congruence|destruct P8; congruence].
Qed.

Theorem segmentation es s : Forall (sev_ok good) es -> handlers_below B es -> no_pauses es -> srun ops chst0 es = Ok s ->
  exists dn cur waiting sent rest,
    queued es = map fst dn ++ waiting /\ length (c_pend s) = length waiting /\
    Forall (fun x => whole ops (fst x) (snd x)) dn /\
    (cur = [] \/ exists d ws, waiting = d :: ws /\ begun ops d cur) /\
    stream 0 dn ++ (match waiting with [] => [] | d :: _ => segment d (octets dn) true cur end) = sent ++ rest /\
    Forall2 data_wire sent (c_out s) /\ (c_up s = true -> rest = []) /\
    c_replies s = map (fun x => reported (fst x)) (filter (fun x => is_reply (fst x)) dn).
Proof.
  intros Ho Hh Hn Hs.
  assert (exists dn cur wa sent rest, seginv es s dn cur wa sent rest) as (dn & cur & wa & sent & rest & I).
  { revert s Ho Hh Hn Hs. induction es as [|e es IH] using rev_ind; intros s Ho Hh Hn Hs.
    - cbn [srun] in Hs. injection Hs as <-. exists [], [], [], [], []. unfold seginv, chst0; cbn. conj; auto.
    - apply Forall_app in Ho, Hh, Hn. destruct Ho as (Ho & He), Hh as (Hh & Hhe), Hn as (Hn & Hne).
      rewrite srun_snoc in Hs. destruct (srun ops chst0 es) as [s1|] eqn:E; [|discriminate]. cbn [obind] in Hs.
      destruct (no_overflow es Ho Hh) as (s1' & E' & Hsafe). rewrite E in E'. injection E' as <-.
      apply (sstep_seg es s1 e s); auto.
      + inversion He; assumption.
      + inversion Hhe as [|? ? X _]; inversion Hne as [|? ? Y _]; subst. destruct e; auto. }
  exists dn, cur, wa, sent, rest. destruct I as (I1 & I2 & I3 & I4 & I5 & I6 & I7 & I8). conj; auto.
  - destruct wa; [destruct I3 as (-> & _); reflexivity|]. destruct I3 as (d & -> & _). reflexivity.
  - destruct wa as [|d0 ws]; [destruct I3; auto|]. destruct I3 as (d & _ & Hp & _).
    destruct (progress_begun _ _ _ Hp); eauto 6.
Qed.

(** ** The window *)
Lemma granted_by_snoc e es (x : @sev A) : granted_by e (es ++ [x]) =
  match x with ESeq ack w => granted_by e es + (ack + w - granted_by e es) mod two32 | _ => granted_by e es end.
Proof.
  revert e. induction es as [|y es IH]; intros e; cbn [app granted_by].
  - destruct x; reflexivity.
  - destruct y; apply IH.
Qed.

Definition winv (es : list (@sev A)) (s : @chst A) (T : Z) (fs : list frame) : Prop :=
  let g := granted_by 4096 es in
  Forall2 data_wire fs (c_out s) /\ u32 T = sw_next (c_win s) /\ payload_octets fs <= g /\
  (c_up s = true -> edge (c_win s) g /\ payload_octets fs = T /\ T <= g /\
     match c_round s with None => True | Some m => exists e0, m = u32 (e0 - 1) /\ T <= e0 <= g end).

Lemma payload_octets_snoc fs f : payload_octets (fs ++ [f]) = payload_octets fs + zlen (f_payload f).
Proof. induction fs as [|x fs IH]; cbn [app payload_octets fold_right] in *; [lia|]. unfold payload_octets in *. rewrite IH. lia. Qed.

Lemma winv_same es s s' e T fs : (forall a w, e <> ESeq a w) -> c_out s' = c_out s -> c_win s' = c_win s ->
  (c_up s' = true -> c_up s = true) -> (c_round s' = c_round s \/ c_round s' = None) ->
  winv es s T fs -> winv (es ++ [e]) s' T fs.
Proof.
  intros He Ho Hw Hu Hr (I1 & I2 & I3 & I4). unfold winv. rewrite granted_by_snoc.
  assert ((match e with ESeq ack w => granted_by 4096 es + (ack + w - granted_by 4096 es) mod two32 | _ => granted_by 4096 es end) = granted_by 4096 es) as ->
    by (destruct e; try reflexivity; exfalso; eapply He; reflexivity).
  rewrite Ho, Hw. conj; auto. intros H. destruct (I4 (Hu H)) as (J1 & J2 & J3 & J4). conj; auto.
  destruct Hr as [->| ->]; auto.
Qed.

Lemma sstep_window es s e s' T fs : winv es s T fs -> safe s -> sev_ok good e ->
  match e with EEnd a => a = no_handlers | _ => True end -> sstep ops s e = Ok s' ->
  exists T' fs', winv (es ++ [e]) s' T' fs'.
Proof.
  intros I (Hw & Hc & Hf & Hp) He Ha Hst.
  destruct e as [d|ack win|w|n close| | |a]; cbn [sstep] in Hst.
  - injection Hst as <-. exists T, fs. eapply winv_same; [..|exact I]; cbn; auto; discriminate.
  - destruct I as (I1 & I2 & I3 & I4). exists T, fs. unfold winv. rewrite granted_by_snoc.
    pose proof (Z.mod_pos_bound (ack + win - granted_by 4096 es) two32 ltac:(unfold two32; lia)) as Hmb.
    destruct (c_up s) eqn:Eu.
    2:{ injection Hst as <-. conj; auto; [lia|congruence]. }
    destruct (I4 eq_refl) as (J1 & J2 & J3 & J4).
    cbn [sev_ok] in He. destruct (recv_seq (c_win s) ack win) as [w|] eqn:E; injection Hst as <-; cbn [c_out c_win c_up c_round].
    + destruct (recv_seq_ok _ ack win w Hw ltac:(unfold two32; lia) ltac:(unfold two32; lia) E) as (_ & Hn & _).
      destruct (recv_seq_edge _ _ ack win w Hw ltac:(unfold two32; lia) ltac:(unfold two32; lia) J1 E) as (e' & E1 & E2 & k & E3).
      assert (Hg : granted_by 4096 es + (ack + win - granted_by 4096 es) mod two32 = e').
      { rewrite <- (Zmod_unique (ack + win - granted_by 4096 es) two32 (- k) (e' - granted_by 4096 es)); lia. }
      rewrite Hg. conj; auto; [congruence|lia|]. intros _. conj; auto; [lia|].
      destruct (c_round s) as [m|]; [|auto]. destruct J4 as (e0 & Q1 & Q2). exists e0. split; [exact Q1|lia].
    + conj; auto; [lia|discriminate].
  - injection Hst as <-. destruct I as (I1 & I2 & I3 & I4). exists T, fs. unfold winv. rewrite granted_by_snoc. cbn. conj; auto.
  - injection Hst as <-. exists T, fs. eapply winv_same; [..|exact I]; cbn; auto; discriminate.
  - injection Hst as <-. exists T, fs. eapply winv_same; [..|exact I]; cbn; auto; discriminate.
  - destruct (c_round s) eqn:Er; [injection Hst as <-; exists T, fs; eapply winv_same; [..|exact I]; auto; discriminate|].
    destruct (c_pend s) as [|d rs]; [injection Hst as <-; exists T, fs; eapply winv_same; [..|exact I]; auto; discriminate|].
    destruct (is_stalled (c_win s)); [injection Hst as <-; exists T, fs; eapply winv_same; [..|exact I]; auto; discriminate|].
    destruct (refresh ops d) as [d'|]; [|discriminate]. cbn [obind] in Hst. injection Hst as <-.
    destruct I as (I1 & I2 & I3 & I4). exists T, fs. unfold winv. rewrite granted_by_snoc. cbn [c_out c_win c_up c_round].
    conj; auto. intros Hu. destruct (I4 Hu) as (J1 & J2 & J3 & J4). conj; auto.
    exists (granted_by 4096 es). split; [|lia]. unfold max_remote. destruct J1 as (k & ->).
    symmetry. apply u32_congr with (k := k). lia.
  - destruct (c_round s) as [m|] eqn:Er; [|injection Hst as <-; exists T, fs; eapply winv_same; [..|exact I]; auto; discriminate].
    destruct (c_pend s) as [|d rs]; [injection Hst as <-; exists T, fs; eapply winv_same; [..|exact I]; auto; discriminate|].
    inversion Hp as [|? ? Hd Hrest]; subst.
    assert (Hab : answers_below B no_handlers) by (repeat split; cbn; discriminate).
    destruct (build_packet_ok no_handlers (sw_wsize (c_win s)) m (sw_next (c_win s)) (c_cap s) (c_fcap s) d Hab Hd (proj2 (proj2 Hw)) Hc Hf)
      as (p & cap' & fcap' & E & Hc' & Hf' & Hb). rewrite E in Hst. cbn [obind] in Hst.
    assert (Hframe : forall w pl c mn d', p = PFrame (Some w) pl c mn d' ->
       zlen pl <= Z.max 0 (default_nfs (sw_wsize (c_win s)) (sw_next (c_win s)) (q_size d) m) /\
       exists f, data_wire f w /\ f_payload f = pl).
    { intros w pl c mn d' ->. inversion Hb; subst; change (zlen (@nil Z)) with 0;
        (split; [cbn [next_frame_size no_handlers h_chan h_conn h_ctx Z.ltb] in *; unfold next_frame_size, no_handlers in *; cbn in *; lia|]);
        eexists; (split; [eassumption|reflexivity]). }
    destruct p as [| |bs pl c mn d'].
    + injection Hst as <-. exists T, fs. eapply winv_same; [..|exact I]; cbn; auto; discriminate.
    + injection Hst as <-. exists T, fs. eapply winv_same; [..|exact I]; cbn; auto; discriminate.
    + assert (exists w, bs = Some w) as (w & ->) by (inversion Hb; eauto).
      destruct (Hframe w pl c mn d' eq_refl) as (Hle & f & Hf1 & Hf2). injection Hst as <-.
      destruct I as (I1 & I2 & I3 & I4).
      exists (T + zlen pl), (if c_up s then fs ++ [f] else fs). unfold winv. rewrite granted_by_snoc. cbn [c_out c_win c_up c_round].
      assert (Hadv : u32 (T + zlen pl) = sw_next (advance (c_win s) (zlen pl))).
      { unfold advance; cbn [sw_next]. rewrite <- I2. unfold u32. rewrite Zplus_mod_idemp_l. reflexivity. }
      destruct (c_up s) eqn:Eu; [|conj; auto; discriminate].
      destruct (I4 eq_refl) as (J1 & J2 & J3 & J4). rewrite Er in J4. destruct J4 as (e0 & Q1 & Q2).
      assert (Hr : remote_available (sw_next (c_win s)) m <= e0 - T).
      { rewrite Q1, remote_available_eq by (try apply u32_range; apply Hw).
        rewrite <- I2. destruct (u32_spec (e0 - 1)) as (k1 & E1). destruct (u32_spec T) as (k2 & E2).
        rewrite (s32_congr _ (e0 - T) (k1 - k2)) by lia.
        destruct (Z.lt_ge_cases (e0 - T) two31).
        - rewrite s32_id by (unfold two31 in *; lia). lia.
        - pose proof (s32_range (e0 - T)). lia. }
      pose proof (default_nfs_le (sw_wsize (c_win s)) (sw_next (c_win s)) (q_size d) m) as (D1 & _).
      assert (T + zlen pl <= granted_by 4096 es) by lia.
      conj; auto.
      * apply Forall2_app; [exact I1|]. constructor; [exact Hf1|constructor].
      * rewrite payload_octets_snoc, Hf2. lia.
      * intros _. conj; auto. rewrite payload_octets_snoc, Hf2. lia.
Qed.

Lemma default_below es : default_handlers es -> @handlers_below A B es.
Proof.
  intros H. eapply Forall_impl; [|exact H]. intros [] E; auto. rewrite E. repeat split; cbn; discriminate.
Qed.

Theorem within_window es s : Forall (sev_ok good) es -> default_handlers es -> srun ops chst0 es = Ok s ->
  exists fs, Forall2 data_wire fs (c_out s) /\ payload_octets fs <= granted_by 4096 es.
Proof.
  intros Ho Hh Hs.
  assert (exists T fs, winv es s T fs) as (T & fs & I1 & _ & I3 & _); [|eauto].
  revert s Ho Hh Hs. induction es as [|e es IH] using rev_ind; intros s Ho Hh Hs.
  - cbn [srun] in Hs. injection Hs as <-. exists 0, []. unfold winv, chst0; cbn. conj; auto; try lia.
    intros _. conj; auto; try lia. exists 0. reflexivity.
  - pose proof (default_below _ Hh) as Hb. apply Forall_app in Ho, Hh, Hb. destruct Ho as (Ho & He), Hh as (Hh & Hhe), Hb as (Hb & Hbe).
    rewrite srun_snoc in Hs. destruct (srun ops chst0 es) as [s1|] eqn:E; [|discriminate]. cbn [obind] in Hs.
    destruct (no_overflow es Ho Hb) as (s1' & E' & Hsafe). rewrite E in E'. injection E' as <-.
    destruct (IH s1 Ho Hh eq_refl) as (T & fs & I).
    apply (sstep_window es s1 e s T fs); auto.
    + inversion He; assumption.
    + inversion Hhe; assumption.
Qed.
End P.

(** ** Witnesses *)
Lemma big_frame_ub n : n = 1073741825 -> exists d : qdata unit, queueable (fun _ => False) d /\ q_size d = n /\
  srun (mkOps (fun _ => UB) (fun _ _ => UB) (fun _ => false)) chst0 [EQueue d; EBegin; EEnd (mkNfs (Some n) None None)] = UB.
Proof.
  intros ->. assert (exists m : bytes, zlen m = 1073741825) as (m & Hm).
  { exists (repeat 0 (Z.to_nat 1073741825)). unfold zlen. rewrite repeat_length. apply Z2Nat.id. discriminate. }
  exists (mkQ TMSG 1 0 0 m 0 1073741825 false None). split.
  { unfold queueable. cbn [q_type q_ch q_msgno q_ansno q_msg q_step q_feeder q_size ftype_eqb]. rewrite Hm. repeat split; try lia; discriminate. }
  split; reflexivity.
Qed.
