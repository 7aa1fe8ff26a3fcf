(** Lemmas about what is kept while a message is incomplete. *)
From Verif Require Import Base CodecModel FlowModel MimeModel MimeSpec MimeProofs OutModel ReplyModel.
From Verif Require Import ReassemblyModel ReassemblySpec ReassemblyProofs.

Lemma one_snoc : forall l a g, one_message (l ++ [a]) -> are_joinable a g = true -> g_more g = true ->
  one_message ((l ++ [a]) ++ [g]).
Proof.
  intros l a g O J M. unfold are_joinable in J.
  destruct (ftype_eqb (g_type a) (g_type g)) eqn:E1; [|discriminate]. apply ftype_eqb_true in E1. cbn [negb] in J.
  assert (Ia : In a (l ++ [a])) by (apply in_or_app; right; left; reflexivity).
  assert (Ma : g_more a = true) by (apply (O a a Ia Ia)). rewrite Ma in J. cbn [negb andb] in J.
  destruct (g_msgno a =? g_msgno g) eqn:E2; [|discriminate]. cbn [negb] in J.
  destruct (g_ansno a =? g_ansno g) eqn:E3; [|discriminate].
  assert (K : forall x, In x ((l ++ [a]) ++ [g]) -> g_type x = g_type a /\ g_msgno x = g_msgno a /\ g_ansno x = g_ansno a /\ g_more x = true).
  { intros x I. apply in_app_or in I. destruct I as [I|[<-|[]]].
    - destruct (O x a I Ia) as (A & B & C & D). auto.
    - repeat split; auto; lia. }
  intros x y Ix Iy. destruct (K x Ix) as (A & B & C & D). destruct (K y Iy) as (A' & B' & C' & _).
  repeat split; congruence.
Qed.

Lemma contig_snoc : forall l a g, contiguous (l ++ [a]) -> are_joinable a g = true -> g_more a = true ->
  contiguous ((l ++ [a]) ++ [g]).
Proof.
  intros l a g O J M x b c y E. unfold are_joinable in J.
  destruct (ftype_eqb (g_type a) (g_type g)); [|discriminate]. rewrite M in J. cbn [negb andb] in J.
  destruct (g_msgno a =? g_msgno g); [|discriminate]. destruct (g_ansno a =? g_ansno g); [|discriminate].
  cbn [negb] in J.
  destruct y as [|z y] using rev_ind.
  - change (x ++ [b; c]) with (x ++ [b] ++ [c]) in E. rewrite app_assoc in E.
    apply app_inj_tail in E. destruct E as [E <-]. apply app_inj_tail in E. destruct E as [_ <-].
    unfold get_content_size. unfold u32 in J. rewrite Z.add_assoc. lia.
  - clear IHy. rewrite app_comm_cons, app_comm_cons, app_assoc in E. apply app_inj_tail in E. destruct E as [E _].
    apply (O x b c y E).
Qed.

Definition chained (s : rst) : Prop := one_message (r_prev s) /\ contiguous (r_prev s).

Lemma chained_nil : forall s, r_prev s = [] -> chained s.
Proof.
  intros s E. split; rewrite E.
  - intros a b [].
  - intros x a b y H. destruct x; discriminate.
Qed.

Lemma store_prev : forall s g s', store_frame s g = Ok s' -> r_prev s' = r_prev s ++ [g].
Proof.
  intros s g s' H. unfold store_frame in H. destruct (two31 <=? _); [discriminate|]. injection H as <-.
  match goal with |- context [if ?b then _ else _] => destruct b end; reflexivity.
Qed.
Lemma deliver_prev : forall s t g s', deliver s t g = Ok (Some s') -> r_prev s' = r_prev s.
Proof.
  intros s t g s' H. unfold deliver in H. destruct (negb (g_more g) && _ && r_flag s).
  - destruct (mime_process (g_mf g)) as [[[? m]|]|]; cbn [obind] in H; try discriminate. injection H as <-. reflexivity.
  - injection H as <-. reflexivity.
Qed.
Lemma build_prev : forall s j s', build_single s = Ok (j, s') -> r_prev s' = [].
Proof.
  intros s j s' H. unfold build_single in H. destruct (r_prev s); [discriminate|].
  destruct (two31 <=? _); [discriminate|]. destruct (copy_frames _); cbn [obind] in H; [|discriminate].
  injection H as _ <-. reflexivity.
Qed.

Lemma last_split : forall (l : list gframe) g0 r d, l = g0 :: r -> exists x, l = x ++ [last l d].
Proof.
  intros l g0 r d E. destruct l as [|z l _] using rev_ind; [discriminate|]. rewrite last_snoc'. eauto.
Qed.

Lemma fragment_chained : forall s g s', chained s -> fragment s g = Ok (Some s') -> chained s'.
Proof.
  intros s g s' [O C] H. unfold fragment in H. destruct (g_more g) eqn:M.
  - destruct (r_prev s) as [|g0 pr] eqn:P.
    + destruct (r_flag s).
      * destruct (store_frame s g) as [s1|] eqn:S; cbn [obind] in H; [|discriminate]. injection H as <-.
        apply store_prev in S. rewrite P in S. cbn in S. split; rewrite S.
        -- intros a b [<-|[]] [<-|[]]. auto.
        -- intros x a b y E. destruct x as [|? [|]]; discriminate.
      * apply deliver_prev in H. apply chained_nil. congruence.
    + rewrite <- P in *. destruct (are_joinable (last (r_prev s) g) g) eqn:J; cbn [negb] in H.
      * destruct (store_frame s g) as [s1|] eqn:S; cbn [obind] in H; [|discriminate]. injection H as <-.
        apply store_prev in S. destruct (last_split (r_prev s) g0 pr g P) as (x & E).
        split; rewrite S, E.
        -- apply one_snoc; auto; rewrite <- E; exact O.
        -- apply contig_snoc; auto; [rewrite <- E; exact C|].
           assert (I : In (last (r_prev s) g) (r_prev s)) by (rewrite E at 2; apply in_or_app; right; left; reflexivity).
           apply (O _ _ I I).
      * injection H as <-. split; auto.
  - destruct (r_prev s) as [|g0 pr] eqn:P.
    + apply deliver_prev in H. apply chained_nil. congruence.
    + destruct (store_frame s g) as [s1|]; cbn [obind] in H; [|discriminate].
      destruct (build_single s1) as [[j s2]|] eqn:B; cbn [obind] in H; [|discriminate].
      apply build_prev in B. apply deliver_prev in H. apply chained_nil. congruence.
Qed.

Lemma run_chained : forall es s s', chained s -> fgrun s es = Ok (Some s') -> chained s'.
Proof.
  induction es as [|e es IH]; intros s s' C H.
  - injection H as <-. exact C.
  - cbn [fgrun] in H. destruct (fgstep s e) as [[s1|]|] eqn:E; cbn [obind] in H; try discriminate.
    apply (IH s1); auto. destruct e; cbn [fgstep] in E.
    + destruct (r_up s); [eapply fragment_chained; eauto|]. injection E as <-. exact C.
    + injection E as <-. exact C.
    + injection E as <-. exact C.
    + injection E as <-. exact C.
Qed.

(** * The limit *)

Definition sizes (l : list gframe) : Z := fold_right (fun g n => mf_size (g_mf g) + n) 0 l.
Lemma sizes_app : forall a b, sizes (a ++ b) = sizes a + sizes b.
Proof. induction a as [|g a IH]; intros; [reflexivity|]. cbn. unfold sizes in *. rewrite IH. lia. Qed.

Lemma eff_limit_spec : forall s, 0 < limit_of s -> eff_limit s = limit_of s.
Proof. intros s H. unfold eff_limit, limit_of in *. destruct (0 <? r_limit s) eqn:E; destruct (_ <? r_climit s) eqn:E1; lia. Qed.
Lemma eff_limit_none : forall s, limit_of s <= 0 -> eff_limit s <= 0.
Proof. intros s H. unfold eff_limit, limit_of in *. destruct (0 <? r_limit s) eqn:E; destruct (_ <? r_climit s) eqn:E1; lia. Qed.

Record bounded (L : Z) (s : rst) : Prop := {
  bd_bytes : r_bytes s = held s;
  bd_limit : limit_of s = L;
  bd_up : r_up s = true -> held s <= L;
  bd_last : held_but_last s <= L
}.

Lemma store_bounded : forall L s g s', 0 < L -> bounded L s -> 0 <= mf_size (g_mf g) -> r_up s = true ->
  store_frame s g = Ok s' ->
  r_bytes s' = held s' /\ limit_of s' = L /\ (r_up s' = true <-> held s' <= L) /\ held_but_last s' <= L /\ r_log s' = r_log s.
Proof.
  intros L s g s' LP [B1 B2 B3 B4] G U H. unfold store_frame in H. destruct (two31 <=? _) eqn:E; [discriminate|].
  injection H as <-. set (s2 := mkR _ _ _ _ _ _ _).
  assert (L2 : limit_of s2 = L) by exact B2.
  assert (EL : eff_limit s2 = L) by (rewrite <- L2; apply eff_limit_spec; lia). rewrite EL.
  assert (HD : held s2 = r_bytes s + g_payload_size g).
  { unfold held, s2. cbn [r_prev]. fold (sizes (r_prev s ++ [g])). rewrite sizes_app. cbn. rewrite B1. unfold held, sizes, g_payload_size. lia. }
  assert (HL : held_but_last s2 = held s).
  { unfold held_but_last, s2. cbn [r_prev]. rewrite removelast_last. reflexivity. }
  specialize (B3 U).
  destruct ((0 <? L) && (L <? r_bytes s + g_payload_size g)) eqn:E1.
  - change (held (r_down s2)) with (held s2). change (limit_of (r_down s2)) with (limit_of s2).
    change (held_but_last (r_down s2)) with (held_but_last s2). cbn [r_down r_up r_bytes r_log].
    rewrite HL, HD. repeat split; auto; try discriminate; lia.
  - rewrite HL, HD. repeat split; auto; lia.
Qed.

Lemma deliver_bounded : forall L s t g s', bounded L s -> deliver s t g = Ok (Some s') ->
  bounded L s' /\ r_up s' = r_up s.
Proof.
  intros L s t g s' [B1 B2 B3 B4] H. unfold deliver in H. destruct (negb (g_more g) && _ && r_flag s).
  - destruct (mime_process (g_mf g)) as [[[? m]|]|]; cbn [obind] in H; try discriminate. injection H as <-.
    split; [constructor; auto|reflexivity].
  - injection H as <-. split; [constructor; auto|reflexivity].
Qed.

Lemma fragment_bounded : forall L s g s', 0 < L -> bounded L s -> 0 <= mf_size (g_mf g) -> r_up s = true ->
  fragment s g = Ok (Some s') -> bounded L s'.
Proof.
  intros L s g s' LP B G U H. unfold fragment in H. destruct (g_more g) eqn:M.
  - destruct (r_prev s) as [|g0 pr] eqn:P.
    + destruct (r_flag s); [|eapply deliver_bounded; eauto].
      destruct (store_frame s g) as [s1|] eqn:S; cbn [obind] in H; [|discriminate]. injection H as <-.
      destruct (store_bounded L s g s1 LP B G U S) as (A1 & A2 & A3 & A4 & _). constructor; auto; tauto.
    + destruct (are_joinable _ g); cbn [negb] in H.
      * destruct (store_frame s g) as [s1|] eqn:S; cbn [obind] in H; [|discriminate]. injection H as <-.
        destruct (store_bounded L s g s1 LP B G U S) as (A1 & A2 & A3 & A4 & _). constructor; auto; tauto.
      * injection H as <-. destruct B. constructor; auto.
  - destruct (r_prev s) as [|g0 pr] eqn:P; [eapply deliver_bounded; eauto|].
    destruct (store_frame s g) as [s1|] eqn:S; cbn [obind] in H; [|discriminate].
    destruct (store_bounded L s g s1 LP B G U S) as (A1 & A2 & A3 & A4 & _).
    unfold build_single in H. destruct (r_prev s1); [discriminate|]. destruct (two31 <=? _); [discriminate|].
    destruct (copy_frames _); cbn [obind] in H; [|discriminate].
    eapply deliver_bounded; [|exact H]. constructor; cbn; auto; lia.
Qed.

Lemma run_bounded : forall L gs s s', 0 < L -> bounded L s -> Forall (fun g => 0 <= mf_size (g_mf g)) gs ->
  fgrun s (map RFrag gs) = Ok (Some s') -> bounded L s'.
Proof.
  intros L gs. induction gs as [|g gs IH]; intros s s' LP B F H.
  - injection H as <-. exact B.
  - cbn [map fgrun] in H. inversion F; subst. cbn [fgstep] in H.
    destruct (r_up s) eqn:U.
    + destruct (fragment s g) as [[s1|]|] eqn:E; cbn [obind] in H; try discriminate.
      eapply IH; [| |exact H3|exact H]; auto. eapply fragment_bounded; eauto.
    + cbn [obind] in H. eapply IH; eauto.
Qed.

(** The frame that goes over the limit closes the connection, others do not. *)
Lemma limit_exact : forall L s g s', 0 < L -> bounded L s -> r_flag s = true -> r_up s = true -> 0 <= mf_size (g_mf g) ->
  g_more g = true -> (r_prev s = [] \/ are_joinable (last (r_prev s) g) g = true) ->
  fragment s g = Ok (Some s') ->
  (r_up s' = true <-> held s + mf_size (g_mf g) <= L) /\ r_log s' = r_log s.
Proof.
  intros L s g s' LP B FL U G M J H.
  assert (S : store_frame s g = Ok s').
  { unfold fragment in H. rewrite M in H. destruct (r_prev s) as [|g0 pr] eqn:P.
    - rewrite FL in H. destruct (store_frame s g); cbn [obind] in H; congruence.
    - destruct J as [J|J]; [discriminate|]. rewrite J in H. cbn [negb] in H. destruct (store_frame s g); cbn [obind] in H; congruence. }
  destruct (store_bounded L s g s' LP B G U S) as (A1 & A2 & A3 & A4 & A5). split; [|exact A5].
  assert (HD : held s' = held s + mf_size (g_mf g)).
  { unfold held. rewrite (store_prev _ _ _ S). fold (sizes (r_prev s ++ [g])). rewrite sizes_app. cbn. unfold sizes. lia. }
  rewrite <- HD. exact A3.
Qed.

(** ** Limits *)
Lemma store_limits s g s' : store_frame s g = Ok s' -> r_limit s' = r_limit s /\ r_climit s' = r_climit s.
Proof.
  unfold store_frame. destruct (two31 <=? _); [discriminate|]. intros H. injection H as <-.
  destruct (_ && _); auto.
Qed.
Lemma deliver_limits s t g s' : deliver s t g = Ok (Some s') -> r_limit s' = r_limit s /\ r_climit s' = r_climit s.
Proof.
  unfold deliver. destruct (_ && _).
  - destruct (mime_process (g_mf g)) as [[[b m]|]|]; cbn; intros H; try discriminate; injection H as <-; auto.
  - intros H. injection H as <-. auto.
Qed.
Lemma fragment_limits s g s' : fragment s g = Ok (Some s') -> r_limit s' = r_limit s /\ r_climit s' = r_climit s.
Proof.
  unfold fragment. destruct (g_more g).
  - destruct (r_prev s) as [|p l].
    + destruct (r_flag s); [|apply deliver_limits].
      destruct (store_frame s g) eqn:S; [|discriminate]. cbn. intros H. injection H as <-. now apply store_limits with g.
    + destruct (negb _); [intros H; injection H as <-; auto|].
      destruct (store_frame s g) eqn:S; [|discriminate]. cbn. intros H. injection H as <-. now apply store_limits with g.
  - destruct (r_prev s) as [|p l]; [apply deliver_limits|].
    destruct (store_frame s g) as [s1|] eqn:S; [|discriminate]. cbn [obind]. apply store_limits in S as (<- & <-).
    destruct (build_single s1) as [[j s2]|] eqn:B; [|discriminate]. cbn [obind]. intros H. apply deliver_limits in H as (-> & ->).
    unfold build_single in B. destruct (r_prev s1); [discriminate|]. destruct (two31 <=? _); [discriminate|].
    destruct (copy_frames _); [|discriminate]. cbn in B. injection B as <- <-. auto.
Qed.
Lemma run_limits es : forall s s', fgrun s es = Ok (Some s') ->
  r_limit s' = fold_left (fun n e => match e with RLimit m => m | _ => n end) es (r_limit s) /\
  r_climit s' = fold_left (fun n e => match e with RConnLimit m => m | _ => n end) es (r_climit s).
Proof.
  induction es as [|e es IH]; cbn; intros s s' H; [now injection H as <-|].
  destruct (fgstep s e) as [[s1|]|] eqn:S; cbn in H; try discriminate. apply IH in H as (-> & ->).
  destruct e as [g|v|n|n]; cbn in S.
  - destruct (r_up s); [|injection S as <-; auto]. apply fragment_limits in S as (-> & ->). auto.
  - injection S as <-. auto.
  - injection S as <-. auto.
  - injection S as <-. auto.
Qed.
Lemma limit_in_force es s : fgrun r0 es = Ok (Some s) -> limit_of s = Z.max (last_limit es) (last_conn_limit es).
Proof. intros H. apply run_limits in H as (A & B). unfold limit_of. now rewrite A, B. Qed.

(** ** Data out of place *)
Lemma recv_data_ok r seqno n r' seq : recv_data r false seqno n = (r', seq, true) -> rw_expected r = seqno.
Proof.
  unfold recv_data. destruct (check_incoming_seqno _ _ _); [|discriminate].
  destruct (update_incoming r false seqno n) as (r1, sq) eqn:U.
  assert (E : rw_expected r1 = rw_expected r).
  { revert U. unfold update_incoming. repeat match goal with |- context [if ?b then _ else _] => destruct b end;
      intros H; injection H as <- _; reflexivity. }
  destruct (rw_expected r1 =? seqno) eqn:Q; [|discriminate]. intros _. lia.
Qed.
Lemma inc_out_of_place c w : inc_up c = true ->
  (w_seqno w <> rw_expected (n_win c) \/
   check_incoming_seqno (rw_consumed (n_win c), rw_window (n_win c)) (w_seqno w) (zlen (w_content w)) = false) ->
  exists c', inc_frame c w = Ok (Some c') /\ inc_up c' = false /\ r_log (n_r c') = r_log (n_r c).
Proof.
  intros U P. unfold inc_frame. rewrite U. cbn [negb].
  destruct (recv_data (n_win c) false (w_seqno w) (zlen (w_content w))) as [[win seq] ok] eqn:R.
  assert (ok = false) as ->.
  { destruct ok; [|reflexivity]. exfalso. destruct P as [P|P].
    - apply P. symmetry. now apply recv_data_ok in R.
    - unfold recv_data in R. rewrite P in R. discriminate. }
  cbn [negb]. eexists. split; [reflexivity|]. split; [|reflexivity].
  reflexivity.
Qed.
