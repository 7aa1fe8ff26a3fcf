(** Proofs about vortex_channel_wait_until_sent, executions that block or fail,
    and the replies given to those who wait. *)
From Verif Require Import Base WaitModel WaitSpec WaitProofs.
From Coq Require Import Permutation.

(** ** vortex_channel_wait_until_sent *)

Definition called (w : wst) : nat := match w_h w with HCalled => 1 | _ => 0 end.
(** [n] replies were sent. *)
Definition sent_ok (n : nat) (w : wst) : Prop :=
  (n <= 1)%nat /\ w_sent w = true /\ w_hold w = false /\ w_entry w = false /\
  match w_pc w with
  | W0 => False
  | W1 => w_refs w = 1 /\ w_freed w = false /\ w_h w = HNone /\ length (w_queue w) = n
  | W2 => w_refs w = 1 /\ w_freed w = false /\ up (w_h w) /\ length (w_queue w) = (n + called w)%nat
  | W3 _ => w_refs w = 1 /\ w_freed w = false /\ up (w_h w) /\ S (length (w_queue w)) = (n + called w)%nat
  | W4 _ => w_refs w = 1 /\ w_freed w = false /\ (w_h w = HTaken \/ w_h w = HLost \/ w_h w = HCalled) /\ S (length (w_queue w)) = (n + called w)%nat
  | W5 _ => w_refs w = 1 /\ w_freed w = false /\ (w_h w = HRemoved \/ w_h w = HCalled)
  | WDone r => r = 0 /\ w_refs w = 0 /\ w_freed w = true /\ (w_h w = HRemoved \/ w_h w = HCalled)
  end.
Lemma sent_live n w : sent_ok n w -> 0 < w_refs w -> w_refs w = 1.
Proof.
  intros (_ & _ & _ & _ & E) H. destruct (w_pc w); try contradiction;
  repeat match goal with X : _ /\ _ |- _ => destruct X end; try assumption; lia.
Qed.
Lemma sent_step n w e : sent_ok n w -> (n + sents [e] <= 1)%nat -> exists w', wstep w e = Ok w' /\ sent_ok (n + sents [e]) w'.
Proof.
  intros S L. pose proof S as (A & B & C & G & E). destruct e; cbn [wstep sents filter length] in *; rewrite ?Nat.add_0_r in *.
  - eexists. split; [reflexivity|]. unfold waiter. destruct (w_pc w) eqn:P.
    + contradiction.
    + destruct E as (E1 & E2 & E3 & E4). unfold sent_ok, called; cbn. rewrite B. conj; auto; [left; reflexivity|lia].
    + destruct E as (E1 & E2 & E3 & E4). destruct (w_queue w) as [|v q] eqn:Q; [exact S|]. unfold sent_ok, called in *; cbn in *. conj; auto.
    + destruct E as (E1 & E2 & E3 & E4). rewrite B, andb_false_r. destruct (w_h w) eqn:Hh; unfold sent_ok, called in *; cbn; rewrite ?Hh; conj; auto;
      clear S; unfold up in E3; try rewrite Hh in E3; try rewrite Hh in E4; cbn in E4; intuition (try discriminate; try congruence; try lia).
    + destruct E as (E1 & E2 & E3 & E4). destruct (w_queue w) as [|v' q] eqn:Q; [exact S|]. unfold sent_ok, called in *; cbn in *. conj; auto.
      clear S; destruct E3 as [H|[H|H]]; try rewrite H in E4; auto; cbn in E4; lia.
    + destruct E as (E1 & E2 & E3). rewrite B. unfold sent_ok; cbn. conj; auto. lia.
    + exact S.
  - destruct (w_pc w), (w_queue w); rewrite ?B; eauto.
  - rewrite G. eauto.
  - rewrite B, andb_false_r. eauto.
  - assert (n = 0)%nat by lia. subst n. rewrite B, andb_true_r. destruct (0 <? w_refs w) eqn:R.
    + apply Z.ltb_lt in R. pose proof (sent_live 0 w S R) as R1. unfold push, queue_gone. rewrite R1. cbn [Z.eqb andb]. eexists. split; [reflexivity|].
      unfold sent_ok, called in *; cbn in *. conj; auto. destruct (w_pc w); auto; rewrite ?app_length; cbn [length]; intuition lia.
    + exists w. split; [reflexivity|]. apply Z.ltb_ge in R. unfold sent_ok in *. conj; auto.
      destruct (w_pc w); auto; exfalso; try (destruct E as [E _]; lia).
  - eexists. split; [reflexivity|]. destruct (w_conn w); [|exact S]. exact S.
  - destruct (w_h w) eqn:Hh; eauto. destruct (w_closing w); eauto. eexists. split; [reflexivity|]. unfold sent_ok, called, up in *; cbn in *. rewrite Hh in *.
    conj; auto. destruct (w_pc w); auto; intuition discriminate.
  - destruct (w_h w) eqn:Hh; eauto. eexists. split; [reflexivity|]. unfold sent_ok, called, up in *; cbn in *. rewrite Hh in *.
    conj; auto. destruct (w_pc w); auto; intuition discriminate.
  - destruct (w_h w) eqn:Hh; eauto. assert (R1 : w_refs w = 1) by (destruct (w_pc w); try contradiction; repeat match goal with X : _ /\ _ |- _ => destruct X end; auto; intuition discriminate).
    unfold push, queue_gone, set_h. cbn. rewrite R1. cbn. eexists. split; [reflexivity|]. unfold sent_ok, called, up in *; cbn in *. rewrite Hh in *.
    conj; auto. destruct (w_pc w); auto; rewrite ?app_length; cbn [length]; intuition (try discriminate; lia).
  - destruct (w_h w) eqn:Hh; eauto; eexists; (split; [reflexivity|]); unfold sent_ok, called in *; cbn in *; rewrite Hh in *; exact S.
  - rewrite G. eauto.
  - destruct (w_pc w) eqn:P; eauto. destruct r; eauto. destruct E as (_ & _ & F & _). rewrite F. eauto.
Qed.
Lemma sents_cons e es : sents (e :: es) = (sents [e] + sents es)%nat.
Proof. unfold sents. cbn. destruct e; reflexivity. Qed.
Lemma sent_run es n w : sent_ok n w -> (n + sents es <= 1)%nat -> exists w', wrun w es = Ok w' /\ sent_ok (n + sents es) w'.
Proof.
  revert n w. induction es as [|e es IH]; intros n w S L; [exists w; cbn; rewrite Nat.add_0_r; auto|].
  rewrite sents_cons in *. destruct (sent_step n w e S) as (x & E & Sx); [lia|]. cbn [wrun]. rewrite E. cbn [obind]. rewrite Nat.add_assoc. apply IH; auto. lia.
Qed.
Lemma sent0_ok : sent_ok 0 sent0.
Proof. unfold sent_ok. cbn. conj; auto. Qed.
Lemma sent_thm es : (sents es <= 1)%nat -> ~ In ELose es -> exists w, wrun sent0 es = Ok w /\
  (sents es = 1%nat -> idle w -> returned w \/ w_h w = HTaken).
Proof.
  intros L NL. destruct (sent_run es 0 sent0 sent0_ok L) as (w & R & S). exists w. split; [exact R|]. intros N I. cbn in S. rewrite N in S.
  assert (NH : w_h w <> HLost) by (apply (lost_run es sent0 w NL); [discriminate|exact R]).
  destruct S as (A & B & C & G & E). unfold idle, waiter, returned in *. destruct (w_pc w) eqn:P; eauto.
  - contradiction.
  - apply (f_equal w_pc) in I. rewrite P in I. discriminate.
  - destruct (w_queue w) eqn:Q; [cbn in E; intuition lia|]. apply (f_equal w_pc) in I. rewrite P in I. discriminate.
  - apply (f_equal w_pc) in I. rewrite P in I. exfalso. destruct (w_h w); cbn in I; try discriminate; destruct (is_broken v && negb (w_sent w)); discriminate.
  - destruct E as (E1 & E2 & [H|[H|H]] & E4); auto; [contradiction|]. unfold called in E4. rewrite H in E4. destruct (w_queue w) eqn:Q; [cbn in E4; lia|].
    apply (f_equal w_pc) in I. rewrite P in I. discriminate.
  - apply (f_equal w_pc) in I. rewrite P, B in I. discriminate.
Qed.

(** ** Executions that block *)
Lemma wrun_app w a b : wrun w (a ++ b) = match wrun w a with Ok w' => wrun w' b | UB => UB end.
Proof.
  revert w. induction a as [|e a IH]; intros w; [reflexivity|]. cbn [wrun app]. destruct (wstep w e) as [w'|]; cbn [obind]; [apply IH|reflexivity].
Qed.
(** The thread waits at [p] and nothing will be pushed. *)
Definition blocked (p : wpc) (w : wst) : Prop :=
  w_pc w = p /\ w_queue w = [] /\ w_conn w = false /\ (w_h w = HLost \/ w_h w = HCalled \/ (w_h w = HIn /\ w_closing w = false)) /\ (p = W2 \/ exists v, p = W4 v).
Lemma blocked_step p w e w' : blocked p w -> frames [e] = [] -> e <> ETimeout -> e <> ESent -> wstep w e = Ok w' -> blocked p w'.
Proof.
  intros B F N1 N2 H. pose proof B as (P & Q & C & D & T). destruct e; cbn [wstep] in H; try discriminate F; try congruence.
  - apply ok_inj in H. subst w'. unfold waiter. rewrite P, Q. destruct T as [->|[v ->]]; exact B.
  - rewrite C in H. apply ok_inj in H. subst. exact B.
  - destruct D as [D|[D|[D1 D2]]]; [rewrite D in H|rewrite D in H|rewrite D1, D2 in H]; apply ok_inj in H; subst; exact B.
  - destruct D as [D|[D|[D1 D2]]]; [rewrite D in H|rewrite D in H|rewrite D1 in H]; apply ok_inj in H; subst; exact B.
  - destruct D as [D|[D|[D1 D2]]]; [rewrite D in H|rewrite D in H|rewrite D1 in H]; apply ok_inj in H; subst; exact B.
  - destruct D as [D|[D|[D1 D2]]]; [rewrite D in H|rewrite D in H|rewrite D1 in H]; apply ok_inj in H; subst; try exact B; unfold blocked; cbn; conj; auto.
  - destruct (w_entry w); apply ok_inj in H; subst; exact B.
  - rewrite P in H. destruct T as [->|[v ->]]; apply ok_inj in H; subst; exact B.
Qed.
Lemma blocked_run p es w w' : blocked p w -> no_news es -> wrun w es = Ok w' -> w_pc w' = p.
Proof.
  intros B (F & N1 & N2). revert w B. induction es as [|e es IH]; intros w B H; cbn [wrun] in H; [apply ok_inj in H; subst; apply B|].
  destruct (wstep w e) as [x|] eqn:E; [|discriminate]. cbn in H. rewrite frames_cons in F. apply app_eq_nil in F. destruct F as [F1 F2].
  apply IH with (w := x); auto; [intros I; apply N1; right; exact I|intros I; apply N2; right; exact I|].
  apply (blocked_step p w e x B F1); [intros ->; apply N1; left; reflexivity|intros ->; apply N2; left; reflexivity|exact E].
Qed.
(** A thread at the second pop is not released by a timeout either. *)
Lemma blocked4_run v es w w' : blocked (W4 v) w -> frames es = [] -> ~ In ESent es -> wrun w es = Ok w' -> w_pc w' = W4 v.
Proof.
  intros B F N2. revert w B. induction es as [|e es IH]; intros w B H; cbn [wrun] in H; [apply ok_inj in H; subst; apply B|].
  destruct (wstep w e) as [x|] eqn:E; [|discriminate]. cbn in H. rewrite frames_cons in F. apply app_eq_nil in F. destruct F as [F1 F2].
  apply IH with (w := x); auto; [intros I; apply N2; right; exact I|]. destruct (match e with ETimeout => true | _ => false end) eqn:T.
  - destruct e; try discriminate. cbn in E. pose proof B as (P & _). rewrite P in E. apply ok_inj in E. subst. exact B.
  - apply (blocked_step (W4 v) w e x B F1); [intros ->; discriminate|intros ->; apply N2; left; reflexivity|exact E].
Qed.

Definition late_close : list wev := [EGo; EClose; EEnd; EGo].
Lemma prompt_witness : exists es w, wrun wait0 es = Ok w /\ w_conn w = false /\ timeouts es = 0%nat /\
  forall more w', no_news more -> wrun w more = Ok w' -> ~ returned w'.
Proof.
  exists late_close. eexists. split; [vm_compute; reflexivity|]. split; [reflexivity|]. split; [reflexivity|].
  match goal with |- forall more w', _ -> wrun ?s more = _ -> _ => set (st := s) end.
  intros more w' N R [r P]. rewrite (blocked_run W2 more st w') in P; [discriminate| |exact N|exact R].
  unfold blocked, st; cbn. conj; auto.
Qed.
Definition no_thread : list wev := [EGo; EGo; EReply 8; EGo; EClose; ETake; ELose; EGo].
Lemma lost_witness : exists es w, wrun wait0 es = Ok w /\ frames es = [8] /\ w_pc w = W4 8 /\
  forall more w', frames more = [] -> ~ In ESent more -> wrun w more = Ok w' -> ~ returned w'.
Proof.
  exists no_thread. eexists. split; [vm_compute; reflexivity|]. split; [reflexivity|]. split; [reflexivity|].
  match goal with |- forall more w', _ -> _ -> wrun ?s more = _ -> _ => set (st := s) end.
  intros more w' N1 N2 R [r P]. rewrite (blocked4_run 8 more st w') in P; [discriminate| |exact N1|exact N2|exact R].
  unfold blocked, st; cbn. conj; eauto.
Qed.
Definition crossed : list wev := [EGo; EGo; EReply 8; EOk 16; EGo; EClose; ETake; EGo; EGo; EGo; ECall].
Lemma crossed_witness : exists es, Forall frame_address (frames es) /\ timeouts es = 0%nat /\ length (frames es) = 2%nat /\ wrun wait0 es = UB.
Proof. exists crossed. conj; try reflexivity. cbn. repeat constructor; unfold frame_address; cbn; lia. Qed.
Definition late_reply : list wev := [EGo; EGo; ETimeout; EClose; ETake; EGo; EReply 8; EGo; EGo; EFree; ECall].
Lemma late_witness : exists es, Forall frame_address (frames es) /\ timeouts es = 1%nat /\ length (frames es) = 1%nat /\ wrun wait0 es = UB.
Proof. exists late_reply. conj; try reflexivity. cbn. repeat constructor; unfold frame_address; cbn; lia. Qed.
Definition sent_lost : list wev := [EGo; EClose; ETake; ECall; EGo; EGo].
Lemma sent_witness : exists es w, wrun sent0 es = Ok w /\ w_conn w = false /\ ~ In ELose es /\
  forall more w', ~ In ESent more -> frames more = [] -> wrun w more = Ok w' -> ~ returned w'.
Proof.
  exists sent_lost. eexists. split; [vm_compute; reflexivity|]. split; [reflexivity|]. split; [cbn; intuition discriminate|].
  match goal with |- forall more w', _ -> _ -> wrun ?s more = _ -> _ => set (st := s) end.
  intros more w' N1 N2 R [r P]. rewrite (blocked4_run BROKEN more st w') in P; [discriminate| |exact N2|exact N1|exact R].
  unfold blocked, st; cbn. conj; eauto.
Qed.

(** ** Replies and those who wait *)
Lemma mrun_snoc es e : mrun (es ++ [e]) = mstep (mrun es) e.
Proof. unfold mrun. rewrite fold_left_app. reflexivity. Qed.
Lemma sends_app a b : sends (a ++ b) = sends a ++ sends b.
Proof. unfold sends. apply flat_map_app. Qed.
Lemma objs_app a b : objs (a ++ b) = objs a ++ objs b.
Proof. unfold objs. apply flat_map_app. Qed.
Definition match_ok (es : list mev) (c : chs) : Prop := let s := sends es in
  exists done, (done <= length s)%nat /\ ch_next c = zlen s /\ ch_out c = map Z.of_nat (seq done (length s - done)) /\
  ch_wait c = objs (skipn done s) /\
  (forall i x, nth_error s i = Some (Some x) -> ch_no c x = Z.of_nat i) /\
  (forall n k d, In (n, k, d) (ch_log c) -> 0 <= n /\ nth_error s (Z.to_nat n) = Some d).
Lemma nth_objs l i x : nth_error l i = Some (Some x) -> In x (objs l).
Proof. intros H. apply nth_error_In in H. unfold objs. apply in_flat_map. exists (Some x). split; [exact H|left; reflexivity]. Qed.
Lemma skipn_nth {A} (l : list A) k x : nth_error l k = Some x -> skipn k l = x :: skipn (S k) l.
Proof. revert k. induction l as [|a l IH]; intros [|k] H; try discriminate; [injection H as ->; reflexivity|]. cbn. apply IH, H. Qed.
Lemma seq_snoc a n : seq a (S n) = seq a n ++ [(a + n)%nat].
Proof. rewrite <- seq_app with (len2 := 1%nat) || idtac. replace (S n) with (n + 1)%nat by lia. rewrite seq_app. reflexivity. Qed.

Lemma match_step es e more : NoDup (objs (sends (es ++ [e]))) -> plain (sends (es ++ [e]) ++ more) (ch_log (mrun (es ++ [e]))) -> match_ok es (mrun es) -> match_ok (es ++ [e]) (mrun (es ++ [e])).
Proof.
  intros N PL (dn & L & Nx & Out & Wt & No & Lg). unfold match_ok. rewrite mrun_snoc in *. rewrite sends_app in *. set (c := mrun es) in *. set (s := sends es) in *.
  destruct e as [w|k]; cbn [sends flat_map app] in *.
  - rewrite app_length. cbn [length]. exists dn. destruct w as [x|]; cbn [mstep ch_next ch_out ch_wait ch_no ch_log].
    + assert (Fx : ~ In x (objs s)).
      { rewrite objs_app in N. cbn in N. intros I. apply (NoDup_remove_2 (objs s) [] x N). rewrite app_nil_r. exact I. }
      conj; [lia|unfold zlen in *; rewrite app_length; cbn; lia| | | |].
      * rewrite Out, Nx. replace (length s + 1 - dn)%nat with (S (length s - dn)) by lia. rewrite seq_snoc, map_app. cbn. unfold zlen. repeat f_equal. lia.
      * rewrite skipn_app, objs_app, Wt. replace (dn - length s)%nat with 0%nat by lia. reflexivity.
      * intros i y H. destruct (Nat.lt_ge_cases i (length s)) as [Li|Li].
        -- rewrite nth_error_app1 in H by exact Li. destruct (y =? x) eqn:E; [|apply No, H]. apply Z.eqb_eq in E. subst y. exfalso. apply Fx, (nth_objs _ _ _ H).
        -- rewrite nth_error_app2 in H by exact Li. destruct (i - length s)%nat as [|[|m]] eqn:D; try discriminate. injection H as <-. rewrite Z.eqb_refl, Nx. unfold zlen. f_equal. lia.
      * intros n k d I. destruct (Lg n k d I) as [I1 I2]. split; [exact I1|]. rewrite nth_error_app1; [exact I2|]. apply nth_error_Some. congruence.
    + conj; [lia|unfold zlen in *; rewrite app_length; cbn; lia| | | |].
      * rewrite Out, Nx. replace (length s + 1 - dn)%nat with (S (length s - dn)) by lia. rewrite seq_snoc, map_app. cbn. unfold zlen. repeat f_equal. lia.
      * rewrite skipn_app, objs_app, Wt. replace (dn - length s)%nat with 0%nat by lia. cbn. rewrite app_nil_r. reflexivity.
      * intros i y H. destruct (Nat.lt_ge_cases i (length s)) as [Li|Li].
        -- rewrite nth_error_app1 in H by exact Li. apply No, H.
        -- rewrite nth_error_app2 in H by exact Li. destruct (i - length s)%nat as [|[|m]] eqn:D; discriminate.
      * intros n k d I. destruct (Lg n k d I) as [I1 I2]. split; [exact I1|]. rewrite nth_error_app1; [exact I2|]. apply nth_error_Some. congruence.
  - rewrite app_nil_r in *. cbn [mstep] in *. destruct (length s - dn)%nat as [|m] eqn:D.
    { rewrite Out in *. cbn. exists dn. rewrite D. conj; auto. }
    assert (Hn : exists w, nth_error s dn = Some w).
    { destruct (nth_error s dn) eqn:E; [eauto|]. apply nth_error_None in E. lia. }
    destruct Hn as [w Hw]. rewrite (skipn_nth _ _ _ Hw) in Wt. rewrite Out in *. cbn [seq map] in *.
    assert (Dn : forall d, nth_error s (Z.to_nat (Z.of_nat dn)) = Some d <-> d = w).
    { intros d. rewrite Nat2Z.id, Hw. split; [intros X; injection X; auto|intros ->; reflexivity]. }
    assert (New : forall k0 d0, (k0, d0) = (k, w) -> forall n k' d, In (n, k', d) (ch_log c ++ [(Z.of_nat dn, k0, d0)]) -> 0 <= n /\ nth_error s (Z.to_nat n) = Some d).
    { intros k0 d0 X n k' d I. injection X as -> ->. apply in_app_iff in I. destruct I as [I|[I|[]]]; [eauto|]. injection I as <- <- <-. split; [lia|]. apply Dn. reflexivity. }
    assert (Rest : forall c', ch_next c' = ch_next c -> ch_no c' = ch_no c -> ch_out c' = map Z.of_nat (seq (S dn) m) -> ch_wait c' = objs (skipn (S dn) s) ->
              ch_log c' = ch_log c ++ [(Z.of_nat dn, k, w)] ->
              exists done, (done <= length s)%nat /\ ch_next c' = zlen s /\ ch_out c' = map Z.of_nat (seq done (length s - done)) /\
              ch_wait c' = objs (skipn done s) /\ (forall i x, nth_error s i = Some (Some x) -> ch_no c' x = Z.of_nat i) /\
              (forall n k d, In (n, k, d) (ch_log c') -> 0 <= n /\ nth_error s (Z.to_nat n) = Some d)).
    { intros c' E1 E2 E3 E4 E5. exists (S dn). rewrite E1, E2, E3, E4, E5. replace (length s - S dn)%nat with m by lia. conj; auto; [lia|]. apply (New k w eq_refl). }
    destruct w as [x|].
    + cbn [objs flat_map app] in Wt. rewrite Wt in *.
      assert (Kx : ch_no c x =? Z.of_nat dn = true) by (apply Z.eqb_eq, No; exact Hw).
      destruct k.
      * rewrite Kx. apply Rest; reflexivity.
      * exfalso. assert (H : nth_error (s ++ more) (Z.to_nat (Z.of_nat dn)) = Some None).
        { apply (PL (Z.of_nat dn) KAns None); [|discriminate]. cbn [ch_log]. apply in_app_iff. right. left. reflexivity. }
        rewrite Nat2Z.id, nth_error_app1 in H by lia. congruence.
      * exfalso. assert (H : nth_error (s ++ more) (Z.to_nat (Z.of_nat dn)) = Some None).
        { apply (PL (Z.of_nat dn) KNul None); [|discriminate]. cbn [ch_log]. apply in_app_iff. right. left. reflexivity. }
        rewrite Nat2Z.id, nth_error_app1 in H by lia. congruence.
    + cbn [objs flat_map app] in Wt. fold (objs (skipn (S dn) s)) in Wt.
      assert (Hd : match ch_wait c with x :: _ => ch_no c x =? Z.of_nat dn = false | [] => True end).
      { destruct (ch_wait c) as [|x q] eqn:W; [exact Logic.I|]. apply Z.eqb_neq. intros E.
        assert (I : In x (objs (skipn (S dn) s))) by (rewrite <- Wt; left; reflexivity).
        unfold objs in I. apply in_flat_map in I. destruct I as ([y|] & I1 & I2); [|destruct I2]. destruct I2 as [->|[]].
        apply In_nth_error in I1. destruct I1 as [j J]. assert (J' : nth_error s (S dn + j) = Some (Some x)).
        { rewrite <- (firstn_skipn (S dn) s). rewrite nth_error_app2; rewrite firstn_length_le by lia; [|lia]. replace (S dn + j - S dn)%nat with j by lia. exact J. }
        apply No in J'. lia. }
      destruct k.
      * destruct (ch_wait c) as [|x q] eqn:W; [apply Rest; auto|]. rewrite Hd. apply Rest; auto.
      * exists dn. cbn [ch_next ch_out ch_wait ch_no ch_log]. rewrite D. conj; auto.
        { rewrite (skipn_nth _ _ _ Hw). destruct (ch_wait c); exact Wt. }
        { apply (New KAns None). reflexivity. }
      * destruct (ch_wait c) as [|x q] eqn:W; apply Rest; auto.
Qed.
Lemma log_grows es e : exists o, ch_log (mrun (es ++ [e])) = ch_log (mrun es) ++ o.
Proof.
  rewrite mrun_snoc. destruct e as [[x|]|k]; cbn [mstep ch_log].
  - exists []. rewrite app_nil_r. reflexivity.
  - exists []. rewrite app_nil_r. reflexivity.
  - destruct (ch_out (mrun es)); [exists []; rewrite app_nil_r; reflexivity|]. destruct k, (ch_wait (mrun es)) as [|x q]; cbn [ch_log]; eauto.
    destruct (ch_no (mrun es) x =? z); cbn [ch_log]; eauto.
Qed.
Lemma match_run es more : NoDup (objs (sends es)) -> plain (sends es ++ more) (ch_log (mrun es)) -> match_ok es (mrun es).
Proof.
  revert more. induction es as [|e es IH] using rev_ind; intros more N PL.
  - exists 0%nat. cbn. conj; auto; [intros [|i] x H; discriminate|intros n k d []].
  - apply (match_step es e more); auto. destruct (log_grows es e) as [o G]. apply (IH (sends [e] ++ more)).
    + rewrite sends_app, objs_app in N. clear - N. induction (objs (sends es)) as [|a l IHl]; [constructor|]. inversion N; subst. constructor; auto. intros I. apply H1, in_app_iff. auto.
    + intros n k d I K. rewrite app_assoc, <- sends_app. apply (PL n k d); auto. rewrite G. apply in_app_iff. auto.
Qed.
Lemma match_thm es : NoDup (objs (sends es)) -> plain (sends es) (ch_log (mrun es)) ->
  forall n k d, In (n, k, d) (ch_log (mrun es)) -> 0 <= n /\ nth_error (sends es) (Z.to_nat n) = Some d.
Proof.
  intros N P. rewrite <- (app_nil_r (sends es)) in P. destruct (match_run es [] N P) as (dn & _ & _ & _ & _ & _ & H). exact H.
Qed.

(** Nobody is given anything while an object with an old number is the first. *)
Definition stuck (x : Z) (c : chs) : Prop :=
  (exists q, ch_wait c = x :: q) /\ ch_no c x < ch_next c /\ Forall (fun n => ch_no c x < n) (ch_out c).
Lemma stuck_step x c e : stuck x c -> e <> MSend (Some x) -> stuck x (mstep c e) /\ given (ch_log (mstep c e)) = given (ch_log c).
Proof.
  intros ((q & W) & L & F) N. destruct e as [[y|]|k]; cbn [mstep].
  - assert (E : x =? y = false) by (apply Z.eqb_neq; congruence). unfold stuck. cbn [ch_wait ch_no ch_next ch_out ch_log]. rewrite W, E. conj; [eexists; reflexivity|lia| |reflexivity]. apply Forall_app. auto.
  - unfold stuck. cbn [ch_wait ch_no ch_next ch_out ch_log]. conj; [eauto|lia| |reflexivity]. apply Forall_app. auto.
  - destruct (ch_out c) as [|n out] eqn:O; [unfold stuck; rewrite O; conj; eauto|]. rewrite W. inversion F as [|a l Hn Fo]; subst.
    assert (E : ch_no c x =? n = false) by (apply Z.eqb_neq; lia).
    assert (G : forall k', given (ch_log c ++ [(n, k', None)]) = given (ch_log c)).
    { intros k'. unfold given. rewrite flat_map_app. cbn. apply app_nil_r. }
    destruct k; rewrite ?E; unfold stuck; cbn [ch_wait ch_no ch_next ch_out ch_log]; rewrite G; conj; eauto.
Qed.
Lemma stuck_run x more c : stuck x c -> ~ In (MSend (Some x)) more -> given (ch_log (fold_left mstep more c)) = given (ch_log c).
Proof.
  revert c. induction more as [|e more IH]; intros c S N; [reflexivity|]. cbn [fold_left].
  destruct (stuck_step x c e S) as [S' G]; [intros ->; apply N; left; reflexivity|]. rewrite IH; [exact G|exact S'|]. intros I. apply N. right. exact I.
Qed.
Lemma starve_ans_witness : exists es, NoDup (objs (sends es)) /\ In (Some 2) (sends es) /\ answers es = [KAns; KNul] /\
  forall more, ~ In (MSend (Some 1)) more -> given (ch_log (mrun (es ++ more))) = [].
Proof.
  exists [MSend (Some 1); MSend (Some 2); MReply KAns; MReply KNul]. conj; [cbn; repeat constructor; cbn; intuition discriminate|cbn; auto|reflexivity|].
  intros more N. unfold mrun. rewrite fold_left_app. rewrite (stuck_run 1); [reflexivity| |exact N].
  unfold stuck. cbn. conj; [eauto|lia|]. repeat constructor; lia.
Qed.
Lemma starve_reuse_witness : exists es, sends es = [Some 1; Some 1] /\ answers es = [KRpy; KRpy] /\
  forall more, ~ In (MSend (Some 1)) more -> given (ch_log (mrun (es ++ more))) = [(1, 1)].
Proof.
  exists [MSend (Some 1); MSend (Some 1); MReply KRpy; MReply KRpy]. conj; try reflexivity.
  intros more N. unfold mrun. rewrite fold_left_app. rewrite (stuck_run 1); [reflexivity| |exact N].
  unfold stuck. cbn. conj; [eauto|lia|]. repeat constructor; lia.
Qed.
