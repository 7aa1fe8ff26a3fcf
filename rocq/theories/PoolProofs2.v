From Coq Require Import Permutation.
From Verif Require Import Base AsyncModel AsyncSpec AsyncProofs TimeModel PoolModel PoolSpec PoolProofs.

Ltac fields := cbn [tp_q tp_threads tp_stopped tp_run tp_next tp_tasks tp_conf tp_last tp_hold tp_subm tp_beacons
  tp_stopping tp_exit tp_log].

(** A thread leaves the list because of a stop beacon. *)
Lemma filter_out_nodup l t : NoDup l -> In t l -> Permutation l (t :: filter (fun i => negb (i =? t)) l).
Proof.
  intros N I. apply in_split in I as (a & b & ->). apply NoDup_remove_2 in N. rewrite in_app_iff in N.
  assert (F : forall c, ~ In t c -> filter (fun i => negb (i =? t)) c = c).
  { induction c as [|y c IH]; cbn; [auto|]. intros M. replace (y =? t) with false by lia. cbn. f_equal. apply IH. tauto. }
  rewrite filter_app. cbn. replace (t =? t) with true by lia. cbn. rewrite !F by tauto.
  symmetry. apply Permutation_middle.
Qed.
Lemma collect_in A (f : Z -> tstate -> list A) l t s x : state_of l t = Some s -> In x (f t s) -> In x (collect f l).
Proof. intros S I. apply state_in in S. apply in_flat_map. exists (t, s). auto. Qed.

Lemma inv_stop2 p t : pinv p -> state_of (tp_run p) t = Some (TGot 2) ->
  pinv (goto (mkTP (tp_q p) (filter (fun i => negb (i =? t)) (tp_threads p)) (tp_stopped p ++ [t]) (tp_run p)
                   (tp_next p) (tp_tasks p) (tp_conf p) (tp_last p) (tp_hold p) (tp_subm p) (tp_beacons p)
                   (tp_stopping p) (tp_exit p) (tp_log p)) t TPush3).
Proof.
  intros I S. pose proof (v_ids p I) as N. destruct I. unfold goto, with_run. fields.
  pose proof (fun A (f : Z -> tstate -> list A) => collect_set A f (tp_run p) t (TGot 2) TPush3 N S) as C.
  assert (IT : In t (tp_threads p)).
  { destruct v_list as (ended & P & _). rewrite P. apply in_app_iff. right. eapply collect_in; [exact S|]. cbn. auto. }
  pose proof (filter_out_nodup _ t v_thr IT) as FP.
  constructor; fields; rewrite ?set_state_ids; auto.
  - now apply NoDup_filter.
  - intros w K. apply v_lt. destruct K as [K|[K|[K|K]]]; [auto| | |].
    + apply filter_In in K. tauto.
    + apply in_app_iff in K as [K|[<-|[]]]; auto.
    + destruct (C _ fjoin) as (r & C1 & C2). cbn in C1, C2. rewrite C2, <- C1 in K. auto.
  - destruct (C _ fwait) as (r & C1 & C2). cbn in C1, C2. now rewrite C2, <- C1.
  - destruct (C _ fgot) as (r & C1 & C2). cbn in C1, C2. rewrite C2. rewrite C1 in v_got. now inversion v_got.
  - destruct (C _ fheld) as (r & C1 & C2). cbn in C1, C2. now rewrite C2, <- C1.
  - destruct v_list as (ended & P & E). exists ended. split.
    + destruct (C _ flisted) as (r & C1 & C2). cbn in C1, C2. rewrite C2. rewrite C1 in P.
      rewrite FP in P. rewrite <- Permutation_middle in P. now apply Permutation_cons_inv in P.
    + destruct (C _ fone) as (r & C1 & C2). cbn in C1, C2. apply Permutation_length in C1, C2. unfold zlen in *. lia.
  - intros w K J. apply filter_In in J as (J & E). destruct K as [K|K].
    + apply in_app_iff in K as [K|[<-|[]]]; [|lia]. now apply (v_stop w); auto.
    + destruct (C _ fjoin) as (r & C1 & C2). cbn in C1, C2. rewrite C2, <- C1 in K. now apply (v_stop w); auto.
Qed.

(** A thread ends because of a beacon of vortex_thread_pool_exit. *)
Lemma inv_end1 p t : pinv p -> state_of (tp_run p) t = Some (TGot 1) -> pinv (with_run p (drop_thread (tp_run p) t)).
Proof.
  intros I S. pose proof (v_ids p I) as N. destruct I. unfold with_run.
  pose proof (fun A (f : Z -> tstate -> list A) => collect_drop A f (tp_run p) t (TGot 1) N S) as C.
  constructor; fields; auto.
  - now apply drop_nodup.
  - intros w K. apply v_lt. destruct K as [K|[K|[K|K]]]; auto.
    + left. now apply drop_ids in K.
    + pose proof (C _ fjoin) as C1. cbn in C1. rewrite C1. auto.
  - pose proof (C _ fwait) as C1. cbn in C1. now rewrite <- C1.
  - pose proof (C _ fgot) as C1. cbn in C1. rewrite C1 in v_got. now inversion v_got.
  - pose proof (C _ fheld) as C1. cbn in C1. now rewrite <- C1.
  - destruct v_list as (ended & P & E). exists (ended ++ [t]). split.
    + pose proof (C _ flisted) as C1. cbn in C1. rewrite P, C1, <- app_assoc. reflexivity.
    + pose proof (C _ fone) as C1. cbn in C1. apply Permutation_length in C1. unfold zlen in *. rewrite app_length. cbn in *. lia.
  - intros w K. apply v_stop. pose proof (C _ fjoin) as C1. cbn in C1. rewrite C1. auto.
Qed.
(** And because it had a stop beacon. *)
Lemma inv_drop3 p t : pinv p -> state_of (tp_run p) t = Some TPush3 -> pinv (with_run p (drop_thread (tp_run p) t)).
Proof.
  intros I S. pose proof (v_ids p I) as N. destruct I. unfold with_run.
  pose proof (fun A (f : Z -> tstate -> list A) => collect_drop A f (tp_run p) t TPush3 N S) as C.
  constructor; fields; auto.
  - now apply drop_nodup.
  - intros w K. apply v_lt. destruct K as [K|[K|[K|K]]]; auto.
    + left. now apply drop_ids in K.
    + pose proof (C _ fjoin) as C1. cbn in C1. rewrite C1. auto.
  - pose proof (C _ fwait) as C1. cbn in C1. now rewrite <- C1.
  - pose proof (C _ fgot) as C1. cbn in C1. now rewrite C1 in v_got.
  - pose proof (C _ fheld) as C1. cbn in C1. now rewrite <- C1.
  - destruct v_list as (ended & P & E). exists ended. split.
    + pose proof (C _ flisted) as C1. cbn in C1. now rewrite P, C1.
    + pose proof (C _ fone) as C1. cbn in C1. apply Permutation_length in C1. unfold zlen in *. cbn in *. lia.
  - intros w K. apply v_stop. pose proof (C _ fjoin) as C1. cbn in C1. rewrite C1. auto.
Qed.

(** ** Every step keeps the invariant *)
Lemma eta p : mkTP (tp_q p) (tp_threads p) (tp_stopped p) (tp_run p) (tp_next p) (tp_tasks p) (tp_conf p) (tp_last p)
  (tp_hold p) (tp_subm p) (tp_beacons p) (tp_stopping p) (tp_exit p) (tp_log p) = p.
Proof. now destruct p. Qed.
Lemma frame p c l h sb st ex : pinv p -> (forall a n, h = Some (a, n) -> 0 < n) ->
  (tp_stopping p = true -> st = true) -> (tp_exit p = true -> ex = true) ->
  pinv (mkTP (tp_q p) (tp_threads p) (tp_stopped p) (tp_run p) (tp_next p) (tp_tasks p) c l h sb (tp_beacons p) st ex (tp_log p)).
Proof. intros I H S E. pose proof (inv_frame p c l h sb st ex [] I H S E ltac:(constructor)) as F. now rewrite app_nil_r in F. Qed.
Lemma inv_say p o : pinv p -> Forall aside o -> pinv (say p o).
Proof. intros I O. unfold say. apply inv_frame; auto. apply (v_hold p I). Qed.
Lemma inv_last p l : pinv p -> pinv (with_last p l).
Proof. intros I. unfold with_last. apply frame; auto. apply (v_hold p I). Qed.
Lemma inv_remove p t n : pinv p -> pinv (remove_internal p t n).
Proof.
  intros I. unfold remove_internal, with_hold. apply frame; auto. intros a m.
  set (z := Z.max 0 _). destruct (0 <? z) eqn:E; [|discriminate]. intros H. injection H as <- <-. lia.
Qed.

Lemma resize_run p t now later made p' : resize p t now later made = Ok p' ->
  exists ids, tp_run p' = tp_run p ++ map (fun t => (t, TStart)) ids.
Proof.
  unfold resize. destruct (negb _ || _ || _).
  { intros H. injection H as <-. exists []. now rewrite app_nil_r. }
  destruct (timeval_substract now (tp_last p)) as [[[d b] l]|]; [|discriminate]. cbn [obind].
  destruct (_ && _ && _ && _).
  { intros H. injection H as <-. cbn. eauto. }
  destruct (_ && _ && _ && _ && _); intros H; injection H as <-; exists []; cbn; now rewrite app_nil_r.
Qed.
Lemma inv_resize p t now later made p' : pinv p -> resize p t now later made = Ok p' -> pinv p'.
Proof.
  intros I. unfold resize. destruct (negb _ || _ || _).
  { intros H. injection H as <-. exact I. }
  destruct (timeval_substract now (tp_last p)) as [[[d b] l]|]; [|discriminate]. cbn [obind].
  destruct (_ && _ && _ && _).
  { intros H. injection H as <-. apply inv_say; [|repeat constructor]. apply inv_last, inv_add, I. }
  destruct (_ && _ && _ && _ && _); intros H; injection H as <-.
  - apply inv_say; [|repeat constructor]. apply inv_last, inv_remove, I.
  - now apply inv_last.
Qed.

(** Moves that do nothing but change the state of the thread. *)
Definition plain (s s' : tstate) : Prop := forall t,
  fwait t s = [] /\ fwait t s' = [] /\ flisted t s = [t] /\ flisted t s' = [t] /\ fone t s = [] /\ fone t s' = [] /\
  fgot t s' = [] /\ incl (fjoin t s') (fjoin t s) /\ fheld t s = fheld t s'.
Lemma inv_plain p t s s' : pinv p -> state_of (tp_run p) t = Some s -> plain s s' -> pinv (goto p t s').
Proof.
  intros I S P. destruct (P t) as (A & B & C & D & E & F & G & H & J).
  pose proof (inv_goto p t s s' (tp_stopped p) [] I S A B C D E F G) as Q. rewrite app_nil_r in Q.
  unfold goto, with_run. apply Q; auto.
  - intros x X. apply in_app_iff in X. apply in_app_iff. destruct X as [X|X]; auto.
  - cbn. now rewrite J.
Qed.
Lemma inv_resized p t s s' now later made p' : pinv p -> state_of (tp_run p) t = Some s -> plain s s' ->
  resize p t now later made = Ok p' -> pinv (goto p' t s').
Proof.
  intros I S P R. apply inv_plain with (s := s); [eapply inv_resize; eauto| |exact P].
  destruct (resize_run _ _ _ _ _ _ R) as (ids & ->). now apply state_of_app.
Qed.

Ltac plains := intros ?; cbn; repeat split; auto using incl_refl, incl_nil_l.

Lemma inv_thread p t now later made k p' : pinv p -> thread_step p t now later made k = Ok p' -> pinv p'.
Proof.
  intros I. unfold thread_step. destruct (holds p t); [intros H; now injection H as <-|].
  destruct (state_of (tp_run p) t) as [s|] eqn:S; [|intros H; now injection H as <-].
  destruct s as [| |x|n|n| | |w].
  - intros H. injection H as <-. now apply inv_enter.
  - intros H. now injection H as <-.
  - destruct (x =? 0) eqn:E0.
    { assert (x = 0) by lia. subst x. assert (PL : plain (TGot 0) TStart) by plains.
      destruct (tp_exit p); [intros H; injection H as <-; eapply inv_plain; eauto|].
      destruct (hold_free p); [|intros H; now injection H as <-].
      destruct (resize p t now later made) as [q|] eqn:R; [|discriminate]. intros H. injection H as <-. eapply inv_resized; eauto. }
    destruct (x =? 3) eqn:E3.
    { assert (x = 3) by lia. subst x. destruct (joining p); [intros H; now injection H as <-|].
      destruct (tp_stopped p) as [|w r] eqn:ST; intros H; injection H as <-.
      - apply inv_plain with (s := TGot 3); auto. plains.
      - unfold goto, with_run. fields.
        pose proof (inv_goto p t (TGot 3) (TJoin w) r [] I S) as Q. rewrite (app_nil_r (tp_log p)) in Q. apply Q; auto.
        rewrite ST. intros y Y. apply in_app_iff in Y. cbn in *. rewrite in_app_iff. tauto. }
    destruct (x =? 2) eqn:E2.
    { assert (x = 2) by lia. subst x. destruct (joining p || negb (hold_free p)); intros H; injection H as <-; [auto|].
      now apply inv_stop2. }
    destruct (x =? 1) eqn:E1.
    { assert (x = 1) by lia. subst x. destruct (tp_stopping p) eqn:ST; [|discriminate]. intros H. injection H as <-. now apply inv_end1. }
    intros H. injection H as <-. assert (G : 0 <= x).
    { pose proof (v_got p I) as G. rewrite Forall_forall in G. apply G. eapply collect_in; [exact S|]. cbn. auto. }
    apply inv_plain with (s := TGot x); auto. intros t'. cbn. rewrite E1. replace (3 <? x) with true by lia.
    destruct (tc_preempt (tp_conf p)); cbn; repeat split; auto using incl_refl.
  - assert (PL : plain (TPre n) (TRun n)) by plains.
    destruct (tp_exit p); [intros H; injection H as <-; eapply inv_plain; eauto|].
    destruct (hold_free p); [|intros H; now injection H as <-].
    destruct (resize p t now later made) as [q|] eqn:R; [|discriminate]. intros H. injection H as <-. eapply inv_resized; eauto.
  - intros H. injection H as <-. unfold say, goto, with_run. fields.
    set (o := if negb (tp_stopping p) && negb (tp_exit p) then PRan t n else PDropped t n).
    pose proof (inv_goto p t (TRun n) TPost (tp_stopped p) [o] I S) as Q. apply Q; auto using incl_refl.
    + subst o. destruct (negb _ && negb _); reflexivity.
    + subst o. destruct (negb _ && negb _); reflexivity.
    + subst o. destruct (negb _ && negb _); reflexivity.
    + subst o. destruct (tp_stopping p), (tp_exit p); cbn; auto; congruence.
  - assert (PL : plain TPost TStart) by plains.
    destruct (tc_preempt (tp_conf p) || tp_exit p); [intros H; injection H as <-; eapply inv_plain; eauto|].
    destruct (hold_free p); [|intros H; now injection H as <-].
    destruct (resize p t now later made) as [q|] eqn:R; [|discriminate]. intros H. injection H as <-. eapply inv_resized; eauto.
  - intros H. injection H as <-. pose proof (inv_drop3 p t I S) as I'. set (p1 := with_run p _) in *.
    pose proof (inv_push p1 3 k (tp_hold p1) (tp_subm p1) I' ltac:(lia) ltac:(lia) ltac:(lia) (v_hold p1 I')) as Q.
    cbn [Z.ltb Z.eqb Z.compare Pos.compare Pos.compare_cont Pos.eqb] in Q. rewrite app_nil_r, eta in Q. exact Q.
  - intros H. injection H as <-. destruct (state_of (tp_run p) w); [auto|].
    apply inv_plain with (s := TJoin w); auto. plains.
Qed.

Lemma inv_step p e p' : pinv p -> pstep p e = Ok p' -> pinv p'.
Proof.
  intros I. destruct e as [|k|t now later made k|k|k|k|n made|n|c now| | |k]; cbn [pstep].
  - destruct (tp_stopping p) eqn:ST; intros H; injection H as <-; [auto|]. rewrite <- ST. apply frame; auto. apply (v_hold p I).
  - destruct (0 <? tp_subm p); intros H; injection H as <-; [|auto].
    pose proof (v_sub p I) as (T & _).
    pose proof (inv_push p (4 + tp_tasks p) k (tp_hold p) (tp_subm p - 1) I ltac:(lia) ltac:(lia) ltac:(lia) (v_hold p I)) as Q.
    replace (3 <? 4 + tp_tasks p) with true in Q by lia. replace (4 + tp_tasks p =? 1) with false in Q by lia. exact Q.
  - now apply inv_thread.
  - intros H. injection H as <-. now apply inv_wake.
  - intros H. injection H as <-. now apply inv_resume.
  - destruct (tp_hold p) as [[h n]|] eqn:HD; intros H; injection H as <-; [|auto].
    pose proof (inv_push p 2 k (if 1 <? n then Some (h, n - 1) else None) (tp_subm p) I ltac:(lia) ltac:(lia) ltac:(lia)) as Q.
    cbn [Z.ltb Z.eqb Z.compare Pos.compare Pos.compare_cont Pos.eqb] in Q. rewrite app_nil_r in Q. apply Q.
    intros a m. destruct (1 <? n) eqn:E; [|discriminate]. intros J. injection J as <- <-. lia.
  - destruct (hold_free p); intros H; injection H as <-; [|auto]. now apply inv_add.
  - destruct (hold_free p && (0 <? n)); intros H; injection H as <-; [|auto]. now apply inv_remove.
  - destruct (hold_free p); intros H; injection H as <-; [|auto]. unfold say. fields. apply inv_frame; auto; [apply (v_hold p I)|repeat constructor].
  - destruct (hold_free p); intros H; injection H as <-; [|auto]. apply frame; auto. apply (v_hold p I).
  - intros H. injection H as <-. apply frame; auto. apply (v_hold p I).
  - destruct (tp_stopping p && (tp_beacons p <? zlen (tp_threads p))) eqn:B; intros H; injection H as <-; [|auto].
    apply andb_prop in B as (B & _).
    pose proof (inv_push p 1 k (tp_hold p) (tp_subm p) I ltac:(lia) ltac:(lia) ltac:(auto) (v_hold p I)) as Q.
    cbn [Z.ltb Z.eqb Z.compare Pos.compare Pos.compare_cont Pos.eqb] in Q. rewrite app_nil_r in Q. exact Q.
Qed.
Lemma inv_run es : forall p p', pinv p -> prun p es = Ok p' -> pinv p'.
Proof.
  induction es as [|e es IH]; intros p p' I; cbn [prun]; [intros H; now injection H as <-|].
  destruct (pstep p e) as [q|] eqn:E; [|discriminate]. cbn [obind]. apply IH. eapply inv_step; eauto.
Qed.
Lemma inv_init n made : pinv (tp0 n made).
Proof.
  apply inv_add. constructor; cbn; try lia; auto using NoDup_nil; try tauto; try congruence.
  - split; cbn; [reflexivity|]. congruence.
  - split; [lia|reflexivity].
  - exists []. split; [constructor|reflexivity].
Qed.

(** ** Tasks *)
Lemma nodup_perm A (l l' : list A) : Permutation l l' -> NoDup l -> NoDup l'.
Proof. apply Permutation_NoDup. Qed.
Lemma nodup_app_l A (a b : list A) : NoDup (a ++ b) -> NoDup a.
Proof.
  induction a as [|x a IH]; cbn; [constructor|]. intros N. inversion N; subst. constructor; [|auto].
  intros I. apply H1. apply in_app_iff. auto.
Qed.
Lemma tasks_once n made es p : prun (tp0 n made) es = Ok p ->
  NoDup (submitted (tp_log p)) /\ NoDup (executed (tp_log p)) /\
  (forall x, In x (executed (tp_log p)) -> In x (taken (tp_log p)) /\ ~ In x (dropped (tp_log p))) /\
  (exists rest, submitted (tp_log p) = taken (tp_log p) ++ rest).
Proof.
  intros R. pose proof (inv_run es _ _ (inv_init n made) R) as [].
  assert (NS : NoDup (submitted (tp_log p))) by (destruct v_sub as (_ & ->); apply zseq_nodup).
  assert (NT : NoDup (taken (tp_log p))) by (rewrite v_order in NS; now apply nodup_app_l in NS).
  pose proof (nodup_perm _ _ _ v_tasks NT) as NE. conj; auto.
  - now apply nodup_app_l in NE.
  - intros x I. split; [rewrite v_tasks; apply in_app_iff; auto|]. intros D.
    clear - NE I D. induction (executed (tp_log p)) as [|y l IH]; cbn in *; [tauto|]. inversion NE; subst.
    destruct I as [->|I]; [|auto]. apply H1. rewrite !in_app_iff. auto.
  - exists (tasks_in (rev (aq_data (tp_q p)))). exact v_order.
Qed.

(** ** Nothing left to do *)
Lemma run_len_set l t s : length (set_state l t s) = length l.
Proof. unfold set_state. apply map_length. Qed.
Lemma goto_moves p t s s' : state_of (tp_run p) t = Some s -> s <> s' -> forall q,
  tp_run q = tp_run p \/ (exists l, tp_run q = tp_run p ++ l) -> goto q t s' <> p.
Proof.
  intros S N q Q E. assert (I : In t (map fst (tp_run q))).
  { apply state_in in S. apply (in_map fst) in S. destruct Q as [->|(l & ->)]; [auto|]. rewrite map_app, in_app_iff. auto. }
  apply (f_equal (fun p => state_of (tp_run p) t)) in E. unfold goto, with_run in E. cbn [tp_run] in E.
  rewrite state_of_set in E by exact I. congruence.
Qed.
Lemma p_queue_log p e : aq_log (tp_q (p_queue p e)) = aq_log (astep (tp_q p) e).
Proof. reflexivity. Qed.
Lemma app_ne A (l : list A) x : l ++ [x] <> l.
Proof. intros H. apply (f_equal (@length A)) in H. rewrite app_length in H. cbn in H. lia. Qed.

Lemma quiet_waits p : pinv p -> quiet p ->
  tp_hold p = None /\ aq_woken (tp_q p) = [] /\ (forall t s, state_of (tp_run p) t = Some s -> s = TWait).
Proof.
  intros I (QT & QR & QP). cbn [pstep] in *.
  assert (H : tp_hold p = None).
  { destruct (tp_hold p) as [[h n]|] eqn:H; [|auto]. specialize (QP 0%nat). injection QP as QP.
    apply (f_equal (fun p => aq_log (tp_q p))) in QP. rewrite p_queue_log in QP.
    destruct (q_push_shape (tp_q p) 2 0 ltac:(lia)) as (L & _). unfold with_hold in QP. cbn [tp_q] in QP.
    rewrite L in QP. now apply app_ne in QP. }
  assert (W : aq_woken (tp_q p) = []).
  { destruct (aq_woken (tp_q p)) as [|w r] eqn:W; [auto|]. specialize (QR 0%nat). injection QR as QR.
    apply (f_equal (fun p => aq_log (tp_q p))) in QR. rewrite p_queue_log in QR. cbn [astep] in QR. unfold pop_resume in QR.
    rewrite W in QR. cbn [pick nth_error firstn skipn app] in QR.
    pose proof (v_timed p I) as T. rewrite W in T. apply Forall_app in T as (_ & T). inversion T; subst.
    rewrite H2 in QR. destruct (take _ (wt_id w)) eqn:TK.
    - apply take_some in TK as (x & r' & _ & ->). cbn in QR. now apply app_ne in QR.
    - cbn in QR. now apply app_ne in QR. }
  assert (HF : hold_free p = true) by (unfold hold_free; now rewrite H).
  assert (NH : forall t, holds p t = false) by (intros t; unfold holds; now rewrite H).
  assert (RZ : forall t s s' now later made p', state_of (tp_run p) t = Some s -> s <> s' ->
            (let! q := resize p t now later made in Ok (goto q t s')) = Ok p' -> p' <> p).
  { intros t s s' now later made p' S N E. destruct (resize p t now later made) as [q|] eqn:R; [|discriminate]. cbn in E.
    injection E as <-. eapply goto_moves; eauto. right. destruct (resize_run _ _ _ _ _ _ R) as (ids & ->). eauto. }
  (* first those that never wait for others *)
  assert (P1 : forall t s, state_of (tp_run p) t = Some s -> match s with TWait | TJoin _ => True | TGot x => x = 2 \/ x = 3 | _ => False end).
  { intros t s S. specialize (QT t (mkTV 0 0) (mkTV 0 0) 0 0%nat). unfold thread_step in QT. rewrite NH, S in QT.
    destruct s as [| |x|n|n| | |w]; auto.
    - injection QT as QT. pose proof (v_ids p I) as N.
      apply (f_equal (fun p => state_of (tp_run p) t)) in QT. rewrite S in QT. unfold p_queue, goto, with_run in QT. cbn [tp_run tp_q tp_log] in QT.
      assert (IT : In t (map fst (tp_run p))) by (apply state_in in S; now apply (in_map fst) in S).
      change (astep (tp_q p) (ETimed t 100000)) with (pop_enter (tp_q p) t true) in QT. unfold pop_enter in QT.
      destruct (take _ t) as [q'|] eqn:T.
      + apply take_some in T as (x & r & _ & ->). cbn [aq_log] in QT. rewrite results_app in QT.
        cbn [flat_map fold_left app fst snd] in QT. rewrite state_of_set in QT by now rewrite set_state_ids. discriminate.
      + cbn [aq_log] in QT. rewrite results_same in QT. cbn [fold_left] in QT. rewrite state_of_set in QT by exact IT. discriminate.
    - destruct (x =? 0) eqn:E0.
      { exfalso. destruct (tp_exit p).
        - injection QT as QT. eapply goto_moves in QT; eauto. discriminate.
        - rewrite HF in QT. eapply RZ; eauto. discriminate. }
      destruct (x =? 3) eqn:E3; [lia|]. destruct (x =? 2) eqn:E2; [lia|]. exfalso.
      destruct (x =? 1) eqn:E1.
      { destruct (tp_stopping p); [|discriminate]. injection QT as QT. apply (f_equal (fun p => length (tp_run p))) in QT. cbn in QT.
        pose proof (split_thread _ _ _ (v_ids p I) S) as (a & b & E & A & B). rewrite E, (drop_split _ _ _ _ A B) in QT.
        rewrite !app_length in QT. cbn in QT. lia. }
      injection QT as QT. eapply goto_moves in QT; eauto. destruct (tc_preempt (tp_conf p)); discriminate.
    - destruct (tp_exit p).
      + injection QT as QT. eapply goto_moves in QT; eauto. discriminate.
      + rewrite HF in QT. eapply RZ; eauto. discriminate.
    - injection QT as QT. apply (f_equal (fun p => state_of (tp_run p) t)) in QT. unfold say, goto, with_run in QT. cbn [tp_run] in QT.
      assert (IT : In t (map fst (tp_run p))) by (apply state_in in S; now apply (in_map fst) in S).
      rewrite state_of_set, S in QT by exact IT. discriminate.
    - destruct (tc_preempt (tp_conf p) || tp_exit p).
      + injection QT as QT. eapply goto_moves in QT; eauto. discriminate.
      + rewrite HF in QT. eapply RZ; eauto. discriminate.
    - injection QT as QT. apply (f_equal (fun p => aq_log (tp_q p))) in QT. rewrite p_queue_log in QT.
      destruct (q_push_shape (tp_q p) 3 0 ltac:(lia)) as (L & _). unfold with_run in QT. cbn [tp_q] in QT.
      rewrite L in QT. now apply app_ne in QT. }
  (* nobody waits for a thread to end *)
  assert (P2 : forall t w, state_of (tp_run p) t <> Some (TJoin w)).
  { intros t w S. pose proof (QT t (mkTV 0 0) (mkTV 0 0) 0 0%nat) as Q. unfold thread_step in Q. rewrite NH, S in Q.
    injection Q as Q. destruct (state_of (tp_run p) w) as [s|] eqn:SW.
    - assert (J : ~ In w (tp_threads p)).
      { apply (v_stop p I). right. eapply collect_in; [exact S|]. cbn. auto. }
      apply J. destruct (v_list p I) as (ended & P & _). rewrite P. apply in_app_iff. right.
      apply P1 in SW as Z. eapply collect_in; [exact SW|]. destruct s; cbn; try contradiction; auto.
    - eapply goto_moves in Q; eauto. discriminate. }
  assert (NJ : joining p = false).
  { destruct (joining p) eqn:J; [|auto]. exfalso. unfold joining in J. apply existsb_exists in J as ([t s] & IN & E). cbn in E.
    destruct s as [| |x|n|n| | |w]; try discriminate. apply (P2 t w).
    clear - IN I. pose proof (v_ids p I) as N. unfold state_of. induction (tp_run p) as [|[a b] l IH]; cbn in *; [tauto|].
    inversion N; subst. destruct (a =? t) eqn:E.
    - destruct IN as [IN|IN]; [now injection IN as -> ->|]. exfalso. apply H1. replace a with t by lia.
      apply in_map_iff. exists (t, TJoin w). auto.
    - destruct IN as [IN|IN]; [injection IN as -> ->; lia|]. auto. }
  conj; auto. intros t s S. pose proof (P1 t s S) as P. destruct s as [| |x|n|n| | |w]; try contradiction; auto.
  - exfalso. specialize (QT t (mkTV 0 0) (mkTV 0 0) 0 0%nat). unfold thread_step in QT. rewrite NH, S, NJ, HF in QT. cbn [orb negb] in QT.
    assert (IT : In t (map fst (tp_run p))) by (apply state_in in S; now apply (in_map fst) in S).
    destruct P as [-> | ->].
    + cbn in QT. injection QT as QT. apply (f_equal (fun p => state_of (tp_run p) t)) in QT. unfold goto, with_run in QT. cbn [tp_run] in QT.
      rewrite state_of_set, S in QT by exact IT. discriminate.
    + cbn in QT. injection QT as QT. apply (f_equal (fun p => state_of (tp_run p) t)) in QT. destruct (tp_stopped p);
      unfold goto, with_run in QT; cbn [tp_run] in QT; rewrite state_of_set, S in QT by exact IT; discriminate.
  - exfalso. now apply (P2 t w).
Qed.

Lemma state_of_in l t s : NoDup (map fst l) -> In (t, s) l -> state_of l t = Some s.
Proof.
  unfold state_of. induction l as [|[a b] l IH]; cbn; [tauto|]. intros N I. inversion N; subst. destruct (a =? t) eqn:E.
  - destruct I as [I|I]; [now injection I as -> ->|]. exfalso. apply H1. replace a with t by lia.
    apply in_map_iff. exists (t, s). auto.
  - destruct I as [I|I]; [injection I as -> ->; lia|]. auto.
Qed.
Lemma quiet_empty p : pinv p -> quiet p -> tp_run p <> [] -> aq_data (tp_q p) = [].
Proof.
  intros I Q N. destruct (quiet_waits p I Q) as (_ & W & S).
  destruct (aq_data (tp_q p)) as [|x l] eqn:D; [auto|]. exfalso.
  destruct (v_awake p I) as (_ & A). rewrite W, D in A. cbn in A.
  assert (B : aq_blocked (tp_q p) <> []).
  { intros B. pose proof (v_wait p I) as V. rewrite B, W in V. cbn in V. apply Permutation_nil in V.
    destruct (tp_run p) as [|[t s] r] eqn:R; [congruence|].
    assert (s = TWait). { apply (S t). unfold state_of. cbn. replace (t =? t) with true by lia. reflexivity. }
    subst s. cbn in V. discriminate. }
  specialize (A B). lia.
Qed.
Lemma collect_waits A (f : Z -> tstate -> list A) l : (forall t, f t TWait = []) -> (forall t s, In (t, s) l -> s = TWait) -> collect f l = [].
Proof.
  intros F. induction l as [|[t s] l IH]; intros H; cbn; [auto|]. rewrite (H t s) by (cbn; auto). rewrite F. cbn. apply IH.
  intros t' s' I. apply (H t'). cbn. auto.
Qed.
Lemma quiet_done n made es p : prun (tp0 n made) es = Ok p -> quiet p -> tp_run p <> [] ->
  tp_stopping p = false -> tp_exit p = false -> Permutation (submitted (tp_log p)) (executed (tp_log p)).
Proof.
  intros R Q N S E. pose proof (inv_run es _ _ (inv_init n made) R) as I.
  pose proof (quiet_empty p I Q N) as D. destruct (quiet_waits p I Q) as (_ & _ & W).
  assert (H : collect fheld (tp_run p) = []).
  { apply collect_waits; [reflexivity|]. intros t s IN. apply (W t). now apply state_of_in; [apply (v_ids p I)|]. }
  destruct I. rewrite v_order, D. cbn [rev tasks_in flat_map]. rewrite app_nil_r, v_tasks, H.
  destruct (dropped (tp_log p)) as [|y l] eqn:DR.
  - cbn. now rewrite app_nil_r.
  - destruct v_drop; congruence.
Qed.
Lemma quiet_stopped n made es p : prun (tp0 n made) es = Ok p -> quiet p -> tp_stopping p = true ->
  size p <= tp_beacons p -> tp_run p = [].
Proof.
  intros R Q S B. pose proof (inv_run es _ _ (inv_init n made) R) as I.
  destruct (tp_run p) as [|e r] eqn:RN; [auto|]. exfalso.
  assert (N : tp_run p <> []) by congruence.
  pose proof (quiet_empty p I Q N) as D. destruct (quiet_waits p I Q) as (_ & _ & W).
  assert (WI : forall t s, In (t, s) (tp_run p) -> s = TWait) by (intros t s IN; apply (W t); now apply state_of_in; [apply (v_ids p I)|]).
  destruct (v_list p I) as (ended & P & E). rewrite D in E. cbn in E.
  rewrite (collect_waits _ fone _ ltac:(reflexivity) WI) in E. cbn in E.
  apply Permutation_length in P. rewrite app_length in P. unfold size, zlen in *.
  assert (collect flisted (tp_run p) <> []).
  { rewrite RN. destruct e as [t s]. cbn. rewrite (WI t s) by (rewrite RN; cbn; auto). cbn. discriminate. }
  destruct (collect flisted (tp_run p)); [congruence|]. cbn in P. lia.
Qed.
