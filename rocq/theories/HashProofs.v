From Coq Require Import Permutation.
From Verif Require Import Base AsyncModel AsyncSpec AsyncProofs HashModel HashSpec.

(** ** The table as a map *)
Fixpoint answers (m : imap) (log : list hobs) : Prop :=
  match log with [] => True | o :: r => answer m o /\ answers (ideal_step m o) r end.
Lemma answers_app a b : forall m, answers m (a ++ b) <-> answers m a /\ answers (fold_left ideal_step a m) b.
Proof. induction a as [|o a IH]; intros m; cbn; [tauto|]. rewrite IH. tauto. Qed.
Lemma answers_at log p o r : answers (fun _ => None) log -> log = p ++ o :: r -> answer (ideal p) o.
Proof. intros H ->. apply answers_app in H as (_ & H). exact (proj1 H). Qed.
Lemma ideal_app a b : ideal (a ++ b) = fold_left ideal_step b (ideal a).
Proof. apply fold_left_app. Qed.

Definition keys (l : list hentry) : list Z := map he_key l.
Definition ids (l : list hentry) : list Z := map he_id l.
Definition look (l : list hentry) (k : Z) : option Z := option_map he_val (hfind k l).

Lemma hfind_none k l : hfind k l = None <-> ~ In k (keys l).
Proof.
  unfold hfind, keys. induction l as [|e l IH]; cbn; [tauto|].
  destruct (he_key e =? k) eqn:E.
  - apply Z.eqb_eq in E. split; [discriminate|]. intros N. exfalso. apply N. now left.
  - apply Z.eqb_neq in E. rewrite IH. tauto.
Qed.
Lemma hfind_drop k x l : hfind x (hdrop k l) = if x =? k then None else hfind x l.
Proof.
  unfold hfind, hdrop. induction l as [|e l IH]; cbn.
  - now destruct (x =? k).
  - destruct (he_key e =? k) eqn:E; cbn.
    + rewrite IH. apply Z.eqb_eq in E. destruct (x =? k) eqn:F; [reflexivity|].
      apply Z.eqb_neq in F. now replace (he_key e =? x) with false by lia.
    + rewrite IH. destruct (he_key e =? x) eqn:G; [|reflexivity].
      apply Z.eqb_eq in G. apply Z.eqb_neq in E. now replace (x =? k) with false by lia.
Qed.
Lemma keys_drop k l : forall x, In x (keys (hdrop k l)) <-> In x (keys l) /\ x <> k.
Proof.
  intros x. unfold keys, hdrop. rewrite !in_map_iff. split.
  - intros (e & <- & I). apply filter_In in I as (I & N). split; [eauto|]. lia.
  - intros ((e & <- & I) & N). exists e. split; [reflexivity|]. apply filter_In. split; [exact I|]. lia.
Qed.
Lemma nodup_drop k l : NoDup (keys l) -> NoDup (keys (hdrop k l)).
Proof.
  unfold keys, hdrop. induction l as [|e l IH]; cbn; [auto|]. intros H. inversion H as [|? ? N D]; subst.
  destruct (he_key e =? k); cbn; [auto|]. constructor; [|auto].
  intros I. apply N. rewrite in_map_iff in I. destruct I as (e' & <- & I). apply filter_In in I as (I & _).
  now apply in_map.
Qed.
Lemma drop_perm k l : NoDup (keys l) -> Permutation l (olist (hfind k l) ++ hdrop k l).
Proof.
  unfold keys. induction l as [|e l IH]; intros H; [constructor|]. cbn in H. inversion H as [|? ? N D]; subst.
  unfold hfind, hdrop in *. cbn. destruct (he_key e =? k) eqn:E; cbn.
  - constructor. apply Z.eqb_eq in E. clear IH H D.
    assert (G : filter (fun e0 => negb (he_key e0 =? k)) l = l).
    { induction l as [|x l IH2]; cbn; [reflexivity|].
      cbn in N. replace (he_key x =? k) with false by (apply eq_sym, Z.eqb_neq; intros Q; apply N; left; congruence).
      cbn. f_equal. apply IH2. intros I. apply N. now right. }
    now rewrite G.
  - apply Permutation_trans with (e :: olist (find (fun e0 => he_key e0 =? k) l) ++ filter (fun e0 => negb (he_key e0 =? k)) l).
    + constructor. now apply IH.
    + apply Permutation_middle.
Qed.

Record hinv (h : vhash) : Prop := {
  hi_free : h_freed h = true -> h_tab h = [];
  hi_map : h_freed h = false -> forall k, ideal (h_log h) k = look (h_tab h) k;
  hi_keys : NoDup (keys (h_tab h));
  hi_ans : answers (fun _ => None) (h_log h);
  hi_ids : Permutation (ins_ids (h_log h)) (ids (h_tab h) ++ ids (h_dead h) ++ gone_ids (h_log h));
  hi_fresh : NoDup (ins_ids (h_log h)) /\ forall i, In i (ins_ids (h_log h)) -> i < h_next h
}.

Lemma ins_app a b : ins_ids (a ++ b) = ins_ids a ++ ins_ids b.
Proof. apply flat_map_app. Qed.
Lemma gone_app a b : gone_ids (a ++ b) = gone_ids a ++ gone_ids b.
Proof. apply flat_map_app. Qed.
Lemma ids_app a b : ids (a ++ b) = ids a ++ ids b.
Proof. apply map_app. Qed.

(** Observations that change nothing but the log. *)
Definition quiet (o : hobs) : Prop := match o with HWaited _ _ | HChanged => True | _ => False end.
Lemma quiet_app log w : Forall quiet w ->
  (forall k, ideal (log ++ w) k = ideal log k) /\ ins_ids (log ++ w) = ins_ids log /\ gone_ids (log ++ w) = gone_ids log /\
  (answers (fun _ => None) log -> answers (fun _ => None) (log ++ w)).
Proof.
  intros H. rewrite ins_app, gone_app.
  assert (G : forall m, fold_left ideal_step w m = m /\ answers m w).
  { induction H as [|o w Ho Hw IH]; intros m; cbn; [auto|]. destruct o; cbn in *; try contradiction; destruct (IH m); auto. }
  assert (I : ins_ids w = [] /\ gone_ids w = []).
  { clear G. induction H as [|o w Ho Hw IH]; cbn; [auto|]. destruct o; cbn in *; try contradiction; exact IH. }
  destruct I as (-> & ->). rewrite !app_nil_r.
  split; [|split; [reflexivity|split; [reflexivity|]]].
  - intros k. rewrite ideal_app. now destruct (G (ideal log)) as (-> & _).
  - intros A. apply answers_app. split; [exact A|]. apply G.
Qed.
Lemma waits_quiet a b : Forall quiet (waits_of a b).
Proof.
  unfold waits_of. induction (skipn (length a) b) as [|o l IH]; cbn; [constructor|].
  destruct o; cbn; auto; constructor; auto; exact I.
Qed.

Lemma hinv_frame h h' w :
  hinv h -> Forall quiet w -> h_tab h' = h_tab h -> h_next h' = h_next h -> h_dead h' = h_dead h -> h_freed h' = h_freed h ->
  h_log h' = h_log h ++ w -> hinv h'.
Proof.
  intros [E0 M K A I F] Q T N D R L. destruct (quiet_app (h_log h) w Q) as (G1 & G2 & G3 & G4).
  constructor; rewrite ?T, ?N, ?D, ?R, ?L.
  - exact E0.
  - intros E k. rewrite G1. now apply M.
  - exact K.
  - now apply G4.
  - now rewrite G2, G3.
  - now rewrite G2.
Qed.
Lemma hinv_same h h' :
  hinv h -> h_tab h' = h_tab h -> h_next h' = h_next h -> h_dead h' = h_dead h -> h_freed h' = h_freed h ->
  h_log h' = h_log h -> hinv h'.
Proof. intros. apply hinv_frame with h []; auto. now rewrite app_nil_r. Qed.
Lemma hinv_queue h e : hinv h -> hinv (h_queue h e).
Proof.
  intros H. unfold h_queue. destruct (h_q h); [|exact H].
  eapply hinv_frame; [exact H|apply waits_quiet|reflexivity..].
Qed.
Lemma hinv_see h o : hinv h -> h_freed h = false -> answer (ideal (h_log h)) o ->
  ideal_step (ideal (h_log h)) o = ideal (h_log h) -> ins_ids [o] = [] -> gone_ids [o] = [] -> hinv (h_see h o).
Proof.
  intros [E0 M K A I F] R An S I0 G0. constructor; cbn [h_see h_log h_tab h_next h_dead h_freed].
  - exact E0.
  - intros _ k. rewrite ideal_app. cbn. rewrite S. now apply M.
  - exact K.
  - apply answers_app. cbn. auto.
  - rewrite ins_app, gone_app, I0, G0, !app_nil_r. exact I.
  - rewrite ins_app, I0, app_nil_r. exact F.
Qed.
Lemma changed_if b log : (forall k, ideal (log ++ (if b : bool then [HChanged] else [])) k = ideal log k)
  /\ ins_ids (log ++ (if b then [HChanged] else [])) = ins_ids log
  /\ gone_ids (log ++ (if b then [HChanged] else [])) = gone_ids log
  /\ (answers (fun _ => None) log -> answers (fun _ => None) (log ++ (if b then [HChanged] else []))).
Proof. apply quiet_app. destruct b; repeat constructor. Qed.
Lemma look_drop k l x : look (hdrop k l) x = upd (look l) k None x.
Proof. unfold look, upd. rewrite hfind_drop. now destruct (x =? k). Qed.
Lemma some_look l k : hsome (hfind k l) = match look l k with Some _ => true | None => false end.
Proof. unfold look. now destruct (hfind k l). Qed.
Lemma val_look l k : hval (hfind k l) = match look l k with Some x => x | None => 0 end.
Proof. unfold look. now destruct (hfind k l). Qed.
Lemma upd_ext m m' k v : (forall x, m x = m' x) -> forall x, upd m k v x = upd m' k v x.
Proof. intros H x. unfold upd. now rewrite H. Qed.

Lemma fold_handed l : forall m, fold_left ideal_step (map HHanded l) m = m.
Proof. induction l; cbn; auto. Qed.
Lemma fold_cleanup l b : forall m, fold_left ideal_step (map (fun e => HCleanup e b) l) m = m.
Proof. induction l; cbn; auto. Qed.
Lemma answers_handed l : forall m, answers m (map HHanded l).
Proof. induction l; cbn; auto. Qed.
Lemma answers_cleanup l b : forall m, answers m (map (fun e => HCleanup e b) l).
Proof. induction l; cbn; auto. Qed.
Lemma gone_handed l : gone_ids (map HHanded l) = ids l.
Proof. induction l; cbn; [reflexivity|]. now f_equal. Qed.
Lemma gone_cleanup l b : gone_ids (map (fun e => HCleanup e b) l) = ids l.
Proof. induction l; cbn; [reflexivity|]. now f_equal. Qed.
Lemma ins_handed l : ins_ids (map HHanded l) = [].
Proof. induction l; cbn; auto. Qed.
Lemma ins_cleanup l b : ins_ids (map (fun e => HCleanup e b) l) = [].
Proof. induction l; cbn; auto. Qed.

Lemma perm_move (f d t g : list Z) : Permutation ((f ++ t) ++ d ++ g) (t ++ (d ++ f) ++ g).
Proof.
  rewrite <- !app_assoc. apply Permutation_trans with ((t ++ d ++ g) ++ f); [apply Permutation_app_comm|].
  rewrite <- !app_assoc. apply Permutation_app_head, Permutation_app_head, Permutation_app_comm.
Qed.
Lemma hfind_cons x e l : hfind x (e :: l) = if he_key e =? x then Some e else hfind x l.
Proof. reflexivity. Qed.
Lemma hinv_insert h k v kd vd : hinv h -> h_freed h = false -> hinv (h_insert h k v kd vd).
Proof.
  intros [E0 M K A I (F1 & F2)] R. unfold h_insert. set (e := mkHE (h_next h) k v kd vd).
  constructor; cbn [h_log h_tab h_next h_dead h_freed].
  - congruence.
  - intros _ x. rewrite ideal_app. cbn [fold_left ideal_step]. unfold look, upd. rewrite hfind_cons. cbn [e he_key he_val].
    rewrite (Z.eqb_sym k x).
    destruct (x =? k) eqn:E; [reflexivity|]. rewrite hfind_drop, E. now apply M.
  - cbn. constructor; [|now apply nodup_drop]. change (~ In k (keys (hdrop k (h_tab h)))). rewrite keys_drop. tauto.
  - apply answers_app. cbn. auto.
  - rewrite ins_app, gone_app. cbn [ins_ids gone_ids flat_map]. rewrite !app_nil_r. cbn [app].
    rewrite ids_app. cbn [ids map].
    apply Permutation_trans with (he_id e :: ins_ids (h_log h)); [symmetry; apply Permutation_cons_append|].
    constructor. eapply Permutation_trans; [exact I|].
    apply Permutation_trans with (ids (olist (hfind k (h_tab h)) ++ hdrop k (h_tab h)) ++ ids (h_dead h) ++ gone_ids (h_log h)).
    { apply Permutation_app_tail. apply Permutation_map. now apply drop_perm. }
    rewrite ids_app. apply perm_move.
  - rewrite ins_app. cbn [ins_ids flat_map]. rewrite app_nil_r. cbn. split.
    + apply Permutation_NoDup with (he_id e :: ins_ids (h_log h)); [apply Permutation_cons_append|].
      constructor; [|exact F1]. intros J. apply F2 in J. cbn in J. lia.
    + intros i J. apply in_app_iff in J as [J|[J|[]]]; [apply F2 in J; lia|]. subst i. cbn. lia.
Qed.
Lemma hinv_remove h k : hinv h -> h_freed h = false -> hinv (h_remove h k).
Proof.
  intros [E0 M K A I F] R. unfold h_remove. set (f := hfind k (h_tab h)).
  set (log := h_log h ++ [HRemoved k (hsome f)]).
  assert (E : h_log h ++ HRemoved k (hsome f) :: (if hsome f then [HChanged] else [])
              = log ++ (if hsome f then [HChanged] else [])) by (unfold log; now rewrite <- app_assoc).
  destruct (changed_if (hsome f) log) as (G1 & G2 & G3 & G4).
  constructor; cbn [h_log h_tab h_next h_dead h_freed]; rewrite ?E.
  - congruence.
  - intros _ x. rewrite G1. unfold log. rewrite ideal_app. cbn. rewrite look_drop. apply upd_ext. now apply M.
  - now apply nodup_drop.
  - apply G4. unfold log. apply answers_app. split; [exact A|]. cbn. split; [|exact Logic.I].
    change (fold_left ideal_step (h_log h) (fun _ => None)) with (ideal (h_log h)).
    rewrite (M R k). apply some_look.
  - rewrite G2, G3. unfold log. rewrite ins_app, gone_app. cbn. rewrite !app_nil_r.
    eapply Permutation_trans; [exact I|].
    apply Permutation_trans with (ids (olist f ++ hdrop k (h_tab h)) ++ ids (h_dead h) ++ gone_ids (h_log h)).
    { apply Permutation_app_tail. apply Permutation_map. now apply drop_perm. }
    rewrite !ids_app. apply perm_move.
  - rewrite G2. unfold log. rewrite ins_app. cbn. rewrite app_nil_r. exact F.
Qed.
Lemma hinv_take h k o : hinv h -> h_freed h = false ->
  (forall m, ideal_step m o = upd m k None) -> answer (ideal (h_log h)) o -> ins_ids [o] = [] -> gone_ids [o] = [] ->
  hinv (h_take h k o).
Proof.
  intros [E0 M K A I F] R S An I0 G0. unfold h_take. set (f := hfind k (h_tab h)).
  set (log := h_log h ++ map HHanded (olist f) ++ [o]).
  assert (E : h_log h ++ map HHanded (olist f) ++ o :: (if hsome f then [HChanged] else [])
              = log ++ (if hsome f then [HChanged] else [])) by (unfold log; now rewrite <- !app_assoc).
  destruct (changed_if (hsome f) log) as (G1 & G2 & G3 & G4).
  assert (ID : ideal (h_log h ++ map HHanded (olist f)) = ideal (h_log h)) by (rewrite ideal_app; apply fold_handed).
  constructor; cbn [h_log h_tab h_next h_dead h_freed]; rewrite ?E.
  - congruence.
  - intros _ x. rewrite G1. unfold log. rewrite app_assoc, ideal_app, ID. cbn. rewrite S, look_drop. apply upd_ext. now apply M.
  - now apply nodup_drop.
  - apply G4. unfold log. rewrite app_assoc. apply answers_app. split.
    + apply answers_app. split; [exact A|apply answers_handed].
    + cbn. split; [|exact Logic.I].
      change (answer (ideal (h_log h ++ map HHanded (olist f))) o). now rewrite ID.
  - rewrite G2, G3. unfold log. rewrite !ins_app, !gone_app, ins_handed, gone_handed, I0, G0, !app_nil_r.
    eapply Permutation_trans; [exact I|].
    apply Permutation_trans with (ids (olist f ++ hdrop k (h_tab h)) ++ ids (h_dead h) ++ gone_ids (h_log h)).
    { apply Permutation_app_tail. apply Permutation_map. now apply drop_perm. }
    rewrite !ids_app. rewrite <- !app_assoc.
    apply Permutation_trans with ((ids (hdrop k (h_tab h)) ++ ids (h_dead h) ++ gone_ids (h_log h)) ++ ids (olist f)).
    { apply Permutation_app_comm. }
    rewrite <- !app_assoc. reflexivity.
  - rewrite G2. unfold log. rewrite !ins_app, ins_handed, I0, !app_nil_r. exact F.
Qed.
Lemma hinv_clear h : hinv h -> h_freed h = false -> hinv (h_clear h).
Proof.
  intros [E0 M K A I F] R. unfold h_clear. set (some := match h_tab h with [] => false | _ => true end).
  set (log := h_log h ++ map (fun e => HCleanup e true) (h_tab h) ++ [HCleared]).
  assert (E : h_log h ++ map (fun e => HCleanup e true) (h_tab h) ++ HCleared :: (if some then [HChanged] else [])
              = log ++ (if some then [HChanged] else [])) by (unfold log; now rewrite <- !app_assoc).
  destruct (changed_if some log) as (G1 & G2 & G3 & G4).
  constructor; cbn [h_log h_tab h_next h_dead h_freed]; rewrite ?E.
  - congruence.
  - intros _ x. rewrite G1. unfold log. rewrite app_assoc, ideal_app. reflexivity.
  - constructor.
  - apply G4. unfold log. rewrite app_assoc. apply answers_app. split; [|cbn; auto].
    apply answers_app. split; [exact A|apply answers_cleanup].
  - rewrite G2, G3. unfold log. rewrite !ins_app, !gone_app, ins_cleanup, gone_cleanup. cbn. rewrite !app_nil_r.
    eapply Permutation_trans; [exact I|].
    apply Permutation_trans with ((ids (h_dead h) ++ gone_ids (h_log h)) ++ ids (h_tab h)); [apply Permutation_app_comm|].
    rewrite <- app_assoc. reflexivity.
  - rewrite G2. unfold log. rewrite !ins_app, ins_cleanup. cbn. rewrite !app_nil_r. exact F.
Qed.
Lemma hinv_unref h : hinv h -> h_freed h = false -> hinv (h_unref h).
Proof.
  intros H R. unfold h_unref. destruct (negb (h_refs h - 1 =? 0)).
  - eapply hinv_same; [exact H|reflexivity..].
  - destruct H as [E0 M K A I F]. constructor; cbn [h_log h_tab h_next h_dead h_freed].
    + reflexivity.
    + discriminate.
    + constructor.
    + apply answers_app. split; [exact A|apply answers_cleanup].
    + rewrite ins_app, gone_app, ins_cleanup, gone_cleanup, app_nil_r. cbn.
      eapply Permutation_trans; [exact I|].
      apply Permutation_trans with ((ids (h_dead h) ++ gone_ids (h_log h)) ++ ids (h_tab h)); [apply Permutation_app_comm|].
      rewrite <- app_assoc. reflexivity.
    + rewrite ins_app, ins_cleanup, app_nil_r. exact F.
Qed.
Lemma hinv_notify h i k : hinv h -> hinv (h_notify h i k).
Proof.
  intros H. unfold h_notify. destruct (nth_error (h_notif h) i) as [[n|]|]; [| |exact H].
  - destruct (0 <? n); [|exact H]. apply hinv_queue. eapply hinv_same; [exact H|reflexivity..].
  - eapply hinv_same; [exact H|reflexivity..].
Qed.
Lemma hinv_step h e h' : hinv h -> hstep h e = Ok h' -> hinv h'.
Proof.
  unfold hstep. intros H. destruct (h_freed h) eqn:R; [discriminate|]. intros E. injection E as <-.
  pose proof (hi_map _ H R) as M.
  destruct e as [k v kd vd|k|k| |k|k|k| | | |i|i k|t us|i| |k|k].
  - now apply hinv_insert.
  - apply hinv_see; auto. cbn. rewrite M. apply val_look.
  - apply hinv_see; auto. cbn. rewrite M. apply some_look.
  - apply hinv_see; auto. cbn. exists (keys (h_tab h)). split; [apply (hi_keys _ H)|]. split.
    + intros k. rewrite M. unfold look. destruct (hfind k (h_tab h)) eqn:Q; cbn.
      * split; [discriminate|]. intros _. destruct (in_dec Z.eq_dec k (keys (h_tab h))) as [J|J]; [exact J|].
        apply hfind_none in J. congruence.
      * apply hfind_none in Q. tauto.
    + unfold zlen, keys. now rewrite map_length.
  - now apply hinv_remove.
  - apply hinv_take; auto. reflexivity.
  - apply hinv_take; auto. cbn. rewrite M. apply val_look.
  - now apply hinv_clear.
  - eapply hinv_same; [exact H|try reflexivity; cbn; congruence..].
  - now apply hinv_unref.
  - destruct (pick i (h_dead h)) as [[e r]|] eqn:P; [|exact H]. apply pick_perm in P.
    destruct H as [E0 M' K A I F]. constructor; cbn [h_log h_tab h_next h_dead h_freed].
    + congruence.
    + intros _ k. rewrite ideal_app. cbn. apply M.
    + exact K.
    + apply answers_app. cbn. auto.
    + rewrite ins_app, gone_app. cbn. rewrite app_nil_r. eapply Permutation_trans; [exact I|].
      apply Permutation_app_head.
      apply Permutation_trans with (ids (e :: r) ++ gone_ids (h_log h)).
      { apply Permutation_app_tail. now apply Permutation_map. }
      cbn. apply Permutation_trans with ((ids r ++ gone_ids (h_log h)) ++ [he_id e]); [apply Permutation_cons_append|].
      rewrite <- app_assoc. reflexivity.
    + rewrite ins_app. cbn. rewrite app_nil_r. exact F.
  - now apply hinv_notify.
  - destruct (0 <=? us); [eapply hinv_same; [exact H|try reflexivity; cbn; congruence..]|]. apply hinv_see; auto. exact I.
  - unfold h_wait. destruct (pick i (h_in h)) as [[[t us] r]|]; [|exact H].
    apply hinv_queue. eapply hinv_same; [exact H|try reflexivity; cbn; congruence..].
  - destruct (0 <? h_out h); [|exact H]. apply hinv_unref; [|reflexivity]. eapply hinv_same; [exact H|try reflexivity; cbn; congruence..].
  - now apply hinv_queue.
  - now apply hinv_queue.
Qed.
Lemma hinv_h0 : hinv h0.
Proof. constructor; cbn; auto; try (split; [constructor|]); try constructor. intros i []. Qed.
Lemma hinv_run es : forall h h', hinv h -> hrun h es = Ok h' -> hinv h'.
Proof.
  induction es as [|e es IH]; cbn; intros h h' H E; [now injection E as <-|].
  destruct (hstep h e) as [h1|] eqn:S; [|discriminate]. cbn in E. apply IH with h1; [|exact E]. now apply hinv_step with h e.
Qed.
Lemma run_map es h : hrun h0 es = Ok h -> forall p o r, h_log h = p ++ o :: r -> answer (ideal p) o.
Proof. intros E p o r. apply answers_at. apply (hi_ans _ (hinv_run es _ _ hinv_h0 E)). Qed.
Lemma run_once es h : hrun h0 es = Ok h ->
  NoDup (ins_ids (h_log h)) /\
  Permutation (ins_ids (h_log h)) (map he_id (h_tab h) ++ map he_id (h_dead h) ++ gone_ids (h_log h)).
Proof. intros E. pose proof (hinv_run es _ _ hinv_h0 E) as H. split; [apply (hi_fresh _ H)|apply (hi_ids _ H)]. Qed.
(** Once the table is released and its users are done, every entry is gone. *)
Lemma run_released es h : hrun h0 es = Ok h -> h_freed h = true -> h_dead h = [] ->
  Permutation (ins_ids (h_log h)) (gone_ids (h_log h)).
Proof.
  intros E R D. destruct (run_once es h E) as (_ & P). rewrite D in P.
  now rewrite (hi_free _ (hinv_run es _ _ hinv_h0 E) R) in P.
Qed.
