(** Proofs about the acceptance of connections. *)
From Verif Require Import Base ListenModel ListenSpec.

Ltac conj := repeat match goal with |- _ /\ _ => split end.

Lemma each_nil {E} (P : list E -> E -> Prop) : each P [].
Proof. intros pre e post H. destruct pre; discriminate H. Qed.
Lemma each_snoc {E} (P : list E -> E -> Prop) log e : each P log -> P log e -> each P (log ++ [e]).
Proof.
  intros H H1 pre x post Hx.
  destruct (rev post) as [|y r] eqn:Hr.
  - assert (post = []) by (rewrite <- (rev_involutive post), Hr; reflexivity). subst post.
    apply app_inj_tail in Hx as [<- <-]. exact H1.
  - assert (Hp : post = rev r ++ [y]) by (rewrite <- (rev_involutive post), Hr; reflexivity).
    rewrite Hp in Hx. change (x :: rev r ++ [y]) with ((x :: rev r) ++ [y]) in Hx. rewrite app_assoc in Hx.
    apply app_inj_tail in Hx as [Hx _]. exact (H _ _ _ Hx).
Qed.

(** ** Lists computed from a log *)
Lemma installed_app a b : installed (a ++ b) = installed a ++ installed b.
Proof. apply flat_map_app. Qed.
Lemma calls_app c a b : calls c (a ++ b) = calls c a ++ calls c b.
Proof. apply flat_map_app. Qed.
Lemma answers_app c a b : answers c (a ++ b) = answers c a ++ answers c b.
Proof. apply flat_map_app. Qed.
Lemma unrefs_app c a b : unrefs c (a ++ b) = (unrefs c a + unrefs c b)%nat.
Proof. unfold unrefs. rewrite filter_app, app_length. reflexivity. Qed.

(** What is true of connection [c] at every moment. *)
Definition decided_reg (c : nat) (log : list aev) : Prop :=
  In (LReg c) log /\ ~ In (LShut c) log /\ unrefs c log = 1%nat.
Definition decided_shut (c : nat) (log : list aev) : Prop :=
  In (LShut c) log /\ ~ In (LReg c) log /\ unrefs c log = 1%nat.
Definition ainv_c (s : ast) (c : nat) : Prop :=
  match a_pc s c with
  | AIdle => undecided c (a_log s) /\ calls c (a_log s) = [] /\ answers c (a_log s) = []
  | ACall i h => undecided c (a_log s) /\ nth_error (a_hs s) i = Some h /\
      calls c (a_log s) = firstn (S i) (a_hs s) /\ answers c (a_log s) = repeat true i
  | ADone => (decided_reg c (a_log s) \/ decided_shut c (a_log s)) /\
      length (answers c (a_log s)) = length (calls c (a_log s)) /\
      exists k, calls c (a_log s) = firstn k (a_hs s)
  end.
Definition ainv (s : ast) : Prop :=
  installed (a_log s) = a_hs s /\ each may (a_log s) /\ forall c, ainv_c s c.

(** Events about [c] only. *)
Definition about (c : nat) (e : aev) : Prop :=
  match e with
  | LAdd _ => False
  | LCall c' _ | LAns c' _ _ | LError c' | LShut c' | LGreet c' | LReg c' | LUnref c' => c' = c
  end.

Lemma others c d log l : c <> d -> Forall (about c) l ->
  calls d (log ++ l) = calls d log /\ answers d (log ++ l) = answers d log /\
  unrefs d (log ++ l) = unrefs d log /\ (In (LReg d) (log ++ l) <-> In (LReg d) log) /\
  (In (LShut d) (log ++ l) <-> In (LShut d) log) /\ installed (log ++ l) = installed log.
Proof.
  intros Hn Hl. rewrite calls_app, answers_app, unrefs_app, installed_app.
  assert (Hz : calls d l = [] /\ answers d l = [] /\ unrefs d l = O /\ ~ In (LReg d) l /\ ~ In (LShut d) l /\ installed l = []).
  { induction Hl as [|e l He Hl IH]; [cbn; conj; auto; intros []|].
    destruct IH as (I1 & I2 & I3 & I4 & I5 & I6).
    change (calls d (e :: l)) with (calls d ([e] ++ l)). change (answers d (e :: l)) with (answers d ([e] ++ l)).
    change (unrefs d (e :: l)) with (unrefs d ([e] ++ l)). change (installed (e :: l)) with (installed ([e] ++ l)).
    rewrite calls_app, answers_app, unrefs_app, installed_app, I1, I2, I3, I6.
    assert (E : (c =? d)%nat = false) by (apply Nat.eqb_neq; exact Hn).
    destruct e; cbn in He; try contradiction; subst; unfold calls, answers, unrefs, installed; cbn; try rewrite E; cbn;
      conj; auto; intros [H|H]; try discriminate H; try (injection H; intro; apply Hn; assumption); contradiction. }
  destruct Hz as (-> & -> & -> & H4 & H5 & ->). rewrite !app_nil_r.
  conj; try reflexivity; try lia.
  - rewrite in_app_iff. tauto.
  - rewrite in_app_iff. tauto.
Qed.

(** A step that concerns connection [c] keeps what is known of the others. *)
Lemma ainv_c_other s c d p l : c <> d -> Forall (about c) l -> ainv_c s d ->
  ainv_c (mkA (a_hs s) (set_pc (a_pc s) c p) (a_log s ++ l)) d.
Proof.
  intros Hn Hl H. unfold ainv_c in *. cbn [a_pc a_hs a_log].
  assert (E : set_pc (a_pc s) c p d = a_pc s d).
  { unfold set_pc. destruct (Nat.eqb_spec d c); [congruence|reflexivity]. }
  rewrite E. destruct (others c d (a_log s) l Hn Hl) as (O1 & O2 & O3 & O4 & O5 & _).
  unfold undecided, decided_reg, decided_shut in *.
  destruct (a_pc s d); rewrite O1, O2, O3, O4, O5; exact H.
Qed.

Lemma nth_firstn {A} (l : list A) i h : nth_error l i = Some h -> firstn (S i) l = firstn i l ++ [h].
Proof.
  revert l; induction i as [|i IH]; intros [|x l] H; try discriminate H.
  - cbn in H. injection H as ->. reflexivity.
  - cbn [nth_error] in H. cbn [firstn app]. f_equal. rewrite <- IH by exact H. reflexivity.
Qed.
Lemma nth_none {A} (l : list A) i : nth_error l i = None -> firstn i l = l.
Proof. intro H. apply nth_error_None in H. apply firstn_all2. exact H. Qed.

Lemma repeat_snoc {A} (x : A) n : repeat x n ++ [x] = repeat x (S n).
Proof. induction n as [|n IH]; [reflexivity|]. cbn [repeat app]. rewrite IH. reflexivity. Qed.

Lemma undecided_snoc c log e : undecided c log ->
  match e with LReg c' | LShut c' | LUnref c' => c' <> c | _ => True end -> undecided c (log ++ [e]).
Proof.
  unfold undecided. intros (H1 & H2 & H3) He. rewrite unrefs_app, H3, !in_app_iff.
  conj.
  - intros [H|[H|[]]]; [contradiction|]. subst e. congruence.
  - intros [H|[H|[]]]; [contradiction|]. subst e. congruence.
  - unfold unrefs; destruct e; cbn; try reflexivity. destruct (Nat.eqb_spec c0 c); [contradiction|reflexivity].
Qed.

(** At position [i], all the previous handlers having agreed. *)
Lemma accept_at_inv s c i f :
  installed (a_log s) = a_hs s -> each may (a_log s) -> (forall d, d <> c -> ainv_c s d) ->
  undecided c (a_log s) -> calls c (a_log s) = firstn i (a_hs s) -> answers c (a_log s) = repeat true i ->
  (i <= length (a_hs s))%nat ->
  ainv (accept_at s c i f).
Proof.
  intros HI HE HO HU HC HA Hi. unfold accept_at. destruct (nth_error (a_hs s) i) as [h|] eqn:Hn.
  - split; [|split].
    + cbn [a_log a_hs]. rewrite installed_app, HI. cbn. apply app_nil_r.
    + cbn [a_log]. apply each_snoc; [exact HE|]. cbn [may]. rewrite HI, HC, HA.
      rewrite firstn_length_le by exact Hi. exact (Logic.conj HU (Logic.conj Hn (Logic.conj eq_refl eq_refl))).
    + intro d. destruct (Nat.eq_dec d c) as [->|Hd].
      * unfold ainv_c. cbn [a_pc a_hs a_log]. unfold set_pc at 1. rewrite Nat.eqb_refl.
        conj; [apply undecided_snoc; [exact HU|exact Logic.I]|exact Hn| |].
        -- rewrite calls_app, HC. unfold calls; cbn. rewrite Nat.eqb_refl. cbn. symmetry. exact (nth_firstn _ _ _ Hn).
        -- rewrite answers_app, HA. cbn. apply app_nil_r.
      * apply ainv_c_other; [congruence|repeat constructor|apply HO; exact Hd].
  - assert (HC' : calls c (a_log s) = a_hs s) by (rewrite HC; apply nth_none; exact Hn).
    assert (Hi2 : i = length (a_hs s)) by (apply nth_error_None in Hn; lia).
    assert (HG : all_agreed c (a_log s)) by (split; [rewrite HI; exact HC'|rewrite HA, HI, Hi2; reflexivity]).
    (* the greetings first, if any *)
    assert (K : forall log, installed log = a_hs s -> each may log -> undecided c log -> all_agreed c log ->
              calls c log = a_hs s -> length (answers c log) = length (a_hs s) ->
              each may (log ++ [LReg c; LUnref c]) /\ decided_reg c (log ++ [LReg c; LUnref c]) /\
              calls c (log ++ [LReg c; LUnref c]) = a_hs s /\
              length (answers c (log ++ [LReg c; LUnref c])) = length (a_hs s)).
    { intros log L1 L2 L3 L4 L5 L6.
      assert (N : ~ In (LShut c) (log ++ [LReg c])).
      { rewrite in_app_iff. intros [H|[H|[]]]; [exact (proj1 (proj2 L3) H)|discriminate H]. }
      change [LReg c; LUnref c] with ([LReg c] ++ [LUnref c]). rewrite app_assoc. conj.
      - apply each_snoc; [apply each_snoc; [exact L2|exact (Logic.conj L3 L4)]|]. cbn [may]. split.
        + rewrite unrefs_app, (proj2 (proj2 L3)). reflexivity.
        + left. split; [apply in_or_app; right; left; reflexivity|exact N].
      - unfold decided_reg, decided_shut; conj.
        + apply in_or_app. left. apply in_or_app. right. left. reflexivity.
        + rewrite in_app_iff. intros [H|[H|[]]]; [exact (N H)|discriminate H].
        + rewrite !unrefs_app, (proj2 (proj2 L3)). unfold unrefs. cbn. rewrite Nat.eqb_refl. reflexivity.
      - rewrite !calls_app, L5. cbn. rewrite !app_nil_r. reflexivity.
      - rewrite !answers_app. cbn. rewrite !app_nil_r. exact L6. }
    assert (KK : each may (a_log s ++ accept_end c f) /\ decided_reg c (a_log s ++ accept_end c f) /\
                 calls c (a_log s ++ accept_end c f) = a_hs s /\
                 length (answers c (a_log s ++ accept_end c f)) = length (a_hs s)).
    { unfold accept_end. destruct (negb (f_preread f) && f_now f).
      - rewrite app_assoc. apply K.
        + rewrite installed_app, HI. cbn. apply app_nil_r.
        + apply each_snoc; [exact HE|exact (Logic.conj HU HG)].
        + apply undecided_snoc; [exact HU|exact Logic.I].
        + unfold all_agreed in *. rewrite calls_app, answers_app, installed_app. cbn. rewrite !app_nil_r. exact HG.
        + rewrite calls_app. cbn. rewrite app_nil_r. exact HC'.
        + rewrite answers_app. cbn. rewrite app_nil_r, HA, repeat_length. exact Hi2.
      - cbn [app]. apply K; auto. rewrite HA, repeat_length. exact Hi2. }
    destruct KK as (K1 & K2 & K3 & K4).
    split; [|split].
    + cbn [a_log a_hs]. rewrite installed_app, HI. unfold accept_end.
      destruct (negb (f_preread f) && f_now f); cbn; apply app_nil_r.
    + exact K1.
    + intro d. destruct (Nat.eq_dec d c) as [->|Hd].
      * unfold ainv_c. cbn [a_pc a_hs a_log]. unfold set_pc at 1. rewrite Nat.eqb_refl. conj.
        -- left. exact K2.
        -- rewrite K3, K4. reflexivity.
        -- exists (length (a_hs s)). rewrite K3. symmetry. apply firstn_all.
      * apply ainv_c_other; [congruence| |apply HO; exact Hd].
        unfold accept_end. destruct (negb (f_preread f) && f_now f); repeat constructor.
Qed.

Lemma refuse_inv s c i h f :
  installed (a_log s) = a_hs s -> each may (a_log s) -> (forall d, d <> c -> ainv_c s d) ->
  undecided c (a_log s) -> nth_error (a_hs s) i = Some h -> calls c (a_log s) = firstn (S i) (a_hs s) ->
  answers c (a_log s) = repeat true i ++ [false] ->
  ainv (mkA (a_hs s) (set_pc (a_pc s) c ADone) (a_log s ++ refuse_end c f)).
Proof.
  intros HI HE HO HU Hn HC HA.
  assert (Hl : (i < length (a_hs s))%nat) by (apply nth_error_Some; rewrite Hn; discriminate).
  assert (HG : one_refused c (a_log s)) by (exists i; rewrite HI; exact (Logic.conj Hl (Logic.conj HC HA))).
  assert (HL : length (answers c (a_log s)) = length (calls c (a_log s))).
  { rewrite HA, HC, app_length, repeat_length, firstn_length_le by lia. cbn. lia. }
  assert (K : forall log, installed log = a_hs s -> each may log -> undecided c log -> one_refused c log ->
              each may (log ++ [LShut c; LUnref c]) /\ decided_shut c (log ++ [LShut c; LUnref c])).
  { intros log L1 L2 L3 L4.
    assert (N : ~ In (LReg c) (log ++ [LShut c])).
    { rewrite in_app_iff. intros [H|[H|[]]]; [exact (proj1 L3 H)|discriminate H]. }
    change [LShut c; LUnref c] with ([LShut c] ++ [LUnref c]). rewrite app_assoc. conj.
    - apply each_snoc; [apply each_snoc; [exact L2|exact (Logic.conj L3 L4)]|]. cbn [may]. split.
      + rewrite unrefs_app, (proj2 (proj2 L3)). reflexivity.
      + right. split; [apply in_or_app; right; left; reflexivity|exact N].
    - unfold decided_reg, decided_shut; conj.
      + apply in_or_app. left. apply in_or_app. right. left. reflexivity.
      + rewrite in_app_iff. intros [H|[H|[]]]; [exact (N H)|discriminate H].
      + rewrite !unrefs_app, (proj2 (proj2 L3)). unfold unrefs. cbn. rewrite Nat.eqb_refl. reflexivity. }
  assert (KK : each may (a_log s ++ refuse_end c f) /\ decided_shut c (a_log s ++ refuse_end c f)).
  { unfold refuse_end. destruct (f_ok f).
    - rewrite app_assoc. apply K.
      + rewrite installed_app, HI. cbn. apply app_nil_r.
      + apply each_snoc; [exact HE|exact (Logic.conj HU HG)].
      + apply undecided_snoc; [exact HU|exact Logic.I].
      + unfold one_refused in *. rewrite calls_app, answers_app, installed_app. cbn. rewrite !app_nil_r. exact HG.
    - cbn [app]. apply K; auto. }
  destruct KK as (K1 & K2).
  assert (Kc : calls c (a_log s ++ refuse_end c f) = calls c (a_log s)).
  { rewrite calls_app. unfold refuse_end. destruct (f_ok f); cbn; apply app_nil_r. }
  assert (Ka : answers c (a_log s ++ refuse_end c f) = answers c (a_log s)).
  { rewrite answers_app. unfold refuse_end. destruct (f_ok f); cbn; apply app_nil_r. }
  split; [|split].
  - cbn [a_log a_hs]. rewrite installed_app, HI. unfold refuse_end. destruct (f_ok f); cbn; apply app_nil_r.
  - exact K1.
  - intro d. destruct (Nat.eq_dec d c) as [->|Hd].
    + unfold ainv_c. cbn [a_pc a_hs a_log]. unfold set_pc at 1. rewrite Nat.eqb_refl. conj.
      * right. exact K2.
      * rewrite Kc, Ka. exact HL.
      * exists (S i). rewrite Kc. exact HC.
    + apply ainv_c_other; [congruence| |apply HO; exact Hd].
      unfold refuse_end. destruct (f_ok f); repeat constructor.
Qed.

Lemma astep_inv s o : ainv s -> ainv (astep s o).
Proof.
  intros (HI & HE & HC). destruct o as [[h|]|c f|c ok f]; cbn [astep].
  - split; [|split].
    + cbn [a_log a_hs]. rewrite installed_app, HI. reflexivity.
    + cbn [a_log]. apply each_snoc; [exact HE|exact Logic.I].
    + intro c. specialize (HC c). unfold ainv_c in *. cbn [a_pc a_hs a_log] in *.
      assert (E1 : calls c (a_log s ++ [LAdd h]) = calls c (a_log s)) by (rewrite calls_app; apply app_nil_r).
      assert (E2 : answers c (a_log s ++ [LAdd h]) = answers c (a_log s)) by (rewrite answers_app; apply app_nil_r).
      assert (E3 : unrefs c (a_log s ++ [LAdd h]) = unrefs c (a_log s)) by (rewrite unrefs_app; apply Nat.add_0_r).
      assert (E4 : In (LReg c) (a_log s ++ [LAdd h]) <-> In (LReg c) (a_log s)).
      { rewrite in_app_iff. cbn. split; [intros [H|[H|[]]]; [exact H|discriminate H]|auto]. }
      assert (E5 : In (LShut c) (a_log s ++ [LAdd h]) <-> In (LShut c) (a_log s)).
      { rewrite in_app_iff. cbn. split; [intros [H|[H|[]]]; [exact H|discriminate H]|auto]. }
      unfold undecided, decided_reg, decided_shut in *.
      destruct (a_pc s c) as [|i h'|]; rewrite E1, E2, E3, E4, E5; [exact HC| |].
      * destruct HC as (C1 & C2 & C3 & C4).
        assert (Hl : (i < length (a_hs s))%nat) by (apply nth_error_Some; rewrite C2; discriminate).
        split; [exact C1|split; [|split; [|exact C4]]].
        -- rewrite nth_error_app1 by exact Hl. exact C2.
        -- rewrite firstn_app. replace (S i - length (a_hs s))%nat with O by lia. cbn [firstn]. rewrite app_nil_r. exact C3.
      * destruct HC as (C1 & C2 & k & C3). conj; [exact C1|exact C2|].
        exists (length (firstn k (a_hs s))). rewrite C3.
        rewrite firstn_app. assert (length (firstn k (a_hs s)) <= length (a_hs s))%nat by (rewrite firstn_length; apply Nat.le_min_r).
        replace (length (firstn k (a_hs s)) - length (a_hs s))%nat with O by lia. cbn [firstn]. rewrite app_nil_r.
        rewrite firstn_length. destruct (Nat.le_gt_cases k (length (a_hs s))) as [L|L].
        -- rewrite Nat.min_l by exact L. reflexivity.
        -- rewrite Nat.min_r by lia. rewrite firstn_all, firstn_all2 by lia. reflexivity.
  - exact (Logic.conj HI (Logic.conj HE HC)).
  - pose proof (HC c) as Hc. unfold ainv_c in Hc. destruct (a_pc s c) as [|i h|] eqn:Hp;
      try exact (Logic.conj HI (Logic.conj HE HC)).
    destruct Hc as (C1 & C2 & C3). apply accept_at_inv; auto; lia.
  - pose proof (HC c) as Hc. unfold ainv_c in Hc. destruct (a_pc s c) as [|i h|] eqn:Hp;
      try exact (Logic.conj HI (Logic.conj HE HC)).
    destruct Hc as (C1 & C2 & C3 & C4).
    assert (Hl : (i < length (a_hs s))%nat) by (apply nth_error_Some; rewrite C2; discriminate).
    set (s1 := mkA (a_hs s) (a_pc s) (a_log s ++ [LAns c h ok])).
    assert (S1 : installed (a_log s1) = a_hs s1) by (cbn; rewrite installed_app, HI; cbn; apply app_nil_r).
    assert (S2 : each may (a_log s1)).
    { apply each_snoc; [exact HE|]. cbn [may]. split; [exact C1|]. exists (firstn i (a_hs s)). split.
      - rewrite C3. exact (nth_firstn _ _ _ C2).
      - rewrite C4, repeat_length, firstn_length_le by lia. reflexivity. }
    assert (S3 : forall d, d <> c -> ainv_c s1 d).
    { intros d Hd. pose proof (HC d) as H. unfold ainv_c in *. cbn [a_pc a_hs a_log s1].
      assert (Hq : Forall (about c) [LAns c h ok]) by (repeat constructor).
      destruct (others c d (a_log s) _ (not_eq_sym Hd) Hq) as (O1 & O2 & O3 & O4 & O5 & _).
      unfold undecided, decided_reg, decided_shut in *.
  destruct (a_pc s d); rewrite O1, O2, O3, O4, O5; exact H. }
    assert (S4 : undecided c (a_log s1)) by (apply undecided_snoc; [exact C1|exact Logic.I]).
    assert (S5 : calls c (a_log s1) = firstn (S i) (a_hs s)).
    { unfold s1; cbn [a_log]. rewrite calls_app, C3. cbn [calls flat_map]. apply app_nil_r. }
    assert (S6 : answers c (a_log s1) = repeat true i ++ [ok]).
    { unfold s1; cbn [a_log]. rewrite answers_app, C4. unfold answers. cbn. rewrite Nat.eqb_refl. reflexivity. }
    destruct ok.
    + apply (accept_at_inv s1 c (S i) f S1 S2 S3 S4 S5); [rewrite S6; apply repeat_snoc|cbn; lia].
    + exact (refuse_inv s1 c i h f S1 S2 S3 S4 C2 S5 S6).
Qed.

Lemma arun_inv ops : ainv (arun ops).
Proof.
  unfold arun. assert (H : forall s, ainv s -> ainv (fold_left astep ops s)).
  { induction ops as [|o r IH]; intros s Hs; [exact Hs|]. cbn [fold_left]. apply IH, astep_inv, Hs. }
  apply H. split; [reflexivity|]. split; [apply each_nil|].
  intro c. unfold ainv_c. cbn. repeat split; intros [].
Qed.

Lemma accept_trace ops : each may (a_log (arun ops)).
Proof. exact (proj1 (proj2 (arun_inv ops))). Qed.

(** A connection whose handlers have all answered was decided. *)
Lemma accept_decided ops c :
  let log := a_log (arun ops) in
  calls c log <> [] -> length (answers c log) = length (calls c log) ->
  (In (LReg c) log \/ In (LShut c) log) /\ unrefs c log = 1%nat.
Proof.
  intros log Hc Hl. pose proof (proj2 (proj2 (arun_inv ops)) c) as H. unfold ainv_c in H.
  pose proof (proj1 (arun_inv ops)) as HI.
  fold log in H. destruct (a_pc (arun ops) c) as [|i h|].
  - destruct H as (_ & H & _). contradiction.
  - destruct H as (_ & H1 & H2 & H3).
    assert ((i < length (a_hs (arun ops)))%nat) by (apply nth_error_Some; rewrite H1; discriminate).
    rewrite H2, H3, repeat_length, firstn_length_le in Hl by lia. lia.
  - destruct H as ([(H1 & _ & H3)|(H1 & _ & H3)] & _); split; auto.
Qed.
