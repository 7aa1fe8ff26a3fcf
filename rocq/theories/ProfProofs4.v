(** Frames accepted are delivered; greetings. *)
From Verif Require Import Base HdrModel HdrProofs ProfModel ProfSpec ProfProofs ProfProofs2 ProfProofs3.

Definition phk (s : pst) (p : ph) : Prop :=
  match p with
  | F2 i => (i < length (s_heap s))%nat /\ forall w, live s i w -> p_recv w <> None
  | RUpd _ _ a => a_recv a <> None
  | VSet _ f _ => f <> None
  | _ => True
  end.
Definition ok4 (o : pobs) : Prop := match o with ODrop _ _ => False | _ => True end.
Definition kr (s : pst) : Prop := (forall t p, In (t, p) (s_thr s) -> phk s p) /\ (forall o, In o (s_log s) -> ok4 o).
Definition keep (s : pst) (h : list (option prof)) : Prop :=
  length h = length (s_heap s) /\ forall j w', nth_error h j = Some (Some w') -> exists w, live s j w /\ (p_recv w <> None -> p_recv w' <> None).
Lemma kr_step : forall s s', kr s -> keep s (s_heap s') -> (forall t p, In (t, p) (s_thr s') -> In (t, p) (s_thr s) \/ phk s p) ->
  (forall o, In o (s_log s') -> In o (s_log s) \/ ok4 o) -> kr s'.
Proof.
  intros s s' (P & L) (Ln & H) Ht Hl. split.
  - intros t p K. assert (X : phk s p) by (destruct (Ht t p K); eauto). destruct p; cbn in *; auto. rewrite Ln. destruct X as (A & B). split; auto.
    intros w W. destruct (H i w W) as (x & X & Y). auto.
  - intros o K. destruct (Hl o K); auto.
Qed.
Lemma keep_same : forall s, keep s (s_heap s).
Proof. intros s. split; auto. intros j w H. exists w. auto. Qed.
Lemma keep_write : forall s i w q, live s i w -> (p_recv w <> None -> p_recv q <> None) -> keep s (upd_nth (s_heap s) i (Some q)).
Proof.
  intros s i w q V H. split; [apply upd_nth_length|]. intros j w' K. apply live_upd in K. destruct K as [(-> & [= <-] & _)|K]; [exists w; auto|exists w'; auto].
Qed.
Lemma keep_drop : forall s i w, live s i w -> keep s (upd_nth (s_heap s) i (if p_ref w - 1 =? 0 then None else Some (set_ref (p_ref w - 1) w))).
Proof.
  intros s i w V. destruct (p_ref w - 1 =? 0); [|eapply keep_write; eauto]. split; [apply upd_nth_length|].
  intros j w' K. apply live_upd in K. destruct K as [(_ & K & _)|K]; [discriminate|exists w'; auto].
Qed.
Lemma t_goes : forall l t q (s : pst), phk s q -> forall u p, In (u, p) ((t, q) :: others l t) -> In (u, p) l \/ phk s p.
Proof. intros l t q s H u p [[= <- <-]|K]; auto. apply others_in in K. tauto. Qed.
Lemma t_ends : forall l t (s : pst) u p, In (u, p) (others l t) -> In (u, p) l \/ phk s p.
Proof. intros l t s u p K. apply others_in in K. tauto. Qed.
Lemma l_one : forall l o x, ok4 o -> In x (l ++ [o]) -> In x l \/ ok4 x.
Proof. intros l o x H K. apply in_app_or in K. destruct K as [K|[<-|[]]]; auto. Qed.

Lemma adv_kr : forall s t p r s', kr s -> phase_of s t = Some p -> adv s t p r = Ok s' -> kr s'.
Proof.
  intros s t p r s' K P H. pose proof (proj1 K _ _ (phase_in _ _ _ P)) as PK.
  assert (go : forall q x, s_thr x = (t, q) :: others (s_thr s) t -> phk s q -> forall u p, In (u, p) (s_thr x) -> In (u, p) (s_thr s) \/ phk s p)
    by (intros q x E A; rewrite E; apply t_goes; auto).
  assert (l1 : forall x, s_log x = s_log s -> forall o, In o (s_log x) -> In o (s_log s) \/ ok4 o) by (intros x ->; auto).
  assert (l2 : forall x o, s_log x = s_log s ++ [o] -> ok4 o -> forall y, In y (s_log x) -> In y (s_log s) \/ ok4 y) by (intros x o -> A y; apply l_one; auto).
  assert (fl : forall i w, p = F2 i -> nth_error (s_heap s) i = Some (Some w) -> p_recv w = None -> False).
  { intros i w -> A B. destruct PK as (_ & C). apply (C w A B). }
  destruct p; cbn -[write unref goes ends see put_lock] in H.
  1: do 5 (destruct k as [|k]; [mon; injection H as <-; apply (kr_step s);
       [exact K|eapply keep_write; [exact D|cbn; auto]|eapply go; [reflexivity|exact PK]|apply l1; reflexivity]|]).
  15: { mon. destruct (p_recv w) eqn:E; mon; injection H as <-; apply (kr_step s);
          [exact K|exact (keep_same s)| |eapply l2; reflexivity|exact K|apply keep_drop; auto|apply t_ends|eapply l2; reflexivity].
        eapply go; [reflexivity|]. split; [apply nth_lt in D; auto|]. intros x X. unfold live in X. rewrite D in X. congruence. }
  15: { mon. destruct (p_recv w) eqn:E; [|exfalso; eapply fl; eauto]. injection H as <-. apply (kr_step s); auto; [exact (keep_same s)|eapply go; [reflexivity|exact Logic.I]]. }
  10: destruct e; [|destruct st; [destruct (s_glob s) as [(?, ?)|]|]].
  all: try (destruct (nth_error (s_list s) k)).
  all: mon; injection H as <-; apply (kr_step s); [exact K
    | first [exact (keep_same s) | apply keep_drop; assumption | eapply keep_write; [eassumption|cbn; auto]]
    | first [apply t_ends | eapply go; [reflexivity|exact Logic.I]]
    | first [apply l1; reflexivity | eapply l2; reflexivity]].
Qed.
Lemma begin_kr : forall s t c s', kr s -> refs s ->
  match c with CRegister _ a => a_recv a <> None | CSetRecv _ f _ => f <> None | _ => True end -> phase_of s t = None -> begin s t c = Ok s' -> kr s'.
Proof.
  intros s t c s' K R C P H.
  assert (l2 : forall b y, In y (s_log s ++ [OAns t b]) -> In y (s_log s) \/ ok4 y) by (intros b y A; eapply l_one; eauto; exact Logic.I).
  assert (an : forall b, kr (see s [OAns t b])) by (intros b; apply (kr_step s); auto; [exact (keep_same s)|apply l2]).
  assert (go : forall q x, keep s (s_heap x) -> s_thr x = (t, q) :: others (s_thr s) t -> s_log x = s_log s -> phk s q -> kr x).
  { intros q x A B E Q. apply (kr_step s); auto; [rewrite B; apply t_goes; auto|rewrite E; auto]. }
  assert (new : forall u p, kr (see (enlist s u p) [OAns t true])).
  { intros u p. destruct K as (A & B). split.
    - intros v q Q. cbn in Q. specialize (A _ _ Q). destruct q; cbn in *; auto. destruct A as (A1 & A2). rewrite app_length. split; [lia|].
      intros w W. unfold live in W. cbn in W. rewrite nth_error_app1 in W by auto. auto.
    - cbn. intros o X. apply l2 in X. destruct X; auto. }
  destruct c; cbn -[goes see enlist get_and_ref put_lock] in H;
    try (match type of H with context [free_lock s] => destruct (free_lock s) eqn:FL; [|injection H as <-; auto] end);
    try (match type of H with (let! _ := get_and_ref s ?u in _) = _ =>
           destruct (get_and_ref s u) as [(o, s1)|] eqn:G; [|discriminate]; cbn -[goes see] in H;
           destruct (get_and_ref_is s u o s1 R G) as [(-> & _ & ->)|(i & w & -> & L & D & _ & ->)]; injection H as <-; [apply an|];
           eapply go; [eapply keep_write; [exact D|cbn; auto]|reflexivity|reflexivity|exact Logic.I] end);
    try (match type of H with context [lookup s ?u] => destruct (lookup s u) as [i|] eqn:L end); mon; injection H as <-;
    try apply an; try apply new; (eapply go; [exact (keep_same s)|reflexivity|reflexivity|cbn; auto]).
Qed.
Lemma run_kr : forall es s s', keeps_received es -> refs s -> kr s -> prun s es = Ok s' -> kr s'.
Proof.
  induction es as [|e es IH]; intros s s' (K1 & K2) R O H; cbn in H; [congruence|]. destruct (pstep s e) as [s1|] eqn:E; [|discriminate]. cbn in H.
  apply (IH s1 s'); auto; [split; [intros t u a A; apply (K1 t u a); right; auto|intros t u d A; apply (K2 t u d); right; auto]|eapply step_refs; eauto|].
  destruct e as [t c|t r|g]; cbn in E.
  - destruct (phase_of s t) eqn:P; [congruence|]. eapply begin_kr; eauto. destruct c; auto; [apply (K1 t u a); left; auto|]. intros ->. apply (K2 t u d). left. auto.
  - destruct (phase_of s t) eqn:P; [|congruence]. eapply adv_kr; eauto.
  - injection E as <-. apply (kr_step s); auto. exact (keep_same s).
Qed.
(** C204 *)
Lemma never_dropped : forall es s t u, keeps_received es -> prun pst0 es = Ok s -> ~ In (ODrop t u) (s_log s).
Proof.
  intros es s t u K H I. apply (run_kr es pst0 s) in H; auto; [|apply refs0|split; [intros ? ? []|intros ? []]]. apply (proj2 H) in I. exact I.
Qed.

(** * Greetings *)
Definition uris (s : pst) : list Z := map fst (s_tab s).
Lemma others_find : forall l t v, v <> t -> find (fun e : Z * ph => fst e =? v) (others l t) = find (fun e => fst e =? v) l.
Proof.
  induction l as [|(a, p) l IH]; intros t v H; cbn; auto. destruct (Z.eqb_spec a t) as [->|E]; cbn.
  - fold (others l t). rewrite IH by auto. destruct (Z.eqb_spec t v); [congruence|auto].
  - destruct (a =? v); auto. apply IH; auto.
Qed.
Lemma names_app : forall t a b, names t (a ++ b) = names t a ++ names t b.
Proof. intros. unfold names. apply flat_map_app. Qed.
Definition whose (o : pobs) : Z := match o with OCall t _ _ | OAns t _ | OName t _ | OEnd t | ODrop t _ => t end.
Lemma names_other : forall t l o, whose o <> t -> names t (l ++ [o]) = names t l.
Proof. intros t l o H. rewrite names_app. destruct o; cbn in *; rewrite ?app_nil_r; auto. destruct (Z.eqb_spec t0 t); [congruence|]. cbn. rewrite app_nil_r. auto. Qed.

Definition listed (s : pst) : Prop := s_list s = map snd (s_tab s).
(** A step of a thread: what it does to the others. *)
Definition apart (v : Z) (s s' : pst) : Prop :=
  (exists q, s_thr s' = (v, q) :: others (s_thr s) v \/ s_thr s' = others (s_thr s) v \/ s_thr s' = s_thr s) /\
  (s_log s' = s_log s \/ exists o, whose o = v /\ s_log s' = s_log s ++ [o]).
Lemma apart_thr : forall v t s s', apart v s s' -> v <> t -> phase_of s' t = phase_of s t /\ names t (s_log s') = names t (s_log s).
Proof.
  intros v t s s' ((q & T) & L) N. split.
  - unfold phase_of. destruct T as [T|[T|T]]; rewrite T; auto; cbn.
    + destruct (Z.eqb_spec v t); [congruence|]. rewrite others_find by auto. auto.
    + rewrite others_find by auto. auto.
  - destruct L as [->|(o & W & ->)]; auto. apply names_other. congruence.
Qed.
Definition apart2 (v : Z) (s s' : pst) : Prop := (s_lock s <> None -> s_tab s' = s_tab s) /\ (listed s -> listed s') /\ apart v s s'.
Lemma ap_goes : forall v s s' q, s_tab s' = s_tab s -> s_list s' = s_list s -> s_thr s' = (v, q) :: others (s_thr s) v -> s_log s' = s_log s -> apart2 v s s'.
Proof. intros v s s' q A L B C. split; auto. split; [unfold listed; rewrite A, L; auto|]. split; eauto. Qed.
Lemma ap_goes_log : forall v s s' q o, s_tab s' = s_tab s -> s_list s' = s_list s -> s_thr s' = (v, q) :: others (s_thr s) v -> s_log s' = s_log s ++ [o] -> whose o = v -> apart2 v s s'.
Proof. intros v s s' q o A L B C W. split; auto. split; [unfold listed; rewrite A, L; auto|]. split; eauto. Qed.
Lemma ap_ends : forall v s s', s_tab s' = s_tab s -> s_list s' = s_list s -> s_thr s' = others (s_thr s) v -> s_log s' = s_log s -> apart2 v s s'.
Proof. intros v s s' A L B C. split; auto. split; [unfold listed; rewrite A, L; auto|]. split; [exists (GNext 0); auto|eauto]. Qed.
Lemma ap_ends_log : forall v s s' o, s_tab s' = s_tab s -> s_list s' = s_list s -> s_thr s' = others (s_thr s) v -> s_log s' = s_log s ++ [o] -> whose o = v -> apart2 v s s'.
Proof. intros v s s' o A L B C W. split; auto. split; [unfold listed; rewrite A, L; auto|]. split; [exists (GNext 0); auto|eauto]. Qed.
Lemma ap_same : forall v s, apart2 v s s.
Proof. intros v s. split; auto. split; auto. split; [exists (GNext 0); auto|auto]. Qed.
Ltac apt := first [eapply ap_goes; reflexivity | eapply ap_goes_log; reflexivity | eapply ap_ends; reflexivity | eapply ap_ends_log; reflexivity].
Lemma adv_tab : forall s v p r s', adv s v p r = Ok s' -> s_tab s' = s_tab s.
Proof.
  intros s v p r s' H. destruct p; cbn -[write unref goes ends see put_lock] in H.
  1: do 5 (destruct k as [|k]; [mon; injection H as <-; reflexivity|]).
  10: destruct e; [|destruct st; [destruct (s_glob s) as [(?, ?)|]|]].
  all: try (destruct (nth_error (s_list s) k)).
  all: mon; try (destruct (p_recv w)); mon; injection H as <-; reflexivity.
Qed.
Lemma adv_apart : forall s v p r s', adv s v p r = Ok s' -> apart2 v s s'.
Proof.
  intros s v p r s' H. destruct p; cbn -[write unref goes ends see put_lock] in H.
  1: do 5 (destruct k as [|k]; [mon; injection H as <-; apt|]).
  10: destruct e; [|destruct st; [destruct (s_glob s) as [(?, ?)|]|]].
  all: try (destruct (nth_error (s_list s) k)).
  all: mon; try (destruct (p_recv w)); mon; injection H as <-; apt.
Qed.
Lemma begin_apart : forall s v c s', refs s -> begin s v c = Ok s' -> apart2 v s s'.
Proof.
  intros s v c s' R H.
  assert (new : forall u p, s_lock s = None -> apart2 v s (see (enlist s u p) [OAns v true])).
  { intros u p LN. split; [congruence|]. split; [unfold listed; cbn; intros ->; rewrite map_app; auto|]. split; [exists (GNext 0); auto|]. right. eexists. split; [|reflexivity]. reflexivity. }
  assert (an : forall b, apart2 v s (see s [OAns v b])).
  { intros b. split; auto. split; auto. split; [exists (GNext 0); auto|]. right. eexists. split; [|reflexivity]. reflexivity. }
  destruct c; cbn -[goes see enlist get_and_ref put_lock] in H;
    try (match type of H with context [free_lock s] => destruct (free_lock s) eqn:FL; [|injection H as <-; apply ap_same] end);
    try (assert (LN : s_lock s = None) by (unfold free_lock in FL; destruct (s_lock s); congruence));
    try (match type of H with (let! _ := get_and_ref s ?u in _) = _ =>
           destruct (get_and_ref s u) as [(o, s1)|] eqn:G; [|discriminate]; cbn -[goes see] in H;
           destruct (get_and_ref_is s u o s1 R G) as [(-> & _ & ->)|(i & w & -> & L & D & _ & ->)]; injection H as <-; [apply an|apt] end);
    try (match type of H with context [lookup s ?u] => destruct (lookup s u) as [i|] eqn:L end); mon; injection H as <-;
    try apply an; try (apply new; assumption); try apt.
  split; [congruence|]. split; [|split; [exists (UDrop i); auto|auto]].
  unfold listed. cbn. intros ->. apply remove_snd; [apply R|apply R|apply lookup_in; auto].
Qed.

(** Where the writing of the greeting is. *)
Definition writing (t : Z) (N U : list Z) (s : pst) : Prop :=
  match phase_of s t with
  | Some (GNext k) => uris s = U /\ names t (s_log s) = N ++ firstn k U /\ (k <= length U)%nat
  | Some (GRead k i) => uris s = U /\ names t (s_log s) = N ++ firstn k U /\ nth_error (map snd (s_tab s)) k = Some i
  | None => names t (s_log s) = N ++ U
  | _ => False
  end.
Lemma firstn_more : forall A (l : list A) k x, nth_error l k = Some x -> firstn (S k) l = firstn k l ++ [x].
Proof. induction l as [|a l IH]; intros [|k] x H; cbn in *; try discriminate; [congruence|]. f_equal. apply IH; auto. Qed.
Lemma writing_kept : forall t N U s s', writing t N U s -> (forall p, phase_of s t = Some p -> locked p = true -> s_tab s' = s_tab s) ->
  phase_of s' t = phase_of s t -> names t (s_log s') = names t (s_log s) -> writing t N U s'.
Proof.
  intros t N U s s' B G P L. unfold writing, uris in *. rewrite P, L. destruct (phase_of s t) as [[]|]; auto; rewrite (G _ eq_refl eq_refl); auto.
Qed.
Definition named (s : pst) : Prop := forall u i w, In (u, i) (s_tab s) -> live s i w -> p_uri w = u.
Lemma phase_goes : forall s t q x, s_thr x = (t, q) :: others (s_thr s) t -> phase_of x t = Some q.
Proof. intros s t q x H. unfold phase_of. rewrite H. cbn. rewrite Z.eqb_refl. auto. Qed.
Lemma phase_ends : forall s t x, s_thr x = others (s_thr s) t -> phase_of x t = None.
Proof.
  intros s t x H. destruct (phase_of x t) eqn:E; auto. apply phase_in in E. rewrite H in E. apply others_in in E. cbn in E. tauto.
Qed.
Lemma adv_writing : forall t N U s p r s', writing t N U s -> listed s -> named s -> phase_of s t = Some p -> adv s t p r = Ok s' -> writing t N U s'.
Proof.
  intros t N U s p r s' B SL NM P H. unfold writing in B. rewrite P in B. destruct p; try contradiction; cbn -[goes see ends put_lock] in H.
  - destruct B as (UE & B & C). rewrite SL in H. destruct (nth_error (map snd (s_tab s)) k) as [i|] eqn:E; injection H as <-; unfold writing.
    + erewrite phase_goes by reflexivity. split; [exact UE|split; [exact B|exact E]].
    + erewrite phase_ends by reflexivity. cbn [s_log s_tab see goes ends put_thr put_lock]. rewrite names_app. cbn [names flat_map app]. rewrite app_nil_r.
      apply nth_error_None in E. rewrite map_length in E. rewrite firstn_all2 in B by (rewrite <- UE; unfold uris; rewrite map_length; auto). exact B.
  - destruct B as (UE & B & C). mon. injection H as <-. unfold writing. erewrite phase_goes by reflexivity. cbn [s_log s_tab see goes ends put_thr]. rewrite names_app. cbn [names flat_map app]. rewrite Z.eqb_refl. cbn [app].
    assert (K : exists u, nth_error (s_tab s) k = Some (u, i)).
    { rewrite nth_error_map in C. destruct (nth_error (s_tab s) k) as [(u, j)|]; cbn in C; [|discriminate]. injection C as ->. eauto. }
    destruct K as (u & K). rewrite (NM u i w); [|eapply nth_error_In; eauto|exact D].
    split; [exact UE|]. rewrite (firstn_more _ U k u).
    + change (flat_map _ (s_log s)) with (names t (s_log s)). rewrite B, app_assoc. split; auto. rewrite <- UE. unfold uris. apply nth_lt in K. rewrite map_length. lia.
    + rewrite <- UE. unfold uris. rewrite nth_error_map, K. auto.
Qed.
Lemma step_listed : forall s e s', refs s -> listed s -> pstep s e = Ok s' -> listed s'.
Proof.
  intros s e s' R L H. destruct e as [t c|t r|g]; cbn in H; [| |injection H as <-; auto].
  - destruct (phase_of s t); [congruence|]. apply begin_apart in H; auto. apply H. auto.
  - destruct (phase_of s t); [|congruence]. apply adv_apart in H; auto. apply H. auto.
Qed.
Definition whole (all : list pev) (s : pst) : Prop := locking s /\ listed s /\ org all s.
Lemma step_whole : forall all s e s', In e all -> whole all s -> pstep s e = Ok s' -> whole all s'.
Proof.
  intros all s e s' I (K & L & O) H. assert (Hr : prun s [e] = Ok s') by (cbn -[pstep]; rewrite H; auto). split; [eapply run_locking; eauto|].
  split; [eapply step_listed; eauto; apply K|]. apply (run_org all [e] s); auto; [intros x [<-|[]]; auto|apply K].
Qed.
Lemma run_whole : forall all es s s', incl es all -> whole all s -> prun s es = Ok s' -> whole all s'.
Proof.
  induction es as [|e es IH]; intros s s' I W H; cbn in H; [congruence|]. destruct (pstep s e) as [s1|] eqn:E; [|discriminate]. cbn in H.
  apply (IH s1); auto; [intros x X; apply I; right; auto|]. apply (step_whole all s e); auto. apply I. left. auto.
Qed.
Lemma run_writing : forall es all s s' t N U, incl es all -> (forall c, ~ In (ECall t c) es) -> whole all s -> writing t N U s ->
  prun s es = Ok s' -> writing t N U s'.
Proof.
  induction es as [|e es IH]; intros all s s' t N U I NC WH W H; cbn in H; [congruence|]. destruct (pstep s e) as [s1|] eqn:E; [|discriminate]. cbn in H.
  pose proof WH as ((R & OW & LK) & L & O).
  assert (NM : named s) by (destruct O as (_ & O & _); intros u i w X Y; apply (O u i w); auto).
  assert (KT : forall v s2, apart2 v s s2 -> forall p, phase_of s t = Some p -> locked p = true -> s_tab s2 = s_tab s).
  { intros v s2 (A & _) p P K. apply A. rewrite (LK t p); auto; [discriminate|apply phase_in; auto]. }
  apply (IH all s1 s' t N U); auto.
  - intros x X. apply I. right. auto.
  - intros c X. apply (NC c). right. auto.
  - apply (step_whole all s e); auto. apply I. left. auto.
  - destruct e as [v c|v r|g]; cbn in E.
    + assert (v <> t) by (intros ->; apply (NC c); left; auto). destruct (phase_of s v) eqn:P; [injection E as <-; auto|].
      apply begin_apart in E; auto. destruct (apart_thr v t _ _ (proj2 (proj2 E))) as (A & B); auto. eapply writing_kept; eauto.
    + destruct (phase_of s v) eqn:P; [|injection E as <-; auto]. destruct (Z.eq_dec v t) as [->|V]; [eapply adv_writing; eauto|].
      apply adv_apart in E. destruct (apart_thr v t _ _ (proj2 (proj2 E))) as (A & B); auto. eapply writing_kept; eauto.
    + injection E as <-. eapply writing_kept; eauto.
Qed.
Lemma prun_app : forall a b s, prun s (a ++ b) = let! s1 := prun s a in prun s1 b.
Proof. induction a as [|e a IH]; intros b s; cbn; auto. destruct (pstep s e); cbn; auto. Qed.
(** C202 *)
Lemma greeting_exact : forall es1 t es2 s1 s, (forall c, ~ In (ECall t c) es2) ->
  prun pst0 es1 = Ok s1 -> phase_of s1 t = None -> s_lock s1 = None -> prun s1 (ECall t CGreet :: es2) = Ok s -> phase_of s t = None ->
  names t (s_log s) = names t (s_log s1) ++ map fst (s_tab s1).
Proof.
  intros es1 t es2 s1 s NC H1 P LN H F. set (all := es1 ++ ECall t CGreet :: es2) in *.
  assert (W0 : whole all pst0) by (split; [apply locking0|split; [reflexivity|apply org0]]).
  assert (W1 : whole all s1) by (eapply run_whole; eauto; intros y Y; apply in_or_app; auto).
  cbn -[pstep] in H. destruct (pstep s1 (ECall t CGreet)) as [s2|] eqn:E; [|discriminate]. cbn in H.
  assert (W2 : whole all s2) by (eapply (step_whole all s1); eauto; apply in_or_app; right; left; auto).
  cbn in E. rewrite P in E. cbn -[goes] in E. unfold free_lock in E. rewrite LN in E. injection E as <-.
  assert (W : writing t (names t (s_log s1)) (map fst (s_tab s1)) (goes (put_lock s1 (Some t)) t (GNext 0))).
  { unfold writing. erewrite phase_goes by reflexivity. cbn. rewrite app_nil_r. split; auto. split; auto. lia. }
  eapply (run_writing es2 all) in W; eauto; [|intros y Y; apply in_or_app; right; right; auto].
  unfold writing in W. rewrite F in W. exact W.
Qed.
