(** Proofs about the references to a connection and the order of its close
    handlers. *)
From Verif Require Import Base OnCloseModel OnCloseSpec OnCloseProofs OnCloseProofs2.
From Coq Require Import Permutation Sorting.Sorted.

(** References *)
Definition alive (s : ocs) : Prop :=
  oc_freed s = false /\ oc_refs s = oc_app s + zlen (oc_closers s) + zlen (oc_notes s) /\ 0 <= oc_app s /\ ~ In OFree (oc_log s).
Definition dead (s : ocs) : Prop :=
  oc_freed s = true /\ oc_app s = 0 /\ oc_closers s = [] /\ oc_notes s = [] /\ exists a, oc_log s = a ++ [OFree] /\ ~ In OFree a.

Lemma not_free_snoc l o : ~ In OFree l -> o <> OFree -> ~ In OFree (l ++ [o]).
Proof. intros A B I. apply in_app_iff in I. destruct I as [I|[I|[]]]; auto. Qed.
Lemma zlen_app {A} (a b : list A) : zlen (a ++ b) = zlen a + zlen b.
Proof. unfold zlen. rewrite app_length. lia. Qed.
Lemma zlen_cons {A} (x : A) l : zlen (x :: l) = 1 + zlen l.
Proof. unfold zlen. cbn [length]. lia. Qed.
Lemma zlen_pos {A} (l : list A) : 0 <= zlen l.
Proof. unfold zlen. lia. Qed.
Lemma zlen_nil {A} (l : list A) : zlen l = 0 -> l = [].
Proof. destruct l; [reflexivity|]. rewrite zlen_cons. pose proof (zlen_pos l). lia. Qed.

(** A reference is dropped. *)
Lemma unref_alive s k : oc_freed s = false -> oc_refs s - 1 = oc_app s - k + zlen (oc_closers s) + zlen (oc_notes s) -> 0 <= oc_app s - k ->
  ~ In OFree (oc_log s) -> alive (unref_conn s k) \/ dead (unref_conn s k).
Proof.
  intros F R A L. unfold unref_conn. destruct (oc_refs s - 1 =? 0) eqn:E.
  - apply Z.eqb_eq in E. right. pose proof (zlen_pos (oc_closers s)). pose proof (zlen_pos (oc_notes s)).
    unfold dead. cbn. conj; [reflexivity|lia|apply zlen_nil; lia|apply zlen_nil; lia|exists (oc_log s); auto].
  - left. unfold alive. cbn. conj; auto.
Qed.

Lemma closer_to_len l t p : zlen (closer_to l t p) = zlen l.
Proof. unfold zlen, closer_to. rewrite map_length. reflexivity. Qed.
Lemma alive_step s e s' : inv s -> alive s -> permitted s e -> cstep s e = Ok s' -> alive s' \/ dead s'.
Proof.
  intros V (F & R & A & L) P H. unfold cstep in H. destruct (oc_freed s && active s e); [discriminate|]. apply ok_inj in H. subst s'.
  assert (AL : alive s) by (repeat split; assumption).
  assert (G : forall s', oc_freed s' = false -> oc_refs s' = oc_refs s -> oc_app s' = oc_app s -> zlen (oc_closers s') = zlen (oc_closers s) ->
              zlen (oc_notes s') = zlen (oc_notes s) -> ~ In OFree (oc_log s') -> alive s').
  { intros s' G1 G2 G3 G4 G5 G6. unfold alive. rewrite G2, G3, G4, G5. auto. }
  destruct e.
  - left. unfold install, with_list. destruct full; apply G; auto; cbn; apply not_free_snoc; auto; discriminate.
  - left. unfold remove, with_log, with_list. destruct (oc_full s) as [l|]; [destruct (take_match fn data l) as [[]|]|]; apply G; auto; cbn; apply not_free_snoc; auto; discriminate.
  - left. unfold close_conn. destruct (phase_of s t); [exact AL|]. destruct (oc_conn s); [|exact AL].
    unfold alive, ref_conn. cbn. rewrite zlen_app. unfold zlen at 2. cbn [length]. conj; auto; [lia|lia|]. apply not_free_snoc; auto. discriminate.
  - unfold closer_step. destruct (phase_of s t) as [[full|full|full|h| |]|] eqn:Ph.
    + left. destruct (list_of s full); apply G; auto; cbn; apply closer_to_len.
    + left. destruct (oc_exit s); apply G; auto; cbn; apply closer_to_len.
    + left. destruct (list_of s full) as [[|h r]|]; [| destruct full |]; apply G; auto; cbn; try apply closer_to_len; apply not_free_snoc; auto; discriminate.
    + left. destruct ok; [|apply G; auto; cbn; [apply closer_to_len|apply not_free_snoc; auto; discriminate]].
      unfold alive. cbn. rewrite closer_to_len, zlen_app. unfold zlen at 3. cbn [length]. conj; auto; lia.
    + left. apply G; auto; cbn; [apply closer_to_len|apply not_free_snoc; auto; discriminate].
    + destruct (phase_split s t _ V Ph) as (a & b & Q & A1 & A2). apply unref_alive; cbn; auto; [|lia].
      rewrite R, Q, end_closer_split by assumption. rewrite !zlen_app, zlen_cons. lia.
    + left. exact AL.
  - unfold note_step. destruct (note_of s id) as [[]|] eqn:N; [| |left; exact AL].
    + destruct (note_split s id true V N) as (a & h & b & Q & I & A1 & A2). apply unref_alive; cbn; auto; [|lia|apply not_free_snoc; auto; discriminate].
      rewrite R, Q, note_filter by assumption. rewrite !zlen_app, zlen_cons. lia.
    + left. apply G; auto; cbn; [unfold zlen; rewrite map_length; reflexivity|apply not_free_snoc; auto; discriminate].
  - left. unfold alive, ref_conn. cbn. conj; auto; lia.
  - cbn in P. apply unref_alive; auto; lia.
  - left. apply G; auto.
  - left. apply G; auto.
Qed.
Lemma dead_step s e : dead s -> permitted s e -> exists s', cstep s e = Ok s' /\ dead s'.
Proof.
  intros (F & A & C & N & a & L) P. assert (D : dead s) by (unfold dead; conj; eauto).
  unfold cstep. rewrite F. cbn [andb]. destruct e; cbn in P;
  try (exfalso; destruct P as [P|[h P]]; [lia|rewrite N in P; destruct P]).
  - unfold active, closer_step, phase_of. rewrite C. cbn. eauto.
  - unfold active, note_step, note_of. rewrite N. cbn. eauto.
  - lia.
  - cbn. eexists. split; [reflexivity|]. unfold dead. cbn. conj; eauto.
Qed.
Lemma careful_run es s : inv s -> alive s \/ dead s -> careful s es -> exists s', crun s es = Ok s' /\ (alive s' \/ dead s').
Proof.
  revert s. induction es as [|e es IH]; intros s V A C; [exists s; auto|]. cbn in C. destruct C as [P C]. cbn [crun].
  destruct A as [A|A].
  - assert (E : exists s', cstep s e = Ok s').
    { destruct A as (F & _). unfold cstep. rewrite F. cbn [andb]. eauto. }
    destruct E as [s' E]. rewrite E. cbn [obind]. apply IH; [eapply inv_step; eauto|eapply alive_step; eauto|apply C, E].
  - destruct (dead_step s e A P) as (s' & E & D). rewrite E. cbn [obind]. apply IH; [eapply inv_step; eauto|auto|apply C, E].
Qed.
Lemma alive0 : alive oc0.
Proof. unfold alive. cbn. unfold zlen. cbn. conj; auto; lia. Qed.
Lemma refs_thm es : careful oc0 es -> exists s, crun oc0 es = Ok s /\
  (oc_freed s = true <-> oc_app s = 0 /\ quiet s) /\
  (oc_freed s = true <-> In OFree (oc_log s)) /\
  forall a b, oc_log s = a ++ OFree :: b -> b = [] /\ forall id, In id (calls a) -> In id (ends a).
Proof.
  intros C. destruct (careful_run es oc0 inv0 (or_introl alive0) C) as (s & R & A). exists s. split; [exact R|].
  pose proof (inv_run es oc0 s inv0 R) as V. destruct A as [(F & Rf & Ap & L)|(F & Ap & Cl & N & a & L & NL)].
  - assert (NR : ~ (oc_app s = 0 /\ quiet s)).
    { intros [Z [Q1 Q2]]. rewrite Z, Q1, Q2 in Rf. unfold zlen in Rf. cbn in Rf.
      destruct (crun_ind (fun s => oc_freed s = true \/ 0 < oc_refs s)) with (es := es) (s := oc0) (s' := s) as [X|X]; [|exact inv0|right; cbn; lia|exact R|congruence|lia].
      clear. intros s e s' _ H E. unfold cstep in E. destruct (oc_freed s && active s e) eqn:B; [discriminate|]. apply ok_inj in E. subst s'.
      assert (U : forall x k, oc_freed x = true \/ 0 < oc_refs x -> oc_freed (unref_conn x k) = true \/ 0 < oc_refs (unref_conn x k)).
      { intros x k [X|X]; unfold unref_conn; destruct (_ =? 0) eqn:E0; cbn; auto. right. apply Z.eqb_neq in E0. lia. }
      destruct e.
      + unfold install, with_list. destruct full; exact H.
      + unfold remove, with_log, with_list. destruct (oc_full s) as [l|]; [destruct (take_match fn data l) as [[]|]|]; exact H.
      + unfold close_conn. destruct (phase_of s t); [exact H|]. destruct (oc_conn s); [|exact H]. cbn. destruct H; [auto|right; lia].
      + unfold closer_step. destruct (phase_of s t) as [[full|full|full|h| |]|].
        * destruct (list_of s full); exact H.
        * destruct (oc_exit s); exact H.
        * destruct (list_of s full) as [[|h r]|]; [| destruct full |]; exact H.
        * destruct ok; [|exact H]. cbn. destruct H; [auto|right; lia].
        * exact H.
        * apply U. exact H.
        * exact H.
      + unfold note_step. destruct (note_of s id) as [[]|]; [|exact H|exact H]. apply U. exact H.
      + cbn. destruct H; [auto|right; lia].
      + apply U. exact H.
      + exact H.
      + exact H. }
    split; [|split].
    + rewrite F. split; [discriminate|intros X; contradiction].
    + rewrite F. split; [discriminate|intros X; contradiction].
    + intros a b Q. exfalso. apply L. rewrite Q. apply in_app_iff. cbn. auto.
  - split; [|split].
    + rewrite F. split; [intros _; split; [exact Ap|split; assumption]|reflexivity].
    + rewrite F, L. split; [intros _; apply in_app_iff; cbn; auto|reflexivity].
    + intros c b Q. rewrite L in Q. apply snoc_cases in Q. destruct Q as [(-> & _ & ->)|(b' & Q & _)].
      * split; [reflexivity|]. intros id I. pose proof (v_run _ V) as W. rewrite L, N, calls_app, ends_app in W. cbn in W. rewrite !app_nil_r in W.
        apply (Permutation_in _ W I).
      * exfalso. apply NL. rewrite Q. apply in_app_iff. cbn. auto.
Qed.

(** Order *)
Definition of_list (full : bool) (l : list inst) : list inst := filter (fun h => Bool.eqb (i_full h) full) l.
Definition queue (full : bool) (s : ocs) : list Z := ids (of_list full (taken (oc_log s))) ++ ids (olist (list_of s full)).
Definition sorted (l : list Z) : Prop := StronglySorted Z.lt l.
Lemma sorted_snoc l x : sorted l -> (forall y, In y l -> y < x) -> sorted (l ++ [x]).
Proof.
  unfold sorted. induction l as [|y l IH]; intros S H; [repeat constructor|]. inversion S as [|? ? S1 S2]; subst. cbn. constructor.
  - apply IH; [exact S1|]. intros z I. apply H. right. exact I.
  - apply Forall_app. split; [exact S2|]. constructor; [apply H; left; reflexivity|constructor].
Qed.
Lemma sorted_del a (x : Z) b : sorted (a ++ x :: b) -> sorted (a ++ b).
Proof.
  unfold sorted. induction a as [|y a IH]; intros S; [inversion S; assumption|]. cbn in *. inversion S as [|? ? S1 S2]; subst. constructor; [apply IH, S1|].
  apply Forall_app in S2. destruct S2 as [S2 S3]. inversion S3; subst. apply Forall_app. auto.
Qed.
Lemma sorted_prefix a b : sorted (a ++ b) -> sorted a.
Proof.
  unfold sorted. induction a as [|y a IH]; intros S; [constructor|]. cbn in *. inversion S as [|? ? S1 S2]; subst. constructor; [apply IH, S1|].
  apply Forall_app in S2. tauto.
Qed.
Lemma of_list_app f a b : of_list f (a ++ b) = of_list f a ++ of_list f b.
Proof. apply filter_app. Qed.
Lemma queue_lt s full x : inv s -> In x (queue full s) -> x < oc_next s.
Proof.
  intros V I. unfold queue in I. apply in_app_iff in I. destruct I as [I|I]; apply in_map_iff in I; destruct I as (h & <- & I); apply (v_lt _ V).
  - apply filter_In in I. apply (v_taken _ V). tauto.
  - apply (listed_fresh s full h V I).
Qed.
Lemma queue_unref s k f : queue f (unref_conn s k) = queue f s.
Proof. unfold unref_conn. destruct (_ =? 0); unfold queue; cbn; rewrite ?taken_app; cbn; rewrite ?app_nil_r; destruct f; reflexivity. Qed.
Definition no_front (e : cev) : Prop := match e with CInst true false _ _ => False | _ => True end.
Lemma order_step f s e s' : inv s -> (f = true -> no_front e) -> sorted (queue f s) -> cstep s e = Ok s' -> sorted (queue f s').
Proof.
  intros V NF S H. unfold cstep in H. destruct (oc_freed s && active s e); [discriminate|]. apply ok_inj in H. subst s'.
  assert (K : forall s', taken (oc_log s') = taken (oc_log s) -> oc_plain s' = oc_plain s -> oc_full s' = oc_full s -> sorted (queue f s')).
  { intros s' E1 E2 E3. unfold queue. rewrite E1. destruct f; cbn; [rewrite E3|rewrite E2]; exact S. }
  assert (KL : forall o, taken [o] = [] -> taken (oc_log s ++ [o]) = taken (oc_log s)) by (intros o E; rewrite taken_app, E; apply app_nil_r).
  destruct e.
  - unfold install. set (h := mkI _ _ _ _).
    assert (Q : sorted (queue f s ++ [oc_next s])) by (apply sorted_snoc; [exact S|intros y I; apply (queue_lt s f y V I)]).
    unfold queue, with_list, list_of in *. destruct full, f; cbn [oc_log oc_plain oc_full olist] in *; rewrite KL by reflexivity.
    + destruct last; [|exfalso; apply NF; reflexivity]. cbn [andb negb]. rewrite ids_app. cbn [ids map] in *. rewrite app_assoc.
      destruct (oc_full s); exact Q.
    + exact S.
    + exact S.
    + cbn [andb negb]. rewrite ids_app. cbn [ids map] in *. rewrite app_assoc. destruct (oc_plain s); exact Q.
  - unfold remove. destruct (oc_full s) as [l|] eqn:L; [|apply K; auto; cbn; apply KL; reflexivity].
    pose proof (take_match_spec fn data l) as T. destruct (take_match fn data l) as [[id r]|]; [|apply K; auto; cbn; apply KL; reflexivity].
    destruct T as (a & h & b & -> & -> & _). unfold queue. cbn [with_log with_list oc_log]. rewrite KL by reflexivity.
    destruct f; cbn [list_of oc_full oc_plain with_log with_list olist]; [|exact S].
    unfold queue in S. cbn in S. rewrite L in S. cbn [olist] in S. rewrite ids_app in *. cbn in S. rewrite app_assoc in *. apply sorted_del in S. exact S.
  - unfold close_conn. destruct (phase_of s t); [exact S|]. destruct (oc_conn s); [|exact S]. apply K; auto. cbn. apply KL. reflexivity.
  - unfold closer_step. destruct (phase_of s t) as [[full|full|full|h| |]|]; [| | | | | |exact S].
    + destruct (list_of s full); apply K; reflexivity.
    + destruct (oc_exit s); apply K; reflexivity.
    + destruct (list_of s full) as [[|h r]|] eqn:L; try (apply K; reflexivity).
      assert (F : i_full h = full) by (apply (listed_fresh s full h V); rewrite L; left; reflexivity).
      unfold queue in *. destruct full, f; cbn [with_log with_list with_closers oc_log oc_plain oc_full list_of olist] in *;
      rewrite taken_app, of_list_app; cbn [taken flat_map app of_list filter]; rewrite F; cbn [Bool.eqb]; rewrite ?app_nil_r; try exact S;
      rewrite L in S; cbn [olist ids map] in S; rewrite ids_app, <- app_assoc; exact S.
    + destruct ok; [apply K; reflexivity|]. apply K; auto. cbn. apply KL. reflexivity.
    + apply K; auto. cbn. apply KL. reflexivity.
    + rewrite queue_unref. apply K; reflexivity.
  - unfold note_step. destruct (note_of s id) as [[]|]; [| |exact S].
    + rewrite queue_unref. apply K; auto. cbn. apply KL. reflexivity.
    + apply K; auto. cbn. apply KL. reflexivity.
  - apply K; reflexivity.
  - rewrite queue_unref. exact S.
  - apply K; reflexivity.
  - apply K; reflexivity.
Qed.
Lemma order_run f es s s' : inv s -> (f = true -> Forall no_front es) -> sorted (queue f s) -> crun s es = Ok s' -> sorted (queue f s').
Proof.
  revert s. induction es as [|e es IH]; intros s V N S R; cbn in R; [apply ok_inj in R; subst; exact S|].
  destruct (cstep s e) as [r|] eqn:E; [|discriminate]. cbn in R. apply (IH r); [eapply inv_step; eauto| |eapply order_step; eauto|exact R].
  - intros F. specialize (N F). inversion N; assumption.
  - intros F. specialize (N F). inversion N; assumption.
Qed.
Lemma order_thm f es s : (f = true -> forall fn d, ~ In (CInst true false fn d) es) -> crun oc0 es = Ok s ->
  StronglySorted Z.lt (map i_id (filter (fun h => Bool.eqb (i_full h) f) (taken (oc_log s)))).
Proof.
  intros N R. apply (sorted_prefix _ (ids (olist (list_of s f)))). apply (order_run f es oc0 s inv0); [|destruct f; constructor|exact R].
  intros F. specialize (N F). apply Forall_forall. intros [[] [] fn d| | | | | | | |] I; cbn; auto. exact (N fn d I).
Qed.
