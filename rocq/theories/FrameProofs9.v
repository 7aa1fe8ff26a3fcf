From Verif Require Import Base CodecModel MimeModel MimeSpec HdrModel HdrProofs FrameModel FrameSpec FrameProofs FrameProofs2 FrameProofs3 FrameProofs4 FrameProofs5 FrameProofs6 FrameProofs7 FrameProofs8.

Lemma state_run : forall os s log V, inv s (tracked log) -> rel (m_heap s) (m_frames s) (tracked log) V -> keeps s log os ->
  exists s' log', frun s os = Ok (s', log') /\ as_values V log' /\ inv s' (tracked (log ++ log')) /\
    rel (m_heap s') (m_frames s') (tracked (log ++ log')) (fold_left vnext log' V).
Proof.
  induction os as [|o os IH]; intros s log V I R K; cbn [frun].
  - exists s, []. rewrite app_nil_r. conj; auto.
  - destruct K as (A & K). destruct (good_step s _ V o I R A) as (s1 & b & E & J & X & R1). rewrite E in *. cbn [obind].
    rewrite <- tracked_snoc in J, R1. destruct (IH s1 _ _ J R1 K) as (s2 & l & E2 & J2 & J3 & J4). rewrite E2. cbn [obind].
    exists s2, ((o, b) :: l). rewrite <- app_assoc in J3, J4. conj; auto. split; auto.
Qed.
Lemma state_run0 : forall os s log, keeps fm0 [] os -> frun fm0 os = Ok (s, log) ->
  as_values [] log /\ inv s (tracked log) /\ rel (m_heap s) (m_frames s) (tracked log) (fold_left vnext log []).
Proof.
  intros os s log K E. destruct (state_run os fm0 [] [] inv0) as (s' & l & E' & A & B & C); auto.
  { split; [reflexivity|]. intros i f t v N. destruct i; discriminate. }
  rewrite E in E'. injection E' as <- <-. conj; auto.
Qed.

Lemma copy_equal : forall os s log i v t, keeps fm0 [] os -> frun fm0 os = Ok (s, log) ->
  nth_error (fold_left vnext log []) i = Some v -> nth_error (tracked log) i = Some t ->
  0 < t_held t -> t_gone t = false -> t_term t = true -> (t_proc t = true -> t_exact t = true) -> room (tracked log) ->
  v_plain v = true -> v_more v = false -> v_body v <> [] ->
  exists s' n, n = length (tracked log) /\ frun fm0 (os ++ [FCopy i; FEqual i n]) = Ok (s', log ++ [(FCopy i, ONew n); (FEqual i n, OBool true)]).
Proof.
  intros os s log i v t K E Hv Ht h1 h2 h3 h4 h5 p1 p2 p3. destruct (state_run0 os s log K E) as (_ & I & R).
  set (T := tracked log) in *. set (V := fold_left vnext log []) in *.
  assert (Ln : length V = length T). { destruct R as (L & _). rewrite <- L. destruct I. congruence. }
  assert (A1 : allowed T (FCopy i)). { split; auto. exists t. conj; auto. }
  destruct (good_step s T V (FCopy i) I R A1) as (s1 & b1 & E1 & I1 & X1 & R1). cbn [explains] in X1. subst b1. rewrite Ln in *. cbn [track vnext] in I1, R1. rewrite Ht, Hv in *.
  set (tn := mkTK 1 _ _ _ _ _ _ _ _) in *. set (vn := mkVF _ _ _ _ _ _ _ _ _ _ _) in *.
  assert (N1 : nth_error (T ++ [tn]) i = Some t) by (rewrite nth_error_app1; auto; apply nth_error_Some; congruence).
  assert (N2 : nth_error (T ++ [tn]) (length T) = Some tn) by (rewrite nth_error_app2, Nat.sub_diag; auto).
  assert (M1 : nth_error (V ++ [vn]) i = Some v) by (rewrite nth_error_app1; auto; apply nth_error_Some; congruence).
  assert (M2 : nth_error (V ++ [vn]) (length T) = Some vn) by (rewrite <- Ln, nth_error_app2, Nat.sub_diag; auto).
  assert (A2 : allowed (T ++ [tn]) (FEqual i (length T))).
  { split; [exists t|exists tn]; conj; auto. reflexivity. }
  destruct (good_step s1 _ _ (FEqual i (length T)) I1 R1 A2) as (s2 & b2 & E2 & I2 & X2 & R2). 
  destruct b2; cbn [explains] in X2; try contradiction. destruct X2 as (w1 & w2 & W1 & W2 & _ & Q). rewrite M1 in W1. rewrite M2 in W2. injection W1 as <-. injection W2 as <-.
  assert (b = true). { apply Q; auto. unfold same_fields. cbn. conj; auto. } subst b.
  exists s2, (length T). split; [reflexivity|]. apply (frun_app os fm0 [FCopy i; FEqual i (length T)] s log); auto.
  cbn [frun]. rewrite E1. cbn [obind]. rewrite E2. reflexivity.
Qed.

Lemma vnext_body : forall V e i v, (forall b, e <> (FMime i, b)) -> nth_error V i = Some v ->
  exists w, nth_error (vnext V e) i = Some w /\ v_body w = v_body v.
Proof.
  assert (App : forall (V : list vf) x i v, nth_error V i = Some v -> exists w, nth_error (V ++ [x]) i = Some w /\ v_body w = v_body v).
  { intros V x i v H. exists v. split; auto. rewrite nth_error_app1; auto. apply nth_error_Some. congruence. }
  assert (Upd : forall (V : list vf) j y i v u, nth_error V i = Some v -> nth_error V j = Some u -> (i <> j \/ v_body y = v_body u) ->
     exists w, nth_error (upd_nth V j y) i = Some w /\ v_body w = v_body v).
  { intros V j y i v u H1 H2 H. destruct (Nat.eq_dec i j) as [->|D].
    - destruct H as [H|H]; [contradiction|]. exists y. rewrite H1 in H2. injection H2 as <-. split; auto.
      apply nth_upd_same. apply nth_error_Some. congruence.
    - exists v. split; auto. rewrite nth_upd_other; auto. }
  intros V [o b] i v H N.
  destruct o as [a m|a m|a c l|j|j h|j|r j k|j|j|j k|j|j|j]; cbn [vnext]; try (exists v; split; [exact N|reflexivity]).
  - destruct b; try (exists v; split; [exact N|reflexivity]). apply App; auto.
  - destruct b; try (exists v; split; [exact N|reflexivity]). apply App; auto.
  - destruct b; try (exists v; split; [exact N|reflexivity]). apply App; auto.
  - destruct b as [| | | | |ok z|]; try (exists v; split; [exact N|reflexivity]). destruct ok; try (exists v; split; [exact N|reflexivity]).
    destruct (nth_error V j) as [u|] eqn:E; [|exists v; split; [exact N|reflexivity]]. eapply Upd; eauto. left. intros ->. eapply H. reflexivity.
  - destruct h; try (exists v; split; [exact N|reflexivity]). destruct (nth_error V j) as [u|] eqn:E; [|exists v; split; [exact N|reflexivity]]. eapply Upd; eauto.
  - destruct b; try (exists v; split; [exact N|reflexivity]). destruct (nth_error V j) as [u|] eqn:E; [|exists v; split; [exact N|reflexivity]]. apply App; auto.
  - destruct b; try (exists v; split; [exact N|reflexivity]). destruct (nth_error V j) as [u|] eqn:E; [|exists v; split; [exact N|reflexivity]].
    destruct (nth_error V k) as [u'|] eqn:E'; [|exists v; split; [exact N|reflexivity]]. apply App; auto.
Qed.
Lemma vnexts_body : forall l V i v, (forall b, ~ In (FMime i, b) l) -> nth_error V i = Some v ->
  exists w, nth_error (fold_left vnext l V) i = Some w /\ v_body w = v_body v.
Proof.
  induction l as [|e l IH]; intros V i v H N; cbn [fold_left].
  - exists v. auto.
  - destruct (vnext_body V e i v) as (w & W1 & W2); auto.
    + intros b ->. apply (H b). left. reflexivity.
    + destruct (IH (vnext V e) i w) as (u & U1 & U2); auto.
      * intros b Hb. apply (H b). right. exact Hb.
      * exists u. split; auto. congruence.
Qed.
Lemma as_values_app : forall l1 V l2, as_values V (l1 ++ l2) <-> as_values V l1 /\ as_values (fold_left vnext l1 V) l2.
Proof.
  induction l1 as [|e l1 IH]; intros V l2; cbn [as_values app fold_left].
  - tauto.
  - rewrite IH. tauto.
Qed.

Lemma payload_stable : forall os s l1 l2 l3 i x y, keeps fm0 [] os ->
  frun fm0 os = Ok (s, l1 ++ (FPayload i, OBytes x) :: l2 ++ (FPayload i, OBytes y) :: l3) ->
  (forall b, ~ In (FMime i, b) l2) -> y = x.
Proof.
  intros os s l1 l2 l3 i x y K E H. destruct (state_run0 _ _ _ K E) as (A & _ & _).
  apply as_values_app in A. destruct A as (_ & A). cbn [as_values] in A. destruct A as ((v & V1 & ->) & A).
  cbn [vnext] in A. apply as_values_app in A. destruct A as (_ & A). cbn [as_values] in A. destruct A as ((w & W1 & ->) & _).
  destruct (vnexts_body l2 _ i v H V1) as (u & U1 & U2). congruence.
Qed.
Lemma copy_payload : forall os s l1 l2 l3 i k x y, keeps fm0 [] os ->
  frun fm0 os = Ok (s, l1 ++ (FPayload i, OBytes x) :: (FCopy i, ONew k) :: l2 ++ (FPayload k, OBytes y) :: l3) ->
  (forall b, ~ In (FMime k, b) l2) -> y = x.
Proof.
  intros os s l1 l2 l3 i k x y K E H. destruct (state_run0 _ _ _ K E) as (A & _ & _).
  apply as_values_app in A. destruct A as (_ & A). cbn [as_values] in A. destruct A as ((v & V1 & ->) & A).
  cbn [vnext] in A. rewrite V1 in A. destruct A as (X & A). cbn [explains] in X. injection X as ->.
  apply as_values_app in A. destruct A as (_ & A). cbn [as_values] in A. destruct A as ((w & W1 & ->) & _).
  set (V := fold_left vnext l1 []) in *. set (vn := mkVF _ _ _ _ _ _ _ _ _ _ _) in *.
  destruct (vnexts_body l2 (V ++ [vn]) (length V) vn H) as (u & U1 & U2).
  - rewrite nth_error_app2, Nat.sub_diag; auto.
  - rewrite U1 in W1. injection W1 as <-. exact U2.
Qed.

(** Equality on frames without a zero byte. *)
Lemma cstr_id : forall l, ~ In 0 l -> cstr l = l.
Proof.
  induction l as [|x l IH]; intros H; cbn [cstr]; auto. destruct (Z.eqb_spec x 0) as [->|D].
  - exfalso. apply H. left. reflexivity.
  - rewrite IH; auto. intros H'. apply H. right. exact H'.
Qed.
Lemma equal_payloads : forall os s l1 l2 l3 l4 i j x y, keeps fm0 [] os ->
  frun fm0 os = Ok (s, l1 ++ (FPayload i, OBytes x) :: l2 ++ (FPayload j, OBytes y) :: l3 ++ (FEqual i j, OBool true) :: l4) ->
  (forall b, ~ In (FMime i, b) (l2 ++ l3)) -> (forall b, ~ In (FMime j, b) l3) -> zlen x = zlen y /\ cstr x = cstr y /\ (~ In 0 x -> ~ In 0 y -> x = y).
Proof.
  intros os s l1 l2 l3 l4 i j x y K E H1 H2. destruct (state_run0 _ _ _ K E) as (A & _ & _).
  apply as_values_app in A. destruct A as (_ & A). cbn [as_values] in A. destruct A as ((v & V1 & ->) & A).
  cbn [vnext] in A. apply as_values_app in A. destruct A as (_ & A). cbn [as_values] in A. destruct A as ((w & W1 & ->) & A). cbn [vnext] in A.
  apply as_values_app in A. destruct A as (_ & A). cbn [as_values explains] in A. destruct A as ((a & b & A1 & B1 & Q & _) & _).
  destruct (Q eq_refl) as ((_ & _ & _ & _ & _ & _ & Z1) & C1).
  destruct (vnexts_body l2 _ i v (fun b H => H1 b (in_or_app _ _ _ (or_introl H))) V1) as (u & U1 & U2).
  destruct (vnexts_body l3 _ i u (fun b H => H1 b (in_or_app _ _ _ (or_intror H))) U1) as (u' & U3 & U4).
  destruct (vnexts_body l3 _ j w H2 W1) as (w' & W3 & W4).
  rewrite A1 in U3. injection U3 as <-. rewrite B1 in W3. injection W3 as <-. rewrite <- W4, <- U2, <- U4.
  conj; auto. intros N1 N2. rewrite (cstr_id _ N1), (cstr_id _ N2) in C1. exact C1.
Qed.

(** Joins: the result holds the payloads of both. *)
Lemma join_payload : forall os s l1 l2 l3 l4 r i j k x y z, keeps fm0 [] os ->
  frun fm0 os = Ok (s, l1 ++ (FPayload i, OBytes x) :: (FPayload j, OBytes y) :: (FJoin r i j, ONew k) :: l2 ++ (FPayload k, OBytes z) :: l3 ++ l4) ->
  (forall b, ~ In (FMime k, b) l2) -> z = x ++ y.
Proof.
  intros os s l1 l2 l3 l4 r i j k x y z K E H. destruct (state_run0 _ _ _ K E) as (A & _ & _).
  apply as_values_app in A. destruct A as (_ & A). cbn [as_values] in A. destruct A as ((v & V1 & ->) & (w & W1 & ->) & X & A).
  cbn [vnext] in *. cbn [explains] in X. destruct X as (a & b & A1 & B1 & X). rewrite V1 in A1. rewrite W1 in B1. injection A1 as <-. injection B1 as <-.
  destruct X as [(_ & X)|(_ & X)]; [|discriminate]. injection X as ->. rewrite V1, W1 in A.
  apply as_values_app in A. destruct A as (_ & A). cbn [as_values] in A. destruct A as ((u & U1 & ->) & _).
  set (V := fold_left vnext l1 []) in *. set (vn := mkVF _ _ _ _ _ _ _ _ _ _ _) in *.
  destruct (vnexts_body l2 (V ++ [vn]) (length V) vn H) as (u' & U1' & U2).
  - rewrite nth_error_app2, Nat.sub_diag; auto.
  - rewrite U1' in U1. injection U1 as <-. exact U2.
Qed.

(** * Witnesses *)
Ltac heldt := eexists; repeat match goal with |- _ /\ _ => split end; [vm_compute; reflexivity|vm_compute; reflexivity|vm_compute; auto ..].
Ltac argst := unfold args_ok; repeat match goal with |- _ /\ _ => split end;
  try (vm_compute; reflexivity); try (vm_compute; discriminate);
  try (intros _; eexists; split; [reflexivity|split; [vm_compute; discriminate|]]; unfold defined; repeat constructor; try (vm_compute; discriminate));
  try (unfold defined; repeat constructor; vm_compute; discriminate).
Lemma unsafe_wit : forall os, In os unsafe_programs -> keeps_held fm0 [] os /\ frun fm0 os = UB.
Proof.
  intros os H. split.
  - repeat (destruct H as [<-|H]); try contradiction; cbn [keeps_held held_only w_ext_recv w_ext_mime w_join_mime w_copy_head w_content];
    repeat match goal with
    | |- _ /\ _ => split
    | |- room _ => vm_compute; reflexivity
    | |- args_ok _ _ => argst
    | |- defined _ => unfold defined; repeat constructor; vm_compute; discriminate
    | |- held_ok _ _ _ => heldt
    | |- usable _ _ _ => heldt
    | |- _ < _ => vm_compute; reflexivity
    | |- True => exact Logic.I
    | |- match fstep ?s ?o with _ => _ end => let r := eval vm_compute in (fstep s o) in change (fstep s o) with r; cbn [keeps_held held_only app]
    end.
  - repeat (destruct H as [<-|H]); try contradiction; vm_compute; reflexivity.
Qed.

Ltac keept := cbn [keeps allowed];
    repeat match goal with
    | |- _ /\ _ => split
    | |- room _ => vm_compute; reflexivity
    | |- args_ok _ _ => argst
    | |- defined _ => unfold defined; repeat constructor; vm_compute; discriminate
    | |- _ <> _ => discriminate
    | |- held_ok _ _ _ => heldt
    | |- usable _ _ (fun a => _ /\ usable _ _ _) => eexists; split; [vm_compute; reflexivity|]
    | |- usable _ _ _ => heldt
    | |- t_gone _ = _ => reflexivity
    | |- _ = true -> _ => first [discriminate | let H := fresh in intros H; vm_compute in H |- *; first [discriminate H | reflexivity | split; reflexivity]]
    | |- _ < _ => vm_compute; reflexivity
    | |- True => exact Logic.I
    | |- match fstep ?s ?o with _ => _ end => let r := eval vm_compute in (fstep s o) in change (fstep s o) with r; cbn [keeps allowed app]
    end.

Lemma prog_keeps : keeps fm0 [] prog.
Proof. unfold prog. keept. Qed.
Lemma prog_run : exists s log, frun fm0 prog = Ok (s, log) /\ all_released (tracked log) /\ In (FPayload 3, OBytes [104;105;33]) log.
Proof.
  eexists. eexists. split; [vm_compute; reflexivity|]. split.
  - intros t H. vm_compute in H. intuition (subst; reflexivity).
  - vm_compute. tauto.
Qed.

Lemma create_more_wit : exists a m s l, a_more a = true /\ keeps fm0 [] [FCreate a m; FInfo 0] /\
  frun fm0 [FCreate a m; FInfo 0] = Ok (s, l ++ [(FInfo 0, OInfo 1 (a_type a) (a_ch a) (a_msgno a) false (a_seqno a) (a_size a) (a_ans a) 0)]).
Proof.
  exists (arg true 0 2), (Some [104;105]). eexists. exists [(FCreate (arg true 0 2) (Some [104;105]), ONew 0)].
  split; [reflexivity|]. split; [keept|]. vm_compute. reflexivity.
Qed.
Lemma copy_differs_wit : forall o, In o [FReceive (arg true 0 0) 0 [104;105]; FReceive (arg false 0 0) 0 []] ->
  keeps fm0 [] [o; FCopy 0; FEqual 0 1] /\ exists s, frun fm0 [o; FCopy 0; FEqual 0 1] = Ok (s, [(o, ONew 0); (FCopy 0, ONew 1); (FEqual 0 1, OBool false)]).
Proof.
  intros o H. repeat (destruct H as [<-|H]); try contradiction; (split; [keept|eexists; vm_compute; reflexivity]).
Qed.
Lemma equal_nul_wit : exists a x y s l, x <> y /\ zlen x = zlen y /\ keeps fm0 [] [FCreate a (Some x); FCreate a (Some y); FPayload 0; FPayload 1; FEqual 0 1] /\
  frun fm0 [FCreate a (Some x); FCreate a (Some y); FPayload 0; FPayload 1; FEqual 0 1] = Ok (s, l ++ [(FPayload 0, OBytes x); (FPayload 1, OBytes y); (FEqual 0 1, OBool true)]).
Proof.
  exists (arg false 0 3), [104;0;105], [104;0;106]. eexists. exists [(FCreate (arg false 0 3) (Some [104;0;105]), ONew 0); (FCreate (arg false 0 3) (Some [104;0;106]), ONew 1)].
  split; [discriminate|]. split; [reflexivity|]. split; [keept|vm_compute; reflexivity].
Qed.
Lemma join_header_wit : exists os o n v s1 l1 s2 l2, o = FJoin false 0 1 /\ keeps fm0 [] (os ++ [o]) /\
  frun fm0 os = Ok (s1, l1) /\ header_of s1 0 n = Ok [(n, v)] /\ frun fm0 (os ++ [o]) = Ok (s2, l2) /\ header_of s2 0 n = Ok [].
Proof.
  exists [FReceive (arg true 0 0) 0 mimed; FMime 0; FReceive (arg false 10 0) 0 [33]], (FJoin false 0 1), [65], [98]. do 4 eexists.
  split; [reflexivity|]. split; [cbn [app]; keept|].
  split; [vm_compute; reflexivity|]. split; [vm_compute; reflexivity|]. split; [vm_compute; reflexivity|vm_compute; reflexivity].
Qed.
Lemma copy_shared_wit : exists os o n v s1 l1 s2 l2, o = FHead 1 (HSet n v) /\ keeps fm0 [] (os ++ [FCopy 0; o]) /\
  frun fm0 (os ++ [FCopy 0]) = Ok (s1, l1) /\ header_of s1 0 n = Ok [] /\
  frun fm0 (os ++ [FCopy 0; o]) = Ok (s2, l2) /\ header_of s2 0 n = Ok [(n, v)].
Proof.
  exists [FCreate (arg false 0 2) (Some [104;105]); FHead 0 (HSet [65] [98])], (FHead 1 (HSet [67] [100])), [67], [100]. do 4 eexists.
  split; [reflexivity|]. split; [cbn [app]; keept|].
  split; [vm_compute; reflexivity|]. split; [vm_compute; reflexivity|]. split; [vm_compute; reflexivity|vm_compute; reflexivity].
Qed.
