(** Proofs about the invocations: any run, and the witnesses. *)
From Verif Require Import Base HdrModel HdrProofs InvokeModel InvokeSpec InvokeProofs.

Lemma told_tell s n r m : told (tell s n r) m = told s m ++ (if Nat.eqb n m then [r] else []).
Proof.
  unfold told, tell. cbn [v_log]. rewrite filter_app, map_app. cbn. destruct (Nat.eqb n m); reflexivity.
Qed.
Lemma told_log s t n : v_log s = v_log t -> told s n = told t n.
Proof. unfold told. intros ->. reflexivity. Qed.
Lemma nth_upd {A} (l : list A) n x m y :
  nth_error (upd_nth l n x) m = Some y -> (m = n /\ y = x) \/ (m <> n /\ nth_error l m = Some y).
Proof.
  revert n m. induction l as [|a l IH]; intros n m H. { destruct n, m; discriminate H. }
  destruct n, m; cbn in H.
  - left. split; congruence.
  - right. split; auto.
  - right. split; auto.
  - destruct (IH n m H) as [(-> & ->)|(D & E)]; [left; auto|right; split; auto].
Qed.
Lemma nth_snoc {A} (l : list A) x m y :
  nth_error (l ++ [x]) m = Some y -> (m = List.length l /\ y = x) \/ (m <> List.length l /\ nth_error l m = Some y).
Proof. intros H. apply nth_cases in H. destruct H as [(H & E)|(-> & ->)]; auto. right. split; auto. lia. Qed.

(** What was told: nothing while the data are there, once afterwards. *)
Definition J (s : chan) : Prop :=
  (forall n i, nth_error (v_invs s) n = Some i -> k_data i = true -> told s n = []) /\
  (forall n, (List.length (v_invs s) <= n)%nat -> told s n = []) /\
  (forall n, (List.length (told s n) <= 1)%nat).
Definition K (s : chan) : Prop :=
  (forall n i, nth_error (v_invs s) n = Some i -> k_data i = true -> replies (told s n) = []) /\
  (forall n, (List.length (v_invs s) <= n)%nat -> replies (told s n) = []) /\
  (forall n, (List.length (replies (told s n)) <= 1)%nat).
Lemma replies_app a b : replies (a ++ b) = replies a ++ replies b.
Proof. apply flat_map_app. Qed.

(** A change of one invocation that does not make its data appear. *)
Lemma J_upd s t n i j :
  J s -> nth_error (v_invs s) n = Some i -> (k_data j = true -> k_data i = true) ->
  v_invs t = upd_nth (v_invs s) n j -> v_log t = v_log s -> J t.
Proof.
  intros (A & B & C) E D I G. split; [|split].
  - intros m x X Hx. rewrite (told_log t s m G). rewrite I in X. apply nth_upd in X.
    destruct X as [(-> & ->)|(N & X)]; [apply (A n i); auto|apply (A m x); auto].
  - intros m H. rewrite (told_log t s m G). apply B. rewrite I, upd_len in H. exact H.
  - intros m. rewrite (told_log t s m G). apply C.
Qed.
Lemma K_upd s t n i j :
  K s -> nth_error (v_invs s) n = Some i -> (k_data j = true -> k_data i = true) ->
  v_invs t = upd_nth (v_invs s) n j -> v_log t = v_log s -> K t.
Proof.
  intros (A & B & C) E D I G. split; [|split].
  - intros m x X Hx. rewrite (told_log t s m G). rewrite I in X. apply nth_upd in X.
    destruct X as [(-> & ->)|(N & X)]; [apply (A n i); auto|apply (A m x); auto].
  - intros m H. rewrite (told_log t s m G). apply B. rewrite I, upd_len in H. exact H.
  - intros m. rewrite (told_log t s m G). apply C.
Qed.
Lemma J_same s t : J s -> v_invs t = v_invs s -> v_log t = v_log s -> J t.
Proof.
  intros (A & B & C) I G. split; [|split]; [intros m x X Hx; rewrite I in X|intros m H; rewrite I in H|intros m];
    rewrite (told_log t s m G); eauto.
Qed.
Lemma K_same s t : K s -> v_invs t = v_invs s -> v_log t = v_log s -> K t.
Proof.
  intros (A & B & C) I G. split; [|split]; [intros m x X Hx; rewrite I in X|intros m H; rewrite I in H|intros m];
    rewrite (told_log t s m G); eauto.
Qed.
Lemma J_call s : J s -> J (fst (call s)).
Proof.
  intros (A & B & C). unfold call. destruct (v_out s) eqn:O; cbn [fst].
  - assert (X : forall m, told (put_invs s (v_invs s ++ [mkInv PQueued true false])) m = told s m) by reflexivity.
    split; [|split].
    + intros m x E Hx. rewrite X. sproj. cbn [v_invs put_invs] in E. apply nth_snoc in E. destruct E as [(-> & ->)|(N & E)].
      * apply B. lia.
      * apply (A m x); auto.
    + intros m H. rewrite X. apply B. cbn [v_invs put_invs] in H. rewrite app_length in H. cbn in H. lia.
    + intros m. rewrite X. apply C.
  - assert (X : forall m, told (put_invs s (v_invs s ++ [mkInv PRefused false false])) m = told s m) by reflexivity.
    split; [|split].
    + intros m x E Hx. rewrite told_tell, X. cbn [v_invs put_invs tell] in E. apply nth_snoc in E.
      destruct E as [(-> & ->)|(N0 & E)]; [discriminate Hx|].
      destruct (Nat.eqb_spec (List.length (v_invs s)) m); [congruence|]. rewrite app_nil_r. apply (A m x); auto.
    + intros m H. rewrite told_tell, X. cbn [v_invs put_invs tell] in H. rewrite app_length in H. cbn in H.
      destruct (Nat.eqb_spec (List.length (v_invs s)) m); [lia|]. rewrite app_nil_r. apply B. lia.
    + intros m. rewrite told_tell, X. destruct (Nat.eqb_spec (List.length (v_invs s)) m).
      * rewrite B by lia. cbn. lia.
      * rewrite app_nil_r. apply C.
Qed.
Lemma K_call s : K s -> K (fst (call s)).
Proof.
  intros (A & B & C). unfold call. destruct (v_out s) eqn:O; cbn [fst].
  - assert (X : forall m, told (put_invs s (v_invs s ++ [mkInv PQueued true false])) m = told s m) by reflexivity.
    split; [|split].
    + intros m x E Hx. rewrite X. cbn [v_invs put_invs] in E. apply nth_snoc in E. destruct E as [(-> & ->)|(N & E)].
      * apply B. lia.
      * apply (A m x); auto.
    + intros m H. rewrite X. apply B. cbn [v_invs put_invs] in H. rewrite app_length in H. cbn in H. lia.
    + intros m. rewrite X. apply C.
  - assert (X : forall m, told (put_invs s (v_invs s ++ [mkInv PRefused false false])) m = told s m) by reflexivity.
    assert (Y : forall m, replies (told (tell (put_invs s (v_invs s ++ [mkInv PRefused false false])) (List.length (v_invs s)) RWaiting) m) = replies (told s m)).
    { intros m. rewrite told_tell, X, replies_app. destruct (Nat.eqb _ _); cbn; apply app_nil_r. }
    split; [|split].
    + intros m x E Hx. rewrite Y. cbn [v_invs put_invs tell] in E. apply nth_snoc in E.
      destruct E as [(-> & ->)|(N0 & E)]; [discriminate Hx|]. apply (A m x); auto.
    + intros m H. rewrite Y. cbn [v_invs put_invs tell] in H. rewrite app_length in H. apply B. lia.
    + intros m. rewrite Y. apply C.
Qed.
Lemma J_deliver s f s' : J s -> deliver s f = Ok s' -> J s'.
Proof.
  intros (A & B & C) H. unfold deliver in H. destruct (v_slot s); try discriminate.
  destruct (nth_error (v_invs s) n) as [i|] eqn:E; try discriminate. destruct (k_data i) eqn:D; try discriminate.
  injection H as <-. assert (T : told s n = []) by (apply (A n i); auto).
  assert (X : forall m, told (set_inv s n (mkInv (k_pc i) false (k_call i))) m = told s m) by reflexivity.
  split; [|split].
  - intros m x E' Hx. rewrite told_tell, X. cbn [v_invs set_inv put_invs tell] in E'. apply nth_upd in E'.
    destruct E' as [(-> & ->)|(N & E')]; [discriminate Hx|]. destruct (Nat.eqb_spec n m); [congruence|].
    rewrite app_nil_r. apply (A m x); auto.
  - intros m Hm. rewrite told_tell, X. cbn [v_invs set_inv put_invs tell] in Hm. rewrite upd_len in Hm.
    assert (n < List.length (v_invs s))%nat by (apply nth_error_Some; congruence).
    destruct (Nat.eqb_spec n m); [lia|]. rewrite app_nil_r. apply B; auto.
  - intros m. rewrite told_tell, X. destruct (Nat.eqb_spec n m).
    + subst m. rewrite T. cbn. lia.
    + rewrite app_nil_r. apply C.
Qed.
Lemma K_deliver s f s' : K s -> deliver s f = Ok s' -> K s'.
Proof.
  intros (A & B & C) H. unfold deliver in H. destruct (v_slot s); try discriminate.
  destruct (nth_error (v_invs s) n) as [i|] eqn:E; try discriminate. destruct (k_data i) eqn:D; try discriminate.
  injection H as <-. assert (T : replies (told s n) = []) by (apply (A n i); auto).
  assert (X : forall m, told (set_inv s n (mkInv (k_pc i) false (k_call i))) m = told s m) by reflexivity.
  split; [|split].
  - intros m x E' Hx. rewrite told_tell, X. cbn [v_invs set_inv put_invs tell] in E'. apply nth_upd in E'.
    destruct E' as [(-> & ->)|(N & E')]; [discriminate Hx|]. destruct (Nat.eqb_spec n m); [congruence|].
    rewrite app_nil_r. apply (A m x); auto.
  - intros m Hm. rewrite told_tell, X. cbn [v_invs set_inv put_invs tell] in Hm. rewrite upd_len in Hm.
    assert (n < List.length (v_invs s))%nat by (apply nth_error_Some; congruence).
    destruct (Nat.eqb_spec n m); [lia|]. rewrite app_nil_r. apply B; auto.
  - intros m. rewrite told_tell, X, replies_app. destruct (Nat.eqb_spec n m).
    + subst m. rewrite T. cbn. lia.
    + cbn. rewrite app_nil_r. apply C.
Qed.
Ltac jsame L Hj := eapply L; [exact Hj|reflexivity|reflexivity].
Ltac jupd L Hj E := eapply L; [exact Hj|exact E| |reflexivity|reflexivity]; cbn; auto; discriminate.
Lemma J_step s e s' : J s -> v_up s = true -> (forall n ok, e = VSend n ok -> ok = true) -> vstep s e = Ok s' -> J s'.
Proof.
  intros Hj U NF H. destruct e; cbn in H.
  - injection H as <-. apply J_call; auto.
  - destruct (nth_error (v_invs s) n) as [[[] d c]|] eqn:E; injection H as <-; auto. jupd J_upd Hj E.
  - rewrite (NF n ok eq_refl), U in H.
    destruct (nth_error (v_invs s) n) as [[[] d c]|] eqn:E; injection H as <-; auto. jupd J_upd Hj E.
  - destruct (nth_error (v_invs s) n) as [[[] d c]|] eqn:E; try (injection H as <-; auto; fail).
    + destruct c; [discriminate|]. injection H as <-. jupd J_upd Hj E.
    + destruct d; [|discriminate]. injection H as <-. jupd J_upd Hj E.
    + injection H as <-. jupd J_upd Hj E.
    + destruct c; [discriminate|]. injection H as <-. jupd J_upd Hj E.
  - destruct (v_out s); [injection H as <-; auto|]. rewrite U in H. injection H as <-. jsame J_same Hj.
  - destruct (v_out s); [injection H as <-; auto|]. rewrite U in H. injection H as <-. jsame J_same Hj.
  - rewrite U in H. injection H as <-. jsame J_same Hj.
  - destruct (nth_error (v_tasks s) k); [|injection H as <-; auto]. rewrite U in H.
    eapply J_deliver; [|exact H]. jsame J_same Hj.
  - injection H as <-. jsame J_same Hj.
Qed.
Lemma K_step s e s' : K s -> vstep s e = Ok s' -> K s'.
Proof.
  intros Hj H. destruct e; cbn in H.
  - injection H as <-. apply K_call; auto.
  - destruct (nth_error (v_invs s) n) as [[[] d c]|] eqn:E; injection H as <-; auto. jupd K_upd Hj E.
  - destruct (nth_error (v_invs s) n) as [[[] d c]|] eqn:E; try (injection H as <-; auto; fail).
    destruct (ok && v_up s); injection H as <-.
    + jupd K_upd Hj E.
    + assert (Q : K (set_inv s n (mkInv PFailed d c))) by (jupd K_upd Hj E). destruct Q as (A & B & C).
      assert (Y : forall m, replies (told (tell (set_inv s n (mkInv PFailed d c)) n RFailed) m) =
                            replies (told (set_inv s n (mkInv PFailed d c)) m)).
      { intros m. rewrite told_tell, replies_app. destruct (Nat.eqb _ _); cbn; apply app_nil_r. }
      split; [|split].
      * intros m x X Hx. rewrite Y. apply (A m x); auto.
      * intros m X. rewrite Y. apply B. exact X.
      * intros m. rewrite Y. apply C.
  - destruct (nth_error (v_invs s) n) as [[[] d c]|] eqn:E; try (injection H as <-; auto; fail).
    + destruct c; [discriminate|]. injection H as <-. jupd K_upd Hj E.
    + destruct d; [|discriminate]. injection H as <-. jupd K_upd Hj E.
    + injection H as <-. jupd K_upd Hj E.
    + destruct c; [discriminate|]. injection H as <-. jupd K_upd Hj E.
  - destruct (v_out s); [injection H as <-; auto|]. destruct (v_up s); injection H as <-; [jsame K_same Hj|auto].
  - destruct (v_out s); [injection H as <-; auto|]. destruct (v_up s); injection H as <-; [jsame K_same Hj|auto].
  - destruct (v_up s); injection H as <-; [jsame K_same Hj|auto].
  - destruct (nth_error (v_tasks s) k); [|injection H as <-; auto]. destruct (v_up s).
    + eapply K_deliver; [|exact H]. jsame K_same Hj.
    + injection H as <-. jsame K_same Hj.
  - injection H as <-. jsame K_same Hj.
Qed.
Lemma JK0 : J booted /\ K booted.
Proof. split; (split; [|split]); intros n; intros; try (destruct n; discriminate); cbn; auto. Qed.
Lemma at_most_once es s n : no_failure es -> stays_up es -> vrun booted es = Ok s -> (List.length (told s n) <= 1)%nat.
Proof.
  intros NF U H.
  assert (Q : forall es s s', J s -> v_up s = true -> no_failure es -> stays_up es -> vrun s es = Ok s' -> J s').
  { clear. induction es as [|e r IH]; intros s s' Hj U NF SU H; cbn in H. { injection H as <-. auto. }
    destruct (vstep s e) as [s1|] eqn:E; [|discriminate]. cbn in H.
    apply (IH s1 s'); auto.
    - eapply J_step; eauto. intros n ok ->. apply (NF n). left. reflexivity.
    - rewrite (step_up s e s1 E); auto. intros ->. apply SU. left. reflexivity.
    - intros n ok X. apply (NF n ok). right. exact X.
    - intros X. apply SU. right. exact X. }
  destruct (Q es booted s (proj1 JK0) eq_refl NF U H) as (_ & _ & C). apply C.
Qed.
Lemma one_reply es s n : vrun booted es = Ok s -> (List.length (replies (told s n)) <= 1)%nat.
Proof.
  intros H. assert (Q : forall es s s', K s -> vrun s es = Ok s' -> K s').
  { clear. induction es as [|e r IH]; intros s s' Hj H; cbn in H. { injection H as <-. auto. }
    destruct (vstep s e) as [s1|] eqn:E; [|discriminate]. cbn in H. apply (IH s1 s'); auto. eapply K_step; eauto. }
  destruct (Q es booted s (proj2 JK0) H) as (_ & _ & C). apply C.
Qed.

(** The release of the method call. *)
Definition R (s : chan) : Prop := forall n i, nth_error (v_invs s) n = Some i -> (k_call i = true <-> k_pc i = PDone).
Lemma R_upd s t n j : R s -> (k_call j = true <-> k_pc j = PDone) -> v_invs t = upd_nth (v_invs s) n j -> R t.
Proof.
  intros A D I m x X. rewrite I in X. apply nth_upd in X. destruct X as [(-> & ->)|(N & X)]; auto. apply (A m x X).
Qed.
Lemma R_same s t : R s -> v_invs t = v_invs s -> R t.
Proof. intros A I m x X. rewrite I in X. apply (A m x X). Qed.
Lemma R_deliver s f s' : R s -> deliver s f = Ok s' -> R s'.
Proof.
  intros A H. unfold deliver in H. destruct (v_slot s); try discriminate.
  destruct (nth_error (v_invs s) n) as [i|] eqn:E; try discriminate. destruct (k_data i); try discriminate.
  injection H as <-. eapply R_upd; [exact A| |reflexivity]. cbn. apply (A n i E).
Qed.
Ltac rupd A := eapply R_upd; [exact A| |reflexivity]; cbn.
Lemma R_step s e s' : R s -> vstep s e = Ok s' -> R s'.
Proof.
  intros A H. destruct e; cbn in H.
  - injection H as <-. unfold call. destruct (v_out s); cbn [fst]; intros m x X;
      cbn [v_invs put_invs tell] in X; apply nth_snoc in X; destruct X as [(-> & ->)|(N & X)]; try (apply (A m x X));
      cbn; split; discriminate.
  - destruct (nth_error (v_invs s) n) as [[[] d c]|] eqn:E; injection H as <-; auto. rupd A.
    pose proof (A _ _ E) as Q. cbn in Q. split; intros; [apply Q in H|]; discriminate.
  - destruct (nth_error (v_invs s) n) as [[[] d c]|] eqn:E; try (injection H as <-; auto; fail).
    pose proof (A _ _ E) as Q. cbn in Q. destruct (ok && v_up s); injection H as <-; rupd A;
      (split; intros; [apply Q in H|]; discriminate).
  - destruct (nth_error (v_invs s) n) as [[[] d c]|] eqn:E; try (injection H as <-; auto; fail);
      pose proof (A _ _ E) as Q; cbn in Q.
    + destruct c; [discriminate|]. injection H as <-. rupd A. split; auto.
    + destruct d; [|discriminate]. injection H as <-. rupd A. split; intros H; [apply Q in H|]; discriminate.
    + injection H as <-. rupd A. split; intros H; [apply Q in H|]; discriminate.
    + destruct c; [discriminate|]. injection H as <-. rupd A. split; auto.
  - destruct (v_out s); [injection H as <-; auto|]. destruct (v_up s); injection H as <-; [apply (R_same s); auto|auto].
  - destruct (v_out s); [injection H as <-; auto|]. destruct (v_up s); injection H as <-; [apply (R_same s); auto|auto].
  - destruct (v_up s); injection H as <-; [apply (R_same s); auto|auto].
  - destruct (nth_error (v_tasks s) k); [|injection H as <-; auto]. destruct (v_up s).
    + eapply R_deliver; [|exact H]. apply (R_same s); auto.
    + injection H as <-. apply (R_same s); auto.
  - injection H as <-. apply (R_same s); auto.
Qed.
Lemma released es s n i : vrun booted es = Ok s -> nth_error (v_invs s) n = Some i -> (k_call i = true <-> k_pc i = PDone).
Proof.
  assert (Q : forall es s s', R s -> vrun s es = Ok s' -> R s').
  { clear. induction es as [|e r IH]; intros s s' Hj H; cbn in H. { injection H as <-. auto. }
    destruct (vstep s e) as [s1|] eqn:E; [|discriminate]. cbn in H. apply (IH s1 s'); auto. eapply R_step; eauto. }
  intros H. apply (Q es booted s); auto. intros m x X. destruct m; discriminate X.
Qed.

(** An invocation sent whose connection is closed before the delivery of its reply. *)
Definition W (n : nat) (s : chan) : Prop :=
  v_up s = false /\ told s n = [] /\ exists i, nth_error (v_invs s) n = Some i /\ (k_pc i = PSent \/ k_pc i = PDone).
Lemma W_upd n s t m j :
  W n s -> v_up t = false -> (m <> n \/ k_pc j = PDone) -> v_invs t = upd_nth (v_invs s) m j ->
  told t n = told s n -> W n t.
Proof.
  intros (U & T & i & E & P) U' D I G. split; [exact U'|]. split; [rewrite G; exact T|].
  destruct (Nat.eq_dec m n) as [->|N].
  - destruct D as [D|D]; [congruence|]. exists j. split; auto. rewrite I. clear - E.
    revert n E. induction (v_invs s) as [|a l IH]; intros [|n] E; try discriminate; cbn; auto.
  - exists i. split; auto. rewrite I. clear - E N.
    revert n m E N. induction (v_invs s) as [|a l IH]; intros [|n] [|m] E N; try discriminate; cbn; auto; try congruence.
Qed.
Lemma W_step n s e s' : W n s -> vstep s e = Ok s' -> W n s'.
Proof.
  intros Hw H. pose proof Hw as (U & T & i & E & P).
  assert (Hlt : (n < List.length (v_invs s))%nat) by (apply nth_error_Some; congruence).
  destruct e; cbn in H; try rewrite U in H.
  - injection H as <-. unfold call. destruct (v_out s); cbn [fst].
    + split; [exact U|]. split; [exact T|]. exists i. split; auto. sproj. rewrite nth_error_app1; auto.
    + split; [exact U|]. split.
      * rewrite told_tell. destruct (Nat.eqb_spec (List.length (v_invs s)) n); [lia|]. rewrite app_nil_r. exact T.
      * exists i. split; auto. sproj. rewrite nth_error_app1; auto.
  - destruct (nth_error (v_invs s) n0) as [[[] d c]|] eqn:E0; injection H as <-; auto.
    eapply W_upd; [exact Hw|exact U| |reflexivity|reflexivity]. left. intros ->. rewrite E in E0. injection E0 as ->. destruct P; discriminate.
  - rewrite andb_false_r in H. destruct (nth_error (v_invs s) n0) as [[[] d c]|] eqn:E0; injection H as <-; auto.
    assert (n0 <> n). { intros ->. rewrite E in E0. injection E0 as ->. destruct P; discriminate. }
    eapply W_upd; [exact Hw|exact U| |reflexivity|]; auto. rewrite told_tell.
    destruct (Nat.eqb_spec n0 n); [congruence|]. rewrite app_nil_r. reflexivity.
  - destruct (nth_error (v_invs s) n0) as [[[] d c]|] eqn:E0; try (injection H as <-; auto; fail).
    + destruct c; [discriminate|]. injection H as <-. eapply W_upd; [exact Hw|exact U| |reflexivity|reflexivity]. auto.
    + destruct d; [|discriminate]. injection H as <-. eapply W_upd; [exact Hw|exact U| |reflexivity|reflexivity].
      left. intros ->. rewrite E in E0. injection E0 as ->. destruct P; discriminate.
    + injection H as <-. eapply W_upd; [exact Hw|exact U| |reflexivity|reflexivity].
      left. intros ->. rewrite E in E0. injection E0 as ->. destruct P; discriminate.
    + destruct c; [discriminate|]. injection H as <-. eapply W_upd; [exact Hw|exact U| |reflexivity|reflexivity]. auto.
  - destruct (v_out s); injection H as <-; auto.
  - destruct (v_out s); injection H as <-; auto.
  - injection H as <-; auto.
  - destruct (nth_error (v_tasks s) k); injection H as <-; auto.
  - injection H as <-. split; [reflexivity|]. split; [exact T|]. exists i. auto.
Qed.
Lemma closed_forever n es : forall s s', W n s -> vrun s es = Ok s' -> told s' n = [].
Proof.
  induction es as [|e r IH]; intros s s' Hw H; cbn in H. { injection H as <-. apply Hw. }
  destruct (vstep s e) as [s1|] eqn:E; [|discriminate]. cbn in H. apply (IH s1 s'); auto. eapply W_step; eauto.
Qed.
Lemma never_told : exists es s, one_at_a_time booted es /\ vrun booted es = Ok s /\
  List.length (v_invs s) = 1%nat /\ forall es' s', vrun s es' = Ok s' -> told s' 0 = [].
Proof.
  exists [VCall; VSet 0; VSend 0 true; VNext 0; VClose].
  eexists. split; [|split; [vm_compute; reflexivity|split; [reflexivity|]]].
  - cbn. repeat split; try discriminate; intros; lia.
  - intros es' s' H. eapply closed_forever; [|exact H]. split; [reflexivity|]. split; [reflexivity|].
    eexists. split; [reflexivity|]. right. reflexivity.
Qed.

(** Nothing blocks an invocation. *)
Lemma no_block es s n : one_at_a_time booted es -> stays_up es -> vrun booted es = Ok s ->
  (n < List.length (v_invs s))%nat ->
  exists es' s', ~ In VCall es' /\ ~ In VAnswer es' /\ ~ In VPeer es' /\ no_failure es' /\ stays_up es' /\
                 vrun s es' = Ok s' /\ told s' n <> [].
Proof.
  intros HO U E H. destruct (run_good es booted good_booted HO) as (s' & E' & G). rewrite E in E'. injection E' as <-.
  pose proof (run_up es booted s E U) as Hu. cbn in Hu.
  destruct G as [(I & _)|(past & i & L & cur & I & G & FL & OR & FP & P)]. { rewrite I in H. cbn in H. lia. }
  rewrite I, app_length in H. cbn in H. destruct (Nat.eq_dec n (List.length past)) as [->|D].
  - assert (Q : forall es', (forall e, In e es' -> exists m k, e = VSet m \/ e = VSend m true \/ e = VReply \/ e = VDeliver k) ->
       ~ In VCall es' /\ ~ In VAnswer es' /\ ~ In VPeer es' /\ no_failure es' /\ stays_up es').
    { intros es' X. repeat split; try (intros Y; apply X in Y; destruct Y as (m & k & [Y|[Y|[Y|Y]]]); discriminate).
      intros m b Y. apply X in Y. destruct Y as (m' & k & [Y|[Y|[Y|Y]]]); try discriminate. congruence. }
    assert (F : forall es' s', (forall e, In e es' -> exists m k, e = VSet m \/ e = VSend m true \/ e = VReply \/ e = VDeliver k) ->
       vrun s es' = Ok s' -> told s' (List.length past) <> [] ->
       exists es' s', ~ In VCall es' /\ ~ In VAnswer es' /\ ~ In VPeer es' /\ no_failure es' /\ stays_up es' /\
                 vrun s es' = Ok s' /\ told s' (List.length past) <> []).
    { intros es' s' X Y Z. exists es', s'. destruct (Q es' X) as (q1 & q2 & q3 & q4 & q5). repeat (split; auto). }
    pose proof (told_last s past L cur G FL) as TL. clear HO U E OR FP FL H Q.
    destruct s as [sl iv out tk lg up]. cbn in I, G, P, Hu. subst iv up.
    set (N := List.length past) in *.
    assert (LN : forall x, nth_error (past ++ [x]) N = Some x) by (intros x; apply nth_last).
    assert (LU : forall x y, upd_nth (past ++ [x]) N y = past ++ [y]) by (intros x y; apply upd_last).
    assert (TE : forall a b c d l u r, told (mkChan a b c d (l ++ [(N, r)]) u) N <> []).
    { intros. unfold told. cbn [v_log]. rewrite filter_app, map_app. cbn. rewrite Nat.eqb_refl. cbn.
      intros X. apply app_eq_nil in X. destruct X; discriminate. }
    Ltac wit := let e := fresh in let X := fresh in
      intros e X; repeat (destruct X as [<-|X]; [exists 0%nat, 0%nat; eauto 6|]); try destruct X.
    Ltac go LN LU :=
      repeat (cbn; unfold set_inv, deliver; sproj; rewrite ?LN, ?LU); try reflexivity.
    remember true as up eqn:UU in P.
    destruct P as [| | | | | | | | |]; subst; try discriminate;
      try (eapply (F []); [intros e X; destruct X|reflexivity|rewrite TL; discriminate]).
    + eapply (F [VSet N; VSend N true; VReply; VDeliver 0]).
      * intros e X. cbn in X. exists N, 0%nat. destruct X as [<-|[<-|[<-|[<-|[]]]]]; auto.
      * go LN LU.
      * apply TE.
    + eapply (F [VSend N true; VReply; VDeliver 0]).
      * intros e X. cbn in X. exists N, 0%nat. destruct X as [<-|[<-|[<-|[]]]]; auto.
      * go LN LU.
      * apply TE.
    + eapply (F [VReply; VDeliver 0]).
      * intros e X. cbn in X. exists N, 0%nat. destruct X as [<-|[<-|[]]]; auto.
      * go LN LU.
      * apply TE.
    + eapply (F [VDeliver 0%nat]).
      * intros e X. cbn in X. exists N, 0%nat. destruct X as [<-|[]]; auto.
      * go LN LU.
      * apply TE.
  - assert (TT : told s n <> []).
    { rewrite told_l, G, toldl_app, toldl_other, app_nil_r by lia. destruct (OR n) as [-> | ->]; [lia|discriminate|discriminate]. }
    exists [], s. do 3 (split; [intros []|]). split; [intros m b []|]. split; [intros []|]. split; [reflexivity|exact TT].
Qed.

(** The runs that go wrong. *)
Lemma crossed : exists es s, ~ In VAnswer es /\ ~ In VPeer es /\ no_failure es /\ stays_up es /\
  vrun booted es = Ok s /\ told s 1 = [RGot (FReply 0)] /\ told s 0 = [] /\ vrun s [VReply; VDeliver 0] = UB.
Proof.
  exists [VCall; VCall; VSet 0; VSend 0 true; VSet 1; VSend 1 true; VReply; VDeliver 0]. eexists.
  assert (X : forall e, In e [VCall; VCall; VSet 0; VSend 0 true; VSet 1; VSend 1 true; VReply; VDeliver 0] ->
                        e <> VAnswer /\ e <> VPeer /\ e <> VClose).
  { intros e H. cbn in H. repeat (destruct H as [<-|H]; [repeat split; discriminate|]). destruct H. }
  split; [intros H; apply X in H; tauto|]. split; [intros H; apply X in H; tauto|].
  split. { intros n ok H. cbn in H. repeat (destruct H as [H|H]; [congruence|]). destruct H. }
  split; [intros H; apply X in H; tauto|]. split; [vm_compute; reflexivity|]. split; [reflexivity|]. split; reflexivity.
Qed.
Lemma peer_first : vrun booted [VPeer; VDeliver 0] = UB. Proof. reflexivity. Qed.
Lemma peer_taken : exists s, vrun booted [VCall; VSet 0; VSend 0 true; VPeer; VDeliver 0] = Ok s /\
  told s 0 = [RGot FMsg] /\ vrun s [VReply; VDeliver 0] = UB.
Proof. eexists. split; [vm_compute; reflexivity|]. split; reflexivity. Qed.
Lemma answers : exists s, vrun booted [VCall; VSet 0; VSend 0 true; VAnswer; VDeliver 0] = Ok s /\
  told s 0 = [RGot (FReply 0)] /\ vrun s [VReply; VDeliver 0] = UB.
Proof. eexists. split; [vm_compute; reflexivity|]. split; reflexivity. Qed.
Lemma failed_handler : exists s, vrun booted [VCall; VSet 0; VSend 0 false] = Ok s /\ told s 0 = [RFailed] /\
  vrun s [VCall; VSet 1; VNext 0; VNext 0; VSend 1 true; VReply; VDeliver 0] = UB.
Proof. eexists. split; [vm_compute; reflexivity|]. split; reflexivity. Qed.
Lemma twice : exists es s, vrun booted es = Ok s /\ List.length (told s 0) = 2%nat /\ vrun s [VNext 0] = UB.
Proof.
  exists [VCall; VSet 0; VPeer; VDeliver 0; VSend 0 false]. eexists. split; [vm_compute; reflexivity|]. split; reflexivity.
Qed.
