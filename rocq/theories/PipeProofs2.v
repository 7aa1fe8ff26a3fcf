From Verif Require Import Base PipeModel PipeSpec PipeProofs.
From Coq Require Import Lia.

Lemma std_same o o0 : same_fds o o0 -> std_open o0 -> std_open o.
Proof. intros H (A & B & C). repeat split; apply H; assumption. Qed.

Lemma made_d0 a d0 d1 o r : kernel_ok a o -> std_open o -> support_pipe a d0 d1 o = Ok r -> p_ret r = 0 -> 2 < p_d0 r /\ 2 < p_d1 r.
Proof.
  intros K (A & B & C) H R. destruct (pipe_made a d0 d1 o r K H R) as (_ & P0 & P1 & N0 & N1 & _). split.
  - destruct (Z_lt_dec 2 (p_d0 r)) as [|G]; [assumption|]. assert (p_d0 r = 0 \/ p_d0 r = 1 \/ p_d0 r = 2) as [X|[X|X]] by lia; rewrite X in N0; tauto.
  - destruct (Z_lt_dec 2 (p_d1 r)) as [|G]; [assumption|]. assert (p_d1 r = 0 \/ p_d1 r = 1 \/ p_d1 r = 2) as [X|[X|X]] by lia; rewrite X in N1; tauto.
Qed.

Lemma held_step a l o0 o e l' o' : std_open o0 -> kernel_ok a o -> held l o0 o -> event_fd a l o = Ok (e, l', o') -> held l' o0 o'.
Proof.
  intros T K H E. unfold event_fd in E. destruct (0 <? l_p0 l) eqn:B.
  - injection E; intros; subst; assumption.
  - apply Z.ltb_ge in B.
    destruct H as [(P0 & P1 & Q)|[(P0 & _)|(P0 & _)]]; [|lia|lia].
    pose proof (std_same _ _ Q T) as To. pose proof (kernel_ok_same _ _ _ Q K) as K0.
    destruct (support_pipe a (l_p0 l) (l_p1 l) o) as [r|] eqn:SP; simpl in E; [|discriminate].
    destruct (Z.eq_dec (p_ret r) 0) as [R|R].
    + rewrite R in E. simpl in E. destruct (made_d0 _ _ _ _ _ K To SP R) as [G0 G1].
      destruct (pipe_made _ _ _ _ _ K SP R) as (D & _ & _ & N0 & N1 & W).
      replace (0 <? p_d0 r) with true in E by (symmetry; apply Z.ltb_lt; lia).
      injection E; intros; subst. right; right. simpl.
      repeat match goal with |- _ /\ _ => split end; try lia; try assumption.
      * intro X. apply N0, Q, X.
      * intro X. apply N1, Q, X.
      * intro fd. rewrite (W fd). simpl. rewrite (Q fd). tauto.
    + replace (p_ret r =? 0) with false in E by (symmetry; apply Z.eqb_neq; assumption). simpl in E.
      injection E; intros; subst.
      assert (D1 : p_d1 r <= 0) by (destruct (fail_d1 _ _ _ _ _ SP R); lia).
      destruct (fail_d0 _ _ _ _ _ SP R K To) as [[D0 W]|(D0 & N0 & W)].
      * left. simpl. repeat split; try lia; intro X; [apply Q, W, X|apply W, Q, X].
      * right; left. simpl. repeat match goal with |- _ /\ _ => split end; try lia.
        -- intro X. apply N0, Q, X.
        -- intro fd. rewrite (W fd). simpl. rewrite (Q fd). tauto.
Qed.

Lemma held_run al : forall l o0 o es l' o', std_open o0 -> kernel_run al l o -> held l o0 o -> event_fds al l o = Ok (es, l', o') -> held l' o0 o'.
Proof.
  induction al as [|a al IH]; intros l o0 o es l' o' T KR H E; simpl in E.
  - injection E; intros; subst; assumption.
  - inversion KR as [|a' r' l1 o1 e l2 o2 K N EV KR' X1 X2 X3]; subst. rewrite EV in E. simpl in E.
    destruct (event_fds al l2 o2) as [[[es2 l3] o3]|] eqn:EE; simpl in E; [|discriminate].
    injection E; intros; subst. eapply IH; [exact T|exact KR'| |exact EE]. eapply held_step; eassumption.
Qed.

(** Whatever the calls gave, freeing the lock leaves the descriptors there were before the first. *)
Theorem lock_returns : forall al open es l o, std_open open -> kernel_run al lock0 open -> event_fds al lock0 open = Ok (es, l, o) ->
  same_fds (lock_free l o) open.
Proof.
  intros al open es l o T KR E. apply held_free. eapply held_run; [exact T|exact KR| |exact E].
  left. simpl. repeat split; try lia; auto.
Qed.

(** A run in which the kernel keeps its contract has a result. *)
Theorem run_defined : forall al l open, kernel_run al l open -> exists es l' o', event_fds al l open = Ok (es, l', o') /\ List.length es = List.length al.
Proof.
  intros al l open KR. induction KR as [l o|a r l o e l' o' K N EV KR IH].
  - exists [], l, o. auto.
  - destruct IH as (es & l2 & o2 & E & L). exists (e :: es), l2, o2. simpl. rewrite EV. simpl. rewrite E. simpl. auto.
Qed.

(** A call of a fresh lock that gives no error gives the read side of a whole pipe. *)
Theorem first_fd : forall a open e l o, kernel_ok a open -> std_open open -> event_fd a lock0 open = Ok (e, l, o) -> e <> EErr ->
  exists fd, e = EFd fd /\ 2 < fd /\ ~ In fd open /\ In fd o /\ l_p1 l <> fd /\ ~ In (l_p1 l) open /\ In (l_p1 l) o /\ l_peer l <> None.
Proof.
  intros a open e l o K T E NE. unfold event_fd in E. simpl in E.
  destruct (support_pipe a 0 0 open) as [r|] eqn:SP; simpl in E; [|discriminate].
  destruct (Z.eq_dec (p_ret r) 0) as [R|R].
  - rewrite R in E. simpl in E. destruct (made_d0 _ _ _ _ _ K T SP R) as [G0 G1].
    destruct (pipe_made _ _ _ _ _ K SP R) as (D & _ & _ & N0 & N1 & W).
    replace (0 <? p_d0 r) with true in E by (symmetry; apply Z.ltb_lt; lia).
    injection E; intros; subst. exists (p_d0 r). simpl.
    repeat match goal with |- _ /\ _ => split end; auto; try (apply W; simpl; auto).
    unfold support_pipe in SP. clear -SP R. cases; simpl in *; try discriminate R; discriminate.
  - replace (p_ret r =? 0) with false in E by (symmetry; apply Z.eqb_neq; assumption). simpl in E.
    injection E; intros; subst. contradiction.
Qed.

(** Refuted claims. *)
Definition good : ans := mkA 3 true true 0 4 CProgress [] 5.
Definition refused : ans := mkA 3 true true 0 4 CFail [] (-1).
Definition noname : ans := mkA 3 true true (-1) 4 CProgress [] 5.
Definition guest : ans := mkA 3 true true 0 4 CProgress [Other 7] 5.
Definition nostd : ans := mkA 0 true true 0 4 CProgress [] 5.

Ltac fr := unfold kernel_ok, fresh; simpl; repeat split; first [left; reflexivity | right; split; [lia|intuition lia]].
Theorem leak_refuted : exists a d0 d1 open r fd, kernel_ok a open /\ std_open open /\ support_pipe a d0 d1 open = Ok r /\ p_ret r = -1 /\
  In fd (p_open r) /\ ~ In fd open.
Proof.
  exists refused, (-1), (-1), std. eexists. exists 4. split; [fr|]. split; [unfold std_open, std; simpl; tauto|]. split; [reflexivity|].
  simpl. intuition lia.
Qed.
Theorem low_leak_refuted : exists a d0 d1 r, kernel_ok a [] /\ support_pipe a d0 d1 [] = Ok r /\ p_ret r = -1 /\ p_d0 r = d0 /\ p_d1 r = d1 /\ p_open r = [0].
Proof. exists nostd, (-1), (-1). eexists. split; [fr|]. split; [reflexivity|]. simpl. auto. Qed.
Theorem noname_refuted : exists a open, kernel_ok a open /\ std_open open /\ forall d0 d1, support_pipe a d0 d1 open = UB.
Proof. exists noname, std. split; [fr|]. split; [unfold std_open, std; simpl; tauto|]. reflexivity. Qed.
Theorem guest_refuted : exists a d0 d1 open r n, kernel_ok a open /\ named a /\ support_pipe a d0 d1 open = Ok r /\ p_ret r = 0 /\ p_peer r = Some (Other n).
Proof. exists guest, (-1), (-1), std. eexists. exists 7%nat. split; [fr|]. split; [reflexivity|]. split; [reflexivity|]. auto. Qed.
Theorem dead_fd_refuted : exists al fd l o, kernel_run al lock0 std /\ event_fds al lock0 std = Ok ([EErr; EFd fd], l, o) /\ l_peer l = None /\ l_p1 l <= 0.
Proof.
  exists [refused; mkA (-1) true true 0 (-1) CFail [] (-1)], 4. do 2 eexists. split.
  - econstructor; [fr|reflexivity|reflexivity|]. econstructor; [|reflexivity|reflexivity|constructor].
    unfold kernel_ok, fresh. simpl. tauto.
  - split; [reflexivity|]. simpl. split; [reflexivity|lia].
Qed.
