From Verif Require Import Base PipeModel PipeSpec.
From Coq Require Import Lia.

Lemma in_close fd x open : In x (close_fd fd open) <-> In x open /\ (x <> fd \/ fd < 0).
Proof.
  unfold close_fd. destruct (0 <=? fd) eqn:E.
  - rewrite filter_In. apply Z.leb_le in E. destruct (Z.eqb_spec x fd); simpl; intuition (try congruence; try lia).
  - apply Z.leb_gt in E. intuition lia.
Qed.
Lemma in_opened fd x open : In x (opened fd open) <-> In x open \/ (x = fd /\ 0 <= fd).
Proof.
  unfold opened. destruct (fd <? 0) eqn:E.
  - apply Z.ltb_lt in E. intuition lia.
  - apply Z.ltb_ge in E. simpl. intuition.
Qed.

Ltac cases :=
  repeat match goal with
  | H : context [if ?b then _ else _] |- _ => destruct b eqn:?
  | H : context [match ?b with CDone => _ | CProgress => _ | CFail => _ end] |- _ => destruct b eqn:?
  | H : Ok _ = Ok _ |- _ => injection H as H; subst
  | H : UB = Ok _ |- _ => discriminate H
  | H : Ok _ = UB |- _ => discriminate H
  end.
Ltac bools :=
  repeat match goal with
  | H : (_ <=? _) = true |- _ => apply Z.leb_le in H
  | H : (_ <=? _) = false |- _ => apply Z.leb_gt in H
  | H : (_ <? _) = true |- _ => apply Z.ltb_lt in H
  | H : (_ <? _) = false |- _ => apply Z.ltb_ge in H
  | H : (_ =? _) = true |- _ => apply Z.eqb_eq in H
  | H : (_ =? _) = false |- _ => apply Z.eqb_neq in H
  | H : negb _ = true |- _ => apply Bool.negb_true_iff in H
  | H : negb _ = false |- _ => apply Bool.negb_false_iff in H
  end.
Ltac ne := let X := fresh in intro X; first [subst; tauto | rewrite X in *; tauto | symmetry in X; tauto].

Theorem pipe_made : forall a d0 d1 open r, kernel_ok a open -> support_pipe a d0 d1 open = Ok r -> p_ret r = 0 ->
  p_d0 r <> p_d1 r /\ 0 <= p_d0 r /\ 0 < p_d1 r /\ ~ In (p_d0 r) open /\ ~ In (p_d1 r) open /\ same_fds (p_open r) (p_d0 r :: p_d1 r :: open).
Proof.
  intros a d0 d1 open r (Hl & Hc & Ha) H R. unfold support_pipe in H. cases; simpl in *; try discriminate R; bools;
  unfold fresh in *; simpl in *;
  (destruct Hl as [Hl|[Hl1 Hl2]]; [lia|]);
  (destruct Hc as [Hc|[Hc1 Hc2]]; [lia|]);
  (destruct Ha as [Ha|[Ha1 Ha2]]; [lia|]);
  repeat match goal with |- _ /\ _ => split end; try lia; try tauto;
  try (intros fd; rewrite in_close, !in_opened; simpl; split; [intuition (try lia; try congruence)|];
       intros [E|[E|E]]; subst; (split; [tauto|left; ne])).
  all: ne.
Qed.

Theorem pipe_defined : forall a d0 d1 open, named a -> exists r, support_pipe a d0 d1 open = Ok r.
Proof.
  intros a d0 d1 open N. unfold support_pipe. rewrite N. simpl.
  repeat match goal with
  | |- context [if ?b then _ else _] => destruct b
  | |- context [match ?b with CDone => _ | CProgress => _ | CFail => _ end] => destruct b
  end; eauto.
Qed.

(** After a failure at most one descriptor is left open, and it is the one stored in descf[0]. *)
Theorem pipe_failed : forall a d0 d1 open r, kernel_ok a open -> std_open open -> support_pipe a d0 d1 open = Ok r -> p_ret r <> 0 ->
  p_ret r = -1 /\ (same_fds (p_open r) open \/ (~ In (p_d0 r) open /\ p_d0 r = a_cli a /\ same_fds (p_open r) (p_d0 r :: open))).
Proof.
  intros a d0 d1 open r (Hl & Hc & Ha) (S0 & S1 & S2) H R. unfold support_pipe in H. cases; simpl in *; try (exfalso; apply R; reflexivity); bools; unfold fresh in *; simpl in *;
  (split; [reflexivity|]).
  - left. intros fd. rewrite in_opened. destruct Hl as [Hl|[Hl1 Hl2]]; [intuition lia|].
    exfalso. assert (a_lst a = 0 \/ a_lst a = 1 \/ a_lst a = 2) as [E|[E|E]] by lia; rewrite E in Hl2; tauto.
  - left. intros fd. destruct Hl as [Hl|[Hl1 Hl2]]; [lia|]. rewrite in_close, in_opened. split; [intuition (subst; try lia; try tauto)|intro I; split; [tauto|left; ne]].
  - left. intros fd. destruct Hl as [Hl|[Hl1 Hl2]]; [lia|]. rewrite in_close, in_opened. split; [intuition (subst; try lia; try tauto)|intro I; split; [tauto|left; ne]].
  - left. intros fd. destruct Hl as [Hl|[Hl1 Hl2]]; [lia|]. rewrite in_close, in_opened. split; [intuition (subst; try lia; try tauto)|intro I; split; [tauto|left; ne]].
  - left. intros fd. destruct Hl as [Hl|[Hl1 Hl2]]; [lia|]. rewrite in_close, !in_opened. split; [intuition (subst; try lia; try tauto)|intro I; split; [tauto|left; ne]].
  - right. destruct Hl as [Hl|[Hl1 Hl2]]; [lia|]. destruct Hc as [Hc|[Hc1 Hc2]]; [lia|]. assert (a_acc a <> 0 -> a_acc a < 0) by lia.
    assert (A : a_acc a < 0) by (destruct Ha as [Ha|[Ha1 Ha2]]; [lia|]; assert (a_acc a = 0) as E by lia; rewrite E in Ha2; tauto).
    repeat split; try tauto.
    + rewrite in_close, !in_opened. simpl. intuition (subst; lia).
    + simpl. rewrite in_close, !in_opened. intros [E|E]; subst; (split; [tauto|left; ne]).
  - right. destruct Hl as [Hl|[Hl1 Hl2]]; [lia|]. destruct Hc as [Hc|[Hc1 Hc2]]; [lia|].
    assert (A : a_acc a < 0) by (destruct Ha as [Ha|[Ha1 Ha2]]; [lia|]; assert (a_acc a = 0) as E by lia; rewrite E in Ha2; tauto).
    repeat split; try tauto.
    + rewrite in_close, !in_opened. simpl. intuition (subst; lia).
    + simpl. rewrite in_close, !in_opened. intros [E|E]; subst; (split; [tauto|left; ne]).
  - right. destruct Hl as [Hl|[Hl1 Hl2]]; [lia|]. destruct Hc as [Hc|[Hc1 Hc2]]; [lia|].
    repeat split; try tauto.
    + rewrite in_close, !in_opened. simpl. intuition (subst; lia).
    + simpl. rewrite in_close, !in_opened. intros [E|E]; subst; (split; [tauto|left; ne]).
  - right. destruct Hl as [Hl|[Hl1 Hl2]]; [lia|]. destruct Hc as [Hc|[Hc1 Hc2]]; [lia|].
    repeat split; try tauto.
    + rewrite in_close, !in_opened. simpl. intuition (subst; lia).
    + simpl. rewrite in_close, !in_opened. intros [E|E]; subst; (split; [tauto|left; ne]).
Qed.

(** Nobody else at the listener: the ends are those of one connection. *)
Theorem pipe_paired : forall a d0 d1 open r, support_pipe a d0 d1 open = Ok r -> p_ret r = 0 -> a_before a = [] -> p_peer r = Some Own.
Proof. intros a d0 d1 open r H R E. unfold support_pipe in H. rewrite E in H. cases; simpl in *; try discriminate R; reflexivity. Qed.

(** Once a descriptor is given, each later call gives the same one and changes nothing. *)
Theorem event_fd_same : forall al a l open fd l' o', event_fd a l open = Ok (EFd fd, l', o') ->
  event_fds al l' o' = Ok (map (fun _ => EFd fd) al, l', o').
Proof.
  intros al a l open fd l' o' H.
  assert (0 < fd /\ l_p0 l' = fd) as [P E].
  { unfold event_fd in H. destruct (0 <? l_p0 l) eqn:B.
    - injection H; intros; subst. apply Z.ltb_lt in B. auto.
    - destruct (support_pipe a (l_p0 l) (l_p1 l) open) as [r|]; simpl in H; [|discriminate].
      destruct (negb (p_ret r =? 0)); [discriminate|]. destruct (0 <? p_d0 r) eqn:D; [|discriminate].
      injection H; intros; subst. apply Z.ltb_lt in D. auto. }
  induction al as [|b al IH]; simpl; [reflexivity|].
  unfold event_fd. rewrite E. replace (0 <? fd) with true by (symmetry; apply Z.ltb_lt; lia). simpl. rewrite IH. reflexivity.
Qed.

(** What is open, as the lock says. *)
Definition held (l : lock) (o0 o : list Z) : Prop :=
  (l_p0 l <= 0 /\ l_p1 l <= 0 /\ same_fds o o0) \/
  (0 < l_p0 l /\ ~ In (l_p0 l) o0 /\ l_p1 l <= 0 /\ same_fds o (l_p0 l :: o0)) \/
  (0 < l_p0 l /\ ~ In (l_p0 l) o0 /\ 0 < l_p1 l /\ ~ In (l_p1 l) o0 /\ l_p0 l <> l_p1 l /\ same_fds o (l_p0 l :: l_p1 l :: o0)).

Lemma held_free l o0 o : held l o0 o -> same_fds (lock_free l o) o0.
Proof.
  intros [(A & B & H)|[(A & N & B & H)|(A & N & B & M & D & H)]] fd; unfold lock_free.
  - replace (0 <? l_p0 l) with false by (symmetry; apply Z.ltb_ge; lia). replace (0 <? l_p1 l) with false by (symmetry; apply Z.ltb_ge; lia). apply H.
  - replace (0 <? l_p0 l) with true by (symmetry; apply Z.ltb_lt; lia). replace (0 <? l_p1 l) with false by (symmetry; apply Z.ltb_ge; lia).
    rewrite in_close, (H fd). simpl. split; [intuition (try congruence; lia)|]. intro I; split; [tauto|left; ne].
  - replace (0 <? l_p0 l) with true by (symmetry; apply Z.ltb_lt; lia). replace (0 <? l_p1 l) with true by (symmetry; apply Z.ltb_lt; lia).
    rewrite !in_close, (H fd). simpl. split; [intuition (try congruence; lia)|]. intro I; split; [split; [tauto|]|]; left; ne.
Qed.

Lemma kernel_ok_same a o o0 : same_fds o o0 -> kernel_ok a o -> kernel_ok a o0.
Proof.
  intros H (A & B & C). unfold kernel_ok, fresh in *. simpl in *.
  repeat split; [destruct A as [A|[A1 A2]]|destruct B as [B|[B1 B2]]|destruct C as [C|[C1 C2]]]; auto; right; split; auto; intro X.
  - apply A2, H, X.
  - apply B2. destruct X as [X|X]; [auto|right; apply H, X].
  - apply C2. destruct X as [X|[X|X]]; [auto|auto|right; right; apply H, X].
Qed.

Lemma fresh_pos fd open : std_open open -> fresh fd open -> fd <> -1 -> 2 < fd.
Proof.
  intros (A & B & C) [F|[F1 F2]] N; [contradiction|].
  destruct (Z_lt_dec 2 fd) as [|G]; [assumption|]. assert (fd = 0 \/ fd = 1 \/ fd = 2) as [E|[E|E]] by lia; subst; tauto.
Qed.

Lemma same_trans x y z : same_fds x y -> same_fds y z -> same_fds x z.
Proof. intros A B fd. rewrite (A fd). apply B. Qed.

Lemma fail_d1 a d0 d1 open r : support_pipe a d0 d1 open = Ok r -> p_ret r <> 0 -> p_d1 r <= 0 \/ p_d1 r = d1.
Proof. intros H R. unfold support_pipe in H. cases; simpl in *; bools; auto; try (exfalso; apply R; reflexivity); left; lia. Qed.
Lemma fail_d0 a d0 d1 open r : support_pipe a d0 d1 open = Ok r -> p_ret r <> 0 -> kernel_ok a open -> std_open open ->
  (p_d0 r = d0 \/ p_d0 r = -1) /\ same_fds (p_open r) open \/ (2 < p_d0 r /\ ~ In (p_d0 r) open /\ same_fds (p_open r) (p_d0 r :: open)).
Proof.
  intros H R K S0. destruct (pipe_failed a d0 d1 open r K S0 H R) as [_ [Q|(N & E & Q)]].
  - assert (p_d0 r = d0 \/ p_d0 r = -1 \/ ~ same_fds (p_open r) open) as [X|[X|X]]; [|tauto|tauto|tauto].
    destruct K as (Kl & Kc & Ka). unfold support_pipe in H. cases; simpl in *; bools; auto; try (exfalso; apply R; reflexivity); right; right; intro X;
    (assert (In (a_cli a) open); [apply X; rewrite in_close, !in_opened; destruct Kc as [Kc|[K1 K2]]; [lia|]; simpl in K2; split; [tauto|left; intro Y; apply K2; left; auto]
     |destruct Kc as [Kc|[K1 K2]]; [lia|]; apply K2; right; assumption]).
  - right. repeat split; try assumption; try apply Q.
    rewrite E. rewrite E in N. destruct K as (Kl & Kc & Ka).
    destruct Kc as [Kc|[K1 K2]].
    + exfalso. clear -H R Q Kc E N. rewrite Kc in *.
      assert (In (p_d0 r) (p_open r)) by (apply Q; left; reflexivity). rewrite E in *.
      clear Q. unfold support_pipe in H. revert H0. cases; simpl in *; try discriminate; try (exfalso; apply R; reflexivity);
      intros I; try (apply in_close in I; destruct I as [I _]); rewrite ?in_opened in I; intuition (try lia).
      all: try discriminate.
    + destruct S0 as (A & B & C). destruct (Z_lt_dec 2 (a_cli a)) as [|G]; [assumption|].
      assert (a_cli a = 0 \/ a_cli a = 1 \/ a_cli a = 2) as [X|[X|X]] by lia; rewrite X in N; tauto.
Qed.
