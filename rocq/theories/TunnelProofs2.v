(** Witnesses about the TUNNEL profile. *)
From Verif Require Import Base SendRawModel SendRawProofs TunnelModel TunnelSpec TunnelProofs.

Definition k (x : attr) (v : Z) : attr * bytes := (x, [v]).
Definition hopA := [k AFqdn 97; k APort 49].
Definition hopB := [k AIp4 98; k APort 50].
Definition hopC := [k APort 51; k AFqdn 99].
Definition at_a : addr := ([97], [49]).
Definition at_b : addr := ([98], [50]).
Definition at_c : addr := ([99], [51]).
Definition all_up : addr -> peer := fun _ => mkPeer true None None.

Lemma both_ips : exists items, ~ well_configured items /\ add_hop settings_new items = TNode items [settings_new].
Proof.
  exists [k AIp4 1; k AIp6 2; k APort 3]. split; [|reflexivity].
  intros (d & D & _ & _ & E). assert (A := proj1 (E AIp4)). assert (B := proj1 (E AIp6)). cbn in A, B.
  specialize (A (or_introl eq_refl)). specialize (B (or_intror (or_introl eq_refl))).
  cbn [documented In] in D. repeat match goal with H : _ \/ _ |- _ => destruct H end; try contradiction; subst d; cbn in A, B;
  intuition discriminate.
Qed.

(** A hop that could not be configured is not in the route: the request goes
    straight to the next one. *)
Lemma dropped_hop : exists proxy fuel q, add_hop (add_hop settings_new hopA) proxy = add_hop settings_new hopA /\
  tunnel fuel all_up (add_hops settings_new [hopA; proxy]) = Some (q, true) /\ map fst q = [at_a].
Proof. exists [k AFqdn 112; k AIp4 113; k APort 114], 5%nat, [(at_a, settings_new)]. vm_compute. auto. Qed.

(** Documented hops that are never contacted. *)
Lemma unsupported : exists l, Forall well_configured l /\ (length l = 4)%nat /\
  forall items net, In items l -> tunnel 5 net (add_hop settings_new items) = Some ([], false).
Proof.
  exists [[k AFqdn 1; k ASrv 2]; [k AIp6 1; k APort 2]; [k AUri 1]; [k AEndpoint 1]].
  assert (W : forall d items, In d documented -> map fst items = d -> NoDup d -> well_configured items).
  { intros d items D E N. exists d. split; auto. rewrite E. split; [exact N|]. split; [exact N|]. tauto. }
  split; [|split; [reflexivity|]].
  - repeat constructor.
    + apply (W [AFqdn; ASrv]); cbn; auto. repeat constructor; cbn; intuition discriminate.
    + apply (W [AIp6; APort]); cbn; auto. tauto. repeat constructor; cbn; intuition discriminate.
    + apply (W [AUri]); cbn; auto. tauto. repeat constructor; cbn; intuition discriminate.
    + apply (W [AEndpoint]); cbn; auto. tauto. repeat constructor; cbn; intuition discriminate.
  - intros items net I. cbn [In app] in I. repeat match goal with H : _ \/ _ |- _ => destruct H end; try contradiction; subst items; vm_compute; reflexivity.
Qed.

Lemma handler_unused : forall fuel net s handler reset r told, tunnel_new fuel net s handler reset = Some (r, told) -> told = [].
Proof. intros fuel net s handler reset r told. unfold tunnel_new. destruct (tunnel fuel net s) as [[l ok]|]; intros H; inversion H; reflexivity. Qed.

Lemma result_thm fuel net s handler reset r told : tunnel_new fuel net s handler reset = Some (r, told) ->
  (r = Some true <-> reset = true /\ exists q, tunnel fuel net s = Some (q, true)) /\ (r = Some true \/ r = None).
Proof.
  unfold tunnel_new. destruct (tunnel fuel net s) as [[l ok]|]; intros H; inversion H; subst. destruct ok, reset; cbn; split; auto; split; intros X;
  try discriminate; eauto; destruct X as (A & q & B); congruence.
Qed.

Lemma handler_refuted : exists fuel net s r, tunnel_new fuel net s true true = Some (r, []) /\ r = Some true.
Proof. exists 5%nat, all_up, (add_hops settings_new [hopA; hopB]), (Some true). vm_compute. auto. Qed.

(** A loop of resolvers: a request that never ends. *)
Definition loop_net : addr -> peer := fun _ => mkPeer true None (Some (fun _ => Some (add_hops settings_new [hopA; hopB]))).
Lemma endless : forall fuel, tunnel fuel loop_net (add_hops settings_new [hopA; hopB]) = None.
Proof.
  induction fuel as [|fuel IH]; [reflexivity|]. cbn [tunnel].
  change (first_step (add_hops settings_new [hopA; hopB])) with (Some (at_b, TNode hopA [settings_new])).
  cbn [loop_net p_up negb p_accept p_resolver start_request t_children]. rewrite IH. reflexivity.
Qed.

(** ** The relay *)
Definition opts : wopts := mkW 0 false.
Definition good (x : side) (b : Z) : rcall := mkRCall x (GData b []) [Sent 1] [].
Definition broken (x : side) (b : Z) : rcall := mkRCall x (GData b []) [SFail] [].
Definition partly : rcall := mkRCall SA (GData 1 [2; 3; 4]) [Sent 1; Sent 1; Sent 1] [WReady; WReady].

Lemma gap_thm : exists l r, rounds true opts relay0 l = Ok (Some r) /\ r_up (r_a r) = true /\ r_up (r_b r) = true /\
  r_in (r_a r) = [1; 2; 3; 4; 5] /\ r_out (r_b r) = [1; 2; 3; 5].
Proof. exists [[partly]; [good SA 5]]. eexists. split; [vm_compute; reflexivity|]. cbn. auto. Qed.

Lemma again_thm : exists l r, l = [[mkRCall SA (GNone NAgain) [] []]] /\ rounds true opts relay0 l = Ok (Some r) /\
  r_up (r_a r) = false /\ r_up (r_b r) = false.
Proof. eexists. eexists. split; [reflexivity|]. split; [vm_compute; reflexivity|]. cbn. auto. Qed.

Lemma released_thm : forall dispatch, rounds dispatch opts relay0 [[broken SA 1]; [good SA 2]] = UB.
Proof. intros []; vm_compute; reflexivity. Qed.

Lemma length_thm : rounds true opts relay0 [[broken SA 1; good SB 2]] = UB.
Proof. vm_compute. reflexivity. Qed.
