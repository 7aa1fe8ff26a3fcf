(** The properties of the TUNNEL profile. *)
From Verif Require Import Base SendRawModel TunnelModel TunnelSpec TunnelProofs TunnelProofs2.

(** C166: the hops configured are the ones of the settings. *)
Theorem C166_documented : forall s items, well_configured items -> add_hop s items = TNode items [s].
Proof. exact configured_thm. Qed.
Print Assumptions C166_documented.
Theorem C166_coherent_partial : forall s items, add_hop s items = s \/
  (add_hop s items = TNode items [s] /\ coherent (map fst items)).
Proof. exact coherent_thm. Qed.
Print Assumptions C166_coherent_partial.
Theorem C166_addresses_refuted : exists items, ~ well_configured items /\ add_hop settings_new items = TNode items [settings_new].
Proof. exact both_ips. Qed.
Print Assumptions C166_addresses_refuted.
Theorem C166_dropped_refuted : exists proxy fuel q, add_hop (add_hop settings_new hopA) proxy = add_hop settings_new hopA /\
  tunnel fuel all_up (add_hops settings_new [hopA; proxy]) = Some (q, true) /\ map fst q = [at_a].
Proof. exact dropped_hop. Qed.
Print Assumptions C166_dropped_refuted.
Example C166_case : add_hops settings_new [hopA; hopB] = TNode hopB [TNode hopA [settings_new]] /\
  add_hop settings_new [k AFqdn 1; k AIp4 2] = settings_new /\ coherent (map fst hopB).
Proof. split; [reflexivity|]. split; [reflexivity|]. destruct (coherent_thm settings_new hopB) as [H|[_ H]]; [discriminate|exact H]. Qed.

(** C167: a tunnel follows the route of the settings, hop by hop. *)
Theorem C167_route_partial : forall net cs xs fuel, no_resolvers net -> Forall2 plain_hop cs xs -> (length cs < fuel)%nat ->
  exists q, tunnel fuel net (add_hops settings_new cs) = Some (q, snd (route net (rev xs))) /\
    map fst q = fst (route net (rev xs)).
Proof. exact route_thm. Qed.
Print Assumptions C167_route_partial.
Theorem C167_prefix : forall net l, exists r, l = fst (route net l) ++ r /\ (snd (route net l) = true -> r = []).
Proof. exact route_prefix. Qed.
Print Assumptions C167_prefix.
Theorem C167_all : forall net l, snd (route net l) = true <->
  l <> [] /\ (forall x, In x l -> p_up (net x) = true) /\ (forall x r, l = r ++ [x] -> p_accept (net x) <> Some false).
Proof. exact route_all. Qed.
Print Assumptions C167_all.
Theorem C167_documents : forall net, no_resolvers net -> forall l xs fuel, Forall2 plain_hop l xs -> (length l < fuel)%nat ->
  exists q, tunnel fuel net (doc_of l) = Some (q, snd (route net xs)) /\ map fst q = fst (route net xs) /\
    forall i x d, nth_error q i = Some (x, d) -> d = doc_of (skipn (S i) l).
Proof. exact tunnel_doc. Qed.
Print Assumptions C167_documents.
Theorem C167_unsupported_refuted : exists l, Forall well_configured l /\ (length l = 4)%nat /\
  forall items net, In items l -> tunnel 5 net (add_hop settings_new items) = Some ([], false).
Proof. exact unsupported. Qed.
Print Assumptions C167_unsupported_refuted.
Theorem C167_endless_refuted : forall fuel, tunnel fuel loop_net (add_hops settings_new [hopA; hopB]) = None.
Proof. exact endless. Qed.
Print Assumptions C167_endless_refuted.
Example C167_case : tunnel 5 all_up (add_hops settings_new [hopA; hopB; hopC]) =
  Some ([(at_c, TNode hopB [TNode hopA [settings_new]]); (at_b, TNode hopA [settings_new]); (at_a, settings_new)], true) /\
  Forall2 plain_hop [hopA; hopB; hopC] [at_a; at_b; at_c].
Proof. split; [vm_compute; reflexivity|]. repeat (apply Forall2_cons; [unfold plain_hop; cbn; auto|]). apply Forall2_nil. Qed.

(** C168: the caller of vortex_tunnel_new learns the result. *)
Theorem C168_result_partial : forall fuel net s handler reset r told, tunnel_new fuel net s handler reset = Some (r, told) ->
  (r = Some true <-> reset = true /\ exists q, tunnel fuel net s = Some (q, true)) /\ (r = Some true \/ r = None).
Proof. exact result_thm. Qed.
Print Assumptions C168_result_partial.
Theorem C168_handler_refuted : exists fuel net s r, tunnel_new fuel net s true true = Some (r, []) /\ r = Some true.
Proof. exact handler_refuted. Qed.
Print Assumptions C168_handler_refuted.
Example C168_case : tunnel_new 5 all_up (add_hops settings_new [hopA]) false true = Some (Some true, []) /\
  tunnel_new 5 all_up settings_new false true = Some (None, []).
Proof. vm_compute. auto. Qed.

(** C169: a listener is the end point of a tunnel when the application agrees. *)
Theorem C169_answer : forall accept resolver t, exists d, start_request accept resolver (CDoc t) = Ok d /\
  (d = DEnd <-> t_children t = [] /\ accept <> Some false) /\
  (d = DRefuse 537 <-> t_children t = [] /\ accept = Some false) /\
  (forall s, d = DNext s <-> t_children t <> [] /\
     ((exists f, resolver = Some f /\ f t = Some s) \/ (s = t /\ forall f, resolver = Some f -> f t = None))).
Proof. exact answer_thm. Qed.
Print Assumptions C169_answer.
(** A request that is not a document is refused. *)
Theorem C169_bad : forall accept resolver, start_request accept resolver CBad = Ok (DRefuse 500).
Proof. exact answer_bad. Qed.
Print Assumptions C169_bad.
Example C169_case : start_request None None (CDoc settings_new) = Ok DEnd /\ start_request (Some false) None (CDoc settings_new) = Ok (DRefuse 537) /\
  start_request (Some false) None (CDoc (add_hop settings_new hopA)) = Ok (DNext (add_hop settings_new hopA)) /\
  start_request None None CBad = Ok (DRefuse 500).
Proof. vm_compute. auto. Qed.

(** C170: a relay passes the octets in order, without loss. *)
Theorem C170_order_partial : forall dispatch o l r, Forall (Forall (call_closes o)) l -> rounds dispatch o relay0 l = Ok (Some r) ->
  forall x, is_prefix (r_out (get r (other x))) (r_in (get r x)) /\
    (r_up (get r (other x)) = true -> r_out (get r (other x)) = r_in (get r x)).
Proof. exact relay_prefix_thm. Qed.
Print Assumptions C170_order_partial.
Theorem C170_all_partial : forall dispatch o l, Forall (Forall (call_ok o)) l ->
  exists r, rounds dispatch o relay0 l = Ok (Some r) /\ r_up (r_a r) = r_up (r_b r) /\
    r_out (r_a r) = r_in (r_b r) /\ r_out (r_b r) = r_in (r_a r).
Proof. exact relay_safe_thm. Qed.
Print Assumptions C170_all_partial.
Theorem C170_gap_refuted : exists l r, rounds true opts relay0 l = Ok (Some r) /\ r_up (r_a r) = true /\ r_up (r_b r) = true /\
  r_in (r_a r) = [1; 2; 3; 4; 5] /\ r_out (r_b r) = [1; 2; 3; 5].
Proof. exact gap_thm. Qed.
Print Assumptions C170_gap_refuted.
Example C170_case : exists r, rounds true opts relay0 [[good SA 1; good SB 2]; [good SA 3]] = Ok (Some r) /\
  r_out (r_b r) = [1; 3] /\ r_out (r_a r) = [2] /\ call_ok opts (good SA 1) /\ call_closes opts (broken SA 1).
Proof.
  eexists. split; [vm_compute; reflexivity|]. split; [reflexivity|]. split; [reflexivity|].
  split; [exists [1]; reflexivity|]. intros ok w H. vm_compute in H. discriminate.
Qed.

(** C171: both sides of a relay end together, and the relay uses no released connection. *)
Theorem C171_end : forall o r x n sends waits, r_alive (get r (other x)) = true -> r_up (get r x) = true ->
  exists r', pass_octets o r x (GNone n) sends waits = Ok (Some r') /\ r_up (r_a r') = false /\ r_up (r_b r') = false.
Proof. exact relay_end_thm. Qed.
Print Assumptions C171_end.
Theorem C171_again_refuted : exists l r, l = [[mkRCall SA (GNone NAgain) [] []]] /\ rounds true opts relay0 l = Ok (Some r) /\
  r_up (r_a r) = false /\ r_up (r_b r) = false.
Proof. exact again_thm. Qed.
Print Assumptions C171_again_refuted.
Theorem C171_released_refuted : forall dispatch, rounds dispatch opts relay0 [[broken SA 1]; [good SA 2]] = UB.
Proof. exact released_thm. Qed.
Print Assumptions C171_released_refuted.
Theorem C171_length_refuted : rounds true opts relay0 [[broken SA 1; good SB 2]] = UB.
Proof. exact length_thm. Qed.
Print Assumptions C171_length_refuted.
Example C171_case : exists r, rounds false opts relay0 [[good SA 1; mkRCall SB (GNone NEof) [] []]; [good SA 2]] = Ok (Some r) /\
  r_up (r_a r) = false /\ r_alive (r_a r) = false /\ r_alive (r_b r) = false.
Proof. eexists. split; [vm_compute; reflexivity|]. auto. Qed.
