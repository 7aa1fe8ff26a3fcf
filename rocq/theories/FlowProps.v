(** Theorems about flow control (C10-C14). *)
From Verif Require Import Base CodecModel FlowModel FlowSpec FlowProofs LinkModel LinkProofs.

(** ** C10: SEQ frames never move the sending window backwards *)

(** Whatever SEQ frame arrives, the octets granted to this sender (those below
    [e]) only grow, and the new limit is the one the frame states.  Otherwise
    ([None]) the connection is closed and the window is left alone. *)
Theorem C10_window_only_grows : forall s e ack win,
  sane s -> right_edge s e -> 0 <= ack < 4294967296 -> 0 <= win < 4294967296 ->
  match recv_seq s ack win with
  | Some s' => sane s' /\ sw_next s' = sw_next s /\
      exists e', right_edge s' e' /\ e < e' < e + 4294967296 /\ e' mod 4294967296 = (ack + win) mod 4294967296
  | None => True
  end.
Proof. exact window_only_grows. Qed.
Print Assumptions C10_window_only_grows.

(** A SEQ frame acknowledging the first [A] octets and granting [W] more is
    taken exactly when it acknowledges nothing beyond the current limit and
    extends it. *)
Theorem C10_acceptance : forall s e A W,
  sane s -> right_edge s e -> 0 <= W < 2147483648 -> -2147483648 <= e - A < 2147483648 ->
  (recv_seq s (A mod 4294967296) W <> None <-> A <= e < A + W).
Proof. exact seq_acceptance. Qed.
Print Assumptions C10_acceptance.

Example C10_case :
  let s := mkSW 10 4294967000 4096 4096 in
  sane s /\ right_edge s (4294967000 + 4096) /\
  recv_seq s 3000 4096 = Some (mkSW 10 3000 4096 4096) /\ recv_seq s 4294967000 4096 = None /\
  recv_seq s 3801 8192 = None.
Proof. vm_compute. repeat split; congruence. Qed.

(** The acknowledgement is not compared with what was sent: a SEQ frame that
    acknowledges octets never sent is taken (the comment in
    vortex_reader.c:384-386 says it is checked). *)
Theorem C10_ack_unsent_refuted : exists s A W,
  sane s /\ sw_next s < A /\ recv_seq s A W <> None.
Proof.
  exists swin0, 4096, 4096. split; [vm_compute; repeat split; congruence|]. split; [reflexivity|]. vm_compute. discriminate.
Qed.
Print Assumptions C10_ack_unsent_refuted.

(** ** C11: the receive window check is exact *)
Theorem C11_check_exact : forall es size,
  Forall rxev_ok es -> rr_up (rrun es) = true -> 0 <= size < 2147483648 ->
  let r := rr_win (rrun es) in let X := rr_total (rrun es) in
  check_incoming_seqno (rw_consumed r, rw_window r) (X mod 4294967296) size
  = (X + size <=? granted (rr_log (rrun es))).
Proof. exact receive_check_exact. Qed.
Print Assumptions C11_check_exact.

(** A run that crosses the wrap: the octets 4294967295 and 4294967296. *)
Definition across : list rxev :=
  [RSetWindow 2147483647; RFrame false 0 4096; RFrame false 4096 2147483000;
   RFrame false 2147487096 2147480000; RFrame false 4294967096 200; RFrame false 0 700].
Example C11_case :
  Forall rxev_ok across /\ rr_up (rrun across) = true /\ rr_total (rrun across) = 4294967996 /\
  granted (rr_log (rrun across)) = 6442450743 /\ length (rr_log (rrun across)) = 3%nat.
Proof. split; [repeat constructor; vm_compute; congruence|]. vm_compute. auto. Qed.

(** ** C12: advertised windows only grow *)
Theorem C12_advertised_windows_grow : forall es,
  Forall rxev_ok es -> no_resize es -> rr_up (rrun es) = true ->
  Forall (fun x => fst (snd x) = fst x mod 4294967296 /\ 0 <= fst x <= rr_total (rrun es)) (rr_log (rrun es)) /\
  increasing (4096 :: grants (rr_log (rrun es))).
Proof. exact advertised_windows_grow. Qed.
Print Assumptions C12_advertised_windows_grow.

Example C12_case :
  let es := [RFrame false 0 1000; RFrame false 1000 1048; RFrame false 2048 0; RFrame false 2048 4000] in
  Forall rxev_ok es /\ no_resize es /\ rr_up (rrun es) = true /\
  rr_log (rrun es) = [(2048, (2048, 4096)); (6048, (6048, 4096))].
Proof. split; [repeat constructor; vm_compute; congruence|]. split; [repeat constructor|]. vm_compute. auto. Qed.

(** The SEQ frame is sent before the frame is validated, so a frame that is
    about to be refused can be acknowledged: a duplicate of the first frame
    makes the receiver acknowledge less than it has received, and then close. *)
Theorem C12_bad_frame_acked_refuted : exists es x,
  Forall rxev_ok es /\ no_resize es /\ In x (rr_log (rrun es)) /\ fst (snd x) <> fst x mod 4294967296 /\
  rr_up (rrun es) = false.
Proof.
  exists [RFrame false 0 1000; RFrame false 0 2048], (1000, (2048, 4096)).
  split; [repeat constructor; vm_compute; congruence|]. split; [repeat constructor|].
  vm_compute. split; [auto|]. split; congruence.
Qed.
Print Assumptions C12_bad_frame_acked_refuted.

(** ** C13: flow control end to end *)

(** For every schedule in which the sender does not read a SEQ frame that
    acknowledges octet 4294967294 or 4294967295: the connection stays up, what
    was sent is what was received plus what is in transit, and reading what is
    in transit accepts all of it. *)
Theorem C13_no_loss_partial : forall es,
  Forall lev_ok es ->
  (forall es1 es2 a w rest, es = es1 ++ LAck :: es2 -> l_seqs (lrun link0 es1) = (a, w) :: rest -> a < 4294967294) ->
  let l := lrun link0 es in
  l_up l = true /\ l_sent l = l_recv l + dsum (l_data l) /\
  exists l', l' = lrun l (repeat LRecv (length (l_data l))) /\ l_up l' = true /\ l_recv l' = l_sent l.
Proof. exact link_no_loss. Qed.
Print Assumptions C13_no_loss_partial.

(** And a stalled sender is always un-stalled by what is in transit: after the
    receiver reads the frames in transit there is a SEQ frame on its way that
    lets the sender go on. *)
Theorem C13_no_deadlock_partial : forall es,
  Forall lev_ok es -> l_up (lrun link0 es) = true ->
  (forall es1 es2 a w rest, es = es1 ++ LAck :: es2 -> l_seqs (lrun link0 es1) = (a, w) :: rest -> a < 4294967294) ->
  is_stalled (l_s (lrun link0 es)) = true ->
  exists a w rest,
    let l := lrun link0 (es ++ repeat LRecv (length (l_data (lrun link0 es)))) in
    l_up l = true /\ l_data l = [] /\ l_seqs l = (a, w) :: rest /\
    (a < 4294967294 -> l_up (lstep l LAck) = true /\ is_stalled (l_s (lstep l LAck)) = false).
Proof. exact link_progress. Qed.
Print Assumptions C13_no_deadlock_partial.

Example C13_case :
  let es := [LSend 3000; LSend 5000; LRecv; LSend 5000; LNul; LAck; LSend 3904] in
  Forall lev_ok es /\ is_stalled (l_s (lrun link0 (firstn 2 es))) = true /\
  l_seqs (lrun link0 (firstn 5 es)) = [(3000, 4096)] /\ l_up (lrun link0 es) = true /\
  l_sent (lrun link0 es) = 7096 /\ l_recv (lrun link0 es) = 3000.
Proof. cbv zeta. split; [repeat constructor; vm_compute; congruence|]. vm_compute. auto. Qed.

(** Without the restriction the claim is false: a transfer of 2^32 - 1 octets
    ends with the sender closing the connection. *)
Theorem C13_wrap_refuted : exists es, Forall lev_ok es /\ l_up (lrun link0 es) = false.
Proof. exact wrap_down. Qed.
Print Assumptions C13_wrap_refuted.

(** ** C14: changing the window size *)

(** Away from the 2^32 wrap no request makes the receiver withdraw octets, and
    the sender always has something granted beyond what was received. *)
Theorem C14_resize_far_from_wrap_partial : forall hi es,
  4096 <= hi -> Forall rxev_ok es -> resize_below hi es ->
  rr_up (rrun es) = true -> rr_total (rrun es) + hi <= 4294967296 ->
  non_decreasing (4096 :: grants (rr_log (rrun es))) /\
  (seq_on es -> rr_total (rrun es) < granted (rr_log (rrun es))).
Proof. exact resize_safe_far_from_wrap. Qed.
Print Assumptions C14_resize_far_from_wrap_partial.

(** Anywhere, if no request makes the window smaller, every SEQ frame grants
    new octets. *)
Theorem C14_resize_grow_partial : forall es,
  Forall rxev_ok es -> non_decreasing (4096 :: requests es) -> rr_up (rrun es) = true ->
  increasing (4096 :: grants (rr_log (rrun es))).
Proof. exact resize_grow. Qed.
Print Assumptions C14_resize_grow_partial.

Example C14_case :
  let es := [RSetWindow 8192; RFrame false 0 2048; RSetWindow 1000; RFrame false 2048 5000; RFrame false 7048 3000] in
  Forall rxev_ok es /\ resize_below 8192 es /\ seq_on es /\ rr_up (rrun es) = true /\
  rr_log (rrun es) = [(2048, (2048, 8192)); (10048, (10048, 1000))] /\
  non_decreasing (4096 :: requests across) /\ rr_up (rrun across) = true.
Proof.
  cbv zeta. split; [repeat constructor; vm_compute; congruence|].
  split; [repeat constructor; vm_compute; congruence|]. split; [repeat constructor|].
  vm_compute. repeat split; congruence.
Qed.

(** Near the wrap a smaller window withdraws octets already granted. *)
Theorem C14_shrink_refuted : exists es,
  Forall rxev_ok es /\ rr_up (rrun es) = true /\ ~ non_decreasing (4096 :: grants (rr_log (rrun es))).
Proof.
  exists [RSetWindow 2147483647; RFrame false 0 4096; RFrame false 4096 2147483000;
          RSetWindow 1000; RFrame false 2147487096 2147479000].
  split; [repeat constructor; vm_compute; congruence|]. split; [reflexivity|].
  vm_compute. intros H. repeat match goal with H : _ /\ _ |- _ => destruct H end. congruence.
Qed.
Print Assumptions C14_shrink_refuted.

(** Near the wrap a request can leave the sender without window for ever: all
    granted octets are received, no SEQ frame was sent for them, no octet more
    is acceptable and empty frames do not help. *)
Theorem C14_starved_refuted : exists es,
  Forall rxev_ok es /\ seq_on es /\ rr_up (rrun es) = true /\
  rr_total (rrun es) = granted (rr_log (rrun es)) /\
  (forall off seqno csize, 0 <= seqno < 4294967296 -> 0 < csize < 2147483648 ->
     rr_up (rstep (rrun es) (RFrame off seqno csize)) = false) /\
  (forall off, rr_win (rstep (rrun es) (RFrame off (rr_total (rrun es) mod 4294967296) 0)) = rr_win (rrun es)) /\
  (forall off, rr_log (rstep (rrun es) (RFrame off (rr_total (rrun es) mod 4294967296) 0)) = rr_log (rrun es)).
Proof.
  exists [RSetWindow 2147483647; RFrame false 0 4096; RFrame false 4096 2147479504;
          RSetWindow 2000; RFrame false 2147483600 2147483647].
  set (es := [_; _; _; _; _]).
  assert (Hok : Forall rxev_ok es) by (repeat constructor; vm_compute; congruence).
  assert (Hup : rr_up (rrun es) = true) by reflexivity.
  split; [exact Hok|]. split; [repeat constructor|]. split; [exact Hup|]. split; [reflexivity|]. split.
  - intros off seqno csize Hq Hs. destruct (rr_up (rstep (rrun es) (RFrame off seqno csize))) eqn:E; [|reflexivity].
    exfalso. destruct (rinv_run es Hok Hup) as (C & Hat & Hg & _).
    destruct (rstep_frame_up _ off seqno csize C Hup Hat Hq ltac:(unfold two31; lia) E) as (_ & Hle & _).
    assert (rr_total (rrun es) = granted (rr_log (rrun es))) by reflexivity. lia.
  - split; intros []; vm_compute; reflexivity.
Qed.
Print Assumptions C14_starved_refuted.

(** Anywhere, a request that leaves the limit where it was produces a SEQ frame
    that grants nothing, and the sender closes the connection: a window of 2048
    requested before half of the initial window arrives. *)
Theorem C14_same_limit_refuted : exists es x s s',
  Forall rxev_ok es /\ rr_up (rrun es) = true /\ rr_log (rrun es) = [x] /\
  s = advance swin0 2048 /\ s' = recv_seq s (fst (snd x)) (snd (snd x)) /\ s' = None.
Proof.
  exists [RSetWindow 2048; RFrame false 0 2048], (2048, (2048, 2048)). do 2 eexists.
  split; [repeat constructor; vm_compute; congruence|]. repeat (split; [vm_compute; reflexivity|]). vm_compute. reflexivity.
Qed.
Print Assumptions C14_same_limit_refuted.
