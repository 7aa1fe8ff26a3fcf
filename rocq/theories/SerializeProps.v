(** Serialised delivery of frames. *)
From Verif Require Import Base SerializeModel SerializeSpec SerializeProofs.

(** C40: in any interleaving of the threads of the pool the handler sees the frames
    in order, one at a time and once.  Partial: the start reply had no content, the frames have it, all of them
    are for the handler, the handler does not change their size, less than 2^32 octets
    wait, and serialisation is on before the first frame. *)
Theorem C40_order_partial : forall e es, 0 <= e < modulus -> plainly [ZSerialize true] (zstep (z0 e) (ZSerialize true)) es ->
  in_order (z_log (zrun (z0 e) (ZSerialize true :: es))).
Proof. exact order_thm. Qed.
Print Assumptions C40_order_partial.
(** All of them, once the pool has no tasks left. *)
Theorem C40_all_partial : forall e es, 0 <= e < modulus -> plainly [ZSerialize true] (zstep (z0 e) (ZSerialize true)) es ->
  let s := zrun (z0 e) (ZSerialize true :: es) in
  z_up s = true -> z_tasks s = [] -> z_run s = [] -> z_hash s = [] /\ seen (z_log s) = calls (length (sizes es)).
Proof. exact all_thm. Qed.
Print Assumptions C40_all_partial.
(** Four frames whose tasks run backwards, the sequence numbers wrapping. *)
Definition backwards : list zev :=
  [ZFrame 5 false; ZFrame 6 false; ZFrame 7 false; ZTask 2; ZTask 1; ZFrame 8 false; ZTask 3; ZTask 0; ZReturn 0 5; ZReturn 1 6; ZReturn 2 7; ZReturn 3 8].
Example C40_case : plainly [ZSerialize true] (zstep (z0 4294967290) (ZSerialize true)) backwards /\
  z_log (zrun (z0 4294967290) (ZSerialize true :: backwards)) = [OStart 0; OEnd 0; OStart 1; OEnd 1; OStart 2; OEnd 2; OStart 3; OEnd 3] /\
  z_tasks (zrun (z0 4294967290) (ZSerialize true :: backwards)) = [].
Proof. split; [|vm_compute; auto]. repeat (split; [vm_compute; repeat split; try discriminate; try reflexivity|]). exact Logic.I. Qed.

(** With an empty frame in between the handler sees frame 2 before frame 1, and
    frame 1 is never delivered. *)
Theorem C40_empty_refuted : exists es, (forall n t, In (ZFrame n t) es -> 0 <= n /\ t = false) /\ (forall i n, In (ZReturn i n) es -> nth_error (sizes es) i = Some n) /\
  let s := zrun (z0 0) (ZSerialize true :: es) in
  ~ in_order (z_log s) /\ z_up s = true /\ z_tasks s = [] /\ z_run s = [] /\ map f_id (z_hash s) = [1%nat].
Proof. exact empty_thm. Qed.
Print Assumptions C40_empty_refuted.
(** Two empty frames that come ahead of their turn: one of them is lost. *)
Theorem C40_lost_refuted : exists es, (forall n t, In (ZFrame n t) es -> 0 <= n /\ t = false) /\ (forall i n, In (ZReturn i n) es -> nth_error (sizes es) i = Some n) /\
  In (OFreed 1) (z_log (zrun (z0 0) (ZSerialize true :: es))) /\ z_up (zrun (z0 0) (ZSerialize true :: es)) = true.
Proof. exact lost_thm. Qed.
Print Assumptions C40_lost_refuted.
(** A reply taken by a thread that waits for it leaves all that follow undelivered. *)
Theorem C40_taken_refuted : exists es, (forall n t, In (ZFrame n t) es -> 0 < n) /\ (forall i n, In (ZReturn i n) es -> nth_error (sizes es) i = Some n) /\
  let s := zrun (z0 0) (ZSerialize true :: es) in
  z_up s = true /\ z_tasks s = [] /\ z_run s = [] /\ seen (z_log s) = [] /\ map f_id (z_hash s) = [0%nat; 1%nat].
Proof. exact taken_thm. Qed.
Print Assumptions C40_taken_refuted.
(** Frames that wait for a thread when serialisation is enabled are not delivered. *)
Theorem C40_late_refuted : exists es, (forall n t, In (ZFrame n t) es -> 0 < n /\ t = false) /\
  let s := zrun (z0 0) es in
  z_up s = true /\ z_tasks s = [] /\ z_run s = [] /\ seen (z_log s) = [] /\ map f_id (z_hash s) = [0%nat].
Proof. exact late_thm. Qed.
Print Assumptions C40_late_refuted.
(** A handler that adds a MIME header to the frame it receives gets no other. *)
Theorem C40_mime_refuted : exists es, (forall n t, In (ZFrame n t) es -> 0 < n /\ t = false) /\
  let s := zrun (z0 0) (ZSerialize true :: es) in
  z_up s = true /\ z_tasks s = [] /\ z_run s = [] /\ seen (z_log s) = calls 1 /\ map f_id (z_hash s) = [1%nat].
Proof. exact mime_thm. Qed.
Print Assumptions C40_mime_refuted.
(** With 2^32 octets of frames behind the one in course, two calls overlap. *)
Theorem C40_backlog_refuted : exists es, (forall n t, In (ZFrame n t) es -> 0 < n < 2147483648 /\ t = false) /\
  let s := zrun (z0 0) (ZSerialize true :: es) in length (z_run s) = 2%nat /\ ~ in_order (z_log s).
Proof. exact backlog_thm. Qed.
Print Assumptions C40_backlog_refuted.
(** When the start reply has content the handler gets it and nothing else: the first
    frame is not the next one. *)
Theorem C40_piggyback_refuted : exists n m, 0 < n /\ 0 < m /\
  let s := zrun (z0 0) [ZSerialize true; ZPiggy n; ZFrame m false; ZTask 0; ZReturn 0 n; ZTask 1] in
  z_up s = true /\ z_tasks s = [] /\ z_run s = [] /\ seen (z_log s) = calls 1 /\ map f_id (z_hash s) = [1%nat].
Proof. exact piggy_thm. Qed.
Print Assumptions C40_piggyback_refuted.
