(** Theorems about the sequencer (C06, C08, C09, C56) and the file feeder (C44). *)
From Verif Require Import Base CodecModel CodecSpec FlowModel SequencerModel SequencerSpec SequencerProofs FeederModel FeederProofs.

(** ** C06: the sequencer never writes outside its buffers *)

(** For every schedule of senders, reader, pauses and rounds, every frame size
    handler that asks for at most 1073741774 octets and every feeder that gives
    no more than it is asked for, no step is undefined (signed overflow in the
    buffer size, a write outside the send or feeder buffer, a read outside the
    message). *)
Theorem C06_buffers_partial : forall (A : Type) (ops : fops A) good es,
  good_feeder ops good -> Forall (sev_ok good) es -> handlers_below 1073741774 es ->
  exists s, srun ops chst0 es = Ok s.
Proof. intros A ops good es Hg Ho Hh. destruct (no_overflow ops good Hg es Ho Hh) as (s & H & _). eauto. Qed.
Print Assumptions C06_buffers_partial.

(** A handler that asks for more makes the computation of the new buffer size
    overflow. *)
Theorem C06_handler_refuted : exists (d : qdata unit) n,
  queueable (fun _ => False) d /\ q_size d = n /\ n < 2147483648 /\
  srun (mkOps (fun _ => UB) (fun _ _ => UB) (fun _ => false)) chst0 [EQueue d; EBegin; EEnd (mkNfs (Some n) None None)] = UB.
Proof.
  destruct (big_frame_ub 1073741825 eq_refl) as (d & H1 & H2 & H3). exists d, 1073741825. split; [exact H1|]. split; [exact H2|]. split; [lia|exact H3].
Qed.
Print Assumptions C06_handler_refuted.

(** A message, a file of 200 octets with a MIME header, and a window with one
    octet left when the file is reached. *)
Definition msg1 (n : nat) : qdata ffile := mkQ TMSG 1 0 0 (repeat 65 n) 0 (Z.of_nat n) false None.
Definition file1 (n : nat) (mime : bool) : qdata ffile :=
  mkQ TMSG 1 1 0 [] 0 0 false (Some (file_feeder (repeat 66 n) mime true)).
Definition one_left (n : nat) : list (@sev ffile) :=
  [EQueue (msg1 4095); EQueue (file1 n true); EBegin; EEnd no_handlers; EBegin; EEnd no_handlers].

(** The file feeder shipped with the library does not respect that: it is asked
    for one octet and reads the whole file into a buffer of 101. *)
Theorem C06_mime_feeder_refuted : exists es : list (@sev ffile),
  default_handlers es /\ srun file_ops chst0 es = UB /\
  Forall (fun e => match e with EQueue d => q_type d = TMSG /\ q_size d = zlen (q_msg d) | _ => True end) es.
Proof.
  exists (one_left 200). split; [repeat constructor|]. split; [vm_compute; reflexivity|]. repeat constructor; reflexivity.
Qed.
Print Assumptions C06_mime_feeder_refuted.

(** Several messages, a window update that wraps nothing, a frame size handler. *)
Definition busy : list (@sev ffile) :=
  [EQueue (msg1 5000); EQueue (file1 300 false); EQueue (mkQ TNUL 1 4 0 [] 0 0 false None);
   EBegin; EEnd (mkNfs None (Some 1000) None); EBegin; ESeq 1000 8192; EEnd no_handlers; EBegin; EEnd no_handlers;
   EBegin; EEnd no_handlers; EBegin; EEnd no_handlers; EBegin; EEnd no_handlers].
Example C06_case :
  good_feeder file_ops small /\ Forall (sev_ok small) busy /\ handlers_below 1073741774 busy /\ no_pauses busy /\
  exists s, srun file_ops chst0 busy = Ok s /\ c_up s = true /\ c_pend s = [] /\ length (c_out s) = 5%nat /\ c_replies s = [0].
Proof.
  split; [exact file_good|]. split.
  { repeat constructor; cbn; unfold small; cbn; try lia; try discriminate; try reflexivity. }
  split. { repeat constructor; cbn; intros v E; try discriminate; injection E as <-; lia. }
  split; [repeat constructor|]. eexists. split; [vm_compute; reflexivity|]. repeat split.
Qed.

(** ** C08: segmentation is lossless *)

(** At every point of every schedule without paused feeders: the messages
    queued are those finished, followed by those waiting; the frames built are,
    in order and with consecutive sequence numbers, the frames of the finished
    messages and those sent so far of the first waiting one; their payloads
    concatenate to the message (for a feeder, to what it gave up to saying it
    was finished); every frame but the last of a message has the more flag.
    While the connection is up all those frames have been written. *)
Theorem C08_segmentation : forall (A : Type) (ops : fops A) good es s,
  good_feeder ops good -> Forall (sev_ok good) es -> handlers_below 1073741774 es -> no_pauses es ->
  srun ops chst0 es = Ok s ->
  exists dn cur waiting sent rest,
    queued es = map fst dn ++ waiting /\ length (c_pend s) = length waiting /\
    Forall (fun x => whole ops (fst x) (snd x)) dn /\
    (cur = [] \/ exists d ws, waiting = d :: ws /\ begun ops d cur) /\
    stream 0 dn ++ (match waiting with [] => [] | d :: _ => segment d (octets dn) true cur end) = sent ++ rest /\
    Forall2 data_wire sent (c_out s) /\ (c_up s = true -> rest = []) /\
    c_replies s = map (fun x => reported (fst x)) (filter (fun x => is_reply (fst x)) dn).
Proof. intros A ops good es s Hg. exact (segmentation ops good Hg es s). Qed.
Print Assumptions C08_segmentation.

(** The hypotheses hold of [busy] above (C06_case). *)
Example C08_case : exists s, srun file_ops chst0 (firstn 8 busy) = Ok s /\ length (c_out s) = 2%nat /\
  length (c_pend s) = 3%nat /\ sw_next (c_win s) = 4096.
Proof. eexists. split; [vm_compute; reflexivity|]. repeat split. Qed.

(** An empty message, other than a NUL, is not sent: the connection is closed.
    (vortex_channel_send_msg_more followed by an empty vortex_channel_send_msg
    gets here: the MIME header, which would make the size positive, is not
    added to a continuation, src/vortex_channel.c:2491-2529.) *)
Theorem C08_empty_refuted : exists es s,
  Forall (sev_ok small) es /\ default_handlers es /\
  queued es = [mkQ TMSG 1 0 0 [65] 0 1 true None; mkQ TMSG 1 0 0 [] 0 0 false None] /\
  srun file_ops chst0 es = Ok s /\ c_up s = false /\ length (c_out s) = 1%nat.
Proof.
  exists [EQueue (mkQ TMSG 1 0 0 [65] 0 1 true None); EQueue (mkQ TMSG 1 0 0 [] 0 0 false None);
          EBegin; EEnd no_handlers; EBegin; EEnd no_handlers]. eexists.
  split. { repeat constructor; cbn; try lia; try discriminate. }
  split; [repeat constructor|]. split; [reflexivity|]. split; [vm_compute; reflexivity|]. split; reflexivity.
Qed.
Print Assumptions C08_empty_refuted.

(** ** C09: the sender never exceeds the window *)

(** With the default frame size computation, for every peer (any sequence of
    SEQ frames), every schedule and any pauses, the octets written never exceed
    the octets granted. *)
Theorem C09_within_window_partial : forall (A : Type) (ops : fops A) good es s,
  good_feeder ops good -> Forall (sev_ok good) es -> default_handlers es -> srun ops chst0 es = Ok s ->
  exists fs, Forall2 data_wire fs (c_out s) /\ payload_octets fs <= granted_by 4096 es.
Proof. intros A ops good es s Hg. exact (within_window ops good Hg es s). Qed.
Print Assumptions C09_within_window_partial.

Definition stalled_run : list (@sev ffile) :=
  [EQueue (msg1 9000); EBegin; ESeq 2000 4096; EEnd no_handlers; EBegin; EEnd no_handlers; EBegin; EEnd no_handlers].
Example C09_case :
  Forall (sev_ok small) stalled_run /\ default_handlers stalled_run /\ granted_by 4096 stalled_run = 6096 /\
  exists s, srun file_ops chst0 stalled_run = Ok s /\ sw_next (c_win s) = 6096 /\ length (c_out s) = 2%nat.
Proof.
  split. { repeat constructor; cbn; try lia; try discriminate. }
  split; [repeat constructor|]. split; [reflexivity|]. eexists. split; [vm_compute; reflexivity|]. split; reflexivity.
Qed.

(** The answers of the frame size handlers are only compared with the size of
    the message, never with the window. *)
Theorem C09_handler_refuted : exists es s,
  Forall (sev_ok small) es /\ granted_by 4096 es = 4096 /\ srun file_ops chst0 es = Ok s /\ sw_next (c_win s) = 5000 /\
  c_up s = true /\ length (c_out s) = 1%nat.
Proof.
  exists [EQueue (msg1 5000); EBegin; EEnd (mkNfs (Some 5000) None None)]. eexists.
  split. { repeat constructor; cbn; try lia; try discriminate. }
  split; [reflexivity|]. split; [vm_compute; reflexivity|]. repeat split.
Qed.
Print Assumptions C09_handler_refuted.

(** And a file with a MIME header exceeds the window when only one octet is
    left, with the default computation. *)
Theorem C09_mime_feeder_refuted : exists es s,
  default_handlers es /\ granted_by 4096 es = 4096 /\ srun file_ops chst0 es = Ok s /\ sw_next (c_win s) = 4147 /\
  c_up s = true /\ length (c_out s) = 2%nat.
Proof.
  exists (one_left 50). eexists. split; [repeat constructor|]. split; [reflexivity|]. split; [vm_compute; reflexivity|]. repeat split.
Qed.
Print Assumptions C09_mime_feeder_refuted.

(** ** C44: a file feeder transmits the file *)

(** Whatever sizes are requested, what the feeder gives is a beginning of the
    MIME separator (if asked for) and the file, and all of it when it says it
    is finished. *)
Theorem C44_content : forall content mime cs f,
  feeds file_ops (ff_new content mime) cs f ->
  (exists left, concat cs ++ left = (if mime then [13; 10] else []) ++ content) /\
  (cs <> [] -> op_finished file_ops f = true -> concat cs = (if mime then [13; 10] else []) ++ content).
Proof. exact file_content. Qed.
Print Assumptions C44_content.

(** Every request gives at least one octet or finishes. *)
Theorem C44_progress : forall content mime cs f size c f',
  feeds file_ops (ff_new content mime) cs f -> 0 < size -> op_content file_ops f size = Ok (c, f') ->
  c <> [] \/ op_finished file_ops f' = true.
Proof. exact file_progress. Qed.
Print Assumptions C44_progress.

(** No more octets than requested, except for the first request with a MIME
    separator and a size of one (refuted in C06 and C09 above). *)
Theorem C44_size_partial : forall content mime cs f size c f',
  feeds file_ops (ff_new content mime) cs f -> 0 < size -> op_content file_ops f size = Ok (c, f') ->
  mime = false \/ cs <> [] \/ 2 <= size -> zlen c <= size.
Proof. exact file_size. Qed.
Print Assumptions C44_size_partial.

(** The finish handler is called once, no matter how many times the end is
    looked at. *)
Theorem C44_finish_once : forall content mime handler cs st n,
  feeds file_ops (ff_new content mime) cs st ->
  fe_calls (ask_finished file_ops n (mkFeeder st 0 false (zlen (concat cs)) handler false 0)) =
    (if handler && op_finished file_ops st && negb (Nat.eqb n 0) then 1 else 0).
Proof. exact finish_once. Qed.
Print Assumptions C44_finish_once.

(** Through the sequencer: files sent without MIME separator arrive whole. *)
Theorem C44_sent : forall es s,
  Forall (sev_ok small) es -> handlers_below 1073741774 es -> no_pauses es ->
  Forall (fun d => exists content h, q_feeder d = Some (file_feeder content false h)) (queued es) ->
  srun file_ops chst0 es = Ok s -> c_up s = true -> c_pend s = [] ->
  exists fs, Forall2 data_wire fs (c_out s) /\
    concat (map f_payload fs) = concat (map (fun d => match q_feeder d with Some f => ff_rest (fe_state f) | None => [] end) (queued es)).
Proof. exact files_sent. Qed.
Print Assumptions C44_sent.

Example C44_case :
  let es := [EQueue (file1 4096 false); EQueue (file1 10 false); EBegin; EEnd no_handlers; ESeq 4096 4096;
             EBegin; EEnd no_handlers; EBegin; EEnd no_handlers] in
  Forall (sev_ok small) es /\ handlers_below 1073741774 es /\ no_pauses es /\
  Forall (fun d => exists content h, q_feeder d = Some (file_feeder content false h)) (queued es) /\
  exists s, srun file_ops chst0 es = Ok s /\ c_up s = true /\ c_pend s = [] /\ length (c_out s) = 3%nat.
Proof.
  cbv zeta. split. { repeat constructor; cbn [sev_ok queueable file1 q_type q_ch q_msgno q_ansno q_msg q_step q_feeder ftype_eqb file_feeder fe_state fe_status ff_new ff_mime ff_size]; unfold small, zlen; try lia; try discriminate; vm_compute; congruence. }
  split. { repeat constructor; cbn; intros v E; discriminate. }
  split; [repeat constructor|]. split; [repeat constructor; unfold file1; cbn [q_feeder]; eauto|].
  eexists. split; [vm_compute; reflexivity|]. repeat split.
Qed.

(** The size is kept in an int: a file of 2^31 - 2 octets or more makes the
    size computation overflow, or is taken as a negative size. *)
Theorem C44_large_refuted : exists content, op_size file_ops (ff_new content false) = UB.
Proof.
  assert (exists m : bytes, zlen m = 2147483647) as (m & Hm).
  { exists (repeat 0 (Z.to_nat 2147483647)). unfold zlen. rewrite repeat_length. apply Z2Nat.id. discriminate. }
  exists m. unfold ff_new, file_ops, ff_get_size. cbn [op_size ff_size]. rewrite Hm. reflexivity.
Qed.
Print Assumptions C44_large_refuted.

(** ** C56: the reply reported as sent is the one sent *)

(** Part of C08: the numbers reported are those of the replies finished, in
    order, except that an empty NUL is reported as 0: *)
Theorem C56_nul_refuted : exists es s,
  Forall (sev_ok small) es /\ default_handlers es /\ srun file_ops chst0 es = Ok s /\
  queued es = [mkQ TNUL 1 4 0 [] 0 0 false None] /\ c_up s = true /\ c_replies s = [0].
Proof.
  exists [EQueue (mkQ TNUL 1 4 0 [] 0 0 false None); EBegin; EEnd no_handlers]. eexists.
  split. { repeat constructor; cbn; try lia; try discriminate. }
  split; [repeat constructor|]. split; [vm_compute; reflexivity|]. repeat split.
Qed.
Print Assumptions C56_nul_refuted.
