(** Properties of the answering side of a channel (C16, C17, C19, C60). *)
From Verif Require Import Base CodecModel ReplyModel ReplySpec ReplyProofs ReplyProofs2.

(** C16: whatever the application and the peer do, the MSG frames that go past
    the check continue the open message or start one with a free number, and
    replies are only sent to the oldest message. *)
Theorem C16_accepted : forall first os c, ~ In (-1) first -> Forall iop_ok os ->
  irun (ic0 first) os = Ok (Some c) ->
  accepted_ok first (ic_log c) /\ oldest_replied first (ic_log c).
Proof.
  intros first os c F W H. destruct (irun_from0 first os (Some c) F W H) as (c' & E & I).
  injection E as ->. exact (conj (ii_acc _ _ I) (ii_old _ _ I)).
Qed.
Print Assumptions C16_accepted.

(** C16: the decision is exact, any other frame closes the connection. *)
Theorem C16_decision : forall first os c n more, ~ In (-1) first -> Forall iop_ok os ->
  irun (ic0 first) os = Ok (Some c) -> ic_up c = true -> n <> -1 ->
  exists c', istep c (IpMsg n more) = Ok (Some c') /\
    ((acceptable (unanswered first (ic_log c)) n /\ ic_up c' = true /\ ic_log c' = ic_log c ++ [IMsg n more]) \/
     (~ acceptable (unanswered first (ic_log c)) n /\ ic_up c' = false /\ ic_log c' = ic_log c ++ [IClosed])).
Proof. exact recv_decision. Qed.
Print Assumptions C16_decision.

(** C16: once closed nothing is accepted or sent, and calls fail. *)
Theorem C16_after_close : forall os c, ic_up c = false -> exists c' l, irun c os = Ok (Some c') /\
  ic_up c' = false /\ ic_log c' = ic_log c ++ l /\ Forall (fun o => exists t n, o = IRet t n false) l.
Proof. exact after_down. Qed.
Print Assumptions C16_after_close.

Definition case16 : list iop :=
  [IpMsg 7 false; IpMsg 8 true; IpMsg 8 false; IpCall TRPY 7 [1] false; IpMsg 7 false; IpMsg 8 false].

Example C16_case : exists c, irun (ic0 []) case16 = Ok (Some c) /\ Forall iop_ok case16 /\
  ic_up c = false /\
  ic_log c = [IMsg 7 false; IMsg 8 true; IMsg 8 false; IQueued (mkRD TRPY 7 0 [1] false); IRet TRPY 7 true;
              IMsg 7 false; IClosed].
Proof.
  eexists. split; [vm_compute; reflexivity|]. split; [|split; reflexivity].
  repeat constructor; discriminate.
Qed.

(** C17: if the peer does not reuse numbers and each message gets one answer (a
    reply, or answers ended by NUL; in pieces only for the oldest message), in
    any order, then what the sequencer gets is the complete answers in the order
    of the messages, every call succeeds and the connection stays up. *)
Theorem C17_order_partial : forall first os a, NoDup first -> ~ In (-1) first ->
  arun (app0 first) os = Some a -> Forall (fun i => zlen (snd i) < two31) (a_msgs a) ->
  exists c, irun (ic0 first) os = Ok (Some c) /\ queued (ic_log c) = release (a_msgs a) /\ ic_up c = true /\
            forall t n ok, In (IRet t n ok) (ic_log c) -> ok = true.
Proof. exact replies_order. Qed.
Print Assumptions C17_order_partial.

(** C17: a call to send a reply always ends, whatever was stored. *)
Theorem C17_terminates : forall first os, ~ In (-1) first -> Forall iop_ok os -> irun (ic0 first) os <> Ok None.
Proof. exact replies_terminate. Qed.
Print Assumptions C17_terminates.

(** The order of the calls is 2, 1 (several answers), 3, 0. *)
Definition case17 : list iop :=
  [IpMsg 0 false; IpMsg 1 true; IpMsg 1 false; IpMsg 2 false; IpCall TRPY 2 [20] false;
   IpCall TANS 1 [10] false; IpCall TANS 1 [11] false; IpMsg 3 false; IpCall TNUL 1 [] false;
   IpCall TERR 3 [30] false; IpCall TRPY 0 [1] true; IpCall TRPY 0 [2] false].

Example C17_case : exists a c, arun (app0 []) case17 = Some a /\
  Forall (fun i => zlen (snd i) < two31) (a_msgs a) /\ irun (ic0 []) case17 = Ok (Some c) /\
  queued (ic_log c) =
    [mkW TRPY 0 None [1] true; mkW TRPY 0 None [2] false; mkW TANS 1 (Some 0) [10] false;
     mkW TANS 1 (Some 1) [11] false; mkW TNUL 1 None [] false; mkW TRPY 2 None [20] false;
     mkW TERR 3 None [30] false].
Proof.
  eexists. eexists. split; [vm_compute; reflexivity|]. split; [|split; [vm_compute; reflexivity|reflexivity]].
  repeat constructor.
Qed.

(** C17 is false for a reply in pieces to a message that is not the oldest: the
    first piece is replaced by the second one and lost, all calls succeed. *)
Definition case17b : list iop :=
  [IpMsg 0 false; IpMsg 1 false; IpCall TRPY 1 [97] true; IpCall TRPY 1 [98] false; IpCall TRPY 0 [120] false].

Theorem C17_pieces_refuted : exists os c, irun (ic0 []) os = Ok (Some c) /\
  (forall t n ok, In (IRet t n ok) (ic_log c) -> ok = true) /\ ic_up c = true /\
  In (IpCall TRPY 1 [97] true) os /\
  queued (ic_log c) = [mkW TRPY 0 None [120] false; mkW TRPY 1 None [98] false].
Proof.
  exists case17b. eexists. split; [vm_compute; reflexivity|]. split; [|split; [reflexivity|split; [|reflexivity]]].
  - intros t n ok H. repeat (destruct H as [H|H]; [try discriminate; injection H as _ _ <-; reflexivity|]). destruct H.
  - right. right. now left.
Qed.
Print Assumptions C17_pieces_refuted.

(** C60 is false: a second reply to a message already answered is accepted,
    kept, and sent later as the reply of a new message with that number, which
    the application did not answer. *)
Definition case60 : list iop :=
  [IpMsg 0 false; IpCall TRPY 0 [1] false; IpCall TRPY 0 [2] false;
   IpMsg 1 false; IpMsg 0 false; IpCall TRPY 1 [3] false].

Theorem C60_stale_refuted : exists os c, irun (ic0 []) os = Ok (Some c) /\
  (forall t n ok, In (IRet t n ok) (ic_log c) -> ok = true) /\
  queued (ic_log c) = [mkW TRPY 0 None [1] false; mkW TRPY 1 None [3] false; mkW TRPY 0 None [2] false] /\
  (exists pre, os = pre ++ [IpMsg 0 false; IpCall TRPY 1 [3] false]).
Proof.
  exists case60. eexists. split; [vm_compute; reflexivity|]. split; [|split; [reflexivity|]].
  - intros t n ok H. repeat (destruct H as [H|H]; [try discriminate; injection H as _ _ <-; reflexivity|]). destruct H.
  - exists [IpMsg 0 false; IpCall TRPY 0 [1] false; IpCall TRPY 0 [2] false; IpMsg 1 false]. reflexivity.
Qed.
Print Assumptions C60_stale_refuted.

(** C19: in the stream of replies the ANS of a message are numbered 0, 1, 2...,
    with nothing in between, and the NUL comes right after them. *)
Theorem C19_numbering : forall first os a c, NoDup first -> ~ In (-1) first ->
  arun (app0 first) os = Some a -> irun (ic0 first) os = Ok (Some c) -> one_to_many (queued (ic_log c)).
Proof. exact one_to_many_sent. Qed.
Print Assumptions C19_numbering.

(** C19 is false if the application goes on after the NUL while the message
    still waits for its turn: the call succeeds and the answer is sent later as
    an answer of another exchange. *)
Definition case19b : list iop :=
  [IpMsg 0 false; IpMsg 1 false; IpCall TANS 1 [10] false; IpCall TNUL 1 [] false; IpCall TANS 1 [11] false;
   IpCall TRPY 0 [1] false; IpMsg 2 false; IpMsg 1 false; IpCall TRPY 2 [2] false].

Theorem C19_after_nul_refuted : exists os c, irun (ic0 []) os = Ok (Some c) /\
  (forall t n ok, In (IRet t n ok) (ic_log c) -> ok = true) /\
  queued (ic_log c) = [mkW TRPY 0 None [1] false; mkW TANS 1 (Some 0) [10] false; mkW TNUL 1 None [] false;
                       mkW TRPY 2 None [2] false; mkW TANS 1 (Some 0) [11] false].
Proof.
  exists case19b. eexists. split; [vm_compute; reflexivity|]. split; [|reflexivity].
  intros t n ok H. repeat (destruct H as [H|H]; [try discriminate; injection H as _ _ <-; reflexivity|]). destruct H.
Qed.
Print Assumptions C19_after_nul_refuted.

Example C19_case : exists a c, arun (app0 []) case17 = Some a /\ irun (ic0 []) case17 = Ok (Some c) /\
  map w_ansno (filter (fun w => ftype_eqb (w_type w) TANS) (queued (ic_log c))) = [Some 0; Some 1].
Proof. eexists. eexists. split; [vm_compute; reflexivity|]. split; [vm_compute; reflexivity|reflexivity]. Qed.
