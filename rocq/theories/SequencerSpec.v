(** Specification of the sequencer: messages cut into frames. *)
From Verif Require Import Base CodecModel CodecSpec FlowModel SequencerModel.

Section Spec.
Context {A : Type} (ops : fops A).

(** What the code relies on for a queued message: fields inside the ranges of
    RFC 3080, the size given is the size of the message, and a feeder is never
    used for a NUL.  [good] is the condition the states of the feeders satisfy. *)
Definition queueable (good : A -> Prop) (d : qdata A) : Prop :=
  q_type d <> TSEQ /\ 0 <= q_ch d < 2147483648 /\ 0 <= q_msgno d < 2147483648 /\
  (if ftype_eqb (q_type d) TANS then 0 <= q_ansno d < 2147483648 else q_ansno d = 0) /\
  zlen (q_msg d) < 2147483648 /\ q_step d = 0 /\
  match q_feeder d with
  | None => q_size d = zlen (q_msg d)
  | Some f => good (fe_state f) /\ fe_status f = 0 /\ q_type d <> TNUL
  end.

(** A feeder handler that keeps [good], answers its size and never gives more
    than it is asked for. *)
Definition good_feeder (good : A -> Prop) : Prop :=
  forall st, good st ->
    (exists n, op_size ops st = Ok n) /\
    forall size, 0 < size -> exists bs st', op_content ops st size = Ok (bs, st') /\ zlen bs <= size /\ good st'.

(** Events carry C values. *)
Definition sev_ok (good : A -> Prop) (e : sev) : Prop :=
  match e with
  | EQueue d => queueable good d
  | ESeq ack w => 0 <= ack < 4294967296 /\ 0 <= w < 4294967296
  | EWindow w => -2147483648 <= w < 2147483648
  | _ => True
  end.

(** The frame size handlers never ask for more than [b] octets. *)
Definition answers_below (b : Z) (a : nfs_answers) : Prop :=
  (forall v, h_chan a = Some v -> v <= b) /\ (forall v, h_conn a = Some v -> v <= b) /\
  (forall v, h_ctx a = Some v -> v <= b).
Definition handlers_below (b : Z) (es : list (@sev A)) : Prop :=
  Forall (fun e => match e with EEnd a => answers_below b a | _ => True end) es.
Definition default_handlers (es : list (@sev A)) : Prop :=
  Forall (fun e => match e with EEnd a => a = no_handlers | _ => True end) es.
Definition no_pauses (es : list (@sev A)) : Prop :=
  Forall (fun e => match e with EPause _ _ => False | _ => True end) es.

(** The messages queued, in order. *)
Definition queued (es : list (@sev A)) : list (qdata A) :=
  flat_map (fun e => match e with EQueue d => [d] | _ => [] end) es.

(** The frames that carry the chunks [cs] of message [d], the first octet being
    the number [seq] of the channel: only the last one has [last_more]. *)
Fixpoint segment (d : qdata A) (seq : Z) (last_more : bool) (cs : list bytes) : list frame :=
  match cs with
  | [] => []
  | c :: cs' =>
    mkFrame (q_type d) (q_ch d) (q_msgno d) (match cs' with [] => last_more | _ => true end)
            (seq mod 4294967296) (zlen c) (q_ansno d) c
    :: segment d (seq + zlen c) last_more cs'
  end.

(** Frames of complete messages, one after the other. *)
Fixpoint stream (seq : Z) (l : list (qdata A * list bytes)) : list frame :=
  match l with
  | [] => []
  | (d, cs) :: l' => segment d seq (q_fixed d) cs ++ stream (seq + zlen (concat cs)) l'
  end.
Definition octets (l : list (qdata A * list bytes)) : Z :=
  fold_right (fun x n => zlen (concat (snd x)) + n) 0 l.

(** The chunks a feeder gives, from one state to another. *)
Inductive feeds : A -> list bytes -> A -> Prop :=
| feeds_nil st : feeds st [] st
| feeds_snoc st cs st1 size c st2 :
    feeds st cs st1 -> 0 < size -> op_content ops st1 size = Ok (c, st2) -> feeds st (cs ++ [c]) st2.

(** [cs] is the whole content of [d]; [cs] is a proper beginning of it. *)
Definition whole (d : qdata A) (cs : list bytes) : Prop :=
  match q_feeder d with
  | None => concat cs = q_msg d /\ (Forall (fun c => c <> []) cs \/ (q_msg d = [] /\ q_type d = TNUL /\ cs = [[]]))
  | Some f => exists st, feeds (fe_state f) cs st /\ op_finished ops st = true
  end.
Definition begun (d : qdata A) (cs : list bytes) : Prop :=
  match q_feeder d with
  | None => Forall (fun c => c <> []) cs /\ exists rest, rest <> [] /\ q_msg d = concat cs ++ rest
  | Some f => exists st, feeds (fe_state f) cs st
  end.

(** The octets granted by the peer, counted without wrap: 4096 at the beginning
    (RFC 3081), and each SEQ frame moves the limit forward to the next number
    congruent with acknowledgement plus window. *)
Fixpoint granted_by (e : Z) (es : list (@sev A)) : Z :=
  match es with
  | [] => e
  | ESeq ack w :: es' => granted_by (e + (ack + w - e) mod 4294967296) es'
  | _ :: es' => granted_by e es'
  end.

(** Octets of payload in a list of frames. *)
Definition payload_octets (fs : list frame) : Z := fold_right (fun f n => zlen (f_payload f) + n) 0 fs.

(** A message whose last frame ends a reply the application may wait for, and
    the message number reported when it has been sent. *)
Definition is_reply (d : qdata A) : bool :=
  (ftype_eqb (q_type d) TRPY || ftype_eqb (q_type d) TNUL) && negb (q_fixed d).
Definition reported (d : qdata A) : Z :=
  match q_msg d, q_type d with [], TNUL => 0 | _, _ => q_msgno d end.
End Spec.
