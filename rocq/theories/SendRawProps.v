(** Theorems about writing a frame to the socket (C07). *)
From Verif Require Import Base SendRawModel SendRawProofs.

(** For every behaviour of the socket: what is written is a prefix of the
    frame; success means exactly that everything was written; and a failure that
    leaves the connection open leaves part of the frame on the wire. *)
Theorem C07_send_raw : forall timeout disable up sends waits frame ok down w,
  frame <> [] ->
  send_raw timeout disable up sends waits frame = Fin ok down w ->
  exists rest, frame = w ++ rest /\ (ok = true <-> rest = []) /\ (ok = true -> down = false) /\
    (ok = false -> down = false -> w <> [] /\ rest <> []).
Proof. exact send_raw_spec. Qed.
Print Assumptions C07_send_raw.

(** With fewer partial writes and timeouts than tries, every failure closes
    the connection, so the bytes of a sequence of frames reach the wire in order,
    complete, and never followed by anything after a gap.  (Without that
    hypothesis the claim is refuted below.) *)
Theorem C07_connection_partial : forall timeout disable l w up',
  Forall (fun x => fst (fst x) <> [] /\
    partials (snd (fst x)) + timeouts (snd x) < (if 0 <? timeout then timeout else 3)) l ->
  send_frames timeout disable true l = Some (w, up') ->
  (exists rest, concat (map (fun x => fst (fst x)) l) = w ++ rest) /\
  (up' = true -> w = concat (map (fun x => fst (fst x)) l)).
Proof.
  intros timeout disable l w up' Hall H.
  destruct (send_frames_prefix timeout disable l true w up' Hall H) as (H1 & H2 & _). auto.
Qed.
Print Assumptions C07_connection_partial.

Example C07_case :
  send_raw 0 false true [SBlock; Sent 2; SIntrS; Sent 5] [WTimeout; WReady] [1;2;3;4] = Fin true false [1;2;3;4] /\
  send_frames 5 false true [([1;2;3], [Sent 1; Sent 9], [WReady]); ([4;5], [SFail], [])] = Some ([1;2;3], false).
Proof. split; reflexivity. Qed.

(** The claim is false in general: three partial writes make the function give
    up with the connection open, and the next frame follows half a frame. *)
Theorem C07_connection_refuted : exists l w,
  send_frames 0 false true l = Some (w, true) /\
  ~ (exists rest, concat (map (fun x => fst (fst x)) l) = w ++ rest).
Proof.
  exists [([1;2;3;4;5], [Sent 1; Sent 1; Sent 1; Sent 1; Sent 1], [WReady; WReady; WReady; WReady]);
          ([6;7], [Sent 2], [])].
  eexists. split; [vm_compute; reflexivity|]. intros (rest & H). cbn in H. inversion H.
Qed.
Print Assumptions C07_connection_refuted.
