(** Theorems about the MIME headers of the messages sent (C107-C110) and the end of a
    one-to-many reply (C111). *)
From Coq Require Import String.
From Verif Require Import Base CodecModel FlowModel MimeModel MimeSpec SequencerModel HeadModel HeadSpec HeadProofs HeadProofs2 HeadProofs3 HeadProofs4.
Local Open Scope list_scope.
Local Open Scope Z_scope.

(** ** C107: the messages arrive with the MIME type and encoding of their profile *)

(** With the default transfer encoding, every message sent, in one piece or several, is a
    MIME entity whose fields are those configured when the channel was created and
    whose body is the message asked for; with the headers disabled it is the message. *)
Theorem C107_headers_partial : forall lib es, steady false es -> usual_types es -> exists s, hrun (hst0 lib) es = Ok s /\
  forall i r a c m, In (a, c, m) (snd (messages (h_log s) i r)) ->
  exists cf, nth_error (cf_chans (conf_of es)) i = Some cf /\
  if a =? 2 then c = m else entity c (match cf with Some x => fields_of x | None => [] end) m.
Proof. exact headers_thm. Qed.
Print Assumptions C107_headers_partial.

(** With another transfer encoding they never are, unless it is written as the MIME type. *)
Theorem C107_always_wrong : forall m t msg c, plain m -> plain t -> t <> d_encoding -> t <> m ->
  content true (Some m) (Some t) msg = Ok c -> ~ entity c (fields_of (m, t)) msg.
Proof. exact wrong_thm. Qed.
Print Assumptions C107_always_wrong.

(** And memory outside the message is written exactly when the MIME type is longer than
    the encoding and the message by more than 3 octets. *)
Theorem C107_overflow : forall m t msg,
  content true (Some m) (Some t) msg = UB <-> t <> d_encoding /\ zlen t + zlen msg + 3 < zlen m.
Proof. exact overflow_thm. Qed.
Print Assumptions C107_overflow.

Definition text_plain : bytes := ztext "text/plain".
Definition base64 : bytes := ztext "base64".
Definition hello : bytes := ztext "hello".

(** A profile set to base64: a message that a MIME reader does not take as the one sent,
    and, with the default MIME type, a short message that is written out of bounds. *)
Definition coded (mime : option bytes) (msg : bytes) : list hev :=
  [HRegister; HMime mime (Some base64); HOpen; HSend 0 None msg false].
Theorem C107_encoding_refuted : exists es s c m, steady false es /\ hrun (hst0 1) es = Ok s /\
  In (1, c, m) (snd (messages (h_log s) 0 None)) /\
  nth_error (cf_chans (conf_of es)) 0 = Some (Some (text_plain, base64)) /\ ~ entity c (fields_of (text_plain, base64)) m.
Proof.
  exists (coded (Some text_plain) hello). eexists. eexists. exists hello.
  split; [repeat split|]. split; [vm_compute; reflexivity|]. split; [left; vm_compute; reflexivity|]. split; [vm_compute; reflexivity|].
  eapply wrong_thm; [| | | |vm_compute; reflexivity]; try discriminate.
  all: split; [discriminate|repeat constructor; vm_compute; discriminate].
Qed.
Print Assumptions C107_encoding_refuted.
Theorem C107_memory_refuted : exists es, steady false es /\ hrun (hst0 1) es = UB.
Proof. exists (coded None hello). split; [repeat split|vm_compute; reflexivity]. Qed.
Print Assumptions C107_memory_refuted.

(** A message in three pieces between others, on two channels of a profile. *)
Definition usual_run : list hev :=
  [HRegister; HMime (Some text_plain) None; HOpen; HSend 0 None hello false; HOpen; HSend 1 None hello true; HSend 0 (Some 3) hello true;
   HSend 1 None hello true; HSend 0 (Some 4) [] false; HSend 1 None hello false; HSend 0 (Some 3) hello false; HChanAuto 0 2; HSend 0 None hello false].
Example C107_case : steady false usual_run /\ usual_types usual_run /\
  match hrun (hst0 1) usual_run with
  | Ok s => snd (messages (h_log s) 1 None) = [(1, ztext "Content-Type: text/plain" ++ [13; 10; 13; 10] ++ ztext "hellohellohello", ztext "hellohellohello")] /\
            snd (messages (h_log s) 0 (Some 3)) = [(1, ztext "Content-Type: text/plain" ++ [13; 10; 13; 10] ++ ztext "hellohello", ztext "hellohello")] /\
            List.length (snd (messages (h_log s) 0 None)) = 2%nat
  | UB => False
  end.
Proof.
  split; [repeat split|]. split; [|vm_compute; repeat split].
  intros m t H. cbn in H. repeat (destruct H as [H|H]; [try discriminate|]); try contradiction. injection H as <- <-.
  split; [|now left]. intros b Q. injection Q as <-. split; [discriminate|repeat constructor; vm_compute; discriminate].
Qed.

(** ** C108: changing the MIME type of a profile in use *)

(** The channels keep the string of the profile, which the change frees: the next message
    reads freed memory.  The same happens when the profile is unregistered. *)
Theorem C108_change_refuted : exists es, usual_types es /\ hrun (hst0 1) es = UB /\
  exists s, hrun (hst0 1) (firstn 3 es) = Ok s.
Proof.
  exists [HRegister; HMime (Some text_plain) None; HOpen; HMime (Some text_plain) None; HSend 0 None hello false].
  split; [|split; [vm_compute; reflexivity|eexists; vm_compute; reflexivity]].
  intros m t H. cbn in H. repeat (destruct H as [H|H]; [try discriminate|]); try contradiction; injection H as <- <-;
    (split; [|now left]); intros b Q; injection Q as <-; (split; [discriminate|repeat constructor; vm_compute; discriminate]).
Qed.
Print Assumptions C108_change_refuted.
Theorem C108_unregister_refuted : exists es, usual_types es /\ (forall m t, ~ In (HMime m t) (skipn 3 es)) /\ hrun (hst0 1) es = UB.
Proof.
  exists [HRegister; HMime (Some text_plain) None; HOpen; HUnregister; HSend 0 None hello false].
  split; [|split; [|vm_compute; reflexivity]].
  - intros m t H. cbn in H. repeat (destruct H as [H|H]; [try discriminate|]); try contradiction; injection H as <- <-;
    (split; [|now left]); intros b Q; injection Q as <-; (split; [discriminate|repeat constructor; vm_compute; discriminate]).
  - intros m t H. cbn in H. repeat (destruct H as [H|H]; [discriminate|]). contradiction.
Qed.
Print Assumptions C108_unregister_refuted.
(** Without such changes while there are channels nothing undefined happens. *)
Theorem C108_steady_partial : forall lib es, steady false es -> usual_types es -> exists s, hrun (hst0 lib) es = Ok s.
Proof. intros lib es S U. destruct (headers_thm lib es S U) as (s & H & _). eauto. Qed.
Print Assumptions C108_steady_partial.
Example C108_case : exists es, steady false es /\ (exists s, hrun (hst0 1) es = Ok s /\ h_freed s = [0%nat]) /\ usual_types es.
Proof.
  exists [HRegister; HMime (Some text_plain) None; HMime (Some d_type) None; HOpen; HSend 0 None hello false].
  split; [repeat split|]. split; [eexists; split; vm_compute; reflexivity|].
  intros m t H. cbn in H. repeat (destruct H as [H|H]; [try discriminate|]); try contradiction; injection H as <- <-;
    (split; [|now left]); intros b Q; injection Q as <-; (split; [discriminate|repeat constructor; vm_compute; discriminate]).
Qed.

(** ** C109: the level that decides whether there are headers *)

(** A message that is not the continuation of another: the first level that is set
    decides, it is what the channel says from then on, and 2 sends the message alone. *)
Theorem C109_level : forall lib es s i r msg more s' a, hrun (hst0 lib) es = Ok s -> auto_of s i = Some a ->
  fst (messages (h_log s) i r) = None -> hstep s (HSend i r msg more) = Ok s' ->
  auto_of s' i = Some (level a (profile_auto s) (h_lib s)) /\
  (level a (profile_auto s) (h_lib s) = 2 -> exists o, h_log s' = h_log s ++ [o] /\ o_content o = msg).
Proof. exact level_thm. Qed.
Print Assumptions C109_level.

(** After that the messages of the channel are treated alike until
    vortex_channel_set_automatic_mime is called. *)
Theorem C109_kept : forall es s s' i a, a <> 0 -> auto_of s i = Some a -> (forall v, ~ In (HChanAuto i v) es) -> hrun s es = Ok s' ->
  auto_of s' i = Some a /\ exists new, h_log s' = h_log s ++ new /\ forall o, In o new -> o_chan o = i -> o_auto o = a.
Proof. exact kept_thm. Qed.
Print Assumptions C109_kept.

(** A channel starts with no setting of its own. *)
Theorem C109_fresh : forall s s', hstep s HOpen = Ok s' -> auto_of s' (length (h_chans s)) = Some 0.
Proof. exact fresh_thm. Qed.
Print Assumptions C109_fresh.

(** A profile that disables the headers, changed after a first message. *)
Definition levels : list hev := [HRegister; HOpen; HOpen; HProfileAuto 2; HSend 0 None hello false; HProfileAuto 1; HSend 0 None hello false; HSend 1 None hello false].
Example C109_case : match hrun (hst0 1) levels with
  | Ok s => map o_auto (h_log s) = [2; 2; 1] /\ map o_content (h_log s) = [hello; hello; [13; 10] ++ hello]
  | UB => False
  end /\ level 0 2 1 = 2 /\ level 0 0 0 = 1 /\ level 1 2 2 = 1.
Proof. vm_compute. repeat split. Qed.

(** ** C110: the pieces of a message have the headers once *)

Theorem C110_pieces : forall lib es s i r, hrun (hst0 lib) es = Ok s -> pieces false (filter (about i r) (h_log s)).
Proof. exact pieces_thm. Qed.
Print Assumptions C110_pieces.
Example C110_case : match hrun (hst0 1) usual_run with
  | Ok s => map o_more (filter (about 1 None) (h_log s)) = [true; true; false] /\
            map o_content (tl (filter (about 1 None) (h_log s))) = [hello; hello]
  | UB => False
  end.
Proof. vm_compute. split; reflexivity. Qed.

(** ** C111: a one-to-many reply can always be ended *)

(** The NUL frame carries the MIME headers of the channel, and with the default encoding
    the peer accepts it exactly when it fits in one frame. *)
Theorem C111_end_partial : forall m t b, plain m -> (t = None \/ t = Some d_encoding) -> content true (Some m) t [] = Ok b ->
  nul_accepted false b = Ok (Some true).
Proof. exact nul_content. Qed.
Print Assumptions C111_end_partial.
Theorem C111_one_frame : forall ops a wsize max_seq first_seq cap fcap ch msgno ansno b bs payload complete n d cap' fcap',
  nul_accepted false b = Ok (Some true) ->
  build_packet ops a wsize max_seq first_seq cap fcap (nul_data ch msgno ansno b) = Ok (PFrame bs payload complete n d, cap', fcap') ->
  (nul_accepted (negb complete) payload = Ok (Some true) <-> complete = true) /\ (complete = true -> payload = b).
Proof. exact nul_frames. Qed.
Print Assumptions C111_one_frame.

(** With one octet left in the window of the peer the NUL frame is cut, and the peer
    closes the connection. *)
Definition idle : fops unit := mkOps (fun _ => UB) (fun _ _ => UB) (fun _ => false).
Definition ans : qdata unit := mkQ TANS 1 0 0 (repeat 65 4095) 0 4095 false None.
Theorem C111_window_refuted : exists b s frame payload, content true (Some d_type) (Some d_encoding) [] = Ok b /\
  srun idle chst0 [EQueue ans; EQueue (nul_data 1 0 0 b); EBegin; EEnd no_handlers; EBegin; EEnd no_handlers] = Ok s /\
  build_frame 10000 TNUL 1 0 true 4095 0 payload = Ok (Some frame) /\ In frame (c_out s) /\
  nul_accepted true payload = Ok (Some false).
Proof.
  exists [13; 10]. eexists. eexists. exists [13]. split; [vm_compute; reflexivity|]. split; [vm_compute; reflexivity|].
  split; [vm_compute; reflexivity|]. split; [vm_compute; right; now left|vm_compute; reflexivity].
Qed.
Print Assumptions C111_window_refuted.
(** With another transfer encoding the peer does not find an entity without body, and
    closes the connection. *)
Theorem C111_encoding_refuted : exists b, content true (Some text_plain) (Some (ztext "quoted-printable")) [] = Ok b /\
  nul_accepted false b = Ok (Some false).
Proof. eexists. split; vm_compute; reflexivity. Qed.
Print Assumptions C111_encoding_refuted.

Example C111_case : exists b, content true (Some text_plain) None [] = Ok b /\ zlen b = 28 /\ nul_accepted false b = Ok (Some true) /\
  match build_packet idle no_handlers 4096 4095 0 4196 0 (nul_data 1 0 0 b) with
  | Ok (PFrame (Some f) payload complete _ _, _, _) => complete = true /\ payload = b
  | _ => False
  end.
Proof. eexists. repeat split; vm_compute; reflexivity. Qed.

(** ** C112: with the default encoding the peer gets the message and its type *)

(** [X] is what follows the content in the memory of the frame: the end of a frame read from
    the socket, or the zero after a message put together. *)
Theorem C112_received : forall lib es, steady false es -> usual_types es -> exists s, hrun (hst0 lib) es = Ok s /\
  forall i r a c m mt te X, In (a, c, m) (snd (messages (h_log s) i r)) -> a <> 2 -> X <> [] ->
  nth_error (cf_chans (conf_of es)) i = Some (Some (mt, te)) ->
  exists f, mime_process (mf_new (c ++ X) (zlen c)) = Ok (Some (true, f)) /\ get_payload f = m /\ get_content_type f = Some mt.
Proof. exact received_thm. Qed.
Print Assumptions C112_received.
Example C112_case : match hrun (hst0 1) usual_run with
  | Ok s => match snd (messages (h_log s) 1 None) with
            | [(a, c, m)] => match mime_process (mf_new (sock_mem c) (zlen c)) with
                             | Ok (Some (true, f)) => get_payload f = ztext "hellohellohello" /\ get_content_type f = Some text_plain
                             | _ => False
                             end
            | _ => False
            end
  | UB => False
  end.
Proof. vm_compute. split; reflexivity. Qed.
