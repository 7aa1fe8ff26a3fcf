(** Theorems about the greetings (C113-C118). *)
From Coq Require Import String Ascii.
From Verif Require Import Base CodecModel MimeModel MimeSpec ReassemblyModel ReassemblySpec HeadModel GreetModel GreetSpec GreetProofs GreetProofs2.
Local Open Scope list_scope.

(** C113: a message that is built announces the features, the languages and the
    profiles that are not filtered, in order, and nothing else, if none of them has a
    quote.  (Partial: the values are read back as written; nothing is said about
    characters XML gives a meaning to.) *)
Theorem C113_says_partial : forall cap f l filtered ps t, no_quote_o f -> no_quote_o l -> Forall no_quote ps -> build cap f l filtered ps = Ok (Some t) ->
  uris_of t = filter (fun u => negb (filtered u)) ps /\ features_of t = listed f /\ localize_of t = listed l /\ zlen t <= cap.
Proof. exact says_thm. Qed.
Print Assumptions C113_says_partial.
Example C113_case : exists t, build buffer_size (Some (asc "x-f")) None (fun u => bytes_eqb u (asc "urn:b")) [asc "urn:a"; asc "urn:b"; asc "urn:c"] = Ok (Some t) /\
  uris_of t = [asc "urn:a"; asc "urn:c"] /\ features_of t = [asc "x-f"] /\ localize_of t = [] /\ zlen t = 96.
Proof. eexists. split; [vm_compute; reflexivity|]. repeat split. Qed.
(** A profile with a quote announces profiles that are not registered. *)
Theorem C113_quote_refuted : exists u t, build buffer_size None None (fun _ => false) [u] = Ok (Some t) /\ uris_of t = [asc "urn:x"; asc "urn:y"].
Proof. exact (ex_intro _ _ quote_witness). Qed.
Print Assumptions C113_quote_refuted.

(** C114: exactly when the building writes past the end of the buffer. *)
Theorem C114_memory : forall cap f l filtered ps, build cap f l filtered ps = UB <->
  let head := 9 + (match f with Some v => 12 + zlen v | None => 0 end) + (match l with Some v => 12 + zlen v | None => 0 end) in
  size_of f + size_of l + 36 < cap /\
  ((ps = [] /\ cap < head + 5) \/ (ps <> [] /\ filter (fun u => negb (filtered u)) ps = [] /\ cap < head + 16)).
Proof. exact memory_thm. Qed.
Print Assumptions C114_memory.
Theorem C114_buffer_refuted : exists f l, build buffer_size (Some f) (Some l) (fun _ => false) [] = UB.
Proof. exact (ex_intro _ _ (ex_intro _ _ (proj1 buffer_witness))). Qed.
Print Assumptions C114_buffer_refuted.
Theorem C114_filtered_refuted : exists f l u, build buffer_size (Some f) (Some l) (fun _ => true) [u] = UB.
Proof. exact (ex_intro _ _ (ex_intro _ _ (ex_intro _ _ (proj2 buffer_witness)))). Qed.
Print Assumptions C114_filtered_refuted.
Example C114_case : build 45 (Some [97]) (Some [98]) (fun _ => false) [] <> UB /\ build 39 (Some [97]) (Some [98]) (fun _ => false) [] = UB.
Proof. split; [vm_compute; discriminate|reflexivity]. Qed.

(** C115: the message put in frames in any way is received whole by both sides, if it
    fits in the first window with its headers. *)
Theorem C115_received_partial : forall r a t ps rest, ps <> [] -> concat ps = content_of t -> zlen (content_of t) <= 4096 ->
  content true (Some beep_xml) (Some t_binary) t = Ok (content_of t) /\
  greet r gs0 (reply_frames a ps ++ rest) = Ok (Some (gs0, VGreetings t)).
Proof. exact sent_received. Qed.
Print Assumptions C115_received_partial.
(** The contents of another implementation are taken as well. *)
Theorem C115_entity : forall r a ps rest body, ps <> [] -> entity (concat ps) beep_fields body -> zlen (concat ps) <= 4096 ->
  greet r gs0 (reply_frames a ps ++ rest) = Ok (Some (gs0, VGreetings body)).
Proof. exact received_thm. Qed.
Print Assumptions C115_entity.
(** A longer one is never received, whatever the frames: the message fits in the
    buffer it is built in. *)
Theorem C115_over : forall r a ps rest, Forall (fun p => zlen p < two31) ps -> 4096 < zlen (concat ps) ->
  exists s, greet r gs0 (reply_frames a ps ++ rest) = Ok (Some (s, VClosed)).
Proof. exact over_thm. Qed.
Print Assumptions C115_over.
Theorem C115_big_refuted : exists f t, build buffer_size (Some f) None (fun _ => false) [] = Ok (Some t) /\
  forall r a ps rest, Forall (fun p => zlen p < two31) ps -> concat ps = content_of t -> exists s, greet r gs0 (reply_frames a ps ++ rest) = Ok (Some (s, VClosed)).
Proof. exact (ex_intro _ _ over_witness). Qed.
Print Assumptions C115_big_refuted.
Example C115_case : concat [firstn 7 (content_of greeting1); []; skipn 7 (content_of greeting1)] = content_of greeting1 /\ zlen (content_of greeting1) = 50 /\
  greet Listener gs0 (reply_frames 5 [firstn 7 (content_of greeting1); []; skipn 7 (content_of greeting1)]) = Ok (Some (gs0, VGreetings greeting1)).
Proof. repeat split; vm_compute; reflexivity. Qed.

(** C116: the greetings accepted are the body of one whole reply to message 0 from
    sequence number 0 on: for the initiator the first frames, for the listener some
    frames after others that are ignored. *)
Theorem C116_whole_partial : forall r ws s p, greet r gs0 ws = Ok (Some (s, VGreetings p)) ->
  exists dropped a ps rest, ws = dropped ++ reply_frames a ps ++ rest /\ ps <> [] /\ (forall hs body, entity (concat ps) hs body -> p = body) /\ (r = Initiator -> dropped = []).
Proof. exact whole_thm. Qed.
Print Assumptions C116_whole_partial.
(** The listener takes greetings after frames that are not of them. *)
Theorem C116_listener_refuted : exists ws p, greet Listener gs0 ws = Ok (Some (gs0, VGreetings p)) /\
  (forall a ps rest, ps <> [] -> ws = reply_frames a ps ++ rest -> False) /\ (exists s, greet Initiator gs0 ws = Ok (Some (s, VClosed))).
Proof. exact (ex_intro _ _ (ex_intro _ _ hidden_witness)). Qed.
Print Assumptions C116_listener_refuted.
Example C116_case : greet Initiator gs0 (reply_frames 0 [mime_head; greeting1] ++ hidden) = Ok (Some (gs0, VGreetings greeting1)).
Proof. vm_compute. reflexivity. Qed.

(** C117: the loop of vortex_connection_new ends with the greetings when all their
    frames come in time, and without them when the wait fails or the connection ends
    with no fragment kept. *)
Theorem C117_greetings : forall es t a ps rest body, calm es -> 0 < t -> ps <> [] -> entity (concat ps) beep_fields body -> zlen (concat ps) <= 4096 ->
  frames_read es = reply_frames a ps ++ rest -> exchange (ERunning gs0 t) (map event es) = Ok (EReturned (Some body)).
Proof. exact loop_thm. Qed.
Print Assumptions C117_greetings.
Theorem C117_end_partial : forall s t e es, gs_pending s = None -> e_read e = AEnd -> exchange (ERunning s t) (e :: es) = Ok (EReturned None).
Proof. exact end_thm. Qed.
Print Assumptions C117_end_partial.
Theorem C117_time_partial : forall s t e es, gs_up s = true -> 0 < t -> e_read e = ANothing -> e_wait e <= 0 \/ e_left e <= 0 ->
  exchange (ERunning s t) (e :: es) = Ok (EReturned None).
Proof. exact time_thm. Qed.
Print Assumptions C117_time_partial.
(** It never ends if the connection ends after a fragment. *)
Theorem C117_spin_refuted : exists w, forall t wa le n, 0 < wa -> 0 < le -> 0 < t -> exists s,
  exchange (ERunning gs0 t) (mkE (ARead w) wa le :: repeat (mkE AEnd wa le) n) = Ok (ERunning s le).
Proof. exact (ex_intro _ _ spin_witness). Qed.
Print Assumptions C117_spin_refuted.
Example C117_case : let es := [(None, (1, 60)); (Some (mkW TRPY 0 0 true 0 mime_head), (1, 59)); (None, (1, 58)); (Some (mkW TRPY 0 0 false 38 greeting1), (1, 57))] in
  calm es /\ exchange (ERunning gs0 60) (map event es) = Ok (EReturned (Some greeting1)).
Proof. split; [repeat split; lia|vm_compute; reflexivity]. Qed.

(** C118: what is known of a peer comes from valid greetings with the same text up to
    the first zero, and is what its own say when there are no zeros in them and the
    parser takes none.  (Partial: the payload may have zeros.) *)
Theorem C118_origin : forall info (parse : bytes -> option info) l p i, In (p, Some i) (snd (parse_all parse [] l)) ->
  exists q t, In q l /\ up_to_zero q t /\ up_to_zero p t /\ parse q = Some i.
Proof. exact @origin_thm. Qed.
Print Assumptions C118_origin.
Theorem C118_exact_partial : forall info (parse : bytes -> option info) l p r, (forall b, ~ no_zero b -> parse b = None) -> no_zero p ->
  In (p, r) (snd (parse_all parse [] l)) -> r = parse p.
Proof. exact @exact_thm. Qed.
Print Assumptions C118_exact_partial.
Theorem C118_zero_refuted : exists (parse : bytes -> option bool) p q, snd (parse_all parse [] [p; q]) = [(p, Some true); (q, Some true)] /\ parse q = None.
Proof. exact (ex_intro _ _ cache_witness). Qed.
Print Assumptions C118_zero_refuted.
Example C118_case : (forall b, ~ no_zero b -> toy_parse b = None) /\ snd (parse_all toy_parse [] [greeting1; [0]; greeting1]) = [(greeting1, Some true); ([0], None); (greeting1, Some true)].
Proof.
  split; [|vm_compute; reflexivity]. intros b N. unfold toy_parse. destruct (existsb (Z.eqb 0) b) eqn:E; [reflexivity|]. exfalso. apply N. intros Q.
  assert (existsb (Z.eqb 0) b = true) by (apply existsb_exists; exists 0; split; [exact Q|reflexivity]). congruence.
Qed.

(** ** C124: the initiator accepts only the whole first reply *)

Theorem C124_first : forall ws s p, greet Initiator gs0 ws = Ok (Some (s, VGreetings p)) ->
  exists a ps rest, ws = reply_frames a ps ++ rest /\ ps <> [] /\ (forall hs body, entity (concat ps) hs body -> p = body).
Proof. exact first_thm. Qed.
Print Assumptions C124_first.
Theorem C124_closed : forall r ws s v, greet r gs0 ws = Ok (Some (s, v)) -> (gs_up s = false <-> v = VClosed).
Proof. exact closed_thm. Qed.
Print Assumptions C124_closed.
Example C124_case : greet Initiator gs0 (reply_frames 7 [mime_head; greeting1] ++ hidden) = Ok (Some (gs0, VGreetings greeting1)) /\
  (forall s p, greet Initiator gs0 hidden <> Ok (Some (s, VGreetings p))).
Proof. split; [vm_compute; reflexivity|]. intros s p. vm_compute. discriminate. Qed.

(** ** C125: the size of the greetings that are received *)

Theorem C125_limit : forall r a ps rest body, ps <> [] -> Forall (fun p => zlen p < two31) ps -> entity (concat ps) beep_fields body ->
  ((exists s, greet r gs0 (reply_frames a ps ++ rest) = Ok (Some (s, VGreetings body))) <-> zlen (concat ps) <= 4096) /\
  (4096 < zlen (concat ps) <-> exists s, greet r gs0 (reply_frames a ps ++ rest) = Ok (Some (s, VClosed))).
Proof. exact limit_thm. Qed.
Print Assumptions C125_limit.
Example C125_case : greet Listener gs0 (reply_frames 0 [mime_head ++ repeat 97 4058]) = Ok (Some (gs0, VGreetings (repeat 97 4058))) /\
  zlen (mime_head ++ repeat 97 4058) = 4096 /\ match greet Listener gs0 (reply_frames 0 [mime_head ++ repeat 97 4059]) with Ok (Some (_, VClosed)) => True | _ => False end.
Proof. split; [vm_compute; reflexivity|]. split; [vm_compute; reflexivity|]. vm_compute. exact I. Qed.

(** ** C126: vortex_connection_new gives the connection when the greetings come *)

Theorem C126_greetings : forall es t a ps rest body, calm es -> 0 < t -> ps <> [] -> entity (concat ps) beep_fields body -> zlen (concat ps) <= 4096 ->
  frames_read es = reply_frames a ps ++ rest -> exchange (ERunning gs0 t) (map event es) = Ok (EReturned (Some body)).
Proof. exact loop_thm. Qed.
Print Assumptions C126_greetings.
Example C126_case : let es := [(None, (1, 60)); (Some (mkW TRPY 0 0 true 0 mime_head), (1, 59)); (None, (1, 58)); (Some (mkW TRPY 0 0 false 38 greeting1), (1, 57))] in
  calm es /\ exchange (ERunning gs0 60) (map event es) = Ok (EReturned (Some greeting1)).
Proof. split; [repeat split; lia|vm_compute; reflexivity]. Qed.
