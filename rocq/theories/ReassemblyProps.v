(** Properties of the reassembly of messages (C21, C22, C23). *)
From Coq Require Import String.
From Verif Require Import Base CodecModel FlowModel MimeModel MimeSpec OutModel ReplyModel.
From Verif Require Import ReassemblyModel ReassemblySpec ReassemblyProofs ReassemblyProofs2.

(** C21: any sequence of messages cut in any way in frames, followed by some but
    not all frames of another one, is delivered as those messages, one delivery
    each, in order, with their contents; nothing of the incomplete one.
    Missing: messages in several frames whose content is not MIME (see
    C21_not_mime_refuted). *)
Theorem C21_delivery_partial : forall ms m k j s, idle s -> r_flag s = true ->
  Forall msg_ok (m :: ms) -> Forall (fits s) (m :: ms) -> (j < length (m_pieces m))%nat ->
  exists s' ds, fgrun s (feed (wire k ms ++ firstn j (frames_of (end_of k ms) m))) = Ok (Some s') /\
    r_up s' = true /\ r_log s' = (r_log s ++ ds)%list /\
    Forall2 (fun x g => delivers (fst x) (snd x) g) (starts k ms) ds.
Proof. exact deliver_partial. Qed.
Print Assumptions C21_delivery_partial.

(** C21: with the complete flag off, each frame is delivered as it came. *)
Theorem C21_each : forall ws s, r_prev s = [] -> r_flag s = false -> r_up s = true ->
  fgrun s (feed ws) = Ok (Some (mkR [] (r_bytes s) false (r_limit s) (r_climit s) true (r_log s ++ map received ws)%list)).
Proof. exact deliver_each. Qed.
Print Assumptions C21_each.

Definition eol2 : bytes := [13; 10].
Definition case21 : list message :=
  [mkMsg TMSG 4 0 [eol2; ztext "ab"; []; ztext "cd"]; mkMsg TRPY 0 0 [ztext "x:y"]; mkMsg TANS 1 7 [[13]; [10; 1]]].

Example C21_case : Forall msg_ok case21 /\ Forall (fits r0) case21 /\
  exists s ds, fgrun r0 (feed (wire 4294967294 case21)) = Ok (Some s) /\ r_log s = ds /\
  map (fun g => (g_type g, g_msgno g, g_ansno g, get_content (g_mf g))) ds =
  [(TMSG, 4, 0, (eol2 ++ ztext "abcd")%list); (TRPY, 0, 0, ztext "x:y"); (TANS, 1, 7, (eol2 ++ [1])%list)].
Proof.
  split; [|split].
  - constructor; [|constructor; [|constructor; [|constructor]]];
      (split; [discriminate|split; [vm_compute; reflexivity|]]).
    + right. split; [discriminate|]. exists [], (ztext "abcd"). apply (en_body [13; 10]). left; reflexivity.
    + left. eexists. reflexivity.
    + right. split; [discriminate|]. exists [], [1]. apply (en_body [13; 10]). left; reflexivity.
  - constructor; [|constructor; [|constructor; [|constructor]]]; left; cbn; lia.
  - eexists. eexists. split; [vm_compute; reflexivity|]. split; [reflexivity|]. vm_compute. reflexivity.
Qed.

(** C21 is false of contents that are not MIME: a message "a:b" in two frames, or
    an empty one in two frames, makes the reader access memory it does not own. *)
Theorem C21_not_mime_refuted : exists a b c d,
  inc_run (inc0 []) [a; b] = UB /\ w_content a = ztext "a:" /\ w_content b = ztext "b" /\
  inc_run (inc0 []) [c; d] = UB /\ w_content c = [] /\ w_content d = [] /\
  (forall w, In w [a; b; c; d] -> w_type w = TMSG /\ w_msgno w = 0).
Proof.
  exists (mkW TMSG 0 0 true 0 (ztext "a:")), (mkW TMSG 0 0 false 2 (ztext "b")),
         (mkW TMSG 0 0 true 0 []), (mkW TMSG 0 0 false 0 []).
  split; [vm_compute; reflexivity|]. split; [reflexivity|]. split; [reflexivity|].
  split; [vm_compute; reflexivity|]. split; [reflexivity|]. split; [reflexivity|].
  intros w I. cbn in I. intuition (subst; reflexivity).
Qed.
Print Assumptions C21_not_mime_refuted.

(** C22: whatever comes, the frames kept waiting for the end of a message all
    belong to one message and follow each other without gaps. *)
Theorem C22_kept : forall es s, fgrun r0 es = Ok (Some s) -> one_message (r_prev s) /\ contiguous (r_prev s).
Proof. intros es s H. exact (run_chained es r0 s (chained_nil r0 eq_refl) H). Qed.
Print Assumptions C22_kept.

Example C22_case : exists s, fgrun r0 (feed [mkW TMSG 1 0 true 0 [1; 2]; mkW TMSG 1 0 true 2 [3]]) = Ok (Some s) /\
  zlen (r_prev s) = 2.
Proof. eexists. split; vm_compute; reflexivity. Qed.

(** C22 is false of the last frame: it is joined to whatever is kept.  Two answers
    to one message whose frames are interleaved, as the protocol allows, end up
    as one; a reply ends up inside of a message. *)
Theorem C22_mixed_refuted :
  (exists c, inc_run (inc0 [1]) [mkW TANS 1 0 true 0 (eol2 ++ [65])%list; mkW TANS 1 1 false 3 (eol2 ++ [66])%list] = Ok (Some c) /\
     inc_up c = true /\
     exists g, r_log (n_r c) = [g] /\ g_ansno g = 0 /\ get_payload (g_mf g) = ([65] ++ eol2 ++ [66])%list) /\
  (exists c, inc_run (inc0 [1]) [mkW TMSG 5 0 true 0 (eol2 ++ [65])%list; mkW TRPY 1 0 false 3 (eol2 ++ [66])%list] = Ok (Some c) /\
     inc_up c = true /\
     exists g, r_log (n_r c) = [g] /\ g_type g = TMSG /\ get_payload (g_mf g) = ([65] ++ eol2 ++ [66])%list).
Proof.
  split; (eexists; split; [vm_compute; reflexivity|]; split; [reflexivity|]; eexists; split; [reflexivity|]; split; vm_compute; reflexivity).
Qed.
Print Assumptions C22_mixed_refuted.

(** Two answers in progress at once (RFC 3080, 2.2.1.1 gives them different answer
    numbers for that) close the connection. *)
Theorem C22_interleaved_refuted : exists c,
  inc_run (inc0 [1]) [mkW TANS 1 0 true 0 (eol2 ++ [65])%list; mkW TANS 1 1 true 3 (eol2 ++ [66])%list] = Ok (Some c) /\
  inc_up c = false /\ r_log (n_r c) = [].
Proof. eexists. split; [vm_compute; reflexivity|]. split; reflexivity. Qed.
Print Assumptions C22_interleaved_refuted.

(** A NUL frame with MIME headers after an unfinished answer: the copy of its
    content starts after the headers and reads past the block. *)
Theorem C22_nul_refuted : exists ws, inc_run (inc0 [1]) ws = UB /\
  map (fun w => (w_type w, w_msgno w)) ws = [(TANS, 1); (TNUL, 1)].
Proof.
  exists [mkW TANS 1 0 true 0 [65]; mkW TNUL 1 0 false 1 (ztext "X-a: 1" ++ eol2 ++ eol2)%list].
  split; vm_compute; reflexivity.
Qed.
Print Assumptions C22_nul_refuted.

(** C23: with a limit set, while the connection is up no more than the limit is
    kept, and never more than the limit and one frame. *)
Theorem C23_bound : forall s0 gs s, idle s0 -> 0 < limit_of s0 -> Forall (fun g => 0 <= mf_size (g_mf g)) gs ->
  fgrun s0 (map RFrag gs) = Ok (Some s) ->
  (r_up s = true -> held s <= limit_of s0) /\ held_but_last s <= limit_of s0.
Proof.
  intros s0 gs s (I1 & I2 & I3) L F H.
  assert (B : bounded (limit_of s0) s0).
  { constructor; auto; unfold held, held_but_last; rewrite I1; cbn; lia. }
  destruct (run_bounded (limit_of s0) gs s0 s L B F H) as [_ _ B3 B4]. exact (conj B3 B4).
Qed.
Print Assumptions C23_bound.

(** C23: the limit is exact: a fragment closes the connection if and only if
    what is kept would be more than the limit. *)
Theorem C23_exact : forall L s g s', 0 < L -> bounded L s -> r_flag s = true -> r_up s = true -> 0 <= mf_size (g_mf g) ->
  g_more g = true -> (r_prev s = [] \/ are_joinable (last (r_prev s) g) g = true) ->
  fragment s g = Ok (Some s') ->
  (r_up s' = true <-> held s + mf_size (g_mf g) <= L) /\ r_log s' = r_log s.
Proof. exact limit_exact. Qed.
Print Assumptions C23_exact.

Definition lim5 : rst := mkR [] 0 true 5 3 true [].
Example C23_case : idle lim5 /\ limit_of lim5 = 5 /\ bounded 5 lim5 /\ exists s,
  fgrun lim5 (feed [mkW TMSG 1 0 true 0 [1; 2; 3]; mkW TMSG 1 0 true 3 [4; 5]]) = Ok (Some s) /\ r_up s = true /\ held s = 5 /\
  exists s', fgrun s (feed [mkW TMSG 1 0 true 5 [6]]) = Ok (Some s') /\ r_up s' = false.
Proof.
  split; [repeat split|]. split; [reflexivity|]. split; [constructor; cbn; lia|].
  eexists. split; [vm_compute; reflexivity|]. split; [reflexivity|]. split; [reflexivity|].
  eexists. split; [vm_compute; reflexivity|reflexivity].
Qed.

(** C23 is false of the last frame: a message over the limit is delivered when
    the limit is passed with its last frame. *)
Theorem C23_final_refuted : exists ws s g, fgrun lim5 (feed ws) = Ok (Some s) /\
  r_log s = [g] /\ limit_of lim5 < get_content_size (g_mf g) /\ r_up s = false.
Proof.
  exists [mkW TMSG 1 0 true 0 eol2; mkW TMSG 1 0 false 2 [1; 2; 3; 4; 5; 6]].
  eexists. eexists. split; [vm_compute; reflexivity|]. split; [reflexivity|]. split; [vm_compute; reflexivity|reflexivity].
Qed.
Print Assumptions C23_final_refuted.

(** C23: the limit in force is the larger of the last values given for the
    channel and for the connection. *)
Theorem C23_limit : forall es s, fgrun r0 es = Ok (Some s) -> limit_of s = Z.max (last_limit es) (last_conn_limit es).
Proof. exact limit_in_force. Qed.
Print Assumptions C23_limit.
Example C23_limit_case : exists s,
  fgrun r0 [RLimit 5; RConnLimit 9; RFrag (received (mkW TMSG 1 0 true 0 [1; 2])); RConnLimit 3] = Ok (Some s) /\ limit_of s = 5.
Proof. eexists. split; vm_compute; reflexivity. Qed.

(** C21, C22: a frame that does not start where the previous one of the channel
    ended, or is not inside of the window, is not delivered and closes the
    connection. *)
Theorem C22_out_of_place : forall c w, inc_up c = true ->
  (w_seqno w <> rw_expected (n_win c) \/
   check_incoming_seqno (rw_consumed (n_win c), rw_window (n_win c)) (w_seqno w) (zlen (w_content w)) = false) ->
  exists c', inc_frame c w = Ok (Some c') /\ inc_up c' = false /\ r_log (n_r c') = r_log (n_r c).
Proof. exact inc_out_of_place. Qed.
Print Assumptions C22_out_of_place.
Example C22_out_of_place_case : inc_up (inc0 []) = true /\
  w_seqno (mkW TMSG 0 0 false 7 [13; 10]) <> rw_expected (n_win (inc0 [])).
Proof. split; [reflexivity|discriminate]. Qed.
