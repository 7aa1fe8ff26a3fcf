(** Properties of the frame objects (C186-C192). *)
From Verif Require Import Base CodecModel MimeModel MimeSpec HdrModel HdrProofs FrameModel FrameSpec FrameProofs3 FrameProofs6 FrameProofs7 FrameProofs8 FrameProofs9.

(** C186: memory. *)
Theorem C186_memory_partial : forall os, keeps fm0 [] os ->
  exists s log, frun fm0 os = Ok (s, log) /\ (all_released (tracked log) -> nothing_left s).
Proof. exact frames_safe. Qed.
Print Assumptions C186_memory_partial.
Theorem C186_held_refuted : exists os, keeps_held fm0 [] os /\ frun fm0 os = UB.
Proof. exists w_ext_recv. apply unsafe_wit. left. reflexivity. Qed.
Print Assumptions C186_held_refuted.
Theorem C186_calls_refuted : exists l, l = unsafe_programs /\ forall os, In os l -> keeps_held fm0 [] os /\ frun fm0 os = UB.
Proof. exists unsafe_programs. split; [reflexivity|exact unsafe_wit]. Qed.
Print Assumptions C186_calls_refuted.
Example C186_ex : keeps fm0 [] prog /\
  exists s log, frun fm0 prog = Ok (s, log) /\ all_released (tracked log) /\ In (FPayload 3, OBytes [104;105;33]) log.
Proof. exact (Logic.conj prog_keeps prog_run). Qed.
Example C186_ex_programs : length unsafe_programs = 5%nat.
Proof. reflexivity. Qed.

(** C187: every answer is the one that frames as values give. *)
Theorem C187_values_partial : forall os, keeps fm0 [] os -> exists s log, frun fm0 os = Ok (s, log) /\ as_values [] log.
Proof. exact frames_values. Qed.
Print Assumptions C187_values_partial.
Theorem C187_more_refuted : exists a m s l, a_more a = true /\ keeps fm0 [] [FCreate a m; FInfo 0] /\
  frun fm0 [FCreate a m; FInfo 0] =
    Ok (s, l ++ [(FInfo 0, OInfo 1 (a_type a) (a_ch a) (a_msgno a) false (a_seqno a) (a_size a) (a_ans a) 0)]).
Proof. exact create_more_wit. Qed.
Print Assumptions C187_more_refuted.
Example C187_ex : keeps fm0 [] prog.
Proof. exact prog_keeps. Qed.

(** C188: a copy equals its original. *)
Theorem C188_copy_equal_partial : forall os s log i v t, keeps fm0 [] os -> frun fm0 os = Ok (s, log) ->
  nth_error (fold_left vnext log []) i = Some v -> nth_error (tracked log) i = Some t ->
  0 < t_held t -> t_gone t = false -> t_term t = true -> (t_proc t = true -> t_exact t = true) -> room (tracked log) ->
  v_plain v = true -> v_more v = false -> v_body v <> [] ->
  exists s' n, n = length (tracked log) /\
    frun fm0 (os ++ [FCopy i; FEqual i n]) = Ok (s', log ++ [(FCopy i, ONew n); (FEqual i n, OBool true)]).
Proof. exact copy_equal. Qed.
Print Assumptions C188_copy_equal_partial.
Theorem C188_copy_equal_refuted : exists l, l = [FReceive (arg true 0 0) 0 [104;105]; FReceive (arg false 0 0) 0 []] /\ forall o, In o l ->
  keeps fm0 [] [o; FCopy 0; FEqual 0 1] /\
  exists s, frun fm0 [o; FCopy 0; FEqual 0 1] = Ok (s, [(o, ONew 0); (FCopy 0, ONew 1); (FEqual 0 1, OBool false)]).
Proof. eexists. split; [reflexivity|exact copy_differs_wit]. Qed.
Print Assumptions C188_copy_equal_refuted.
Example C188_ex : let os := [FReceive (arg false 7 0) 3 [104;0;105]] in keeps fm0 [] os /\
  exists s log v t, frun fm0 os = Ok (s, log) /\ nth_error (fold_left vnext log []) 0 = Some v /\ nth_error (tracked log) 0 = Some t /\
    t_held t = 1 /\ t_gone t = false /\ t_term t = true /\ t_exact t = true /\ room (tracked log) /\
    v_plain v = true /\ v_more v = false /\ v_body v = [104;0;105].
Proof.
  cbv zeta. split; [keept|]. do 4 eexists. split; [vm_compute; reflexivity|]. split; [vm_compute; reflexivity|]. split; [vm_compute; reflexivity|].
  vm_compute. conj; reflexivity.
Qed.

(** C189: equality. *)
Theorem C189_equal_partial : forall os s l1 l2 l3 l4 i j x y, keeps fm0 [] os ->
  frun fm0 os = Ok (s, l1 ++ (FPayload i, OBytes x) :: l2 ++ (FPayload j, OBytes y) :: l3 ++ (FEqual i j, OBool true) :: l4) ->
  (forall b, ~ In (FMime i, b) (l2 ++ l3)) -> (forall b, ~ In (FMime j, b) l3) ->
  zlen x = zlen y /\ cstr x = cstr y /\ (~ In 0 x -> ~ In 0 y -> x = y).
Proof. exact equal_payloads. Qed.
Print Assumptions C189_equal_partial.
Theorem C189_equal_refuted : exists a x y s l, x <> y /\ zlen x = zlen y /\
  keeps fm0 [] [FCreate a (Some x); FCreate a (Some y); FPayload 0; FPayload 1; FEqual 0 1] /\
  frun fm0 [FCreate a (Some x); FCreate a (Some y); FPayload 0; FPayload 1; FEqual 0 1] =
    Ok (s, l ++ [(FPayload 0, OBytes x); (FPayload 1, OBytes y); (FEqual 0 1, OBool true)]).
Proof. exact equal_nul_wit. Qed.
Print Assumptions C189_equal_refuted.
Example C189_ex : let os := [FReceive (arg false 7 0) 3 [104;105]; FCopy 0; FPayload 0; FPayload 1; FEqual 0 1] in keeps fm0 [] os /\
  exists s, frun fm0 os = Ok (s, [(FReceive (arg false 7 0) 3 [104;105], ONew 0); (FCopy 0, ONew 1)] ++
    (FPayload 0, OBytes [104;105]) :: [] ++ (FPayload 1, OBytes [104;105]) :: [] ++ (FEqual 0 1, OBool true) :: []).
Proof. cbv zeta. split; [keept|]. eexists. vm_compute. reflexivity. Qed.

(** C190: joins. *)
Theorem C190_join_partial : forall os s l1 l2 l3 l4 r i j k x y z, keeps fm0 [] os ->
  frun fm0 os = Ok (s, l1 ++ (FPayload i, OBytes x) :: (FPayload j, OBytes y) :: (FJoin r i j, ONew k) ::
                       l2 ++ (FPayload k, OBytes z) :: l3 ++ l4) ->
  (forall b, ~ In (FMime k, b) l2) -> z = x ++ y.
Proof. exact join_payload. Qed.
Print Assumptions C190_join_partial.
Theorem C190_first_refuted : exists os o n v s1 l1 s2 l2, o = FJoin false 0 1 /\ keeps fm0 [] (os ++ [o]) /\
  frun fm0 os = Ok (s1, l1) /\ header_of s1 0 n = Ok [(n, v)] /\ frun fm0 (os ++ [o]) = Ok (s2, l2) /\ header_of s2 0 n = Ok [].
Proof. exact join_header_wit. Qed.
Print Assumptions C190_first_refuted.
Example C190_ex : let os := [FReceive (arg true 0 0) 0 [104;105]; FReceive (arg false 2 0) 0 [33]; FPayload 0; FPayload 1; FJoin false 0 1; FUnref 0; FPayload 2] in
  keeps fm0 [] os /\ exists s, frun fm0 os = Ok (s, [(FReceive (arg true 0 0) 0 [104;105], ONew 0); (FReceive (arg false 2 0) 0 [33], ONew 1)] ++
    (FPayload 0, OBytes [104;105]) :: (FPayload 1, OBytes [33]) :: (FJoin false 0 1, ONew 2) :: [(FUnref 0, OUnit)] ++ (FPayload 2, OBytes [104;105;33]) :: [] ++ []).
Proof. cbv zeta. split; [keept|]. eexists. vm_compute. reflexivity. Qed.

(** C191: a copy is independent of its original. *)
Theorem C191_stable_partial : forall os s l1 l2 l3 i x y, keeps fm0 [] os ->
  frun fm0 os = Ok (s, l1 ++ (FPayload i, OBytes x) :: l2 ++ (FPayload i, OBytes y) :: l3) ->
  (forall b, ~ In (FMime i, b) l2) -> y = x.
Proof. exact payload_stable. Qed.
Print Assumptions C191_stable_partial.
Theorem C191_copy_partial : forall os s l1 l2 l3 i k x y, keeps fm0 [] os ->
  frun fm0 os = Ok (s, l1 ++ (FPayload i, OBytes x) :: (FCopy i, ONew k) :: l2 ++ (FPayload k, OBytes y) :: l3) ->
  (forall b, ~ In (FMime k, b) l2) -> y = x.
Proof. exact copy_payload. Qed.
Print Assumptions C191_copy_partial.
Theorem C191_headers_refuted : exists os o n v s1 l1 s2 l2, o = FHead 1 (HSet n v) /\ keeps fm0 [] (os ++ [FCopy 0; o]) /\
  frun fm0 (os ++ [FCopy 0]) = Ok (s1, l1) /\ header_of s1 0 n = Ok [] /\
  frun fm0 (os ++ [FCopy 0; o]) = Ok (s2, l2) /\ header_of s2 0 n = Ok [(n, v)].
Proof. exact copy_shared_wit. Qed.
Print Assumptions C191_headers_refuted.
Example C191_ex : let os := [FReceive (arg true 0 0) 0 [104;105]; FPayload 0; FCopy 0; FUnref 0; FPayload 1] in
  keeps fm0 [] os /\ exists s, frun fm0 os = Ok (s, [(FReceive (arg true 0 0) 0 [104;105], ONew 0)] ++
    (FPayload 0, OBytes [104;105]) :: (FCopy 0, ONew 1) :: [(FUnref 0, OUnit)] ++ (FPayload 1, OBytes [104;105]) :: []).
Proof. cbv zeta. split; [keept|]. eexists. vm_compute. reflexivity. Qed.
Example C191_ex_stable : let os := [FReceive (arg true 0 0) 0 [104;105]; FPayload 0; FCopy 0; FHead 1 (HSet [65] [66]); FUnref 1; FPayload 0] in
  keeps fm0 [] os /\ exists s, frun fm0 os = Ok (s, [(FReceive (arg true 0 0) 0 [104;105], ONew 0)] ++
    (FPayload 0, OBytes [104;105]) :: [(FCopy 0, ONew 1); (FHead 1 (HSet [65] [66]), OUnit); (FUnref 1, OUnit)] ++ (FPayload 0, OBytes [104;105]) :: []).
Proof. cbv zeta. split; [keept|]. eexists. vm_compute. reflexivity. Qed.

(** C192: the fragments of a message, joined as they come. *)
Theorem C192_fragments : forall a c cs, 0 <= a_seqno a < two32 -> 2 * zlen cs + 1 < two31 - 2 -> zlen c + zlen (concat cs) + 6 < two31 ->
  Forall defined (c :: cs) -> exists s log k,
  frun fm0 (join_all a c cs) = Ok (s, log ++ [(FPayload k, OBytes (c ++ concat cs));
     (FInfo k, OInfo (1 + Z.of_nat k) (a_type a) (a_ch a) (a_msgno a) false (a_seqno a) (zlen (c ++ concat cs)) (a_ans a) 0);
     (FUnref k, OUnit)]) /\
  nothing_left s.
Proof. exact fragments_joined. Qed.
Print Assumptions C192_fragments.
Example C192_ex : let a := arg true 4294967294 0 in 0 <= a_seqno a < two32 /\ 2 * zlen [[105];[];[33;0]] + 1 < two31 - 2 /\
  zlen [104] + zlen (concat [[105];[];[33;0]]) + 6 < two31 /\ Forall defined [[104];[105];[];[33;0]].
Proof. vm_compute. conj; try reflexivity; try discriminate. repeat constructor; discriminate. Qed.
Example C192_ex_run : exists s l, frun fm0 (join_all (arg true 4294967294 0) [104] [[105];[];[33;0]]) =
  Ok (s, l ++ [(FPayload 6, OBytes [104;105;33;0]); (FInfo 6, OInfo 7 TMSG 1 2 false 4294967294 4 0 0); (FUnref 6, OUnit)]).
Proof.
  eexists. eexists (_ :: _ :: _ :: _ :: _ :: _ :: _ :: _ :: _ :: _ :: _ :: _ :: _ :: []). vm_compute. reflexivity.
Qed.
