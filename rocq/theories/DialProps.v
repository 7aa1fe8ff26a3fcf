(** The connect: the theorems. *)
From Coq Require Import Lia.
From Verif Require Import Base CodecModel MimeModel GreetModel DialModel DialSpec DialProofs.

(** A connect under way at 1000, with a timeout of 5 seconds, made at the third wait. *)
Definition asked (t : Z) (c : option Z) (its : list iter) (now : Z) : net :=
  mkNet true true 7 true true true t c true 1000 its now now.
Definition made : list iter :=
  [mkIt 1000 true 0 0 None; mkIt 1001 true (-1) EINTR None; mkIt 1002 true 1 EINTR (Some 0)].

(** C239. A connect that fails reports an error and leaves no socket; one that does not
    gives the socket, open. *)
Theorem C239_sockets : forall o d, -1 <= o_sock o -> dial o = Ok (Some d) ->
  (d_sess d = -1 /\ (exists c, d_code d = Some c) /\ (created o -> d_closed d = 1) /\ (~ created o -> d_closed d = 0)) \/
  (created o /\ d_sess d = o_sock o /\ 0 <= d_sess d /\ d_code d = None /\ d_closed d = 0).
Proof. exact dial_sockets. Qed.
Print Assumptions C239_sockets.
Theorem C239_defined_partial : forall o, an_int (o_timeout o) -> clock_ok o -> -1 <= o_sock o -> ~ reserved o -> dial o <> UB.
Proof. exact dial_defined. Qed.
Print Assumptions C239_defined_partial.
Theorem C239_sets_partial : forall o d, Forall (fun i => -2 <= i_wait i) (o_its o) -> dial o = Ok (Some d) -> d_leak d = false.
Proof. exact dial_leak. Qed.
Print Assumptions C239_sets_partial.
(** A process without standard input that gets the descriptor 0. *)
Theorem C239_reserved_refuted : exists o, clock_ok o /\ an_int (o_timeout o) /\ reserved o /\ dial o = UB.
Proof.
  exists (mkNet true true 0 true true true 0 None true 1000 [] 1000 1000).
  unfold clock_ok, an_int, reserved, two31. cbn. repeat split; try lia; try constructor; reflexivity.
Qed.
Print Assumptions C239_reserved_refuted.
(** An I/O mechanism that gives the documented -3. *)
Theorem C239_sets_refuted : exists o d, clock_ok o /\ an_int (o_timeout o) /\ dial o = Ok (Some d) /\ d_leak d = true.
Proof.
  exists (asked 5000000 (Some EINPROGRESS) [mkIt 1000 true (-3) 0 None] 1000). eexists. split.
  - unfold clock_ok, two31. cbn. repeat split; try lia. repeat constructor; cbn; lia.
  - split; [unfold an_int, two31; cbn; lia|]. split; [vm_compute; reflexivity|reflexivity].
Qed.
Print Assumptions C239_sets_refuted.
Example C239_ex :
  dial (asked 5000000 (Some EINPROGRESS) made 1002) = Ok (Some (mkD 7 None 0 3 false)) /\
  dial (asked 0 None [] 1002) = Ok (Some (mkD 7 None 0 0 false)) /\
  dial (asked 5000000 (Some 111) [] 1000) = Ok (Some (mkD (-1) (Some ConnectionError) 1 5 false)) /\
  dial (asked 5000000 (Some EINPROGRESS) [mkIt 1000 true 1 0 (Some 111)] 1001) = Ok (Some (mkD (-1) (Some ConnectionError) 1 4 false)) /\
  dial (mkNet true true (-1) true true true 0 None true 1000 [] 1000 1000) = Ok (Some (mkD (-1) (Some NameResolvFailure) 0 0 false)) /\
  dial (mkNet true true 7 false true true 0 None true 1000 [] 1000 1000) = Ok (Some (mkD (-1) (Some SocketSanityError) 1 0 false)) /\
  dial (mkNet true true 1 true false true 0 None true 1000 [] 1000 1000) = Ok (Some (mkD 1 None 0 0 false)) /\
  dial (mkNet true true 7 true true false 5000000 (Some EINPROGRESS) true 1000 [] 1000 1000) = Ok (Some (mkD (-1) (Some ConnectionError) 1 0 false)) /\
  dial (asked 5000000 (Some EINPROGRESS) [mkIt 1000 false 0 0 None] 1000) = Ok (Some (mkD (-1) (Some ConnectionError) 1 5 false)) /\
  dial (asked 5000000 (Some EINPROGRESS) [mkIt 1000 true 1 0 None] 1000) = Ok (Some (mkD (-1) (Some ConnectionError) 1 5 false)) /\
  dial (asked 5000000 (Some EINPROGRESS) [mkIt 1000 true (-1) 22 None] 1000) = Ok (Some (mkD (-1) (Some ConnectionError) 1 5 false)).
Proof. repeat apply conj; vm_compute; reflexivity. Qed.

(** C240. A socket given is connected; and one that connects in time is given. *)
Theorem C240_connected_partial : forall o d, an_int (o_timeout o) -> ~ 0 < o_timeout o < 1000000 -> blocking_ok o ->
  dial o = Ok (Some d) -> d_code d = None -> handshake o.
Proof. exact dial_connected. Qed.
Print Assumptions C240_connected_partial.
Theorem C240_given_partial : forall o pre i post, an_int (o_timeout o) -> 1000000 <= o_timeout o -> clock_ok o -> under_way o ->
  let deadline := o_start o + o_timeout o / 1000000 in
  o_its o = pre ++ i :: post -> Forall (nothing_yet deadline) pre -> connects deadline i -> o_now1 o < deadline ->
  dial o = Ok (Some (mkD (o_sock o) None 0 (deadline - o_now2 o) false)).
Proof. exact dial_reported. Qed.
Print Assumptions C240_given_partial.
(** A timeout below one second: the connect under way is taken as made. *)
Theorem C240_below_a_second_refuted : exists o d, clock_ok o /\ blocking_ok o /\ 0 < o_timeout o /\
  dial o = Ok (Some d) /\ d_code d = None /\ d_sess d = 7 /\ ~ handshake o.
Proof.
  exists (asked 900000 (Some EINPROGRESS) [] 1000). eexists. split.
  - unfold clock_ok, two31. cbn. repeat split; try lia. constructor.
  - split; [intros X; cbn in X; lia|]. split; [cbn; lia|]. split; [vm_compute; reflexivity|]. split; [reflexivity|]. split; [reflexivity|].
    intros [X|(i & X & _)]; [discriminate X|destruct X].
Qed.
Print Assumptions C240_below_a_second_refuted.
(** errno left by a previous call: the connection made is taken as a failure. *)
Theorem C240_errno_refuted : exists o d i, clock_ok o /\ 1000000 <= o_timeout o /\ under_way o /\ o_its o = [i] /\ 0 < i_wait i /\ i_so i = Some 0 /\
  o_now2 o = o_start o /\ dial o = Ok (Some d) /\ d_code d = Some ConnectionError.
Proof.
  exists (asked 5000000 None [mkIt 1000 true 1 EBADF (Some 0)] 1000). eexists. exists (mkIt 1000 true 1 EBADF (Some 0)). split.
  - unfold clock_ok, two31. cbn. repeat split; try lia. repeat constructor; cbn; lia.
  - split; [cbn; lia|]. split; [unfold under_way, created, reserved; cbn; repeat split; try lia; auto|].
    split; [reflexivity|]. split; [reflexivity|]. split; [reflexivity|]. split; [reflexivity|]. split; [vm_compute; reflexivity|reflexivity].
Qed.
Print Assumptions C240_errno_refuted.
Example C240_ex : let o := asked 5000000 (Some EINPROGRESS) made 1002 in
  clock_ok o /\ blocking_ok o /\ under_way o /\ handshake o /\
  Forall (nothing_yet 1005) (firstn 2 made) /\ connects 1005 (mkIt 1002 true 1 EINTR (Some 0)).
Proof.
  cbn. split; [|split; [|split; [|split; [|split]]]].
  - unfold clock_ok, two31. cbn. repeat split; try lia. repeat constructor; cbn; lia.
  - intros X. cbn in X. lia.
  - unfold under_way, created, reserved; cbn; repeat split; try lia; auto.
  - right. exists (mkIt 1002 true 1 EINTR (Some 0)). cbn. repeat split; auto.
  - repeat (apply Forall_cons || apply Forall_nil); unfold nothing_yet; cbn; repeat split; try lia; try discriminate; auto.
  - unfold connects. cbn. repeat split; try lia; discriminate.
Qed.

(** C241. A timeout is not reported before its time. *)
Theorem C241_not_before_partial : forall o d, an_int (o_timeout o) -> clock_ok o -> dial o = Ok (Some d) -> d_code d = Some ConnectionTimeout ->
  1000000 <= o_timeout o /\ o_start o + o_timeout o / 1000000 <= o_now1 o.
Proof. exact dial_timeout. Qed.
Print Assumptions C241_not_before_partial.
(** From 2038 on, every connect with a timeout fails at once, even if it is already made. *)
Theorem C241_from_2038 : forall t now its, 1000000 <= t < two31 -> two31 <= now < two31 + 1000000000 -> its <> [] ->
  Forall (fun i => i_now i = now) its ->
  exists d, dial (mkNet true true 7 true true true t None true now its now now) = Ok (Some d) /\ d_code d = Some ConnectionTimeout.
Proof. exact dial_2038. Qed.
Print Assumptions C241_from_2038.
Theorem C241_year_2038_refuted : exists o d, o_timeout o = 60000000 /\ o_now2 o = o_start o /\ handshake o /\
  dial o = Ok (Some d) /\ d_code d = Some ConnectionTimeout.
Proof.
  exists (mkNet true true 7 true true true 60000000 None true two31 [mkIt two31 true 1 0 (Some 0)] two31 two31). eexists.
  split; [reflexivity|]. split; [reflexivity|]. split; [left; reflexivity|]. split; [vm_compute; reflexivity|reflexivity].
Qed.
Print Assumptions C241_year_2038_refuted.
Example C241_ex :
  dial (asked 5000000 (Some EINPROGRESS) [mkIt 1000 true 0 0 None; mkIt 1004 true (-2) 0 None; mkIt 1005 true 1 0 (Some 0)] 1005) = Ok (Some (mkD (-1) (Some ConnectionTimeout) 1 0 false)) /\
  dial (asked 5000000 (Some EINPROGRESS) [mkIt 1004 true 1 0 (Some 0)] 1005) = Ok (Some (mkD (-1) (Some ConnectionTimeout) 1 0 false)) /\
  dial (asked 5000000 (Some EINPROGRESS) [mkIt 1000 true 0 0 None; mkIt 1004 true 0 0 None] 1004) = Ok None.
Proof. repeat apply conj; vm_compute; reflexivity. Qed.

(** C242. The peer has what is left of the timeout to send its greetings. *)
Theorem C242_left_partial : forall o d, an_int (o_timeout o) -> 1000000 <= o_timeout o -> o_want o = true -> clock_ok o -> dial o = Ok (Some d) -> d_code d = None ->
  o_now1 o < o_start o + o_timeout o / 1000000 /\ d_left d = o_start o + o_timeout o / 1000000 - o_now2 o.
Proof. exact dial_left. Qed.
Print Assumptions C242_left_partial.
Theorem C242_waits_partial : forall o d s, an_int (o_timeout o) -> 1000000 <= o_timeout o -> o_want o = true -> clock_ok o -> o_now2 o < o_start o + o_timeout o / 1000000 ->
  dial o = Ok (Some d) -> d_code d = None -> gs_up s = true -> forall w left, 0 < w -> 0 < left ->
  exchange_step (ERunning s (d_left d)) (mkE ANothing w left) = Ok (ERunning s left).
Proof. exact greet_waits. Qed.
Print Assumptions C242_waits_partial.
(** With a timeout below one second, a peer whose greetings are not there yet is refused. *)
Theorem C242_below_a_second_refuted : exists o d, clock_ok o /\ 0 < o_timeout o /\ handshake o /\ dial o = Ok (Some d) /\ d_code d = None /\
  forall w left es, exchange (ERunning gs0 (d_left d)) (mkE ANothing w left :: es) = Ok (EReturned None).
Proof.
  exists (asked 900000 None [] 1000). eexists. split.
  - unfold clock_ok, two31. cbn. repeat split; try lia. constructor.
  - split; [cbn; lia|]. split; [left; reflexivity|]. split; [vm_compute; reflexivity|]. split; [reflexivity|].
    intros w left es. cbn [d_left]. cbn. induction es as [|e es IH]; cbn; auto.
Qed.
Print Assumptions C242_below_a_second_refuted.
(** The clock may tick between the two times it is read: nothing is left though the connect was in time. *)
Theorem C242_tick_refuted : exists o d, clock_ok o /\ 1000000 <= o_timeout o /\ dial o = Ok (Some d) /\ d_code d = None /\ d_left d = 0.
Proof.
  exists (mkNet true true 7 true true true 5000000 None true 1000 [mkIt 1004 true 1 0 (Some 0)] 1004 1005). eexists. split.
  - unfold clock_ok, two31. cbn. repeat split; try lia. repeat constructor; cbn; lia.
  - split; [cbn; lia|]. split; [vm_compute; reflexivity|]. split; reflexivity.
Qed.
Print Assumptions C242_tick_refuted.
Example C242_ex : dial (asked 5999999 None made 1003) = Ok (Some (mkD 7 None 0 2 false)).
Proof. vm_compute. reflexivity. Qed.

(** C243. The application is told once, by the handler or by the value returned, and the
    options are released once. *)
Theorem C243_told_partial : forall ready args m, (d_sess (m_dial m) = -1 \/ (m_sockname m = true /\ m_nameinfo m = true)) ->
  let x := new_full ready args m in
  x_released x = 1 /\ x_open x = x_up x /\
  (ready = true /\ args = true ->
   (m_threaded m = true -> x_told x = 1) /\ (m_threaded m = false -> x_told x = 0 /\ x_ret x = true) /\
   (x_up x = true <-> d_sess (m_dial m) <> -1 /\ m_greet m = true)).
Proof. exact new_told. Qed.
Print Assumptions C243_told_partial.
(** The peer resets the connection before getsockname, or getnameinfo fails: nobody is told, and the socket stays open. *)
Theorem C243_lost_refuted : exists m m', m_threaded m = true /\ m_threaded m' = true /\
  (let x := new_full true true m in x_told x = 0 /\ x_ret x = false /\ x_open x = true) /\
  (let x := new_full true true m' in x_told x = 0 /\ x_ret x = false /\ x_open x = true /\ x_released x = 0).
Proof.
  exists (mkNew true (mkD 7 None 0 0 false) false true true), (mkNew true (mkD 7 None 0 0 false) true false true). cbn. repeat split.
Qed.
Print Assumptions C243_lost_refuted.
Example C243_ex :
  new_full true true (mkNew true (mkD 7 None 0 0 false) true true true) = mkOut 1 false 1 true true /\
  new_full true true (mkNew false (mkD 7 None 0 0 false) true true false) = mkOut 0 true 1 false false /\
  new_full true true (mkNew true (mkD (-1) (Some ConnectionError) 1 0 false) false false false) = mkOut 1 false 1 false false /\
  new_full false true (mkNew true (mkD 7 None 0 0 false) true true true) = mkOut 0 false 1 false false /\
  new_full true false (mkNew true (mkD 7 None 0 0 false) true true true) = mkOut 0 false 1 false false.
Proof. repeat apply conj; vm_compute; reflexivity. Qed.
