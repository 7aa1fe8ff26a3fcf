(** The properties of the listener side (see properties.jsonl, C172-C182). *)
From Coq Require Import String Sorted.
From Verif Require Import Base GreetModel ListenModel ListenSpec ListenProofs ListenProofs2 ListenProofs3 ListenProofs4.
Open Scope string_scope.
Open Scope Z_scope.
Open Scope list_scope.

(** C172: whatever handlers are installed and whatever connections arrive at the
    same time, every observation is one that may happen: a connection is registered
    only after every handler installed so far was asked once, in order, and agreed;
    it is refused only after the first refusal; never both; its reference is
    released once. *)
Theorem C172_accept : forall ops, each may (a_log (arun ops)).
Proof. exact accept_trace. Qed.
Print Assumptions C172_accept.
(** When no handler is running for a connection it was decided. *)
Theorem C172_decided : forall ops c, let log := a_log (arun ops) in
  calls c log <> [] -> length (answers c log) = length (calls c log) ->
  (In (LReg c) log \/ In (LShut c) log) /\ unrefs c log = 1%nat.
Proof. exact accept_decided. Qed.
Print Assumptions C172_decided.
Example C172_case :
  let f := mkF true false true in
  a_log (arun [OAdd (Some 5%nat); OStart 0 f; OAdd (Some 6%nat); OStart 1 f; OAns 0 true f; OAns 1 false f; OAns 0 true f]) =
  [LAdd 5; LCall 0 5; LAdd 6; LCall 1 5; LAns 0 5 true; LCall 0 6; LAns 1 5 false; LError 1; LShut 1; LUnref 1;
   LAns 0 6 true; LGreet 0; LReg 0; LUnref 0].
Proof. vm_compute. reflexivity. Qed.

(** C173: in one notification of a channel no handler is called twice, they are
    called in the order of installation, and only while the notification runs. *)
Theorem C173_once : forall ops n, let log := n_log (nrun ops) in
  (exists k, added log = seq 0 k) /\ StronglySorted lt (ncalls n log) /\ NoDup (ncalls n log) /\
  (forall pre h post, log = pre ++ VCall n h :: post -> In (VAdd h) pre /\ In (VStart n) pre /\ ~ In (VEnd n) pre) /\
  (forall pre post, log = pre ++ VStart n :: post -> ~ In (VStart n) pre).
Proof. exact notify_once. Qed.
Print Assumptions C173_once.
Example C173_case :
  n_log (nrun [QAdd true; QAdd true; QStart 0 false true; QCall 0; QAdd true; QRet 0; QRem 1; QCall 0; QRet 0]) =
  [VAdd 0; VAdd 1; VGlobal 0; VStart 0; VCall 0 0; VAdd 2; VRem 1; VCall 0 1; VEnd 0].
Proof. vm_compute. reflexivity. Qed.

(** C174: if nothing is removed while the notification runs, exactly the handlers
    installed when it ends are called (missing: removals). *)
Theorem C174_all_partial : forall ops n a b c,
  n_log (nrun ops) = a ++ VStart n :: b ++ VEnd n :: c -> no_removal b ->
  ncalls n b = live (a ++ VStart n :: b).
Proof. exact notify_all. Qed.
Print Assumptions C174_all_partial.
(** With removals a handler that stays installed may not be called. *)
Theorem C174_skip_refuted : exists ops n h a b c,
  n_log (nrun ops) = a ++ VStart n :: b ++ VEnd n :: c /\
  In h (live a) /\ ~ In (VRem h) (n_log (nrun ops)) /\ ~ In h (ncalls n b).
Proof. exact notify_skips. Qed.
Print Assumptions C174_skip_refuted.
Example C174_case :
  n_log (nrun [QAdd true; QStart 0 true true; QCall 0; QAdd true; QRet 0; QCall 0; QRet 0]) =
  [VAdd 0; VStart 0; VCall 0 0; VAdd 1; VCall 0 1; VEnd 0].
Proof. vm_compute. reflexivity. Qed.

(** C175: a handler called after its removal: the notification had started before
    (missing: that it is not called at all). *)
Theorem C175_removed_partial : forall ops n h a b c,
  n_log (nrun ops) = a ++ VRem h :: b ++ VCall n h :: c -> In (VAdd h) a -> In (VStart n) a.
Proof. exact notify_removed. Qed.
Print Assumptions C175_removed_partial.
Theorem C175_late_refuted : exists ops n h a b c,
  n_log (nrun ops) = a ++ VRem h :: b ++ VCall n h :: c /\ In (VAdd h) a.
Proof. exact notify_late. Qed.
Print Assumptions C175_late_refuted.
Example C175_case :
  n_log (nrun [QAdd true; QAdd true; QRem 0; QStart 0 true true; QCall 0; QRet 0]) =
  [VAdd 0; VAdd 1; VRem 0; VStart 0; VCall 0 1; VEnd 0].
Proof. vm_compute. reflexivity. Qed.

(** C176: with one thread that waits and unlocks that never overlap the way to the
    queue, there is no undefined behaviour, the thread returns only once an unlock
    pushed, and after an unlock two steps are enough (missing: any other
    interleaving). *)
Theorem C176_wait_partial : forall ops, all_disciplined winit ops ->
  exists s, wrun winit ops = Ok s /\
    ((exists t, u_pc s t = UOut) -> exists s', wrun s [SWait 0; SWait 0] = Ok s' /\ w_pc s' 0%nat = WOut) /\
    (w_pc s 0%nat = WOut -> exists t, u_pc s t = UNull \/ u_pc s t = UOut).
Proof. exact wait_ok. Qed.
Print Assumptions C176_wait_partial.
(** One thread waiting and one unlocking at the same time: the queue is used after
    it was destroyed. *)
Theorem C176_freed_refuted : exists ops,
  (forall t, In (SWait t) ops -> t = 0%nat) /\ (forall t, In (SUnlock t) ops -> t = 1%nat) /\ wrun winit ops = UB.
Proof. exact wait_freed. Qed.
Print Assumptions C176_freed_refuted.
Example C176_case : exists s,
  all_disciplined winit [SWait 0; SWait 0; SWait 0; SWait 0; SWait 0; SUnlock 1; SUnlock 1; SUnlock 1; SUnlock 1] /\
  wrun winit [SWait 0; SWait 0; SWait 0; SWait 0; SWait 0; SUnlock 1; SUnlock 1; SUnlock 1; SUnlock 1] = Ok s /\
  w_pc s 0%nat = WBlock 0 /\ u_pc s 1%nat = UOut.
Proof. exact wait_case. Qed.

(** C177: an unlock that ends after the wait began may leave it blocked for good. *)
Theorem C177_lost_refuted : exists ops s, wrun winit ops = Ok s /\ u_pc s 1%nat = UOut /\
  In (SWait 0) ops /\ (forall t, In (SUnlock t) ops -> t = 1%nat) /\
  forall ts, exists s', wrun s (map SWait ts) = Ok s' /\ w_pc s' 0%nat <> WOut.
Proof. exact wait_lost_thm. Qed.
Print Assumptions C177_lost_refuted.
(** Two threads wait, one unlock: one is released and destroys the queue on which
    the other one is blocked. *)
Theorem C177_two_refuted : exists ops s, wrun winit ops = Ok s /\ w_pc s 0%nat = WOut /\ w_pc s 1%nat = WBlock 0 /\
  u_pc s 2%nat = UOut /\ wrun s [SWait 1] = UB.
Proof. exact wait_two_thm. Qed.
Print Assumptions C177_two_refuted.
Example C177_case : exists s, wrun winit [SUnlock 1; SUnlock 1; SWait 0; SWait 5] = Ok s /\
  w_pc s 0%nat = WOut /\ w_pc s 5%nat = WOut.
Proof. exact wait_skip_case. Qed.

(** C178: the handlers of port sharing are asked in order about the first four
    bytes, up to the first that decides; then none is asked again, and a failure
    closes the connection. *)
Theorem C178_order : forall cn hs ans b n r, pn_role cn = RoleListener ->
  (4 <= length b)%nat -> bytes_eqb (firstn 3 b) (asc "RPY") = false ->
  exists l rest, asked ans (firstn 4 b) hs l /\
    fst (share_run cn (Some hs) ans false [] ((b, n) :: r)) = map (as_call (firstn 4 b)) l ++ rest /\
    ((exists h, In h l /\ decides (ans (p_id h) (firstn 4 b)) = true) -> rest = []) /\
    ((exists h, In h l /\ ans (p_id h) (firstn 4 b) = -1) ->
       snd (share_run cn (Some hs) ans false [] ((b, n) :: r)) = true).
Proof. exact share_first. Qed.
Print Assumptions C178_order.
(** They are not asked about connections this side opened. *)
Theorem C178_roles : forall cn inst ans sock arr, pn_role cn <> RoleListener \/ inst = None ->
  fst (share_run cn inst ans false sock arr) = [].
Proof. exact share_roles. Qed.
Print Assumptions C178_roles.
Example C178_case :
  share_run w_conn (Some [mkP None None 0; mkP None None 1; mkP None None 2])
    (fun i _ => if Nat.eqb i 1 then 2 else 1) false [] [(asc "GET / HTTP/1.1", 14%nat); (asc "RPY 0 0 ", 8%nat)] =
  ([mkPC 0 (asc "GET "); mkPC 1 (asc "GET ")], false).
Proof. vm_compute. reflexivity. Qed.

(** C179: the local address and port given when a handler is installed do not limit it. *)
Theorem C179_filter_refuted : exists cn h ans arr c,
  In c (fst (share_run cn (Some [h]) ans false [] arr)) /\ pc_id c = p_id h /\ ~ share_matches h cn.
Proof. exact share_filter. Qed.
Print Assumptions C179_filter_refuted.

(** C180: a handler that answered 1 ("don't call me again") is called again. *)
Theorem C180_again_refuted : exists cn hs ans arr c1 c2 rest,
  (forall i b, ans i b = 1) /\
  fst (share_run cn (Some hs) ans false [] arr) = c1 :: c2 :: rest /\ pc_id c1 = pc_id c2.
Proof. exact share_again. Qed.
Print Assumptions C180_again_refuted.
(** Once a transport was detected no handler is called (missing: the answer 1). *)
Theorem C180_detected_partial : forall cn inst ans sock arr, fst (share_run cn inst ans true sock arr) = [].
Proof. exact share_detected. Qed.
Print Assumptions C180_detected_partial.

(** C181: a BEEP peer whose first bytes come together is not shown to the handlers
    (missing: other segmentations). *)
Theorem C181_beep_partial : forall cn inst ans b n r, (4 <= length b)%nat -> firstn 3 b = asc "RPY" ->
  fst (share_run cn inst ans false [] ((b, n) :: r)) = [].
Proof. exact share_beep. Qed.
Print Assumptions C181_beep_partial.
(** In two segments, the handlers are shown the middle of the greeting. *)
Theorem C181_segments_refuted : exists cn hs ans arr c,
  firstn 3 (stream_of arr) = asc "RPY" /\
  In c (fst (share_run cn (Some hs) ans false [] arr)) /\ pc_bytes c <> firstn 4 (stream_of arr).
Proof. exact share_segments. Qed.
Print Assumptions C181_segments_refuted.
(** And another transport is not detected. *)
Theorem C181_missed_refuted : exists cn hs arr,
  (exists h, In h hs /\ get_ans (p_id h) (firstn 4 (stream_of arr)) = 2) /\
  forall c, In c (fst (share_run cn (Some hs) get_ans false [] arr)) -> get_ans (pc_id c) (pc_bytes c) <> 2.
Proof. exact share_missed. Qed.
Print Assumptions C181_missed_refuted.
Example C181_case :
  fst (share_run w_conn (Some [w_share]) get_ans false [] [(asc "GET / HTTP/1.1", 14%nat); (asc "GET ", 4%nat)]) =
  [mkPC 0 (asc "GET ")].
Proof. vm_compute. reflexivity. Qed.

(** C182: the shutdown of a listener closes it, and with it the connections it
    created that the reader had (missing: the others). *)
Theorem C182_shutdown_partial : forall s l also between, is_up s l = true ->
  let s' := listener_shutdown s l also between in
  is_up s' l = false /\
  (also = true -> forall i c, nth_error s i = Some c -> created_by l c -> k_reader c = true ->
     exists c', nth_error s' i = Some c' /\ k_id c' = k_id c /\ k_up c' = false).
Proof. exact shutdown_effect. Qed.
Print Assumptions C182_shutdown_partial.
(** Nothing else is closed. *)
Theorem C182_only : forall s l also, 0 <= l ->
  Forall2 (fun c c' => c' = c \/ (c' = shut c /\ (k_id c = l \/ (also = true /\ created_by l c /\ k_reader c = true))))
    s (listener_shutdown s l also []).
Proof. exact shutdown_only. Qed.
Print Assumptions C182_only.
(** Nothing more is accepted by it afterwards. *)
Theorem C182_closed : forall s l also between later, is_up s l = true ->
  let s' := listener_shutdown s l also between in
  is_up (lrun s' later) l = false /\ length (mine l (lrun s' later)) = length (mine l s').
Proof. exact shutdown_closed. Qed.
Print Assumptions C182_closed.
(** A connection accepted meanwhile, and one the reader did not have, stay open. *)
Theorem C182_survivor_refuted : exists s l between c,
  is_up s l = true /\ In c (listener_shutdown s l true between) /\ created_by l c /\ k_up c = true.
Proof. exact shutdown_survivor. Qed.
Print Assumptions C182_survivor_refuted.
Theorem C182_unseen_refuted : exists s l c,
  is_up s l = true /\ In c s /\ In c (listener_shutdown s l true []) /\ created_by l c /\ k_up c = true.
Proof. exact shutdown_unseen. Qed.
Print Assumptions C182_unseen_refuted.
Example C182_case :
  map k_up (listener_shutdown [w_lis; mkL 2 RoleListener (Some 1) true true; mkL 3 RoleInitiator None true true;
                               mkL 4 RoleListener (Some 9) true true; mkL 9 RoleMaster None true true] 1 true []) =
  [false; false; true; true; true].
Proof. vm_compute. reflexivity. Qed.
