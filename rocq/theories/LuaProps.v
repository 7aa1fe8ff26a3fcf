(** Properties of the Lua bindings. *)
From Coq Require Import String Lia.
From Verif Require Import Base GreetModel HdrModel LuaModel LuaSpec LuaProofs LuaProofs2 LuaProofs3.
Open Scope list_scope.
Open Scope Z_scope.

(** * C286: parameters *)

Theorem C286_exact man args : plain_spec man -> (check_params man args = CkOk <-> Forall2 wants man args).
Proof. exact (params_exact man args). Qed.
Print Assumptions C286_exact.
Example C286_exact_ex :
  plain_spec (asc "csi") /\
  check_params (asc "csi") [LObj VChan 5; LStr (asc "hello"); LNum (-1)] = CkOk /\
  check_params (asc "csi") [LObj VChan 5; LStr (asc "hello")] = CkErr /\
  check_params (asc "csi") [LObj VChan 5; LNil; LNum (-1)] = CkErr.
Proof. split; [split; vm_compute; intuition discriminate | repeat split; reflexivity]. Qed.

Theorem C286_accepts man opt args : ~ In BAR man -> ~ In BAR opt -> right_call man opt args ->
  check_params (man ++ BAR :: opt) args = CkOk.
Proof. exact (params_accepts man opt args). Qed.
Print Assumptions C286_accepts.
Theorem C286_optional_partial man opt args : plain_spec man -> plain_spec opt ->
  check_params (man ++ BAR :: opt) args = CkOk ->
  exists a b, args = a ++ b /\ Forall2 wants man a /\
    forall i d dv, (S i < length b)%nat -> (i < length opt)%nat -> wants (nth i opt d) (nth i b dv).
Proof. exact (params_must man opt args). Qed.
Print Assumptions C286_optional_partial.
Example C286_optional_ex :
  right_call (asc "tif") (asc "dd") [LObj VCtx 1; LNum 1000; LFun 7; LNil] /\
  check_params (asc "tif|dd") [LObj VCtx 1; LNum 1000; LFun 7; LNil] = CkOk /\
  check_params (asc "tif|dd") [LObj VCtx 1; LNum 1000] = CkErr /\
  check_params (asc "osi|fd") [LObj VConn 1; LStr (asc "x"); LNum 1; LNum 2; LNil] = CkErr.
Proof.
  split; [|repeat split; reflexivity].
  exists [LObj VCtx 1; LNum 1000; LFun 7], [LNil], (asc "d"), (asc "d").
  repeat split; repeat constructor; cbn; eauto.
Qed.

(** The last of the parameters given is not looked at when it is an optional one. *)
Theorem C286_last_refuted : exists man opt args,
  check_params (man ++ BAR :: opt) args = CkOk /\ ~ right_call man opt args.
Proof.
  exists (asc "o"), (asc "b"), [LObj VConn 1; LStr (asc "no")]. split; [reflexivity|].
  intros (a & b & given & rest & EA & EG & FA & FB).
  inversion FA as [|? ? ? ? W FA']; subst. inversion FA'; subst. cbn in EA. injection EA as _ EA. subst b.
  inversion FB as [|? ? ? ? W' FB']; subst. inversion FB'; subst.
  cbn in EG. injection EG as <- _. destruct W' as [x X]. discriminate X.
Qed.
Print Assumptions C286_last_refuted.
(** Any number of parameters is accepted after an optional one. *)
Theorem C286_excess_refuted : exists man opt args, (length args > length man + length opt)%nat /\
  check_params (man ++ BAR :: opt) args = CkOk.
Proof. exists (asc "o"), (asc "b"), [LObj VConn 1; LBool true; LNum 3; LNum 4]. split; [cbn; lia | reflexivity]. Qed.
Print Assumptions C286_excess_refuted.
(** An object of another type is refused without an error. *)
Theorem C286_quiet_refuted : exists man args, plain_spec man /\ ~ Forall2 wants man args /\ check_params man args <> CkErr.
Proof.
  exists (asc "o"), [LObj VChan 3]. split; [split; vm_compute; intuition discriminate|]. split; [|discriminate].
  intros F. inversion F as [|? ? ? ? W _]; subst. destruct W as [p P]. discriminate P.
Qed.
Print Assumptions C286_quiet_refuted.

(** * C287: queues *)

Theorem C287_fifo_partial es out q : no_bools (pushes es) -> qrun q_new es = (out, q) ->
  exists l, fifo [] es = (out, l) /\ kept q = non_nil l.
Proof. exact (queue_fifo es out q). Qed.
Print Assumptions C287_fifo_partial.
Theorem C287_released es out q : qrun q_new es = (out, q) -> kept (q_gc q) = 0.
Proof. exact (queue_released es out q). Qed.
Print Assumptions C287_released.
Example C287_ex :
  let q := LObj VQueue 9 in
  let es := [QPush (LNum 1); QPush LNil; QPush (LTab 4); QPop [q]; QPush (LStr (asc "x")); QPop [q]; QPop [q; LNum 50]] in
  let (out, q') := qrun q_new es in
  no_bools (pushes es) /\ out = [LNum 1; LNil; LTab 4] /\ kept q' = 1 /\ q_refs q' = [Some (LStr (asc "x")); None].
Proof. cbn. split; [intros b; cbn; intuition discriminate | repeat split; reflexivity]. Qed.
(** A boolean comes out as the queue itself, or as the time to wait. *)
Theorem C287_boolean_refuted : exists es self, forall us,
  fst (qrun q_new (QPush (LBool true) :: es)) = [self] /\
  fst (qrun q_new [QPush (LBool true); QPop [self; LNum us]]) = [LNum us].
Proof. exists [QPop [LObj VQueue 9]], (LObj VQueue 9). intros us. split; reflexivity. Qed.
Print Assumptions C287_boolean_refuted.

(** * C288: one thread at a time *)

Theorem C288_exclusive_partial es : Forall tame es -> exists w, lruns lw_init es = Ok w /\ one_at_a_time w.
Proof. exact (lock_exclusive es). Qed.
Print Assumptions C288_exclusive_partial.
Theorem C288_left_partial es w : Forall tame es -> lruns lw_init es = Ok w ->
  w_th w 0 = TBlocked 0 -> (forall t, t <> 0 -> w_th w t = TIdle) -> w_lock w 0 = Some None.
Proof. exact (lock_left es w). Qed.
Print Assumptions C288_left_partial.
Example C288_ex : exists w,
  lruns lw_init [EReg 0; ECall 1 0; EWait 0; ECall 1 0; EWake 0; ECall 2 0; ERet 1; ECall 2 0] = Ok w /\
  Forall tame [EReg 0; ECall 1 0; EWait 0; ECall 1 0; EWake 0; ECall 2 0; ERet 1; ECall 2 0] /\
  w_th w 0 = TBlocked 0 /\ w_th w 1 = TIdle /\ w_th w 2 = TLua 0.
Proof. eexists. split; [reflexivity|]. split; [repeat constructor | repeat split; reflexivity]. Qed.
(** A handler registered by a handler runs under another lock. *)
Theorem C288_nested_refuted : exists es w, lruns lw_init es = Ok w /\ ~ one_at_a_time w /\
  Forall (fun e => forall t, e <> EListen t) es.
Proof.
  exists [EReg 0; EWait 0; ECall 1 0; EReg 1; ERet 1; EWake 0; ECall 2 1]. eexists. split; [reflexivity|]. split.
  - intros H. assert (0 = 2) by (apply H; eexists; reflexivity). discriminate.
  - repeat constructor; intros; discriminate.
Qed.
Print Assumptions C288_nested_refuted.
(** vortex.wait_listeners comes back without the lock, and the next call that leaves it is undefined. *)
Theorem C288_listeners_refuted : exists es w, lruns lw_init es = Ok w /\ ~ one_at_a_time w /\
  Forall (fun e => forall t, e = EReg t -> t = 0) es /\ lstep w (EWait 0) = UB.
Proof.
  exists [EReg 0; EListen 0; EListened 0; ECall 1 0]. eexists. split; [reflexivity|]. split; [|split].
  - intros H. assert (0 = 1) by (apply H; eexists; reflexivity). discriminate.
  - repeat constructor; intros; congruence.
  - reflexivity.
Qed.
Print Assumptions C288_listeners_refuted.
(** A handler that waits for a queue keeps the lock: nobody runs, and nobody can. *)
Theorem C288_waiting_refuted : exists es w, Forall tame es /\ lruns lw_init es = Ok w /\
  (forall t, ~ in_lua w t) /\ (forall t, lock w t 0 = None).
Proof.
  exists [EReg 0; EWait 0; ECall 1 0; EWait 1]. eexists.
  split; [repeat constructor|]. split; [reflexivity|]. split.
  - intros t [l L]. cbn -[Z.eqb] in L.
    destruct (Z.eqb_spec t 1); [discriminate|]. destruct (Z.eqb_spec t 0); discriminate.
  - reflexivity.
Qed.
Print Assumptions C288_waiting_refuted.

(** A lock is left only by the thread that has it: any other unlock is undefined. *)
Theorem C288_unlock : forall w t l, w_lock w l <> None -> (unlock w t l = UB <-> w_lock w l <> Some (Some t)).
Proof. exact unlock_held. Qed.
Print Assumptions C288_unlock.
Example C288_unlock_ex : unlock (set_lock lw_init 1 None) 7 1 = UB /\ unlock (set_lock lw_init 1 (Some 7)) 8 1 = UB /\ unlock (set_lock lw_init 1 (Some 7)) 7 1 <> UB.
Proof. vm_compute. repeat split; discriminate. Qed.

(** * C289: the descriptor of the events *)

Theorem C289_readable_partial es f : no_open es -> fruns (fstep fd_init FOpen) es = f ->
  (0 < f_wait f -> fd_readable f = true) /\ (f_wait f = 0 -> f_in f = 0 -> f_out f = 0 -> fd_readable f = false).
Proof. exact (fd_tells es f). Qed.
Print Assumptions C289_readable_partial.
Theorem C289_time us : 0 < us ->
  (fst (ev_tv us) * 1000000 + snd (ev_tv us) = us /\ 0 <= fst (ev_tv us) /\ 0 <= snd (ev_tv us) < 1000000) /\
  forall r rs, wait_events us (r :: rs) = Some r.
Proof. intros P. split; [exact (ev_tv_pos us P) | intros r rs; exact (wait_some us r rs P)]. Qed.
Print Assumptions C289_time.
Theorem C289_ever rs : wait_events 0 rs = if existsb (fun b => b) rs then Some true else None.
Proof. exact (wait_ever rs). Qed.
Print Assumptions C289_ever.
(** A wait never asks select for no time at all: it does not spin. *)
Theorem C289_pause : forall us, 0 <= us -> 0 < fst (ev_tv us) * 1000000 + snd (ev_tv us).
Proof. exact pause_some. Qed.
Print Assumptions C289_pause.
Example C289_pause_ex : ev_tv 0 = (0, 500000) /\ ev_tv 2500000 = (2, 500000).
Proof. vm_compute. auto. Qed.
Theorem C289_negative us r rs : us < 0 -> wait_events us (r :: rs) = Some false.
Proof. exact (wait_bad us r rs). Qed.
Print Assumptions C289_negative.
Example C289_ex :
  let f := fruns (fstep fd_init FOpen) [FAsk; FAsk; FGet; FLeave; FAsk; FRead; FGet] in
  f = mkfdw (Some 2) 1 1 0 /\ fd_readable f = true /\ ev_tv 2500000 = (2, 500000) /\
  wait_events 0 [false; false; true] = Some true.
Proof. repeat split; reflexivity. Qed.
(** The descriptor made while a handler waits: another handler waits unseen. *)
Theorem C289_late_refuted : exists es, 0 < f_wait (fruns fd_init es) /\ f_pipe (fruns fd_init es) <> None /\
  fd_readable (fruns fd_init es) = false.
Proof. exists [FAsk; FOpen; FAsk; FGet; FLeave; FRead]. cbn. repeat split; (lia || discriminate). Qed.
Print Assumptions C289_late_refuted.
(** Without the descriptor, the standard input is watched: it ends the wait with no handler there, and a
    handler does not end it. *)
Theorem C289_input_refuted : exists f g,
  (f_wait f = 0 /\ wait_events 0 [looked_at f true] = Some true) /\
  (0 < f_wait g /\ forall n, wait_events 0 (repeat (looked_at g false) n) = None).
Proof.
  exists fd_init, (fruns fd_init [FAsk]). repeat split.
  intros n. rewrite wait_ever. induction n as [|n IH]; [reflexivity | exact IH].
Qed.
Print Assumptions C289_input_refuted.

(** * C290: the answers of the handlers *)

Theorem C290_top cs st bs st' : Forall (fun c => fst c <> BEvent) cs -> bridges st cs = Ok (bs, st') ->
  bs = map (fun c => match fst c with BTop => said (snd c) | _ => false end) cs.
Proof. exact (bridges_top cs st bs st'). Qed.
Print Assumptions C290_top.
Theorem C290_room_partial cs : zlen cs <= 17 -> exists bs st, bridges [] cs = Ok (bs, st).
Proof. intros L. exact (bridges_room cs [] L). Qed.
Print Assumptions C290_room_partial.
Theorem C290_void cs : Forall (fun c => fst c = BVoid /\ exists v, snd c = HRet v) cs ->
  exists bs, bridges [] cs = Ok (bs, []).
Proof. exact (bridges_void cs). Qed.
Print Assumptions C290_void.
Theorem C290_first_partial r : exists st, bridge BEvent [] r = Ok (said r, st).
Proof. destruct r as [[]|]; eexists; reflexivity. Qed.
Print Assumptions C290_first_partial.
Example C290_ex : bridges [] [(BTop, HRet (LBool true)); (BVoid, HRet LNil); (BTop, HErr (asc "x")); (BTop, HRet (LBool false))] =
  Ok ([true; false; false; false], [LBool true; LStr (asc "x"); LBool false]).
Proof. reflexivity. Qed.
(** The second answer of an event is that of the first call: it is never removed. *)
Theorem C290_event_refuted : exists r1 r2 bs st,
  bridges [] [(BEvent, r1); (BEvent, r2)] = Ok (bs, st) /\ bs <> [said r1; said r2].
Proof. exists (HRet (LBool false)), (HRet (LBool true)). eexists _, _. split; [reflexivity | discriminate]. Qed.
Print Assumptions C290_event_refuted.
(** The stack is never emptied, and runs out of places. *)
Theorem C290_room_refuted : exists cs, Forall (fun c => c = (BTop, HRet (LBool true))) cs /\ bridges [] cs = UB.
Proof. exists (repeat (BTop, HRet (LBool true)) 18). split; [repeat constructor | reflexivity]. Qed.
Print Assumptions C290_room_refuted.

(** * C291: the states of the threads *)

Theorem C291_same tbl tid tids :
  fst (thread_state (states (snd (thread_state tbl tid)) tids) tid) = fst (thread_state tbl tid).
Proof. exact (state_same tbl tid tids). Qed.
Print Assumptions C291_same.
Theorem C291_apart_partial tids a b : u32 a <> u32 b ->
  let tbl := states [] tids in
  fst (thread_state tbl a) <> fst (thread_state (snd (thread_state tbl a)) b).
Proof. exact (state_apart tids a b). Qed.
Print Assumptions C291_apart_partial.
Example C291_ex : states [] [140001; 140002; 140001; 140003] = [(140001, 0%nat); (140002, 1%nat); (140003, 2%nat)].
Proof. reflexivity. Qed.
(** Two threads whose identifiers differ above 32 bits share a state. *)
Theorem C291_refuted : exists a b, a <> b /\
  fst (thread_state [] a) = fst (thread_state (snd (thread_state [] a)) b).
Proof. exists 140001, (140001 + two32). split; [discriminate | reflexivity]. Qed.
Print Assumptions C291_refuted.

(** * C292: content *)

Theorem C292_whole_partial s : ~ In NULc s -> lua_content s (-1) = Ok s.
Proof. exact (content_whole s). Qed.
Print Assumptions C292_whole_partial.
Theorem C292_part s n : 0 <= n <= zlen s -> lua_content s n = Ok (firstn (Z.to_nat n) s).
Proof. exact (content_part s n). Qed.
Print Assumptions C292_part.
Example C292_ex : lua_content (asc "This is a test") 7 = Ok (asc "This is") /\ lua_content (asc "abc") (-1) = Ok (asc "abc").
Proof. split; reflexivity. Qed.
(** A string with a NUL is cut; a size beyond the string reads what is not its. *)
Theorem C292_cut_refuted : exists s, lua_content s (-1) <> Ok s.
Proof. exists [97; 0; 98]. discriminate. Qed.
Print Assumptions C292_cut_refuted.
Theorem C292_beyond_refuted : exists s n, lua_content s n = UB.
Proof. exists (asc "abc"), 100. reflexivity. Qed.
Print Assumptions C292_beyond_refuted.

(** * C293: references to a connection *)

Theorem C293_safe_partial es : no_tls es -> exists c, cruns lc_new es = Ok c /\ (some_alive c -> 0 < c_rc c).
Proof. exact (conn_safe es). Qed.
Print Assumptions C293_safe_partial.
Theorem C293_freed_partial es c : no_tls es -> no_close es -> cruns lc_new es = Ok c ->
  all_gone c -> c_reader c = false -> c_rc c = 0.
Proof. exact (conn_freed es c). Qed.
Print Assumptions C293_freed_partial.
Example C293_ex : cruns lc_new [CRef; CRef; CGc 1; CGc 0; CReader; CGc 2] = Ok (mklc 0 false true false [None; None; None]).
Proof. reflexivity. Qed.
(** TLS that fails leaves two objects that count as one: the second uses what was released. *)
Theorem C293_tls_refuted : exists es, no_close es /\ cruns lc_new es = UB.
Proof.
  exists [CTls 0; CGc 0; CReader; CGc 1]. split; [|reflexivity].
  intros i b H. cbn in H. intuition discriminate.
Qed.
Print Assumptions C293_tls_refuted.
(** The object that TLS gives is an owner: collected, it closes the connection of the first. *)
Theorem C293_tls_closes c i c1 c2 : nth i (c_objs c) None <> None -> c_ok c = true -> cstep c (CTls i) = Ok c1 ->
  cstep c1 (CGc (List.length (c_objs c))) = Ok c2 -> c_ok c1 = true /\ c_ok c2 = false /\ c_called c2 = true.
Proof. exact (tls_closes c i c1 c2). Qed.
Print Assumptions C293_tls_closes.
Example C293_tls_ex : exists c, cruns lc_new [CTls 0; CGc 1] = Ok c /\ nth 0 (c_objs c) None = Some false /\ c_ok c = false.
Proof. eexists. split; [reflexivity|]. split; reflexivity. Qed.
(** Closed by a handler, the connection is never released. *)
Theorem C293_leak_refuted : exists es c, no_tls es /\ cruns lc_new es = Ok c /\ all_gone c /\ c_reader c = false /\ 0 < c_rc c.
Proof.
  exists [CRef; CClose 1 true; CReader; CGc 0]. eexists. split; [intros i H; cbn in H; intuition discriminate|].
  split; [reflexivity|]. repeat split.
  intros [|[|[|i]]]; reflexivity.
Qed.
Print Assumptions C293_leak_refuted.

(** * C294: SASL *)

Theorem C294_known m p : In m mechs -> casecmp (asc m) p = true -> sasl_name p = Some (mech m).
Proof. exact (sasl_known m p). Qed.
Print Assumptions C294_known.
Theorem C294_full p : firstn 25 p = FAMILY -> sasl_name p = Some p.
Proof. exact (sasl_full p). Qed.
Print Assumptions C294_full.
Theorem C294_accept tostr ex r : auth_answer tostr ex r = AAccept <-> ex = false /\ r = HRet (LBool true).
Proof. exact (auth_accept tostr ex r). Qed.
Print Assumptions C294_accept.
Example C294_ex : sasl_name (asc "Digest-md5") = Some (asc "http://iana.org/beep/SASL/DIGEST-MD5") /\
  sasl_name (mech "OTP") = Some (mech "OTP").
Proof. split; reflexivity. Qed.
(** A name that is not known is taken for KERBEROS_V4. *)
Theorem C294_unknown_refuted : exists p, sasl_name p = Some (mech "KERBEROS_V4") /\ casecmp (asc "KERBEROS_V4") p = false.
Proof. exists (asc "plian"). split; reflexivity. Qed.
Print Assumptions C294_unknown_refuted.
