(** A connection made again: the theorems. *)
From Coq Require Import Lia.
From Verif Require Import Base CodecModel CodecSpec CodecProofs CodecProofs2 AgainModel AgainSpec AgainProofs.

(** A greeting (the payload is "<g/>") accepted with a profile, and a connection of which the session is over. *)
Definition gtext : bytes := [60; 103; 47; 62].
Definition hello : bytes := (* "RPY 0 0 . 0 4\r\n<g/>END\r\n" *)
  [82;80;89;32;48;32;48;32;46;32;48;32;52;13;10;60;103;47;62;69;78;68;13;10].
Definition hello_f : frame := mkFrame TRPY 0 0 false 0 4 0 gtext.
Definition read_greeting (f : frame) (p : bytes) : option (list bytes) :=
  if ftype_eqb (f_type f) TRPY && bytes_eqb p gtext then Some [[112]] else None.
Definition zero (n : Z) : option chwin := if n =? 0 then Some (0, 4096) else None.
Definition over (rd : rconn) (piece : option bytes) (i : io) : link :=
  mkL 7 [([107], 5)] 3 [[111]] rd piece None i [mkC 0 false; mkC 1 true; mkC 3 false] [1; 2] 2 5 (Some m_error) 1 1.
Definition gone : rconn := mkR (Some WClosed) [] None 0.
Definition hs : env := mkEnv true 2 true.
Definition told_before : list told :=
  [TRemoved 0 0; TRemoved 0 1; TClosed 1; TGlobal 1; TRemoved 1 0; TRemoved 1 1; TGlobal 3; TRemoved 3 0; TRemoved 3 1; TCreated].
Example hello_greeted : greeted zero read_greeting [SData (firstn 9 hello); SAgain; SData (skipn 9 hello)] [[112]].
Proof.
  exists [], hello_f, [hello]. repeat apply conj; try reflexivity.
  - constructor; [|constructor]. left. split.
    + unfold data_frame. cbn. repeat split; try discriminate; lia.
    + exists (firstn 15 hello). split; [|reflexivity]. exists [48], [48], [48], [52], [48].
      unfold decimal. cbn. repeat split; try discriminate; try reflexivity; try (repeat constructor; lia); intros; discriminate.
  - repeat constructor.
  - repeat constructor. exists 0, 4096. cbn. repeat split; try lia; reflexivity.
  - constructor.
Qed.

(** C244. What is kept and what is not; a connection that works is left alone. *)
Theorem C244_connected : forall v parse chans h a l, up l = true -> reconnect v parse chans h a (Some l) = Ok (true, Some l, []).
Proof. exact again_connected. Qed.
Print Assumptions C244_connected.
Theorem C244_kept : forall v parse chans h a l b o t, up l = false ->
  reconnect v parse chans h a (Some l) = Ok (b, o, t) ->
  exists l', o = Some l' /\ l_id l' = l_id l /\ l_data l' = l_data l /\ others l' = others l /\
    l_chans l' = [chan0] /\ l_pools l' = [] /\ l_nextpool l' = 0 /\
    (l_profiles l' = l_profiles l \/ exists f p, parse f p = Some (l_profiles l')).
Proof. exact again_kept. Qed.
Print Assumptions C244_kept.
Theorem C244_channels_told : forall v parse chans h a l b o t c, up l = false -> numbered l -> In c (l_chans l) ->
  reconnect v parse chans h a (Some l) = Ok (b, o, t) ->
  times (is_closed (c_num c)) t = (if c_told c then 1 else 0) /\
  times (is_global (c_num c)) t = (if negb (c_num c =? 0) && v_global v then 1 else 0) /\
  (forall k, times (is_removed (c_num c) k) t = if Nat.ltb k (v_removed v) then 1 else 0).
Proof. exact again_channels. Qed.
Print Assumptions C244_channels_told.
Example C244_ex :
  numbered (over gone None IOClear) /\
  reconnect hs read_greeting zero false (AFail [120]) (Some (over gone None IOClear)) =
    Ok (false, Some (mkL 7 [([107], 5)] 3 [[111]] (mkR (Some WError) [] None 0) None None IOClear [chan0] [] 0 5 (Some [120]) 1 1), told_before) /\
  reconnect hs read_greeting zero false (AUp 4 true 9 [SData hello]) (Some (over gone None IOClear)) =
    Ok (true, Some (mkL 7 [([107], 5)] 4 [[112]] rconn0 None (Some 4%nat) IOClear [chan0] [] 0 5 (Some m_ready) 2 2), told_before) /\
  reconnect (mkEnv false 0 false) read_greeting zero false (AFail [120]) None = Ok (false, None, []).
Proof.
  split; [|split; [vm_compute; reflexivity|split; vm_compute; reflexivity]].
  unfold numbered. cbn. repeat constructor; cbn; intuition discriminate.
Qed.

(** C245. The new session is read from its first byte, when nothing of the one before is kept: and the
    reader keeps nothing when it is the one that finds the end. *)
Theorem C245_greeted_partial : forall v parse chans h l k n s profiles, up l = false -> clean l -> l_io l = IOClear ->
  greeted chans parse s profiles -> (weight s <= n)%nat ->
  exists l' t, reconnect v parse chans h (AUp k true n s) (Some l) = Ok (true, Some l', t) /\
    up l' = true /\ l_sock l' = Some k /\ l_profiles l' = profiles /\ l_watch l' = S (l_watch l) /\ clean l'.
Proof. exact again_greeted. Qed.
Print Assumptions C245_greeted_partial.
Theorem C245_reader_partial : forall fuel chans s c' s' fs w l, read_ready fuel chans 0 rconn0 s = Ok (c', s', fs) ->
  r_down c' = Some w -> w <> WTooManyAgain -> l_rd l = c' -> l_piece l = None -> clean l.
Proof. exact again_reader_clean. Qed.
Print Assumptions C245_reader_partial.
(** A connection without socket is flagged, and one that works keeps no piece of greetings. *)
Theorem C245_flagged : forall v parse chans h a l b l' t, up l = false ->
  reconnect v parse chans h a (Some l) = Ok (b, Some l', t) ->
  (l_sock l' = None -> r_down (l_rd l') <> None) /\ (up l' = true -> l_piece l' = None \/ exists k, a = ANoAddr k).
Proof. exact again_flagged. Qed.
Print Assumptions C245_flagged.
(** A session shut down by another thread (a write that failed) while the rest of a frame was awaited: the
    greetings of the next are taken as that rest. *)
Theorem C245_rest_refuted : exists c1 w l s, read_ready 50 (fun _ => zero) 0 rconn0 [SData (firstn 17 hello)] = Ok (c1, [], []) /\
  l = end_session w (over c1 None IOClear) /\ greeted zero read_greeting s [[112]] /\
  forall n, exists l' t, reconnect hs read_greeting zero false (AUp 4 true n s) (Some l) = Ok (false, Some l', t) /\ up l' = false.
Proof.
  do 4 eexists. split; [vm_compute; reflexivity|]. split; [reflexivity|]. split; [exact hello_greeted|].
  intros n. instantiate (1 := WError).
  destruct n as [|[|[|n]]]; eexists; eexists; (split; [cbn; reflexivity|reflexivity]).
Qed.
Print Assumptions C245_rest_refuted.
(** A piece of greetings of a session that did not finish them: it is put before the greetings of the next. *)
Theorem C245_piece_refuted : exists s1 s2 l1 t1, greeted zero read_greeting s2 [[112]] /\
  reconnect hs read_greeting zero false (AUp 4 true 20 s1) (Some (over gone None IOClear)) = Ok (false, Some l1, t1) /\
  forall n, exists l' t, reconnect hs read_greeting zero false (AUp 5 true n s2) (Some l1) = Ok (false, Some l', t).
Proof.
  (* "RPY 0 0 * 0 2\r\n<gEND\r\n" *)
  exists [SData [82;80;89;32;48;32;48;32;42;32;48;32;50;13;10;60;103;69;78;68;13;10]; SEof], [SData hello].
  do 2 eexists. split.
  { exists [], hello_f, [hello]. destruct hello_greeted as (pre & f & ws & H1 & H2 & H3 & H4 & H5 & H6 & H7 & H8).
    repeat apply conj; try reflexivity.
    - constructor; [|constructor]. left. split.
      + unfold data_frame. cbn. repeat split; try discriminate; lia.
      + exists (firstn 15 hello). split; [|reflexivity]. exists [48], [48], [48], [52], [48].
        unfold decimal. cbn. repeat split; try discriminate; try reflexivity; try (repeat constructor; lia); intros; discriminate.
    - repeat constructor.
    - repeat constructor. exists 0, 4096. cbn. repeat split; try lia; reflexivity.
    - constructor. }
  split; [vm_compute; reflexivity|].
  intros n. destruct n as [|n]; eexists; eexists; cbn; reflexivity.
Qed.
Print Assumptions C245_piece_refuted.
Example C245_ex :
  clean (over gone None IOClear) /\
  (exists l' t, reconnect hs read_greeting zero true (AUp 4 true 40 [SData (firstn 9 hello); SAgain; SData (skipn 9 hello)]) (Some (over gone None IOClear))
     = Ok (true, Some l', t) /\ up l' = true /\ t = told_before ++ [TConnected true]) /\
  read_ready 50 (fun _ => zero) 0 rconn0 [SData (firstn 17 hello); SEof] = Ok (mkR (Some WClosedPartial) [] None 0, [SEof], []) /\
  read_ready 50 (fun _ => zero) 0 rconn0 [SData (firstn 7 hello); SAgain; SEof] = Ok (mkR (Some WClosed) [] None 0, [SEof], []) /\
  read_ready 50 (fun _ => zero) 0 rconn0 [SData (firstn 17 hello)] =
    Ok (mkR None [] (Some (mkFrame TRPY 0 0 false 0 4 0 [], [60; 103])) 0, [], []).
Proof.
  split; [repeat split|]. split; [eexists; eexists; split; [vm_compute; reflexivity|split; reflexivity]|].
  split; [vm_compute; reflexivity|]. split; vm_compute; reflexivity.
Qed.

(** C246. A session in the clear is made again in the clear; one with TLS is not made again, ever. *)
Theorem C246_tls_refuted : exists l, up l = false /\ clean l /\
  (exists s, greeted zero read_greeting s [[112]]) /\
  forall v parse chans h k sent n s b o t, reconnect v parse chans h (AUp k sent n s) (Some l) = Ok (b, o, t) ->
    exists l', o = Some l' /\ up l' = false /\ l_io l' = l_io l.
Proof.
  exists (over gone None (IOTls 3)). split; [reflexivity|]. split; [repeat split|]. split; [eexists; exact hello_greeted|].
  intros v parse chans h k sent n s b o t H.
  apply (again_tls v parse chans h (over gone None (IOTls 3)) k 3 sent n s b o t eq_refl); [repeat split|reflexivity|exact H].
Qed.
Print Assumptions C246_tls_refuted.
Theorem C246_clear_partial : forall v parse chans h l k n s profiles, up l = false -> clean l -> l_io l = IOClear ->
  greeted chans parse s profiles -> (weight s <= n)%nat ->
  exists l' t, reconnect v parse chans h (AUp k true n s) (Some l) = Ok (true, Some l', t) /\ up l' = true /\ l_io l' = IOClear.
Proof. exact again_clear. Qed.
Print Assumptions C246_clear_partial.
Example C246_ex : exists l' t, reconnect hs read_greeting zero false (AUp 4 true 40 [SData hello]) (Some (over gone None (IOTls 3)))
  = Ok (false, Some l', t) /\ l_sock l' = None /\ r_down (l_rd l') = Some WClosed.
Proof. eexists; eexists. split; [vm_compute; reflexivity|]. split; reflexivity. Qed.

(** C247. The references of the reader are balanced along any life of the connection, and it is forgotten when over. *)
Theorem C247_references : forall v parse chans es l l' t, life v parse chans l es = Ok (l', t) ->
  l_refs l' - Z.of_nat (l_watch l') = l_refs l - Z.of_nat (l_watch l) + taken es /\ l_id l' = l_id l /\ l_data l' = l_data l.
Proof. exact life_refs. Qed.
Print Assumptions C247_references.
Theorem C247_forgotten : forall v parse chans n l, up l = false -> n = l_watch l ->
  exists l', life v parse chans l (repeat EVisit n) = Ok (l', []) /\ l_watch l' = O /\ l_refs l' = others l.
Proof. exact visits_forget. Qed.
Print Assumptions C247_forgotten.
(** Made again before the reader notices the end, the connection is watched twice. *)
Theorem C247_once_refuted : exists l es l' t, l_watch l = 1%nat /\ up l = true /\
  life hs read_greeting zero l es = Ok (l', t) /\ up l' = true /\ l_watch l' = 2%nat.
Proof.
  exists (mkL 7 [] 2 [] rconn0 None (Some 3%nat) IOClear [chan0] [] 0 1 None 1 1),
    [EEnd WError; EAgain false (AUp 4 true 40 [SData hello]); EVisit].
  do 2 eexists. split; [reflexivity|]. split; [reflexivity|]. split; [vm_compute; reflexivity|]. split; reflexivity.
Qed.
Print Assumptions C247_once_refuted.
Example C247_ex :
  let l := mkL 7 [] 2 [] rconn0 None (Some 3%nat) IOClear [chan0] [] 0 1 None 1 1 in
  (exists l' t, life hs read_greeting zero l [EEnd WError; EVisit; ERef; EAgain true (AUp 4 true 40 [SData hello]); EVisit; EUnref] = Ok (l', t) /\
     l_watch l' = 1%nat /\ l_refs l' = 2 /\ up l' = true) /\
  (exists l' t, life hs read_greeting zero l [EEnd WError; EAgain true (AUp 4 true 40 [SData hello]); EEnd WClosed; EVisit; EVisit; EVisit] = Ok (l', t) /\
     l_watch l' = 0%nat /\ l_refs l' = 1 /\ up l' = false).
Proof. cbn zeta. split; (eexists; eexists; split; [vm_compute; reflexivity|repeat split]). Qed.

(** C248. The value tells if the connection works again, and the handler is called once, with a connection
    that says the same. *)
Theorem C248_value_partial : forall v parse chans h a l b l' t, up l = false -> (forall k, a <> ANoAddr k) ->
  reconnect v parse chans h a (Some l) = Ok (b, Some l', t) ->
  b = (if h then true else up l') /\
  times is_connected t = (if h then 1 else 0) /\ (forall ok, In (TConnected ok) t -> ok = up l') /\
  (up l' = true -> l_watch l' = S (l_watch l)).
Proof. exact again_value. Qed.
Print Assumptions C248_value_partial.
(** The local address is not known: the value is false and the connection says it works, without greetings
    and with nobody reading it; and a handler is not called. *)
Theorem C248_value_refuted : exists a l l' t, up l = false /\ l_watch l = O /\
  reconnect hs read_greeting zero false a (Some l) = Ok (false, Some l', t) /\ up l' = true /\ l_watch l' = O /\
  reconnect hs read_greeting zero true a (Some l) = Ok (true, Some l', t) /\ times is_connected t = 0.
Proof.
  exists (ANoAddr 4), (visit (over gone None IOClear)). do 2 eexists. split; [reflexivity|]. split; [reflexivity|].
  split; [vm_compute; reflexivity|]. split; [reflexivity|]. split; [reflexivity|]. split; vm_compute; reflexivity.
Qed.
Print Assumptions C248_value_refuted.
Example C248_ex :
  (exists l', reconnect hs read_greeting zero true (AFail [120]) (Some (over gone None IOClear)) = Ok (true, Some l', told_before ++ [TConnected false]) /\ up l' = false) /\
  (exists l', reconnect hs read_greeting zero true (AUp 4 false 9 [SData hello]) (Some (over gone None IOClear)) = Ok (true, Some l', told_before ++ [TConnected false]) /\ up l' = false) /\
  (exists l', reconnect hs (fun _ _ => None) zero false (AUp 4 true 9 [SData hello]) (Some (over gone None IOClear)) = Ok (false, Some l', told_before) /\ up l' = false /\ l_watch l' = 1%nat) /\
  (exists l', reconnect hs read_greeting zero false (AUp 4 true 9 [SAgain]) (Some (over gone None IOClear)) = Ok (false, Some l', told_before) /\ up l' = false /\ l_profiles l' = [[111]]).
Proof. repeat split; eexists; (split; [vm_compute; reflexivity|]); repeat split. Qed.

(** C249. The local address of a session is released when the next is made: it is not. *)
Theorem C249_kept_partial : forall v parse chans h a l b o t, up l = false -> reconnect v parse chans h a (Some l) = Ok (b, o, t) ->
  exists l', o = Some l' /\ l_addrs l' = match a with AUp _ _ _ _ => S (l_addrs l) | _ => l_addrs l end.
Proof. exact again_addrs. Qed.
Print Assumptions C249_kept_partial.
Theorem C249_leak_refuted : exists l, forall n, exists es l' t, life hs (fun _ _ => None) zero l es = Ok (l', t) /\ (n <= l_addrs l')%nat.
Proof.
  exists (over gone None IOClear). intros n. destruct (leaks hs zero n (over gone None IOClear) eq_refl) as (es & l' & t & R & _ & A).
  exists es, l', t. split; [exact R|]. rewrite A. apply Nat.le_add_r.
Qed.
Print Assumptions C249_leak_refuted.
