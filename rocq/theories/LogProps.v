(** The log, the errors recorded and the configuration. *)
From Coq Require Import String.
From Verif Require Import Base GreetModel MsgModel CodecModel LogModel LogSpec LogProofs.
Open Scope list_scope.

Definition vnone : lenv := mkV 0 0 None.
Definition i1 : cinfo := mkI 5 7 0 (Some (asc "10.0.0.1")) None.

(** * C250 *)
Theorem C250_recorded_partial : forall v held i status fmt args text g, vprintf fmt args = Ok text ->
  (fst (is_enabled v g) = false \/
   (plain text /\ (forall t, i_host i = Some t -> plain t) /\ (forall t, i_server i = Some t -> plain t))) ->
  exists r, record_error v held i false status fmt args g = Ok (r, Some (full_text (cstr text) i status)).
Proof. exact recorded. Qed.
Print Assumptions C250_recorded_partial.
Theorem C250_peer_partial : forall v i t g,
  (fst (is_enabled v g) = false \/ (plain t /\ (forall x, i_host i = Some x -> plain x) /\ (forall x, i_server i = Some x -> plain x))) ->
  (exists r, trailer_error v i t g = Ok (r, Some (full_text
     (asc "poorly formed frame: frame trailer CR LF not found, discarding content: '" ++ cstr t ++ asc "'") i 14))) /\
  (exists r, greeting_error v i t g = Ok (r, Some (full_text
     (asc "frame error, expected RPY frame type on greetings process. Frame content: '" ++ cstr t ++ asc "'") i 14))).
Proof. exact peer_text. Qed.
Print Assumptions C250_peer_partial.
Example C250_ex : exists r, trailer_error vnone i1 (asc "%nEND__") g0 = Ok (r, Some (asc
  "poorly formed frame: frame trailer CR LF not found, discarding content: '%nEND__' (socket=5, conn-id=7, errno=0, remote-ip=10.0.0.1, serverName=(null), status=14)")) /\
  exists r2, greeting_error vnone i1 (asc "hello") (enable true g0) = Ok (r2, Some (asc
  "frame error, expected RPY frame type on greetings process. Frame content: 'hello' (socket=5, conn-id=7, errno=0, remote-ip=10.0.0.1, serverName=(null), status=14)")).
Proof. eexists. split; [vm_compute; reflexivity|]. eexists. vm_compute. reflexivity. Qed.
(** A frame of the peer: with its bytes the reader finds no trailer, and the text recorded is a format. *)
Definition win1 (n : Z) : option chwin := if n =? 1 then Some (0, 4096) else None.
Theorem C250_trailer_refuted : exists wire body c', wire = asc "MSG 1 0 . 0 2" ++ [13; 10] ++ body /\
  get_next win1 rconn0 [SData wire] = Ok (c', [], None) /\ r_down c' = Some WTrailer /\
  (exists r, trailer_error vnone i1 body g0 = Ok r) /\ trailer_error vnone i1 body (enable true g0) = UB.
Proof.
  eexists _, (asc "%nabcde"), _. split; [reflexivity|]. split; [vm_compute; reflexivity|]. split; [reflexivity|].
  split; [eexists|]; vm_compute; reflexivity.
Qed.
Print Assumptions C250_trailer_refuted.
Theorem C250_greeting_refuted : exists payload,
  (exists r, greeting_error vnone i1 payload g0 = Ok r) /\ greeting_error vnone i1 payload (enable true g0) = UB.
Proof. exists (asc "%s"). split; [eexists|]; vm_compute; reflexivity. Qed.
Print Assumptions C250_greeting_refuted.
(** The name asked by the peer is enough, with any error. *)
Theorem C250_name_refuted : exists i fmt, i_server i = Some (asc "%s.org") /\ vprintf fmt [] = Ok fmt /\
  record_error vnone false i false 14 fmt [] (enable true g0) = UB.
Proof. exists (mkI 5 7 0 None (Some (asc "%s.org"))), (asc "poorly formed frame"). repeat apply conj; vm_compute; reflexivity. Qed.
Print Assumptions C250_name_refuted.

(** * C251 *)
Theorem C251_filter_partial : forall v level g t, on g -> g_filter g = 0 -> a_level level ->
  (~ occurs (word level) t -> comes_out v level (filter_level (Some t) g)) /\
  (occurs (word level) t -> kept_in v level (filter_level (Some t) g)).
Proof. exact filter_first. Qed.
Print Assumptions C251_filter_partial.
Theorem C251_none_partial : forall v level g, on g -> comes_out v level (filter_level None g).
Proof. exact filter_none. Qed.
Print Assumptions C251_none_partial.
Theorem C251_off : forall v held level msg args g, log_common v held level msg args (enable false g) = Ok (LDone (enable false g) []).
Proof. exact log_disabled. Qed.
Print Assumptions C251_off.
(** Filters add up. *)
Theorem C251_adds_partial : forall v level g t1 t2, on g -> a_level level -> occurs (word level) t1 ->
  kept_in v level (filter_level (Some t2) (filter_level (Some t1) g)).
Proof. exact filter_adds. Qed.
Print Assumptions C251_adds_partial.
Example C251_ex : on (enable true g0) /\ g_filter (enable true g0) = 0 /\ a_level 1 /\ occurs (word 1) (asc "debug,warning") /\
  log_common vnone false 4 (asc "x") [] (filter_level (Some (asc "debug,warning")) (enable true g0)) =
  Ok (LDone (mkG true true false true 3 true true false None None false) [OConsole false 4 (asc "x")]).
Proof.
  split; [split; reflexivity|]. split; [reflexivity|]. split; [left; reflexivity|]. split; [exists [], (asc ",warning"); reflexivity|]. vm_compute. reflexivity.
Qed.
Theorem C251_last_refuted : exists v level g t1 t2, on g /\ ~ occurs (word level) t2 /\ a_level level /\
  kept_in v level (filter_level (Some t2) (filter_level None (filter_level (Some t1) g))).
Proof.
  exists vnone, 4, (enable true g0), (asc "critical"), (asc "debug"). split; [split; reflexivity|].
  split; [apply contains_not; reflexivity|]. split; [right; right; reflexivity|]. intros msg args. eexists. reflexivity.
Qed.
Print Assumptions C251_last_refuted.

(** * C252 *)
Theorem C252_one_partial : forall v level msg args t g h,
  (on g /\ g_filter_checked g = true /\ g_filter_on g && (Z.land (g_filter g) level =? level) = false) ->
  g_prepare g = false -> vprintf msg args = Ok t ->
  (g_h1 g = Some h /\ g_h2 g = None \/ g_h1 g = None /\ g_h2 g = Some h) ->
  log_common v false level msg args g =
    Ok (LDone g [OHandler (match g_h1 g with Some _ => false | None => true end) level (match h with HExpand => t | HPlain => msg end)]).
Proof. exact one_handler. Qed.
Print Assumptions C252_one_partial.
Theorem C252_prepared_partial : forall v level msg args t g,
  (on g /\ g_filter_checked g = true /\ g_filter_on g && (Z.land (g_filter g) level =? level) = false) ->
  g_prepare g = true -> vprintf msg args = Ok t ->
  (g_h1 g <> None \/ g_h2 g <> None) -> (forall h, g_h1 g = Some h -> h = HPlain \/ plain t) -> (forall h, g_h2 g = Some h -> h = HPlain \/ plain t) ->
  log_common v false level msg args g = Ok (LDone g
    ((match g_h1 g with Some _ => [OHandler false level t] | None => [] end) ++ (match g_h2 g with Some _ => [OHandler true level t] | None => [] end))).
Proof. exact prepared. Qed.
Print Assumptions C252_prepared_partial.
Definition gset (h1 h2 : option handler) (p : bool) : lctx :=
  set_prepare p (set_handler_full h2 (set_handler h1 (filter_level None (enable true g0)))).
Example C252_ex :
  log_common vnone false 1 (asc "id=%d") [AInt 7] (gset (Some HExpand) None false) = Ok (LDone (gset (Some HExpand) None false) [OHandler false 1 (asc "id=7")]) /\
  log_common vnone false 1 (asc "id=%d") [AInt 7] (gset (Some HPlain) (Some HExpand) true) =
    Ok (LDone (gset (Some HPlain) (Some HExpand) true) [OHandler false 1 (asc "id=7"); OHandler true 1 (asc "id=7")]).
Proof. split; vm_compute; reflexivity. Qed.
Theorem C252_escaped : forall t, vprintf (flat_map (fun c => if c =? 37 then [37; 37] else [c]) t) [] = Ok t.
Proof. exact escaped_text. Qed.
Print Assumptions C252_escaped.
Example C252_escaped_ex : vprintf (asc "100%% of %s") [AStr (Some (asc "it"))] = Ok (asc "100% of it").
Proof. vm_compute. reflexivity. Qed.
Theorem C252_both_refuted : exists msg args t, vprintf msg args = Ok t /\
  log_common vnone false 1 msg args (gset (Some HExpand) None false) = Ok (LDone (gset (Some HExpand) None false) [OHandler false 1 t]) /\
  log_common vnone false 1 msg args (gset None (Some HExpand) false) = Ok (LDone (gset None (Some HExpand) false) [OHandler true 1 t]) /\
  log_common vnone false 1 msg args (gset (Some HExpand) (Some HExpand) false) = UB.
Proof. exists (asc "id=%d"), [AInt 7], (asc "id=7"). repeat apply conj; vm_compute; reflexivity. Qed.
Print Assumptions C252_both_refuted.
Theorem C252_prepared_refuted : exists msg args t, vprintf msg args = Ok t /\
  log_common vnone false 1 msg args (gset (Some HExpand) None true) = UB.
Proof. exists (asc "got %s"), [AStr (Some (asc "100%s"))], (asc "got 100%s"). split; vm_compute; reflexivity. Qed.
Print Assumptions C252_prepared_refuted.

(** * C253 *)
Theorem C253_enable : forall v b g, fst (is_enabled v (enable b g)) = b.
Proof. exact enable_is. Qed.
Print Assumptions C253_enable.
Theorem C253_env : forall v, fst (is_enabled v g0) = true <-> 0 < n_debug v.
Proof. exact env_is. Qed.
Print Assumptions C253_env.
Theorem C253_color_partial : forall v b g, b = true \/ n_color v <= 0 -> fst (color_is_enabled v (color_enable b g)) = b.
Proof. exact color_is. Qed.
Print Assumptions C253_color_partial.
Example C253_ex : fst (is_enabled (mkV 1 1 None) (enable false g0)) = false /\ fst (is_enabled (mkV 1 1 None) g0) = true /\
  fst (color_is_enabled (mkV 1 0 None) (color_enable false (color_enable true g0))) = false.
Proof. repeat apply conj; vm_compute; reflexivity. Qed.
Theorem C253_color_refuted : exists v, fst (color_is_enabled v (color_enable false g0)) = true.
Proof. exists (mkV 1 1 None). reflexivity. Qed.
Print Assumptions C253_color_refuted.
Theorem C253_mutex_refuted : exists g, g_mutex g = false /\ g_mutex (acquire_mutex false g) = true.
Proof. exists g0. split; reflexivity. Qed.
Print Assumptions C253_mutex_refuted.

(** * C254 *)
Theorem C254_kept_partial : forall it value c c', it <> SoftLimit -> it <> HardLimit -> value <> 0 -> conf_set it value c = (true, c') ->
  conf_get it c' = value /\ (forall it2, it2 <> it -> conf_get it2 c' = conf_get it2 c).
Proof. exact conf_kept. Qed.
Print Assumptions C254_kept_partial.
Theorem C254_soft : forall value c c', an_int value -> conf_set SoftLimit value c = (true, c') -> conf_get SoftLimit c' = value /\ f_hard c' = f_hard c.
Proof. exact conf_soft. Qed.
Print Assumptions C254_soft.
Theorem C254_hard_partial : forall value c c', an_int value -> 0 < value -> f_soft c <= value -> conf_set HardLimit value c = (true, c') ->
  conf_get HardLimit c' = value /\ f_soft c' = f_soft c.
Proof. exact conf_hard. Qed.
Print Assumptions C254_hard_partial.
Theorem C254_told_partial : forall it value c c', value <> 0 -> conf_set it value c = (false, c') -> c' = c /\ (it = SoftLimit \/ it = HardLimit).
Proof. exact conf_told. Qed.
Print Assumptions C254_told_partial.
(** Only root raises the hard limit, and the soft one stays below. *)
Theorem C254_raised : forall it value c c', f_root c = false -> f_soft c <= f_hard c -> conf_set it value c = (true, c') -> f_hard c' <= f_hard c /\ f_soft c' <= f_hard c'.
Proof. exact conf_raised. Qed.
Print Assumptions C254_raised.
Definition cf : lconf := mkF 1024 4096 false 5 0 1 0.
Example C254_ex : conf_set Backlog 64 cf = (true, mkF 1024 4096 false 64 0 1 0) /\ conf_set SoftLimit 2048 cf = (true, mkF 2048 4096 false 5 0 1 0) /\
  conf_set SoftLimit 8192 cf = (false, cf) /\ conf_set HardLimit 2048 cf = (true, mkF 1024 2048 false 5 0 1 0) /\
  conf_set SoftLimit (-1) cf = (false, cf) /\ conf_set HardLimit 8192 cf = (false, cf) /\ conf_set SkipWait 1 cf = (true, mkF 1024 4096 false 5 0 1 1) /\ conf_set AutoMime 2 cf = (true, mkF 1024 4096 false 5 0 2 0).
Proof. repeat apply conj; vm_compute; reflexivity. Qed.
(** What was turned on is not turned off. *)
Theorem C254_zero_refuted : exists it c c', conf_set it 1 c = (true, c') /\ conf_get it c' = 1 /\ conf_set it 0 c' = (false, c').
Proof. exists Enforce, cf, (mkF 1024 4096 false 5 1 1 0). repeat apply conj; vm_compute; reflexivity. Qed.
Print Assumptions C254_zero_refuted.
Theorem C254_hard_refuted : exists value c c', 0 < value /\ conf_set HardLimit value c = (true, c') /\ conf_get HardLimit c' <> value.
Proof. exists 512, cf, (mkF 1024 1024 false 5 0 1 0). split; [reflexivity|]. split; [vm_compute; reflexivity|discriminate]. Qed.
Print Assumptions C254_hard_refuted.
(** No limit is told as -1, and one of 2^32 as 0. *)
Theorem C254_wide_refuted : exists c, f_hard c = 4294967296 /\ conf_get HardLimit c = 0.
Proof. exists (mkF 1024 4294967296 false 5 0 1 0). split; vm_compute; reflexivity. Qed.
Print Assumptions C254_wide_refuted.

(** * C255 *)
Theorem C255_ends_partial : forall v held level msg args g r, g_mutex g = false \/ held = false -> log_common v held level msg args g = Ok r ->
  exists g' o, r = LDone g' o.
Proof. exact no_block. Qed.
Print Assumptions C255_ends_partial.
Example C255_ex : log_common vnone true 1 (asc "x") [] (enable true g0) =
  Ok (LDone (mkG true true false true 0 false true false None None false) [OConsole false 1 (asc "x")]) /\
  log_common vnone false 1 (asc "x") [] (acquire_mutex true (enable true g0)) =
  Ok (LDone (mkG true true false true 0 false true true None None false) [OConsole false 1 (asc "x")]).
Proof. split; vm_compute; reflexivity. Qed.
Theorem C255_handler_refuted : exists g g', on g /\ log_common vnone true 1 (asc "x") [] (acquire_mutex false g) = Ok (LBlocked g').
Proof.
  exists (set_handler (Some HPlain) (enable true g0)). eexists. split; [split; reflexivity|]. vm_compute. reflexivity.
Qed.
Print Assumptions C255_handler_refuted.
