(** Theorems about the transports that hold data back (C256-C259). *)
From Coq Require Import Lia.
From Coq Require Import String.
From Verif Require Import Base GreetModel CodecModel CodecSpec PendModel PendSpec PendProofs.
Open Scope list_scope.

Definition win0 (n : Z) : option chwin := if n =? 0 then Some (0, 4096) else None.
Definition crlf : bytes := [13; 10].
Definition gw : bytes := asc "RPY 0 0 . 0 3" ++ crlf ++ asc "abcEND" ++ crlf.
Definition gf : frame := mkFrame TRPY 0 0 false 0 3 0 (asc "abc").
Definition mw : bytes := asc "MSG 0 1 . 3 2" ++ crlf ++ asc "hiEND" ++ crlf.
Definition mf : frame := mkFrame TMSG 0 1 false 3 2 0 (asc "hi").
Definition wins (i : nat) : Z -> option chwin := win0.
Lemma digit d : 48 <= d <= 57 -> decimal (d - 48) [d].
Proof. intros H. split; [discriminate|]. split; [repeat constructor; lia|]. split; [cbn; lia|]. cbn. intros ->. reflexivity. Qed.
Lemma gw_wire : wire gf gw.
Proof.
  left. split; [unfold data_frame; cbn; repeat split; try lia; discriminate|].
  exists (asc "RPY 0 0 . 0 3" ++ crlf). split; [|reflexivity]. exists [48], [48], [48], [51], [48].
  split; [apply (digit 48); lia|]. split; [apply (digit 48); lia|]. split; [apply (digit 48); lia|]. split; [apply (digit 51); lia|]. split; [apply (digit 48); lia|reflexivity].
Qed.
Lemma mw_wire : wire mf mw.
Proof.
  left. split; [unfold data_frame; cbn; repeat split; try lia; discriminate|].
  exists (asc "MSG 0 1 . 3 2" ++ crlf). split; [|reflexivity]. exists [48], [49], [51], [50], [48].
  split; [apply (digit 48); lia|]. split; [apply (digit 49); lia|]. split; [apply (digit 51); lia|]. split; [apply (digit 50); lia|]. split; [apply (digit 48); lia|reflexivity].
Qed.
Lemma gf_in : receivable win0 gf.
Proof. exists 0, 4096. split; [reflexivity|]. split; [lia|]. split; [lia|]. intros _. vm_compute. discriminate. Qed.
Lemma mf_in : receivable win0 mf.
Proof. exists 0, 4096. split; [reflexivity|]. split; [lia|]. split; [lia|]. intros _. vm_compute. discriminate. Qed.

(** * C256 *)
Theorem C256_drained : forall fuel k chans stop p p' fs, p_unw p = false -> pending fuel k chans stop p = Ok (Some (p', fs)) ->
  is_down (p_c p') \/ p_unw p' = true \/ t_held (p_t p') = [].
Proof. exact drained. Qed.
Print Assumptions C256_drained.
Theorem C256_ends : forall fuel k chans stop p, is_down (p_c p) \/ sound (p_c p) -> (weight (view (p_t p)) + 3 <= fuel)%nat ->
  pending fuel k chans stop p <> Ok None.
Proof. exact pending_ends. Qed.
Print Assumptions C256_ends.
(** Two frames in a record: the socket tells nothing of the second one, and it is read. *)
Example C256_ex : pending 60 TLS wins never (mkP rconn0 (mkTr [] [TRec (gw ++ mw)]) 0 false 0) = Ok (Some (mkP rconn0 (mkTr [] []) 0 false 2, [gf; mf])) /\
  pending 60 WS wins never (mkP rconn0 (mkTr [] [TRec (gw ++ firstn 5 mw); TRec (skipn 5 mw)]) 0 false 0) =
    Ok (Some (mkP rconn0 (mkTr [] []) 0 false 2, [gf; mf])) /\
  (exists p, pending 60 TLS wins (fun i => Nat.eqb i 0) (mkP rconn0 (mkTr [] [TRec (gw ++ mw)]) 0 false 0) = Ok (Some (p, [gf])) /\ p_unw p = true /\ t_held (p_t p) = mw).
Proof. split; [vm_compute; reflexivity|]. split; [vm_compute; reflexivity|]. eexists. split; [vm_compute; reflexivity|]. split; reflexivity. Qed.

(** * C257 *)
Theorem C257_stream_partial : forall k fs ws chans batches,
  Forall2 wire fs ws -> Forall whole batches -> concat (map tbytes batches) = concat ws ->
  (forall i f, nth_error fs i = Some f -> receivable (chans i) f) ->
  exists N, forall fuel, (N <= fuel)%nat ->
  exists p' out, run fuel k chans never start batches = Ok (Some (p', out)) /\
    ((r_down (p_c p') = None /\ out = fs /\ t_held (p_t p') = [] /\ t_net (p_t p') = []) \/
     (r_down (p_c p') = Some WTooManyAgain /\ exists rest, fs = out ++ rest)) /\
    (zlen batches < 25 -> r_down (p_c p') = None).
Proof. exact stream. Qed.
Print Assumptions C257_stream_partial.
Definition cut : list (list tev) := [[TRec (firstn 4 gw)]; [TRec (firstn 14 (skipn 4 gw)); TRec (skipn 18 gw ++ firstn 3 mw)]; [TRec (skipn 3 mw)]].
Example C257_ex : Forall2 wire [gf; mf] [gw; mw] /\ Forall whole cut /\ concat (map tbytes cut) = concat [gw; mw] /\
  (forall i f, nth_error [gf; mf] i = Some f -> receivable (wins i) f) /\
  exists p, run 200 TLS wins never start cut = Ok (Some (p, [gf; mf])) /\ r_down (p_c p) = None.
Proof.
  split; [apply Forall2_cons; [exact gw_wire|apply Forall2_cons; [exact mw_wire|constructor]]|].
  split; [unfold cut; repeat (apply Forall_cons; [split; [discriminate|vm_compute; repeat constructor]|]); constructor|].
  split; [reflexivity|]. split.
  - intros [|[|[|i]]] f H; cbn in H; try discriminate; injection H as <-; [exact gf_in|exact mf_in].
  - eexists. split; [vm_compute; reflexivity|reflexivity].
Qed.
(** A frame whose header comes a byte at a time, more than 25 times, is not read: the connection is closed. *)
Definition slow : list (list tev) := map (fun b => [TRec [b]]) (asc "MSG 0 1 . 00000000000000000003 2").
Theorem C257_slow_refuted : exists batches p, Forall whole batches /\ run 200 TLS wins never start batches = Ok (Some (p, [])) /\ r_down (p_c p) = Some WTooManyAgain.
Proof.
  exists slow. eexists. split; [|split; [vm_compute; reflexivity|reflexivity]]. unfold slow. apply Forall_map, Forall_forall. intros x _. split; [discriminate|repeat constructor].
Qed.
Print Assumptions C257_slow_refuted.

(** * C258 *)
(** A piece of a record when no body is half read: nothing is lost. *)
Theorem C258_header_partial : forall k chans stop p, p_unw p = false -> r_down (p_c p) = None -> r_partial (p_c p) = None -> p_flag p = 0 ->
  p_t p = mkTr [] [TPiece] -> zlen (r_pending (p_c p)) <= 97 -> ~ In 0 (r_pending (p_c p)) -> r_nodata (p_c p) < 25 ->
  pending 1 k chans stop p = Ok (Some (mkP (mkR None (r_pending (p_c p)) None (r_nodata (p_c p) + 1)) (mkTr [] []) 0 false (p_i p), [])).
Proof. exact piece_line. Qed.
Print Assumptions C258_header_partial.
Example C258_header_ex : exists p, run 200 TLS wins never start [[TRec (firstn 7 gw)]; [TPiece]; [TPiece]; [TRec (skipn 7 gw)]] = Ok (Some (p, [gf])) /\ r_down (p_c p) = None.
Proof. eexists. split; [vm_compute; reflexivity|reflexivity]. Qed.
(** A piece of a record when a body is half read: the connection is closed, always. *)
Theorem C258_body_refuted : exists k chans w batches1 batches2 p1 p2, wire gf w /\ concat (map tbytes batches1) = w /\ concat (map tbytes batches2) = w /\
  run 200 k chans never start batches1 = Ok (Some (p1, [gf])) /\ r_down (p_c p1) = None /\
  run 200 k chans never start batches2 = Ok (Some (p2, [])) /\ r_down (p_c p2) = Some WClosedPartial.
Proof.
  exists TLS, wins, gw, [[TRec (firstn 16 gw)]; [TRec (skipn 16 gw)]], [[TRec (firstn 16 gw)]; [TPiece]; [TRec (skipn 16 gw)]].
  eexists _, _. split; [exact gw_wire|]. split; [reflexivity|]. split; [reflexivity|]. split; [vm_compute; reflexivity|]. split; [reflexivity|]. split; [vm_compute; reflexivity|reflexivity].
Qed.
Print Assumptions C258_body_refuted.
Theorem C258_closes : forall k chans stop p f got, p_unw p = false -> r_down (p_c p) = None -> r_partial (p_c p) = Some (f, got) -> p_flag p = 0 ->
  p_t p = mkTr [] [TPiece] -> zlen got < f_size f + 5 ->
  exists p', pending 1 k chans stop p = Ok (Some (p', [])) /\ r_down (p_c p') = Some WClosedPartial.
Proof. exact piece_body. Qed.
Print Assumptions C258_closes.
Example C258_closes_ex : r_partial (p_c (mkP (mkR None [] (Some (gf, asc "a")) 0) (mkTr [] [TPiece]) 0 false 0)) = Some (gf, asc "a") /\ zlen (asc "a") < f_size gf + 5 /\
  exists p, pending 1 WS wins never (mkP (mkR None [] (Some (gf, asc "a")) 0) (mkTr [] [TPiece]) 0 false 0) = Ok (Some (p, [])) /\ r_down (p_c p) = Some WClosedPartial.
Proof. split; [reflexivity|]. split; [vm_compute; reflexivity|]. eexists. split; [vm_compute; reflexivity|reflexivity]. Qed.

(** * C259 *)
Theorem C259_greetings_partial : forall k chans g w records,
  wire g w -> receivable chans g -> f_more g = false -> whole records -> tbytes records = w ->
  exists N, forall fuel, (N <= fuel)%nat ->
  exists c t flag, await fuel k chans rconn0 (mkTr [] records) 0 [] = Ok (Some (AFrames [g], c, t, flag)) /\ r_down c = None /\ t_held t = [] /\ t_net t = [].
Proof. exact greetings_read. Qed.
Print Assumptions C259_greetings_partial.
Example C259_ex : wire gf gw /\ receivable win0 gf /\ f_more gf = false /\ whole [TRec (firstn 3 gw); TRec (firstn 14 (skipn 3 gw)); TRec (skipn 17 gw)] /\
  tbytes [TRec (firstn 3 gw); TRec (firstn 14 (skipn 3 gw)); TRec (skipn 17 gw)] = gw.
Proof. split; [exact gw_wire|]. split; [exact gf_in|]. split; [reflexivity|]. split; [|reflexivity]. split; [discriminate|]. cbn. repeat constructor. Qed.
(** A frame in the record of the greetings stays in the transport: the reader waits for a socket with nothing in it.  In a record of its own it is read. *)
Theorem C259_after_refuted : exists chans g m wg wm, wire g wg /\ wire m wm /\ receivable chans g /\ receivable chans m /\
  (exists c t flag, await 200 TLS chans rconn0 (mkTr [] [TRec (wg ++ wm)]) 0 [] = Ok (Some (AFrames [g], c, t, flag)) /\ r_down c = None /\ t_held t = wm /\
     forall fuel, reader (S fuel) TLS (fun _ => chans) never (mkP c t flag false 0) = Ok (Some (mkP c t flag false 0, []))) /\
  (exists c t flag p, await 200 TLS chans rconn0 (mkTr [] [TRec wg; TRec wm]) 0 [] = Ok (Some (AFrames [g], c, t, flag)) /\
     reader 200 TLS (fun _ => chans) never (mkP c t flag false 0) = Ok (Some (p, [m]))).
Proof.
  exists win0, gf, mf, gw, mw. split; [exact gw_wire|]. split; [exact mw_wire|]. split; [exact gf_in|]. split; [exact mf_in|]. split.
  - eexists _, _, _. split; [vm_compute; reflexivity|]. split; [reflexivity|]. split; [reflexivity|]. intros fuel. reflexivity.
  - eexists _, _, _, _. split; [vm_compute; reflexivity|]. vm_compute. reflexivity.
Qed.
Print Assumptions C259_after_refuted.
(** Greetings in two frames: read when each is in its record, never when both are in one. *)
Definition g1 : frame := mkFrame TRPY 0 0 true 0 2 0 (asc "ab").
Definition g2 : frame := mkFrame TRPY 0 0 false 2 1 0 (asc "c").
Definition g1w : bytes := asc "RPY 0 0 * 0 2" ++ crlf ++ asc "abEND" ++ crlf.
Definition g2w : bytes := asc "RPY 0 0 . 2 1" ++ crlf ++ asc "cEND" ++ crlf.
Theorem C259_frames_refuted : exists chans f1 f2 w1 w2,
  (exists c t flag, await 200 TLS chans rconn0 (mkTr [] [TRec w1; TRec w2]) 0 [] = Ok (Some (AFrames [f1; f2], c, t, flag))) /\
  (exists c t flag, await 200 TLS chans rconn0 (mkTr [] [TRec (w1 ++ w2)]) 0 [] = Ok (Some (ATimeout, c, t, flag)) /\ t_held t = w2).
Proof.
  exists win0, g1, g2, g1w, g2w. split.
  - eexists _, _, _. vm_compute. reflexivity.
  - eexists _, _, _. split; [vm_compute; reflexivity|reflexivity].
Qed.
Print Assumptions C259_frames_refuted.
(** The wait ends with the frames stored and the last one, all of them in order; with the connection down; or with a socket that has nothing. *)
Theorem C259_ending : forall fuel k chans c t flag got a c' t' flag',
  await fuel k chans c t flag got = Ok (Some (a, c', t', flag')) ->
  match a with
  | AFrames fs => exists mid lst, fs = got ++ mid ++ [lst] /\ Forall (fun f => f_more f = true) mid /\ f_more lst = false
  | ADown => r_down c' <> None
  | ATimeout => readable t' = false
  end.
Proof. exact await_ending. Qed.
Print Assumptions C259_ending.
Definition g0 : frame := mkFrame TRPY 0 0 true 0 1 0 (asc "x").
Example C259_ending_ex : exists c t flag, await 200 WS win0 rconn0 (mkTr [] [TRec g1w; TRec g2w]) 0 [g0] = Ok (Some (AFrames [g0; g1; g2], c, t, flag)).
Proof. eexists _, _, _. vm_compute. reflexivity. Qed.
Theorem C259_down : forall fuel k chans c t flag got w, r_down c = Some w -> exists t' flag', await (S fuel) k chans c t flag got = Ok (Some (ADown, c, t', flag')).
Proof. exact await_down. Qed.
Print Assumptions C259_down.
Example C259_down_ex : exists c t flag, await 200 TLS win0 rconn0 (mkTr [] [TRec (firstn 5 gw); TEof]) 0 [] = Ok (Some (ADown, c, t, flag)) /\ r_down c = Some WNoLine.
Proof. eexists _, _, _. split; [vm_compute; reflexivity|reflexivity]. Qed.
(** A read over WebSocket that finds no data leaves the flag as it was. *)
Theorem C258_silent : forall chans c t flag c' t' flag' o, (forall e, In e (view t) -> e = SData []) ->
  get WS chans c t flag = Ok (c', t', flag', o) -> flag' = flag.
Proof. exact ws_silent. Qed.
Print Assumptions C258_silent.
Example C258_silent_ex : exists c t, get WS win0 rconn0 (mkTr [] [TPiece]) 7 = Ok (c, t, 7, None) /\ t_net t = [].
Proof. eexists _, _. split; [vm_compute; reflexivity|reflexivity]. Qed.
