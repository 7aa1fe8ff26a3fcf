(** Theorems about the frame encoder and decoder (C01-C05, C53). *)
From Verif Require Import Base CodecModel CodecSpec CodecProofs CodecProofs2.

Definition win1 (n : Z) : option chwin := if n =? 1 then Some (0, 4096) else None.

(** ** C53: integer formatting *)

Theorem C53_itoa_exact : forall v n,
  exists ds, decimal (v mod 4294967296) ds /\
    itoa v n =
      if n <=? 0 then Ok (-1, [])
      else if Z.of_nat (length ds) <=? n then Ok (Z.of_nat (length ds), ds)
      else Ok (-1, firstn (Z.to_nat n) ds).
Proof. exact itoa_total. Qed.
Print Assumptions C53_itoa_exact.

Example C53_case : itoa 4294967295 10 = Ok (10, [52;50;57;52;57;54;55;50;57;53]) /\
  itoa 1234 3 = Ok (-1, [49;50;51]) /\ itoa 0 1 = Ok (1, [48]).
Proof. vm_compute. auto. Qed.

(** ** C01: a data frame survives encoding and decoding *)

Theorem C01_frame_round_trip : forall cap t ch msg more seqno ans payload chans,
  t <> TSEQ ->
  0 <= ch < 2147483648 -> 0 <= msg < 2147483648 -> 0 <= seqno < 4294967296 ->
  (if ftype_eqb t TANS then 0 <= ans < 2147483648 else ans = 0) ->
  zlen payload + 6 < 2147483648 -> zlen payload + 68 <= cap ->
  let f := mkFrame t ch msg more seqno (zlen payload) ans payload in
  receivable chans f ->
  exists w, build_frame cap t ch msg more seqno ans payload = Ok (Some w) /\
    data_wire f w /\
    forall frag, concat frag = w ->
      exists c', read_all (weight (map SData frag)) (fun _ => chans) 0 rconn0 (map SData frag)
                 = Ok (c', [], [f]) /\ r_down c' = None.
Proof. exact frame_round_trip. Qed.
Print Assumptions C01_frame_round_trip.

Definition ex_wire : bytes :=   (* "ANS 1 0 * 2 3 7\r\nabcEND\r\n" *)
  [65;78;83;32;49;32;48;32;42;32;50;32;51;32;55;13;10;97;98;99;69;78;68;13;10].
Example C01_case :
  receivable win1 (mkFrame TANS 1 0 true 2 3 7 [97;98;99]) /\
  build_frame 100 TANS 1 0 true 2 7 [97;98;99] = Ok (Some ex_wire).
Proof.
  split; [|vm_compute; reflexivity].
  exists 0, 4096. split; [reflexivity|]. cbn. split; [lia|]. split; [lia|]. intros _. vm_compute. discriminate.
Qed.

(** ** C02: a SEQ frame survives encoding and decoding, unless it
    acknowledges one of the two topmost octets *)

Theorem C02_seq_round_trip_partial : forall cap ch ack win chans,
  0 <= ch < 2147483648 -> 0 <= ack < 4294967294 -> 0 <= win < 2147483648 -> 50 <= cap ->
  receivable chans (seq_frame ch ack win) ->
  exists w, build_seq cap ch ack win = Ok (Some w) /\ seq_wire ch ack win w /\
    forall frag, concat frag = w ->
      exists c', read_all (weight (map SData frag)) (fun _ => chans) 0 rconn0 (map SData frag)
                 = Ok (c', [], [seq_frame ch ack win]) /\ r_down c' = None.
Proof. exact seq_round_trip. Qed.
Print Assumptions C02_seq_round_trip_partial.

Example C02_case : receivable win1 (seq_frame 1 8192 4096) /\
  build_seq 50 1 8192 4096 =
    Ok (Some [83;69;81;32;49;32;56;49;57;50;32;52;48;57;54;13;10]).
Proof.
  split; [|vm_compute; reflexivity].
  exists 0, 4096. split; [reflexivity|]. split; [lia|]. split; [lia|]. cbn. congruence.
Qed.

(** The complete statement is false: an acknowledgement of 4294967295 comes
    out with a window of 0, and one of 4294967294 closes the connection. *)
Theorem C02_seq_round_trip_refuted : exists ack1 ack2 w1 w2,
  0 <= ack1 < 4294967296 /\ 0 <= ack2 < 4294967296 /\
  build_seq 50 1 ack1 4096 = Ok (Some w1) /\ build_seq 50 1 ack2 4096 = Ok (Some w2) /\
  (exists c', read_all 10 (fun _ => win1) 0 rconn0 [SData w1] = Ok (c', [], [seq_frame 1 ack1 0])) /\
  (exists c', read_all 10 (fun _ => win1) 0 rconn0 [SData w2] = Ok (c', [], []) /\
              r_down c' = Some WHeader).
Proof.
  exists 4294967295, 4294967294. eexists _, _.
  split; [lia|]. split; [lia|]. split; [vm_compute; reflexivity|]. split; [vm_compute; reflexivity|].
  split; [eexists; vm_compute; reflexivity|]. eexists. split; vm_compute; reflexivity.
Qed.
Print Assumptions C02_seq_round_trip_refuted.

(** ** C03: a stream of frames is decoded frame by frame, however the bytes
    are cut *)

Theorem C03_stream : forall fs ws frag chans,
  Forall2 wire fs ws -> concat frag = concat ws ->
  (forall k f, nth_error fs k = Some f -> receivable (chans k) f) ->
  exists c', read_all (weight (map SData frag)) chans 0 rconn0 (map SData frag) = Ok (c', [], fs) /\
    r_down c' = None.
Proof. exact stream_frag. Qed.
Print Assumptions C03_stream.

Example C03_case : exists c',
  read_all 100 (fun _ => win1) 0 rconn0
    [SData (ex_wire ++ firstn 5 ex_wire); SData []; SData (skipn 5 ex_wire)]
  = Ok (c', [], [mkFrame TANS 1 0 true 2 3 7 [97;98;99]; mkFrame TANS 1 0 true 2 3 7 [97;98;99]])
  /\ r_down c' = None.
Proof. eexists. vm_compute. auto. Qed.

(** ** C04: fragmentation in time *)

(** Whatever the interleaving of data, EAGAIN and EINTR, the frames delivered
    are a prefix of the frames sent, and the only ways to lose the rest are the
    two shutdowns below. *)
Theorem C04_any_fragmentation : forall fs ws s chans,
  Forall2 wire fs ws -> alive s -> sdata s = concat ws ->
  (forall k f, nth_error fs k = Some f -> receivable (chans k) f) ->
  exists c' s' out, read_all (weight s) chans 0 rconn0 s = Ok (c', s', out) /\
    ((r_down c' = None /\ s' = [] /\ out = fs) \/
     ((r_down c' = Some WTooManyAgain \/ r_down c' = Some WClosedPartial) /\
      exists rest, fs = out ++ rest)) /\
    (never_again s -> r_down c' = None).
Proof. exact stream_any_fragmentation. Qed.
Print Assumptions C04_any_fragmentation.

(** The reader thread only reads when the socket is readable.  Then the only
    shutdown left is the one for too many reads without data, and it cannot
    happen if the socket runs dry fewer than 25 times. *)
Theorem C04_readiness_partial : forall fs ws s chans,
  Forall2 wire fs ws -> alive s -> sdata s = concat ws ->
  (forall k f, nth_error fs k = Some f -> receivable (chans k) f) ->
  exists c' s' out, read_ready (weight s) chans 0 rconn0 s = Ok (c', s', out) /\
    ((r_down c' = None /\ out = fs) \/
     (r_down c' = Some WTooManyAgain /\ exists rest, fs = out ++ rest)) /\
    (agains s < 25 -> r_down c' = None).
Proof. exact stream_ready. Qed.
Print Assumptions C04_readiness_partial.

Example C04_case :
  let s := [SAgain; SData (firstn 3 ex_wire); SAgain; SIntr; SData (firstn 16 (skipn 3 ex_wire));
            SAgain; SAgain; SData (skipn 19 ex_wire)] in
  alive s /\ sdata s = ex_wire /\ agains s = 4 /\
  exists c', read_ready 100 (fun _ => win1) 0 rconn0 s
    = Ok (c', [], [mkFrame TANS 1 0 true 2 3 7 [97;98;99]]) /\ r_down c' = None.
Proof.
  cbn zeta. split; [repeat constructor|]. split; [reflexivity|]. split; [reflexivity|].
  eexists. vm_compute. auto.
Qed.

(** Independence of the timing is false: the same bytes, delivered one at a
    time to a reader that only reads when there is something to read, make it
    close the connection (26 pieces of one header line). *)
Definition slow_wire : bytes :=  (* "MSG 1 1111111111 . 1111111111 0\r\nEND\r\n" *)
  [77;83;71;32;49;32;49;49;49;49;49;49;49;49;49;49;32;46;32;49;49;49;49;49;49;49;49;49;49;32;48;13;10;
   69;78;68;13;10].
Definition slow_chans (n : Z) : option chwin := if n =? 1 then Some (1111111111, 4096) else None.

Theorem C04_timing_refuted : exists f s1 s2 c1 c2 r2,
  alive s1 /\ alive s2 /\ sdata s1 = sdata s2 /\
  read_ready 200 (fun _ => slow_chans) 0 rconn0 s1 = Ok (c1, [], [f]) /\ r_down c1 = None /\
  read_ready 200 (fun _ => slow_chans) 0 rconn0 s2 = Ok (c2, r2, []) /\ r_down c2 = Some WTooManyAgain.
Proof.
  exists (mkFrame TMSG 1 1111111111 false 1111111111 0 0 []), [SData slow_wire],
         (flat_map (fun b => [SData [b]; SAgain]) slow_wire).
  eexists _, _, _. split; [repeat constructor|]. split; [repeat constructor|].
  vm_compute. repeat split; reflexivity.
Qed.
Print Assumptions C04_timing_refuted.

(** A read of the rest of a body that finds nothing closes the connection. *)
Theorem C04_dry_read_refuted : exists s c' r,
  alive s /\ sdata s = ex_wire /\
  read_all 200 (fun _ => win1) 0 rconn0 s = Ok (c', r, []) /\ r_down c' = Some WClosedPartial.
Proof.
  exists [SData (firstn 19 ex_wire); SAgain; SAgain; SData (skipn 19 ex_wire)].
  eexists _, _. split; [repeat constructor|]. vm_compute. auto.
Qed.
Print Assumptions C04_dry_read_refuted.

(** ** C05: what is delivered was well formed *)

(** For every input whatsoever: the k-th frame delivered corresponds to a
    header line with these very values, on a known channel, whose right edge is
    in the window, followed by exactly the announced number of payload bytes
    and the trailer; the frames consume disjoint, consecutive pieces of the
    input.  (The complete claim, with the strict grammar of RFC 3080 instead of
    [lenient_line], is refuted below.) *)
Theorem C05_delivered_partial : forall fuel chans s c' s' fs,
  (forall k, sane_chans (chans k)) ->
  read_all fuel chans 0 rconn0 s = Ok (c', s', fs) ->
  exists raws tail, sdata s = concat raws ++ tail /\ length raws = length fs /\
    forall k f raw, nth_error fs k = Some f -> nth_error raws k = Some raw -> received (chans k) f raw.
Proof. exact received_stream. Qed.
Print Assumptions C05_delivered_partial.

Example C05_case : sane_chans win1 /\ exists c',
  read_all 10 (fun _ => win1) 0 rconn0 [SData (ex_wire ++ [1; 2; 10])] =
  Ok (c', [], [mkFrame TANS 1 0 true 2 3 7 [97;98;99]]) /\ r_down c' = Some WNoLine.
Proof.
  split.
  - intros n c w H. unfold win1 in H. destruct (n =? 1); inversion H; lia.
  - eexists. vm_compute. auto.
Qed.

(** The strict grammar is not enforced: this line has no separator after the
    keyword, an empty message number, a number above 2^32, CR as a separator and
    trailing text, and yet a frame of 3 bytes is delivered. *)
Theorem C05_strict_refuted : exists w f c',
  read_all 10 (fun _ => win1) 0 rconn0 [SData w] = Ok (c', [], [f]) /\ r_down c' = None /\
  data_frame f /\ ~ data_wire f w.
Proof.
  exists [77;83;71;88;52;50;57;52;57;54;55;50;57;55;13;32;46;88;48;32;51;32;122;122;13;10;
          97;98;99;69;78;68;13;10].
  exists (mkFrame TMSG 1 0 false 0 3 0 [97;98;99]).
  eexists. split; [vm_compute; reflexivity|]. split; [reflexivity|]. split.
  - unfold data_frame; cbn. repeat (split; [solve [discriminate|lia]|]). reflexivity.
  - intros (line & (d1 & d2 & d3 & d4 & d5 & _ & _ & _ & _ & _ & ->) & H). cbn in H. discriminate H.
Qed.
Print Assumptions C05_strict_refuted.

(** No undefined behaviour unless a header line ends at the continuation
    indicator or announces 2147483642 bytes or more. *)
Theorem C05_safe_partial : forall fuel chans s,
  (forall k, sane_chans (chans k)) -> read_all fuel chans 0 rconn0 s = UB ->
  exists pre hdr post line, sdata s = pre ++ hdr ++ post /\ seen_as hdr line /\
    (short_line line \/ huge_line line).
Proof. exact ub_stream. Qed.
Print Assumptions C05_safe_partial.

(** Both happen: 23 bytes sent by the peer ("MSG 1 0 . 6 4294967290\r\n") make
    the reader write past a zero sized buffer, and "MSG 1 1\r\n" makes it parse
    memory it never wrote. *)
Theorem C05_safe_refuted :
  read_all 10 (fun _ => win1) 0 rconn0
    [SData [77;83;71;32;49;32;48;32;46;32;54;32;52;50;57;52;57;54;55;50;57;48;13;10]] = UB /\
  read_all 10 (fun _ => win1) 0 rconn0 [SData [77;83;71;32;49;32;49;13;10]] = UB.
Proof. split; vm_compute; reflexivity. Qed.
Print Assumptions C05_safe_refuted.
