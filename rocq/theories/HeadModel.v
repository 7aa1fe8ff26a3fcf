(** The MIME headers a channel puts before the messages it sends: the settings of
    the profile (src/vortex_profiles.c:309-610, 1350-1405) and of the channel
    (src/vortex_channel.c:1640-1656, 4047-4076), the level that decides whether there
    are headers and their size (__vortex_channel_get_mime_headers_size,
    src/vortex_channel.c:467-543), the writing of them
    (__vortex_channel_get_mime_headers, 560-610), the pieces of one message
    (2490-2496, 2519-2523, __vortex_channel_skip_mime_headers, 2988-3021) and the
    block of memory of the message (2526-2555, 3107-3138).

    One profile and its channels; the others are independent of them.  The strings are
    C strings.  The sizes fit in [int].  Messages given by a feeder get no headers and
    are not here.  memcpy of no octets from NULL (the body of NUL) does nothing.  The
    memory comes from axl_new, which clears it. *)
From Verif Require Import Base CodecModel MimeModel SequencerModel.

(** * Writing the headers *)

(** memcpy of [s] to [buf + off]. *)
Definition put (buf : bytes) (off : Z) (s : bytes) : outcome bytes :=
  if (0 <=? off) && (off + zlen s <=? zlen buf)
  then Ok (firstn (Z.to_nat off) buf ++ s ++ skipn (Z.to_nat (off + zlen s)) buf)
  else UB.
(** "Content-Type: ", "Content-Transfer-Encoding: ", "binary", CR LF. *)
Definition t_ctype : bytes := [67;111;110;116;101;110;116;45;84;121;112;101;58;32].
Definition t_cte : bytes :=
  [67;111;110;116;101;110;116;45;84;114;97;110;115;102;101;114;45;69;110;99;111;100;105;110;103;58;32].
Definition t_binary : bytes := [98;105;110;97;114;121].
Definition t_crlf : bytes := [13; 10].

(** The tests of 523 and 531, and the size (523-537). *)
Definition shown (v : option bytes) (default : bytes) : bool :=
  match v with Some b => negb (bytes_eqb b default) | None => false end.
Definition size_opt (v : option bytes) : Z := match v with Some b => zlen b | None => 0 end.
Definition headers_size (mime te : option bytes) : Z :=
  (if shown mime octet_stream then 16 + size_opt mime else 0) + (if shown te t_binary then 29 + size_opt te else 0) + 2.

(** __vortex_channel_get_mime_headers (560-610).  The second header is given the
    value of [mime_type] (593-596), and the position after it is counted with the
    size of [transfer_encoding] (598); strlen of NULL is [UB]. *)
Definition put_headers (buf : bytes) (mime te : option bytes) : outcome bytes :=
  let! (buf, size) :=
    match mime with
    | Some m =>
        if shown mime octet_stream then
          let! buf := put buf 0 t_ctype in
          let! buf := put buf 14 m in
          let! buf := put buf (14 + zlen m) t_crlf in
          Ok (buf, 16 + zlen m)
        else Ok (buf, 0)
    | None => Ok (buf, 0)
    end in
  let! (buf, size) :=
    if shown te t_binary then
      let! buf := put buf size t_cte in
      match mime with
      | None => UB
      | Some m =>
          let! buf := put buf (size + 27) m in
          let! buf := put buf (size + 27 + zlen m) t_crlf in
          Ok (buf, size + (29 + size_opt te))
      end
    else Ok (buf, size) in
  put buf size t_crlf.

(** The block of a message (2526-2555, 3112-3136); [headers]: they are added. *)
Definition content (headers : bool) (mime te : option bytes) (message : bytes) : outcome bytes :=
  let h := if headers then headers_size mime te else 0 in
  let buf := repeat 0 (Z.to_nat (h + zlen message + 1)) in
  let! buf := if 0 <? h then put_headers buf mime te else Ok buf in
  let! buf := put buf h message in
  Ok (firstn (Z.to_nat (h + zlen message)) buf).

(** * The profile, its channels and what they send *)

(** A string that belongs to the profile is at an address; the constants of the
    library are always there. *)
Inductive ptr := PNull | PStatic (b : bytes) | PHeap (a : nat) (b : bytes).
Record profile := mkProfile { p_auto : Z; p_mime : option (nat * bytes); p_te : option (nat * bytes) }.
(** The channel: automatic_mime, mime_type, transfer_encoding,
    last_fixed_more_msg_no >= 0, and the keys of fixed_more_indication. *)
Record chan := mkChan { ch_auto : Z; ch_mime : ptr; ch_te : ptr; ch_more : bool; ch_marks : list Z }.

(** What is seen: a message or reply ([Some n]: to message [n]) asked on channel [i],
    whether more pieces follow, the content given to the sequencer, and what
    vortex_channel_get_automatic_mime says after it. *)
Record sent := mkSent { o_chan : nat; o_reply : option Z; o_msg : bytes; o_more : bool; o_content : bytes; o_auto : Z }.
Record hst := mkH { h_profile : option profile; h_lib : Z; h_next : nat; h_freed : list nat; h_chans : list chan; h_log : list sent }.
(** The profile is not registered; VORTEX_AUTOMATIC_MIME_HANDLING is [lib]. *)
Definition hst0 (lib : Z) : hst := mkH None lib 0 [] [] [].

Inductive hev :=
| HRegister
| HUnregister
| HMime (mime te : option bytes)
| HProfileAuto (v : Z)
| HLibAuto (v : Z)
| HChanAuto (i : nat) (v : Z)
| HOpen
| HSend (i : nat) (reply : option Z) (message : bytes) (more : bool).

Definition freed_of (v : option (nat * bytes)) : list nat := match v with Some (a, _) => [a] | None => [] end.
(** One half of vortex_profiles_set_mime_type (527-539). *)
Definition set_string (s : hst) (old : option (nat * bytes)) (new : option bytes) : option (nat * bytes) * hst :=
  match new with
  | None => (old, s)
  | Some b => (Some (h_next s, b), mkH (h_profile s) (h_lib s) (S (h_next s)) (freed_of old ++ h_freed s) (h_chans s) (h_log s))
  end.
(** vortex_profiles_get_mime_type and vortex_profiles_get_transfer_encoding (559-611). *)
Definition get_string (v : option (nat * bytes)) (default : bytes) : ptr :=
  match v with Some (a, b) => PHeap a b | None => PStatic default end.
(** Reading a string through the pointer kept by the channel. *)
Definition deref (s : hst) (p : ptr) : outcome (option bytes) :=
  match p with
  | PNull => Ok None
  | PStatic b => Ok (Some b)
  | PHeap a b => if existsb (Nat.eqb a) (h_freed s) then UB else Ok (Some b)
  end.
(** The loop of 489-514: what the channel keeps; a value other than 2 adds headers. *)
Definition profile_auto (s : hst) : Z := match h_profile s with Some p => p_auto p | None => 0 end.
Definition decide (s : hst) (c : chan) : Z :=
  if ch_auto c =? 0 then
    if profile_auto s =? 0 then if h_lib s =? 0 then 1 else h_lib s else profile_auto s
  else ch_auto c.

Definition valid_auto (v : Z) : bool := (v =? 0) || (v =? 1) || (v =? 2).
Fixpoint set_nth (l : list chan) (i : nat) (c : chan) : list chan :=
  match l, i with [], _ => [] | _ :: r, O => c :: r | x :: r, S k => x :: set_nth r k c end.
Definition with_chan (s : hst) (i : nat) (c : chan) : hst :=
  mkH (h_profile s) (h_lib s) (h_next s) (h_freed s) (set_nth (h_chans s) i c) (h_log s).
Definition with_profile (s : hst) (p : option profile) : hst :=
  mkH p (h_lib s) (h_next s) (h_freed s) (h_chans s) (h_log s).

(** Whether the headers are skipped, and the channel after that (2490-2523 for MSG,
    2988-3021 for replies). *)
Definition skips (c : chan) (reply : option Z) : bool :=
  match reply with None => ch_more c | Some n => existsb (Z.eqb n) (ch_marks c) end.
Definition marked (c : chan) (reply : option Z) (more : bool) (auto : Z) : chan :=
  match reply with
  | None => mkChan auto (ch_mime c) (ch_te c) more (ch_marks c)
  | Some n => mkChan auto (ch_mime c) (ch_te c) (ch_more c)
                (let m := filter (fun k => negb (k =? n)) (ch_marks c) in if more then n :: m else m)
  end.

Definition hstep (s : hst) (e : hev) : outcome hst :=
  match e with
  | HRegister => Ok (match h_profile s with None => with_profile s (Some (mkProfile 0 None None)) | Some _ => s end)
  (* vortex_profiles_unregister (448-476), __vortex_profiles_destroy_profile_item (128-151) *)
  | HUnregister =>
      Ok (match h_profile s with
          | None => s
          | Some p => mkH None (h_lib s) (h_next s) (freed_of (p_mime p) ++ freed_of (p_te p) ++ h_freed s) (h_chans s) (h_log s)
          end)
  | HMime mime te =>
      Ok (match h_profile s with
          | None => s
          | Some p =>
              let '(m, s) := set_string s (p_mime p) mime in
              let '(t, s) := set_string s (p_te p) te in
              with_profile s (Some (mkProfile (p_auto p) m t))
          end)
  | HProfileAuto v =>
      Ok (match h_profile s with
          | Some p => if valid_auto v then with_profile s (Some (mkProfile v (p_mime p) (p_te p))) else s
          | None => s
          end)
  | HLibAuto v => Ok (mkH (h_profile s) v (h_next s) (h_freed s) (h_chans s) (h_log s))
  | HChanAuto i v =>
      Ok (match nth_error (h_chans s) i with
          | Some c => if valid_auto v then with_chan s i (mkChan v (ch_mime c) (ch_te c) (ch_more c) (ch_marks c)) else s
          | None => s
          end)
  (* vortex_channel_empty_new (1654-1655) *)
  | HOpen =>
      let c := match h_profile s with
               | Some p => mkChan 0 (get_string (p_mime p) octet_stream) (get_string (p_te p) t_binary) false []
               | None => mkChan 0 PNull PNull false []
               end in
      Ok (mkH (h_profile s) (h_lib s) (h_next s) (h_freed s) (h_chans s ++ [c]) (h_log s))
  | HSend i reply message more =>
      match nth_error (h_chans s) i with
      | None => Ok s
      | Some c =>
          let skip := skips c reply in
          let auto := if skip then ch_auto c else decide s c in
          let headers := negb skip && negb (auto =? 2) in
          let! b :=
            if headers then
              let! m := deref s (ch_mime c) in
              let! t := deref s (ch_te c) in
              content true m t message
            else content false None None message in
          let s := with_chan s i (marked c reply more auto) in
          Ok (mkH (h_profile s) (h_lib s) (h_next s) (h_freed s) (h_chans s) (h_log s ++ [mkSent i reply message more b auto]))
      end
  end.
Fixpoint hrun (s : hst) (es : list hev) : outcome hst :=
  match es with [] => Ok s | e :: k => let! s := hstep s e in hrun s k end.

(** * The end of a one-to-many reply *)

(** vortex_channel_finalize_ans_rpy (3777-3782): what is queued for the NUL frame. *)
Definition nul_data (ch msgno ansno : Z) (body : bytes) : qdata unit := mkQ TNUL ch msgno ansno body 0 (zlen body) false None.
(** __vortex_reader_process_socket_check_nul_frame (src/vortex_reader.c:83-114): the
    receiver keeps the connection; [None]: out of fuel. *)
Definition nul_accepted (more : bool) (b : bytes) : outcome (option bool) :=
  let! r := mime_process (mf_new (sock_mem b) (zlen b)) in
  match r with
  | None => Ok None
  | Some (_, f) => Ok (Some ((mf_size f =? 0) && negb more))
  end.
