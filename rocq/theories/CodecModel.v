(** Model of the BEEP frame encoder and decoder.
    Sources: src/vortex_support.c, src/vortex_frame_factory.c,
    src/vortex_channel.c (window check), src/vortex_connection.c (channel lookup). *)
From Verif Require Import Base.

(** ** Integer formatting *)

(** vortex_support_itoa, first loop (src/vortex_support.c:850-861): the
    digits of [value], least significant first, at most 10 of them.  When the
    loop stops because [iterator] reached 10 the C code goes on to read
    [inverse[10]], outside the array: [UB]. *)
Fixpoint itoa_inverse (room : nat) (value : Z) : outcome bytes :=
  match room with
  | O => UB
  | S room' =>
    let d := 48 + value mod 10 in
    let value' := value / 10 in
    if value' =? 0 then Ok [d]
    else let! ds := itoa_inverse room' value' in Ok (d :: ds)
  end.

(** Second loop (src/vortex_support.c:863-872): copies the digits most
    significant first while there is room.  [ds] is the content of [inverse]
    still to be copied, most significant first.  Returns the bytes written and
    whether everything was copied. *)
Fixpoint itoa_copy (room : nat) (ds : bytes) : bytes * bool :=
  match room, ds with
  | _, [] => ([], true)
  | O, _ :: _ => ([], false)
  | S room', d :: ds' =>
    let (w, ok) := itoa_copy room' ds' in (d :: w, ok)
  end.

(** vortex_support_itoa (src/vortex_support.c:838-880): result and bytes
    written at the start of [buffer]. *)
Definition itoa (value buffer_size : Z) : outcome (Z * bytes) :=
  if buffer_size <=? 0 then Ok (-1, [])
  else
    let! inv := itoa_inverse 10 (u32 value) in
    let (w, ok) := itoa_copy (Z.to_nat buffer_size) (rev inv) in
    Ok (if ok then zlen w else -1, w).

(** ** Frames *)

(** VortexFrameType, without UNKNOWN. *)
Inductive ftype := TMSG | TRPY | TANS | TERR | TNUL | TSEQ.

Definition ftype_eqb (a b : ftype) : bool :=
  match a, b with
  | TMSG, TMSG | TRPY, TRPY | TANS, TANS | TERR, TERR | TNUL, TNUL | TSEQ, TSEQ => true
  | _, _ => false
  end.

(** The keyword of each frame type (src/vortex_frame_factory.c:718-738). *)
Definition keyword (t : ftype) : bytes :=
  match t with
  | TMSG => [77; 83; 71]
  | TRPY => [82; 80; 89]
  | TANS => [65; 78; 83]
  | TERR => [69; 82; 82]
  | TNUL => [78; 85; 76]
  | TSEQ => [83; 69; 81]
  end.

(** The trailer "END\x0D\x0A" (src/vortex_frame_factory.c:844). *)
Definition trailer : bytes := [69; 78; 68; 13; 10].

(** struct _VortexFrame, header fields and payload
    (src/vortex_frame_factory.c:227-262).  Fields not set by a constructor are
    0, because axl_new is calloc. *)
Record frame := mkFrame {
  f_type : ftype;
  f_channel : Z;
  f_msgno : Z;
  f_more : bool;
  f_seqno : Z;
  f_size : Z;
  f_ansno : Z;
  f_payload : bytes
}.

(** Appending [bs] to a buffer of capacity [cap] that already holds [buf]:
    a write beyond the capacity is [UB]. *)
Definition put (cap : Z) (buf bs : bytes) : outcome bytes :=
  if zlen buf + zlen bs <=? cap then Ok (buf ++ bs) else UB.

(** One "itoa (value, buffer + position, 10); if (result == -1) return -1"
    group.  [None] is the "return -1". *)
Definition put_int (cap : Z) (buf : bytes) (v : Z) : outcome (option bytes) :=
  let! (r, w) := itoa v 10 in
  let! buf' := put cap buf w in
  Ok (if r =? -1 then None else Some buf').

Definition oibind (m : outcome (option bytes)) (k : bytes -> outcome (option bytes))
  : outcome (option bytes) :=
  let! o := m in match o with None => Ok None | Some b => k b end.

Definition putc (cap : Z) (buf : bytes) (bs : bytes) : outcome (option bytes) :=
  let! b := put cap buf bs in Ok (Some b).

Definition CONTENT_TYPE : bytes :=          (* "Content-Type: " *)
  [67;111;110;116;101;110;116;45;84;121;112;101;58;32].
Definition TRANSFER_ENCODING : bytes :=     (* "Content-Transfer-Encoding: " *)
  [67;111;110;116;101;110;116;45;84;114;97;110;115;102;101;114;45;69;110;99;111;100;105;110;103;58;32].

(** The optional MIME lines (src/vortex_frame_factory.c:442-472). *)
Definition put_mime (cap : Z) (ct te : option bytes) (buf : bytes) : outcome (option bytes) :=
  oibind (match ct with
          | None => Ok (Some buf)
          | Some s => putc cap buf (CONTENT_TYPE ++ s ++ [CR; LF])
          end) (fun buf =>
  oibind (match te with
          | None => Ok (Some buf)
          | Some s => putc cap buf (TRANSFER_ENCODING ++ s ++ [CR; LF])
          end) (fun buf =>
  match ct, te with
  | None, None => Ok (Some buf)
  | _, _ => putc cap buf [CR; LF]
  end)).

(** vortex_frame_build_header (src/vortex_frame_factory.c:349-477).  [None]
    is the -1 result.  The function receives [buffer_size] but never looks at
    it; writing past it is [UB] here. *)
Definition build_header (cap : Z) (t : ftype) (channel msgno : Z) (more : bool)
           (seqno size ansno : Z) (ct te : option bytes) : outcome (option bytes) :=
  oibind (putc cap [] (keyword t ++ [SP])) (fun b =>
  oibind (put_int cap b channel) (fun b =>
  oibind (putc cap b [SP]) (fun b =>
  oibind (put_int cap b msgno) (fun b =>
  oibind (putc cap b [SP]) (fun b =>
  oibind (if ftype_eqb t TSEQ then Ok (Some b)
          else putc cap b [if more then STAR else DOT; SP]) (fun b =>
  oibind (put_int cap b seqno) (fun b =>
  if ftype_eqb t TSEQ then putc cap b [CR; LF]
  else
    oibind (putc cap b [SP]) (fun b =>
    oibind (put_int cap b size) (fun b =>
    oibind (if 0 <=? ansno
            then oibind (putc cap b [SP]) (fun b => put_int cap b ansno)
            else Ok (Some b)) (fun b =>
    oibind (putc cap b [CR; LF]) (fun b =>
    put_mime cap ct te b))))))))))).

(** vortex_frame_build_up_from_params_s_buffer with a caller provided buffer
    and no MIME headers, the way the sequencer calls it
    (src/vortex_frame_factory.c:692-859 with content_type = transfer_encoding
    = NULL, src/vortex_sequencer.c:388-412).  The result is the [frame_size]
    bytes to be sent, [None] is a NULL result.  The final NUL byte written at
    [header_length + size + 5] also has to be inside the buffer.  SEQ frames
    take the other builder below. *)
Definition build_frame (cap : Z) (t : ftype) (channel msgno : Z) (more : bool)
           (seqno ansno : Z) (payload : bytes) : outcome (option bytes) :=
  oibind (build_header cap t channel msgno more seqno (zlen payload)
                       (if ftype_eqb t TANS then ansno else -1) None None) (fun h =>
  if cap <=? zlen h then Ok None
  else
    let! b := put cap h payload in
    let! b := put cap b trailer in
    let! _ := put cap b [NULc] in
    Ok (Some b)).

(** vortex_frame_seq_build_up_from_params_buffer
    (src/vortex_frame_factory.c:531-565). *)
Definition build_seq (cap : Z) (channel ackno window : Z) : outcome (option bytes) :=
  oibind (build_header cap TSEQ channel ackno false window 0 (-1) None None) (fun h =>
  let! _ := put cap h [NULc] in
  Ok (Some h)).

(** ** Header parsing *)

Definition is_sep (c : byte) : bool := (c =? SP) || (c =? LF) || (c =? CR).
Definition is_digit (c : byte) : bool := (48 <=? c) && (c <=? 57).

(** The common scanning loop of get_int_value and get_unsigned_int_value
    (src/vortex_frame_factory.c:1415-1439, 1456-1480).  The string is the part
    of the line buffer from the current position on, including the final NUL;
    running past it reads uninitialised memory of [line]: [UB].  [None] means a
    character that is neither digit nor separator was found: the connection is
    shut down and -1 returned. *)
Fixpoint scan (s : bytes) : outcome (option (bytes * bytes)) :=
  match s with
  | [] => UB
  | c :: s' =>
    if is_sep c then Ok (Some ([], s'))
    else if is_digit c then
      let! r := scan s' in
      match r with
      | Some (ds, rest) => Ok (Some (c :: ds, rest))
      | None => Ok None
      end
    else Ok None
  end.

(** Value of a string of decimal digits. *)
Definition digits_value (ds : bytes) : Z :=
  fold_left (fun acc d => 10 * acc + (d - 48)) ds 0.

(** strtol (string, NULL, 10) on a string of digits, stored into an int
    (src/vortex_frame_factory.c:1442); LP64: long has 64 bits. *)
Definition strtol_int (ds : bytes) : Z := s32 (Z.min (digits_value ds) (two63 - 1)).
(** strtoul stored into an unsigned int (src/vortex_frame_factory.c:1484). *)
Definition strtoul_uint (ds : bytes) : Z := u32 (Z.min (digits_value ds) (two64 - 1)).

(** get_int_value (src/vortex_frame_factory.c:1411-1449): value, string that
    follows the separator and whether the connection was shut down. On error
    the position does not move. *)
Definition get_int (s : bytes) : outcome (Z * bytes * bool) :=
  let! r := scan s in
  match r with
  | Some (ds, rest) => Ok (strtol_int ds, rest, false)
  | None => Ok (-1, s, true)
  end.

(** get_unsigned_int_value (src/vortex_frame_factory.c:1451-1490). *)
Definition get_uint (s : bytes) : outcome (Z * bytes * bool) :=
  let! r := scan s in
  match r with
  | Some (ds, rest) => Ok (strtoul_uint ds, rest, false)
  | None => Ok (two32 - 1, s, true)
  end.

(** Result of vortex_frame_get_header_data: return code, header fields found
    so far, the more char, and whether the connection was shut down. *)
Record hdata := mkH {
  h_code : Z;
  h_channel : Z;
  h_msgno : Z;
  h_more_char : byte;
  h_seqno : Z;
  h_size : Z;
  h_ansno : Z;
  h_shut : bool
}.

(** CHECK_INDEX_AND_RETURN (src/vortex_frame_factory.c:1496-1502): [minus1]
    and [minus2] are the values the C comparison [value == -1], [value == -2]
    matches (4294967295 and 4294967294 for an unsigned field).  The string
    [rest] ends with the NUL that follows the line, so
    [position > header_length - 1] is [length rest <= 1]. *)
Definition check_index (value minus1 minus2 : Z) (rest : bytes) : option Z :=
  if value =? minus1 then Some (-1)
  else if (value =? minus2) || (zlen rest <=? 1) then Some (-2)
  else None.

Definition check_int (value : Z) (rest : bytes) : option Z :=
  check_index value (-1) (-2) rest.
Definition check_uint (value : Z) (rest : bytes) : option Z :=
  check_index value (two32 - 1) (two32 - 2) rest.

(** vortex_frame_get_header_data (src/vortex_frame_factory.c:1519-1578).
    [hdr] is the line from index 4 on. *)
Definition get_header_data (t : ftype) (hdr : bytes) : outcome hdata :=
  let hl := zlen hdr in
  if hl =? 0 then Ok (mkH (-2) 0 0 0 0 0 0 false)
  else
    let s := hdr ++ [NULc] in
    let code (rest : bytes) := (hl + 1 - zlen rest) + 1 in
    let! (channel, s, sh) := get_int s in
    match check_int channel s with
    | Some c => Ok (mkH c channel 0 0 0 0 0 sh)
    | None =>
      match t with
      | TSEQ =>
        let! (seqno, s, sh) := get_uint s in
        match check_uint seqno s with
        | Some c => Ok (mkH c channel 0 0 seqno 0 0 sh)
        | None =>
          let! (size, s, sh) := get_int s in
          match check_int size s with
          | Some c => Ok (mkH c channel 0 0 seqno size 0 sh)
          | None => Ok (mkH (code s) channel 0 0 seqno size 0 sh)
          end
        end
      | _ =>
        let! (msgno, s, sh) := get_int s in
        match check_int msgno s with
        | Some c => Ok (mkH c channel msgno 0 0 0 0 sh)
        | None =>
          let more_char := hd 0 s in
          match s with
          | [] | [_] => UB
          | _ :: _ :: s =>
            let! (seqno, s, sh1) := get_uint s in
            let! (size, s, sh2) := get_int s in
            if ftype_eqb t TANS then
              let! (ansno, s, sh3) := get_int s in
              Ok (mkH (code s) channel msgno more_char seqno size ansno (sh1 || sh2 || sh3))
            else
              Ok (mkH (code s) channel msgno more_char seqno size 0 (sh1 || sh2))
          end
        end
      end
    end.

(** ** Socket and frame reader *)

(** What successive calls to recv find.  [SData bs]: the bytes available,
    recv returns at most that many; [SAgain]: EAGAIN / EWOULDBLOCK (or -2 from a
    TLS receive handler); [SIntr]: EINTR; [SEof]: the peer closed; [SErr]: any
    other error.  An exhausted list behaves like EAGAIN for ever. *)
Inductive sev := SData (bs : bytes) | SAgain | SIntr | SEof | SErr.
Definition sock := list sev.

Inductive recv_res := RData (bs : bytes) | RAgain | REof | RErr.

(** vortex_connection_invoke_receive (connection, buffer, maxlen) with its
    EINTR retry loop (src/vortex_connection.c:6900-6915,
    src/vortex_frame_factory.c:1277, 1375).  [maxlen] > 0. *)
Fixpoint recv (maxlen : nat) (s : sock) : recv_res * sock :=
  match s with
  | [] => (RAgain, [])
  | SIntr :: s' => recv maxlen s'
  | SAgain :: s' => (RAgain, s')
  | SEof :: _ => (REof, s)
  | SErr :: s' => (RErr, s')
  | SData [] :: s' => recv maxlen s'
  | SData bs :: s' =>
    if Nat.leb (length bs) maxlen then (RData bs, s')
    else (RData (firstn maxlen bs), SData (skipn maxlen bs) :: s')
  end.

(** Why the connection was shut down by the frame reader. *)
Inductive why :=
| WNoLine | WType | WHeader | WChannel | WValues | WMoreChar | WWindow
| WClosed | WClosedPartial | WTooManyAgain | WError | WTrailer.

(** Reader state of a connection (src/vortex_connection_private.h):
    is_connected (with the reason it was lost), pending_line (empty = NULL),
    last_frame/buffer/bytes_read/remaining_bytes and no_data_opers. *)
Record rconn := mkR {
  r_down : option why;
  r_pending : bytes;
  r_partial : option (frame * bytes);
  r_nodata : Z
}.

Definition rconn0 : rconn := mkR None [] None 0.

Definition shutdown (c : rconn) (w : why) : rconn :=
  match r_down c with
  | Some _ => c
  | None => mkR (Some w) (r_pending c) (r_partial c) (r_nodata c)
  end.

(** Receive window of a channel: (consumed_seqno, seq_no_window). *)
Definition chwin := (Z * Z)%type.

(** vortex_channel_check_incoming_seqno (src/vortex_channel.c:9329-9345): the
    first comparison is done in unsigned int arithmetic, the second one in 64
    bit arithmetic. *)
Definition check_incoming_seqno (w : chwin) (seqno content_size : Z) : bool :=
  let (consumed, window) := w in
  if consumed <=? seqno then u32 (seqno - consumed + content_size) <=? window
  else (two32 - consumed) + seqno + content_size <=? window.

(** strlen/strdup: a C string stops at the first NUL. *)
Fixpoint cstr (s : bytes) : bytes :=
  match s with
  | [] => []
  | c :: s' => if c =? 0 then [] else c :: cstr s'
  end.

Inductive rl_res :=
| RLine (bytes_read : Z) (line : bytes)   (** content of the line buffer *)
| RLEof | RLAgain (pending : bytes) | RLErr.

(** The reading loop of vortex_frame_readline
    (src/vortex_frame_factory.c:1361-1409).  [room] is the number of
    iterations left, [first] is [n == 1], [buf] the content of the buffer. *)
Fixpoint readline_loop (room : nat) (first : bool) (buf : bytes) (s : sock) : rl_res * sock :=
  match room with
  | O => (RLine (zlen buf + 1) buf, s)
  | S room' =>
    let (r, s') := recv 1 s in
    match r with
    | RData bs =>
      let c := hd 0 bs in
      if c =? LF then (RLine (zlen buf + 1) (buf ++ [c]), s')
      else readline_loop room' false (buf ++ [c]) s'
    | REof => if first then (RLEof, s') else (RLine (zlen buf + 1) buf, s')
    | RAgain => (RLAgain (cstr buf), s')
    | RErr => (RLErr, s')
    end
  end.

(** vortex_frame_readline (src/vortex_frame_factory.c:1320-1409) with maxlen
    = 99 (line 1668).  The pending line is at most 97 bytes long, so the
    "desp >= maxlen" branch is unreachable; it is kept. *)
Definition maxline : Z := 99.
Definition readline (c : rconn) (s : sock) : rl_res * sock :=
  let desp := zlen (r_pending c) in
  if maxline <=? desp then (RLErr, s)
  else readline_loop (Z.to_nat (maxline - desp - 1)) true (r_pending c) s.

(** axl_stream_cmp (line, keyword, 3) chain (src/vortex_frame_factory.c:1747-1760). *)
Definition type_of_line (line : bytes) : option ftype :=
  let k := firstn 3 line in
  if bytes_eqb k (keyword TMSG) then Some TMSG
  else if bytes_eqb k (keyword TRPY) then Some TRPY
  else if bytes_eqb k (keyword TANS) then Some TANS
  else if bytes_eqb k (keyword TERR) then Some TERR
  else if bytes_eqb k (keyword TNUL) then Some TNUL
  else if bytes_eqb k (keyword TSEQ) then Some TSEQ
  else None.

(** Character [i] of the line buffer; the buffer is NUL terminated. *)
Definition line_at (line : bytes) (i : Z) : byte := nth (Z.to_nat i) (line ++ [NULc]) 0.

(** Result of vortex_frame_get_next: new connection state, rest of the socket
    events, and the frame if any; undefined behaviour is separate. *)
Definition rnext := outcome (rconn * sock * option frame).

(** End of the frame: process_buffer (src/vortex_frame_factory.c:1884-1921).
    [body] has exactly [f_size f + 5] bytes.  A negative size makes the code
    read [buffer[bytes_read - 5]] before the start of the buffer. *)
Definition process_buffer (c : rconn) (s : sock) (f : frame) (body : bytes) : rnext :=
  if f_size f <? 0 then UB
  else if bytes_eqb (skipn (Z.to_nat (f_size f)) body) trailer
  then Ok (c, s, Some (mkFrame (f_type f) (f_channel f) (f_msgno f) (f_more f) (f_seqno f)
                               (f_size f) (f_ansno f) (firstn (Z.to_nat (f_size f)) body)))
  else Ok (shutdown c WTrailer, s, None).

(** Reading of the rest of a frame received in part
    (src/vortex_frame_factory.c:1614-1665).  receive_raw gives 0 both for EOF
    and for EAGAIN, and errors are turned into 0 as well. *)
Definition continue_body (c : rconn) (s : sock) (f : frame) (got : bytes) : rnext :=
  let remaining := f_size f + 5 - zlen got in
  if remaining <=? 0 then Ok (c, s, None)
  else
    let (r, s') := recv (Z.to_nat remaining) s in
    match r with
    | RData bs =>
      let got' := got ++ bs in
      if zlen bs =? remaining
      then process_buffer (mkR (r_down c) (r_pending c) None (r_nodata c)) s' f got'
      else Ok (mkR (r_down c) (r_pending c) (Some (f, got')) (r_nodata c), s', None)
    | _ => Ok (shutdown (mkR (r_down c) (r_pending c) None (r_nodata c)) WClosedPartial, s', None)
    end.

(** First read of the body (src/vortex_frame_factory.c:1838-1882).
    - [size + 6] overflows int: UB.
    - malloc of a negative number of bytes fails: NULL is returned and the
      connection is left open.
    - a negative length given to recv lets the peer write past the (zero sized)
      buffer: UB.
    - recv of 0 bytes returns 0: taken as a closed connection. *)
Definition first_body (c : rconn) (s : sock) (f : frame) : rnext :=
  let size := f_size f in
  if two31 <=? size + 6 then UB
  else if size + 6 <? 0 then Ok (c, s, None)
  else if size + 5 <? 0 then UB
  else if size + 5 =? 0 then Ok (shutdown c WClosedPartial, s, None)
  else
    let (r, s') := recv (Z.to_nat (size + 5)) s in
    match r with
    | RData bs =>
      if zlen bs =? size + 5 then process_buffer c s' f bs
      else Ok (mkR (r_down c) (r_pending c) (Some (f, bs)) (r_nodata c), s', None)
    | RAgain => Ok (mkR (r_down c) (r_pending c) (Some (f, [])) (r_nodata c), s', None)
    | REof | RErr => Ok (shutdown c WClosedPartial, s', None)
    end.

(** What is decided from a complete header line. *)
Inductive decision := DFail (w : why) | DSeq (f : frame) | DBody (f : frame).

(** Decision on a complete header line (src/vortex_frame_factory.c:1719-1836).
    [chans] is vortex_connection_get_channel (NULL for negative numbers or when
    the connection is not connected, src/vortex_connection.c:4260-4283). *)
Definition decide_line (chans : Z -> option chwin) (bytes_read : Z) (line : bytes)
  : outcome decision :=
  if (bytes_read =? 1) || negb (line_at line (bytes_read - 1) =? LF)
     || negb (line_at line (bytes_read - 2) =? CR)
  then Ok (DFail WNoLine)
  else
    match type_of_line line with
    | None => Ok (DFail WType)
    | Some t =>
      let! h := get_header_data t (skipn 4 line) in
      if h_code h =? -2 then Ok (DFail WHeader)
      else
        let ch := if h_shut h || (h_channel h <? 0) then None else chans (h_channel h) in
        match ch with
        | None => Ok (DFail WChannel)
        | Some win =>
          if ftype_eqb t TSEQ then
            Ok (DSeq (mkFrame TSEQ (h_channel h) 0 false (h_seqno h) (h_size h) 0 []))
          else if h_code h <? 5 then Ok (DFail WValues)
          else if negb (h_more_char h =? DOT) && negb (h_more_char h =? STAR)
          then Ok (DFail WMoreChar)
          else if negb (check_incoming_seqno win (h_seqno h) (h_size h))
          then Ok (DFail WWindow)
          else Ok (DBody (mkFrame t (h_channel h) (h_msgno h) (h_more_char h =? STAR)
                                  (h_seqno h) (h_size h) (h_ansno h) []))
        end
    end.

(** Processing of a complete header line. *)
Definition process_line (chans : Z -> option chwin) (c : rconn) (s : sock)
           (bytes_read : Z) (line : bytes) : rnext :=
  let! d := decide_line chans bytes_read line in
  match d with
  | DFail w => Ok (shutdown c w, s, None)
  | DSeq f => Ok (c, s, Some f)
  | DBody f => first_body c s f
  end.

(** vortex_frame_get_next (src/vortex_frame_factory.c:1595-1923), port sharing
    already resolved.  [being_closed]/[initial_accept] only change the recorded
    error and are merged in [WClosed]. *)
Definition get_next (chans : Z -> option chwin) (c : rconn) (s : sock) : rnext :=
  match r_down c with
  | Some _ => Ok (c, s, None)
  | None =>
    match r_partial c with
    | Some (f, got) => continue_body c s f got
    | None =>
      let (r, s') := readline c s in
      let c0 := mkR (r_down c) [] None 0 in
      match r with
      | RLAgain p =>
        let c' := mkR (r_down c) p None (r_nodata c + 1) in
        if 25 <? r_nodata c + 1 then Ok (shutdown c' WTooManyAgain, s', None)
        else Ok (c', s', None)
      | RLEof => Ok (shutdown c0 WClosed, s', None)
      | RLErr => Ok (shutdown c0 WError, s', None)
      | RLine n line => process_line chans c0 s' n line
      end
    end
  end.

(** Repeated calls to get_next, as the reader thread does while the socket
    has data, collecting the frames.  [chans i] is the channel table when the
    i-th frame is being read.  [fuel] bounds the number of calls. *)
Fixpoint read_all (fuel : nat) (chans : nat -> Z -> option chwin) (i : nat)
         (c : rconn) (s : sock) : outcome (rconn * sock * list frame) :=
  match fuel with
  | O => Ok (c, s, [])
  | S fuel' =>
    match r_down c, s with
    | Some _, _ => Ok (c, s, [])
    | None, [] => Ok (c, s, [])
    | None, _ :: _ =>
      let! (c', s', o) := get_next (chans i) c s in
      match o with
      | Some f =>
        let! (c2, s2, fs) := read_all fuel' chans (S i) c' s' in
        Ok (c2, s2, f :: fs)
      | None => read_all fuel' chans i c' s'
      end
    end
  end.

(** The reader thread only calls get_next on a connection that select / poll /
    epoll reported as readable, once per report
    (src/vortex_reader.c:1100-1130, 1255-1287, 646-668): nothing is read until
    the next event that is not EAGAIN. *)
Fixpoint wait_readable (s : sock) : sock :=
  match s with
  | SData [] :: s' => wait_readable s'
  | SAgain :: s' => wait_readable s'
  | SIntr :: s' => wait_readable s'
  | _ => s
  end.

Fixpoint read_ready (fuel : nat) (chans : nat -> Z -> option chwin) (i : nat)
         (c : rconn) (s : sock) : outcome (rconn * sock * list frame) :=
  match fuel with
  | O => Ok (c, s, [])
  | S fuel' =>
    match r_down c, wait_readable s with
    | Some _, _ => Ok (c, s, [])
    | None, [] => Ok (c, [], [])
    | None, (_ :: _) as s0 =>
      let! (c', s', o) := get_next (chans i) c s0 in
      match o with
      | Some f =>
        let! (c2, s2, fs) := read_ready fuel' chans (S i) c' s' in
        Ok (c2, s2, f :: fs)
      | None => read_ready fuel' chans i c' s'
      end
    end
  end.
