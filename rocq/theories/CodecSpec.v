(** Specification of the wire format, written from RFC 3080 / RFC 3081 and
    independent of the C code. *)
From Verif Require Import Base CodecModel.

(** [ds] is the canonical decimal notation of [v]. *)
Definition decimal (v : Z) (ds : bytes) : Prop :=
  ds <> [] /\
  Forall (fun d => 48 <= d <= 57) ds /\
  v = fold_left (fun acc d => 10 * acc + (d - 48)) ds 0 /\
  (hd 0 ds = 48 -> ds = [48]).

Definition kw (t : ftype) : bytes :=
  match t with
  | TMSG => [77; 83; 71] | TRPY => [82; 80; 89] | TANS => [65; 78; 83]
  | TERR => [69; 82; 82] | TNUL => [78; 85; 76] | TSEQ => [83; 69; 81]
  end.

(** A data frame whose fields are inside the ranges of RFC 3080 section 2.2.1
    (channel, message and answer numbers 0..2147483647, sequence numbers
    0..4294967295) and whose payload is small enough for the C int arithmetic. *)
Definition data_frame (f : frame) : Prop :=
  f_type f <> TSEQ /\
  0 <= f_channel f < 2147483648 /\
  0 <= f_msgno f < 2147483648 /\
  0 <= f_seqno f < 4294967296 /\
  f_size f = Z.of_nat (length (f_payload f)) /\
  f_size f + 6 < 2147483648 /\
  (if ftype_eqb (f_type f) TANS then 0 <= f_ansno f < 2147483648 else f_ansno f = 0).

(** Header line of a data frame:
    type SP channel SP msgno SP more SP seqno SP size [SP ansno] CR LF. *)
Definition header_line (f : frame) (line : bytes) : Prop :=
  exists dch dmsg dseq dsize dans,
    decimal (f_channel f) dch /\ decimal (f_msgno f) dmsg /\
    decimal (f_seqno f) dseq /\ decimal (f_size f) dsize /\
    decimal (f_ansno f) dans /\
    line = kw (f_type f) ++ [32] ++ dch ++ [32] ++ dmsg ++ [32]
             ++ [if f_more f then 42 else 46] ++ [32] ++ dseq ++ [32] ++ dsize
             ++ (if ftype_eqb (f_type f) TANS then 32 :: dans else []) ++ [13; 10].

(** The bytes of a data frame: header line, payload and END CR LF. *)
Definition data_wire (f : frame) (w : bytes) : Prop :=
  exists line, header_line f line /\ w = line ++ f_payload f ++ [69; 78; 68; 13; 10].

(** A SEQ frame (RFC 3081 section 3.1.1): SEQ SP channel SP ackno SP window CR LF.
    In the C structure the acknowledgement is in seqno and the window in size. *)
Definition seq_frame (channel ackno window : Z) : frame :=
  mkFrame TSEQ channel 0 false ackno window 0 [].

Definition seq_wire (channel ackno window : Z) (w : bytes) : Prop :=
  exists dch dack dwin,
    decimal channel dch /\ decimal ackno dack /\ decimal window dwin /\
    w = kw TSEQ ++ [32] ++ dch ++ [32] ++ dack ++ [32] ++ dwin ++ [13; 10].

(** A frame as it travels: data frame or SEQ frame the reader understands. *)
Definition wire (f : frame) (w : bytes) : Prop :=
  (data_frame f /\ data_wire f w) \/
  (exists channel ackno window,
      0 <= channel < 2147483648 /\ 0 <= ackno < 4294967294 /\ 0 <= window < 2147483648 /\
      f = seq_frame channel ackno window /\ seq_wire channel ackno window w).

(** The receiver can take the frame: the channel exists and, for data frames,
    every octet is inside the window that was advertised, that is, its distance
    to the acknowledged octet does not go beyond the window. *)
Definition receivable (chans : Z -> option chwin) (f : frame) : Prop :=
  exists consumed window,
    chans (f_channel f) = Some (consumed, window) /\
    0 <= consumed < 4294967296 /\ 0 <= window < 4294967296 /\
    (f_type f <> TSEQ ->
     (f_seqno f - consumed) mod 4294967296 + f_size f <= window).

(** ** Sockets *)

(** All the bytes the socket will give. *)
Fixpoint sdata (s : sock) : bytes :=
  match s with
  | [] => []
  | SData bs :: s' => bs ++ sdata s'
  | _ :: s' => sdata s'
  end.

(** The connection stays up: only data, EAGAIN and EINTR are seen. *)
Definition alive (s : sock) : Prop :=
  Forall (fun e => match e with SEof | SErr => False | _ => True end) s.

(** No call to recv finds the socket empty. *)
Definition never_again (s : sock) : Prop :=
  Forall (fun e => match e with SData _ | SIntr => True | _ => False end) s.

(** Number of calls that are always enough to read everything. *)
Fixpoint weight (s : sock) : nat :=
  match s with
  | [] => O
  | SData bs :: s' => S (length bs + weight s')
  | _ :: s' => S (weight s')
  end.

(** Number of times the socket is found empty. *)
Definition agains (s : sock) : Z :=
  Z.of_nat (length (filter (fun e => match e with SAgain => true | _ => false end) s)).

(** ** What the decoder accepts *)

(** A (possibly empty) string of decimal digits and its value. *)
Definition digit_string (ds : bytes) : Prop := Forall (fun d => 48 <= d <= 57) ds.
Definition text_value (ds : bytes) : Z := fold_left (fun acc d => 10 * acc + (d - 48)) ds 0.

(** [x] is what remains of the number [v] once stored in a C int / unsigned
    int on a 64 bit platform: saturation at the limit of long, then the low 32
    bits. *)
Definition as_int (v x : Z) : Prop :=
  -2147483648 <= x < 2147483648 /\
  x mod 4294967296 = (if v <? 9223372036854775808 then v else 9223372036854775807) mod 4294967296.
Definition as_uint (v x : Z) : Prop :=
  x = (if v <? 18446744073709551616 then v else 18446744073709551615) mod 4294967296.

Definition separator (c : Z) : Prop := c = 32 \/ c = 13 \/ c = 10.

(** The header lines the decoder accepts: any octet after the keyword and
    after the continuation indicator, fields that may be empty, separators that
    may be CR or LF, and arbitrary text after the last field. *)
Definition lenient_line (f : frame) (line : bytes) : Prop :=
  exists x ch s1 msg s2 more y seq s3 size s4 rest,
    line = kw (f_type f) ++ x :: ch ++ s1 :: msg ++ s2 :: more :: y :: seq ++ s3 :: size ++ s4 :: rest /\
    digit_string ch /\ digit_string msg /\ digit_string seq /\ digit_string size /\
    separator s1 /\ separator s2 /\ separator s3 /\ separator s4 /\
    as_int (text_value ch) (f_channel f) /\ 0 <= f_channel f /\
    as_int (text_value msg) (f_msgno f) /\
    as_uint (text_value seq) (f_seqno f) /\
    as_int (text_value size) (f_size f) /\
    ((more = 46 /\ f_more f = false) \/ (more = 42 /\ f_more f = true)) /\
    (if ftype_eqb (f_type f) TANS
     then exists ans s5 rest', rest = ans ++ s5 :: rest' /\ digit_string ans /\ separator s5 /\
                               as_int (text_value ans) (f_ansno f)
     else f_ansno f = 0) /\
    (exists l0, line = l0 ++ [13; 10]).

(** The SEQ lines the decoder accepts (the two topmost acknowledgements and
    the sizes -1 and -2 are handled specially, see the refutations). *)
Definition lenient_seq (f : frame) (line : bytes) : Prop :=
  exists x ch s1 rest,
    line = kw TSEQ ++ x :: ch ++ s1 :: rest /\
    digit_string ch /\ separator s1 /\
    as_int (text_value ch) (f_channel f) /\ 0 <= f_channel f.

(** The channel is known and the right edge of the frame is inside its window. *)
Definition edge_ok (chans : Z -> option chwin) (f : frame) : Prop :=
  exists consumed window, chans (f_channel f) = Some (consumed, window) /\
    (f_seqno f + f_size f - consumed) mod 4294967296 <= window.

(** Tables of windows whose numbers are C unsigned ints. *)
Definition sane_chans (chans : Z -> option chwin) : Prop :=
  forall n c w, chans n = Some (c, w) -> 0 <= c < 4294967296 /\ 0 <= w < 4294967296.

(** [line] is how the reader sees the raw header bytes [hdr]: the same unless a
    NUL byte is inside. *)
Definition seen_as (hdr line : bytes) : Prop := ~ In 0 hdr -> line = hdr.

(** [raw] are the bytes that made the reader deliver [f]: skipped header lines
    (of frames announcing less than -6 bytes, for which no memory can be
    allocated), a header line, the payload and the trailer. *)
Definition received (chans : Z -> option chwin) (f : frame) (raw : bytes) : Prop :=
  exists skipped hdr line,
    Forall (fun h => exists g l, seen_as h l /\ lenient_line g l /\ f_size g < -6) skipped /\
    seen_as hdr line /\
    match f_type f with
    | TSEQ => raw = concat skipped ++ hdr /\ lenient_seq f line /\ chans (f_channel f) <> None
    | _ => raw = concat skipped ++ hdr ++ f_payload f ++ [69; 78; 68; 13; 10] /\
           f_size f = Z.of_nat (length (f_payload f)) /\
           lenient_line f line /\ edge_ok chans f
    end.

(** The two kinds of header line that make the reader misbehave: one that ends
    right after the continuation indicator, and one that announces at least
    2147483642 bytes. *)
Definition short_line (line : bytes) : Prop :=
  exists t x ch s1 msg s2 c,
    line = kw t ++ x :: ch ++ s1 :: msg ++ [s2; c] /\
    digit_string ch /\ digit_string msg /\ separator s1 /\ separator s2.

Definition huge_line (line : bytes) : Prop :=
  exists f x ch s1 msg s2 more y seq s3 size s4 rest,
    line = kw (f_type f) ++ x :: ch ++ s1 :: msg ++ s2 :: more :: y :: seq ++ s3 :: size ++ s4 :: rest /\
    lenient_line f line /\ digit_string size /\ as_int (text_value size) (f_size f) /\
    2147483642 <= text_value size.
