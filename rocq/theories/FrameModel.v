(** Frame objects and their memory: creation, reception, copy, join, comparison,
    references and release (src/vortex_frame_factory.c 226-310, 960-1241,
    1901-1905, 2090-2497, 2561-2610, 2767-2880, 3218-3363).

    The heap is a table of blocks: a block is its bytes, or [None] after free.
    A pointer is a block and an offset.  Reading or writing outside of a block,
    using a block or a frame after it was freed, giving free or realloc a
    pointer that malloc did not return and overflowing an int are undefined
    behaviour.  A byte that was never written is [UNDEF].  Allocations succeed.
    A memcpy of no bytes is accepted for any pointer.  A walk over the headers
    that does not end (it cannot happen, see C183) is undefined behaviour too.
    The context of the frames is one counter of references. *)
From Verif Require Import Base CodecModel MimeModel HdrModel.

Definition UNDEF : Z := -1.
Notation ptr := (nat * Z)%type (only parsing).

(** struct _VortexFrame (226-280). *)
Record frame := mkFr {
  f_id : Z; f_type : ftype; f_ch : Z; f_msgno : Z; f_more : bool; f_seqno : Z; f_size : Z; f_ans : Z;
  f_hsize : Z;
  f_payload : option ptr; f_buffer : option nat; f_content : option ptr;
  f_chref : Z; f_ref : Z; f_hdr : option nat
}.

Record fm := mkFM {
  m_heap : list (option bytes);
  m_stat : list (option (Z * hst));
  m_frames : list (option frame);
  m_next : Z;          (* ctx->frame_id *)
  m_ctx : Z            (* references to the context held by frames *)
}.
Definition fm0 : fm := mkFM [] [] [] 1 0.

Definition with_heap (s : fm) (h : list (option bytes)) : fm := mkFM h (m_stat s) (m_frames s) (m_next s) (m_ctx s).
Definition with_stat (s : fm) (t : list (option (Z * hst))) : fm := mkFM (m_heap s) t (m_frames s) (m_next s) (m_ctx s).
Definition put (s : fm) (i : nat) (f : option frame) : fm :=
  mkFM (m_heap s) (m_stat s) (upd_nth (m_frames s) i f) (m_next s) (m_ctx s).
Definition get (s : fm) (i : nat) : outcome frame :=
  match nth_error (m_frames s) i with Some (Some f) => Ok f | _ => UB end.
Definition block_of (s : fm) (b : nat) : outcome bytes :=
  match nth_error (m_heap s) b with Some (Some l) => Ok l | _ => UB end.
Definition malloc (s : fm) (l : bytes) : fm * nat := (with_heap s (m_heap s ++ [Some l]), length (m_heap s)).
Definition mfree (s : fm) (p : ptr) : outcome fm :=
  let! _ := block_of s (fst p) in
  if snd p =? 0 then Ok (with_heap s (upd_nth (m_heap s) (fst p) None)) else UB.

(** Reading [n] bytes through a pointer, as memcpy does. *)
Definition read (s : fm) (p : option ptr) (n : Z) : outcome bytes :=
  if n =? 0 then Ok [] else
  match p with
  | None => UB
  | Some (b, off) =>
      let! l := block_of s b in
      if (0 <=? off) && (0 <? n) && (off + n <=? zlen l)
      then Ok (firstn (Z.to_nat n) (skipn (Z.to_nat off) l)) else UB
  end.

(** The fields of the frames being built; the memory of the node is zeroed
    (axl_new), so what is not set is 0, false or NULL. *)
Definition blank_frame (id : Z) (t : ftype) (ch msgno : Z) (more : bool) (seq size ans : Z) : frame :=
  mkFr id t ch msgno more seq size ans 0 None None None 0 1 None.
Definition set_payload (f : frame) (p : option ptr) : frame :=
  mkFr (f_id f) (f_type f) (f_ch f) (f_msgno f) (f_more f) (f_seqno f) (f_size f) (f_ans f) (f_hsize f)
       p (f_buffer f) (f_content f) (f_chref f) (f_ref f) (f_hdr f).
Definition set_hdr (f : frame) (z : Z) (h : option nat) : frame :=
  mkFr (f_id f) (f_type f) (f_ch f) (f_msgno f) (f_more f) (f_seqno f) (f_size f) (f_ans f) z
       (f_payload f) (f_buffer f) (f_content f) (f_chref f) (f_ref f) h.
Definition set_ref (f : frame) (r : Z) : frame :=
  mkFr (f_id f) (f_type f) (f_ch f) (f_msgno f) (f_more f) (f_seqno f) (f_size f) (f_ans f) (f_hsize f)
       (f_payload f) (f_buffer f) (f_content f) (f_chref f) r (f_hdr f).
Definition set_chref (f : frame) (c : Z) : frame :=
  mkFr (f_id f) (f_type f) (f_ch f) (f_msgno f) (f_more f) (f_seqno f) (f_size f) (f_ans f) (f_hsize f)
       (f_payload f) (f_buffer f) (f_content f) c (f_ref f) (f_hdr f).
(** vortex_frame_reconfigure_mime (3218-3237) and the end of the copy (1207-1213). *)
Definition set_body (f : frame) (content payload : option ptr) (hsize size : Z) : frame :=
  mkFr (f_id f) (f_type f) (f_ch f) (f_msgno f) (f_more f) (f_seqno f) size (f_ans f) hsize
       payload (f_buffer f) content (f_chref f) (f_ref f) (f_hdr f).

(** vortex_ctx_ref2 and __vortex_frame_get_next_id (290-305). *)
Definition next_id (s : fm) : outcome (fm * Z) :=
  if m_next s <? two31 - 1
  then Ok (mkFM (m_heap s) (m_stat s) (m_frames s) (m_next s + 1) (m_ctx s + 1), m_next s) else UB.
Definition add_frame (s : fm) (f : frame) : fm * nat :=
  (mkFM (m_heap s) (m_stat s) (m_frames s ++ [Some f]) (m_next s) (m_ctx s), length (m_frames s)).

(** vortex_frame_set_mime_header (3389-3476) on a frame. *)
Definition frame_head (s : fm) (f : frame) (o : hop) : outcome (fm * frame) :=
  let s1 := match f_hdr f with Some _ => s | None => with_stat s (m_stat s ++ [Some (1, h_new)]) end in
  let k := match f_hdr f with Some k => k | None => length (m_stat s) end in
  match nth_error (m_stat s1) k with
  | Some (Some (c, h)) =>
      let! r := h_op h (f_hsize f) o in
      match r with
      | None => UB
      | Some (h', z) => Ok (with_stat s1 (upd_nth (m_stat s1) k (Some (c, h'))), set_hdr f z (Some k))
      end
  | _ => UB
  end.
Definition opt_head (s : fm) (f : frame) (name : bytes) (v : option bytes) : outcome (fm * frame) :=
  match v with Some c => frame_head s f (HSet name c) | None => Ok (s, f) end.

(** MIME_CONTENT_TYPE and MIME_CONTENT_TRANSFER_ENCODING (vortex_types.h:112-119). *)
Definition n_ctype : bytes := [67;111;110;116;101;110;116;45;84;121;112;101].
Definition n_cte : bytes :=
  [67;111;110;116;101;110;116;45;84;114;97;110;115;102;101;114;45;69;110;99;111;100;105;110;103].

(** The arguments of a frame creation. *)
Record fargs := mkFA {
  a_type : ftype; a_ch : Z; a_msgno : Z; a_more : bool; a_seqno : Z; a_size : Z; a_ans : Z;
  a_ctype : option bytes; a_enc : option bytes
}.

(** vortex_frame_create_full (1013-1068); vortex_frame_create (954-969) is the
    same without headers.  [more] is not stored.  [src] is the memory the
    caller gives, from the pointer on. *)
Definition create (s : fm) (a : fargs) (src : option bytes) : outcome (fm * nat) :=
  let! (s, id) := next_id s in
  let f := blank_frame id (a_type a) (a_ch a) (a_msgno a) false (a_seqno a) (a_size a) (a_ans a) in
  let! (s, f) :=
    match src with
    | Some m =>
        if 0 <? a_size a then
          if a_size a <=? zlen m then
            let (s', b) := malloc s (firstn (Z.to_nat (a_size a)) m ++ [0]) in
            Ok (s', set_payload f (Some (b, 0)))
          else UB
        else Ok (s, f)
    | None => Ok (s, f)
    end in
  let! (s, f) := opt_head s f n_ctype (a_ctype a) in
  let! (s, f) := opt_head s f n_cte (a_enc a) in
  Ok (add_frame s f).

(** vortex_frame_create_full_ref (1112-1165): the block of the caller becomes
    the payload.  A block that is not taken stays with the caller and is not
    part of the heap. *)
Definition create_ref (s : fm) (a : fargs) (blk : option bytes) : outcome (fm * nat) :=
  let! (s, id) := next_id s in
  let f := blank_frame id (a_type a) (a_ch a) (a_msgno a) false (a_seqno a) (a_size a) (a_ans a) in
  let (s, f) :=
    match blk with
    | Some m => if 0 <? a_size a then let (s', b) := malloc s m in (s', set_payload f (Some (b, 0))) else (s, f)
    | None => (s, f)
    end in
  let! (s, f) := opt_head s f n_ctype (a_ctype a) in
  let! (s, f) := opt_head s f n_cte (a_enc a) in
  Ok (add_frame s f).

(** A frame read from the socket (1806-1905): the buffer holds the content and
    the trailer, with the byte after the content cleared; the sixth byte of the
    trailing memory is left out. *)
Definition receive (s : fm) (a : fargs) (chref : Z) (content : bytes) : outcome (fm * nat) :=
  let! (s, id) := next_id s in
  let (s, b) := malloc s (sock_mem content) in
  let f := blank_frame id (a_type a) (a_ch a) (a_msgno a) (a_more a) (a_seqno a) (zlen content) (a_ans a) in
  let f := mkFr (f_id f) (f_type f) (f_ch f) (f_msgno f) (f_more f) (f_seqno f) (f_size f) (f_ans f) 0
                (Some (b, 0)) (Some b) None chref 1 None in
  Ok (add_frame s f).

(** vortex_frame_mime_process (3247-3363) with the parser of the model of MIME.
    A frame that already has headers is out of the model and counts as undefined
    behaviour, and so does a block with a byte never written. *)
Fixpoint store_all (h : hst) (hs : list mheader) : outcome (option hst) :=
  match hs with
  | [] => Ok (Some h)
  | (n, v) :: r =>
      let! x := h_store h n (trim (cstr v)) in
      match x with None => Ok None | Some h' => store_all h' r end
  end.
Definition process (s : fm) (i : nat) : outcome (fm * bool) :=
  let! f := get s i in
  match f_type f with
  | TSEQ => Ok (s, false)
  | _ =>
      match f_hdr f, f_payload f with
      | None, Some (b, off) =>
          let! l := block_of s b in
          if (0 <=? off) && (off <=? zlen l) && negb (existsb (fun c => c <? 0) l) then
            let mem := skipn (Z.to_nat off) l in
            let! _ := rd mem in
            let! _ := rd (tl mem) in
            let! r := mime_parse mem (f_size f) in
            match r with
            | MFuel => UB
            | MNone => Ok (s, false)
            | MPlain h => Ok (put s i (Some (set_body f (Some (b, off)) (Some (b, off + h)) h (f_size f - h))), true)
            | MHead hs h =>
                let! x := store_all h_new hs in
                match x with
                | None => UB
                | Some t =>
                    let s1 := with_stat s (m_stat s ++ [Some (1, t)]) in
                    let f1 := set_body f (Some (b, off)) (Some (b, off + h)) h (f_size f - h) in
                    Ok (put s1 i (Some (set_hdr f1 h (Some (length (m_stat s))))), true)
                end
            end
          else UB
      | _, _ => UB
      end
  end.

(** vortex_frame_copy (1181-1241). *)
Definition copy (s : fm) (i : nat) : outcome (fm * nat) :=
  let! f := get s i in
  let a := fun size => mkFA (f_type f) (f_ch f) (f_msgno f) (f_more f) (f_seqno f) size (f_ans f) None None in
  let! (s, j) :=
    match f_content f with
    | Some (b, off) =>
        let csize := f_size f + f_hsize f in
        if (csize <? two31) && (- two31 <=? csize) then
          let! src := if 0 <? csize then let! l := read s (f_content f) csize in Ok (Some l) else Ok None in
          let! (s', j) := create s (a csize) src in
          let! r := get s' j in
          match f_payload r with
          | Some (b', _) =>
              if 0 <=? csize - f_size f
              then Ok (put s' j (Some (set_body r (Some (b', 0)) (Some (b', csize - f_size f)) (f_hsize f) (f_size f))), j)
              else UB
          | None => if csize - f_size f =? 0
                    then Ok (put s' j (Some (set_body r None None (f_hsize f) (f_size f))), j) else UB
          end
        else UB
    | None =>
        let! src := match f_payload f with
                    | Some _ => if 0 <? f_size f then let! l := read s (f_payload f) (f_size f) in Ok (Some l) else Ok None
                    | None => Ok None
                    end in
        create s (a (f_size f)) src
    end in
  let! r := get s j in
  let r := set_chref r (f_chref f) in
  match f_hdr f with
  | None => Ok (put s j (Some r), j)
  | Some k =>
      match nth_error (m_stat s) k with
      | Some (Some (c, h)) =>
          Ok (put (with_stat s (upd_nth (m_stat s) k (Some (c + 1, h)))) j (Some (set_hdr r (f_hsize r) (Some k))), j)
      | _ => UB
      end
  end.

(** vortex_frame_are_joinable (2324-2398). *)
Definition joinable (a b : frame) : bool :=
  ftype_eqb (f_type a) (f_type b) && f_more a && (f_ch a =? f_ch b) && (f_msgno a =? f_msgno b) &&
  (f_ans a =? f_ans b) && (u32 (f_seqno a + f_size a + f_hsize a) =? f_seqno b).

(** memcpy to a block from an offset. *)
Definition write (s : fm) (b : nat) (off : Z) (src : bytes) : outcome fm :=
  let! l := block_of s b in
  if (0 <=? off) && (off + zlen src <=? zlen l)
  then Ok (with_heap s (upd_nth (m_heap s) b
             (Some (firstn (Z.to_nat off) l ++ src ++ skipn (Z.to_nat off + length src) l))))
  else UB.

(** axl_realloc: the bytes kept and, if the block grows, bytes never written.
    The realloc of no block for a frame that says it has bytes is the malloc of
    bytes never written that the caller then takes for the payload; it counts
    as undefined behaviour. *)
Definition realloc (s : fm) (p : option ptr) (had : Z) (n : Z) : outcome (fm * nat) :=
  match p with
  | None => if had =? 0 then Ok (malloc s (repeat UNDEF (Z.to_nat n))) else UB
  | Some q =>
      let! l := block_of s (fst q) in
      let! s' := mfree s q in
      Ok (malloc s' (firstn (Z.to_nat n) l ++ repeat UNDEF (Z.to_nat n - length l)))
  end.

(** __vortex_frame_join_common (2190-2245) as vortex_frame_join (2268-2272) and
    vortex_frame_join_extending (2288-2292): [None] is the NULL returned for
    frames that are not joinable. *)
Definition join (s : fm) (reuse : bool) (i j : nat) : outcome (fm * option nat) :=
  let! a := get s i in
  let! b := get s j in
  if joinable a b then
    let! (s, id) := next_id s in
    let total := f_size a + f_size b in
    if (0 <=? f_size a) && (0 <=? f_size b) && (total + 1 <? two31) then
      let! (s, blk) :=
        if reuse then
          let! (s', blk) := realloc s (f_payload a) (f_size a) (total + 1) in
          Ok (put s' i (Some (set_payload a None)), blk)
        else
          let (s', blk) := malloc s (repeat 0 (Z.to_nat (total + 1))) in
          let! src := read s' (f_payload a) (f_size a) in
          let! s' := write s' blk 0 src in
          Ok (s', blk) in
      let! a := get s i in
      let! b := get s j in
      let! src := read s (f_payload b) (f_size b) in
      let! s := write s blk (f_size a) src in
      let r := mkFr id (f_type a) (f_ch a) (f_msgno a) (f_more a && f_more b) (f_seqno a) total (f_ans a)
                    (f_hsize a) (Some (blk, 0)) None None (f_chref a) 1 (f_hdr a) in
      let s := put s i (Some (set_hdr a (f_hsize a) None)) in
      let (s, k) := add_frame s r in
      Ok (s, Some k)
    else UB
  else Ok (s, None).

(** vortex_frame_mime_status_free (156-181). *)
Definition status_free (s : fm) (k : option nat) : outcome fm :=
  match k with
  | None => Ok s
  | Some k =>
      match nth_error (m_stat s) k with
      | Some (Some (c, h)) => Ok (with_stat s (upd_nth (m_stat s) k (if c - 1 =? 0 then None else Some (c - 1, h))))
      | _ => UB
      end
  end.

(** vortex_frame_free (2154-2188). *)
Definition frame_free (s : fm) (i : nat) (f : frame) : outcome fm :=
  let! s := status_free s (f_hdr f) in
  let! s := match f_buffer f, f_content f, f_payload f with
            | Some b, _, _ => mfree s (b, 0)
            | None, Some p, _ => mfree s p
            | None, None, Some p => mfree s p
            | None, None, None => Ok s
            end in
  Ok (mkFM (m_heap s) (m_stat s) (upd_nth (m_frames s) i None) (m_next s) (m_ctx s - 1)).

(** vortex_frame_ref (2090-2100) and vortex_frame_unref (2110-2125). *)
Definition frame_ref (s : fm) (i : nat) : outcome fm :=
  let! f := get s i in
  if f_ref f <? two31 - 1 then Ok (put s i (Some (set_ref f (f_ref f + 1)))) else UB.
Definition frame_unref (s : fm) (i : nat) : outcome fm :=
  let! f := get s i in
  let f := set_ref f (f_ref f - 1) in
  if f_ref f =? 0 then frame_free s i f else Ok (put s i (Some f)).

(** vortex_frame_get_mime_header (3532-3546). *)
Definition get_header (s : fm) (f : frame) (name : bytes) : outcome (list (bytes * bytes)) :=
  match f_hdr f with
  | None => Ok []
  | Some k =>
      match nth_error (m_stat s) k with
      | Some (Some (_, h)) =>
          let! r := h_get h name in
          match r with None => UB | Some l => Ok l end
      | _ => UB
      end
  end.
(** vortex_frame_get_content_type and vortex_frame_get_transfer_encoding
    (2561-2607): [dflt] is the value for a MIME message without the header. *)
Definition octets : bytes :=
  [97;112;112;108;105;99;97;116;105;111;110;47;111;99;116;101;116;45;115;116;114;101;97;109].
Definition binary : bytes := [98;105;110;97;114;121].
Definition get_field (s : fm) (f : frame) (name dflt : bytes) : outcome (option bytes) :=
  match f_hdr f, f_content f with
  | None, None => Ok None
  | _, _ =>
      let! l := get_header s f name in
      Ok (Some (match l with (_, c) :: _ => c | [] => dflt end))
  end.

(** axl_cmp on two blocks from the pointers on. *)
Fixpoint ccmp (a b : bytes) : outcome bool :=
  match a, b with
  | x :: a', y :: b' =>
      if (x <? 0) || (y <? 0) then UB else
      if x =? y then (if x =? 0 then Ok true else ccmp a' b') else Ok false
  | _, _ => UB
  end.
Definition tail_at (s : fm) (p : ptr) : outcome bytes :=
  let! l := block_of s (fst p) in
  if 0 <=? snd p then Ok (skipn (Z.to_nat (snd p)) l) else UB.
(** vortex_frame_common_string_check (2303-2314) on strings and on payloads. *)
Definition same_string (a b : option bytes) : bool :=
  match a, b with
  | None, None => true
  | Some x, Some y => bytes_eqb x y
  | _, _ => false
  end.
Definition same_payload (s : fm) (a b : option ptr) : outcome bool :=
  match a, b with
  | None, None => Ok true
  | Some p, Some q =>
      let! x := tail_at s p in
      let! y := tail_at s q in
      ccmp x y
  | _, _ => Ok false
  end.

(** vortex_frame_are_equal (2411-2497). *)
Definition are_equal (s : fm) (i j : nat) : outcome bool :=
  let! a := get s i in
  let! b := get s j in
  if ftype_eqb (f_type a) (f_type b) && Bool.eqb (f_more a) (f_more b) && (f_ch a =? f_ch b) &&
     (f_msgno a =? f_msgno b) && (f_seqno a =? f_seqno b) && (f_size a =? f_size b) && (f_ans a =? f_ans b) then
    let! ta := get_field s a h_ctype octets in
    let! tb := get_field s b h_ctype octets in
    if same_string ta tb then
      let! ea := get_field s a h_cte binary in
      let! eb := get_field s b h_cte binary in
      if same_string ea eb then same_payload s (f_payload a) (f_payload b) else Ok false
    else Ok false
  else Ok false.

(** What the application reads: vortex_frame_get_payload with
    vortex_frame_get_payload_size, and vortex_frame_get_content with
    vortex_frame_get_content_size (2767-2880). *)
Definition read_payload (s : fm) (i : nat) : outcome bytes :=
  let! f := get s i in read s (f_payload f) (f_size f).
Definition read_content (s : fm) (i : nat) : outcome bytes :=
  let! f := get s i in
  read s (match f_content f with Some p => Some p | None => f_payload f end) (f_size f + f_hsize f).

(** The calls of an application and what they return; after the processing of
    the MIME headers, vortex_frame_get_mime_header_size (2621-2626) too.
    [FInfo] stands for vortex_frame_get_id, _type, _channel, _channel_ref, _msgno,
    _more_flag, _seqno, _ansno and _payload_size (2525-2546, 2638-2660,
    2689-2750, 2784-2817). *)
Inductive fop :=
| FCreate (a : fargs) (src : option bytes)
| FCreateRef (a : fargs) (blk : option bytes)
| FReceive (a : fargs) (chref : Z) (content : bytes)
| FMime (i : nat)
| FHead (i : nat) (o : hop)
| FCopy (i : nat)
| FJoin (reuse : bool) (i j : nat)
| FRef (i : nat) | FUnref (i : nat)
| FEqual (i j : nat)
| FPayload (i : nat)
| FContent (i : nat)
| FInfo (i : nat).
Inductive fobs := ONew (i : nat) | ONull | OUnit | OBool (b : bool) | OBytes (l : bytes)
| OMime (ok : bool) (hsize : Z)
| OInfo (id : Z) (t : ftype) (ch msgno : Z) (more : bool) (seqno size ans chref : Z).

Definition fstep (s : fm) (o : fop) : outcome (fm * fobs) :=
  match o with
  | FCreate a src => let! (s, i) := create s a src in Ok (s, ONew i)
  | FCreateRef a blk => let! (s, i) := create_ref s a blk in Ok (s, ONew i)
  | FReceive a c l => let! (s, i) := receive s a c l in Ok (s, ONew i)
  | FMime i => let! (s, b) := process s i in let! f := get s i in Ok (s, OMime b (f_hsize f))
  | FHead i h => let! f := get s i in let! (s, f) := frame_head s f h in Ok (put s i (Some f), OUnit)
  | FCopy i => let! (s, j) := copy s i in Ok (s, ONew j)
  | FJoin r i j => let! (s, k) := join s r i j in Ok (s, match k with Some k => ONew k | None => ONull end)
  | FRef i => let! s := frame_ref s i in Ok (s, OUnit)
  | FUnref i => let! s := frame_unref s i in Ok (s, OUnit)
  | FEqual i j => let! b := are_equal s i j in Ok (s, OBool b)
  | FPayload i => let! l := read_payload s i in Ok (s, OBytes l)
  | FContent i => let! l := read_content s i in Ok (s, OBytes l)
  | FInfo i =>
      let! f := get s i in
      Ok (s, OInfo (f_id f) (f_type f) (f_ch f) (f_msgno f) (f_more f) (f_seqno f) (f_size f) (f_ans f) (f_chref f))
  end.
Fixpoint frun (s : fm) (os : list fop) : outcome (fm * list (fop * fobs)) :=
  match os with
  | [] => Ok (s, [])
  | o :: r =>
      let! (s1, b) := fstep s o in
      let! (s2, l) := frun s1 r in
      Ok (s2, (o, b) :: l)
  end.

(** vortex_frame_get_mime_header on a frame, with the walk over its values. *)
Definition header_of (s : fm) (i : nat) (n : bytes) : outcome (list (bytes * bytes)) := let! f := get s i in get_header s f n.
