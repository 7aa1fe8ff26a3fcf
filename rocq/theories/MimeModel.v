(** Recognising the MIME headers of a received frame and looking headers up
    (src/vortex_frame_factory.c:76-224, 2561-2880, 3059-3363, 3532-3658).

    The bytes of a frame live in a block of memory whose end matters, because
    the code reads past the content: [sock_mem] is the block of a frame read
    from the socket and [join_mem] the block of a frame built from fragments.
    A read outside of the block is [UB].  A position [iterator] is kept as the
    pair of the memory from there on and [frame->size - iterator], which goes
    below zero when the code runs past the content. *)
From Verif Require Import Base.

(** vortex_frame_factory.c:1838-1905: [size + 6] bytes are reserved,
    [size + 5] are read (the content and "END\r\n") and the first byte of the
    trailer is set to 0; the last byte is never written and reading it is
    counted as [UB]. *)
Definition trailer : bytes := [0; 78; 68; 13; 10].
Definition sock_mem (content : bytes) : bytes := content ++ trailer.
(** vortex_channel.c:2110-2157 with vortex_frame_create_full_ref (1147-1150):
    [axl_new (unsigned char, size + 1)], but an empty message gets no payload
    (NULL). *)
Definition join_mem (content : bytes) : bytes :=
  match content with [] => [] | _ => content ++ [0] end.

Definition COLON : byte := 58.
Definition TAB : byte := 9.
Definition is_wsp (c : byte) : bool := (c =? SP) || (c =? TAB).

(** [payload[iterator]]. *)
Definition rd (rest : bytes) : outcome byte :=
  match rest with c :: _ => Ok c | [] => UB end.

(** Characters that go on a field name (3075-3079; bytes over 127 are negative
    as [char] and so below 33). *)
Definition name_char (c : byte) : bool :=
  negb (c =? COLON) && negb (c =? SP) && negb (c =? TAB) && (c <=? 126) && (33 <=? c).

(** The name loop of vortex_frame_read_mime_header (3072-3082); [k] is
    [iterator - mark].  Gives the bytes passed over and the new position. *)
Fixpoint scan_name (rest : bytes) (n k : Z) : outcome (bytes * bytes * Z) :=
  if n <=? 0 then Ok ([], rest, n) else
  match rest with
  | [] => UB
  | c :: r =>
      if name_char c && (k <? 995) then
        let! (nm, r', n') := scan_name r (n - 1) (k + 1) in Ok (c :: nm, r', n')
      else Ok ([], rest, n)
  end.

(** The loop over blanks (3138-3140). *)
Fixpoint skip_blanks (rest : bytes) (n : Z) : outcome (bytes * Z) :=
  if n <=? 0 then Ok (rest, n) else
  match rest with
  | [] => UB
  | c :: r => if c =? SP then skip_blanks r (n - 1) else Ok (rest, n)
  end.

(** The two tests of a line end in the loop over the value (3157-3171). *)
Definition crlf_stop (rest : bytes) (n : Z) : outcome bool :=
  if 1 <? n then
    match rest with
    | [] => UB
    | c :: r =>
        if c =? CR then
          match r with
          | [] => UB
          | d :: r' => if d =? LF then let! e := rd r' in Ok (negb (is_wsp e)) else Ok false
          end
        else Ok false
    end
  else Ok false.
Definition lf_stop (rest : bytes) (n : Z) : outcome bool :=
  if 0 <? n then
    match rest with
    | [] => UB
    | c :: r => if c =? LF then let! d := rd r in Ok (negb (is_wsp d)) else Ok false
    end
  else Ok false.

(** The loop over the value (3156-3179).  With the position past the size the
    loop reads nothing and counts until the [int] overflows. *)
Fixpoint scan_value (rest : bytes) (n : Z) : outcome (bytes * bytes * Z) :=
  let! a := crlf_stop rest n in
  if a : bool then Ok ([], rest, n) else
  let! b := lf_stop rest n in
  if b : bool then Ok ([], rest, n) else
  if n =? 0 then Ok ([], rest, n) else
  match rest with
  | [] => UB
  | c :: r => let! (v, r', n') := scan_value r (n - 1) in Ok (c :: v, r', n')
  end.

(** The C string held by a buffer, and axl_stream_trim, which drops the blanks
    at both ends (axl library; blanks are space, tab, CR and LF). *)
Fixpoint cstr (b : bytes) : bytes :=
  match b with
  | [] => []
  | c :: r => if c =? 0 then [] else c :: cstr r
  end.
Definition is_blank (c : byte) : bool := (c =? SP) || (c =? TAB) || (c =? CR) || (c =? LF).
Fixpoint drop_blanks (b : bytes) : bytes :=
  match b with
  | c :: r => if is_blank c then drop_blanks r else b
  | [] => []
  end.
Definition trim (b : bytes) : bytes := rev (drop_blanks (rev (drop_blanks b))).

(** VortexMimeHeader (66-84): name and content. *)
Definition mheader := (bytes * bytes)%type.

(** vortex_frame_read_mime_header (3059-3211): [Ok None] is [-1], otherwise
    the header found (name and content before trimming) and the new position. *)
Definition read_mime_header (rest : bytes) (n : Z) : outcome (option (mheader * bytes * Z)) :=
  let! (name, r1, n1) := scan_name rest n 0 in
  let! c := rd r1 in
  if (126 <? c) || (c <? 33) then Ok None else
  if 995 <=? zlen name then Ok None else
  if n1 =? 0 then Ok None else
  let! (r2, n2) := skip_blanks r1 n1 in
  let! d := rd r2 in
  if negb (d =? COLON) then Ok None else
  let! (v, r3, n3) := scan_value r2 n2 in
  let! e := rd r3 in
  let step := if e =? LF then 1 else 2 in
  Ok (Some ((name, tl v), skipn (Z.to_nat step) r3, n3 - step)).

(** The test for the empty line (3299-3300). *)
Definition at_blank (rest : bytes) : outcome bool :=
  match rest with
  | [] => UB
  | c :: r =>
      if c =? LF then Ok true else
      if c =? CR then let! d := rd r in Ok (d =? LF) else Ok false
  end.

(** Result of the parser: no MIME found, an empty line at the start, or headers
    and an empty line, with the size of the part before the body; [MFuel] is out
    of fuel (excluded by the theorems). *)
Inductive mres := MNone | MPlain (hsize : Z) | MHead (hs : list mheader) (hsize : Z) | MFuel.

(** The inner loop (3297-3319): [None] inside is the error exit. *)
Fixpoint mime_headers (fuel : nat) (rest : bytes) (n : Z) : outcome (option (option (list mheader * bytes * Z))) :=
  match fuel with
  | O => Ok None
  | S f =>
      let! b := at_blank rest in
      if b : bool then Ok (Some (Some ([], rest, n))) else
      let! h := read_mime_header rest n in
      match h with
      | None => Ok (Some None)
      | Some (hd, rest', n') =>
          let! t := mime_headers f rest' n' in
          Ok (match t with
              | Some (Some (hs, r, m)) => Some (Some (hd :: hs, r, m))
              | x => x
              end)
      end
  end.

(** The outer loop (3294-3353). *)
Fixpoint mime_outer (fuel : nat) (size : Z) (acc : list mheader) (rest : bytes) (n : Z) : outcome mres :=
  match fuel with
  | O => Ok MFuel
  | S f =>
      if n <=? 0 then Ok MNone else
      let! t := mime_headers (S (length rest)) rest n in
      match t with
      | None => Ok MFuel
      | Some None => Ok MNone
      | Some (Some (hs, r, m)) =>
          let! c := rd r in
          if c =? LF then Ok (MHead (acc ++ hs) (size - m + 1)) else
          if 1 <? m then
            let! d := rd (tl r) in
            if (c =? CR) && (d =? LF) then Ok (MHead (acc ++ hs) (size - m + 2))
            else mime_outer f size (acc ++ hs) (tl r) (m - 1)
          else mime_outer f size (acc ++ hs) (tl r) (m - 1)
      end
  end.

(** vortex_frame_mime_process (3247-3363) on the block [mem] of a frame of
    [size] bytes: the test of a body without headers, then the loops. *)
Definition mime_parse (mem : bytes) (size : Z) : outcome mres :=
  if (2 <=? size) && match mem with a :: b :: _ => (a =? CR) && (b =? LF) | _ => false end
  then Ok (MPlain 2)
  else if (size =? 1) && match mem with a :: _ => a =? LF | _ => false end
  then Ok (MPlain 1)
  else mime_outer (S (length mem)) size [] mem size.

(** axl_casecmp: equal but for the case of ASCII letters. *)
Definition lower (c : byte) : byte := if (65 <=? c) && (c <=? 90) then c + 32 else c.
Definition casecmp (a b : bytes) : bool := bytes_eqb (map lower a) (map lower b).

(** "content-type", "content-transfer-encoding", "mime-version", "content-id"
    and "content-description" (180-189). *)
Definition h_ctype : bytes := [99;111;110;116;101;110;116;45;116;121;112;101].
Definition h_cte : bytes :=
  [99;111;110;116;101;110;116;45;116;114;97;110;115;102;101;114;45;101;110;99;111;100;105;110;103].
Definition h_mver : bytes := [109;105;109;101;45;118;101;114;115;105;111;110].
Definition h_cid : bytes := [99;111;110;116;101;110;116;45;105;100].
Definition h_cdesc : bytes := [99;111;110;116;101;110;116;45;100;101;115;99;114;105;112;116;105;111;110].
Definition fast_names : list bytes := [h_ctype; h_cte; h_mver; h_cid; h_cdesc].

(** VortexMimeStatus (86-112): the chains of headers with the same name, linked
    by [next_header] from [first]; each chain is linked by [next].  A fast
    reference is the part of the chain of that name that starts at the header
    it points to. *)
Record mstatus := mkMS {
  ms_chains : list (list mheader);
  ms_fast : list (bytes * list mheader)
}.
Definition ms0 : mstatus := mkMS [] [].

Fixpoint fast_get (l : list (bytes * list mheader)) (k : bytes) : option (list mheader) :=
  match l with
  | [] => None
  | (k', h) :: r => if bytes_eqb k k' then Some h else fast_get r k
  end.
(** Which of the fast names a name is (180-188, 199-208). *)
Definition fast_key (name : bytes) : option bytes :=
  find (fun k => casecmp name k) fast_names.
Definition chain_is (name : bytes) (ch : list mheader) : bool :=
  match ch with (nm, _) :: _ => casecmp name nm | [] => false end.

(** vortex_frame_mime_find (194-224): the header found and those after it. *)
Definition mime_find (s : mstatus) (name : bytes) : option (list mheader) :=
  match fast_key name with
  | Some k => fast_get (ms_fast s) k
  | None => find (chain_is name) (ms_chains s)
  end.

(** Append to the chain of that name (3121-3129): the chain is reached through
    [mime_find]; both ways end at the same last header. *)
Fixpoint append_to (name : bytes) (h : mheader) (l : list (list mheader)) : list (list mheader) :=
  match l with
  | [] => []
  | ch :: r => if chain_is name ch then (ch ++ [h]) :: r else ch :: append_to name h r
  end.

(** The store of a header found (3113-3136, 3182-3196), with
    vortex_frame_mime_check_and_update_fast_ref (177-192): the fast reference
    moves to the new header, the last of its chain. *)
Definition ms_add (s : mstatus) (h : mheader) : mstatus :=
  let name := fst h in
  let h' := (name, trim (cstr (snd h))) in
  mkMS (match mime_find s name with
        | Some _ => append_to name h' (ms_chains s)
        | None => [h'] :: ms_chains s
        end)
       (match fast_key name with
        | Some k => (k, [h']) :: ms_fast s
        | None => ms_fast s
        end).
Definition ms_build (hs : list mheader) : mstatus := fold_left ms_add hs ms0.

(** The parts of VortexFrame the parser changes (226-290): the block, the
    offset of [payload], [size], [mime_headers_size], whether [content] is set
    and [mime_headers]. *)
Record mframe := mkMF {
  mf_mem : bytes;
  mf_off : Z;
  mf_size : Z;
  mf_hsize : Z;
  mf_content : bool;
  mf_status : option mstatus
}.
Definition mf_new (mem : bytes) (size : Z) : mframe := mkMF mem 0 size 0 false None.

(** vortex_frame_mime_process with vortex_frame_reconfigure_mime (3218-3235).
    [mime_headers] stays NULL in the first test (3278-3288), otherwise it is
    created (3290-3292) and on errors it is freed.  The log message at 3271
    (compiled in by default, configure.ac:245) reads the first two bytes. *)
Definition mime_process (f : mframe) : outcome (option (bool * mframe)) :=
  let! _ := rd (mf_mem f) in
  let! _ := rd (tl (mf_mem f)) in
  let! r := mime_parse (mf_mem f) (mf_size f) in
  match r with
  | MFuel => Ok None
  | MNone => Ok (Some (false, mkMF (mf_mem f) (mf_off f) (mf_size f) (mf_hsize f) (mf_content f) None))
  | MPlain h => Ok (Some (true, mkMF (mf_mem f) h (mf_size f - h) h true (mf_status f)))
  | MHead hs h => Ok (Some (true, mkMF (mf_mem f) h (mf_size f - h) h true (Some (ms_build hs))))
  end.

(** The accessors: the payload, its size, the content, its size
    (2767-2880) as the bytes the caller reads through them. *)
Definition slice (mem : bytes) (off size : Z) : bytes := firstn (Z.to_nat size) (skipn (Z.to_nat off) mem).
Definition get_payload (f : mframe) : bytes := slice (mf_mem f) (mf_off f) (mf_size f).
Definition get_content_size (f : mframe) : Z := mf_size f + mf_hsize f.
Definition get_content (f : mframe) : bytes :=
  slice (mf_mem f) (if mf_content f then 0 else mf_off f) (get_content_size f).
(** vortex_frame_get_mime_header (3532-3546). *)
Definition get_mime_header (f : mframe) (name : bytes) : option (list mheader) :=
  match mf_status f with Some s => mime_find s name | None => None end.
(** "application/octet-stream" *)
Definition octet_stream : bytes :=
  [97;112;112;108;105;99;97;116;105;111;110;47;111;99;116;101;116;45;115;116;114;101;97;109].
(** vortex_frame_get_content_type (2561-2576). *)
Definition get_content_type (f : mframe) : option bytes :=
  if match mf_status f with Some _ => true | None => mf_content f end then
    match get_mime_header f h_ctype with
    | Some ((_, c) :: _) => Some c
    | _ => Some octet_stream
    end
  else None.
