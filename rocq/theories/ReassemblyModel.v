(** Joining the fragments of a message and delivering it, and the whole way of
    a data frame through the reader once it has been read
    (src/vortex_reader.c:273-626, src/vortex_channel.c:1933-2183,
    src/vortex_frame_factory.c:2324-2398).

    A frame is delivered to one of three levels of handlers
    (vortex_reader.c:588-622); which one is not modelled, only the frame. *)
From Verif Require Import Base CodecModel FlowModel MimeModel OutModel ReplyModel.

(** A frame once read (VortexFrame), with its block of memory and what the MIME
    processing found. The channel number is the one of the channel. *)
Record gframe := mkG {
  g_type : ftype;
  g_msgno : Z;
  g_ansno : Z;
  g_more : bool;
  g_seqno : Z;
  g_mf : mframe
}.
Definition g_set (g : gframe) (m : mframe) : gframe :=
  mkG (g_type g) (g_msgno g) (g_ansno g) (g_more g) (g_seqno g) m.
Definition g_payload_size (g : gframe) : Z := mf_size (g_mf g).
Definition g_content_size (g : gframe) : Z := get_content_size (g_mf g).

(** The part of VortexChannel used to join frames: previous_frame,
    complete_current_bytes, complete_flag, complete_frame_limit, the limit of
    the connection; whether the connection is up; the frames delivered. *)
Record rst := mkR {
  r_prev : list gframe;
  r_bytes : Z;
  r_flag : bool;
  r_limit : Z;
  r_climit : Z;
  r_up : bool;
  r_log : list gframe
}.
(** vortex_channel_empty_new (vortex_channel.c:1577): the flag starts on. *)
Definition r0 : rst := mkR [] 0 true 0 0 true [].

Definition r_down (s : rst) : rst :=
  mkR (r_prev s) (r_bytes s) (r_flag s) (r_limit s) (r_climit s) false (r_log s).

(** vortex_frame_are_joinable (vortex_frame_factory.c:2324-2398); the
    sequence number is computed as unsigned int. *)
Definition are_joinable (a b : gframe) : bool :=
  if negb (ftype_eqb (g_type a) (g_type b)) then false
  else if negb (g_more a) && negb (g_more b) then false
  else if negb (g_more a) && g_more b then false
  else if negb (g_msgno a =? g_msgno b) then false
  else if negb (g_ansno a =? g_ansno b) then false
  else u32 (g_seqno a + mf_size (g_mf a) + mf_hsize (g_mf a)) =? g_seqno b.

(** The limit in force (vortex_channel.c:2033-2050). *)
Definition eff_limit (s : rst) : Z :=
  let l := if 0 <? r_limit s then r_limit s else -1 in
  if l <? r_climit s then r_climit s else l.

(** vortex_channel_store_previous_frame (vortex_channel.c:2029-2068):
    complete_current_bytes is an int. *)
Definition store_frame (s : rst) (g : gframe) : outcome rst :=
  let bytes := r_bytes s + g_payload_size g in
  if two31 <=? bytes then UB else
  let s := mkR (r_prev s ++ [g]) bytes (r_flag s) (r_limit s) (r_climit s) (r_up s) (r_log s) in
  Ok (if (0 <? eff_limit s) && (eff_limit s <? bytes) then r_down s else s).

(** The memcpy of a stored frame (vortex_channel.c:2124-2125): content size
    bytes from the payload pointer. *)
Definition copy_frame (g : gframe) : outcome bytes :=
  let m := g_mf g in
  if mf_off m + get_content_size m <=? zlen (mf_mem m)
  then Ok (slice (mf_mem m) (mf_off m) (get_content_size m)) else UB.
Fixpoint copy_frames (l : list gframe) : outcome bytes :=
  match l with
  | [] => Ok []
  | g :: r => let! a := copy_frame g in let! b := copy_frames r in Ok (a ++ b)
  end.
Definition sum_content (l : list gframe) : Z := fold_right (fun g n => g_content_size g + n) 0 l.

(** vortex_channel_build_single_pending_frame (vortex_channel.c:2083-2183): the
    size and [size + 1] are ints; the rest comes from the first frame.  Only
    called with frames stored; the frame made has no MIME information. *)
Definition build_single (s : rst) : outcome (gframe * rst) :=
  match r_prev s with
  | [] => UB
  | g :: _ =>
      let size := sum_content (r_prev s) in
      if two31 <=? size + 1 then UB else
      let! content := copy_frames (r_prev s) in
      Ok (mkG (g_type g) (g_msgno g) (g_ansno g) false (g_seqno g) (mf_new (join_mem content) size),
          mkR [] 0 (r_flag s) (r_limit s) (r_climit s) (r_up s) (r_log s))
  end.

(** MIME processing and delivery (vortex_reader.c:580-622); [t] is the type of
    the frame read, not the one of the frame built.  [None]: out of fuel. *)
Definition deliver (s : rst) (t : ftype) (g : gframe) : outcome (option rst) :=
  let put m := mkR (r_prev s) (r_bytes s) (r_flag s) (r_limit s) (r_climit s) (r_up s) (r_log s ++ [g_set g m]) in
  if negb (g_more g) && negb (ftype_eqb t TNUL) && r_flag s then
    let! r := mime_process (g_mf g) in
    Ok (match r with Some (_, m) => Some (put m) | None => None end)
  else Ok (Some (put (g_mf g))).

(** A frame that passed all the checks (vortex_reader.c:511-622). *)
Definition fragment (s : rst) (g : gframe) : outcome (option rst) :=
  if g_more g then
    match r_prev s with
    | [] =>
        if r_flag s then let! s := store_frame s g in Ok (Some s)
        else deliver s (g_type g) g
    | _ =>
        if negb (are_joinable (last (r_prev s) g) g) then Ok (Some (r_down s))
        else let! s := store_frame s g in Ok (Some s)
    end
  else
    match r_prev s with
    | [] => deliver s (g_type g) g
    | _ =>
        let! s := store_frame s g in
        let! (j, s) := build_single s in
        deliver s (g_type g) j
    end.

(** The events of this part: a frame past the checks, set_complete_flag
    (1933-1943), set_complete_frame_limit (1969-1976) and
    vortex_connection_set_complete_frame_limit (vortex_connection.c:463-470). *)
Inductive fgev := RFrag (g : gframe) | RFlag (v : bool) | RLimit (n : Z) | RConnLimit (n : Z).
Definition fgstep (s : rst) (e : fgev) : outcome (option rst) :=
  match e with
  | RFrag g => if r_up s then fragment s g else Ok (Some s)
  | RFlag v => Ok (Some (mkR (r_prev s) (r_bytes s) v (r_limit s) (r_climit s) (r_up s) (r_log s)))
  | RLimit n => Ok (Some (mkR (r_prev s) (r_bytes s) (r_flag s) n (r_climit s) (r_up s) (r_log s)))
  | RConnLimit n => Ok (Some (mkR (r_prev s) (r_bytes s) (r_flag s) (r_limit s) n (r_up s) (r_log s)))
  end.
Fixpoint fgrun (s : rst) (es : list fgev) : outcome (option rst) :=
  match es with
  | [] => Ok (Some s)
  | e :: es' =>
      let! r := fgstep s e in
      match r with Some s' => fgrun s' es' | None => Ok None end
  end.

(** * The whole way of a data frame *)

(** What the peer sends: the fields of the header and the content. *)
Record wframe := mkW {
  w_type : ftype;
  w_msgno : Z;
  w_ansno : Z;
  w_more : bool;
  w_seqno : Z;
  w_content : bytes
}.
(** The frame made by vortex_frame_get_next (vortex_frame_factory.c:1838-1905). *)
Definition received (w : wframe) : gframe :=
  mkG (w_type w) (w_msgno w) (w_ansno w) (w_more w) (w_seqno w)
      (mf_new (sock_mem (w_content w)) (zlen (w_content w))).

(** The channel as the reader sees it: flow control, messages sent and not
    answered, messages received and not answered, fragments. *)
Record inc := mkInc { n_win : rwin; n_out : ochan; n_in : ichan; n_r : rst }.
Definition inc_up (c : inc) : bool := oc_up (n_out c) && ic_up (n_in c) && r_up (n_r c).
Definition inc_down (c : inc) : inc :=
  mkInc (n_win c) (odown (n_out c)) (idown (n_in c)) (r_down (n_r c)).

(** vortex_reader_process_socket (vortex_reader.c:341-622) for a data frame of
    an open channel.  The checks of the sequence number are made together; in
    the code the check of the message number is between them, which matters
    only to what is recorded once the connection is closed anyway. *)
Definition inc_frame (c : inc) (w : wframe) : outcome (option inc) :=
  if negb (inc_up c) then Ok (Some c) else
  let '(win, _, ok) := recv_data (n_win c) false (w_seqno w) (zlen (w_content w)) in
  let c := mkInc win (n_out c) (n_in c) (n_r c) in
  if negb ok then Ok (Some (inc_down c)) else
  let g := received w in
  let! (g, c) :=
    match w_type w with
    | TMSG => Ok (Some g, mkInc (n_win c) (n_out c) (recv_msg (n_in c) (w_msgno w) (w_more w)) (n_r c))
    | TNUL =>
        let! r := mime_process (g_mf g) in
        match r with
        | None => Ok (None, c)
        | Some (_, m) =>
            Ok (Some (g_set g m),
                mkInc (n_win c) (recv_reply (n_out c) TNUL (w_msgno w) (w_more w) (mf_size m =? 0)) (n_in c) (n_r c))
        end
    | t => Ok (Some g, mkInc (n_win c) (recv_reply (n_out c) t (w_msgno w) (w_more w) (zlen (w_content w) =? 0)) (n_in c) (n_r c))
    end in
  match g with
  | None => Ok None
  | Some g =>
      if negb (inc_up c) then Ok (Some (inc_down c)) else
      let! r := fragment (n_r c) g in
      match r with
      | None => Ok None
      | Some s =>
          let c := mkInc (n_win c) (n_out c) (n_in c) s in
          Ok (Some (if r_up s then c else inc_down c))
      end
  end.
Fixpoint inc_run (c : inc) (ws : list wframe) : outcome (option inc) :=
  match ws with
  | [] => Ok (Some c)
  | w :: ws' =>
      let! r := inc_frame c w in
      match r with Some c' => inc_run c' ws' | None => Ok None end
  end.
(** A channel with some messages sent and not answered. *)
Definition inc0 (sent : list Z) : inc :=
  mkInc rwin0 (mkOC (fold_left Z.max sent (-1)) (-1) sent 0 false true [] [] []) (ic0 []) r0.
