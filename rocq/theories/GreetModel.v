(** The greetings at the start of a session: how the message is built
    (src/vortex_greetings.c:64-180), how the frames of the peer are put together
    and checked by the initiator (vortex_greetings_process, 268-326) and by the
    listener (__vortex_listener_second_step_accept, src/vortex_listener.c:360-414),
    vortex_greetings_is_reply_ok (src/vortex_greetings.c:397-457), the cache of
    greetings (src/vortex_connection.c:654-812) and the loop that waits for them
    in vortex_connection_new (vortex_connection_do_greetings_exchange,
    src/vortex_connection.c:1896-2007).

    The channel of the frames is 0: the others do not exist yet and
    vortex_frame_get_next refuses their frames (src/vortex_frame_factory.c:1781).
    Features, languages and profiles are shorter than 2^30 octets.  The XML parser,
    with the DTD, is a parameter.  The text made to record an error with the
    payload of no frame (src/vortex_greetings.c:419) is what printf does with a
    null pointer: "(null)" with the usual library. *)
From Coq Require Import String Ascii.
From Verif Require Import Base CodecModel FlowModel MimeModel ReassemblyModel.

Definition asc (s : string) : bytes := map (fun a => Z.of_N (N_of_ascii a)) (list_ascii_of_string s).
Definition crlf : bytes := [13; 10].

(** * The message *)

(** memcpy of [s] after what was written to the buffer, of [cap] octets. *)
Definition copy (cap : Z) (b s : bytes) : outcome bytes := if zlen b + zlen s <=? cap then Ok (b ++ s)%list else UB.
Definition size_of (o : option bytes) : Z := match o with Some f => zlen f | None => 0 end.
(** The two attributes (97-117). *)
Definition copy_attr (cap : Z) (b name : bytes) (o : option bytes) : outcome bytes :=
  match o with
  | None => Ok b
  | Some v => let! b := copy cap b name in let! b := copy cap b v in copy cap b (asc "'")
  end.
(** The loop over the profiles (126-165); [None]: not enough room. *)
Fixpoint copy_profiles (cap : Z) (filtered : bytes -> bool) (b : bytes) (l : list bytes) : outcome (option bytes) :=
  match l with
  | [] => Ok (Some b)
  | u :: r =>
      if filtered u then copy_profiles cap filtered b r
      else if cap <=? zlen b + zlen u + 36 then Ok None
      else let! b := copy cap b (asc "   <profile uri='") in
           let! b := copy cap b u in
           let! b := copy cap b (asc "' />" ++ crlf)%list in
           copy_profiles cap filtered b r
  end.
(** __vortex_greetings_build_message (64-180). *)
Definition build (cap : Z) (features localize : option bytes) (filtered : bytes -> bool) (profiles : list bytes) : outcome (option bytes) :=
  if cap <=? size_of features + size_of localize + 36 then Ok None
  else
    let! b := copy cap [] (asc "<greeting") in
    let! b := copy_attr cap b (asc " features='") features in
    let! b := copy_attr cap b (asc " localize='") localize in
    match profiles with
    | [] => let! b := copy cap b (asc " />" ++ crlf)%list in Ok (Some b)
    | _ =>
        let! b := copy cap b (asc ">" ++ crlf)%list in
        let! r := copy_profiles cap filtered b profiles in
        match r with
        | None => Ok None
        | Some b => let! b := copy cap b (asc "</greeting>" ++ crlf)%list in Ok (Some b)
        end
    end.
(** The buffer of vortex_greetings_send and vortex_greetings_client_send (205, 479). *)
Definition buffer_size : Z := 5100.
(** The content of the frames: vortex_channel_send_rpy puts the MIME type of
    channel 0 before it (src/vortex_channel.c:560-610, 1649-1653). *)
Definition mime_head : bytes := (asc "Content-Type: application/beep+xml" ++ crlf ++ crlf)%list.
Definition content_of (message : bytes) : bytes := (mime_head ++ message)%list.

(** * The frames of the peer *)

Inductive role := Initiator | Listener.
(** What is done with a frame: more are needed, the connection is closed, or the
    greetings are complete and this is their payload. *)
Inductive verdict := VWait | VClosed | VGreetings (payload : bytes).
(** vortex_frame_join (src/vortex_frame_factory.c:2190-2245): a block of the size
    of both and a zero. *)
Definition join (a b : gframe) : option gframe :=
  if are_joinable a b then
    Some (mkG (g_type a) (g_msgno a) (g_ansno a) (g_more a && g_more b) (g_seqno a)
              (mf_new (get_payload (g_mf a) ++ get_payload (g_mf b) ++ [0])%list (mf_size (g_mf a) + mf_size (g_mf b))))
  else None.
(** vortex_greetings_is_reply_ok (397-457). *)
Definition is_reply_ok (g : gframe) : verdict :=
  match g_type g with
  | TRPY =>
      if negb (g_msgno g =? 0) || negb (g_seqno g =? 0) then VClosed
      else match get_content_type (g_mf g) with
           | Some t => if bytes_eqb t (asc "application/beep+xml") then VGreetings (get_payload (g_mf g)) else VClosed
           | None => VClosed
           end
  | _ => VClosed
  end.
(** A complete frame.  A SEQ frame has no payload and is not looked at
    (src/vortex_frame_factory.c:3262).  [None]: out of fuel. *)
Definition complete (g : gframe) : outcome (option verdict) :=
  match g_type g with
  | TSEQ => Ok (Some (is_reply_ok g))
  | _ =>
      let! r := mime_process (g_mf g) in
      match r with
      | None => Ok None
      | Some (_, m) => Ok (Some (is_reply_ok (g_set g m)))
      end
  end.

(** The state: the frame kept (VORTEX_GREETINGS_PENDING_FRAME) and whether the
    connection is open. *)
Record gst := mkGS { gs_pending : option gframe; gs_up : bool }.
Definition gs0 : gst := mkGS None true.
(** A frame read by vortex_frame_get_next, which checks it against the window: no SEQ
    frame is sent before the end of the greetings, so it is the first one. *)
Definition in_window (w : wframe) : bool :=
  match w_type w with TSEQ => true | _ => check_incoming_seqno (rw_consumed rwin0, rw_window rwin0) (w_seqno w) (zlen (w_content w)) end.
Definition greet_frame (r : role) (s : gst) (w : wframe) : outcome (option (gst * verdict)) :=
  if negb (gs_up s) then Ok (Some (s, VClosed))
  else if negb (in_window w) then Ok (Some (mkGS (gs_pending s) false, VClosed))
  else
    let f := match gs_pending s with None => Some (received w) | Some p => join p (received w) end in
    match f with
    | None =>
        match r with
        | Initiator => Ok (Some (mkGS None false, VClosed))
        (* vortex_frame_get_more_flag gives -1 (vortex_listener.c:379) and the data is
           set to NULL *)
        | Listener => Ok (Some (mkGS None true, VWait))
        end
    | Some g =>
        if g_more g then Ok (Some (mkGS (Some g) true, VWait))
        else
          let! v := complete g in
          match v with
          | None => Ok None
          | Some v => Ok (Some (mkGS None (match v with VClosed => false | _ => true end), v))
          end
    end.
(** The frames are taken until the greetings are complete or the connection is
    closed. *)
Fixpoint greet (r : role) (s : gst) (ws : list wframe) : outcome (option (gst * verdict)) :=
  match ws with
  | [] => Ok (Some (s, VWait))
  | w :: k =>
      let! x := greet_frame r s w in
      match x with
      | Some (s, VWait) => greet r s k
      | x => Ok x
      end
  end.

(** * What is known of the peer *)

(** The cache: the key is a C string (vortex_connection.c:694, 710).  [parse]: the
    document is valid, and what it says. *)
Definition cache (info : Type) := list (bytes * info).
Definition cached {info} (c : cache info) (key : bytes) : option info := option_map snd (find (fun e => bytes_eqb (fst e) key) c).
Fixpoint c_string (b : bytes) : bytes := match b with [] => [] | x :: r => if x =? 0 then [] else x :: c_string r end.
Definition parse_greetings {info} (parse : bytes -> option info) (c : cache info) (payload : bytes) : cache info * option info :=
  match cached c (c_string payload) with
  | Some i => (c, Some i)
  | None => match parse payload with Some i => ((c_string payload, i) :: c, Some i) | None => (c, None) end
  end.
(** The greetings received by all the connections of a context. *)
Fixpoint parse_all {info} (parse : bytes -> option info) (c : cache info) (l : list bytes) : cache info * list (bytes * option info) :=
  match l with
  | [] => (c, [])
  | p :: k => let '(c, i) := parse_greetings parse c p in let '(c, r) := parse_all parse c k in (c, (p, i) :: r)
  end.

(** * The loop of vortex_connection_new *)

(** What the next call to vortex_frame_get_next finds: a frame, no complete frame, or
    the end of the connection; and what the wait for more gives, if it is made:
    the value of __vortex_connection_wait_on and the time left. *)
Inductive arrival := ARead (w : wframe) | ANothing | AEnd.
Record eev := mkE { e_read : arrival; e_wait : Z; e_left : Z }.
Inductive estate :=
| ERunning (s : gst) (timeout : Z)
| EReturned (payload : option bytes)
| EFuel.
Definition exchange_step (st : estate) (e : eev) : outcome estate :=
  match st with
  | ERunning s timeout =>
      let! r :=
        match e_read e with
        | ARead w => greet_frame Initiator s w
        | ANothing => Ok (Some (s, VWait))
        | AEnd => Ok (Some (mkGS (gs_pending s) false, VClosed))
        end in
      match r with
      | None => Ok EFuel
      | Some (s, VGreetings p) => Ok (EReturned (Some p))
      | Some (s, _) =>
          if (0 <? timeout) && gs_up s then
            if (e_wait e <=? 0) || (e_left e <=? 0) then Ok (EReturned None) else Ok (ERunning s (e_left e))
          else match gs_pending s with
               | Some _ => Ok (ERunning s timeout)
               | None => Ok (EReturned None)
               end
      end
  | _ => Ok st
  end.
Fixpoint exchange (st : estate) (es : list eev) : outcome estate :=
  match es with [] => Ok st | e :: k => let! st := exchange_step st e in exchange st k end.
