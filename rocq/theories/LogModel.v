(** The log and the errors recorded: vortex_log_is_enabled and the other settings
    (src/vortex.c 106-345), the items of configuration (vortex_conf_get 362-442, vortex_conf_set
    463-570), the handlers (594-718), _vortex_log_common and _vortex_log (725-885), and the record
    of an error of a connection (__vortex_connection_shutdown_and_record_error,
    src/vortex_connection.c 3480-3527) with the places that give it text of the peer
    (src/vortex_frame_factory.c 1887-1890, src/vortex_greetings.c 418-423).

    The library is built with ENABLE_VORTEX_LOG.  printf is that of the C standard for the
    conversions %d, %s and %%, and glibc's for a NULL string; other conversions, a conversion without
    its argument or with one of other type, and a string that is not terminated are undefined
    behaviour. *)
From Coq Require Import String.
From Verif Require Import Base GreetModel MsgModel CodecModel.
Open Scope list_scope.

(** * printf *)
(** [ABuf]: the bytes of a buffer after which memory is not set. *)
Inductive arg := AInt (n : Z) | AStr (s : option bytes) | ABuf (bs : bytes).
Definition PCT : Z := 37.
Definition as_text (s : option bytes) : bytes := match s with Some t => cstr t | None => asc "(null)" end.
Definition has_nul (bs : bytes) : bool := existsb (fun b => b =? 0) bs.
(** A conversion and its argument. *)
Definition conv (c : Z) (a : arg) : outcome bytes :=
  match a with
  | AInt n => if c =? 100 then Ok (dec n) else UB
  | AStr s => if c =? 115 then Ok (as_text s) else UB
  | ABuf bs => if (c =? 115) && has_nul bs then Ok (cstr bs) else UB
  end.
(** The text, and the arguments not used. *)
Fixpoint vprintf (fmt : bytes) (args : list arg) : outcome bytes :=
  match fmt with
  | [] => Ok []
  | x :: r =>
      if x =? PCT then
        match r with
        | [] => UB
        | c :: r' =>
            if c =? PCT then let! t := vprintf r' args in Ok (PCT :: t)
            else match args with
                 | [] => UB
                 | a :: args' => let! s := conv c a in let! t := vprintf r' args' in Ok (s ++ t)
                 end
        end
      else let! t := vprintf r args in Ok (x :: t)
  end.

(** * The settings of the log *)
Definition L_DEBUG : Z := 1.
Definition L_WARNING : Z := 2.
Definition L_CRITICAL : Z := 4.
(** What a log handler does with the arguments: expand the message with them or not. *)
Inductive handler := HExpand | HPlain.
Record lctx := mkG {
  g_debug : bool; g_debug_checked : bool; g_color : bool; g_color_checked : bool;
  g_filter : Z; g_filter_on : bool; g_filter_checked : bool;
  g_mutex : bool; g_h1 : option handler; g_h2 : option handler; g_prepare : bool
}.
(** The environment: VORTEX_DEBUG, VORTEX_DEBUG_COLOR and VORTEX_DEBUG_FILTER. *)
Record lenv := mkV { n_debug : Z; n_color : Z; n_filter : option bytes }.
Definition g0 : lctx := mkG false false false false 0 false false false None None false.

(** vortex_log_is_enabled (106-126). *)
Definition is_enabled (v : lenv) (g : lctx) : bool * lctx :=
  if g_debug_checked g then (g_debug g, g)
  else let d := 0 <? n_debug v in
       (d, mkG d true (g_color g) (g_color_checked g) (g_filter g) (g_filter_on g) (g_filter_checked g) (g_mutex g) (g_h1 g) (g_h2 g) (g_prepare g)).
(** vortex_log_enable (166-180). *)
Definition enable (b : bool) (g : lctx) : lctx :=
  mkG b true (g_color g) (g_color_checked g) (g_filter g) (g_filter_on g) (g_filter_checked g) (g_mutex g) (g_h1 g) (g_h2 g) (g_prepare g).
(** vortex_color_log_is_enabled (223-241) and vortex_color_log_enable (262-275): the flag of the check
    takes the value. *)
Definition color_is_enabled (v : lenv) (g : lctx) : bool * lctx :=
  if g_color_checked g then (g_color g, g)
  else let d := 0 <? n_color v in
       (d, mkG (g_debug g) (g_debug_checked g) d true (g_filter g) (g_filter_on g) (g_filter_checked g) (g_mutex g) (g_h1 g) (g_h2 g) (g_prepare g)).
Definition color_enable (b : bool) (g : lctx) : lctx :=
  mkG (g_debug g) (g_debug_checked g) b b (g_filter g) (g_filter_on g) (g_filter_checked g) (g_mutex g) (g_h1 g) (g_h2 g) (g_prepare g).

(** strstr. *)
Fixpoint is_prefix (p s : bytes) : bool :=
  match p, s with [], _ => true | x :: p', y :: s' => (x =? y) && is_prefix p' s' | _, _ => false end.
Fixpoint contains (p s : bytes) : bool :=
  is_prefix p s || match s with [] => false | _ :: s' => contains p s' end.
(** vortex_log_filter_level (297-321) and vortex_log_filter_is_enabled (330-344). *)
Definition bit (word : string) (level : Z) (s : bytes) : Z := if contains (asc word) s then level else 0.
Definition filter_level (s : option bytes) (g : lctx) : lctx :=
  match s with
  | None => mkG (g_debug g) (g_debug_checked g) (g_color g) (g_color_checked g) (g_filter g) false true (g_mutex g) (g_h1 g) (g_h2 g) (g_prepare g)
  | Some t =>
      let f := Z.lor (Z.lor (Z.lor (g_filter g) (bit "debug" L_DEBUG t)) (bit "warning" L_WARNING t)) (bit "critical" L_CRITICAL t) in
      mkG (g_debug g) (g_debug_checked g) (g_color g) (g_color_checked g) f true true (g_mutex g) (g_h1 g) (g_h2 g) (g_prepare g)
  end.
Definition filter_is_enabled (v : lenv) (g : lctx) : bool * lctx :=
  let g := if g_filter_checked g then g else filter_level (n_filter v) g in (g_filter_on g, g).
(** vortex_log_acquire_mutex (594-602): the status is not looked at. *)
Definition acquire_mutex (status : bool) (g : lctx) : lctx :=
  mkG (g_debug g) (g_debug_checked g) (g_color g) (g_color_checked g) (g_filter g) (g_filter_on g) (g_filter_checked g) true (g_h1 g) (g_h2 g) (g_prepare g).
(** vortex_log_set_handler (630-640), vortex_log_set_handler_full (657-668), vortex_log_set_prepare_log (687-692). *)
Definition set_handler (h : option handler) (g : lctx) : lctx :=
  mkG (g_debug g) (g_debug_checked g) (g_color g) (g_color_checked g) (g_filter g) (g_filter_on g) (g_filter_checked g) (g_mutex g) h (g_h2 g) (g_prepare g).
Definition set_handler_full (h : option handler) (g : lctx) : lctx :=
  mkG (g_debug g) (g_debug_checked g) (g_color g) (g_color_checked g) (g_filter g) (g_filter_on g) (g_filter_checked g) (g_mutex g) (g_h1 g) h (g_prepare g).
Definition set_prepare (b : bool) (g : lctx) : lctx :=
  mkG (g_debug g) (g_debug_checked g) (g_color g) (g_color_checked g) (g_filter g) (g_filter_on g) (g_filter_checked g) (g_mutex g) (g_h1 g) (g_h2 g) b.

(** * A log *)
(** What comes out: a line of the console, with color or not, or what a handler has of the message. *)
Inductive out := OConsole (color : bool) (level : Z) (text : bytes) | OHandler (full : bool) (level : Z) (text : bytes).
(** A log made by a thread that is in a log handler, and so holds the mutex that is not recursive, does not end. *)
Inductive lres := LDone (g : lctx) (o : list out) | LBlocked (g : lctx).
(** A handler given a message and arguments: it has the text, and tells if arguments are left to read. *)
Definition call (h : option handler) (full : bool) (level : Z) (msg : bytes) (args : list arg) : outcome (list out * list arg) :=
  match h with
  | None => Ok ([], args)
  | Some HPlain => Ok ([OHandler full level msg], args)
  | Some HExpand => let! t := vprintf msg args in Ok ([OHandler full level t], [])
  end.
Definition log_common (v : lenv) (held : bool) (level : Z) (msg : bytes) (args : list arg) (g : lctx) : outcome lres :=
  let (on, g) := is_enabled v g in
  if negb on then Ok (LDone g [])
  else
    let (fon, g) := filter_is_enabled v g in
    if fon && (Z.land (g_filter g) level =? level) then Ok (LDone g [])
    else if g_mutex g && held then Ok (LBlocked g)
    else
      match g_h1 g, g_h2 g with
      | None, None =>
          (* vsnprintf with 1023 *)
          let! t := vprintf msg args in
          let (color, g) := color_is_enabled v g in
          Ok (LDone g [OConsole color level (firstn 1022 t)])
      | h1, h2 =>
          (* expanding leaves the arguments read *)
          let! (msg, args) := if g_prepare g then let! t := vprintf msg args in Ok (t, []) else Ok (msg, args) in
          let! (o1, args) := call h1 false level msg args in
          let! (o2, args) := call h2 true level msg args in
          Ok (LDone g (o1 ++ o2))
      end.

(** * The record of an error *)
(** [quiet]: the status is VortexOk or VortexConnectionCloseCalled, that are not recorded. *)
Record cinfo := mkI { i_sock : Z; i_id : Z; i_errno : Z; i_host : option bytes; i_server : option bytes }.
Definition suffix_fmt : bytes := asc "%s (socket=%d, conn-id=%d, errno=%d, remote-ip=%s, serverName=%s, status=%d)".
Definition record_error (v : lenv) (held : bool) (i : cinfo) (quiet : bool) (status : Z) (fmt : bytes) (args : list arg) (g : lctx)
  : outcome (lres * option bytes) :=
  if quiet then Ok (LDone g [], None)
  else
    let! text := vprintf fmt args in
    let! msg := vprintf suffix_fmt [AStr (Some text); AInt (i_sock i); AInt (i_id i); AInt (i_errno i); AStr (i_host i); AStr (i_server i); AInt status] in
    let! r := log_common v held L_CRITICAL msg [] g in
    Ok (r, Some msg).
(** A frame without its trailer (src/vortex_frame_factory.c 1887-1890): the buffer has one byte more than was read, and
    vortex_frame_receive_raw sets it (1298). *)
Definition trailer_fmt : bytes := asc "poorly formed frame: frame trailer CR LF not found, discarding content: '%s'".
Definition trailer_error (v : lenv) (i : cinfo) (body : bytes) (g : lctx) : outcome (lres * option bytes) :=
  record_error v false i false 14 trailer_fmt [ABuf (body ++ [0])] g.
(** Greetings that are not a RPY (src/vortex_greetings.c 418-423); the payload is terminated. *)
Definition greeting_fmt : bytes := asc "frame error, expected RPY frame type on greetings process. Frame content: '%s'".
Definition greeting_error (v : lenv) (i : cinfo) (payload : bytes) (g : lctx) : outcome (lres * option bytes) :=
  record_error v false i false 14 greeting_fmt [AStr (Some payload)] g.

(** * The configuration *)
Inductive item := SoftLimit | HardLimit | Backlog | Enforce | AutoMime | SkipWait.
(** The limits of descriptors of the process, with 64 bits, and if it can raise the hard one. *)
Record lconf := mkF { f_soft : Z; f_hard : Z; f_root : bool; f_backlog : Z; f_enforce : Z; f_mime : Z; f_skip : Z }.
(** vortex_conf_get (362-442), where getrlimit does not fail. *)
Definition conf_get (it : item) (c : lconf) : Z :=
  match it with
  | SoftLimit => s32 (f_soft c) | HardLimit => s32 (f_hard c) | Backlog => f_backlog c
  | Enforce => f_enforce c | AutoMime => f_mime c | SkipWait => f_skip c
  end.
(** setrlimit. *)
Definition setrlimit (cur max : Z) (c : lconf) : bool * lconf :=
  if (cur <=? max) && ((max <=? f_hard c) || f_root c)
  then (true, mkF cur max (f_root c) (f_backlog c) (f_enforce c) (f_mime c) (f_skip c)) else (false, c).
(** vortex_conf_set (463-570): a value 0 is not accepted. *)
Definition conf_set (it : item) (value : Z) (c : lconf) : bool * lconf :=
  if value =? 0 then (false, c)
  else
    match it with
    | SoftLimit => setrlimit (value mod two64) (f_hard c) c
    | HardLimit => let max := value mod two64 in
                   let max := if max <? f_soft c then f_soft c else max in setrlimit (f_soft c) max c
    | Backlog => (true, mkF (f_soft c) (f_hard c) (f_root c) value (f_enforce c) (f_mime c) (f_skip c))
    | Enforce => (true, mkF (f_soft c) (f_hard c) (f_root c) (f_backlog c) value (f_mime c) (f_skip c))
    | AutoMime => (true, mkF (f_soft c) (f_hard c) (f_root c) (f_backlog c) (f_enforce c) value (f_skip c))
    | SkipWait => (true, mkF (f_soft c) (f_hard c) (f_root c) (f_backlog c) (f_enforce c) (f_mime c) value)
    end.
