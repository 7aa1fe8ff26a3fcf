(** The ALIVE profile: the check that a connection works (alive/vortex_alive.c): enabling
    it (486-545), the creation of its channel (__vortex_alive_create_channel, 357-433,
    and __vortex_alive_channel_created, 292-355), the periodic check
    (__vortex_alive_do_check, 249-290), the failure (197-240) and the end of the
    connection (121-135).

    One connection.  Each call and each step of the events of the thread pool is atomic;
    removing an event works at once (EventModel is about that).  The limit of
    outstanding messages of the channel is not set.  The calls to enable the check on a
    connection that is closed are left out, and so is the end of the context, which runs
    no close handlers.  The sizes and times fit in their types. *)
From Verif Require Import Base.

(** The event installed. *)
Inductive evkind := ENone | ECreate | ECheck.
(** What is seen: the check was enabled (with its count) or refused, the channel is
    asked, created or refused, octets come in, a reply comes in, the octets
    received are looked at, a message is sent, the failure handler is called, the
    connection is shut down, the event is dropped, the reference is released. *)
Inductive aobs :=
| OEnabled (count : Z) | ORefused | OAsked | OChannel (ok : bool)
| OGot (n : Z) | OReply | OLook | OPing | OFail | OShut | ODrop | ORelease.

(** VortexAliveData. *)
Record adata := mkD {
  d_period : Z; d_count : Z; d_handler : bool;
  d_conn : bool;                    (* conn is not NULL *)
  d_chan : bool;                    (* channel is not NULL *)
  d_progress : bool; d_tries : Z; d_event : evkind; d_seen : Z; d_started : Z; d_maxfail : Z }.
(** The connection: it is up, its close handlers were run, octets received, the
    references ALIVE has, the close handler of ALIVE is installed; the channel: open,
    messages not answered; a start is not answered; VORTEX_ALIVE_CHECK_ENABLED. *)
Record ast := mkA {
  a_up : bool; a_closed : bool; a_bytes : Z; a_refs : Z; a_hook : bool;
  a_open : bool; a_pending : Z; a_asked : bool; a_data : option adata; a_log : list aobs }.
Definition a0 (bytes : Z) : ast := mkA true false bytes 0 false false 0 false None [].

Inductive aev :=
| AEnable (now period count : Z) (handler : bool)
| ACreate (now : Z)
| ACreated (ok : bool)
| ACheck
| ABytes (n : Z)
| AReply (n : Z)
| AChanDown
| ADown
| AClosed.

Definition with_data (s : ast) (d : adata) : ast :=
  mkA (a_up s) (a_closed s) (a_bytes s) (a_refs s) (a_hook s) (a_open s) (a_pending s) (a_asked s) (Some d) (a_log s).
Definition note (s : ast) (o : list aobs) : ast :=
  mkA (a_up s) (a_closed s) (a_bytes s) (a_refs s) (a_hook s) (a_open s) (a_pending s) (a_asked s) (a_data s) (a_log s ++ o).
Definition with_event (d : adata) (e : evkind) : adata :=
  mkD (d_period d) (d_count d) (d_handler d) (d_conn d) (d_chan d) (d_progress d) (d_tries d) e (d_seen d) (d_started d) (d_maxfail d).
Definition with_tries (d : adata) (n : Z) : adata :=
  mkD (d_period d) (d_count d) (d_handler d) (d_conn d) (d_chan d) (d_progress d) n (d_event d) (d_seen d) (d_started d) (d_maxfail d).
Definition with_seen (d : adata) (n : Z) : adata :=
  mkD (d_period d) (d_count d) (d_handler d) (d_conn d) (d_chan d) (d_progress d) (d_tries d) (d_event d) n (d_started d) (d_maxfail d).

(** __vortex_alive_free_reference (98-119). *)
Definition free_reference (s : ast) (d : adata) : ast :=
  note (mkA (a_up s) (a_closed s) (a_bytes s) (a_refs s - 1) (a_hook s) (a_open s) (a_pending s) (a_asked s)
        (Some (mkD (d_period d) (d_count d) (d_handler d) false false (d_progress d) (d_tries d) (d_event d) (d_seen d) (d_started d) (d_maxfail d)))
        (a_log s)) [ORelease].
(** __vortex_alive_trigger_failure (197-240), called from an event that is then removed;
    vortex_connection_remove_on_close_full says whether the handler was there. *)
Definition trigger_failure (s : ast) (d : adata) : ast :=
  let had := a_hook s in
  let s := mkA (a_up s) (a_closed s) (a_bytes s) (a_refs s) false (a_open s) (a_pending s) (a_asked s) (Some (with_event d ENone)) (a_log s) in
  let d := with_event d ENone in
  let s := if d_handler d then note s [OFail]
           else if a_up s then note (mkA false (a_closed s) (a_bytes s) (a_refs s) (a_hook s) (a_open s) (a_pending s) (a_asked s) (a_data s) (a_log s)) [OShut]
           else s in
  if had then free_reference s d else s.

(** __vortex_alive_do_check (249-290), with __vortex_alive_found_activity (171-190).  vortex_channel_send_msg fails on a channel that
    is closed. *)
Definition do_check (s : ast) (d : adata) : ast :=
  if negb (a_up s) then note (with_data s (with_event d ENone)) [ODrop]
  else if d_seen d <? a_bytes s then note (with_data s (with_seen d (a_bytes s))) [OLook]
  else if d_count d <=? (if d_chan d then a_pending s else 0) then trigger_failure s d
  else if d_chan d && a_open s then
    note (mkA (a_up s) (a_closed s) (a_bytes s) (a_refs s) (a_hook s) (a_open s) (a_pending s + 1) (a_asked s) (Some d) (a_log s)) [OLook; OPing]
  else note (with_data s (with_event d ENone)) [ODrop].

(** __vortex_alive_create_channel (357-433). *)
Definition create_channel (s : ast) (d : adata) (now : Z) : ast :=
  if negb (a_up s) then note (with_data s (with_event d ENone)) [ODrop]
  else if d_chan d then note (with_data s (with_event d ENone)) [ODrop]
  else if negb (d_progress d) then
    let d := mkD (d_period d) (d_count d) (d_handler d) (d_conn d) (d_chan d) true
                 (if d_period d <=? 40000 then d_count d + 10 else d_tries d) (d_event d) (d_seen d) (d_started d) (d_maxfail d) in
    note (mkA (a_up s) (a_closed s) (a_bytes s) (a_refs s) (a_hook s) (a_open s) (a_pending s) true (Some d) (a_log s)) [OAsked]
  else if d_seen d <? a_bytes s then note (with_data s (with_seen d (a_bytes s))) [OLook]
  else if d_maxfail d <=? now - d_started d then trigger_failure s d
  else
    let d := with_tries d (d_tries d - 1) in
    if d_tries d =? 0 then trigger_failure s d else note (with_data s d) [OLook].

(** __vortex_alive_channel_created (292-355): with no channel vortex_channel_ref2 fails
    (318) and the rest is not reached. *)
Definition channel_created (s : ast) (d : adata) (ok : bool) : ast :=
  if negb (d_conn d) then s
  else
    let d := with_event d ENone in
    if negb ok then note (with_data s d) [OChannel false]
    else
      let d := mkD (d_period d) (d_count d) (d_handler d) (d_conn d) true false (d_tries d) ECheck (Z.max (d_seen d) (a_bytes s)) (d_started d) (d_maxfail d) in
      note (mkA (a_up s) (a_closed s) (a_bytes s) (a_refs s) (a_hook s) true 0 (a_asked s) (Some d) (a_log s)) [OChannel true; OLook].

(** vortex_alive_enable_check (486-545). *)
Definition enable (s : ast) (now period count : Z) (handler : bool) : ast :=
  if (period <=? 0) || (count <? 0) then note s [ORefused]
  else match a_data s with
       | Some _ => note s [ORefused]
       | None =>
           note (mkA (a_up s) (a_closed s) (a_bytes s) (a_refs s + 1) true (a_open s) (a_pending s) (a_asked s)
                     (Some (mkD period count handler true false false 0 ECreate (a_bytes s) now (Z.max 3 ((count * period) / 1000000))))
                     (a_log s)) [OEnabled count]
       end.

Definition astep (s : ast) (e : aev) : ast :=
  match e with
  | AEnable now period count handler => if a_up s then enable s now period count handler else s
  | ACreate now => match a_data s with Some d => match d_event d with ECreate => create_channel s d now | _ => s end | None => s end
  | ACheck => match a_data s with Some d => match d_event d with ECheck => do_check s d | _ => s end | None => s end
  | ACreated ok =>
      match a_data s with
      | Some d => if a_asked s then channel_created (mkA (a_up s) (a_closed s) (a_bytes s) (a_refs s) (a_hook s) (a_open s) (a_pending s) false (a_data s) (a_log s)) d ok else s
      | None => s
      end
  | ABytes n =>
      if a_up s && (0 <? n)
      then note (mkA (a_up s) (a_closed s) (a_bytes s + n) (a_refs s) (a_hook s) (a_open s) (a_pending s) (a_asked s) (a_data s) (a_log s)) [OGot n]
      else s
  | AReply n =>
      if a_up s && (0 <? n) && (0 <? a_pending s) && a_open s
      then note (mkA (a_up s) (a_closed s) (a_bytes s + n) (a_refs s) (a_hook s) (a_open s) (a_pending s - 1) (a_asked s) (a_data s) (a_log s)) [OGot n; OReply]
      else s
  | AChanDown => mkA (a_up s) (a_closed s) (a_bytes s) (a_refs s) (a_hook s) false (a_pending s) (a_asked s) (a_data s) (a_log s)
  | ADown => mkA false (a_closed s) (a_bytes s) (a_refs s) (a_hook s) (a_open s) (a_pending s) (a_asked s) (a_data s) (a_log s)
  (* the close handlers (__vortex_alive_connection_closed, 121-135) *)
  | AClosed =>
      if a_up s || a_closed s then s
      else
        let s' := mkA (a_up s) true (a_bytes s) (a_refs s) false (a_open s) (a_pending s) (a_asked s) (a_data s) (a_log s) in
        match a_data s with
        | Some d => if a_hook s then free_reference s' (with_event d ENone) else s'
        | None => s'
        end
  end.
Definition arun (s : ast) (es : list aev) : ast := fold_left astep es s.
