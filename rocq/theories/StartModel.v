(** The start requests received on channel 0 (src/vortex_channel.c:6844-6905,
    7231-7331), the decision about each of them (7103-7220) and the decisions
    deferred by the application (6911-7096).

    Each frame of channel 0 is processed by a thread of its own: nothing
    serialises them.  A step is what a thread does between two calls to the
    application or two accesses to the table of channels.  The requests are
    numbered in the order they are received; channels as they are created.  The
    application has no references of its own to the channels, so that one that
    is not in the table is in freed memory.  A reply is sent if and only if the
    connection is open.  Texts are not followed, nor is the server name (see
    ConnModel). *)
From Verif Require Import Base.

(** A request parsed by AXL: the attribute [number] as converted by atoi, if it
    is there, and whether there is a profile. *)
Record request := mkQ { q_number : option Z; q_profile : bool }.

(** The reply sent: the confirmation of the profile or an error. *)
Inductive reply := ROk | RErr (code : Z).
Inductive sobs :=
| OReq (m : Z) (d : option request)
| OCall (m c : Z)
| OReply (m : Z) (r : reply)
| OSkip (m : Z)
| OEnded (m : Z).

Record chan := mkChan {
  k_id : Z;
  k_num : Z;
  k_req : option Z;      (* the request that created it; none: a channel of this side *)
  k_defer : bool;        (* "_vo:ch:defer" *)
  k_done : bool          (* the request was accepted *)
}.

(** Where the thread of a request is: before 7276, 7292, 7103-7126, 7143, 7161
    and inside the start handler (the boolean tells if it was called). *)
Inductive sphase :=
| QCheck (n : Z) (prof : bool)
| QFilter (n : Z) (prof : bool)
| QProfile (n : Z) (prof : bool)
| QAdd (n : Z)
| QAsk (n c : Z)
| QIn (n c : Z) (called : bool).

Record srv := mkSrv {
  s_up : bool;
  s_chans : list chan;
  s_thr : list (Z * sphase);
  s_reqs : Z;
  s_next : Z;
  s_log : list sobs
}.
Definition srv0 : srv := mkSrv true [] [] 0 0 [].

Definition with_log (s : srv) (o : list sobs) : srv := mkSrv (s_up s) (s_chans s) (s_thr s) (s_reqs s) (s_next s) (s_log s ++ o).
Definition with_chans (s : srv) (l : list chan) : srv := mkSrv (s_up s) l (s_thr s) (s_reqs s) (s_next s) (s_log s).
Definition with_thr (s : srv) (l : list (Z * sphase)) : srv := mkSrv (s_up s) (s_chans s) l (s_reqs s) (s_next s) (s_log s).

Definition phase_of (s : srv) (m : Z) : option sphase := option_map snd (find (fun e => fst e =? m) (s_thr s)).
Definition end_thr (l : list (Z * sphase)) (m : Z) : list (Z * sphase) := filter (fun e => negb (fst e =? m)) l.
Definition go (s : srv) (m : Z) (p : sphase) : srv := with_thr s ((m, p) :: end_thr (s_thr s) m).
(** The thread ends. *)
Definition over (s : srv) (m : Z) : srv := with_log (with_thr s (end_thr (s_thr s) m)) [OEnded m].

Definition chan_at (s : srv) (n : Z) : option chan := find (fun k => k_num k =? n) (s_chans s).
Definition chan_id (s : srv) (c : Z) : option chan := find (fun k => k_id k =? c) (s_chans s).
Definition drop_num (l : list chan) (n : Z) : list chan := filter (fun k => negb (k_num k =? n)) l.
(** vortex_connection_channel_exists (src/vortex_connection.c:4089-4104). *)
Definition exists_chan (s : srv) (n : Z) : bool :=
  if (n <? 0) || negb (s_up s) then false
  else if n =? 0 then true
  else match chan_at s n with Some _ => true | None => false end.

Definition send (s : srv) (m : Z) (r : reply) : srv := if s_up s then with_log s [OReply m r] else s.
Definition deny (s : srv) (m : Z) (code : Z) : srv := over (send s m (RErr code)) m.

Definition update (l : list chan) (k : chan) : list chan := map (fun x => if k_id x =? k_id k then k else x) l.
(** vortex_channel_notify_start_internal (6911-6998): the decision about a
    channel. *)
Definition decide (s : srv) (k : chan) (m : Z) (accept : bool) : srv :=
  if accept then
    if s_up s
    then send (with_chans s (update (s_chans s) (mkChan (k_id k) (k_num k) (k_req k) (k_defer k) true))) m ROk
    else with_chans s (drop_num (s_chans s) (k_num k))
  else with_chans (send s m (RErr 421)) (drop_num (s_chans s) (k_num k)).

Inductive filter_result := FPass | FDeny | FSkip.
Inductive profile_result := PNone | PNoStart | PStart.

(** [SMsg d]: a request is received, [None] if it is not XML; [SCheck m]: the
    number is checked (7276); [SFilter m v]: the masks of the connection are asked
    (7292); [SProfile m v]: the profile is looked for (7119-7134); [SAdd m]: the
    channel is created and added (7141-7158); [SCall m]: the start handler is
    called (7174); [SRet m ok]: it returns.
    By the application or the rest of the library: [SDefer c]:
    vortex_channel_defer_start; [SNotify c ok]: vortex_channel_notify_start;
    [SLocal n]: a channel created by this side; [SClose n]: a channel closed;
    [SDown]: the connection is closed. *)
Inductive sev :=
| SMsg (d : option request)
| SCheck (m : Z)
| SFilter (m : Z) (v : filter_result)
| SProfile (m : Z) (v : profile_result)
| SAdd (m : Z)
| SCall (m : Z)
| SRet (m : Z) (ok : bool)
| SDefer (c : Z)
| SNotify (c : Z) (ok : bool)
| SLocal (n : Z)
| SClose (n : Z)
| SDown.

Definition sstep (s : srv) (e : sev) : outcome srv :=
  match e with
  | SMsg d =>
      let m := s_reqs s in
      let s := mkSrv (s_up s) (s_chans s) (s_thr s) (m + 1) (s_next s) (s_log s ++ [OReq m d]) in
      match d with
      | None => Ok (deny s m 500)
      | Some q => match q_number q with
                  | None => UB                               (* atoi (NULL), 6876 *)
                  | Some n => Ok (go s m (QCheck n (q_profile q)))
                  end
      end
  | SCheck m =>
      match phase_of s m with
      | Some (QCheck n p) => if exists_chan s n then Ok (deny s m 554) else Ok (go s m (QFilter n p))
      | _ => Ok s
      end
  | SFilter m v =>
      match phase_of s m with
      | Some (QFilter n p) =>
          match v with
          | FPass => Ok (go s m (QProfile n p))
          | FDeny => Ok (deny s m 554)
          | FSkip => Ok (over (with_log s [OSkip m]) m)
          end
      | _ => Ok s
      end
  | SProfile m v =>
      match phase_of s m with
      | Some (QProfile n p) =>
          match (if p then v else PNone) with
          | PNone => Ok (deny s m 554)
          | PNoStart => Ok (deny s m 421)
          | PStart => Ok (go s m (QAdd n))
          end
      | _ => Ok s
      end
  | SAdd m =>
      match phase_of s m with
      | Some (QAdd n) =>
          match (if n =? 0 then Some (mkChan 0 0 None false true) else chan_at s n) with
          | Some _ => Ok (deny s m 554)
          | None =>
              let c := s_next s in
              let s := mkSrv (s_up s) (mkChan c n (Some m) false false :: s_chans s) (s_thr s) (s_reqs s) (c + 1) (s_log s) in
              Ok (go s m (QAsk n c))
          end
      | _ => Ok s
      end
  | SCall m =>
      match phase_of s m with
      | Some (QAsk n c) => if n <? 0 then Ok (go s m (QIn n c false)) else Ok (with_log (go s m (QIn n c true)) [OCall m c])
      | _ => Ok s
      end
  | SRet m ok =>
      match phase_of s m with
      | Some (QIn n c called) =>
          match chan_id s c with
          | None => UB                                       (* 7181 *)
          | Some k => if k_defer k then Ok (over s m) else Ok (over (decide s k m (ok && called)) m)
          end
      | _ => Ok s
      end
  | SDefer c =>
      match chan_id s c with
      | None => UB
      | Some k => Ok (with_chans s (update (s_chans s) (mkChan (k_id k) (k_num k) (k_req k) true (k_done k))))
      end
  | SNotify c ok =>
      match chan_id s c with
      | None => UB
      | Some k => if s_up s then Ok (decide s k (match k_req k with Some m => m | None => 0 end) ok) else Ok s
      end
  | SLocal n =>
      if exists_chan s n || (n <=? 0) then Ok s
      else match chan_at s n with
           | Some _ => Ok s
           | None => Ok (mkSrv (s_up s) (mkChan (s_next s) n None false true :: s_chans s) (s_thr s) (s_reqs s) (s_next s + 1) (s_log s))
           end
  | SClose n => Ok (with_chans s (drop_num (s_chans s) n))
  | SDown => Ok (mkSrv false (s_chans s) (s_thr s) (s_reqs s) (s_next s) (s_log s))
  end.
Fixpoint srun (s : srv) (es : list sev) : outcome srv :=
  match es with [] => Ok s | e :: k => let! s' := sstep s e in srun s' k end.
