(** The close of one channel, other than channel 0, as seen by one side: the
    close requests of the peer (src/vortex_channel.c:7400-7625), the answer to
    them (7653-7760) and the calls of the application to vortex_channel_close
    (5671-5928, 5943-6074).

    A step is what a thread does between two accesses to what it shares with the
    others.  The references to the channel held by the threads are given by their
    phase: the channel is in memory while it is in the table or a thread has a
    reference.  A frame is sent if and only if the connection is open, and none
    is received once it is closed.  Not followed: texts, the end of the context
    (vortex_exit), the failures of malloc, the wait until the replies to the peer
    are sent (step 3 of 5814), the notification handlers of the application, and
    what channel 0 does with the messages (see WaitModel). *)
From Verif Require Import Base.

Inductive answer := AOk | AErr (code : Z).
(** What __vortex_channel_close finds in the queue of its wait object: the answer
    of the peer, the one made up at 7500, an RPY that is not [<ok />], an ERR or
    a frame of another type. *)
Inductive wframe := FOk | FFake | FBad | FErr | FOther.
Inductive kobs :=
| OAnswer (m : Z) (a : answer)
| OAsk (m : Z)                  (* a close handler is called *)
| ODefer (m : Z)                (* a close notify handler is called *)
| OEnd (m : Z)
| OSent (t : Z)                 (* the close message *)
| OTook (t : Z) (f : option wframe)
| ODone (t : Z) (r : bool)      (* the value returned by vortex_channel_close *)
| OMsg (ok : bool).             (* vortex_channel_send_msg *)

(** A request of the peer: before 7463, before 7473, before 7480 with a reference,
    at 7497 and 7498 with a reference and the answer sent, inside a close handler
    with the mutex taken (the boolean tells if the flag CLOSE_HANDLER_CALLED is
    set), at 7687 and at 7738 (the boolean tells if the replies were received). *)
Inductive rphase := RCheck | RGet | RLock | RFake | RFakeRef | RHandler (flag : bool) | RWait | RFinish (ok : bool).
(** A call to vortex_channel_close: before 5967, in the loop of 5994 with a
    reference, before 6037, before 5739, before 5771, before 8650, and the end
    with the result. *)
Inductive cphase := CLock | CLoop | CSet | CReplies | CSend | CPend | CEnd (r : bool).

Record kst := mkK {
  k_up : bool;
  k_in : bool;                   (* in the table of channels *)
  k_being : bool;                (* being_closed *)
  k_mutex : option Z;            (* the request whose handler runs with close_mutex *)
  k_out : Z;                     (* messages sent without reply *)
  k_wait : bool;                 (* VORTEX_CHANNEL_WAIT_REPLY *)
  k_queue : list wframe;         (* the queue of the wait object *)
  k_wrefs : Z;                   (* its references; 0: freed or not created *)
  k_sent : bool;                 (* the wait object is known by channel 0 *)
  k_resp : list (Z * rphase);
  k_reqs : Z;
  k_clo : list (Z * cphase);
  k_log : list kobs
}.
Definition k0 : kst := mkK true true false None 0 false [] 0 false [] 0 [] [].

Definition with_log (s : kst) (o : list kobs) : kst :=
  mkK (k_up s) (k_in s) (k_being s) (k_mutex s) (k_out s) (k_wait s) (k_queue s) (k_wrefs s) (k_sent s) (k_resp s) (k_reqs s) (k_clo s) (k_log s ++ o).
Definition with_resp (s : kst) (l : list (Z * rphase)) : kst :=
  mkK (k_up s) (k_in s) (k_being s) (k_mutex s) (k_out s) (k_wait s) (k_queue s) (k_wrefs s) (k_sent s) l (k_reqs s) (k_clo s) (k_log s).
Definition with_clo (s : kst) (l : list (Z * cphase)) : kst :=
  mkK (k_up s) (k_in s) (k_being s) (k_mutex s) (k_out s) (k_wait s) (k_queue s) (k_wrefs s) (k_sent s) (k_resp s) (k_reqs s) l (k_log s).
Definition with_being (s : kst) (b : bool) : kst :=
  mkK (k_up s) (k_in s) b (k_mutex s) (k_out s) (k_wait s) (k_queue s) (k_wrefs s) (k_sent s) (k_resp s) (k_reqs s) (k_clo s) (k_log s).
Definition with_mutex (s : kst) (o : option Z) : kst :=
  mkK (k_up s) (k_in s) (k_being s) o (k_out s) (k_wait s) (k_queue s) (k_wrefs s) (k_sent s) (k_resp s) (k_reqs s) (k_clo s) (k_log s).
Definition with_out (s : kst) (n : Z) : kst :=
  mkK (k_up s) (k_in s) (k_being s) (k_mutex s) n (k_wait s) (k_queue s) (k_wrefs s) (k_sent s) (k_resp s) (k_reqs s) (k_clo s) (k_log s).
Definition with_wait (s : kst) (set : bool) (q : list wframe) (refs : Z) (sent : bool) : kst :=
  mkK (k_up s) (k_in s) (k_being s) (k_mutex s) (k_out s) set q refs sent (k_resp s) (k_reqs s) (k_clo s) (k_log s).
(** vortex_connection_remove_channel *)
Definition removed (s : kst) : kst :=
  mkK (k_up s) false (k_being s) (k_mutex s) (k_out s) (k_wait s) (k_queue s) (k_wrefs s) (k_sent s) (k_resp s) (k_reqs s) (k_clo s) (k_log s).

Definition at_r (s : kst) (m : Z) : option rphase := option_map snd (find (fun e => fst e =? m) (k_resp s)).
Definition at_c (s : kst) (t : Z) : option cphase := option_map snd (find (fun e => fst e =? t) (k_clo s)).
Definition less {A} (l : list (Z * A)) (x : Z) : list (Z * A) := filter (fun e => negb (fst e =? x)) l.
Definition go_r (s : kst) (m : Z) (p : rphase) : kst := with_resp s ((m, p) :: less (k_resp s) m).
Definition end_r (s : kst) (m : Z) : kst := with_log (with_resp s (less (k_resp s) m)) [OEnd m].
Definition go_c (s : kst) (t : Z) (p : cphase) : kst := with_clo s ((t, p) :: less (k_clo s) t).
Definition end_c (s : kst) (t : Z) (r : bool) : kst := with_log (with_clo s (less (k_clo s) t)) [ODone t r].

Definition holds_r (e : Z * rphase) : bool := match snd e with RLock | RFake | RFakeRef => true | _ => false end.
Definition holds_c (e : Z * cphase) : bool := match snd e with CLoop => true | _ => false end.
Definition freed (s : kst) : bool := negb (k_in s) && negb (existsb holds_r (k_resp s)) && negb (existsb holds_c (k_clo s)).
Definition flagged (s : kst) : bool := existsb (fun e => match snd e with RHandler true => true | _ => false end) (k_resp s).
Definition reply (s : kst) (m : Z) (a : answer) : kst := if k_up s then with_log s [OAnswer m a] else s.

(** How the decision is taken (7526-7590): a notify handler, a close handler of
    the channel, one of the profile, none (the value is true if the profile is not
    registered). *)
Inductive mode := MNotify | MHandler | MProfile | MNone (v : bool).

(** [KReq d]: a close request is received; [None]: it is not XML, [Some false]:
    it has no attribute [number].  [KExists m], [KGet m], [KLock m], [KFake m],
    [KFakeRef m], [KReplies m], [KFinish m]: the next step of the request [m];
    [KDecide m v]: its close handler returns; [KNotify m v]: the application calls
    vortex_channel_notify_close.
    [KClose t]: the application calls vortex_channel_close; [KStep t]: its next
    step; [KTake t timeout]: vortex_channel_wait_reply returns (without waiting for
    the queue if [timeout]).
    [KReply f]: the peer answers the close message; [KMsg]: the application sends
    a message; [KMsgReply]: the peer answers one; [KDown]: the connection is
    closed. *)
Inductive kev :=
| KReq (d : option bool)
| KExists (m : Z)
| KGet (m : Z)
| KLock (m : Z) (h : mode)
| KDecide (m : Z) (v : bool)
| KFake (m : Z)
| KFakeRef (m : Z)
| KReplies (m : Z)
| KFinish (m : Z)
| KNotify (m : Z) (v : bool)
| KClose (t : Z)
| KStep (t : Z)
| KTake (t : Z) (timeout : bool)
| KReply (f : wframe)
| KMsg
| KMsgReply
| KDown.

Definition decided (s : kst) (m : Z) (v : bool) : kst :=
  let s := with_being s v in
  if v then go_r s m RWait else end_r (reply s m (AErr 550)) m.

Definition resp_step (s : kst) (e : kev) : outcome kst :=
  match e with
  | KExists m =>
      match at_r s m with
      | Some RCheck => if k_up s && k_in s then Ok (go_r s m RGet) else Ok (end_r (reply s m (AErr 554)) m)
      | _ => Ok s
      end
  | KGet m =>
      match at_r s m with
      | Some RGet => if k_in s then Ok (go_r s m RLock) else UB            (* 7480 with NULL *)
      | _ => Ok s
      end
  | KLock m h =>
      match at_r s m, k_mutex s with
      | Some RLock, None =>
          if k_being s then Ok (go_r (reply s m AOk) m RFake)
          else
            (* the reference is dropped (7522): the channel may be freed here *)
            let s := with_resp s (less (k_resp s) m) in
            if freed s then UB
            else match h with
                 | MNotify => Ok (with_log s [ODefer m; OEnd m])
                 | MHandler => Ok (with_log (with_mutex (go_r s m (RHandler true)) (Some m)) [OAsk m])
                 | MProfile => Ok (with_log (with_mutex (go_r s m (RHandler false)) (Some m)) [OAsk m])
                 | MNone v => Ok (decided s m v)
                 end
      | _, _ => Ok s
      end
  | KDecide m v =>
      match at_r s m with
      | Some (RHandler _) => if freed s then UB else Ok (decided (with_mutex s None) m v)
      | _ => Ok s
      end
  | KFake m =>
      match at_r s m with
      | Some RFake => if k_wait s then Ok (go_r s m RFakeRef) else Ok (end_r s m)
      | _ => Ok s
      end
  | KFakeRef m =>
      match at_r s m with
      | Some RFakeRef =>
          if k_wrefs s =? 0 then UB
          else Ok (end_r (with_wait s (k_wait s) (k_queue s ++ [FFake]) (k_wrefs s) (k_sent s)) m)
      | _ => Ok s
      end
  | KReplies m =>
      match at_r s m with
      | Some RWait =>
          if freed s then UB
          else match k_mutex s with
               | Some _ => Ok s
               | None =>
                   let s := with_being s true in
                   if k_out s <=? 0 then Ok (go_r s m (RFinish true)) else if k_up s then Ok s else Ok (go_r s m (RFinish false))
               end
      | _ => Ok s
      end
  | KFinish m =>
      match at_r s m with
      | Some (RFinish ok) =>
          if freed s then UB
          else match k_mutex s with
               | Some _ => Ok s
               | None => Ok (end_r (removed (if ok then reply s m AOk else s)) m)
               end
      | _ => Ok s
      end
  | KNotify m v =>
      match at_r s m with
      | Some _ => Ok s
      | None =>
          if freed s then UB
          else if v then Ok (go_r (with_being s true) m RWait) else Ok (reply s m (AErr 550))
      end
  | _ => Ok s
  end.

(** What is done with the frame found (5826-5876). *)
Definition verdict (f : option wframe) : bool :=
  match f with
  | Some (FOk | FFake | FOther) => true
  | Some (FBad | FErr) => false
  | None => true
  end.
Definition clo_step (s : kst) (e : kev) : outcome kst :=
  match e with
  | KClose t =>
      match at_c s t with
      | Some _ => Ok s
      | None => if freed s then UB else if flagged s then Ok (end_c s t true) else Ok (go_c s t CLock)
      end
  | KStep t =>
      match at_c s t with
      | Some CLock =>
          if freed s then UB
          else match k_mutex s with
               | Some _ => Ok s
               | None => if k_being s then Ok (go_c s t CLoop) else Ok (go_c (with_being s true) t CSet)
               end
      | Some CLoop => if k_up s && k_in s then Ok s else Ok (end_c s t true)
      | Some CSet => if freed s then UB else Ok (go_c (with_wait s true [] 1 false) t CReplies)
      | Some CReplies =>
          if freed s then UB
          else if negb (k_up s) then Ok (go_c s t (CEnd true))
          else if k_out s <=? 0 then Ok (go_c s t CSend) else Ok s
      | Some CSend =>
          if freed s then UB
          else match k_queue s with
               | _ :: _ => Ok (go_c s t CPend)
               | [] =>
                   if k_up s then Ok (go_c (with_log (with_wait s (k_wait s) (k_queue s) (k_wrefs s + 1) true) [OSent t]) t CPend)
                   else Ok (go_c (with_wait s (k_wait s) (k_queue s) (k_wrefs s - 1) (k_sent s)) t (CEnd false))
               end
      | Some (CEnd r) =>
          if freed s then UB
          else if r then Ok (end_c (removed s) t true) else Ok (end_c s t false)
      | _ => Ok s
      end
  | KTake t timeout =>
      match at_c s t with
      | Some CPend =>
          (* the connection is checked first (8631) *)
          let none := Ok (go_c (with_log (with_wait s (k_wait s) (k_queue s) (k_wrefs s - 1) (k_sent s)) [OTook t None]) t (CEnd (verdict None))) in
          if timeout && negb (k_up s) then none
          else match k_queue s with
               | f :: q =>
                   if freed s then UB
                   else Ok (go_c (with_log (with_wait s false q (k_wrefs s - 1) (k_sent s)) [OTook t (Some f)]) t (CEnd (verdict (Some f))))
               | [] => if timeout || negb (k_up s) then none else Ok s
               end
      | _ => Ok s
      end
  | _ => Ok s
  end.

Definition kstep (s : kst) (e : kev) : outcome kst :=
  match e with
  | KReq d =>
      if k_up s then
        let m := k_reqs s in
        let s := mkK (k_up s) (k_in s) (k_being s) (k_mutex s) (k_out s) (k_wait s) (k_queue s) (k_wrefs s) (k_sent s) (k_resp s) (m + 1) (k_clo s) (k_log s) in
        match d with
        | None => Ok (end_r (reply s m (AErr 500)) m)
        | Some false => UB                                     (* atoi (NULL), 7416 *)
        | Some true => Ok (go_r s m RCheck)
        end
      else Ok s
  | KReply FFake => Ok s                                       (* not a frame of the peer *)
  | KReply f =>
      if k_up s && k_sent s then Ok (with_wait s (k_wait s) (k_queue s ++ [f]) (k_wrefs s - 1) false) else Ok s
  | KMsg =>
      if freed s then UB
      else if k_being s || negb (k_up s) then Ok (with_log s [OMsg false]) else Ok (with_log (with_out s (k_out s + 1)) [OMsg true])
  | KMsgReply => if k_up s && (0 <? k_out s) then Ok (with_out s (k_out s - 1)) else Ok s
  | KDown => Ok (mkK false (k_in s) (k_being s) (k_mutex s) (k_out s) (k_wait s) (k_queue s) (k_wrefs s) (k_sent s) (k_resp s) (k_reqs s) (k_clo s) (k_log s))
  | KClose _ | KStep _ | KTake _ _ => clo_step s e
  | _ => resp_step s e
  end.
Fixpoint krun (s : kst) (es : list kev) : outcome kst :=
  match es with [] => Ok s | e :: k => let! s' := kstep s e in krun s' k end.
