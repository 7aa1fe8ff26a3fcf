(** The threads that wait for a reply, or for a reply to be sent
    (src/vortex_channel.c:8566-8585, 8594-8599, 8635-8719, 8956-9040,
    8042-8108), and how replies are given to those who wait (2606-2618,
    6573-6612, 7495-7519).

    A step is a critical section of one of the mutexes involved or an access
    between two of them.  The list of close handlers of the connection is that of
    OnCloseModel, seen only through the handler this thread installs; pushing a
    value in a queue and waking up who waits is a single step (see AsyncModel). *)
From Verif Require Import Base.

(** The value pushed when the connection is lost (8594-8599). *)
Definition BROKEN : Z := -3.

(** Where the thread is.  In vortex_channel_wait_reply: [W0] before checking the
    connection (8647), [W1] before installing the close handler (8655-8664), [W2]
    at vortex_async_queue_timedpop (8668), [W3 v] with the value got, before
    removing the handler (8671), [W4 v] at the second pop (8679), [W5 v] with
    everything done (8682-8715); [WDone r] with the result.
    vortex_channel_wait_until_sent starts at [W1]: 8979, 8982, 8992, 8994, 8998. *)
Inductive wpc := W0 | W1 | W2 | W3 (v : Z) | W4 (v : Z) | W5 (v : Z) | WDone (r : Z).

(** The close handler of this thread: not installed, in the list, taken from it
    by the thread that closes the connection, for which no thread could be
    created, called, removed from the list by this thread. *)
Inductive hst := HNone | HIn | HTaken | HLost | HCalled | HRemoved.

Record wst := mkW {
  w_sent : bool;          (* vortex_channel_wait_until_sent *)
  w_pc : wpc;
  w_h : hst;
  w_queue : list Z;
  w_refs : Z;             (* references to the object that has the queue *)
  w_entry : bool;         (* it is still in channel->waiting_msgno *)
  w_hold : bool;          (* the reference taken at 8657 *)
  w_conn : bool;
  w_closing : bool;       (* a thread is calling the close handlers *)
  w_freed : bool          (* the caller freed the object *)
}.
(** After vortex_channel_send_msg_and_wait: the caller and the channel have a
    reference (8575, 2612). *)
Definition wait0 : wst := mkW false W0 HNone [] 2 true false true false false.
(** After vortex_channel_install_waiter (8919-8945): the channel has the queue. *)
Definition sent0 : wst := mkW true W1 HNone [] 1 false false true false false.

Definition queue_gone (w : wst) : bool := (w_refs w =? 0) && negb (w_hold w).
Definition to_pc (w : wst) (p : wpc) : wst :=
  mkW (w_sent w) p (w_h w) (w_queue w) (w_refs w) (w_entry w) (w_hold w) (w_conn w) (w_closing w) (w_freed w).
Definition push (w : wst) (v : Z) : outcome wst :=
  if queue_gone w then UB
  else Ok (mkW (w_sent w) (w_pc w) (w_h w) (w_queue w ++ [v]) (w_refs w) (w_entry w) (w_hold w) (w_conn w) (w_closing w) (w_freed w)).
Definition set_h (w : wst) (h : hst) : wst :=
  mkW (w_sent w) (w_pc w) h (w_queue w) (w_refs w) (w_entry w) (w_hold w) (w_conn w) (w_closing w) (w_freed w).
Definition drop_ref (w : wst) (entry : bool) : wst :=
  mkW (w_sent w) (w_pc w) (w_h w) (w_queue w) (w_refs w - 1) entry (w_hold w) (w_conn w) (w_closing w) (w_freed w).

(** PTR_TO_INT: the 32 low bits of the pointer. *)
Definition is_broken (v : Z) : bool := s32 v =? BROKEN.

(** A step of the thread that waits. *)
Definition waiter (w : wst) : wst :=
  match w_pc w with
  | W0 => if w_conn w then to_pc w W1 else to_pc w (WDone 0)
  | W1 => mkW (w_sent w) W2 HIn (w_queue w) (w_refs w) (w_entry w) (negb (w_sent w)) (w_conn w) (w_closing w) (w_freed w)
  | W2 => match w_queue w with
          | v :: q => mkW (w_sent w) (W3 v) (w_h w) q (w_refs w) (w_entry w) (w_hold w) (w_conn w) (w_closing w) (w_freed w)
          | [] => w
          end
  | W3 v => match w_h w with
            | HIn => to_pc (set_h w HRemoved) (W5 v)
            | _ => if is_broken v && negb (w_sent w) then to_pc w (W5 v) else to_pc w (W4 v)
            end
  | W4 v => match w_queue w with
            | _ :: q => mkW (w_sent w) (W5 v) (w_h w) q (w_refs w) (w_entry w) (w_hold w) (w_conn w) (w_closing w) (w_freed w)
            | [] => w
            end
  | W5 v =>
      if w_sent w
      then mkW true (WDone 0) (w_h w) (w_queue w) (w_refs w - 1) (w_entry w) false (w_conn w) (w_closing w) true
      else if is_broken v || (v =? 0)
      then mkW false (WDone 0) (w_h w) (w_queue w) (w_refs w) (w_entry w) false (w_conn w) (w_closing w) (w_freed w)
      else mkW false (WDone v) (w_h w) (w_queue w) (w_refs w - 1) (w_entry w) false (w_conn w) (w_closing w) true
  | WDone _ => w
  end.

(** [EGo]: a step of the thread; [ETimeout]: its wait ends without a value;
    [EReply f]: the reader finds the object in channel->waiting_msgno and gives it
    the frame (6601-6607); [EOk f]: a close request received while this side
    closes the channel is taken as the reply (7497-7517); [ESent]: the reply was
    sent (9011-9040); [EClose]: the connection is closed; [ETake], [ELose],
    [ECall], [EEnd]: the thread that closes it takes the handler, cannot create
    a thread for it, the handler runs, the list of handlers is over; [EDrop]: the
    channel is freed (7983-7986); [EFree]: the caller, that got no frame, frees
    the object. *)
Inductive wev :=
| EGo
| ETimeout
| EReply (f : Z)
| EOk (f : Z)
| ESent
| EClose
| ETake
| ELose
| ECall
| EEnd
| EDrop
| EFree.

Definition wstep (w : wst) (e : wev) : outcome wst :=
  match e with
  | EGo => Ok (waiter w)
  | ETimeout =>
      match w_pc w, w_queue w with
      | W2, [] => if w_sent w then Ok w else Ok (to_pc w (W3 0))
      | _, _ => Ok w
      end
  | EReply f => if w_entry w then let! w' := push w f in Ok (drop_ref w' false) else Ok w
  | EOk f => if (0 <? w_refs w) && negb (w_sent w) then push w f else Ok w
  | ESent => if (0 <? w_refs w) && w_sent w then push w 1 else Ok w
  | EClose =>
      Ok (if w_conn w
          then mkW (w_sent w) (w_pc w) (w_h w) (w_queue w) (w_refs w) (w_entry w) (w_hold w) false true (w_freed w)
          else w)
  | ETake => match w_h w with HIn => if w_closing w then Ok (set_h w HTaken) else Ok w | _ => Ok w end
  | ELose => match w_h w with HTaken => Ok (set_h w HLost) | _ => Ok w end
  | ECall => match w_h w with HTaken => push (set_h w HCalled) BROKEN | _ => Ok w end
  | EEnd =>
      match w_h w with
      | HIn => Ok w
      | _ => Ok (mkW (w_sent w) (w_pc w) (w_h w) (w_queue w) (w_refs w) (w_entry w) (w_hold w) (w_conn w) false (w_freed w))
      end
  | EDrop => if w_entry w then Ok (drop_ref w false) else Ok w
  | EFree =>
      match w_pc w with
      | WDone 0 => if w_freed w then Ok w
                   else Ok (mkW (w_sent w) (w_pc w) (w_h w) (w_queue w) (w_refs w - 1) (w_entry w) (w_hold w) (w_conn w) (w_closing w) true)
      | _ => Ok w
      end
  end.
Fixpoint wrun (w : wst) (es : list wev) : outcome wst :=
  match es with [] => Ok w | e :: k => let! w' := wstep w e in wrun w' k end.

(** ** Replies and those who wait for them

    A channel: the messages sent and not answered in full, the queue of the
    objects that wait (identifiers), the number written in each object and what
    was delivered, to an object or to the frame received handler. *)
Inductive kind := KRpy | KAns | KNul.
Record chs := mkCh {
  ch_next : Z;
  ch_out : list Z;                       (* channel->outstanding_msg *)
  ch_wait : list Z;                      (* channel->waiting_msgno *)
  ch_no : Z -> Z;                        (* wait_reply->msg_no_reply *)
  ch_log : list (Z * kind * option Z)    (* number, kind, object or handler *)
}.
Definition ch0 : chs := mkCh 0 [] [] (fun _ => 0) [].

(** [MSend w]: a message is sent, waiting with object [w] or not (2606-2618);
    [MReply k]: a reply to the oldest message is received, RPY or ERR ([KRpy]),
    ANS or NUL (the reader refuses any other number, see ReassemblyModel and
    OutModel). *)
Inductive mev := MSend (w : option Z) | MReply (k : kind).
Definition mstep (c : chs) (e : mev) : chs :=
  match e with
  | MSend w =>
      let n := ch_next c in
      match w with
      | Some x => mkCh (n + 1) (ch_out c ++ [n]) (ch_wait c ++ [x]) (fun y => if y =? x then n else ch_no c y) (ch_log c)
      | None => mkCh (n + 1) (ch_out c ++ [n]) (ch_wait c) (ch_no c) (ch_log c)
      end
  | MReply k =>
      match ch_out c with
      | [] => c
      | n :: out =>
          let out := match k with KAns => n :: out | _ => out end in
          let to_handler := mkCh (ch_next c) out (ch_wait c) (ch_no c) (ch_log c ++ [(n, k, None)]) in
          match k, ch_wait c with
          | KRpy, x :: q => if ch_no c x =? n then mkCh (ch_next c) out q (ch_no c) (ch_log c ++ [(n, k, Some x)]) else to_handler
          | _, _ => to_handler
          end
      end
  end.
Definition mrun (es : list mev) : chs := fold_left mstep es ch0.
