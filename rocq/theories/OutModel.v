(** Model of the requesting side of a channel: numbering of the messages sent,
    the list of messages not answered yet, the outstanding limit, and the
    checks of the reader on incoming replies.
    Source: src/vortex_channel.c, src/vortex_reader.c. *)
From Verif Require Import Base CodecModel.

(** A call to vortex_channel_send_msg (or _v, _and_wait, _from_feeder: all of
    them call vortex_channel_send_msg_common with proposed_msg_no = -1,
    src/vortex_channel.c:2670, 2774, 2831, 2923).
    [q_id]: the caller.  [q_more]: vortex_channel_send_msg_more.
    [q_resume]: [Some n] when a feeder is given that was paused without closing
    its transfer while it was sending the message [n].
    [q_ok]: answer of vortex_sequencer_queue_data. *)
Record sreq := mkQ { q_id : Z; q_more : bool; q_resume : option Z; q_ok : bool }.

(** What can be seen from outside.
    [OQueued id n more resumed ok]: the call [id] handed a piece of the message
    [n] to the sequencer, [more]: another piece follows; [ok]: it was accepted.
    [ORefused id]: the call failed without using a message number.
    [ODeliver t n final]: a reply frame went past the checks of the reader.
    [OClosed]: the connection was closed because of a protocol error. *)
Inductive oobs :=
| OQueued (id n : Z) (more resumed ok : bool)
| ORefused (id : Z)
| ODeliver (t : ftype) (n : Z) (final : bool)
| OClosed.

(** The fields of VortexChannel used here (src/vortex_channel.c:86-300):
    next_proposed_msgno, last_fixed_more_msg_no, outstanding_msg,
    outstanding_limit, fail_on_limit; whether the connection is ok; the threads
    inside VORTEX_COND_WAIT and those signalled that did not run yet; the log. *)
Record ochan := mkOC {
  oc_next : Z;
  oc_more : Z;
  oc_out : list Z;
  oc_limit : Z;
  oc_fail : bool;
  oc_up : bool;
  oc_waiting : list sreq;
  oc_woken : list sreq;
  oc_log : list oobs
}.

(** vortex_channel_empty_new (src/vortex_channel.c:1537-1659). *)
Definition oc0 : ochan := mkOC (-1) (-1) [] 0 false true [] [] [].

Definition olog (c : ochan) (o : oobs) : ochan :=
  mkOC (oc_next c) (oc_more c) (oc_out c) (oc_limit c) (oc_fail c) (oc_up c)
       (oc_waiting c) (oc_woken c) (oc_log c ++ [o]).
Definition oset (c : ochan) (next more : Z) (out : list Z) : ochan :=
  mkOC next more out (oc_limit c) (oc_fail c) (oc_up c)
       (oc_waiting c) (oc_woken c) (oc_log c).
Definition othreads (c : ochan) (waiting woken : list sreq) : ochan :=
  mkOC (oc_next c) (oc_more c) (oc_out c) (oc_limit c) (oc_fail c) (oc_up c)
       waiting woken (oc_log c).
Definition odown (c : ochan) : ochan :=
  mkOC (oc_next c) (oc_more c) (oc_out c) (oc_limit c) (oc_fail c) false
       (oc_waiting c) (oc_woken c) (oc_log c).

(** vortex_channel_get_next_msg_no (src/vortex_channel.c:1489-1499).  The
    counter is an int: going over INT_MAX is undefined behaviour. *)
Definition get_next_msg_no (next : Z) : outcome Z :=
  if two31 <=? next + 1 then UB
  else
    let n := next + 1 in
    if n =? -1 then Ok (n + 1) else Ok n.

(** vortex_channel_check_msg_no_find_item_outgoing
    (src/vortex_channel.c:2369-2390). *)
Definition find_item (l : list Z) (n : Z) : bool := existsb (Z.eqb n) l.

(** vortex_channel_send_msg_common after the outstanding limit was passed
    (src/vortex_channel.c:2490-2655), with send_mutex held. *)
Definition send_go (c : ochan) (q : sreq) : outcome ochan :=
  let continued := 0 <=? oc_more c in
  let! (next, n) := (if continued then Ok (oc_next c, oc_more c)
                     else let! n := get_next_msg_no (oc_next c) in Ok (n, n)) in
  let more' := if continued && negb (q_more q) then -1
               else if q_more q && (oc_more c =? -1) then n else oc_more c in
  let '(n, update) :=
    match q_resume q with
    | None => (n, negb continued)
    | Some m => (m, negb (find_item (oc_out c) m))
    end in
  let out := if update then oc_out c ++ [n] else oc_out c in
  Ok (olog (oset c next more' out)
           (OQueued (q_id q) n (q_more q)
                    (match q_resume q with Some _ => true | None => false end) (q_ok q))).

(** The outstanding limit (src/vortex_channel.c:2466-2488): fail, wait or go
    on.  Waiting releases send_mutex; a thread that wakes up checks again. *)
Definition send_check (c : ochan) (q : sreq) : outcome ochan :=
  if (0 <? oc_limit c) && (oc_limit c <=? zlen (oc_out c)) then
    if oc_fail c then Ok (olog c (ORefused (q_id q)))
    else Ok (othreads c (oc_waiting c ++ [q]) (oc_woken c))
  else send_go c q.

(** vortex_channel_send_msg_common (src/vortex_channel.c:2425-2655). *)
Definition send_msg (c : ochan) (q : sreq) : outcome ochan :=
  if oc_up c then send_check c q else Ok (olog c (ORefused (q_id q))).

(** vortex_channel_get_next_expected_reply_no (src/vortex_channel.c:5162-5184). *)
Definition next_expected_reply (c : ochan) : Z := match oc_out c with [] => -1 | n :: _ => n end.

(** vortex_channel_remove_first_outstanding_msg_no
    (src/vortex_channel.c:5221-5262): axl_list_get_first of an empty list is
    NULL, that is 0.  One waiting thread is signalled. *)
Definition remove_first_outstanding (c : ochan) (n : Z) : ochan :=
  if (match oc_out c with [] => 0 | m :: _ => m end) =? n then
    let c := oset c (oc_next c) (oc_more c) (tl (oc_out c)) in
    match oc_waiting c with
    | [] => c
    | q :: w => othreads c w (oc_woken c ++ [q])
    end
  else olog (odown c) OClosed.

(** The part of vortex_reader_process_socket that deals with the numbers of an
    incoming reply (src/vortex_reader.c:366-382, 432-438, 451-502) with
    vortex_reader_process_socket_check_nul_frame (src/vortex_reader.c:74-114).
    Sequence numbers are in FlowModel.  [empty]: the frame has no content once
    its MIME headers are removed. *)
Definition recv_reply (c : ochan) (t : ftype) (n : Z) (more empty : bool) : ochan :=
  if negb (next_expected_reply c =? n) then olog (odown c) OClosed
  else if ftype_eqb t TNUL && (negb empty || more) then olog (odown c) OClosed
  else
    let final := match t with
                 | TNUL => true
                 | TRPY | TERR => negb more
                 | _ => false
                 end in
    let c := if final then remove_first_outstanding c n else c in
    olog c (ODeliver t n final).

(** vortex_channel_set_outstanding_limit (src/vortex_channel.c:8515-8525). *)
Definition set_limit (c : ochan) (limit : Z) (fail : bool) : ochan :=
  if limit <? 0 then c
  else mkOC (oc_next c) (oc_more c) (oc_out c) limit fail (oc_up c)
            (oc_waiting c) (oc_woken c) (oc_log c).

(** Everything that can happen: a call to send, a signalled thread getting
    send_mutex again ([i]: which one), a reply frame read (only by the vortex
    reader, and only while the connection is ok), a change of the limit, the
    connection lost.  Spurious wake ups of pthread_cond_wait are not modelled. *)
Inductive oop :=
| OpSend (q : sreq)
| OpRun (i : nat)
| OpReply (t : ftype) (n : Z) (more empty : bool)
| OpLimit (limit : Z) (fail : bool)
| OpDown.

Definition ostep (c : ochan) (o : oop) : outcome ochan :=
  match o with
  | OpSend q => send_msg c q
  | OpRun i =>
    match nth_error (oc_woken c) i with
    | None => Ok c
    | Some q => send_check (othreads c (oc_waiting c) (firstn i (oc_woken c) ++ skipn (S i) (oc_woken c))) q
    end
  | OpReply t n more empty => Ok (if oc_up c then recv_reply c t n more empty else c)
  | OpLimit limit fail => Ok (set_limit c limit fail)
  | OpDown => Ok (odown c)
  end.

Fixpoint orun (c : ochan) (os : list oop) : outcome ochan :=
  match os with
  | [] => Ok c
  | o :: os' => let! c := ostep c o in orun c os'
  end.
