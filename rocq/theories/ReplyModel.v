(** Model of the answering side of a channel: the messages received and not
    answered yet, the replies issued by the application in any order, and their
    release to the sequencer in the order of the messages.
    Source: src/vortex_channel.c. *)
From Verif Require Import Base CodecModel.

(** The fields of VortexSequencerData filled in by
    __vortex_channel_common_rpy (src/vortex_channel.c:3089-3170). *)
Record rdata := mkRD {
  d_type : ftype;
  d_msgno : Z;
  d_ansno : Z;
  d_body : bytes;
  d_more : bool
}.

(** A value of the stored_replies hash: one reply, or the list of the ANS/NUL
    replies of a message (src/vortex_channel.c:3193-3289). *)
Inductive stored := SOne (d : rdata) | SList (l : list rdata).

(** What can be seen from outside: a MSG frame went past the check of its
    number, the connection was closed because of a protocol error, a reply was
    handed to the sequencer, a call to send a reply returned. *)
Inductive iobs :=
| IMsg (n : Z) (more : bool)
| IClosed
| IQueued (d : rdata)
| IRet (t : ftype) (n : Z) (ok : bool).

(** The fields of VortexChannel used here: incoming_msg,
    incoming_msg_frame_fragment, stored_replies, last_ansno_sent. *)
Record ichan := mkIC {
  ic_in : list Z;
  ic_frag : Z;
  ic_stored : list (Z * stored);
  ic_ansno : Z;
  ic_up : bool;
  ic_log : list iobs
}.

(** vortex_channel_empty_new (src/vortex_channel.c:1537-1659); the channel 0
    starts with the message 0 pending, the one answered by the greetings. *)
Definition ic0 (first : list Z) : ichan := mkIC first (-1) [] 0 true [].

Definition ilog (c : ichan) (o : iobs) : ichan :=
  mkIC (ic_in c) (ic_frag c) (ic_stored c) (ic_ansno c) (ic_up c) (ic_log c ++ [o]).
Definition idown (c : ichan) : ichan :=
  mkIC (ic_in c) (ic_frag c) (ic_stored c) (ic_ansno c) false (ic_log c).
Definition iset_in (c : ichan) (l : list Z) : ichan :=
  mkIC l (ic_frag c) (ic_stored c) (ic_ansno c) (ic_up c) (ic_log c).
Definition iset_frag (c : ichan) (f : Z) : ichan :=
  mkIC (ic_in c) f (ic_stored c) (ic_ansno c) (ic_up c) (ic_log c).
Definition iset_stored (c : ichan) (s : list (Z * stored)) : ichan :=
  mkIC (ic_in c) (ic_frag c) s (ic_ansno c) (ic_up c) (ic_log c).
Definition iset_ansno (c : ichan) (n : Z) : ichan :=
  mkIC (ic_in c) (ic_frag c) (ic_stored c) n (ic_up c) (ic_log c).

(** axl_hash with an int key: lookup, insert (which replaces) and removal. *)
Fixpoint hget (s : list (Z * stored)) (k : Z) : option stored :=
  match s with
  | [] => None
  | (k', v) :: s' => if k =? k' then Some v else hget s' k
  end.
Fixpoint hdel (s : list (Z * stored)) (k : Z) : list (Z * stored) :=
  match s with
  | [] => []
  | (k', v) :: s' => if k =? k' then hdel s' k else (k', v) :: hdel s' k
  end.
Definition hput (s : list (Z * stored)) (k : Z) (v : stored) : list (Z * stored) :=
  (k, v) :: hdel s k.

(** vortex_channel_check_msg_no_find_item (src/vortex_channel.c:2342-2363). *)
Definition in_use (l : list Z) (n : Z) : bool := existsb (Z.eqb n) l.

(** vortex_channel_check_msg_no (src/vortex_channel.c:9222-9319). *)
Definition check_msg_no (c : ichan) (n : Z) (more : bool) : option ichan :=
  if negb (ic_frag c =? -1) && negb (ic_frag c =? n) then None
  else if more then
    if ic_frag c =? -1 then
      if in_use (ic_in c) n then None
      else Some (iset_in (iset_frag c n) (ic_in c ++ [n]))
    else Some c
  else if negb (ic_frag c =? -1) then Some (iset_frag c (-1))
  else if in_use (ic_in c) n then None
  else Some (iset_in c (ic_in c ++ [n])).

(** A MSG frame at the reader (src/vortex_reader.c:361-365, 213-240). *)
Definition recv_msg (c : ichan) (n : Z) (more : bool) : ichan :=
  match check_msg_no c n more with
  | Some c' => ilog c' (IMsg n more)
  | None => ilog (idown c) IClosed
  end.

(** vortex_channel_get_next_reply_no (src/vortex_channel.c:5125-5152). *)
Definition next_reply_no (c : ichan) : Z := match ic_in c with [] => -1 | n :: _ => n end.

(** vortex_channel_remove_first_pending_msg_no (src/vortex_channel.c:5189-5215). *)
Definition remove_first_pending (c : ichan) (n : Z) : ichan :=
  if (match ic_in c with [] => 0 | m :: _ => m end) =? n
  then iset_in c (tl (ic_in c))
  else ilog (idown c) IClosed.

(** The switch after send_reply (src/vortex_channel.c:3305-3328): last_ansno_sent
    is an int. *)
Definition reply_status (c : ichan) (d : rdata) (n : Z) : outcome ichan :=
  match d_type d with
  | TNUL => Ok (remove_first_pending (iset_ansno c 0) n)
  | TANS => if two31 <=? ic_ansno c + 1 then UB else Ok (iset_ansno c (ic_ansno c + 1))
  | TRPY | TERR => Ok (if d_more d then c else remove_first_pending c n)
  | _ => Ok c
  end.

(** The loop at send_reply (src/vortex_channel.c:3300-3389).  vortex_sequencer_queue_data
    only fails when the library is being finished; that case is not modelled.
    An empty ANS/NUL list would make the code use a NULL pointer: [UB].
    [None]: out of fuel. *)
Fixpoint send_reply (fuel : nat) (c : ichan) (d : rdata) (n : Z) : outcome (option ichan) :=
  match fuel with
  | O => Ok None
  | S fuel' =>
    let! c := reply_status c d n in
    let c := match d_type d with
             | TNUL | TANS => c
             | _ => iset_stored c (hdel (ic_stored c) n)
             end in
    let c := ilog c (IQueued d) in
    let n' := next_reply_no c in
    match hget (ic_stored c) n' with
    | None => Ok (Some c)
    | Some (SOne d') => send_reply fuel' c d' n'
    | Some (SList []) => UB
    | Some (SList (d' :: l)) =>
      let c := iset_stored c (match l with
                              | [] => hdel (ic_stored c) n'
                              | _ => hput (ic_stored c) n' (SList l)
                              end) in
      send_reply fuel' c (mkRD (d_type d') (d_msgno d') (ic_ansno c) (d_body d') (d_more d')) n'
    end
  end.

(** Number of replies stored: enough fuel. *)
Definition stored_size (s : list (Z * stored)) : nat :=
  fold_right (fun kv a => match snd kv with SOne _ => 1 | SList l => length l end + a)%nat 0%nat s.

Definition is_ans_nul (t : ftype) : bool := ftype_eqb t TANS || ftype_eqb t TNUL.

(** Storing a reply whose turn did not come (src/vortex_channel.c:3174-3298). *)
Definition store_reply (c : ichan) (d : rdata) : ichan * bool :=
  let n := d_msgno d in
  if is_ans_nul (d_type d) then
    match hget (ic_stored c) n with
    | None => (iset_stored c (hput (ic_stored c) n (SList [d])), true)
    | Some (SOne _) => (c, false)
    | Some (SList l) =>
      if ftype_eqb (d_type d) TNUL && ftype_eqb (d_type (last l d)) TNUL && negb (zlen l =? 0)
      then (c, false)
      else (iset_stored c (hput (ic_stored c) n (SList (l ++ [d]))), true)
    end
  else (iset_stored c (hput (ic_stored c) n (SOne d)), true).

(** __vortex_channel_common_rpy (src/vortex_channel.c:3044-3389), called by
    vortex_channel_send_rpy, _rpy_more, _err, _err_more, _ans_rpy and
    finalize_ans_rpy (lines 3451-3843).  [body] is the message with the MIME
    headers the channel adds. *)
Definition common_rpy (c : ichan) (t : ftype) (n : Z) (body : bytes) (more : bool)
  : outcome (option ichan) :=
  if ic_up c then
    let d := mkRD t n (ic_ansno c) body more in
    if next_reply_no c =? n then
      let! r := send_reply (S (S (stored_size (ic_stored c)))) c d n in
      Ok (match r with Some c => Some (ilog c (IRet t n true)) | None => None end)
    else
      let (c, ok) := store_reply c d in Ok (Some (ilog c (IRet t n ok)))
  else Ok (Some (ilog c (IRet t n false))).

(** Everything that can happen: a MSG frame read while the connection is ok, a
    call to send a reply, the connection lost.  common_rpy holds send_mutex all
    the time; the reader only appends to incoming_msg. *)
Inductive iop :=
| IpMsg (n : Z) (more : bool)
| IpCall (t : ftype) (n : Z) (body : bytes) (more : bool)
| IpDown.

Definition istep (c : ichan) (o : iop) : outcome (option ichan) :=
  match o with
  | IpMsg n more => Ok (Some (if ic_up c then recv_msg c n more else c))
  | IpCall t n body more => common_rpy c t n body more
  | IpDown => Ok (Some (idown c))
  end.

Fixpoint irun (c : ichan) (os : list iop) : outcome (option ichan) :=
  match os with
  | [] => Ok (Some c)
  | o :: os' =>
    let! r := istep c o in
    match r with Some c => irun c os' | None => Ok None end
  end.
