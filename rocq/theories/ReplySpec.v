(** What the answering side of a channel has to do. *)
From Verif Require Import Base CodecModel ReplyModel.

(** ** Numbers of incoming messages (C16), from the observations only *)

(** The messages not answered yet, oldest first, and the message whose last
    frame did not arrive yet. *)
Record rcv := mkRcv { v_open : option Z; v_msgs : list Z }.

Definition final_reply (d : rdata) : bool :=
  match d_type d with
  | TNUL => true
  | TRPY | TERR => negb (d_more d)
  | _ => false
  end.

Definition vstep (v : rcv) (o : iobs) : rcv :=
  match o with
  | IMsg n more =>
    mkRcv (if more then Some n else None)
          (match v_open v with Some _ => v_msgs v | None => v_msgs v ++ [n] end)
  | IQueued d => if final_reply d then mkRcv (v_open v) (tl (v_msgs v)) else v
  | _ => v
  end.
Definition unanswered (first : list Z) (l : list iobs) : rcv := fold_left vstep l (mkRcv None first).

(** A frame is acceptable when it continues the open message, or starts one
    with a number that is not in use. *)
Definition acceptable (v : rcv) (n : Z) : Prop :=
  match v_open v with
  | Some m => n = m
  | None => ~ In n (v_msgs v)
  end.

Definition accepted_ok (first : list Z) (l : list iobs) : Prop :=
  forall a b n more, l = a ++ IMsg n more :: b -> acceptable (unanswered first a) n.

(** Replies are only sent to the oldest message. *)
Definition oldest_replied (first : list Z) (l : list iobs) : Prop :=
  forall a b d, l = a ++ IQueued d :: b -> exists r, v_msgs (unanswered first a) = d_msgno d :: r.

(** ** Order of the replies (C17, C19), from the calls of the application *)

(** A call to send a reply, and a received message with the calls made to
    answer it so far. *)
Record call := mkCall { k_type : ftype; k_body : bytes; k_more : bool }.
Definition inst := (Z * list call)%type.

(** The call that ends the answer. *)
Definition last_call (k : call) : bool :=
  match k_type k with
  | TNUL => true
  | TRPY | TERR => negb (k_more k)
  | _ => false
  end.
Definition answered (ks : list call) : bool := existsb last_call ks.

(** Calls the application may add to an answer: only ANS and then one NUL, or
    a RPY/ERR, which may come in several pieces. *)
Definition may_follow (ks : list call) (k : call) : bool :=
  match k_type k with
  | TANS | TNUL => negb (k_more k) && forallb (fun x => ftype_eqb (k_type x) TANS) ks
  | TRPY | TERR => forallb (fun x => k_more x) ks
  | _ => false
  end.

(** The received messages, oldest first.  A call answers the only message with
    its number that was not answered completely.  A reply in pieces must not
    be started before the previous messages are answered ([first]; see
    C17_pieces_refuted for what happens otherwise).  [None]: the application
    did something else. *)
Fixpoint add_call (first : bool) (s : list inst) (n : Z) (k : call) : option (list inst) :=
  match s with
  | [] => None
  | (m, ks) :: s' =>
    if answered ks then option_map (cons (m, ks)) (add_call first s' n k)
    else if m =? n then
      if may_follow ks k && (first || negb (k_more k)) then Some ((m, ks ++ [k]) :: s') else None
    else option_map (cons (m, ks)) (add_call false s' n k)
  end.

(** The messages received so far and the one whose last frame did not arrive
    yet.  [None]: the peer used a number that is still in use. *)
Record appst := mkApp { a_open : option Z; a_msgs : list inst }.

(** Numbers still in use: the peer did not see the complete answer. *)
Fixpoint waiting (s : list inst) : list inst :=
  match s with
  | [] => []
  | (n, ks) :: s' => if answered ks then waiting s' else s
  end.

Definition astep (a : appst) (o : iop) : option appst :=
  match o with
  | IpMsg n more =>
    let next := if more then Some n else None in
    match a_open a with
    | Some m => if n =? m then Some (mkApp next (a_msgs a)) else None
    | None =>
      if (n =? -1) || existsb (Z.eqb n) (map fst (waiting (a_msgs a))) then None
      else Some (mkApp next (a_msgs a ++ [(n, [])]))
    end
  | IpCall t n body more =>
    match add_call true (a_msgs a) n (mkCall t body more) with
    | Some s => Some (mkApp (a_open a) s)
    | None => None
    end
  | IpDown => None
  end.

Fixpoint arun (a : appst) (os : list iop) : option appst :=
  match os with
  | [] => Some a
  | o :: os' => match astep a o with Some a' => arun a' os' | None => None end
  end.

(** The start: the channel 0 already has the message answered by the greetings. *)
Definition app0 (first : list Z) : appst := mkApp None (map (fun n => (n, [])) first).

(** What the peer sees of a reply: the answer number is only in ANS frames. *)
Record wrep := mkW { w_type : ftype; w_msgno : Z; w_ansno : option Z; w_body : bytes; w_more : bool }.

Definition wire_of (d : rdata) : wrep :=
  mkW (d_type d) (d_msgno d) (if ftype_eqb (d_type d) TANS then Some (d_ansno d) else None)
      (d_body d) (d_more d).

(** The replies of one message in the order of the calls, ANS numbered from 0. *)
Fixpoint number (n i : Z) (ks : list call) : list wrep :=
  match ks with
  | [] => []
  | k :: ks' =>
    mkW (k_type k) n (if ftype_eqb (k_type k) TANS then Some i else None) (k_body k) (k_more k)
    :: number n (i + 1) ks'
  end.

(** In the order of the messages, each reply after the complete answer of the
    previous message. *)
Fixpoint release (s : list inst) : list wrep :=
  match s with
  | [] => []
  | (n, ks) :: s' => number n 0 ks ++ (if answered ks then release s' else [])
  end.

Fixpoint queued (l : list iobs) : list wrep :=
  match l with
  | [] => []
  | IQueued d :: l' => wire_of d :: queued l'
  | _ :: l' => queued l'
  end.

(** C19 on the stream of replies alone: the replies before an ANS or a NUL are
    the complete answers of other messages followed by the ANS of its own
    message, and the number of an ANS is how many of those there are. *)
Definition final_wire (w : wrep) : bool :=
  match w_type w with
  | TNUL => true
  | TRPY | TERR => negb (w_more w)
  | _ => false
  end.

Definition one_to_many (l : list wrep) : Prop :=
  forall a w b, l = a ++ w :: b -> w_type w = TANS \/ w_type w = TNUL ->
  exists a1 a2, a = a1 ++ a2 /\
    Forall (fun x => w_type x = TANS /\ w_msgno x = w_msgno w) a2 /\
    w_ansno w = (if ftype_eqb (w_type w) TANS then Some (zlen a2) else None) /\
    (a1 = [] \/ exists a0 x, a1 = a0 ++ [x] /\ final_wire x = true).
