(** What the requesting side of a channel has to do, told only from the
    outside: the sequence of observations [oobs]. *)
From Verif Require Import Base CodecModel OutModel.

(** The messages waiting for their reply, oldest first, and whether the message
    being sent still has pieces to come.  A piece starts a new message unless
    the previous piece announced it, or a paused transfer is resumed. *)
Record pend := mkP { p_open : bool; p_msgs : list Z }.

Definition pstep (p : pend) (o : oobs) : pend :=
  match o with
  | OQueued _ n more resumed _ =>
    mkP more
        (if resumed then if in_dec Z.eq_dec n (p_msgs p) then p_msgs p else p_msgs p ++ [n]
         else if p_open p then p_msgs p else p_msgs p ++ [n])
  | ORefused _ => p
  | ODeliver _ _ final => if final then mkP (p_open p) (tl (p_msgs p)) else p
  | OClosed => p
  end.

Definition pending (l : list oobs) : pend := fold_left pstep l (mkP false []).

(** A number is fresh when the message is new. *)
Definition fresh_numbers (l : list oobs) : Prop :=
  forall a b id n more ok, l = a ++ OQueued id n more false ok :: b ->
    p_open (pending a) = false -> 0 <= n < two31 /\ ~ In n (p_msgs (pending a)).

(** All the pieces of a message carry the number of its first piece. *)
Definition same_number (l : list oobs) : Prop :=
  forall a m b id n more ok id' n' more' ok',
    l = a ++ OQueued id n more false ok :: m ++ OQueued id' n' more' false ok' :: b ->
    more = true -> (forall o, In o m -> forall i k mo r okk, o <> OQueued i k mo r okk) -> n' = n.

(** Only the oldest message is answered. *)
Definition oldest_answered (l : list oobs) : Prop :=
  forall a b t n final, l = a ++ ODeliver t n final :: b ->
    exists r, p_msgs (pending a) = n :: r.

(** Nothing is delivered once the connection was closed. *)
Definition silent_after_close (l : list oobs) : Prop :=
  forall a b, l = a ++ OClosed :: b -> forall t n f, ~ In (ODeliver t n f) b.

(** No more than [limit] messages are waiting at any time. *)
Definition within_limit (limit : Z) (l : list oobs) : Prop :=
  forall a b, l = a ++ b -> zlen (p_msgs (pending a)) <= limit.
