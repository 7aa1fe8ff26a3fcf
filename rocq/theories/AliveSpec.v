(** What the ALIVE check has to do, stated with what is seen. *)
From Verif Require Import Base AliveModel.

Definition count_of (p : aobs -> bool) (l : list aobs) : Z := zlen (filter p l).
(** The messages of the check not answered. *)
Definition is_ping (o : aobs) : bool := match o with OPing => true | _ => false end.
Definition is_reply (o : aobs) : bool := match o with OReply => true | _ => false end.
Definition unanswered (l : list aobs) : Z := count_of is_ping l - count_of is_reply l.
(** Nothing was received since the last time this was looked at. *)
Definition looks (o : aobs) : bool := match o with OLook | OEnabled _ => true | _ => false end.
Definition gets (o : aobs) : bool := match o with OGot _ => true | _ => false end.
Definition quiet_step (q : bool) (o : aobs) : bool := if looks o then true else if gets o then false else q.
Definition quiet (l : list aobs) : bool := fold_left quiet_step l true.
(** The count the check was enabled with. *)
Fixpoint enabled_with (l : list aobs) : option Z :=
  match l with [] => None | OEnabled n :: _ => Some n | _ :: r => enabled_with r end.
(** The connection is given up. *)
Definition gives_up (o : aobs) : bool := match o with OFail | OShut => true | _ => false end.
Definition is_release (o : aobs) : bool := match o with ORelease => true | _ => false end.
Definition is_enabled (o : aobs) : bool := match o with OEnabled _ => true | _ => false end.
(** The events of the thread pool. *)
Definition tick (e : aev) : bool := match e with ACheck | ACreate _ => true | _ => false end.
(** Nothing comes from the peer and the connection is not closed. *)
Definition silent (e : aev) : bool := match e with AEnable _ _ _ _ | ACreate _ | ACheck => true | _ => false end.
Definition is_check (e : aev) : bool := match e with ACheck => true | _ => false end.
Definition checks (es : list aev) : Z := zlen (filter is_check es).
(** The channel of the check was not answered for yet and the connection is not closed. *)
Definition waiting (e : aev) : bool := match e with AEnable _ _ _ _ | ACreate _ | ACheck | ABytes _ => true | _ => false end.
