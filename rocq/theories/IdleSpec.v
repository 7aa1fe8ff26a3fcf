(** What is expected of the notification of idle connections. *)
From Verif Require Import Base IdleModel.

(** The calls to the handler do not overlap: [open] is that there is one. *)
Fixpoint apart (open : bool) (l : list iobs) : Prop :=
  match l with
  | [] => True
  | OCall _ _ _ :: r => open = false /\ apart true r
  | OReturn :: r => open = true /\ apart false r
  | _ :: r => apart open r
  end.
(** The connection is not released during a call. *)
Fixpoint kept_in (open : bool) (l : list iobs) : Prop :=
  match l with
  | [] => True
  | OCall _ _ _ :: r => kept_in true r
  | OReturn :: r => kept_in false r
  | OFree :: r => open = false /\ kept_in open r
  | _ :: r => kept_in open r
  end.
(** The time of the last activity. *)
Definition last_active (l : list iobs) : option Z :=
  fold_left (fun acc o => match o with OActive t => Some t | _ => acc end) l None.
Definition is_call (o : iobs) : bool := match o with OCall _ _ _ => true | _ => false end.
Definition is_idle (o : iobs) : bool := match o with OIdle _ _ => true | _ => false end.
Definition is_free (o : iobs) : bool := match o with OFree => true | _ => false end.
Definition times (b : iobs -> bool) (l : list iobs) : nat := length (filter b l).
(** The connection is found idle when there was no activity in the period before,
    and each call follows one of those times. *)
Definition when_idle (l : list iobs) : Prop :=
  (forall a ts p b, l = a ++ OIdle ts p :: b -> exists t, last_active a = Some t /\ p < ts - t) /\
  forall a b, l = a ++ b -> (times is_call a <= times is_idle a)%nat.
(** Configured once, at the beginning. *)
Definition configured (h p d d2 : Z) : list iev := [ISet (Some h) p d d2; IStore; IStore; IStore; IStore].
Definition no_set (es : list iev) : Prop := forall h p d d2, ~ In (ISet h p d d2) es.
Definition pool_open (es : list iev) : Prop := ~ In IPoolEnd es.
(** The references there are: of the reader, of the user and of the tasks. *)
Definition holders (s : ist) : Z :=
  (match i_reader s with RGone => 0 | _ => 1 end) + (if i_user s then 1 else 0) + zlen (i_tasks s).
(** What a notification says, for a handler, a period and two data. *)
Definition said (h p d d2 : Z) (o : iobs) : Prop :=
  match o with OCall h' d' d2' => h' = h /\ d' = d /\ d2' = d2 | OIdle _ p' => p' = p | _ => True end.
Definition sum (l : list Z) : Z := fold_right Z.add 0 l.
Definition received (es : list iev) : Z := sum (map (fun e => match e with ITraffic rx _ => rx | _ => 0 end) es).
Definition sent (es : list iev) : Z := sum (map (fun e => match e with ITraffic _ tx => tx | _ => 0 end) es).
