(** What is asked of the external transports. *)
From Verif Require Import Base ExtModel.

(** The references of the user: one when the setup is created, given away with each connection. *)
Definition owns (own : Z) (e : xev) : Z :=
  match e with XRef => own + 1 | XUnref | XNew _ => own - 1 | _ => own end.
(** The user calls with the setup, or gives it, while it has a reference. *)
Fixpoint fair (own : Z) (es : list xev) : Prop :=
  match es with
  | [] => True
  | e :: es' => match e with XRef | XUnref | XNew _ => 0 < own | _ => True end /\ fair (owns own e) es'
  end.
Definition own_after (own : Z) (es : list xev) : Z := fold_left owns es own.
(** The mutex is not configured again. *)
Definition settled (es : list xev) : Prop := forall b, ~ In (XConf b) es.
(** There are no accepted connections. *)
Definition initiator (es : list xev) : Prop := forall k c, ~ In (XEnterA k c) es.
(** A new setup with the mutex set. *)
Definition conf (m : bool) : xst := mkX true 1 m false [] [] 0.
