(** What is expected of the handlers called when a connection is closed, in terms
    of what is seen. *)
From Verif Require Import Base OnCloseModel.

Definition installed (l : list cobs) : list inst := flat_map (fun o => match o with OInst h => [h] | _ => [] end) l.
Definition calls (l : list cobs) : list Z := flat_map (fun o => match o with OCall id => [id] | _ => [] end) l.
Definition ends (l : list cobs) : list Z := flat_map (fun o => match o with OEnd id => [id] | _ => [] end) l.
Definition removed (l : list cobs) : list Z := flat_map (fun o => match o with ORem _ _ (Some id) => [id] | _ => [] end) l.
Definition taken (l : list cobs) : list inst := flat_map (fun o => match o with OTake h => [h] | _ => [] end) l.
Definition frees (l : list cobs) : nat := length (filter (fun o => match o with OFree => true | _ => false end) l).

(** Nothing is going on inside the library: no thread is closing the connection
    or calling a handler. *)
Definition quiet (s : ocs) : Prop := oc_closers s = [] /\ oc_notes s = [].

(** The connection is only used by someone that has a reference: the application,
    or a handler while it runs; a reference is dropped by who has it. *)
Definition permitted (s : ocs) (e : cev) : Prop :=
  match e with
  | CStep _ _ | CNote _ | CExit => True
  | CUnref => 0 < oc_app s
  | _ => 0 < oc_app s \/ exists h, In (h, true) (oc_notes s)
  end.
Fixpoint careful (s : ocs) (es : list cev) : Prop :=
  match es with
  | [] => True
  | e :: k => permitted s e /\ forall s', cstep s e = Ok s' -> careful s' k
  end.
