(** What is expected of the search path. *)
From Verif Require Import Base SearchModel.
(** The paths kept for a domain, in the order they were added. *)
Fixpoint kept (l : list sobs) : list (str * str) := match l with [] => [] | OKept d p :: k => (d, p) :: kept k | _ :: k => kept k end.
Definition paths (d : str) (l : list (str * str)) : list str := map snd (filter (fun e => seqb (fst e) d) l).
(** The file is that of the first path that has it. *)
Definition first_in (ps : list str) (name : str) (fs : str -> bool) (r : option str) : Prop :=
  match r with
  | Some f => exists a p b, ps = a ++ p :: b /\ f = file_of p name /\ fs f = true /\ forall q, In q a -> fs (file_of q name) = false
  | None => forall q, In q ps -> fs (file_of q name) = false
  end.
(** Somewhere in the list. *)
Definition inserts (place : list node -> node -> list node) : Prop := forall l n, exists a b, l = a ++ b /\ place l n = a ++ n :: b.
(** The paths somebody asked to add. *)
Definition asked (es : list sev) : list (str * str) := fold_right (fun e l => match e with SCall _ _ d p => (d, p) :: l | _ => l end) [] es.
