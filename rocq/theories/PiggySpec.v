(** What is expected of the content of a start reply. *)
From Verif Require Import Base PiggyModel.
(** The contents somebody got, and those that were stored or lost. *)
Fixpoint given (l : list gobs) : list nat :=
  match l with
  | [] => []
  | OGet _ (Some i) :: k | OHandler i :: k | OWaiter _ i :: k | ODropped i :: k => i :: given k
  | _ :: k => given k
  end.
Fixpoint stored (l : list gobs) : list nat := match l with [] => [] | OSet i :: k => i :: stored k | _ :: k => stored k end.
Fixpoint lost (l : list gobs) : list nat := match l with [] => [] | OLeak i :: k => i :: lost k | _ :: k => lost k end.
Definition waiting (s : pg) : list nat := match g_stored s with Some i => [i] | None => [] end.
