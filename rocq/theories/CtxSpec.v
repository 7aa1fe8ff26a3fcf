(** What is expected of the life of a context. *)
From Verif Require Import Base CtxModel.

(** * How the functions are to be used *)
(** A thread uses the context, or gives a reference, only while it owns one. *)
Definition owner (s : xst) (e : xev) : Prop :=
  match e with EStart t _ | EAct t _ | EGive t _ => 0 < own_of s t | ERun _ => True end.
(** vortex_exit_ctx is not called while another thread is between the first
    check and the second one. *)
Definition entering (p : pc) : bool := match p with PGate _ | PInside _ | PSet _ => true | _ => false end.
Definition one_by_one (s : xst) (e : xev) : Prop :=
  match e with
  | EStart _ (OpExit _) => forall u p, pc_of s u = Some p -> entering p = false
  | _ => True
  end.
(** A condition on every step of an execution. *)
Fixpoint during (P : xst -> xev -> Prop) (s : xst) (es : list xev) : Prop :=
  match es with [] => True | e :: r => P s e /\ match xstep s e with Ok s' => during P s' r | UB => True end end.
Definition owners := during owner.
Definition in_turn := during one_by_one.

(** * References *)
Definition total (s : xst) : Z := fold_right (fun x n => t_own x + n) 0 (x_thr s).
Definition all_idle (s : xst) : Prop := forall t p, pc_of s t = Some p -> p = PIdle.
Definition ptr_of (s : xst) (t : nat) : bool := match nth_error (x_thr s) t with Some x => t_ptr x | None => false end.
Definition times (b : xobs -> bool) (l : list xobs) : nat := length (filter b l).
Definition is_freed (o : xobs) : bool := match o with OFreed => true | _ => false end.
Definition is_stop (o : xobs) : bool := match o with OStop _ => true | _ => false end.
Definition is_cleaned (o : xobs) : bool := match o with OCleaned => true | _ => false end.

(** * Cleanups *)
Definition called (l : list xobs) : list Z := flat_map (fun o => match o with OCall f => [f] | _ => [] end) l.
Definition installed (l : list xobs) : list Z := flat_map (fun o => match o with OInst f => [f] | _ => [] end) l.
(** The functions that are installed after a history: one removal takes away the
    first one there is. *)
Fixpoint without (f : Z) (l : list Z) : list Z := match l with [] => [] | g :: r => if Z.eq_dec g f then r else g :: without f r end.
Definition remaining (l : list xobs) : list Z :=
  fold_left (fun acc o => match o with OInst f => acc ++ [f] | ORem f => without f acc | _ => acc end) l [].
Fixpoint until (b : xobs -> bool) (l : list xobs) : list xobs := match l with [] => [] | o :: r => if b o then [] else o :: until b r end.
Fixpoint since (b : xobs -> bool) (l : list xobs) : list xobs := match l with [] => [] | o :: r => if b o then r else since b r end.
(** From the stop of the modules until the cleanups were called. *)
Definition ending (l : list xobs) : list xobs := until is_cleaned (since is_stop l).
(** The functions there are when the modules are stopped, and the ones that are
    installed then until all were called. *)
Definition to_call (l : list xobs) : list Z := remaining (until is_stop l) ++ installed (ending l).
Definition removed_at_end (l : list xobs) : Prop := exists f, In (ORem f) (ending l).
