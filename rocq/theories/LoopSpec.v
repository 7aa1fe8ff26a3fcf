(** What the reader loop is to do, from what is seen. *)
From Verif Require Import Base LoopModel.

Fixpoint cnt {A} (f : A -> bool) (l : list A) : Z :=
  match l with [] => 0 | o :: l => (if f o then 1 else 0) + cnt f l end.
(** The references of the reader to a connection: taken, released, and those in the requests
    of a queue and in the lists. *)
Definition taken (c : nat) : list lobs -> Z := cnt (fun o => match o with LTake x => Nat.eqb x c | _ => false end).
Definition dropped (c : nat) : list lobs -> Z := cnt (fun o => match o with LDrop x => Nat.eqb x c | _ => false end).
Definition requested (c : nat) : list item -> Z := cnt (fun i => match i with IConn x | IListener x => Nat.eqb x c | _ => false end).
Definition listed (c : nat) (s : lst) : Z := cnt (Nat.eqb c) (l_con s) + cnt (Nat.eqb c) (l_srv s).
(** A foreach: asked, ended, in the requests of a queue. *)
Definition asked (k : nat) : list lobs -> Z := cnt (fun o => match o with LAsk x => Nat.eqb x k | _ => false end).
Definition ended (k : nat) : list lobs -> Z := cnt (fun o => match o with LDone x => Nat.eqb x k | _ => false end).
Definition awaited (k : nat) : list item -> Z := cnt (fun i => match i with IForeach x _ => Nat.eqb x k | _ => false end).
(** The sets made and the mechanisms installed. *)
Definition made : list lobs -> Z := cnt (fun o => match o with LMade => true | _ => false end).
Definition installed : list lobs -> Z := cnt (fun o => match o with LInstalled => true | _ => false end).

Definition is_push (e : lev) : bool :=
  match e with Watch _ _ | WatchListener _ | Stop | Foreach _ _ | Change | Installed => true | _ => false end.
Definition is_term (i : item) : bool := match i with ITerm => true | _ => false end.
Definition is_change (i : item) : bool := match i with IChange => true | _ => false end.
(** The loop runs. *)
Definition running (s : lst) : Prop := l_phase s <> PStopped /\ l_phase s <> PDead.
(** The loop alone, with waits that time out. *)
Fixpoint ticks (add : bool) (k : nat) (s : lst) : lst :=
  match k with O => s | S k => ticks add k (tick s add RTimeout) end.

(** Nothing happens to a connection, and the I/O mechanism takes all of them. *)
Definition kind_to (c : nat) (e : lev) : Prop :=
  match e with
  | Down x | Unwatch x => x <> c
  | Tick add r => add = true
  | Bad bad => bad c = false
  | _ => True
  end.
(** The change of the mechanism is not mixed with other requests. *)
Fixpoint calm (asked : bool) (l : list lev) : Prop :=
  match l with
  | [] => True
  | Change :: l => asked = false /\ calm true l
  | Installed :: l => asked = true /\ calm false l
  | e :: l => (is_push e = true -> asked = false) /\ calm asked l
  end.
Definition peaceful (s : lst) : Prop := forall c, In c (l_srv s ++ l_con s) -> l_up s c = true /\ l_unwatch s c = false.
