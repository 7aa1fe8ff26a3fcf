(** What the table of I/O handlers is to be, and the uses that keep sets and handlers of the same mechanism. *)
From Verif Require Import Base MechModel.

(** No handler missing: those of sets are there, and a way to know the sockets that changed. *)
Definition complete (t : tab) : Prop :=
  t_create t <> HNull /\ t_destroy t <> HNull /\ t_clear t <> HNull /\ t_wait t <> HNull /\ t_add t <> HNull /\
  (t_isset t <> HNull \/ (t_have t <> HNull /\ t_disp t <> HNull)).
(** All the handlers of one mechanism, which is the one told by get_current. *)
Definition belongs (m : mech) (h : hnd) : Prop := h = HOf m \/ h = HNull.
Definition uniform (t : tab) (m : mech) : Prop :=
  t_type t = code m /\ complete t /\
  belongs m (t_create t) /\ belongs m (t_destroy t) /\ belongs m (t_clear t) /\ belongs m (t_wait t) /\ belongs m (t_add t) /\ belongs m (t_isset t) /\ belongs m (t_have t) /\ belongs m (t_disp t).
Definition no_set (os : list mop) : Prop := forall x n, ~ In (MSet x n) os.
(** A mechanism known and compiled in. *)
Definition compiled (k : build) (ty : Z) : Prop := ty = 1 \/ (ty = 2 /\ k_poll k = true) \/ (ty = 3 /\ k_epoll k = true).
(** Mechanisms are not changed while other threads have sets; sets are used and released by those that have them, and not the one of the reader. *)
Definition in_use (s : mst) (g : nat) : Prop := exists h, nth_error (m_sets s) g = Some (Some h).
Definition quiet (s : mst) (o : mop) : Prop :=
  match o with
  | MUse _ => forall g, in_use s g -> m_reader s = Some g
  | MWait g | MShut g => in_use s g /\ m_reader s <> Some g
  | _ => True
  end.
Fixpoint quiet_all (k : build) (s : mst) (os : list mop) : Prop :=
  match os with [] => True | o :: os => quiet s o /\ (forall s', mstep k s o = Ok s' -> quiet_all k s' os) end.
(** The writes of two calls at once: any interleaving. *)
Inductive merge {A} : list A -> list A -> list A -> Prop :=
| Mg_nil : merge [] [] []
| Mg_l x a b c : merge a b c -> merge (x :: a) b (x :: c)
| Mg_r x a b c : merge a b c -> merge a (x :: b) (x :: c).
Definition slot_of (t : tab) (x : slot) : hnd :=
  match x with SCreate => t_create t | SDestroy => t_destroy t | SClear => t_clear t | SWait => t_wait t | SAdd => t_add t | SIsSet => t_isset t | SHave => t_have t | SDisp => t_disp t end.
