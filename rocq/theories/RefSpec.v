(** What users of references rely on. *)
From Verif Require Import Base RefModel.

(** Balanced use: only who owns a reference takes another, drops one, gives one away
    or uses the object. *)
Definition owner (s : rs) (t : nat) : Prop := exists x, nth_error (r_threads s) t = Some x /\ 1 <= t_refs x.
Definition owned (s : rs) (e : act) : Prop :=
  match e with ERef t | EUnref t | EUse t | EGive t _ => owner s t | EStep _ => True end.
Fixpoint balanced (k : kind) (s : rs) (es : list act) : Prop :=
  match es with [] => True | e :: l => owned s e /\ forall s', rstep k s e = Ok s' -> balanced k s' l end.
(** Calls that do not overlap. *)
Definition apart (s : rs) (e : act) : Prop :=
  match e with ERef _ | EUnref _ => forall x, In x (r_threads s) -> t_pc x = PIdle | _ => True end.
Fixpoint one_by_one (k : kind) (s : rs) (es : list act) : Prop :=
  match es with [] => True | e :: l => apart s e /\ forall s', rstep k s e = Ok s' -> one_by_one k s' l end.

(** Nobody owns a reference or is inside a call. *)
Definition at_rest (s : rs) : Prop := forall x, In x (r_threads s) -> t_refs x = 0 /\ t_pc x = PIdle.
(** Released once, after the last use. *)
Definition sound (s : rs) : Prop :=
  (r_freed s = true <-> at_rest s) /\
  (r_freed s = true <-> In OFree (r_log s)) /\
  (forall a b, r_log s = a ++ OFree :: b -> forall t, ~ In (OUse t) b /\ (forall r, ~ In (OGot t r) b) /\ ~ In OFree b) /\
  (forall t, ~ In (OGot t false) (r_log s)).

(** A thread may also ask for a reference with a pointer it does not own, and does
    what the answer tells. *)
Definition asked (s : rs) (e : act) : Prop := match e with ERef _ => True | _ => owned s e end.
Fixpoint asking (k : kind) (s : rs) (es : list act) : Prop :=
  match es with [] => True | e :: l => asked s e /\ forall s', rstep k s e = Ok s' -> asking k s' l end.
