(** What the users of a connection rely on when they close it. *)
From Verif Require Import Base HdrModel ConnEndModel.

Definition ended (p : pc) : Prop := exists b, p = QDone b.
Definition quiet (s : cn) : Prop := Forall ended (q_calls s).
(** A close is called by who has a reference of its own, or if all the calls
    before returned false; and such a reference is kept until the calls end. *)
Definition careful1 (s : cn) (e : event) : Prop :=
  (e = ECall -> 1 <= q_extra s \/ Forall (fun p => p = QDone false) (q_calls s)) /\
  (e = EDrop -> 2 <= q_extra s \/ quiet s).
Fixpoint careful (s : cn) (es : list event) : Prop :=
  match es with
  | [] => True
  | e :: r => careful1 s e /\ match qstep s e with Ok s' => careful s' r | UB => True end
  end.
(** The connections that are not the caller's: it always has a reference. *)
Definition holding1 (s : cn) (e : event) : Prop :=
  (e = ECall -> 1 <= q_extra s) /\ (e = EDrop -> 2 <= q_extra s \/ quiet s) /\ e <> ELost.
Fixpoint holding (s : cn) (es : list event) : Prop :=
  match es with
  | [] => True
  | e :: r => holding1 s e /\ match qstep s e with Ok s' => holding s' r | UB => True end
  end.
(** Some call returned [b]. *)
Definition returned (s : cn) (b : bool) : Prop := In (QDone b) (q_calls s).
Definition b2z (b : bool) : Z := if b then 1 else 0.
(** All the channels are always closed. *)
Definition channels_close (es : list event) : Prop := forall n b, In (EStep n b) es -> b = true.
