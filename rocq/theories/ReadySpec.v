(** Specification vocabulary for the ready set. *)
From Verif Require Import Base ReadyModel.

(** The schedules of C55: no pauses, no SEQ frame inside add_channel. *)
Fixpoint calm (s : yst) (es : list yev) : Prop :=
  match es with
  | [] => True
  | e :: es' =>
    match e with
    | YSeqFrame _ => y_adder s = false
    | YSend _ _ p => p = false
    | _ => True
    end /\ calm (ystep s e) es'
  end.
