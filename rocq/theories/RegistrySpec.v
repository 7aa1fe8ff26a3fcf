(** What is expected of the numbers of channels and of the table of channels. *)
From Verif Require Import Base RegistryModel.

(** The numbers a side may choose: 1, 3, ..., 2147483645 for the initiator and
    2, 4, ..., 2147483646 for the listener. *)
Definition mine (init : bool) (n : Z) : Prop := 0 < n < 2147483647 /\ Z.odd n = init.

(** A channel created and not closed. *)
Definition open_chan (log : list robs) (n c : Z) : Prop :=
  (exists t, In (OCreated t n c) log) /\ ~ In (OClosed n c) log.

(** No channel is added with the number of another whose creation has not
    finished. *)
Fixpoint calm (r : reg) (es : list rev_) : Prop :=
  match es with
  | [] => True
  | e :: k =>
      match e with
      | RAdd t => forall n, thr_of r t = Some (TNum n) ->
                  forall u c, thr_of r u <> Some (TAdded n c) /\ thr_of r u <> Some (TDenied n c)
      | _ => True
      end /\ forall r', rstep r e = Ok r' -> calm r' k
  end.
