(** What is asked of the transports that hold data back. *)
From Verif Require Import Base CodecModel CodecSpec PendModel.

(** The state of the reader of a connection that is between two reads. *)
Definition sound (c : rconn) : Prop :=
  zlen (r_pending c) <= 97 /\
  match r_partial c with Some (f, got) => zlen got < f_size f + 5 | None => True end.
(** Things come whole: each time records with data, one at least. *)
Definition whole (b : list tev) : Prop :=
  b <> [] /\ Forall (fun e => match e with TRec (_ :: _) => True | _ => False end) b.
Definition tbytes (b : list tev) : bytes := concat (map (fun e => match e with TRec bs => bs | _ => [] end) b).
Definition start : pst := mkP rconn0 (mkTr [] []) 0 false 0.
Definition never (i : nat) : bool := false.
Definition is_down (c : rconn) : Prop := r_down c <> None.
