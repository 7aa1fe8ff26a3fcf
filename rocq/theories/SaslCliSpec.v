(** What the initiator is told of its authentication. *)
From Verif Require Import Base SaslModel SaslCliModel.

(** A call ends with one notification, which agrees with the state. *)
Definition told (s : ist) (l : list status) : Prop :=
  exists st, l = [st] /\ (st = NOk <-> i_authenticated s = true).

(** The replies the call gets to see, up to the one that ends it. *)
Definition goes_on (t : turn) : Prop :=
  (t_reply t = RBlob false true \/ t_reply t = REmpty) /\ t_sent t = true /\ (t_rc t = RMore \/ t_out t = true).
(** The listener says it is complete; the library says so. *)
Definition listener_says (t : turn) : Prop := exists c, t_reply t = RBlob true c.
Definition library_says (t : turn) : Prop :=
  (t_reply t = RBlob false true \/ t_reply t = REmpty) /\ t_rc t = ROk /\ t_out t = false.

Definition notifications (l : list qev) : nat :=
  length (filter (fun e => match e with QNotify => true | _ => false end) l).

(** The user gave what the mechanism needs. *)
Definition given (s : ist) (m : mech) : Prop :=
  match m with
  | MAnon => i_token s = true
  | MPlain | MDigest | MCram => i_authid s = true /\ i_password s = true
  | MExternal => i_authzid s = true \/ i_authid s = true
  end.
