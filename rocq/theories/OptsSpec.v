(** What the documentation of the options says (src/vortex_types.h 456-497), without the functions of the model. *)
From Verif Require Import Base OptsModel.

(** The last item of a kind counts. *)
Inductive last_name : list item -> option nat -> Prop :=
| ln_nil : last_name [] None
| ln_set : forall is n, last_name (is ++ [IName n]) n
| ln_acq : forall is n b, last_name is n -> last_name (is ++ [IAcquire b]) n
| ln_rel : forall is n b, last_name is n -> last_name (is ++ [IRelease b]) n.
Inductive last_acq : list item -> bool -> Prop :=
| la_nil : last_acq [] true
| la_set : forall is b, last_acq (is ++ [IAcquire b]) b
| la_name : forall is n b, last_acq is b -> last_acq (is ++ [IName n]) b
| la_rel : forall is c b, last_acq is b -> last_acq (is ++ [IRelease c]) b.
(** The serverName a connection made with some items should ask for: the one given, or the host unless that is disabled. *)
Inductive asks (host : nat) : list item -> option nat -> Prop :=
| as_name : forall is n, last_name is (Some n) -> asks host is (Some n)
| as_host : forall is, last_name is None -> last_acq is true -> asks host is (Some host)
| as_none : forall is, last_name is None -> last_acq is false -> asks host is None.
(** Events that do not release nor use options after their release: creations and threads with options made to be reused. *)
Definition keeps (items : list item) : Prop := forall b, In (IRelease b) items -> b = false.
Definition reusing (n : nat) (v : ev) : Prop :=
  match v with
  | VNew _ | VDefault _ | VFree _ => False
  | VConn x _ _ | VStart x _ _ | VHttp x _ _ => forall i, x = Some i -> i = n
  | VRun => True
  end.
