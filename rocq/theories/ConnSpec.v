(** What is expected of the services of a connection. *)
From Verif Require Import Base ConnModel.

(** * Errors: a stack *)
(** Logs where every error pushed has been returned, the last first. *)
Inductive matched : list xobs -> Prop :=
| M_nil : matched []
| M_bad : matched [XBadCall]
| M_app a b : matched a -> matched b -> matched (a ++ b)
| M_pair e b : matched b -> matched (XPushed e :: b ++ [XPopped e]).
Inductive settled : list xobs -> Prop :=
| S_nil : settled []
| S_more a b : settled a -> matched b -> settled (a ++ b)
| S_none a : settled a -> settled (a ++ [XNothing]).
(** An error returned is the last one pushed and not returned yet; nothing is
    returned only if there is none. *)
Definition lifo (log : list xobs) : Prop :=
  (forall a e c, log = a ++ XPopped e :: c -> exists a1 b, a = a1 ++ XPushed e :: b /\ matched b) /\
  (forall a c, log = a ++ XNothing :: c -> settled a).

(** * Server name *)
(** The name without the port. *)
Fixpoint host (v : bytes) : bytes :=
  match v with
  | [] => []
  | x :: r => if x =? 58 then [] else x :: host r
  end.
Definition c_name (e : nev) : Prop := match e with NSet _ (Some v) => ~ In 0 v | _ => True end.
Fixpoint first_name (es : list nev) : option bytes :=
  match es with
  | [] => None
  | NSet _ (Some v) :: _ => Some v
  | _ :: r => first_name r
  end.
(** Calls that do not overlap. *)
Fixpoint quiet (s : nst) (es : list nev) : Prop :=
  match es with
  | [] => True
  | e :: r => match e with NGo _ => True | _ => n_thr s = [] end /\ forall s', nstep s e = Ok s' -> quiet s' r
  end.

(** * Actions *)
(** Each call follows from the answer to the one before. *)
Fixpoint chained (conn : option Z) (calls : list acall) : Prop :=
  match calls with
  | [] => True
  | c :: r => ac_conn c = conn /\ (r <> [] -> ac_code c <> -1 /\ ac_code c <> 0) /\
              chained (if ac_code c =? 2 then ac_new c else conn) r
  end.
(** The connection after the calls. *)
Fixpoint conn_after (conn : option Z) (calls : list acall) : option Z :=
  match calls with
  | [] => conn
  | c :: r => conn_after (if ac_code c =? 2 then ac_new c else conn) r
  end.
Definition stops (c : acall) : Prop := ac_code c = -1 \/ ac_code c = 0.

(** * Size handlers: nothing is called between the two halves of a change *)
Fixpoint paired (es : list hev) : Prop :=
  match es with
  | [] => True
  | HData _ :: HFun _ :: r => paired r
  | HCall :: r => paired r
  | _ => False
  end.
(** Handlers and data given together. *)
Fixpoint given (es : list hev) : list (Z * Z) :=
  match es with
  | HData d :: HFun f :: r => (f, d) :: given r
  | _ :: r => given r
  | [] => []
  end.
