(** What is expected of connections over WebSocket. *)
From Verif Require Import Base WsModel.

(** The program uses the setup while it owns a reference, and each connection it creates takes one
    ("the reference you pass to this function will be owned by the connection created"). *)
Fixpoint fair (own busy : Z) (es : list wev) : Prop :=
  match es with
  | [] => True
  | WRef :: r => 1 <= own /\ fair (own + 1) busy r
  | WUnref :: r => 1 <= own /\ fair (own - 1) busy r
  | WConf _ :: r => 1 <= own /\ fair own busy r
  | WConnect :: r => 1 <= own /\ fair (own - 1) (busy + 1) r
  | WDone :: r => 1 <= busy /\ fair own (busy - 1) r
  end.
Fixpoint own_after (own : Z) (es : list wev) : Z :=
  match es with
  | [] => own
  | WRef :: r => own_after (own + 1) r
  | WUnref :: r | WConnect :: r => own_after (own - 1) r
  | _ :: r => own_after own r
  end.
Fixpoint working (busy : Z) (es : list wev) : Z :=
  match es with
  | [] => busy
  | WConnect :: r => working (busy + 1) r
  | WDone :: r => working (busy - 1) r
  | _ :: r => working busy r
  end.

(** The last value given to an item. *)
Fixpoint last_of {A} (f : witem -> option A) (es : list wev) (d : A) : A :=
  match es with
  | [] => d
  | WConf i :: r => last_of f r (match f i with Some x => x | None => d end)
  | _ :: r => last_of f r d
  end.
Definition of_tls (i : witem) := match i with ITls b => Some b | _ => None end.
Definition of_verify (i : witem) := match i with IVerify b => Some b | _ => None end.
Definition of_host (i : witem) := match i with IHost s => Some s | _ => None end.
Definition of_origin (i : witem) := match i with IOrigin s => Some s | _ => None end.
Definition times {A} (f : witem -> option A) (es : list wev) : Z :=
  zlen (filter (fun e => match e with WConf i => match f i with Some _ => true | None => false end | _ => false end) es).

(** [n] is [h] without the port. *)
Definition before_colon (h n : bytes) : Prop :=
  ~ In 58 n /\ exists rest, h = n ++ rest /\ (rest = [] \/ exists t, rest = 58 :: t).

(** The connection the caller gets, from the value returned or from the handler. *)
Definition got (r : wres) : wconn := match c_told r with c :: _ => c | [] => c_ret r end.
