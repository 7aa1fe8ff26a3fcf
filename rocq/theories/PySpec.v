(** What is expected of the Python bindings, over the events of a program. *)
From Verif Require Import Base PyModel.

(** The connection of each vortex.Handle returned, in order. *)
Fixpoint sets (es : list cevent) : list (option Z) :=
  match es with
  | [] => []
  | CSet w true _ _ :: r => w :: sets r
  | _ :: r => sets r
  end.
(** Handles are given back to the connection they come from, before it is
    closed. *)
Definition proper (es : list cevent) : Prop :=
  forall pre w k post, es = pre ++ CRemove w k :: post -> (k < length (sets pre))%nat ->
  nth_error (sets pre) k = Some w /\ forall c, w = Some c -> ~ In (CClose c) pre.

Definition calls (k : nat) (l : list cobs) : list (Z * Z) :=
  flat_map (fun o => match o with OCall j f d => if Nat.eqb j k then [(f, d)] else [] | _ => [] end) l.
Definition frees (k : nat) (l : list cobs) : nat :=
  length (filter (fun o => match o with OFreed j => Nat.eqb j k | _ => false end) l).
(** The function and data given for each handle. *)
Fixpoint given (es : list cevent) : list (Z * Z) :=
  match es with
  | [] => []
  | CSet _ true f d :: r => (f, d) :: given r
  | _ :: r => given r
  end.
(** A removal of the handle [k] after it was returned. *)
Definition removed (k : nat) (es : list cevent) : Prop :=
  exists pre w post, es = pre ++ CRemove w k :: post /\ (k < length (sets pre))%nat.

(** Nothing is left to do for the handlers of the connection [c]. *)
Definition settled (c : Z) (s : pcs) : Prop :=
  forall r, In r (pc_recs s) -> cr_conn r = Some c -> cr_place r = CNo \/ cr_place r = CDone.

(** The references owned: by the reader and by the objects that have the
    connection. *)
Definition owners (s : pyc) : Z :=
  (if y_reader s then 1 else 0) + zlen (filter w_on (y_ws s)).
Definition all_collected (s : pyc) : Prop := y_reader s = false /\ forall w, In w (y_ws s) -> w_alive w = false.

(** The objects given to push, the ones returned. *)
Fixpoint pushed (es : list qevent) : list Z :=
  match es with [] => [] | QPush o :: r => o :: pushed r | _ :: r => pushed r end.
Fixpoint objs (l : list qres) : list Z :=
  match l with [] => [] | RObj o :: r => o :: objs r | RNone :: r => objs r end.
Definition count (x : Z) (l : list Z) : Z := zlen (filter (Z.eqb x) l).
Definition drops (x : Z) (es : list qevent) : Z :=
  zlen (filter (fun e => match e with QDrop o => o =? x | _ => false end) es).
Definition nones (l : list qres) : Z := zlen (filter (fun r => match r with RNone => true | _ => false end) l).
(** The references a program has to an object: the ones at the beginning, the
    ones returned to it, less the ones it let go. *)
Definition owned (refs : Z -> Z) (es : list qevent) (got : list qres) (x : Z) : Z :=
  refs x + count x (objs got) + (if x =? py_none then nones got else 0) - drops x es.

(** What set_frame_received asked for last. *)
Fixpoint conf (es : list hevent) (cur : option (Z * Z)) : option (Z * Z) :=
  match es with
  | [] => cur
  | HConf true h d :: r => conf r (Some (h, match d with Some d => d | None => py_none end))
  | HUnset :: r => conf r None
  | _ :: r => conf r cur
  end.
Definition frames (f : Z) (es : list hevent) : Z :=
  zlen (filter (fun e => match e with HFrame g => g =? f | _ => false end) es).
Definition locks (f : Z) (es : list hevent) : Z :=
  zlen (filter (fun e => match e with HLock g => g =? f | _ => false end) es).
Definition seen (f : Z) (l : list hobs) : Z :=
  zlen (filter (fun o => match o with HCall g _ _ => g =? f | HOther g => g =? f end) l).
(** Frames come once a handler was given, and none is on its way when the handler
    is taken away. *)
Definition calm (es : list hevent) : Prop :=
  (forall pre f post, es = pre ++ HFrame f :: post -> exists h d, In (HConf true h d) pre) /\
  (forall pre post, es = pre ++ HUnset :: post -> forall f, frames f pre <= locks f pre) /\
  (forall pre f post, es = pre ++ HLock f :: post -> locks f pre < frames f pre).
