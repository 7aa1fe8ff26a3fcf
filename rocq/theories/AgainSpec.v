(** What is asked of a connection made again. *)
From Verif Require Import Base CodecModel CodecSpec AgainModel.

(** Nothing of an earlier session is kept that the reading of the next could find. *)
Definition clean (l : link) : Prop :=
  r_pending (l_rd l) = [] /\ r_partial (l_rd l) = None /\ r_nodata (l_rd l) = 0 /\ l_piece l = None.

(** Greetings that arrive whole, in one frame or several, and are accepted: the bytes of [fs]
    are all what the socket gives, in any pieces. *)
Definition payloads (fs : list frame) : bytes := concat (map f_payload fs).
Definition greeted (chans : Z -> option chwin) (parse : frame -> bytes -> option (list bytes)) (s : sock) (profiles : list bytes) : Prop :=
  exists pre f ws, Forall2 wire (pre ++ [f]) ws /\ alive s /\ sdata s = concat ws /\ agains s < 25 /\
    Forall (receivable chans) (pre ++ [f]) /\ Forall (fun g => f_more g = true) pre /\ f_more f = false /\
    parse f (payloads (pre ++ [f])) = Some profiles.

(** How many times something is told. *)
Fixpoint times (p : told -> bool) (t : list told) : Z :=
  match t with [] => 0 | x :: r => (if p x then 1 else 0) + times p r end.
Definition is_closed (n : Z) (x : told) : bool := match x with TClosed m => m =? n | _ => false end.
Definition is_global (n : Z) (x : told) : bool := match x with TGlobal m => m =? n | _ => false end.
Definition is_removed (n : Z) (h : nat) (x : told) : bool :=
  match x with TRemoved m g => (m =? n) && Nat.eqb g h | _ => false end.
Definition is_connected (x : told) : bool := match x with TConnected _ => true | _ => false end.
Definition is_created (x : told) : bool := match x with TCreated => true | _ => false end.

(** The channels of a connection have different numbers. *)
Definition numbered (l : link) : Prop := NoDup (map c_num (l_chans l)).
(** The references that are not of the reader. *)
Definition others (l : link) : Z := l_refs l - Z.of_nat (l_watch l).
(** The references taken by other threads along a life. *)
Fixpoint taken (es : list ev) : Z :=
  match es with [] => 0 | ERef :: r => 1 + taken r | EUnref :: r => taken r - 1 | _ :: r => taken r end.
