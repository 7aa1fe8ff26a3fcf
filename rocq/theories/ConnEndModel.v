(** The close of a connection by its users: vortex_connection_close
    (src/vortex_connection.c 2826-2923) called by any number of threads, the
    reference it takes (2928-2960) and the ones it drops (3050-3091), the one of the
    reader (src/vortex_reader.c 1108-1116) and those of the application.

    A step is a critical section or an access to the connection made between two
    of them.  The close of all the channels (557-600) is an oracle.  What
    vortex_connection_shutdown does is in OnCloseModel: here the connection is
    no longer connected.  An access to the connection once its memory was
    released is undefined behaviour. *)
From Verif Require Import Base HdrModel.

(** VortexRoleInitiator: the application owns a reference; VortexRoleListener, a
    connection accepted, and VortexRoleMasterListener: it is the reader's. *)
Inductive role := Initiator | Accepted | Master.
(** Where a call is: before 2844, 2854, 2937, 2946, 2959, 2862, 2865, 2871, 2874, 2880,
    2885, 2890, 2891 (with the count read), 2916, 2919, 2907, 2908, the end. *)
Inductive pc :=
| QStart | QIsOk | QRefOk | QRefInc | QRefRead | QFailShut | QFailUnref
| QChan | QChanUnref | QUndo | QShut | QRead | QUnref (r : Z) | QRole | QOwn | QMaster | QMasterUnref
| QDone (b : bool).
(** [q_extra]: the references the application took itself; [q_reader]: the reader
    has its own. *)
Record cn := mkCn {
  q_role : role; q_up : bool; q_called : bool; q_count : Z; q_freed : bool;
  q_reader : bool; q_extra : Z; q_calls : list pc
}.
Definition q_go s n p := mkCn (q_role s) (q_up s) (q_called s) (q_count s) (q_freed s) (q_reader s) (q_extra s) (upd_nth (q_calls s) n p).
Definition q_setup s b := mkCn (q_role s) b (q_called s) (q_count s) (q_freed s) (q_reader s) (q_extra s) (q_calls s).
Definition q_setcalled s b := mkCn (q_role s) (q_up s) b (q_count s) (q_freed s) (q_reader s) (q_extra s) (q_calls s).
Definition q_setref s c := mkCn (q_role s) (q_up s) (q_called s) c (q_freed s) (q_reader s) (q_extra s) (q_calls s).
Definition q_setowners s r e := mkCn (q_role s) (q_up s) (q_called s) (q_count s) (q_freed s) r e (q_calls s).
Definition q_add s p := mkCn (q_role s) (q_up s) (q_called s) (q_count s) (q_freed s) (q_reader s) (q_extra s) (q_calls s ++ [p]).
(** vortex_connection_unref: the memory is released with the last reference. *)
Definition q_unref s := mkCn (q_role s) (q_up s) (q_called s) (q_count s - 1) (q_count s - 1 =? 0) (q_reader s) (q_extra s) (q_calls s).

(** A connection established, with [e] references of the application besides the
    one of the initiator. *)
Definition established (r : role) (e : Z) : cn :=
  mkCn r true false ((match r with Initiator => 1 | _ => 0 end) + 1 + e) false true e [].
(** A listener that could not be started. *)
Definition not_started : cn := mkCn Master false false 1 false false 0 [].

Inductive event := ECall | EStep (n : nat) (closed : bool) | ELost | EReader | EDrop.

(** A step of a call; [b] tells if all the channels were closed. *)
Definition cstep (s : cn) (n : nat) (p : pc) (b : bool) : cn :=
  match p with
  | QStart => if q_called s then q_go s n (QDone true) else q_go (q_setcalled s true) n QIsOk
  | QIsOk => q_go s n (if q_up s then QRefOk else QMaster)
  | QRefOk => q_go s n (if q_up s then QRefInc else QFailShut)
  | QRefInc => q_go (q_setref s (q_count s + 1)) n QRefRead
  | QRefRead => q_go s n (if 1 <? q_count s then QChan else QFailShut)
  | QFailShut => q_go (q_setup s false) n QFailUnref
  | QFailUnref => q_go (q_unref s) n (QDone true)
  | QChan => q_go s n (if b then QShut else QChanUnref)
  | QChanUnref => q_go (q_unref s) n QUndo
  | QUndo => q_go (q_setcalled s false) n (QDone false)
  | QShut => q_go (q_setup s false) n QRead
  | QRead => q_go s n (QUnref (q_count s))
  | QUnref r => q_go (q_unref s) n (if r - 1 =? 0 then QDone true else QRole)
  | QRole => q_go s n (match q_role s with Initiator => QOwn | _ => QDone true end)
  | QOwn => q_go (q_unref s) n (QDone true)
  | QMaster => q_go s n (match q_role s with Master => QMasterUnref | _ => QRole end)
  | QMasterUnref => q_go (q_unref s) n (QDone true)
  | QDone _ => s
  end.
Definition qstep (s : cn) (e : event) : outcome cn :=
  match e with
  | ECall => Ok (q_add s QStart)
  | EStep n b =>
      match nth_error (q_calls s) n with
      | Some (QDone _) | None => Ok s
      | Some p => if q_freed s then UB else Ok (cstep s n p b)
      end
  (* the connection is lost, or shut down by others *)
  | ELost => Ok (q_setup s false)
  (* the reader finds the connection closed (src/vortex_reader.c 1108-1116) *)
  | EReader =>
      if q_reader s then
        if q_freed s then UB
        else Ok (if q_up s then s else q_setowners (q_unref s) false (q_extra s))
      else Ok s
  (* the application drops a reference it took *)
  | EDrop =>
      if 0 <? q_extra s then
        if q_freed s then UB else Ok (q_setowners (q_unref s) (q_reader s) (q_extra s - 1))
      else Ok s
  end.
Fixpoint qrun (s : cn) (es : list event) : outcome cn :=
  match es with
  | [] => Ok s
  | e :: r => let! s' := qstep s e in qrun s' r
  end.
