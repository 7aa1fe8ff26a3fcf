(** Small services of a connection, in src/vortex_connection.c: identifiers
    (421-437, 7154-7160), the errors of channels (3428-3475, 3543-3582), the
    server name (4882-4926), the masks of profiles (3893-3937, 3977-4024), the
    actions (5663-5745) and the handlers that choose the size of frames
    (5589-5656, src/vortex_channel.c:4249-4251, 4296-4318).

    A step is a critical section of the mutex that protects the data.  Where
    there is no mutex, it is one access to the data shared. *)
From Verif Require Import Base.

(** * Identifiers *)
(** __vortex_connection_get_next_id (421-437): [n] calls, from any threads. *)
Fixpoint take_ids (next : Z) (n : nat) : outcome (list Z * Z) :=
  match n with
  | O => Ok ([], next)
  | Datatypes.S k =>
      if next + 1 <? two31 then
        let! r := take_ids (next + 1) k in Ok (next :: fst r, snd r)
      else UB
  end.
(** vortex_connection_init (7154-7160), in a context not inherited by a fork. *)
Definition first_id : Z := 1.

(** * Errors of channels *)
(** Messages are named by numbers.  [XPush code msg ok]: push_channel_error,
    where [msg] may be NULL and [ok] tells if memory could be allocated;
    [XPop ok]: pop_channel_error, [ok] if no argument is NULL. *)
Inductive xev := XPush (code : Z) (msg : option Z) (ok : bool) | XPop (ok : bool).
Inductive xobs := XPushed (e : Z * Z) | XPopped (e : Z * Z) | XNothing | XBadCall.
Record xst := mkX { x_stack : list (Z * Z); x_log : list xobs }.
Definition xstep (s : xst) (e : xev) : xst :=
  match e with
  | XPush code (Some m) true => mkX ((code, m) :: x_stack s) (x_log s ++ [XPushed (code, m)])
  | XPush _ _ _ => s
  | XPop false => mkX (x_stack s) (x_log s ++ [XBadCall])
  | XPop true =>
      match x_stack s with
      | [] => mkX [] (x_log s ++ [XNothing])
      | e :: r => mkX r (x_log s ++ [XPopped e])
      end
  end.
Definition xrun (s : xst) (es : list xev) : xst := fold_left xstep es s.

(** * Server name *)
Definition COLON : Z := 58.
(** A string allocated, without its last NUL; it is read as a C string. *)
Fixpoint c_string (b : bytes) : bytes :=
  match b with
  | [] => []
  | x :: r => if x =? 0 then [] else x :: c_string r
  end.
Fixpoint put (b : bytes) (i : nat) (x : Z) : bytes :=
  match b, i with
  | [], _ => []
  | _ :: r, O => x :: r
  | y :: r, Datatypes.S k => y :: put r k x
  end.
(** A thread in set_server_name (4899-4926): it has seen that there is no name
    (4910), or it is removing the port (4917-4923). *)
Inductive nthr := NChecked (name : bytes) | NCutting (i : nat).
Record nst := mkN { n_name : option bytes; n_thr : list (Z * nthr); n_seen : list (option bytes) }.
Definition nthr_of (s : nst) (t : Z) : option nthr := option_map snd (find (fun e => fst e =? t) (n_thr s)).
Definition nend (l : list (Z * nthr)) (t : Z) : list (Z * nthr) := filter (fun e => negb (fst e =? t)) l.
(** [NSet t name]: a call starts; [NGo t]: it goes on; [NGet]: get_server_name. *)
Inductive nev := NSet (t : Z) (name : option bytes) | NGo (t : Z) | NGet.
Definition nstep (s : nst) (e : nev) : outcome nst :=
  match e with
  | NSet t name =>
      match nthr_of s t, name, n_name s with
      | None, Some v, None => Ok (mkN (n_name s) ((t, NChecked v) :: n_thr s) (n_seen s))
      | _, _, _ => Ok s
      end
  | NGo t =>
      match nthr_of s t with
      | Some (NChecked v) => Ok (mkN (Some v) ((t, NCutting 0) :: nend (n_thr s) t) (n_seen s))
      | Some (NCutting i) =>
          match n_name s with
          | None => UB
          | Some b =>
              if (length b <? i)%nat then UB
              else match nth_error b i with
                   | None => Ok (mkN (Some b) (nend (n_thr s) t) (n_seen s))
                   | Some x =>
                       if x =? 0 then Ok (mkN (Some b) (nend (n_thr s) t) (n_seen s))
                       else Ok (mkN (Some (if x =? COLON then put b i 0 else b)) ((t, NCutting (Datatypes.S i)) :: nend (n_thr s) t) (n_seen s))
                   end
          end
      | None => Ok s
      end
  | NGet => Ok (mkN (n_name s) (n_thr s) (n_seen s ++ [option_map c_string (n_name s)]))
  end.
Fixpoint nrun (s : nst) (es : list nev) : outcome nst :=
  match es with
  | [] => Ok s
  | e :: r => let! s' := nstep s e in nrun s' r
  end.

(** * Profile masks *)
Section Masks.
(** Whether a mask filters the profile, and the message it sets if it does;
    the masks installed by other threads, or by the mask, during a call. *)
Variable verdict : Z -> bool * option Z.
Variable installed : nat -> list Z.
(** vortex_connection_is_profile_filtered (3990-4023): the result, the
    message, the masks called and the masks there are at the end.  [None]: the
    loop has not finished. *)
Fixpoint filter_loop (fuel : nat) (masks : list Z) (i : nat) (msg : option Z) (called : list Z)
  : option (bool * option Z * list Z * list Z) :=
  match fuel with
  | O => None
  | Datatypes.S f =>
      match nth_error masks i with
      | None => Some (false, msg, called, masks)
      | Some m =>
          let masks' := masks ++ installed i in
          let msg' := match snd (verdict m) with Some x => Some x | None => msg end in
          if fst (verdict m) then Some (true, msg', called ++ [m], masks')
          else filter_loop f masks' (Datatypes.S i) msg' (called ++ [m])
      end
  end.
Definition is_filtered (fuel : nat) (masks : list Z) : option (bool * option Z * list Z * list Z) :=
  filter_loop fuel masks 0 None [].
End Masks.

(** * Connection actions *)
Record action := mkA { a_stage : Z; a_id : Z }.
(** What a call got and answered: the action, the connection, the code returned
    and the connection stored in [new_conn]. *)
Record acall := mkAC { ac_id : Z; ac_conn : option Z; ac_code : Z; ac_new : option Z }.
Section Actions.
Variable stage : Z.
(** The answer of an action to its [k]-th call, and the actions there are when
    the mutex is taken again. *)
Variable answer : nat -> Z -> option Z -> Z * option Z.
Variable actions : nat -> list action.
(** The loop of vortex_connection_actions_notify (5687-5739): what is returned,
    the connection of the caller, and the calls made. *)
Fixpoint notify_loop (fuel : nat) (i k : nat) (conn : option Z) (calls : list acall) : option (bool * option Z * list acall) :=
  match fuel with
  | O => None
  | Datatypes.S f =>
      match nth_error (actions k) i with
      | None => Some (true, conn, calls)
      | Some a =>
          if a_stage a =? stage then
            let '(code, new) := answer k (a_id a) conn in
            let calls' := calls ++ [mkAC (a_id a) conn code new] in
            if code =? -1 then Some (false, conn, calls')
            else if code =? 0 then Some (true, conn, calls')
            else if code =? 2 then notify_loop f (Datatypes.S i) (Datatypes.S k) new calls'
            else notify_loop f (Datatypes.S i) (Datatypes.S k) conn calls'
          else notify_loop f (Datatypes.S i) k conn calls
      end
  end.
(** vortex_connection_actions_notify (5663-5745); [ok]: the connection works. *)
Definition actions_notify (fuel : nat) (ok : bool) (conn : Z) : option (bool * option Z * list acall) :=
  if ok then notify_loop fuel 0 0 (Some conn) [] else Some (false, Some conn, []).
End Actions.

(** * Handlers that choose the size of frames *)
(** A handler and its data, 0 standing for NULL. *)
Record hslot := mkH { h_fun : Z; h_data : Z }.
(** vortex_connection_set_next_frame_size_handler (5589-5609) and
    vortex_channel_set_next_frame_size_handler (src/vortex_channel.c:4296-4318). *)
Definition set_size_handler (s : hslot) (f d : Z) : hslot * Z := (mkH f (if f =? 0 then 0 else d), h_fun s).
(** vortex_connection_set_default_next_frame_size_handler (5632-5656): the
    value returned is that of the argument (5643). *)
Definition set_default_size_handler (s : hslot) (f d : Z) : hslot * Z := (mkH f (if f =? 0 then 0 else d), f).
(** The same in steps (the data is stored before the handler), with another
    thread that calls the handler (4249-4251). *)
Inductive hev := HData (d : Z) | HFun (f : Z) | HCall.
Record hst := mkHS { hs_slot : hslot; hs_calls : list (Z * Z) }.
Definition hstep (s : hst) (e : hev) : hst :=
  match e with
  | HData d => mkHS (mkH (h_fun (hs_slot s)) d) (hs_calls s)
  | HFun f => mkHS (mkH f (h_data (hs_slot s))) (hs_calls s)
  | HCall => if h_fun (hs_slot s) =? 0 then s else mkHS (hs_slot s) (hs_calls s ++ [(h_fun (hs_slot s), h_data (hs_slot s))])
  end.
Definition hrun (s : hst) (es : list hev) : hst := fold_left hstep es s.
