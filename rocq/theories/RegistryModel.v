(** The channels of a connection by number: the choice of the number of a new
    channel (src/vortex_connection.c:4089-4104, 4218-4248), the table of
    channels (4550-4594, 4622-4655) and how the creation of a channel uses them
    (src/vortex_channel.c:861-895, 928-932, 972-984, 1005-1042).

    A step is a critical section of the mutex of the channels, except for the
    search of a free number, where a step is one iteration of the loop: the
    mutex is held until a free number is found, but removing a channel does not
    need it.  Channels are numbered in the order they are created. *)
From Verif Require Import Base.

(** src/vortex_types.h:273 *)
Definition MAX_CHANNELS_NO : Z := 2147483647.

(** A thread creating a channel: [TNum n], with a number that was free
    (src/vortex_channel.c:875-894); [TAdded n c], with the channel in the table,
    waiting for the reply (932-996); [TDenied n c], with the channel removed
    from the table by __vortex_channel_validate_start_reply (712, 736, 745, 818)
    before it is removed again (1018). *)
Inductive tstate := TNum (n : Z) | TAdded (n c : Z) | TDenied (n c : Z).

(** What is seen: an iteration of the search of a number, the number given, the
    creation of a channel and its end, a channel closed. *)
Inductive robs :=
| OVisit (n : Z)
| OGiven (t n : Z) (used : list (Z * Z))
| OCreated (t n c : Z)
| ORefused (t : Z)
| OClosed (n c : Z).

Record reg := mkReg {
  rg_init : bool;                  (* connection->role == VortexRoleInitiator *)
  rg_up : bool;                    (* connection->is_connected *)
  rg_last : Z;                     (* connection->last_channel *)
  rg_chans : list (Z * Z);         (* connection->channels, without channel 0 *)
  rg_hold : option Z;              (* connection->channel_mutex *)
  rg_thr : list (Z * tstate);
  rg_next : Z;
  rg_log : list robs
}.
(** vortex_connection_new_empty_from_connection (967). *)
Definition reg0 (init : bool) : reg := mkReg init true (if init then 1 else 2) [] None [] 0 [].

Definition chan_at (r : reg) (n : Z) : option Z := option_map snd (find (fun e => fst e =? n) (rg_chans r)).
(** vortex_connection_channel_exists (4089-4104). *)
Definition exists_chan (r : reg) (n : Z) : bool :=
  if (n <? 0) || negb (rg_up r) then false
  else if n =? 0 then true
  else match chan_at r n with Some _ => true | None => false end.
(** vortex_hash_remove (connection->channels, number) (4648). *)
Definition drop_chan (l : list (Z * Z)) (n : Z) : list (Z * Z) := filter (fun e => negb (fst e =? n)) l.

Definition thr_of (r : reg) (t : Z) : option tstate := option_map snd (find (fun e => fst e =? t) (rg_thr r)).
Definition end_thr (l : list (Z * tstate)) (t : Z) : list (Z * tstate) := filter (fun e => negb (fst e =? t)) l.
Definition thr_to (l : list (Z * tstate)) (t : Z) (x : tstate) : list (Z * tstate) := (t, x) :: end_thr l t.

(** The next number to try (4232-4237).  The addition is of [int]. *)
Definition next_no (init : bool) (last : Z) : outcome Z :=
  if last + 2 <? two31 then
    let n := Z.rem (last + 2) MAX_CHANNELS_NO in
    Ok (if n =? 0 then if init then 1 else 2 else n)
  else UB.

Definition locked (r : reg) : bool := match rg_hold r with Some _ => true | None => false end.
Definition held_by (r : reg) (t : Z) : bool := match rg_hold r with Some u => u =? t | None => false end.

(** An iteration of vortex_connection_get_next_channel (4218-4248). *)
Definition try_next (r : reg) (t : Z) : outcome reg :=
  let! n := next_no (rg_init r) (rg_last r) in
  Ok (if exists_chan r n
      then mkReg (rg_init r) (rg_up r) n (rg_chans r) (Some t) (rg_thr r) (rg_next r) (rg_log r ++ [OVisit n])
      else mkReg (rg_init r) (rg_up r) n (rg_chans r) None (thr_to (rg_thr r) t (TNum n)) (rg_next r)
                 (rg_log r ++ [OVisit n; OGiven t n (rg_chans r)])).

Definition with_thr (r : reg) (l : list (Z * tstate)) (o : list robs) : reg :=
  mkReg (rg_init r) (rg_up r) (rg_last r) (rg_chans r) (rg_hold r) l (rg_next r) (rg_log r ++ o).
Definition with_chans (r : reg) (c : list (Z * Z)) (l : list (Z * tstate)) (o : list robs) : reg :=
  mkReg (rg_init r) (rg_up r) (rg_last r) c (rg_hold r) l (rg_next r) (rg_log r ++ o).

(** [RTry t]: an iteration of the search of a number; [RChoose t n]: a number
    given by the user, or by the peer in a start request (875-880, 7277);
    [RAdd t]: vortex_connection_add_channel; [RReply t ok]: the reply to the
    start message; [RFail t]: no reply, or the message could not be sent
    (972-984, 1005-1013); [RDenied t]: the second removal (1018-1027);
    [RClose n]: the channel found with a number is closed; [RDown]: the
    connection is closed. *)
Inductive rev_ :=
| RTry (t : Z)
| RChoose (t n : Z)
| RAdd (t : Z)
| RReply (t : Z) (ok : bool)
| RFail (t : Z)
| RDenied (t : Z)
| RClose (n : Z)
| RDown.

Definition rstep (r : reg) (e : rev_) : outcome reg :=
  match e with
  | RTry t =>
      match thr_of r t with
      | Some _ => Ok r
      | None =>
          if held_by r t then try_next r t
          else if locked r then Ok r
          else if rg_up r then try_next r t
          else Ok (with_thr r (rg_thr r) [ORefused t])
      end
  | RChoose t n =>
      match thr_of r t with
      | Some _ => Ok r
      | None =>
          if held_by r t || (n =? 0) then Ok r
          else if exists_chan r n then Ok (with_thr r (rg_thr r) [ORefused t])
          else Ok (with_thr r (thr_to (rg_thr r) t (TNum n)) [])
      end
  | RAdd t =>
      match thr_of r t with
      | Some (TNum n) =>
          if locked r then Ok r
          else match chan_at r n with
               | Some _ => Ok (with_thr r (end_thr (rg_thr r) t) [ORefused t])
               | None =>
                   Ok (mkReg (rg_init r) (rg_up r) (rg_last r) ((n, rg_next r) :: rg_chans r) (rg_hold r)
                             (thr_to (rg_thr r) t (TAdded n (rg_next r))) (rg_next r + 1) (rg_log r))
               end
      | _ => Ok r
      end
  | RReply t ok =>
      match thr_of r t with
      | Some (TAdded n c) =>
          if ok then Ok (with_thr r (end_thr (rg_thr r) t) [OCreated t n c])
          else Ok (with_chans r (drop_chan (rg_chans r) n) (thr_to (rg_thr r) t (TDenied n c)) [])
      | _ => Ok r
      end
  | RFail t =>
      match thr_of r t with
      | Some (TAdded n c) => Ok (with_chans r (drop_chan (rg_chans r) n) (end_thr (rg_thr r) t) [ORefused t])
      | _ => Ok r
      end
  | RDenied t =>
      match thr_of r t with
      | Some (TDenied n c) => Ok (with_chans r (drop_chan (rg_chans r) n) (end_thr (rg_thr r) t) [ORefused t])
      | _ => Ok r
      end
  | RClose n =>
      match chan_at r n with
      | Some c => Ok (with_chans r (drop_chan (rg_chans r) n) (rg_thr r) [OClosed n c])
      | None => Ok r
      end
  | RDown => Ok (mkReg (rg_init r) false (rg_last r) (rg_chans r) (rg_hold r) (rg_thr r) (rg_next r) (rg_log r))
  end.
Fixpoint rrun (r : reg) (es : list rev_) : outcome reg :=
  match es with
  | [] => Ok r
  | e :: k => let! r' := rstep r e in rrun r' k
  end.
