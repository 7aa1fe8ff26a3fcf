(** Connections over external transports (external/vortex_external.c): the setup and who holds it,
    the mutex that keeps the handlers of the user apart, what is returned and told when a connection is created, and the
    descriptors a listener closes.

    The handlers of the user are not modelled: calls to them start and end.  Connections are those of
    vortex_connection_new_empty_from_connection2 (src/vortex_connection.c 902-1027) with skip_naming. *)
From Verif Require Import Base.

(** * The setup *)
(** A call to a handler of the user in progress: under the mutex, without it as it is not enabled, or direct, as in accepted
    connections, that are given the handlers of the user (473-474). *)
Inductive how := HLock | HFree | HDirect.
Record call := mkCall { k_id : nat; k_conn : nat; k_how : how }.
(** [x_conns]: connections with their data alive, and if the mutex of the data was created.  [x_bad]: mutexes destroyed that were never
    created. *)
Record xst := mkX {
  x_alive : bool; x_refs : Z; x_mutex : bool; x_held : bool;
  x_conns : list (nat * bool); x_in : list call; x_bad : nat
}.
(** vortex_external_setup_new (76-88). *)
Definition setup_new : xst := mkX true 1 false false [] [] 0.
Inductive xev :=
| XRef | XUnref            (* calls of the user *)
| XConf (b : bool)         (* VORTEX_EXTERNAL_CONF_MUTEX_IO *)
| XNew (c : nat)           (* vortex_external_connection_new *)
| XFree (c : nat)          (* the last reference to the connection is released *)
| XEnter (k c : nat)       (* the engine sends or receives *)
| XEnterA (k c : nat)      (* the same, on an accepted connection *)
| XLeave (k : nat).        (* the handler returns *)
Definition has_conn (c : nat) (l : list (nat * bool)) : bool := existsb (fun x => Nat.eqb (fst x) c) l.
Definition find_call (k : nat) (l : list call) : option call := find (fun x => Nat.eqb (k_id x) k) l.
Definition del_call (k : nat) (l : list call) : list call := filter (fun x => negb (Nat.eqb (k_id x) k)) l.
Definition del_conn (c : nat) (l : list (nat * bool)) : list (nat * bool) := filter (fun x => negb (Nat.eqb (fst x) c)) l.
(** vortex_external_setup_unref (128-157). *)
Definition unref (s : xst) : outcome (option xst) :=
  if negb (x_alive s) then UB
  else if x_held s then Ok None
  else let n := x_refs s - 1 in
       Ok (Some (mkX (0 <? n) n (x_mutex s) false (x_conns s) (x_in s) (x_bad s))).
(** One step; [None]: it does not happen in this state (the call waits for the mutex, or there is no such connection or call). *)
Definition xstep (e : xev) (s : xst) : outcome (option xst) :=
  match e with
  | XRef => (* 98-114 *)
      if negb (x_alive s) then UB
      else if x_held s then Ok None
      else Ok (Some (mkX true (x_refs s + 1) (x_mutex s) false (x_conns s) (x_in s) (x_bad s)))
  | XUnref => unref s
  | XConf b => (* 169-179 *)
      if negb (x_alive s) then UB else Ok (Some (mkX true (x_refs s) b (x_held s) (x_conns s) (x_in s) (x_bad s)))
  | XNew c => (* 363-379: the setup is stored without a reference *)
      if has_conn c (x_conns s) then Ok None
      else if negb (x_alive s) then UB
      else Ok (Some (mkX true (x_refs s) (x_mutex s) (x_held s) ((c, x_mutex s) :: x_conns s) (x_in s) (x_bad s)))
  | XFree c => (* __vortex_external_data_release (205-217) *)
      match find (fun x => Nat.eqb (fst x) c) (x_conns s) with
      | None => Ok None
      | Some (_, made) =>
          if existsb (fun x => Nat.eqb (k_conn x) c) (x_in s) then Ok None
          else let! r := unref s in
               Ok (match r with
                   | None => None
                   | Some s' => Some (mkX (x_alive s') (x_refs s') (x_mutex s') (x_held s') (del_conn c (x_conns s')) (x_in s')
                                          (x_bad s' + if made then 0 else 1)%nat)
                   end)
      end
  | XEnter k c => (* 222-242, 256-276 *)
      if negb (has_conn c (x_conns s)) then Ok None
      else match find_call k (x_in s) with
      | Some _ => Ok None
      | None =>
          if negb (x_alive s) then UB
          else if x_mutex s then
            if x_held s then Ok None
            else Ok (Some (mkX true (x_refs s) true true (x_conns s) (mkCall k c HLock :: x_in s) (x_bad s)))
          else Ok (Some (mkX true (x_refs s) false (x_held s) (x_conns s) (mkCall k c HFree :: x_in s) (x_bad s)))
      end
  | XEnterA k c =>
      if has_conn c (x_conns s) then Ok None
      else match find_call k (x_in s) with
      | Some _ => Ok None
      | None => Ok (Some (mkX (x_alive s) (x_refs s) (x_mutex s) (x_held s) (x_conns s) (mkCall k c HDirect :: x_in s) (x_bad s)))
      end
  | XLeave k => (* 244-250, 278-284: the mutex is released if it is enabled now *)
      match find_call k (x_in s) with
      | None => Ok None
      | Some x =>
          let s' := mkX (x_alive s) (x_refs s) (x_mutex s) (x_held s) (x_conns s) (del_call k (x_in s)) (x_bad s) in
          match k_how x with
          | HDirect => Ok (Some s')
          | h =>
              if negb (x_alive s) then UB
              else if x_mutex s then
                match h with
                | HLock => Ok (Some (mkX (x_alive s') (x_refs s') (x_mutex s') false (x_conns s') (x_in s') (x_bad s')))
                | _ => UB  (* a mutex that is not locked is unlocked *)
                end
              else Ok (Some s')
          end
      end
  end.
Fixpoint xrun (es : list xev) (s : xst) : outcome (option xst) :=
  match es with
  | [] => Ok (Some s)
  | e :: es' =>
      let! r := xstep e s in
      match r with None => Ok None | Some s' => xrun es' s' end
  end.

(** * A new connection *)
Record setup := mkSu { su_prepare : bool; su_host : option bytes; su_port : option bytes }.
Inductive ret := RNull | RConn (up : bool) (host port : option bytes).
(** What is returned, how many times the handler is called, if the setup is now released with the connection, how many times the prepare
    handler is called, and if a connection was created and is lost. *)
Record nres := mkN { n_ret : ret; n_told : nat; n_gave : bool; n_prepared : nat; n_lost : bool }.
(** vortex_external_connection_new (328-408).  [made], [mem]: the connection and its data are created; [sendh], [recvh], [told]: the
    handlers are given; [greet]: the greetings are exchanged. *)
Definition conn_new (ctx : bool) (session : Z) (made mem sendh recvh : bool) (su : option setup) (told greet : bool) : outcome nres :=
  if negb ctx then Ok (mkN RNull 0 false 0 false)
  else if session <? 0 then Ok (mkN RNull 0 false 0 false)
  else if negb made then Ok (mkN RNull 0 false 0 false)
  else if negb mem then Ok (mkN RNull 0 false 0 true)
  else
    let gave := match su with Some _ => true | None => false end in
    let prepared := match su with Some s => if su_prepare s then 1%nat else 0%nat | None => 0%nat end in
    if negb (sendh && recvh) then UB
    else Ok (mkN (RConn greet None None) 0 gave prepared false).

(** * The descriptors *)
(** [d_tab]: the descriptors open in the process and whose they are; [d_sess]: that of the connection; [d_data]: the one in the data of the
    connection, -1 when it has none; [d_closed]: the owners of the descriptors this connection closed. *)
Record dst := mkD { d_tab : list (Z * nat); d_sess : Z; d_data : Z; d_up : bool; d_freed : bool; d_closed : list nat }.
Inductive dev := DShutdown | DFree | DOpen (n : Z) (o : nat) | DShut (n : Z).
Definition owner (n : Z) (t : list (Z * nat)) : option nat := option_map snd (find (fun x => fst x =? n) t).
(** vortex_close_socket (src/vortex.h 101). *)
Definition close_fd (n : Z) (s : dst) : dst :=
  if n <? 0 then s
  else mkD (filter (fun x => negb (fst x =? n)) (d_tab s)) (d_sess s) (d_data s) (d_up s) (d_freed s)
           (match owner n (d_tab s) with Some o => o :: d_closed s | None => d_closed s end).
Definition no_session (s : dst) : dst := mkD (d_tab s) (-1) (d_data s) (d_up s) (d_freed s) (d_closed s).
Definition dstep (e : dev) (s : dst) : dst :=
  match e with
  | DShutdown => (* src/vortex_connection.c 5793-5845 *)
      if d_freed s || negb (d_up s) then s
      else let s := mkD (d_tab s) (d_sess s) (d_data s) false (d_freed s) (d_closed s) in
           if d_sess s =? -1 then s else no_session (close_fd (d_sess s) s)
  | DFree => (* src/vortex_connection.c 3638-3640 and 3736-3742; external/vortex_external.c 426-438 *)
      if d_freed s then s
      else let s := close_fd (d_data s) s in
           let s := if d_sess s =? -1 then s else no_session (close_fd (d_sess s) s) in
           mkD (d_tab s) (d_sess s) (d_data s) false true (d_closed s)
  | DOpen n o => (* the system gives a number that is not in use *)
      match owner n (d_tab s) with
      | Some _ => s
      | None => if n <? 0 then s else mkD ((n, o) :: d_tab s) (d_sess s) (d_data s) (d_up s) (d_freed s) (d_closed s)
      end
  | DShut n => (* other code closes what is its own *)
      if (n =? d_sess s) && d_up s then s
      else mkD (filter (fun x => negb (fst x =? n)) (d_tab s)) (d_sess s) (d_data s) (d_up s) (d_freed s) (d_closed s)
  end.
Definition drun (es : list dev) (s : dst) : dst := fold_left (fun s e => dstep e s) es s.
(** A connection, with descriptor [n] of owner [o] (vortex_external_connection_new), and a listener (vortex_external_listener_new, 521-594,
    that stores the descriptor twice). *)
Definition client (n : Z) (o : nat) (t : list (Z * nat)) : dst := mkD ((n, o) :: t) n (-1) true false [].
Definition listener (n : Z) (o : nat) (t : list (Z * nat)) : dst := mkD ((n, o) :: t) n n true false [].
