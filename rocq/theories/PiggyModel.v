(** The content that comes with the reply to a start request
    (vortex_channel_set_piggyback, src/vortex_channel.c:8462-8497, have_piggyback
    8449-8460, get_piggyback 8424-8438 with vortex_hash_lookup_and_clear,
    src/vortex_hash.c:397-424), its delivery by the thread that creates the channel
    (src/vortex_channel.c:1060-1085) through vortex_channel_invoke_received_handler
    (6563-6659), and by vortex_channel_get_reply (8363-8369).

    A step is a critical section of the mutex of the data of the channel or of
    receive_mutex.  The frame made of the content has type RPY and number 0
    (8478-8487). *)
From Verif Require Import Base.

Inductive gobs :=
| OSet (i : nat)                     (* content [i] is stored *)
| OLeak (i : nat)                    (* it is replaced without being released: stored without destroy function *)
| OGet (t : nat) (r : option nat)    (* result of vortex_channel_get_piggyback *)
| OHandler (i : nat)                 (* given to the frame received handler *)
| OWaiter (t : nat) (i : nat)        (* given to a thread that waits for a reply *)
| ODropped (i : nat).                (* released by the creator: no handler or the connection is closed *)
Record pg := mkG {
  g_stored : option nat;
  g_next : nat;
  g_wait : list (nat * Z);           (* waiting_msgno: threads and the number they wait for *)
  g_open : bool;                     (* is_opened *)
  g_handler : bool;                  (* channel->received is set and the connection is up *)
  g_pc : nat;                        (* creator: 0 before have_piggyback, 1 before get_piggyback, 2 after *)
  g_log : list gobs
}.
Definition g0 (handler : bool) : pg := mkG None 0 [] true handler 0 [].

(** [GSet]: set_piggyback; [GGet t]: thread [t] calls get_piggyback, or get_reply;
    [GWait t m]: thread [t] sent message [m] and waits for the reply; [GReply]: the reply of
    the first of them arrives; [GCreator]: the next step of the creator; [GClose]: the
    channel is closed; [GHandler b]: the handler is set or removed. *)
Inductive gev :=
| GSet
| GGet (t : nat)
| GWait (t : nat) (m : Z)
| GReply
| GCreator
| GClose
| GHandler (b : bool).
Definition take (s : pg) (o : list gobs) : pg := mkG None (g_next s) (g_wait s) (g_open s) (g_handler s) (g_pc s) (g_log s ++ o).
(** vortex_channel_invoke_received_handler with the frame of the content. *)
Definition deliver (s : pg) (i : nat) : pg :=
  let go w o := mkG (g_stored s) (g_next s) w (g_open s) (g_handler s) (g_pc s) (g_log s ++ [o]) in
  match g_wait s with
  | (t, m) :: w => if m =? 0 then go w (OWaiter t i) else if g_handler s then go (g_wait s) (OHandler i) else go (g_wait s) (ODropped i)
  | [] => if g_handler s then go [] (OHandler i) else go [] (ODropped i)
  end.
Definition with_pc (s : pg) (n : nat) : pg := mkG (g_stored s) (g_next s) (g_wait s) (g_open s) (g_handler s) n (g_log s).
Definition gstep (s : pg) (e : gev) : pg :=
  match e with
  | GSet => mkG (Some (g_next s)) (S (g_next s)) (g_wait s) (g_open s) (g_handler s) (g_pc s)
              (g_log s ++ match g_stored s with Some i => [OLeak i] | None => [] end ++ [OSet (g_next s)])
  | GGet t => take s [OGet t (g_stored s)]
  | GWait t m => mkG (g_stored s) (g_next s) (g_wait s ++ [(t, m)]) (g_open s) (g_handler s) (g_pc s) (g_log s)
  | GReply => mkG (g_stored s) (g_next s) (tl (g_wait s)) (g_open s) (g_handler s) (g_pc s) (g_log s)
  | GCreator =>
      match g_pc s with
      | O => if g_open s && match g_stored s with Some _ => true | None => false end then with_pc s 1 else with_pc s 2
      | S O => match g_stored s with Some i => deliver (take (with_pc s 2) []) i | None => with_pc s 2 end
      | _ => s
      end
  | GClose => mkG (g_stored s) (g_next s) (g_wait s) false (g_handler s) (g_pc s) (g_log s)
  | GHandler b => mkG (g_stored s) (g_next s) (g_wait s) (g_open s) b (g_pc s) (g_log s)
  end.
Fixpoint grun (s : pg) (es : list gev) : pg := match es with [] => s | e :: k => grun (gstep s e) k end.
