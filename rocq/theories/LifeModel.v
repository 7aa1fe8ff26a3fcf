(** The life of channel pools and of the references they hold (src/vortex_channel_pool.c 137-214, 223-288, 513-557, 667-678,
    690-745, 764-777, 789-905, 955-1090; src/vortex_channel.c 5050-5087, 7921-7939, 9054-9084; src/vortex_connection.c 6321-6356).

    One connection.  Each operation runs to its end; [l_lock] tells that channel_pool_mutex, which is not recursive, is held by it.
    A channel is its number, and numbers are not used twice.  A channel belongs to the connection until it is closed by either side: the
    connection then drops its reference.  [h_app] counts the references the application took; nothing reads it.  Starting a channel
    succeeds; [LNew n] and [LAdd p n] are given the number of channels that were created.  The end of the connection is not modelled. *)
From Verif Require Import Base.

Record chn := mkH { h_refs : Z; h_pool : option nat; h_conn : bool; h_app : Z;
                    h_ready : bool;    (* opened, not being closed, no reply pending, not busy *)
                    h_accept : bool;   (* the peer accepts to close it *)
                    h_uses : bool;     (* the handlers run when it is closed call the functions of pools *)
                    h_freed : bool }.
Record pl := mkQ { q_live : bool; q_list : list nat }.
Record lst := mkL { l_chs : list chn; l_pools : list pl; l_lock : bool }.
Definition lst0 : lst := mkL [] [] false.
(** [LUB]: memory already freed is used.  [LDead]: the thread waits for the mutex it holds. *)
Inductive lres := LOk (s : lst) | LUB | LDead.
Definition lbind (r : lres) (f : lst -> lres) : lres := match r with LOk s => f s | r => r end.

Fixpoint put {A} (l : list A) (i : nat) (x : A) : list A := match l, i with [], _ => [] | _ :: r, O => x :: r | y :: r, S i => y :: put r i x end.
Definition set_ch (s : lst) (c : nat) (h : chn) : lst := mkL (put (l_chs s) c h) (l_pools s) (l_lock s).
Definition set_pl (s : lst) (p : nat) (q : pl) : lst := mkL (l_chs s) (put (l_pools s) p q) (l_lock s).
Definition set_lock (s : lst) (b : bool) : lst := mkL (l_chs s) (l_pools s) b.
Definition w_refs (h : chn) (n : Z) : chn := mkH n (h_pool h) (h_conn h) (h_app h) (h_ready h) (h_accept h) (h_uses h) (h_freed h).
Definition w_pool (h : chn) (o : option nat) : chn := mkH (h_refs h) o (h_conn h) (h_app h) (h_ready h) (h_accept h) (h_uses h) (h_freed h).
Definition w_closed (h : chn) : chn := mkH (h_refs h) (h_pool h) false (h_app h) false (h_accept h) (h_uses h) (h_freed h).
Definition w_app (h : chn) (n : Z) : chn := mkH (h_refs h) (h_pool h) (h_conn h) n (h_ready h) (h_accept h) (h_uses h) (h_freed h).
Definition w_freed (h : chn) : chn := mkH (h_refs h) (h_pool h) (h_conn h) (h_app h) (h_ready h) (h_accept h) (h_uses h) true.
Definition w_marks (h : chn) (r a u : bool) : chn := mkH (h_refs h) (h_pool h) (h_conn h) (h_app h) r a u (h_freed h).
Definition hasn (l : list nat) (c : nat) : bool := existsb (Nat.eqb c) l.
Definition drop (l : list nat) (c : nat) : list nat := filter (fun x => negb (Nat.eqb c x)) l.

(** The channel and the pool, if they are there to be used. *)
Definition with_ch (s : lst) (c : nat) (f : chn -> lres) : lres := match nth_error (l_chs s) c with Some h => if h_freed h then LUB else f h | None => LUB end.
Definition with_pl (s : lst) (p : nat) (f : pl -> lres) : lres := match nth_error (l_pools s) p with Some q => if q_live q then f q else LUB | None => LUB end.

(** vortex_channel_free (channel 7921-7939): a channel that has a pool detaches from it.  The references are 0 here: were it in the list,
    the detach would take one more. *)
Definition chan_free (s : lst) (c : nat) (h : chn) : lres :=
  match h_pool h with
  | None => LOk (set_ch s c (w_freed h))
  | Some p =>
      with_pl s p (fun q =>
        if l_lock s then LDead
        else if hasn (q_list q) c then LUB
        else LOk (set_ch s c (w_freed h)))
  end.
(** vortex_channel_unref2 (channel 5050-5087). *)
Definition unref (s : lst) (c : nat) : lres :=
  with_ch s c (fun h =>
    let h := w_refs h (h_refs h - 1) in
    if h_refs h =? 0 then chan_free (set_ch s c h) c h else LOk (set_ch s c h)).
(** A channel closed: handlers are called, and the connection drops it when the peer accepts. *)
Definition close_ch (s : lst) (c : nat) : lres :=
  with_ch s c (fun h =>
    if negb (h_conn h) then LOk s
    else if h_uses h && l_lock s then LDead
    else if h_accept h then unref (set_ch s c (w_closed h)) c
    else LOk s).

(** __vortex_channel_pool_add_channels (137-214). *)
Definition new_chan (s : lst) (p : option nat) : lst :=
  mkL (l_chs s ++ [mkH (match p with Some _ => 2 | None => 1 end) p true 0 true true false false]) (l_pools s) (l_lock s).
Definition add_one (s : lst) (p : nat) : lres :=
  with_pl s p (fun q => LOk (set_pl (new_chan s (Some p)) p (mkQ true (q_list q ++ [List.length (l_chs s)])))).
Fixpoint add_channels (s : lst) (p : nat) (n : nat) : lres := match n with O => LOk s | S n => lbind (add_one s p) (fun s => add_channels s p n) end.
(** __vortex_channel_pool_remove (690-745), with the mutex locked: the first [n] channels that are ready. *)
Definition unlink (s : lst) (p c : nat) : lst := match nth_error (l_pools s) p with Some q => set_pl s p (mkQ (q_live q) (drop (q_list q) c)) | None => s end.
Definition no_pool (s : lst) (c : nat) : lres := with_ch s c (fun h => LOk (set_ch s c (w_pool h None))).
Definition take_out (s : lst) (p c : nat) : lres := lbind (no_pool (unlink s p c) c) (fun s => lbind (close_ch s c) (fun s => unref s c)).
Fixpoint rem_loop (s : lst) (p : nat) (todo : list nat) (n : nat) : lres :=
  match todo, n with
  | [], _ | _, O => LOk s
  | c :: r, S n' => with_ch s c (fun h => if h_ready h then lbind (take_out s p c) (fun s => rem_loop s p r n') else rem_loop s p r n)
  end.
(** What is left in the list when the pool is closed (819-838); the list itself is freed after (852): here each leaves it. *)
Fixpoint let_go (s : lst) (p : nat) (todo : list nat) : lres :=
  match todo with [] => LOk s | c :: r => lbind (no_pool (unlink s p c) c) (fun s => lbind (unref s c) (fun s => let_go s p r)) end.

Inductive lop := LNew (n : nat) | LAdd (p n : nat) | LStart | LAttach (p c : nat) | LDetach (p c : nat) | LRemove (p n : nat) | LClosePool (p : nat)
              | LCloseChan (c : nat) | LRef (c : nat) | LUnref (c : nat) | LMark (c : nat) (ready accept uses : bool).
Definition unlock (r : lres) : lres := lbind r (fun s => LOk (set_lock s false)).
Definition lstep (s : lst) (o : lop) : lres :=
  match o with
  | LNew n => add_channels (mkL (l_chs s) (l_pools s ++ [mkQ true []]) (l_lock s)) (List.length (l_pools s)) n
  | LAdd p n => add_channels s p n
  | LStart => LOk (new_chan s None)
  (* vortex_channel_pool_attach (985-1021) *)
  | LAttach p c =>
      with_pl s p (fun q => with_ch s c (fun h =>
        if hasn (q_list q) c then LOk s
        else LOk (set_pl (set_ch s c (w_refs h (h_refs h + 1))) p (mkQ true (q_list q ++ [c])))))
  (* vortex_channel_pool_deattach (1037-1098); the log line at its end, which reads the channel, is left out *)
  | LDetach p c =>
      with_pl s p (fun q => with_ch s c (fun h =>
        if hasn (q_list q) c then unlock (lbind (unref (set_lock s true) c) (fun s => LOk (unlink s p c)))
        else LOk s))
  (* vortex_channel_pool_remove (764-777) *)
  | LRemove p n => with_pl s p (fun q => unlock (rem_loop (set_lock s true) p (q_list q) n))
  (* __vortex_channel_pool_close_common (789-858) *)
  | LClosePool p =>
      with_pl s p (fun q =>
        lbind (rem_loop (set_lock s true) p (q_list q) (List.length (q_list q))) (fun s =>
        with_pl s p (fun q =>
        lbind (let_go s p (q_list q)) (fun s =>
        LOk (set_pl (set_lock s false) p (mkQ false []))))))
  | LCloseChan c => close_ch s c
  | LRef c => with_ch s c (fun h => LOk (set_ch s c (w_app (w_refs h (h_refs h + 1)) (h_app h + 1))))
  | LUnref c => with_ch s c (fun h => unref (set_ch s c (w_app h (h_app h - 1))) c)
  | LMark c r a u => with_ch s c (fun h => LOk (set_ch s c (w_marks h (r && h_conn h) a u)))
  end.
Fixpoint lrun (s : lst) (os : list lop) : lres := match os with [] => LOk s | o :: os => lbind (lstep s o) (fun s => lrun s os) end.

(** vortex_channel_pool_get_num (569-583) and vortex_channel_get_pool (channel 9076-9084). *)
Definition get_num (s : lst) (p : nat) : Z := match nth_error (l_pools s) p with Some q => zlen (q_list q) | None => -1 end.
Definition get_pool (s : lst) (c : nat) : option nat := match nth_error (l_chs s) c with Some h => h_pool h | None => None end.
