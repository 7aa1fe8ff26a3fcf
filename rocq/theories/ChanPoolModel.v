(** The channel pool (src/vortex_channel_pool.c:116-214, 640-720, 985-1120,
    1205-1365) and the identifiers of pools (src/vortex_connection.c:6301-6308).

    A step is a critical section of the mutex of the pools of the connection,
    or what happens between two of them.  Channels are numbered in the order
    they are created.  What makes a channel ready on its own (open, not being
    closed, no reply pending) is changed by events; the pool's own mark, the
    data "status_busy" of the channel, is [cp_busy]. *)
From Verif Require Import Base.

(** A call of get_next_ready_full (1252-1307): [GHold c], with a channel found
    or created, before it is marked (1290-1292); [GCreate], before the creation
    of a channel (1285); [GAppend c], before it is added to the pool (191-200). *)
Inductive gstate := GHold (c : Z) | GCreate | GAppend (c : Z).

(** What is seen: the result of get_next_ready, a release, a channel closed by
    vortex_channel_pool_remove. *)
Inductive cobs := CGot (t c : Z) | CNone (t : Z) | CReleased (c : Z) | CClosed (c : Z).

Record cpool := mkCP {
  cp_list : list Z;             (* pool->channels *)
  cp_ready : Z -> bool;         (* opened, not being closed, ready *)
  cp_busy : Z -> bool;
  cp_calls : list (Z * gstate); (* calls of get_next_ready in progress *)
  cp_next : Z;
  cp_log : list cobs
}.
Definition cp0 : cpool := mkCP [] (fun _ => false) (fun _ => false) [] 0 [].

(** __vortex_channel_pool_is_ready (116-123). *)
Definition cp_is_ready (p : cpool) (c : Z) : bool := cp_ready p c && negb (cp_busy p c).

Definition set_fun (f : Z -> bool) (c : Z) (b : bool) : Z -> bool := fun x => if x =? c then b else f x.
Definition call_of (p : cpool) (t : Z) : option gstate :=
  option_map snd (find (fun e => fst e =? t) (cp_calls p)).
Definition end_call (l : list (Z * gstate)) (t : Z) : list (Z * gstate) := filter (fun e => negb (fst e =? t)) l.
Definition with_calls (p : cpool) (l : list (Z * gstate)) (o : list cobs) : cpool :=
  mkCP (cp_list p) (cp_ready p) (cp_busy p) l (cp_next p) (cp_log p ++ o).

(** __vortex_channel_pool_remove (640-690): closes up to [n] channels that are
    ready. *)
Fixpoint pool_remove (ready : Z -> bool) (n : Z) (l : list Z) : list Z * list Z :=
  match l with
  | [] => ([], [])
  | c :: r =>
      if n <=? 0 then (l, [])
      else if ready c then let '(k, d) := pool_remove ready (n - 1) r in (k, c :: d)
      else let '(k, d) := pool_remove ready n r in (c :: k, d)
  end.

Inductive cev :=
| KLookup (t : Z) (auto_inc : bool)
| KCreate (t : Z) (ok : bool)
| KAppend (t : Z)
| KMark (t : Z)
| KRelease (c : Z)
| KAttach (c : Z)
| KDetach (c : Z)
| KRemove (n : Z)
| KNew
| KReady (c : Z) (b : bool).
Definition cstep (p : cpool) (e : cev) : cpool :=
  match e with
  | KLookup t auto_inc =>  (* 1270-1286; [t] is one thread: it makes one call at a time *)
      match call_of p t with
      | Some _ => p
      | None =>
          match find (cp_is_ready p) (cp_list p) with
          | Some c => with_calls p ((t, GHold c) :: cp_calls p) []
          | None => if auto_inc then with_calls p ((t, GCreate) :: cp_calls p) [] else with_calls p (cp_calls p) [CNone t]
          end
      end
  | KCreate t ok =>  (* 152-187 *)
      match call_of p t with
      | Some GCreate =>
          if ok then
            mkCP (cp_list p) (set_fun (cp_ready p) (cp_next p) true) (set_fun (cp_busy p) (cp_next p) false)
                 ((t, GAppend (cp_next p)) :: end_call (cp_calls p) t) (cp_next p + 1) (cp_log p)
          else with_calls p (end_call (cp_calls p) t) [CNone t]
      | _ => p
      end
  | KAppend t =>  (* 193-200 *)
      match call_of p t with
      | Some (GAppend c) =>
          mkCP (cp_list p ++ [c]) (cp_ready p) (cp_busy p) ((t, GHold c) :: end_call (cp_calls p) t) (cp_next p) (cp_log p)
      | _ => p
      end
  | KMark t =>  (* 1290-1307 *)
      match call_of p t with
      | Some (GHold c) =>
          mkCP (cp_list p) (cp_ready p) (set_fun (cp_busy p) c true) (end_call (cp_calls p) t) (cp_next p) (cp_log p ++ [CGot t c])
      | _ => p
      end
  | KRelease c =>  (* 1321-1365 *)
      if existsb (fun x => x =? c) (cp_list p) then
        mkCP (cp_list p) (cp_ready p) (set_fun (cp_busy p) c false) (cp_calls p) (cp_next p) (cp_log p ++ [CReleased c])
      else with_calls p (cp_calls p) [CReleased c]
  | KAttach c =>  (* 985-1021 *)
      if existsb (fun x => x =? c) (cp_list p) || negb (c <? cp_next p) then p
      else mkCP (cp_list p ++ [c]) (cp_ready p) (cp_busy p) (cp_calls p) (cp_next p) (cp_log p)
  | KDetach c =>  (* 1040-1100 *)
      mkCP (filter (fun x => negb (x =? c)) (cp_list p)) (cp_ready p) (cp_busy p) (cp_calls p) (cp_next p) (cp_log p)
  | KRemove n =>  (* 705-720; the channels closed are not ready any more *)
      let '(keep, del) := pool_remove (cp_is_ready p) n (cp_list p) in
      mkCP keep (fun c => cp_ready p c && negb (existsb (fun x => x =? c) del)) (cp_busy p) (cp_calls p) (cp_next p)
           (cp_log p ++ map CClosed del)
  | KNew =>  (* a channel created by the application *)
      mkCP (cp_list p) (set_fun (cp_ready p) (cp_next p) true) (set_fun (cp_busy p) (cp_next p) false) (cp_calls p)
           (cp_next p + 1) (cp_log p)
  | KReady c b =>  (* replies outstanding or not; a channel that has been closed does not open again *)
      if existsb (fun o => match o with CClosed x => x =? c | _ => false end) (cp_log p) || negb (c <? cp_next p) then p
      else mkCP (cp_list p) (set_fun (cp_ready p) c b) (cp_busy p) (cp_calls p) (cp_next p) (cp_log p)
  end.
Definition crun (p : cpool) (es : list cev) : cpool := fold_left cstep es p.

(** vortex_connection_next_channel_pool_id (6301-6308), without a mutex: the
    increment (6306) is a read and a write, then the counter is read again
    (6307).  Each thread has what it has read, or the identifier it got. *)
Inductive pstate := IRead (v : Z) | IWrote | IGot (id : Z).
Record pids := mkPI { pi_count : Z; pi_thr : list (Z * pstate) }.
Inductive piev := QRead (t : Z) | QWrite (t : Z) | QReturn (t : Z).
Definition pi_of (s : pids) (t : Z) : option pstate := option_map snd (find (fun e => fst e =? t) (pi_thr s)).
Definition pistep (s : pids) (e : piev) : outcome pids :=
  match e with
  | QRead t => Ok (match pi_of s t with None => mkPI (pi_count s) ((t, IRead (pi_count s)) :: pi_thr s) | _ => s end)
  | QWrite t =>
      match pi_of s t with
      | Some (IRead v) => if v + 1 <? two31 then Ok (mkPI (v + 1) ((t, IWrote) :: pi_thr s)) else UB
      | _ => Ok s
      end
  | QReturn t => Ok (match pi_of s t with Some IWrote => mkPI (pi_count s) ((t, IGot (pi_count s)) :: pi_thr s) | _ => s end)
  end.
Fixpoint pirun (s : pids) (es : list piev) : outcome pids :=
  match es with [] => Ok s | e :: r => let! s' := pistep s e in pirun s' r end.
