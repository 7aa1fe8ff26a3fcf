(** Delivery of frames to the frame received handler of a channel by the threads of
    the pool, with vortex_channel_set_serialize (src/vortex_channel.c:4773-4799,
    check_serialize_pending 6267-6312, check_serialize 6325-6366,
    __vortex_channel_invoke_received_handler 6382-6532,
    vortex_channel_invoke_received_handler 6563-6659; the handlers of profiles,
    src/vortex_profiles.c:952-969, are called the same way).

    A step is a critical section of [serialize_mutex] together with the start or
    the end of the handler next to it.  The tasks given to the pool may run in any
    order.  The frame read from the network comes with its content size (that of
    the joined frame, if it came in fragments).  References to the channel and the
    connection are not followed. *)
From Verif Require Import Base.

Record fr := mkFr { f_id : nat; f_seq : Z; f_size : Z }.
Inductive zobs :=
| OStart (i : nat)            (* the handler is called with frame [i] *)
| OEnd (i : nat)
| OFreed (i : nat).           (* the frame is released without having been delivered *)

Record zst := mkZ {
  z_up : bool;
  z_on : bool;                (* serialize *)
  z_made : bool;              (* serialize_hash was created *)
  z_next : Z;                 (* serialize_next_seqno *)
  z_hash : list fr;           (* serialize_hash, by sequence number *)
  z_exp : Z;                  (* last_seq_no_expected *)
  z_count : nat;              (* frames given to the handler so far *)
  z_tasks : list fr;          (* tasks of the pool that did not run yet *)
  z_run : list fr;            (* calls to the handler in course *)
  z_log : list zobs
}.
(** A channel without frames in course. *)
Definition z0 (e : Z) : zst := mkZ true false false 0 [] e 0 [] [] [].
Definition modulus : Z := 2 ^ 32.

Definition at_seq (l : list fr) (q : Z) : option fr := find (fun f => f_seq f =? q) l.
Definition without (l : list fr) (i : nat) : list fr := filter (fun f => negb (Nat.eqb (f_id f) i)) l.
Definition with_id (l : list fr) (i : nat) : option fr := find (fun f => Nat.eqb (f_id f) i) l.
(** axl_hash_insert_full with a key that is there releases the old value. *)
Definition replaced (l : list fr) (q : Z) : list zobs := map (fun f => OFreed (f_id f)) (filter (fun f => f_seq f =? q) l).

(** [ZSerialize b]: vortex_channel_set_serialize; [ZFrame n taken]: the reader
    receives a frame with a content of [n] octets, given to the handler or, if
    [taken], to the global handler (vortex_reader.c:569), to a thread that waits
    for a reply (6583-6614) or to nobody; [ZPiggy n]: the thread that created the channel
    gives the content of the start reply to the handler, as a frame with sequence
    number 0 (1067-1077, 8478-8487); [ZTask i]: a thread starts with frame
    [i]; [ZReturn i n]: the handler returns, and leaves the frame with a content
    size of [n] (vortex_frame_set_mime_header changes it); [ZDown]: the
    connection is closed. *)
Inductive zev :=
| ZSerialize (b : bool)
| ZFrame (n : Z) (taken : bool)
| ZPiggy (n : Z)
| ZTask (i : nat)
| ZReturn (i : nat) (n : Z)
| ZDown.

Definition zstep (s : zst) (e : zev) : zst :=
  match e with
  | ZSerialize b =>
      if b && negb (z_made s) then mkZ (z_up s) true true (z_exp s) [] (z_exp s) (z_count s) (z_tasks s) (z_run s) (z_log s)
      else mkZ (z_up s) b (z_made s) (z_next s) (z_hash s) (z_exp s) (z_count s) (z_tasks s) (z_run s) (z_log s)
  | ZFrame n taken =>
      if z_up s then
        let e := (z_exp s + n) mod modulus in
        if taken then mkZ true (z_on s) (z_made s) (z_next s) (z_hash s) e (z_count s) (z_tasks s) (z_run s) (z_log s)
        else mkZ true (z_on s) (z_made s) (z_next s) (z_hash s) e (S (z_count s)) (z_tasks s ++ [mkFr (z_count s) (z_exp s) n]) (z_run s) (z_log s)
      else s
  | ZPiggy n => mkZ (z_up s) (z_on s) (z_made s) (z_next s) (z_hash s) (z_exp s) (S (z_count s)) (z_tasks s ++ [mkFr (z_count s) 0 n]) (z_run s) (z_log s)
  | ZTask i =>
      match with_id (z_tasks s) i with
      | None => s
      | Some f =>
          let rest := without (z_tasks s) i in
          if negb (z_up s) then mkZ (z_up s) (z_on s) (z_made s) (z_next s) (z_hash s) (z_exp s) (z_count s) rest (z_run s) (z_log s ++ [OFreed i])
          else if negb (z_on s) || (f_seq f =? z_next s) then
            mkZ (z_up s) (z_on s) (z_made s) (z_next s) (z_hash s) (z_exp s) (z_count s) rest (z_run s ++ [f]) (z_log s ++ [OStart i])
          else
            mkZ (z_up s) (z_on s) (z_made s) (z_next s) (filter (fun g => negb (f_seq g =? f_seq f)) (z_hash s) ++ [f]) (z_exp s) (z_count s) rest (z_run s)
                (z_log s ++ replaced (z_hash s) (f_seq f))
      end
  | ZReturn i n =>
      match with_id (z_run s) i with
      | None => s
      | Some f =>
          let rest := without (z_run s) i in
          if z_on s then
            let next := (f_seq f + n) mod modulus in
            match at_seq (z_hash s) next with
            | Some g =>
                mkZ (z_up s) (z_on s) (z_made s) next (filter (fun h => negb (f_seq h =? next)) (z_hash s)) (z_exp s) (z_count s) (z_tasks s) (rest ++ [g]) (z_log s ++ [OEnd i; OStart (f_id g)])
            | None => mkZ (z_up s) (z_on s) (z_made s) next (z_hash s) (z_exp s) (z_count s) (z_tasks s) rest (z_log s ++ [OEnd i])
            end
          else mkZ (z_up s) (z_on s) (z_made s) (z_next s) (z_hash s) (z_exp s) (z_count s) (z_tasks s) rest (z_log s ++ [OEnd i])
      end
  | ZDown => mkZ false (z_on s) (z_made s) (z_next s) (z_hash s) (z_exp s) (z_count s) (z_tasks s) (z_run s) (z_log s)
  end.
Fixpoint zrun (s : zst) (es : list zev) : zst :=
  match es with [] => s | e :: k => zrun (zstep s e) k end.
