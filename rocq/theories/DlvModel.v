(** Who gets a frame and which references that takes: the delivery of frames
    (src/vortex_reader.c:588-625, 841-858), of the channel
    (src/vortex_channel.c:6267-6366, 6382-6532, 6563-6659) and of the profile
    (src/vortex_profiles.c:896-1012, 1031-1118), with the references to the channel
    and to the connection and the memory of the parameters of the tasks.

    The channels of one number of a connection are followed: the one that is in
    the connection and the ones that were before and are still referenced.  The
    connection and its table hold one reference each.  A step is the reception
    of a frame by the reader, the work of a task of the pool until it calls the
    handler or ends, and what it does when the handler returns; the accesses of
    these steps to the fields of the channel are not interleaved with others.  Allocation does not fail.
    Reference counts have no upper limit; using a channel whose memory was
    released, or releasing more references than there are, is undefined
    behaviour.  The references of the profile are in ProfModel and the order
    of the serialised frames in SerializeModel; the handlers do not take
    references to the frames. *)
From Verif Require Import Base HdrModel.

Record frame := mkF { f_id : nat; f_seq : Z; f_size : Z }.
Inductive who := WGlobal | WWaiter (n : Z) | WChan (h : Z) | WProf (h : Z).
Inductive dobs :=
| ODeliver (f : nat) (w : who)     (* a handler is called, or a thread waiting for a reply gets it *)
| ODrop (f : nat)                  (* given to nobody *)
| OFree (f : nat).                 (* its memory is released by the library *)

(** A channel in memory. *)
Record chan := mkC {
  c_ref : Z;
  c_recv : option Z;              (* received *)
  c_ser : bool; c_made : bool;    (* serialize; serialize_hash exists *)
  c_next : Z;                     (* serialize_next_seqno *)
  c_stored : list frame;          (* serialize_hash *)
  c_exp : Z;                      (* the sequence number of the next frame *)
  c_wait : list Z                 (* waiting_msgno *)
}.
(** A task of the pool or a call to a handler.  [T2]: of the channel; [T1]: of
    the profile.  The task of a profile has the number of the channel and not
    the channel: its [ch] is only used to say which one was referenced. *)
Inductive task := T2 (ch : nat) (f : frame) | T1 (ch : nat) (f : frame).
Inductive run := R2 (ch : nat) (f : frame) | R1 (ch : nat) (f : frame) (h : Z).

Record dst := mkD {
  d_up : bool;                    (* vortex_connection_is_ok *)
  d_zero : bool;                  (* it is channel 0 *)
  d_glob : bool;                  (* global_frame_received *)
  d_prof : option Z;              (* the received handler of the profile *)
  d_chans : list (option chan);
  d_cur : option nat;             (* vortex_connection_get_channel *)
  d_conn : Z;                     (* references to the connection *)
  d_count : nat;                  (* frames received *)
  d_tasks : list task;
  d_runs : list run;
  d_data : Z;                     (* blocks of parameters of tasks in memory *)
  d_log : list dobs
}.
Definition chan0 : chan := mkC 1 None false false 0 [] 0 [].
Definition d0 (zero : bool) : dst := mkD true zero false None [Some chan0] (Some 0%nat) 1 0 [] [] 0 [].

Definition put_chans (s : dst) x := mkD (d_up s) (d_zero s) (d_glob s) (d_prof s) x (d_cur s) (d_conn s) (d_count s) (d_tasks s) (d_runs s) (d_data s) (d_log s).
Definition put_cur (s : dst) x := mkD (d_up s) (d_zero s) (d_glob s) (d_prof s) (d_chans s) x (d_conn s) (d_count s) (d_tasks s) (d_runs s) (d_data s) (d_log s).
Definition put_conn (s : dst) x := mkD (d_up s) (d_zero s) (d_glob s) (d_prof s) (d_chans s) (d_cur s) x (d_count s) (d_tasks s) (d_runs s) (d_data s) (d_log s).
Definition put_tasks (s : dst) x := mkD (d_up s) (d_zero s) (d_glob s) (d_prof s) (d_chans s) (d_cur s) (d_conn s) (d_count s) x (d_runs s) (d_data s) (d_log s).
Definition put_runs (s : dst) x := mkD (d_up s) (d_zero s) (d_glob s) (d_prof s) (d_chans s) (d_cur s) (d_conn s) (d_count s) (d_tasks s) x (d_data s) (d_log s).
Definition put_data (s : dst) x := mkD (d_up s) (d_zero s) (d_glob s) (d_prof s) (d_chans s) (d_cur s) (d_conn s) (d_count s) (d_tasks s) (d_runs s) x (d_log s).
Definition see (s : dst) o := mkD (d_up s) (d_zero s) (d_glob s) (d_prof s) (d_chans s) (d_cur s) (d_conn s) (d_count s) (d_tasks s) (d_runs s) (d_data s) (d_log s ++ o).
Definition next_id (s : dst) := mkD (d_up s) (d_zero s) (d_glob s) (d_prof s) (d_chans s) (d_cur s) (d_conn s) (S (d_count s)) (d_tasks s) (d_runs s) (d_data s) (d_log s).

Definition set_ref n c := mkC n (c_recv c) (c_ser c) (c_made c) (c_next c) (c_stored c) (c_exp c) (c_wait c).
Definition set_recv h c := mkC (c_ref c) h (c_ser c) (c_made c) (c_next c) (c_stored c) (c_exp c) (c_wait c).
Definition set_next n l c := mkC (c_ref c) (c_recv c) (c_ser c) (c_made c) n l (c_exp c) (c_wait c).
Definition set_exp n c := mkC (c_ref c) (c_recv c) (c_ser c) (c_made c) (c_next c) (c_stored c) n (c_wait c).
Definition set_wait l c := mkC (c_ref c) (c_recv c) (c_ser c) (c_made c) (c_next c) (c_stored c) (c_exp c) l.
(** vortex_channel_set_serialize (src/vortex_channel.c:4773-4799) *)
Definition set_ser b c :=
  if b && negb (c_made c) then mkC (c_ref c) (c_recv c) true true (c_exp c) [] (c_exp c) (c_wait c)
  else mkC (c_ref c) (c_recv c) b (c_made c) (c_next c) (c_stored c) (c_exp c) (c_wait c).

Definition chan_at (s : dst) (i : nat) : outcome chan := match nth_error (d_chans s) i with Some (Some c) => Ok c | _ => UB end.
Definition write (s : dst) (i : nat) (f : chan -> chan) : outcome dst :=
  let! c := chan_at s i in Ok (put_chans s (upd_nth (d_chans s) i (Some (f c)))).
(** vortex_channel_ref2 and vortex_channel_unref2 (src/vortex_channel.c:5007-5087);
    vortex_channel_free releases the frames that are stored (7957). *)
Definition ref_ch (s : dst) (i : nat) : outcome dst := write s i (fun c => set_ref (c_ref c + 1) c).
Definition unref_ch (s : dst) (i : nat) : outcome dst :=
  let! c := chan_at s i in
  if c_ref c - 1 =? 0 then Ok (see (put_chans s (upd_nth (d_chans s) i None)) (map (fun f => OFree (f_id f)) (c_stored c)))
  else write s i (set_ref (c_ref c - 1)).
(** vortex_connection_unref *)
Definition unref_conn (s : dst) : outcome dst := if 0 <? d_conn s then Ok (put_conn s (d_conn s - 1)) else UB.

Definition modulus : Z := 2 ^ 32.
Definition at_seq (l : list frame) (q : Z) : option frame := find (fun f => f_seq f =? q) l.
Definition not_seq (l : list frame) (q : Z) : list frame := filter (fun f => negb (f_seq f =? q)) l.
Definition is_seq (l : list frame) (q : Z) : list frame := filter (fun f => f_seq f =? q) l.
Fixpoint drop_nth {A} (l : list A) (i : nat) : list A :=
  match l, i with [], _ => [] | _ :: r, O => r | x :: r, S n => x :: drop_nth r n end.

(** The frame is given by the reader: vortex_reader.c:588-625.  [reply]: it is a
    RPY or ERR with number [n]. *)
Definition receive (s : dst) (reply : bool) (n size : Z) : outcome dst :=
  match d_cur s with
  | None => Ok s
  | Some i =>
      let! c := chan_at s i in
      let f := mkF (d_count s) (c_exp c) size in
      let! s := write s i (set_exp ((c_exp c + size) mod modulus)) in
      let s := next_id s in
      (* 588-593, 841-858 *)
      if negb (d_zero s) && d_glob s then Ok (see s [ODeliver (f_id f) WGlobal; OFree (f_id f)])
      (* vortex_channel.c:6575-6614 *)
      else if reply && match c_wait c with m :: _ => m =? n | [] => false end then
        let! s := write s i (set_wait (tl (c_wait c))) in
        Ok (see s [ODeliver (f_id f) (WWaiter n)])
      (* 6621-6657 *)
      else match c_recv c, d_prof s with
      | Some _, _ =>
          let! s := ref_ch (put_conn (put_data s (d_data s + 1)) (d_conn s + 1)) i in
          Ok (put_tasks s (d_tasks s ++ [T2 i f]))
      (* vortex_profiles.c:1049-1117 *)
      | None, Some _ =>
          let! s := ref_ch (put_conn (put_data s (d_data s + 1)) (d_conn s + 1)) i in
          Ok (put_tasks s (d_tasks s ++ [T1 i f]))
      (* vortex_reader.c:617-623 *)
      | None, None => Ok (see s [ODrop (f_id f); OFree (f_id f)])
      end
  end.

(** vortex_channel_check_serialize (6325-6366): None is that the frame was stored. *)
Definition check_serialize (s : dst) (i : nat) (f : frame) : outcome (option dst) :=
  let! c := chan_at s i in
  if c_ser c && negb (f_seq f =? c_next c) then Ok None else Ok (Some s).
Definition store (s : dst) (i : nat) (f : frame) : outcome dst :=
  let! c := chan_at s i in
  let! s := write s i (set_next (c_next c) (not_seq (c_stored c) (f_seq f) ++ [f])) in
  Ok (see s (map (fun g => OFree (f_id g)) (is_seq (c_stored c) (f_seq f)))).

(** The end of a task: 6518-6531, vortex_profiles.c:990-1008. *)
Definition leave (s : dst) (i : nat) (f : option frame) : outcome dst :=
  let! s := unref_ch s i in
  let! s := unref_conn s in
  Ok (match f with Some f => see s [OFree (f_id f)] | None => s end).

(** vortex_channel_check_serialize_pending (6267-6312) after frame [f]; the answer
    is the frame to go on with. *)
Definition pending (s : dst) (i : nat) (f : frame) : outcome (dst * option frame) :=
  let! c := chan_at s i in
  if c_ser c then
    let q := (f_seq f + f_size f) mod modulus in
    let g := at_seq (c_stored c) q in
    let! s := write s i (set_next q (not_seq (c_stored c) q)) in
    let! s := (match g with None => Ok s | Some _ => let! s := unref_conn s in unref_ch s i end) in
    Ok (see s [OFree (f_id f)], g)
  else Ok (s, None).

(** The second level from deliver_frame (6453), with a frame: calls the handler
    or, if there is none, goes on ([n]: the frames that are stored at most). *)
Fixpoint deliver2 (n : nat) (s : dst) (i : nat) (f : frame) : outcome dst :=
  let! c := chan_at s i in
  match c_recv c with
  | Some h => Ok (see (put_runs s (d_runs s ++ [R2 i f])) [ODeliver (f_id f) (WChan h)])
  | None =>
      let! r := pending (see s [ODrop (f_id f)]) i f in
      match r, n with
      | (s, Some g), S n => deliver2 n s i g
      | (s, Some g), O => UB
      | (s, None), _ => leave s i (if c_ser c then None else Some f)
      end
  end.

(** A task runs. *)
Definition perform (s : dst) (t : task) : outcome dst :=
  match t with
  (* vortex_channel.c:6382-6460 *)
  | T2 i f =>
      let s := put_data s (d_data s - 1) in
      if negb (d_up s) then leave (see s [ODrop (f_id f)]) i (Some f) else
      let! o := check_serialize s i f in
      match o with
      | None => store s i f
      | Some s => let! c := chan_at s i in deliver2 (length (c_stored c)) s i f
      end
  (* vortex_profiles.c:896-966 *)
  | T1 _ f =>
      match d_prof s with
      | None => let! s := unref_conn (see s [ODrop (f_id f)]) in Ok (see s [OFree (f_id f)])
      | Some h =>
          let s := put_data s (d_data s - 1) in
          if negb (d_up s) then let! s := unref_conn (see s [ODrop (f_id f)]) in Ok (see s [OFree (f_id f)]) else
          match d_cur s with
          | None => let! s := unref_conn (see s [ODrop (f_id f)]) in Ok (see s [OFree (f_id f)])
          | Some j =>
              let! o := check_serialize s j f in
              match o with
              | None => store s j f
              | Some s => Ok (see (put_runs s (d_runs s ++ [R1 j f h])) [ODeliver (f_id f) (WProf h)])
              end
          end
      end
  end.

(** A handler returns: 6491-6531, vortex_profiles.c:969-1008. *)
Definition returns (s : dst) (r : run) : outcome dst :=
  match r with
  | R2 i f =>
      let! c := chan_at s i in
      let! p := pending s i f in
      match p with
      | (s, Some g) => deliver2 (length (c_stored c)) s i g
      | (s, None) => leave s i (if c_ser c then None else Some f)
      end
  | R1 i f h =>
      let! c := chan_at s i in
      let! p := pending s i f in
      match p with
      | (s, Some g) => Ok (see (put_runs s (d_runs s ++ [R1 i g h])) [ODeliver (f_id g) (WProf h)])
      | (s, None) => leave s i (if c_ser c then None else Some f)
      end
  end.

Inductive dev :=
| DGlobal (b : bool) | DChan (h : option Z) | DProf (h : option Z) | DSerial (b : bool) | DWait (n : Z)
| DFrame (reply : bool) (n size : Z)
| DTask (k : nat) | DReturn (k : nat)
| DDown | DClose | DOpen.

Definition on_cur (s : dst) (f : chan -> chan) : outcome dst := match d_cur s with Some i => write s i f | None => Ok s end.
Definition dstep (s : dst) (e : dev) : outcome dst :=
  match e with
  | DGlobal b => Ok (mkD (d_up s) (d_zero s) b (d_prof s) (d_chans s) (d_cur s) (d_conn s) (d_count s) (d_tasks s) (d_runs s) (d_data s) (d_log s))
  | DProf h => Ok (mkD (d_up s) (d_zero s) (d_glob s) h (d_chans s) (d_cur s) (d_conn s) (d_count s) (d_tasks s) (d_runs s) (d_data s) (d_log s))
  | DChan h => on_cur s (set_recv h)
  | DSerial b => on_cur s (set_ser b)
  | DWait n => on_cur s (fun c => set_wait (c_wait c ++ [n]) c)
  | DFrame reply n size => if d_up s then receive s reply n size else Ok s
  | DTask k => match nth_error (d_tasks s) k with None => Ok s | Some t => perform (put_tasks s (drop_nth (d_tasks s) k)) t end
  | DReturn k => match nth_error (d_runs s) k with None => Ok s | Some r => returns (put_runs s (drop_nth (d_runs s) k)) r end
  | DDown => Ok (mkD false (d_zero s) (d_glob s) (d_prof s) (d_chans s) (d_cur s) (d_conn s) (d_count s) (d_tasks s) (d_runs s) (d_data s) (d_log s))
  | DClose => match d_cur s with None => Ok s | Some i => unref_ch (put_cur s None) i end
  | DOpen => match d_cur s with
             | Some _ => Ok s
             | None => if d_up s then Ok (put_cur (put_chans s (d_chans s ++ [Some chan0])) (Some (length (d_chans s)))) else Ok s
             end
  end.
Fixpoint drun (s : dst) (es : list dev) : outcome dst := match es with [] => Ok s | e :: k => let! s := dstep s e in drun s k end.
