(** Both ends of one direction of a channel: a sender (sequencer and window
    data), the frames in transit, the receiver and the SEQ frames in transit.
    The connection is an ordered byte stream, so each direction is a queue.
    Sources: src/vortex_sequencer.c:425-512, src/vortex_channel.c,
    src/vortex_reader.c:129-194, 383-406. *)
From Verif Require Import Base CodecModel FlowModel.

Record link := mkL {
  l_s : swin;
  l_data : list (Z * Z);      (* sequence number and size of each frame in transit *)
  l_r : rwin;
  l_seqs : list (Z * Z);      (* ackno and window of each SEQ frame in transit *)
  l_up : bool;
  l_sent : Z;                 (* octets sent (ghost) *)
  l_recv : Z                  (* octets accepted (ghost) *)
}.
Definition link0 : link := mkL swin0 [] rwin0 [] true 0 0.

(** [LSend m]: a sequencer round for a message with [m] octets left.
    [LNul]: a round for an empty NUL.  [LWin w]: the sender side uses window
    size [w].  [LRecv]: the receiver reads the next frame.  [LAck]: the sender
    reads the next SEQ frame. *)
Inductive lev := LSend (m : Z) | LNul | LWin (w : Z) | LRecv | LAck.

Definition ldown (l : link) : link :=
  mkL (l_s l) (l_data l) (l_r l) (l_seqs l) false (l_sent l) (l_recv l).

(** A round sends one frame of [size] octets. *)
Definition lsend (l : link) (size : Z) : link :=
  mkL (advance (l_s l) size) (l_data l ++ [(sw_next (l_s l), size)]) (l_r l) (l_seqs l) true
      (l_sent l + size) (l_recv l).

(** How a SEQ frame reads at the other side (proved about the frame reader,
    C02): 4294967295 reads with window 0, 4294967294 is a header error that
    closes the connection. *)
Definition seq_over_wire (ackno window : Z) : option (Z * Z) :=
  if ackno =? two32 - 1 then Some (ackno, 0)
  else if ackno =? two32 - 2 then None
  else Some (ackno, window).

Definition lstep (l : link) (e : lev) : link :=
  if l_up l then
    match e with
    | LSend m =>
      if is_stalled (l_s l) then l
      else
        let size := default_nfs (sw_wsize (l_s l)) (sw_next (l_s l)) m (max_remote (l_s l)) in
        if (m <? size) || (size <=? 0) then ldown l else lsend l size
    | LNul => if is_stalled (l_s l) then l else lsend l 0
    | LWin w => mkL (mkSW (sw_next (l_s l)) (sw_rc (l_s l)) (sw_rw (l_s l)) w) (l_data l) (l_r l)
                    (l_seqs l) true (l_sent l) (l_recv l)
    | LRecv =>
      match l_data l with
      | [] => l
      | (seqno, size) :: rest =>
        let '(r, seq, up) := recv_data (l_r l) false seqno size in
        mkL (l_s l) rest r (match seq with Some x => l_seqs l ++ [x] | None => l_seqs l end) up
            (l_sent l) (if up then l_recv l + size else l_recv l)
      end
    | LAck =>
      match l_seqs l with
      | [] => l
      | (ackno, window) :: rest =>
        let l' := mkL (l_s l) (l_data l) (l_r l) rest true (l_sent l) (l_recv l) in
        match seq_over_wire ackno window with
        | None => ldown l'
        | Some (a, w) =>
          match recv_seq (l_s l) a w with
          | None => ldown l'
          | Some s => mkL s (l_data l) (l_r l) rest true (l_sent l) (l_recv l)
          end
        end
      end
    end
  else l.

Definition lrun (l : link) (es : list lev) : link := fold_left lstep es l.
