(** The invocation of XML-RPC methods: the data of an invocation, the frame
    received handler of the channel and who is notified of what
    (vortex_xml_rpc_invoke 1405-1454, __vortex_xml_rpc_invoke 1324-1375,
    __vortex_xml_rpc_invoke_process_reply 1160-1300 and the boot of the channel
    495-620 of xml-rpc/vortex_xml_rpc.c; vortex_channel_set_received_handler
    1812-1824, vortex_channel_is_ready 8155-8168 and the call of the handler 6460 of
    src/vortex_channel.c; the list of outstanding messages at
    src/vortex_reader.c 473-490).

    One channel, already booted, any number of invocations by any threads.  A reply leaves the
    outstanding messages when the reader reads it, and is delivered later by a
    thread of the pool, with the data the channel has then.  The content of a
    message is the invocation it answers.  The method calls are the ones the
    library must release (the default).  The two stores of
    vortex_channel_set_received_handler are one step; the checks on the profile and the
    state of the channel (1419-1434) hold.  Use of memory released is undefined
    behaviour. *)
From Verif Require Import Base HdrModel.

(** channel->received_user_data: the queue of the boot, released (rpc 583), the
    data of an invocation, or NULL. *)
Inductive slot := SQueue | SData (n : nat) | SNull.
(** A frame delivered: the reply to an invocation or a message of the peer. *)
Inductive frame := FReply (n : nat) | FMsg.
(** What a reply handler is told. *)
Inductive result := RGot (f : frame) | RWaiting | RFailed.
(** Where the task of an invocation is (1324-1375): refused before it began,
    waiting in the pool, its data set on the channel, sent, failed and notified,
    its data released, the data of the channel set to NULL, the end. *)
Inductive pc := PRefused | PQueued | PSet | PSent | PFailed | PFreed | PNulled | PDone.
(** An invocation: its task, whether its VortexXmlRpcInvokeData is allocated and
    whether its method call was released. *)
Record inv := mkInv { k_pc : pc; k_data : bool; k_call : bool }.
Record chan := mkChan {
  v_slot : slot; v_invs : list inv; v_out : list nat; v_tasks : list frame;
  v_log : list (nat * result); v_up : bool
}.
Definition put_slot s x := mkChan x (v_invs s) (v_out s) (v_tasks s) (v_log s) (v_up s).
Definition put_invs s x := mkChan (v_slot s) x (v_out s) (v_tasks s) (v_log s) (v_up s).
Definition put_out s x := mkChan (v_slot s) (v_invs s) x (v_tasks s) (v_log s) (v_up s).
Definition put_tasks s x := mkChan (v_slot s) (v_invs s) (v_out s) x (v_log s) (v_up s).
Definition tell s n r := mkChan (v_slot s) (v_invs s) (v_out s) (v_tasks s) (v_log s ++ [(n, r)]) (v_up s).
Definition put_up s x := mkChan (v_slot s) (v_invs s) (v_out s) (v_tasks s) (v_log s) x.
Definition set_inv s n x := put_invs s (upd_nth (v_invs s) n x).

(** The channel after its boot. *)
Definition booted : chan := mkChan SQueue [] [] [] [] true.

Inductive event :=
| VCall | VSet (n : nat) | VSend (n : nat) (ok : bool) | VNext (n : nat)
| VReply | VAnswer | VPeer | VDeliver (k : nat) | VClose.

Fixpoint del_nth {A} (l : list A) (k : nat) : list A :=
  match l, k with
  | [], _ => []
  | _ :: r, O => r
  | x :: r, S j => x :: del_nth r j
  end.

(** vortex_xml_rpc_invoke (1405-1454): the value returned is always false.  Refused while
    a reply is awaited (1437-1442); the method call is then not released. *)
Definition call (s : chan) : chan * bool :=
  let n := List.length (v_invs s) in
  match v_out s with
  | [] => (put_invs s (v_invs s ++ [mkInv PQueued true false]), false)
  | _ => (tell (put_invs s (v_invs s ++ [mkInv PRefused false false])) n RWaiting, false)
  end.
(** The delivery of a frame (src/vortex_channel.c 6460), then 1160-1300: the data of
    the channel are read, released (1187) and their handler told. *)
Definition deliver (s : chan) (f : frame) : outcome chan :=
  match v_slot s with
  | SQueue | SNull => UB
  | SData n =>
      match nth_error (v_invs s) n with
      | Some i => if k_data i then Ok (tell (set_inv s n (mkInv (k_pc i) false (k_call i))) n (RGot f)) else UB
      | None => UB
      end
  end.
Definition vstep (s : chan) (e : event) : outcome chan :=
  match e with
  | VCall => Ok (fst (call s))
  | VSet n =>
      match nth_error (v_invs s) n with
      | Some (mkInv PQueued d c) => Ok (put_slot (set_inv s n (mkInv PSet d c)) (SData n))
      | _ => Ok s
      end
  (* the message is outstanding, or the handler is told that it failed (1353-1357) *)
  | VSend n ok =>
      match nth_error (v_invs s) n with
      | Some (mkInv PSet d c) =>
          if ok && v_up s then Ok (put_out (set_inv s n (mkInv PSent d c)) (v_out s ++ [n]))
          else Ok (tell (set_inv s n (mkInv PFailed d c)) n RFailed)
      | _ => Ok s
      end
  (* axl_free (data) 1359; the data of the channel to NULL 1362; the release of
     the method call 1366 *)
  | VNext n =>
      match nth_error (v_invs s) n with
      | Some (mkInv PFailed d c) => if d then Ok (set_inv s n (mkInv PFreed false c)) else UB
      | Some (mkInv PFreed d c) => Ok (put_slot (set_inv s n (mkInv PNulled d c)) SNull)
      | Some (mkInv PSent d c) | Some (mkInv PNulled d c) => if c then UB else Ok (set_inv s n (mkInv PDone d true))
      | _ => Ok s
      end
  (* the reply to the first message outstanding (src/vortex_reader.c 473) *)
  | VReply =>
      match v_out s with
      | n :: r => if v_up s then Ok (put_tasks (put_out s r) (v_tasks s ++ [FReply n])) else Ok s
      | [] => Ok s
      end
  (* an ANS of the peer: the message stays outstanding *)
  | VAnswer =>
      match v_out s with
      | n :: _ => if v_up s then Ok (put_tasks s (v_tasks s ++ [FReply n])) else Ok s
      | [] => Ok s
      end
  (* a MSG of the peer *)
  | VPeer => if v_up s then Ok (put_tasks s (v_tasks s ++ [FMsg])) else Ok s
  (* a frame of a connection closed is dropped (src/vortex_channel.c 6441-6445) *)
  | VDeliver k =>
      match nth_error (v_tasks s) k with
      | Some f => let s' := put_tasks s (del_nth (v_tasks s) k) in if v_up s then deliver s' f else Ok s'
      | None => Ok s
      end
  | VClose => Ok (put_up s false)
  end.
Fixpoint vrun (s : chan) (es : list event) : outcome chan :=
  match es with
  | [] => Ok s
  | e :: r => let! s' := vstep s e in vrun s' r
  end.
