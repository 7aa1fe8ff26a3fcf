(** The PULL API (pull/vortex_pull.c): vortex_pull_init (335-389), vortex_pull_cleanup
    (397-438), the handlers that turn what happens into events (251-300, 1004-1195),
    vortex_pull_event_marshaller (192-246), vortex_pull_next_event (518-530), the references
    of an event (99-146, 542-612) and the event masks (158-188, 817-1000).

    One context.  A handler is three critical sections: the filter and the queue, for a
    start the deferral and the queue again, and the push; handlers run interleaved with each
    other, with the user and with init and cleanup.  A queue of another generation is one
    that was released.  The iteration of the masks is one section.  Whether the connection
    can be referenced comes with the step. *)
From Verif Require Import Base.

Inductive kind := KFrame | KClose | KAdded | KRemoved | KClosed | KAccepted | KStart | KReady.
(** pull/vortex_pull.h:83-198. *)
Definition bit (k : kind) : Z :=
  match k with KFrame => 0 | KClose => 1 | KAdded => 2 | KRemoved => 3 | KClosed => 4 | KAccepted => 5 | KStart => 6 | KReady => 7 end.
Definition type (k : kind) : Z := Z.shiftl 1 (bit k).
(** Something that happens: which, its kind, the connection. *)
Record hap := mkH { h_id : nat; h_kind : kind; h_conn : nat }.

Record mask := mkM { m_id : nat; m_bits : Z; m_on : bool }.
(** vortex_event_mask_add (850-858), _remove (873-881), _is_set (894-905), _enable (911-918). *)
Definition mask_add (m : mask) (e : Z) : mask := mkM (m_id m) (Z.lor (m_bits m) e) (m_on m).
Definition mask_remove (m : mask) (e : Z) : mask := mkM (m_id m) (Z.land (m_bits m) (Z.lnot e)) (m_on m).
Definition mask_enable (m : mask) (b : bool) : mask := mkM (m_id m) (m_bits m) b.
Definition is_set (m : mask) (t : Z) : bool := m_on m && (0 <? Z.land (m_bits m) t).
(** vortex_pull_event_is_filtered (158-188). *)
Definition filtered (l : list mask) (t : Z) : bool := existsb (fun m => is_set m t) l.
(** vortex_pull_set_event_mask (938-986), with the PULL API active. *)
Definition install (l : list mask) (m : mask) : list mask * bool :=
  if existsb (fun x => Nat.eqb (m_id x) (m_id m)) l then (l, false) else (l ++ [m], true).

(** What the user does to a mask that is installed. *)
Inductive mchange := MAdd (e : Z) | MRemove (e : Z) | MEnable (b : bool).
Definition change (f : mchange) (m : mask) : mask :=
  match f with MAdd e => mask_add m e | MRemove e => mask_remove m e | MEnable b => mask_enable m b end.
Definition change_at (l : list mask) (i : nat) (f : mchange) : list mask :=
  map (fun m => if Nat.eqb (m_id m) i then change f m else m) l.

(** An event: its address, what happened, whether it has the connection, its count. *)
Record event := mkE { e_id : nat; e_hap : hap; e_conn : bool; e_refs : Z }.
(** Where a handler is: about to filter, (start) about to defer, about to push into the
    queue it got, about to set the close handler of the connection. *)
Inductive stage := SCall | SDefer (e : nat) | SPush (gen e : nat) | SReg.
Record call := mkCall { c_hap : hap; c_stage : stage }.

(** What is seen: something happens, a handler is called for it, its event is pushed, it is
    not reported, the answer yes is given for it, its start is deferred, its event is not
    pushed anywhere; the user gets an event; cleanup releases an event; an event is freed. *)
Inductive pobs :=
| POccur (h : hap) | PCall (h : hap) | PPush (e : nat) (h : hap) | PSkip (h : hap) | PAccept (h : hap) | PDefer (h : hap)
| PLeak (e : nat) (h : hap) | PPull (e : nat) (h : hap) | PDrop (e : nat) (h : hap) | PFree (e : nat) | PRef (e : nat) | PUnref (e : nat).
Record pst := mkP {
  p_queue : option (list (nat * hap)); p_gen : nat; p_masks : list mask; p_main : bool; p_ready : nat; p_acc : nat;
  p_closers : list nat; p_calls : list call; p_events : list event; p_next : nat; p_wait : nat; p_log : list pobs }.
Definition p0 : pst := mkP None 0 [] false 0 0 [] [] [] 0 0 [].

Inductive pev :=
| Init | Cleanup
| Occur (h : hap)
| Step (i : nat) (ok : bool)
| Next (block : bool)
| Wake
| Ref (e : nat) | Unref (e : nat)
| Install (m : mask)
| Change (i : nat) (f : mchange).

(** The handlers called for something that happens: those of the context, one at most
    (vortex_ctx_set_frame_received and the like replace); the connection actions and the
    accept handlers, which init adds to and nothing removes; the close handlers of the
    connection. *)
Definition handlers (s : pst) (h : hap) : nat :=
  match h_kind h with
  | KReady => p_ready s
  | KAccepted => p_acc s
  | KClosed => count_occ Nat.eq_dec (p_closers s) (h_conn h)
  | _ => if p_main s then 1 else 0
  end.

Definition find_event (l : list event) (e : nat) : option event := find (fun x => Nat.eqb (e_id x) e) l.
Definition drop_event (l : list event) (e : nat) : list event := filter (fun x => negb (Nat.eqb (e_id x) e)) l.
Definition count_event (l : list event) (e : nat) (d : Z) : list event :=
  map (fun x => if Nat.eqb (e_id x) e then mkE (e_id x) (e_hap x) (e_conn x) (e_refs x + d) else x) l.

(** vortex_event_unref (566-612). *)
Definition unref (l : list event) (e : nat) : outcome (list event * list pobs) :=
  match find_event l e with
  | None => UB
  | Some x => if e_refs x - 1 =? 0 then Ok (drop_event l e, [PFree e]) else Ok (count_event l e (-1), [])
  end.
Fixpoint release (l : list event) (q : list (nat * hap)) : outcome (list event * list pobs) :=
  match q with
  | [] => Ok (l, [])
  | (e, h) :: q =>
      let! (l, o) := unref l e in
      let! (l, o') := release l q in
      Ok (l, PDrop e h :: o ++ o')
  end.

(** The call at i becomes c. *)
Definition put_call (l : list call) (i : nat) (c : list call) : list call := firstn i l ++ c ++ skipn (S i) l.
(** vortex_pull_register_new_connection goes on (290-299). *)
Definition after (h : hap) : list call := match h_kind h with KReady => [mkCall h SReg] | _ => [] end.
(** Not reported: vortex_pull_close_notify (1053-1060) and vortex_pull_start_handler
    (1168-1170) then say yes. *)
Definition unreported (h : hap) : list pobs :=
  PSkip h :: match h_kind h with KClose | KStart => [PAccept h] | _ => [] end.

Definition with_calls (s : pst) (c : list call) (o : list pobs) : pst :=
  mkP (p_queue s) (p_gen s) (p_masks s) (p_main s) (p_ready s) (p_acc s) (p_closers s) c (p_events s) (p_next s) (p_wait s) (p_log s ++ o).
Definition with_masks (s : pst) (m : list mask) : pst :=
  mkP (p_queue s) (p_gen s) m (p_main s) (p_ready s) (p_acc s) (p_closers s) (p_calls s) (p_events s) (p_next s) (p_wait s) (p_log s).
Definition take (s : pst) (e : nat) (h : hap) (q : list (nat * hap)) (w : nat) : pst :=
  mkP (Some q) (p_gen s) (p_masks s) (p_main s) (p_ready s) (p_acc s) (p_closers s) (p_calls s) (p_events s) (p_next s) w (p_log s ++ [PPull e h]).

Definition pstep (s : pst) (e : pev) : outcome pst :=
  match e with
  | Init =>
      match p_queue s with
      | Some _ => Ok s
      | None => Ok (mkP (Some []) (S (p_gen s)) [] true (S (p_ready s)) (S (p_acc s)) (p_closers s) (p_calls s) (p_events s) (p_next s) (p_wait s) (p_log s))
      end
  | Cleanup =>
      match p_queue s with
      | None => Ok s
      | Some q =>
          if (0 <? p_wait s)%nat then UB else        (* the queue is released under a waiter *)
          let! (l, o) := release (p_events s) q in
          Ok (mkP None (p_gen s) [] false (p_ready s) (p_acc s) (p_closers s) (p_calls s) l (p_next s) (p_wait s) (p_log s ++ o))
      end
  | Occur h =>
      let n := handlers s h in
      Ok (mkP (p_queue s) (p_gen s) (p_masks s) (p_main s) (p_ready s) (p_acc s)
              (match h_kind h with KClosed => remove Nat.eq_dec (h_conn h) (p_closers s) | _ => p_closers s end)
              (p_calls s ++ repeat (mkCall h SCall) n) (p_events s) (p_next s) (p_wait s)
              (p_log s ++ POccur h :: repeat (PCall h) n))
  | Step i ok =>
      match nth_error (p_calls s) i with
      | None => Ok s
      | Some c =>
          let h := c_hap c in
          match c_stage c with
          | SCall =>
              if filtered (p_masks s) (type (h_kind h)) then Ok (with_calls s (put_call (p_calls s) i (after h)) (unreported h)) else
              match p_queue s with
              | None => Ok (with_calls s (put_call (p_calls s) i (after h)) (unreported h))
              | Some q =>
                  let n := p_next s in
                  let c := match h_kind h with KStart => SDefer n | _ => SPush (p_gen s) n end in
                  (* the reference of a connection closed is not checked *)
                  let conn := ok || match h_kind h with KClosed => true | _ => false end in
                  Ok (mkP (p_queue s) (p_gen s) (p_masks s) (p_main s) (p_ready s) (p_acc s) (p_closers s)
                          (put_call (p_calls s) i [mkCall h c]) (p_events s ++ [mkE n h conn 1]) (S n) (p_wait s) (p_log s))
              end
          | SDefer n =>
              match p_queue s with
              | None => Ok (with_calls s (put_call (p_calls s) i []) [PDefer h; PLeak n h])
              | Some _ => Ok (with_calls s (put_call (p_calls s) i [mkCall h (SPush (p_gen s) n)]) [PDefer h])
              end
          | SPush g n =>
              match p_queue s with
              | Some q =>
                  if Nat.eqb g (p_gen s)
                  then Ok (mkP (Some (q ++ [(n, h)])) (p_gen s) (p_masks s) (p_main s) (p_ready s) (p_acc s) (p_closers s)
                               (put_call (p_calls s) i (after h)) (p_events s) (p_next s) (p_wait s) (p_log s ++ [PPush n h]))
                  else UB
              | None => UB
              end
          | SReg =>
              Ok (mkP (p_queue s) (p_gen s) (p_masks s) (p_main s) (p_ready s) (p_acc s) (h_conn h :: p_closers s)
                      (put_call (p_calls s) i []) (p_events s) (p_next s) (p_wait s) (p_log s))
          end
      end
  | Next block =>
      match p_queue s with
      | None => Ok s                                 (* NULL *)
      | Some [] => Ok (if block : bool then mkP (Some []) (p_gen s) (p_masks s) (p_main s) (p_ready s) (p_acc s) (p_closers s) (p_calls s) (p_events s) (p_next s) (S (p_wait s)) (p_log s) else s)
      | Some ((e, h) :: q) => Ok (take s e h q (p_wait s))
      end
  | Wake =>
      match p_wait s, p_queue s with
      | S w, Some ((e, h) :: q) => Ok (take s e h q w)
      | _, _ => Ok s
      end
  | Ref e =>
      match find_event (p_events s) e with
      | None => UB
      | Some _ => Ok (mkP (p_queue s) (p_gen s) (p_masks s) (p_main s) (p_ready s) (p_acc s) (p_closers s) (p_calls s) (count_event (p_events s) e 1) (p_next s) (p_wait s) (p_log s ++ [PRef e]))
      end
  | Unref e =>
      let! (l, o) := unref (p_events s) e in
      Ok (mkP (p_queue s) (p_gen s) (p_masks s) (p_main s) (p_ready s) (p_acc s) (p_closers s) (p_calls s) l (p_next s) (p_wait s) (p_log s ++ PUnref e :: o))
  | Install m =>
      match p_queue s with
      | None => Ok s
      | Some _ => Ok (with_masks s (fst (install (p_masks s) m)))
      end
  | Change i f => Ok (with_masks s (change_at (p_masks s) i f))
  end.
Fixpoint prun (s : pst) (l : list pev) : outcome pst :=
  match l with [] => Ok s | e :: l => let! s := pstep s e in prun s l end.
