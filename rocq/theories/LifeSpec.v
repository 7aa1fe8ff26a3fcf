(** Who holds a channel, and how the application is to use pools. *)
From Verif Require Import Base LifeModel.

(** The number of living pools that have the channel. *)
Fixpoint held (l : list pl) (c : nat) : Z :=
  match l with [] => 0 | q :: r => (if q_live q && hasn (q_list q) c then 1 else 0) + held r c end.
(** Those that hold it: the connection, the application and pools. *)
Definition owners (s : lst) (c : nat) (h : chn) : Z := (if h_conn h then 1 else 0) + h_app h + held (l_pools s) c.
Definition counted (s : lst) : Prop :=
  forall c h, nth_error (l_chs s) c = Some h -> h_refs h = owners s c h /\ (h_freed h = true <-> owners s c h = 0).

Definition alive_ch (s : lst) (c : nat) : Prop := exists h, nth_error (l_chs s) c = Some h /\ h_freed h = false.
Definition alive_pl (s : lst) (p : nat) : Prop := exists q, nth_error (l_pools s) p = Some q /\ q_live q = true.
Definition member (s : lst) (p c : nat) : Prop := exists q, nth_error (l_pools s) p = Some q /\ q_live q = true /\ In c (q_list q).
(** Uses of pools with no fault: of living pools and channels; no reference released that was not taken; no detach of a channel that only the
    pool holds, unless it was attached; no pool closed that left a detached channel behind; no handlers that use pools in channels the pool closes. *)
Definition fair (s : lst) (o : lop) : Prop :=
  match o with
  | LNew _ | LStart => True
  | LAdd p _ => alive_pl s p
  | LAttach p c => alive_pl s p /\ alive_ch s c
  | LDetach p c => alive_pl s p /\ alive_ch s c /\ (forall h, nth_error (l_chs s) c = Some h -> member s p c -> h_pool h <> None -> 2 <= owners s c h)
  | LRemove p _ => alive_pl s p /\ (forall c h, member s p c -> nth_error (l_chs s) c = Some h -> h_uses h = false)
  | LClosePool p => alive_pl s p /\ (forall c h, member s p c -> nth_error (l_chs s) c = Some h -> h_uses h = false) /\
                    (forall c h, nth_error (l_chs s) c = Some h -> h_freed h = false -> h_pool h = Some p -> member s p c)
  | LCloseChan c | LRef c | LMark c _ _ _ => alive_ch s c
  | LUnref c => exists h, nth_error (l_chs s) c = Some h /\ h_freed h = false /\ 0 < h_app h
  end.
Fixpoint fair_all (s : lst) (os : list lop) : Prop :=
  match os with [] => True | o :: os => fair s o /\ (forall s', lstep s o = LOk s' -> fair_all s' os) end.

(** What remove leaves: without the first [n] that are ready. *)
Fixpoint left_over (ready : nat -> bool) (l : list nat) (n : nat) : list nat :=
  match l, n with [], _ => [] | l, O => l | c :: r, S n' => if ready c then left_over ready r n' else c :: left_over ready r n end.
Definition ready_in (s : lst) (c : nat) : bool := match nth_error (l_chs s) c with Some h => h_ready h | None => false end.
