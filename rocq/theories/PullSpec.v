(** What the PULL API is to do, from what is seen. *)
From Verif Require Import Base PullModel.

Fixpoint num {A} (f : A -> bool) (l : list A) : Z :=
  match l with [] => 0 | o :: l => (if f o then 1 else 0) + num f l end.
Definition calls (P : hap -> bool) : list pobs -> Z := num (fun o => match o with PCall h => P h | _ => false end).
Definition pushed (P : hap -> bool) : list pobs -> Z := num (fun o => match o with PPush _ h => P h | _ => false end).
Definition skipped (P : hap -> bool) : list pobs -> Z := num (fun o => match o with PSkip h => P h | _ => false end).
Definition accepted (P : hap -> bool) : list pobs -> Z := num (fun o => match o with PAccept h => P h | _ => false end).
Definition deferred (P : hap -> bool) : list pobs -> Z := num (fun o => match o with PDefer h => P h | _ => false end).
Definition leaked (P : hap -> bool) : list pobs -> Z := num (fun o => match o with PLeak _ h => P h | _ => false end).
Definition pulled (P : hap -> bool) : list pobs -> Z := num (fun o => match o with PPull _ h => P h | _ => false end).
(** Handlers that have not reported yet. *)
Definition waiting (c : call) : bool := match c_stage c with SReg => false | _ => true end.
Definition inflight (P : hap -> bool) (s : pst) : Z := num (fun c => waiting c && P (c_hap c)) (p_calls s).

Definition hap_dec : forall a b : hap, {a = b} + {a <> b}.
Proof. repeat decide equality. Defined.
Definition this (h : hap) : hap -> bool := fun x => if hap_dec x h then true else false.

(** What happens happens once, and a connection is ready once. *)
Definition happens (l : list pev) : list hap := flat_map (fun e => match e with Occur h => [h] | _ => [] end) l.
Definition is_ready (c : nat) (h : hap) : bool := match h_kind h with KReady => Nat.eqb (h_conn h) c | _ => false end.
Definition natural (l : list pev) : Prop := NoDup (happens l) /\ forall c, num (is_ready c) (happens l) <= 1.
Definition inits (l : list pev) : Z := num (fun e => match e with Init => true | _ => false end) l.
Definition is_cleanup (e : pev) : bool := match e with Cleanup => true | _ => false end.
Definition is_install (e : pev) : bool := match e with Install _ => true | _ => false end.

(** The events pushed, and those taken out, by the user or by cleanup. *)
Definition in_order (l : list pobs) : list (nat * hap) := flat_map (fun o => match o with PPush e h => [(e, h)] | _ => [] end) l.
Definition out_order (l : list pobs) : list (nat * hap) :=
  flat_map (fun o => match o with PPull e h | PDrop e h => [(e, h)] | _ => [] end) l.

(** The references the user has on an event. *)
Definition delta (e : nat) (o : pobs) : Z :=
  match o with
  | PPull x _ | PRef x => if Nat.eqb x e then 1 else 0
  | PUnref x => if Nat.eqb x e then -1 else 0
  | _ => 0
  end.
Fixpoint held (e : nat) (l : list pobs) : Z := match l with [] => 0 | o :: l => delta e o + held e l end.
(** The user touches only what it has; cleanup is called with nobody waiting on the
    queue nor about to push. *)
Definition about_to_push (c : call) : bool := match c_stage c with SPush _ _ => true | _ => false end.
Definition allowed (s : pst) (e : pev) : Prop :=
  match e with
  | Ref x | Unref x => 0 < held x (p_log s)
  | Cleanup => p_wait s = 0%nat /\ forall c, In c (p_calls s) -> about_to_push c = false
  | _ => True
  end.
Fixpoint polite (s : pst) (l : list pev) : Prop :=
  match l with
  | [] => True
  | e :: l => allowed s e /\ match pstep s e with Ok s' => polite s' l | UB => True end
  end.
Definition freed (e : nat) : list pobs -> Z := num (fun o => match o with PFree x => Nat.eqb x e | _ => false end).
Definition lost (e : nat) : list pobs -> Z := num (fun o => match o with PLeak x _ => Nat.eqb x e | _ => false end).
(** Somebody has the event: a handler, the queue, the user, or nobody will release it. *)
Definition has (e : nat) (c : call) : bool :=
  match c_stage c with SDefer x | SPush _ x => Nat.eqb x e | _ => false end.
Definition alive (s : pst) (e : nat) : bool := existsb (fun x => Nat.eqb (e_id x) e) (p_events s).
Definition owned (s : pst) (e : nat) : Z :=
  num (has e) (p_calls s) + num (fun x => Nat.eqb (fst x) e) (match p_queue s with Some q => q | None => [] end) +
  held e (p_log s) + lost e (p_log s).
(** What waits in the queue. *)
Definition queued (s : pst) : list (nat * hap) := match p_queue s with Some q => q | None => [] end.
(** The connection is closed; what is asked and has to be answered. *)
Definition is_closed (c : nat) (h : hap) : bool := match h_kind h with KClosed => Nat.eqb (h_conn h) c | _ => false end.
Definition asks (P : hap -> bool) : Prop := forall h, P h = true -> h_kind h = KClose \/ h_kind h = KStart.
