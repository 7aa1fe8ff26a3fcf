(** What the listener side should do, stated on what is observed. *)
From Coq Require Import Sorted.
From Verif Require Import Base ListenModel.

(** * Acceptance: computed from the observations. *)
Definition installed (log : list aev) : list nat :=
  flat_map (fun e => match e with LAdd h => [h] | _ => [] end) log.
Definition calls (c : nat) (log : list aev) : list nat :=
  flat_map (fun e => match e with LCall c' h => if Nat.eqb c' c then [h] else [] | _ => [] end) log.
Definition answers (c : nat) (log : list aev) : list bool :=
  flat_map (fun e => match e with LAns c' _ b => if Nat.eqb c' c then [b] else [] | _ => [] end) log.
Definition unrefs (c : nat) (log : list aev) : nat :=
  length (filter (fun e => match e with LUnref c' => Nat.eqb c' c | _ => false end) log).

(** Nothing was decided about [c] yet. *)
Definition undecided (c : nat) (log : list aev) : Prop :=
  ~ In (LReg c) log /\ ~ In (LShut c) log /\ unrefs c log = O.
(** Every handler installed so far was asked, in order, and agreed. *)
Definition all_agreed (c : nat) (log : list aev) : Prop :=
  calls c log = installed log /\ answers c log = repeat true (length (installed log)).
(** The handlers were asked in order up to the first one that refused. *)
Definition one_refused (c : nat) (log : list aev) : Prop :=
  exists k, (k < length (installed log))%nat /\
    calls c log = firstn (S k) (installed log) /\ answers c log = repeat true k ++ [false].

(** When event [e] may happen after [pre]. *)
Definition may (pre : list aev) (e : aev) : Prop :=
  match e with
  | LAdd _ => True
  | LCall c h => undecided c pre /\
      nth_error (installed pre) (length (calls c pre)) = Some h /\
      calls c pre = firstn (length (calls c pre)) (installed pre) /\
      answers c pre = repeat true (length (calls c pre))
  | LAns c h ok => undecided c pre /\ exists l, calls c pre = l ++ [h] /\ length (answers c pre) = length l
  | LGreet c => undecided c pre /\ all_agreed c pre
  | LReg c => undecided c pre /\ all_agreed c pre
  | LError c => undecided c pre /\ one_refused c pre
  | LShut c => undecided c pre /\ one_refused c pre
  | LUnref c => unrefs c pre = O /\
      ((In (LReg c) pre /\ ~ In (LShut c) pre) \/ (In (LShut c) pre /\ ~ In (LReg c) pre))
  end.
Definition each {E} (P : list E -> E -> Prop) (log : list E) : Prop :=
  forall pre e post, log = pre ++ e :: post -> P pre e.

(** * Notification of channels: computed from the observations. *)
Definition ncalls (n : nat) (log : list nev) : list nat :=
  flat_map (fun e => match e with VCall n' h => if Nat.eqb n' n then [h] else [] | _ => [] end) log.
(** The handlers installed and not removed, in order of installation. *)
Definition live_step (l : list nat) (e : nev) : list nat :=
  match e with
  | VAdd h => l ++ [h]
  | VRem h => filter (fun x => negb (Nat.eqb x h)) l
  | _ => l
  end.
Definition live (log : list nev) : list nat := fold_left live_step log [].
Definition added (log : list nev) : list nat :=
  flat_map (fun e => match e with VAdd h => [h] | _ => [] end) log.
Definition no_removal (log : list nev) : Prop := forall h, ~ In (VRem h) log.

(** * Waiting *)
(** The waiting thread is where an unlock finds it in a known state. *)
Definition settled (p : wpc) : Prop :=
  match p with WIdle | WBlock _ | WOut => True | _ => False end.
(** Only thread 0 waits; no unlock starts while it is on its way to the queue; it
    does not start to wait while an unlock runs. *)
Definition disciplined (s : wst) (o : wop) : Prop :=
  match o with
  | SWait t => t = O /\ (w_pc s O = WIdle -> w_m2 s = None)
  | SUnlock t => u_pc s t = UIdle -> settled (w_pc s O)
  end.
Fixpoint all_disciplined (s : wst) (ops : list wop) : Prop :=
  match ops with
  | [] => True
  | o :: r => disciplined s o /\ (forall s', wstep s o = Ok s' -> all_disciplined s' r)
  end.

(** * Port sharing *)
(** The handlers asked about some bytes: in order, up to the first one that finds
    the transport or fails. *)
Definition decides (z : Z) : bool := (z =? 2) || (z =? -1).
Definition asked (ans : nat -> bytes -> Z) (buf : bytes) (hs cs : list pshare) : Prop :=
  exists rest, hs = cs ++ rest /\
    (forall a h b, cs = a ++ h :: b -> decides (ans (p_id h) buf) = true -> b = []) /\
    (rest <> [] -> exists a h, cs = a ++ [h] /\ decides (ans (p_id h) buf) = true).
(** The documentation of vortex_listener_set_port_sharing_handling. *)
Definition share_matches (h : pshare) (c : pconn) : Prop :=
  (forall a, p_addr h = Some a -> a = pn_addr c) /\ (forall p, p_port h = Some p -> p = pn_port c).

(** * Shutdown of a listener *)
Definition created_by (l : Z) (c : lconn) : Prop := k_role c <> RoleMaster /\ k_lis c = Some l.
