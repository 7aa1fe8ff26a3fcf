(** What is expected of the registry of profiles. *)
From Verif Require Import Base ProfModel.

(** * Calls made one after another *)

(** The handlers of a profile, as the application gave them. *)
Record settings := mkSet {
  g_start : option Z; g_start_d : Z; g_ext : option Z; g_ext_d : Z;
  g_close : option Z; g_close_d : Z; g_recv : option Z; g_recv_d : Z
}.
(** The profiles in the order they were registered. *)
Definition registry := list (Z * settings).
Fixpoint known (m : registry) (u : Z) : option settings :=
  match m with [] => None | (v, g) :: r => if v =? u then Some g else known r u end.
Fixpoint change (m : registry) (u : Z) (f : settings -> settings) : registry :=
  match m with [] => [] | (v, g) :: r => if v =? u then (v, f g) :: r else (v, g) :: change r u f end.
Fixpoint forget (m : registry) (u : Z) : registry :=
  match m with [] => [] | (v, g) :: r => if v =? u then r else (v, g) :: forget r u end.

Definition fn_of (f : option Z) : fn := match f with Some f => FApp f | None => FDefault end.
(** Who decides about a start request: the extended handler; if there is none,
    the start handler; if there is none either, the global one. *)
Definition decider (glob : option (Z * Z)) (g : settings) : target :=
  match g_ext g with
  | Some f => TExt f (g_ext_d g)
  | None => match g_start g, glob with
            | None, Some (f, d) => TGlob f d
            | h, _ => TStart (fn_of h) (g_start_d g)
            end
  end.

Definition after (m : registry) (c : call) : registry :=
  match c with
  | CRegister u a =>
      match known m u with
      | None => m ++ [(u, mkSet (a_start a) (a_start_d a) None 0 (a_close a) (a_close_d a) (a_recv a) (a_recv_d a))]
      | Some _ => change m u (fun g => mkSet (a_start a) (a_start_d a) (g_ext g) (g_ext_d g)
                                             (a_close a) (a_close_d a) (a_recv a) (a_recv_d a))
      end
  | CExt u f d =>
      match known m u with
      | None => m ++ [(u, mkSet None 0 f d None 0 None 0)]
      | Some _ => change m u (fun g => mkSet (g_start g) (g_start_d g) f d (g_close g) (g_close_d g) (g_recv g) (g_recv_d g))
      end
  | CSetRecv u f d =>
      change m u (fun g => mkSet (g_start g) (g_start_d g) (g_ext g) (g_ext_d g) (g_close g) (g_close_d g) f d)
  | CUnreg u => forget m u
  | _ => m
  end.
Definition is_known (m : registry) (u : Z) : bool := match known m u with Some _ => true | None => false end.
(** What is seen of a call of thread [t] when the application answers [r]. *)
Definition seen (glob : option (Z * Z)) (m : registry) (t : Z) (c : call) (r : bool) : list pobs :=
  match c with
  | CRegister _ _ | CExt _ _ _ => [OAns t true]
  | CSetRecv u _ _ | CUnreg u | CIsReg u | CIsStart u | CIsClose u | CIsRecv u => [OAns t (is_known m u)]
  | CStart u => match known m u with None => [OAns t false] | Some g => [OCall t u (decider glob g); OAns t r] end
  | CClose u => match known m u with
                | None => [OAns t false]
                | Some g => [OCall t u (TClose (fn_of (g_close g)) (g_close_d g)); OAns t r]
                end
  | CFrame u => match known m u with
                | None => [OAns t false]
                | Some g => match g_recv g with
                            | None => [OAns t false]
                            | Some f => [OAns t true; OCall t u (TRecv f (g_recv_d g))]
                            end
                end
  | CGreet => map (fun e => OName t (fst e)) m ++ [OEnd t]
  end.

Inductive item := IGlobal (g : option (Z * Z)) | ICall (t : Z) (c : call) (r : bool).
Fixpoint seen_all (glob : option (Z * Z)) (m : registry) (l : list item) : list pobs :=
  match l with
  | [] => []
  | IGlobal g :: k => seen_all g m k
  | ICall t c r :: k => seen glob m t c r ++ seen_all glob (after m c) k
  end.
(** Each call is given [n] steps. *)
Definition one (n : nat) (x : item) : list pev :=
  match x with IGlobal g => [EGlobal g] | ICall t c r => ECall t c :: repeat (EStep t r) n end.
Definition in_turn (n : nat) (l : list item) : list pev := flat_map (one n) l.

(** * Calls at the same time *)

Definition no_unregister (es : list pev) : Prop := forall t u, ~ In (ECall t (CUnreg u)) es.
(** The profiles registered are not registered again, nor is it asked if they have
    a start or a close handler: what is done without the mutex and without a
    reference. *)
Definition plain (s : pst) (e : pev) : Prop :=
  match e with
  | ECall _ (CRegister u _) => ~ In u (map fst (s_tab s))
  | ECall _ (CIsStart _) | ECall _ (CIsClose _) => False
  | _ => True
  end.
Fixpoint guarded (s : pst) (es : list pev) : Prop :=
  match es with
  | [] => True
  | e :: k => plain s e /\ match pstep s e with Ok s' => guarded s' k | UB => True end
  end.

(** The values given to the library for a profile. *)
Definition registered_with (es : list pev) (u : Z) (P : args -> Prop) : Prop := exists t a, In (ECall t (CRegister u a)) es /\ P a.
Definition origin (es : list pev) (u : Z) (x : target) : Prop :=
  match x with
  | TExt f d => (exists t d', In (ECall t (CExt u (Some f) d')) es) /\ (d = 0 \/ exists t f', In (ECall t (CExt u f' d)) es)
  | TGlob f d => In (EGlobal (Some (f, d))) es
  | TStart h d =>
      match h with FApp f => registered_with es u (fun a => a_start a = Some f) | FDefault => True end /\
      (d = 0 \/ registered_with es u (fun a => a_start_d a = d))
  | TClose h d =>
      match h with FApp f => registered_with es u (fun a => a_close a = Some f) | FDefault => True end /\
      (d = 0 \/ registered_with es u (fun a => a_close_d a = d))
  | TRecv f d =>
      (registered_with es u (fun a => a_recv a = Some f) \/ exists t d', In (ECall t (CSetRecv u (Some f) d')) es) /\
      (d = 0 \/ registered_with es u (fun a => a_recv_d a = d) \/ exists t f', In (ECall t (CSetRecv u f' d)) es)
  end.

(** No call takes the received handler of a profile away. *)
Definition keeps_received (es : list pev) : Prop :=
  (forall t u a, In (ECall t (CRegister u a)) es -> a_recv a <> None) /\
  (forall t u d, ~ In (ECall t (CSetRecv u None d)) es).

(** The names that thread [t] wrote. *)
Definition names (t : Z) (l : list pobs) : list Z :=
  flat_map (fun o => match o with OName v u => if v =? t then [u] else [] | _ => [] end) l.
