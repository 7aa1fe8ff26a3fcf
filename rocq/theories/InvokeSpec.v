(** What an application that invokes methods relies on. *)
From Verif Require Import Base HdrModel InvokeModel.

(** The results the handler of an invocation was told. *)
Definition told (s : chan) (n : nat) : list result := map snd (filter (fun x => Nat.eqb (fst x) n) (v_log s)).
(** The invocation is over: its handler was told, and its task ended if it could
    not be sent. *)
Definition over (s : chan) (n : nat) : Prop :=
  told s n <> [] /\
  (In RFailed (told s n) -> exists i, nth_error (v_invs s) n = Some i /\ k_pc i = PDone).
(** An application that waits for an invocation to be over before the next one,
    and a peer that only replies, once. *)
Fixpoint one_at_a_time (s : chan) (es : list event) : Prop :=
  match es with
  | [] => True
  | e :: r =>
      (e = VCall -> forall n, (n < List.length (v_invs s))%nat -> over s n) /\ e <> VAnswer /\ e <> VPeer /\
      match vstep s e with Ok s' => one_at_a_time s' r | UB => True end
  end.
(** Nothing is under way. *)
Definition still (s : chan) : Prop :=
  v_out s = [] /\ v_tasks s = [] /\ Forall (fun i => k_pc i = PRefused \/ k_pc i = PDone) (v_invs s).
(** Every message is sent. *)
Definition no_failure (es : list event) : Prop := forall n ok, In (VSend n ok) es -> ok = true.
Definition stays_up (es : list event) : Prop := ~ In VClose es.
(** The replies of the peer among the results. *)
Definition replies (l : list result) : list frame :=
  flat_map (fun r => match r with RGot f => [f] | _ => [] end) l.
