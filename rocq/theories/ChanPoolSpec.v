(** What is expected of a channel pool. *)
From Verif Require Import Base ChanPoolModel.

(** Channels handed out and not released yet. *)
Definition in_use (log : list cobs) : list Z :=
  fold_left (fun held o => match o with
                           | CGot _ c => c :: held
                           | CReleased c => filter (fun x => negb (x =? c)) held
                           | _ => held
                           end) log [].
(** A channel is handed out only if nobody has it and it has not been closed. *)
Definition exclusive (log : list cobs) : Prop :=
  forall a t c b, log = a ++ CGot t c :: b -> ~ In c (in_use a).
Definition not_closed (log : list cobs) : Prop :=
  forall a t c b, log = a ++ CGot t c :: b -> ~ In (CClosed c) a.

(** No other call of get_next_ready starts, and no channel is removed, while one
    is in progress. *)
Fixpoint serial (p : cpool) (es : list cev) : Prop :=
  match es with
  | [] => True
  | e :: r => match e with KLookup _ _ | KRemove _ => cp_calls p = [] | _ => True end /\ serial (cstep p e) r
  end.
(** Identifiers got by different threads. *)
Definition id_of (s : pids) (t : Z) : option Z := match pi_of s t with Some (IGot i) => Some i | _ => None end.
(** No thread starts before the others have got their identifier. *)
Fixpoint in_turn (s : pids) (es : list piev) : Prop :=
  match es with
  | [] => True
  | e :: r =>
      match e with
      | QRead _ => forall t, pi_of s t = None \/ exists i, pi_of s t = Some (IGot i)
      | _ => True
      end /\ forall s', pistep s e = Ok s' -> in_turn s' r
  end.
