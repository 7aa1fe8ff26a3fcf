(** What is expected of the start requests received. *)
From Verif Require Import Base StartModel.

Definition answers (m : Z) (l : list sobs) : list reply :=
  flat_map (fun o => match o with OReply m' r => if m' =? m then [r] else [] | _ => [] end) l.
(** A request whose decision the application took on itself and has not told. *)
Definition pending (s : srv) (m : Z) : Prop := exists k, In k (s_chans s) /\ k_req k = Some m /\ k_defer k = true /\ k_done k = false.

(** The thread of request [m] is about to call the start handler for channel [c]
    or inside it. *)
Definition deciding (s : srv) (m c : Z) : Prop := exists n, phase_of s m = Some (QAsk n c) \/ exists b, phase_of s m = Some (QIn n c b).

(** The application defers a decision inside the start handler, tells it once,
    tells a refusal only once the handler returned, and no channel is closed
    before the decision about it is told. *)
Definition fair (s : srv) (e : sev) : Prop :=
  match e with
  | SDefer c => exists m n, phase_of s m = Some (QIn n c true)
  | SNotify c ok => exists k, In k (s_chans s) /\ k_id k = c /\ k_defer k = true /\ k_done k = false /\
                    (ok = false -> forall m, ~ deciding s m c)
  | SClose n => forall k, In k (s_chans s) -> k_num k = n -> k_done k = true /\
                  forall m, ~ deciding s m (k_id k)
  | _ => True
  end.
(** Every request has the attribute [number]. *)
Definition numbered (e : sev) : Prop := match e with SMsg (Some q) => q_number q <> None | _ => True end.
Fixpoint fairly (s : srv) (es : list sev) : Prop :=
  match es with [] => True | e :: k => fair s e /\ numbered e /\ forall s', sstep s e = Ok s' -> fairly s' k end.

(** The request was allowed by the masks and its profile has a start handler. *)
Definition allowed (es : list sev) (m : Z) : Prop := In (SFilter m FPass) es /\ In (SProfile m PStart) es.
