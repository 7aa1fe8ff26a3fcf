(** What is expected of the close of a channel. *)
From Verif Require Import Base CloseModel.

Definition answers (m : Z) (l : list kobs) : list answer :=
  flat_map (fun o => match o with OAnswer m' a => if m' =? m then [a] else [] | _ => [] end) l.

(** A request the application has to decide and did not yet. *)
Definition deferred (s : kst) (m : Z) : Prop := In (ODefer m) (k_log s) /\ answers m (k_log s) = [] /\ at_r s m = None.

(** A request of the peer that found the channel and may still use it. *)
Definition touching (p : rphase) : Prop := match p with RGet | RLock | RFake | RFakeRef => True | _ => False end.
Definition untouched (s : kst) : Prop := forall m p, at_r s m = Some p -> ~ touching p.

(** The rules of the application and what cannot be assumed of the peer: the
    requests have a number; the application does not use a channel that is not
    there, answers each deferred request once, and accepts it only if nobody is
    closing the channel; no channel is removed while a request that found it is
    served or a call to vortex_channel_close has just begun. *)
Definition calm (s : kst) (e : kev) : Prop :=
  match e with
  | KReq d => d <> Some false
  | KExists m => forall t r, at_c s t <> Some (CEnd r)
  | KNotify m v => deferred s m /\ k_in s = true /\ (v = true -> k_being s = false /\ k_mutex s = None)
  | KClose _ | KMsg => k_in s = true
  | KFinish m => untouched s /\ forall t, at_c s t <> Some CLock
  | KStep t => match at_c s t with
               | Some (CEnd true) => untouched s /\ forall t, at_c s t <> Some CLock
               | Some CSend => k_up s = false -> untouched s
               | _ => True
               end
  | KTake t _ => untouched s
  | _ => True
  end.
Fixpoint calmly (s : kst) (es : list kev) : Prop :=
  match es with [] => True | e :: k => calm s e /\ forall s', kstep s e = Ok s' -> calmly s' k end.

(** Why a channel may be removed: this side accepted a request, the peer confirmed
    ours, answered something that is not an answer, or not in time, or the
    connection is closed. *)
Definition accepted_here (s : kst) : Prop := exists m, In (OAnswer m AOk) (k_log s).
Definition reason (es : list kev) (s : kst) : Prop :=
  accepted_here s \/ In (KReply FOk) es \/ In (KReply FOther) es \/ (exists t, In (KTake t true) es) \/ k_up s = false.
