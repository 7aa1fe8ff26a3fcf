(** What is expected of the delivery of frames. *)
From Verif Require Import Base DlvModel.

(** * Who gets a frame *)
(** The handlers there are, from the one that comes first; a reply that a thread
    waits for comes before the handlers of the channel and of the profile. *)
Definition recipient (zero glob waited : bool) (n : Z) (chan prof : option Z) : option who :=
  if glob && negb zero then Some WGlobal
  else if waited then Some (WWaiter n)
  else match chan, prof with Some h, _ => Some (WChan h) | None, Some h => Some (WProf h) | None, None => None end.
(** What is seen until the handler is called. *)
Definition given (i : nat) (w : option who) : list dobs :=
  match w with
  | Some WGlobal => [ODeliver i WGlobal; OFree i]
  | Some w => [ODeliver i w]
  | None => [ODrop i; OFree i]
  end.

(** * The frames *)
Definition held_by (c : option chan) : list nat := match c with Some c => map f_id (c_stored c) | None => [] end.
Definition task_frame (t : task) : nat := match t with T2 _ f | T1 _ f => f_id f end.
Definition run_frame (r : run) : nat := match r with R2 _ f | R1 _ f _ => f_id f end.
(** The frames that the library has. *)
Definition waiting (s : dst) : list nat := map task_frame (d_tasks s) ++ flat_map held_by (d_chans s).
Definition in_library (s : dst) : list nat := waiting s ++ map run_frame (d_runs s).
Definition freed (l : list dobs) : list nat := flat_map (fun o => match o with OFree i => [i] | _ => [] end) l.
Definition taken (l : list dobs) : list nat := flat_map (fun o => match o with ODeliver i (WWaiter _) => [i] | _ => [] end) l.
Definition decided (l : list dobs) : list nat := flat_map (fun o => match o with ODeliver i _ | ODrop i => [i] | _ => [] end) l.

(** * The references *)
Definition no_open (es : list dev) : Prop := ~ In DOpen es.
Definition no_serialize (es : list dev) : Prop := ~ In (DSerial true) es.
(** Only handlers of channels. *)
Definition channel_level (es : list dev) : Prop := no_serialize es /\ forall h, ~ In (DProf (Some h)) es.
(** The connection and the channel last, and the handler of the profile is kept. *)
Definition lasting (es : list dev) : Prop := no_serialize es /\ ~ In DDown es /\ ~ In DClose es /\ ~ In (DProf None) es.
Definition idle (s : dst) : Prop := d_tasks s = [] /\ d_runs s = [].
(** The only channel in memory is the one of the connection, with one reference,
    and nothing else is held. *)
Definition clean (s : dst) : Prop :=
  d_conn s = 1 /\ d_data s = 0 /\ forall i c, nth_error (d_chans s) i = Some (Some c) -> d_cur s = Some i /\ c_ref c = 1.

(** * The frames that reach a handler *)
(** The connection, the channel and the handlers are kept. *)
Definition kept (es : list dev) : Prop := ~ In DDown es /\ ~ In DClose es /\ ~ In (DProf None) es /\ ~ In (DChan None) es.
Definition dropped (l : list dobs) : list nat := flat_map (fun o => match o with ODrop i => [i] | _ => [] end) l.
