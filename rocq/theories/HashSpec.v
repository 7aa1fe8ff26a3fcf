(** An ideal map seen through the operations of the table. *)
From Verif Require Import Base AsyncModel HashModel.

Definition imap := Z -> option Z.
Definition upd (m : imap) (k : Z) (v : option Z) : imap := fun x => if x =? k then v else m x.
(** The effect of each observation on the map. *)
Definition ideal_step (m : imap) (o : hobs) : imap :=
  match o with
  | HInserted e => upd m (he_key e) (Some (he_val e))
  | HRemoved k _ | HDeleted k _ | HTaken k _ => upd m k None
  | HCleared => fun _ => None
  | _ => m
  end.
Definition ideal (log : list hobs) : imap := fold_left ideal_step log (fun _ => None).
(** The answer each observation has to show. *)
Definition answer (m : imap) (o : hobs) : Prop :=
  match o with
  | HLookup k v | HTaken k v => v = match m k with Some x => x | None => 0 end
  | HExists k b | HRemoved k b => b = match m k with Some _ => true | None => false end
  | HDeleted k b => b = true
  | HSize n => exists ks, NoDup ks /\ (forall k, In k ks <-> m k <> None) /\ n = Z.of_nat (length ks)
  | _ => True
  end.
(** Entries inserted, destroyed and handed over. *)
Definition ins_ids (log : list hobs) : list Z := flat_map (fun o => match o with HInserted e => [he_id e] | _ => [] end) log.
Definition gone_ids (log : list hobs) : list Z :=
  flat_map (fun o => match o with HCleanup e _ | HHanded e => [he_id e] | _ => [] end) log.
(** No thread reaches the waiting queue. *)
Definition no_waits (es : list hev) : Prop := Forall (fun e => match e with HEWait _ => False | _ => True end) es.
(** Waits reported and changes made. *)
Definition told (log : list hobs) (t : Z) : list Z :=
  flat_map (fun o => match o with HWaited t' r => if t' =? t then [r] else [] | _ => [] end) log.
Definition changes (log : list hobs) : Z :=
  Z.of_nat (length (filter (fun o => match o with HChanged => true | _ => false end) log)).
