(** What users expect of the queue: a line of items, each given once, from the
    start of the line. *)
From Verif Require Import Base AsyncModel.

(** [line log l]: the observations [log] are those of an ideal line of items
    that ends up being [l]. *)
Inductive line : list aobs -> list Z -> Prop :=
| ln_new : line [] []
| ln_push log l x : line log l -> line (log ++ [APushed x]) (l ++ [x])
| ln_first log l x : line log l -> line (log ++ [AFirst x]) (x :: l)
| ln_got log l t x : line log (x :: l) -> line (log ++ [AGot t x]) l
| ln_null log l t : line log l -> line (log ++ [ANull t]) l.

(** Items put in and given by a log. *)
Definition put_in (log : list aobs) : list Z :=
  flat_map (fun o => match o with APushed x | AFirst x => [x] | _ => [] end) log.
Definition given (log : list aobs) : list Z :=
  flat_map (fun o => match o with AGot _ x => [x] | _ => [] end) log.

(** Batches of unlocked pushes have one item at most. *)
Definition small_batches (es : list aev) : Prop :=
  Forall (fun e => match e with EBatch xs _ => (length xs <= 1)%nat | _ => True end) es.
(** No item jumps the line. *)
Definition no_priority (es : list aev) : Prop :=
  Forall (fun e => match e with EFirst _ _ => False | _ => True end) es.

(** Calls of pop and timedpop that have not returned. *)
Definition calls (es : list aev) : Z :=
  zlen (filter (fun e => match e with EPop _ => true | ETimed _ us => 0 <? us | _ => false end) es).
Definition returns (log : list aobs) (es : list aev) : Z :=
  zlen (filter (fun o => match o with AGot _ _ | ANull _ => true | _ => false end) log)
  - zlen (filter (fun e => match e with ETimed _ us => negb (0 <? us) | _ => false end) es).
