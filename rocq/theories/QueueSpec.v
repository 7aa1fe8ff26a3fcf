(** An ideal line of items as seen through the operations of the queue. *)
From Verif Require Import Base QueueModel.

Inductive qline : list qobs -> list Z -> Prop :=
| qn_new : qline [] []
| qn_push log l x : qline log l -> x <> 0 -> qline (log ++ [OPush x true]) (l ++ [x])
| qn_push_null log l : qline log l -> qline (log ++ [OPush 0 false]) l
| qn_head log l x : qline log l -> x <> 0 -> qline (log ++ [OHead x true]) (x :: l)
| qn_head_null log l : qline log l -> qline (log ++ [OHead 0 false]) l
| qn_pop log l x : qline log (x :: l) -> qline (log ++ [OPop x]) l
| qn_pop_none log : qline log [] -> qline (log ++ [OPop 0]) []
| qn_peek log l x : qline log (x :: l) -> qline (log ++ [OPeek x]) (x :: l)
| qn_peek_none log : qline log [] -> qline (log ++ [OPeek 0]) []
| qn_empty log : qline log [] -> qline (log ++ [OEmpty true]) []
| qn_nonempty log l x : qline log (x :: l) -> qline (log ++ [OEmpty false]) (x :: l)
| qn_length log l : qline log l -> qline (log ++ [OLength (Z.of_nat (length l) mod 4294967296)]) l.

Definition q_put_in (log : list qobs) : list Z :=
  flat_map (fun o => match o with OPush x true | OHead x true => [x] | _ => [] end) log.
Definition q_given (log : list qobs) : list Z :=
  flat_map (fun o => match o with OPop x => if x =? 0 then [] else [x] | _ => [] end) log.
(** Operations other than free. *)
Definition no_free (es : list qev) : Prop := ~ In QFree es.
Definition no_head (es : list qev) : Prop := forall x, ~ In (QHead x) es.
