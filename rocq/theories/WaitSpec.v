(** What is expected of those who wait. *)
From Verif Require Import Base WaitModel.

(** The frames given to the object. *)
Definition frames (es : list wev) : list Z := flat_map (fun e => match e with EReply f => [f] | EOk f => [f] | _ => [] end) es.
Definition sents (es : list wev) : nat := length (filter (fun e => match e with ESent => true | _ => false end) es).
Definition timeouts (es : list wev) : nat := length (filter (fun e => match e with ETimeout => true | _ => false end) es).
(** Addresses of frames: given by malloc. *)
Definition frame_address (f : Z) : Prop := f <> 0 /\ f mod 8 = 0.
Definition returned (w : wst) : Prop := exists r, w_pc w = WDone r.

(** The thread cannot go on by itself. *)
Definition idle (w : wst) : Prop := waiter w = w.
(** The thread has the frame. *)
Definition has (w : wst) (f : Z) : Prop := w_pc w = W3 f \/ w_pc w = W4 f \/ w_pc w = W5 f \/ w_pc w = WDone f.
(** Nothing more comes: no reply, no timeout. *)
Definition no_news (es : list wev) : Prop := frames es = [] /\ ~ In ETimeout es /\ ~ In ESent es.

(** The messages sent, with the object that waits for each. *)
Definition sends (es : list mev) : list (option Z) := flat_map (fun e => match e with MSend w => [w] | _ => [] end) es.
Definition answers (es : list mev) : list kind := flat_map (fun e => match e with MReply k => [k] | _ => [] end) es.
Definition objs (l : list (option Z)) : list Z := flat_map (fun w => match w with Some x => [x] | None => [] end) l.
(** No message that someone waits for is answered with ANS or NUL. *)
Definition plain (total : list (option Z)) (log : list (Z * kind * option Z)) : Prop :=
  forall n k d, In (n, k, d) log -> k <> KRpy -> nth_error total (Z.to_nat n) = Some None.
(** The replies given to those who wait. *)
Definition given (log : list (Z * kind * option Z)) : list (Z * Z) :=
  flat_map (fun e : Z * kind * option Z => match snd e with Some x => [(fst (fst e), x)] | None => [] end) log.
