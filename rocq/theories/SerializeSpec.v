(** What is expected of a channel that serialises its frames: the handler is called
    with the frames in the order they were received, one at a time and once. *)
From Verif Require Import Base SerializeModel.

(** The calls for the first [k] frames, each ended before the next. *)
Fixpoint calls (k : nat) : list zobs :=
  match k with O => [] | S n => calls n ++ [OStart n; OEnd n] end.
(** What the handler sees. *)
Definition seen (l : list zobs) : list zobs := filter (fun o => match o with OFreed _ => false | _ => true end) l.
Definition in_order (l : list zobs) : Prop := exists k, seen l = calls k \/ seen l = calls k ++ [OStart k].

(** The sizes of the frames given to the handler, and those it finished with. *)
Fixpoint sizes (es : list zev) : list Z :=
  match es with [] => [] | ZFrame n false :: k => n :: sizes k | _ :: k => sizes k end.
Definition ended (l : list zobs) : nat := length (filter (fun o => match o with OEnd _ => true | _ => false end) l).
Fixpoint sum (l : list Z) : Z := match l with [] => 0 | n :: k => n + sum k end.

(** The conditions: the reply to the start request had no content, no frame is empty
    or given to somebody else, the handler does not change the size of the frame and less than 2^32 octets wait for it. *)
Definition plain (done : list zev) (s : zst) (e : zev) : Prop :=
  match e with
  | ZSerialize b => b = true
  | ZFrame n taken => z_up s = true /\ 0 < n /\ taken = false /\ sum (skipn (ended (z_log s)) (sizes done)) + n <= modulus
  | ZReturn i n => nth_error (sizes done) i = Some n
  | ZPiggy _ => False
  | _ => True
  end.
Fixpoint plainly (done : list zev) (s : zst) (es : list zev) : Prop :=
  match es with [] => True | e :: k => plain done s e /\ plainly (done ++ [e]) (zstep s e) k end.
