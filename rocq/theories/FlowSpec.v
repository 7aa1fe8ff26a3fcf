(** Specification vocabulary for flow control: octets are counted with
    unbounded numbers, the protocol carries them modulo 2^32. *)
From Verif Require Import Base CodecModel FlowModel.

(** The peer has granted the octets below [e] (unbounded) to this sender. *)
Definition right_edge (s : swin) (e : Z) : Prop :=
  (e - (sw_rc s + sw_rw s)) mod 4294967296 = 0.

(** The fields hold C values. *)
Definition sane (s : swin) : Prop :=
  0 <= sw_next s < 4294967296 /\ 0 <= sw_rc s < 4294967296 /\ -2147483648 <= sw_rw s < 2147483648.

Fixpoint increasing (l : list Z) : Prop :=
  match l with
  | [] => True
  | x :: l' => match l' with [] => True | y :: _ => x < y end /\ increasing l'
  end.
Fixpoint non_decreasing (l : list Z) : Prop :=
  match l with
  | [] => True
  | x :: l' => match l' with [] => True | y :: _ => x <= y end /\ non_decreasing l'
  end.

(** Frames and requests carry C values. *)
Definition rxev_ok (e : rxev) : Prop :=
  match e with
  | RFrame _ seqno csize => 0 <= seqno < 4294967296 /\ 0 <= csize < 2147483648
  | RSetWindow d => -2147483648 <= d < 2147483648
  end.

(** The octets a receiver has granted: all those below this number.  The
    channel starts with 4096 (RFC 3081 section 3.1.2); each SEQ frame grants
    [window] octets after the acknowledged ones. *)
Definition grants (log : list (Z * (Z * Z))) : list Z := map (fun x => fst x + snd (snd x)) log.
Definition granted (log : list (Z * (Z * Z))) : Z := last (grants log) 4096.

(** Window changes. *)
Definition no_resize (es : list rxev) : Prop :=
  Forall (fun e => match e with RSetWindow _ => False | _ => True end) es.
(** SEQ frames are not disabled. *)
Definition seq_on (es : list rxev) : Prop :=
  Forall (fun e => match e with RFrame off _ _ => off = false | _ => True end) es.
(** The window sizes requested; none is larger than [hi]. *)
Definition requests (es : list rxev) : list Z :=
  flat_map (fun e => match e with RSetWindow d => [d] | _ => [] end) es.
Definition resize_below (hi : Z) (es : list rxev) : Prop :=
  Forall (fun e => match e with RSetWindow d => d <= hi | _ => True end) es.
