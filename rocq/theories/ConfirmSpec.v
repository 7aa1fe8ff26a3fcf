(** What is expected of the reply to a start request. *)
From Verif Require Import Base ConfirmModel.

(** The peer confirms the profile asked. *)
Definition confirms (parse : bytes -> option node) (f : rframe) (asked : bytes) : Prop :=
  f_type f = TRpy /\ exists n, parse (f_payload f) = Some n /\ n_name n = [112; 114; 111; 102; 105; 108; 101] /\ n_uri n = Some asked.
(** It is a reply with a profile. *)
Definition some_profile (parse : bytes -> option node) (f : rframe) : Prop :=
  f_type f = TRpy /\ exists n, parse (f_payload f) = Some n /\ n_name n = [112; 114; 111; 102; 105; 108; 101].
(** The content given with the profile, if any. *)
Definition content_in (parse : bytes -> option node) (f : rframe) : option bytes :=
  match parse (f_payload f) with Some n => match n_content n with Some c => match c_str c with [] => None | x => Some x end | None => None end | None => None end.
(** The error given by the peer. *)
Definition error_in (parse : bytes -> option node) (f : rframe) : option (Z * option bytes) :=
  match parse (f_payload f) with
  | Some n => if list_eq_dec Z.eq_dec (n_name n) [101; 114; 114; 111; 114] then Some (match n_code n with Some c => c | None => 0 end, n_content n) else None
  | None => None
  end.
(** No reply with the same text was seen before. *)
Definition unseen (f : rframe) (l : list verdict) : Prop := forall d, In d l -> c_str (f_payload (d_frame d)) <> c_str (f_payload f).
(** One validation at a time. *)
Fixpoint one_by_one (es : list vev) : Prop :=
  match es with
  | [] => True
  | VStart t _ _ :: VNext u :: k => t = u /\ one_by_one k
  | _ => False
  end.
