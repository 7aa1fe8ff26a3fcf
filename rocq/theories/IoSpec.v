(** What a waiting mechanism is to do. *)
From Verif Require Import Base IoModel.

(** The sockets the kernel says can be read, in order. *)
Definition can_read (l : list (nat * revents)) : list nat :=
  map fst (filter (fun x => r_in (snd x) || r_pri (snd x)) l).
(** Nothing else is ever reported of them. *)
Definition only_data (l : list (nat * revents)) : Prop :=
  forall c r, In (c, r) l -> r_other r = true -> r_in r || r_pri r = true.
(** A set within its arrays. *)
Definition p_inside (s : pset) : Prop := 0 < ps_max s /\ zlen (ps_items s) <= ps_max s <= ps_room s /\ ps_max s <= ps_croom s.
Definition e_inside (s : eset) : Prop := 0 < es_max s <= es_room s /\ 0 <= es_len s <= es_max s.
Definition hard_ok (h : option Z) : Prop := match h with Some h => h <= two31 / 2 | None => True end.
(** Allocations succeed. *)
Definition p_alloc (o : pop) : Prop := match o with PAdd _ _ a b => a = true /\ b = true | PClear => True end.
