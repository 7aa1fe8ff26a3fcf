(** The properties of the reply to a start request. *)
From Verif Require Import Base ConfirmModel ConfirmSpec ConfirmProofs.

(** C71: for a reply whose text was not seen before, the channel is created if
    and only if the peer confirms the profile asked; it has the content given
    and the error given is reported. *)
Theorem C71_first_partial : forall parse es s a d b, vrun parse v0 es = Ok s -> v_log s = a ++ d :: b -> unseen (d_frame d) a ->
  (d_ok d = true <-> confirms parse (d_frame d) (d_asked d)) /\ d_piggy d = (if d_ok d then content_in parse (d_frame d) else None) /\
  d_error d = match f_type (d_frame d) with TRpy => None | _ => error_in parse (d_frame d) end.
Proof. exact first_thm. Qed.
Print Assumptions C71_first_partial.

(** C71: a channel created was confirmed, or a reply with the same text and some
    profile was received before. *)
Theorem C71_origin : forall parse es s a d b, vrun parse v0 es = Ok s -> v_log s = a ++ d :: b -> d_ok d = true ->
  confirms parse (d_frame d) (d_asked d) \/ exists d', In d' a /\ c_str (f_payload (d_frame d')) = c_str (f_payload (d_frame d)) /\ some_profile parse (d_frame d').
Proof. exact origin_thm. Qed.
Print Assumptions C71_origin.

(** C71: a reply with another profile, refused, is accepted when it is received
    again for the same request. *)
Theorem C71_twice_refuted : exists parse es s a d b, vrun parse v0 es = Ok s /\ one_by_one es /\ v_log s = a ++ d :: b /\ d_ok d = true /\
  f_type (d_frame d) = TRpy /\ ~ confirms parse (d_frame d) (d_asked d) /\ map d_ok a = [false] /\ map d_frame a = [d_frame d] /\ map d_asked a = [d_asked d].
Proof. exact twice_witness. Qed.
Print Assumptions C71_twice_refuted.

(** C71: a reply of type ERR is accepted. *)
Theorem C71_error_refuted : exists parse es s a d b, vrun parse v0 es = Ok s /\ one_by_one es /\ v_log s = a ++ d :: b /\ d_ok d = true /\ f_type (d_frame d) = TErr.
Proof. exact err_witness. Qed.
Print Assumptions C71_error_refuted.

(** C71: the reply for a profile is accepted for another one, although every
    reply before was right. *)
Theorem C71_other_refuted : exists parse es s a d b, vrun parse v0 es = Ok s /\ one_by_one es /\ v_log s = a ++ d :: b /\ d_ok d = true /\
  (exists n, parse (f_payload (d_frame d)) = Some n /\ n_uri n <> Some (d_asked d)) /\ Forall (fun x => confirms parse (d_frame x) (d_asked x)) a.
Proof. exact other_witness. Qed.
Print Assumptions C71_other_refuted.

(** C71: the content given with a right reply is lost. *)
Theorem C71_content_refuted : exists parse es s a d b, vrun parse v0 es = Ok s /\ one_by_one es /\ v_log s = a ++ d :: b /\ d_ok d = true /\
  confirms parse (d_frame d) (d_asked d) /\ content_in parse (d_frame d) = Some [55] /\ d_piggy d = None.
Proof. exact piggy_witness. Qed.
Print Assumptions C71_content_refuted.

(** C71: one validation at a time is defined; three of them at once, all right,
    use an entry of the cache after it was freed. *)
Theorem C71_defined_partial : forall parse es, one_by_one es -> exists s, vrun parse v0 es = Ok s.
Proof. exact defined_thm. Qed.
Print Assumptions C71_defined_partial.
Theorem C71_defined_refuted : exists parse es, vrun parse v0 es = UB /\ forall t f a, In (VStart t f a) es -> confirms parse f a.
Proof. exact freed_witness. Qed.
Print Assumptions C71_defined_refuted.

(** Two requests, for each profile; the second reply is for the first profile
    and a third one is refused with an error. *)
Definition parser (b : bytes) : option node :=
  match b with
  | [49] => Some (mkN PROFILE (Some [65]) None None)
  | [50] => Some (mkN PROFILE (Some [66]) None (Some [55; 0; 9]))
  | [51] => Some (mkN ERROR None (Some 554) (Some [33]))
  | _ => None
  end.
Definition case_es : list vev :=
  [VStart 0 (mkF TRpy [50]) [66]; VNext 0; VStart 0 (mkF TRpy [49]) [66]; VStart 1 (mkF TErr [51]) [66]; VNext 0; VNext 1].
Example C71_case : exists s, vrun parser v0 case_es = Ok s /\ map d_ok (v_log s) = [true; false; false] /\ map d_piggy (v_log s) = [Some [55]; None; None] /\
  map d_error (v_log s) = [None; None; Some (554, Some [33])] /\ unseen (mkF TErr [51]) (firstn 2 (v_log s)).
Proof.
  eexists. split; [vm_compute; reflexivity|]. cbn [v_log map firstn]. repeat (split; [reflexivity|]).
  intros d [H|[H|[]]]; subst d; cbn; discriminate.
Qed.
Example C71_one_case : one_by_one [VStart 0 (mkF TRpy [50]) [66]; VNext 0; VStart 0 (mkF TRpy [49]) [66]; VNext 0].
Proof. cbn. tauto. Qed.
