(** The search path of data files. *)
From Verif Require Import Base SearchModel SearchSpec SearchProofs.
(** C45: a file found is in a path somebody asked to add to the domain, whatever the
    place of new items in the list, and no path is there twice. *)
Theorem C45_from : forall place es, inserts place -> let s := srun place sp0 es in
  NoDup (kept (s_log s)) /\ (forall d p, In (d, p) (kept (s_log s)) -> In (d, p) (asked es)) /\
  forall a b d name f, s_log s = a ++ OFound d name (Some f) :: b -> exists p, In (d, p) (kept a) /\ f = file_of p name.
Proof. exact from_thm. Qed.
Print Assumptions C45_from.
(** If items are added at the end, it is that of the first path of the domain that has
    it, and NULL is returned only if none has. *)
Theorem C45_first : forall es d name fs, let s := srun at_end sp0 es in
  exists r, s_log (sstep at_end s (SFind d name fs)) = s_log s ++ [OFound d name r] /\ first_in (paths d (kept (s_log s))) name fs r.
Proof. exact first_thm. Qed.
Print Assumptions C45_first.
(** C82: a path is not added only if the domain, or "default", has it. *)
Theorem C82_skip_partial : forall place es a b d p, inserts place -> s_log (srun place sp0 es) = a ++ OSkip d p :: b -> In (d, p) (kept a) \/ In (default, p) (kept a).
Proof. exact skip_thm. Qed.
Print Assumptions C82_skip_partial.
(** A path of "default" cannot be added to another domain. *)
Theorem C82_default_refuted : exists d p name fs es, s_calls (srun at_end sp0 es) = [] /\ In (SCall 0 false d p) es /\ fs (file_of p name) = true /\
  s_log (sstep at_end (srun at_end sp0 es) (SFind d name fs)) = s_log (srun at_end sp0 es) ++ [OFound d name None].
Proof. exact default_thm. Qed.
Print Assumptions C82_default_refuted.
Example C45_place : inserts at_end.
Proof. intros l n. exists l, []. rewrite app_nil_r. auto. Qed.
(** Two threads that add the same path, a third with another, and two lookups. *)
Definition both : list sev := [SCall 1 false [120] [97]; SCall 2 true [120] [97]; SCall 3 false [120] dot; SStep 1; SStep 2; SStep 1; SStep 2; SStep 3; SStep 1; SStep 2; SStep 3; SStep 3].
Example C45_case : let s := srun at_end sp0 both in
  kept (s_log s) = [([120], [97]); ([120], dot)] /\ s_log s = [OKept [120] [97]; OSkip [120] [97]; OKept [120] dot] /\
  s_log (sstep at_end s (SFind [120] [102] (fun _ => true))) = s_log s ++ [OFound [120] [102] (Some [97; 47; 102])] /\
  s_log (sstep at_end s (SFind [120] [102] (fun f => seqb f [102]))) = s_log s ++ [OFound [120] [102] (Some [102])].
Proof. vm_compute. auto. Qed.
