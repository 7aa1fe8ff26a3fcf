(** What a command line says: options by their long or short names, values, and free words.  Nothing here refers to how
    it is parsed. *)
From Verif Require Import Base ArgModel.

Definition starts (p a : bytes) : Prop := exists r, a = p ++ r.
(** "help", "usage" and "?". *)
Definition reserved (n : bytes) : Prop :=
  starts [104; 101; 108; 112] n \/ starts [117; 115; 97; 103; 101] n \/ starts [63] n.
Definition named (o : opt) (n : bytes) : Prop := n = o_name o \/ o_short o = Some n.
(** No two options share a name. *)
Definition names_apart (l : list opt) : Prop :=
  forall i j o o' n, nth_error l i = Some o -> nth_error l j = Some o' -> named o n -> named o' n -> i = j.
(** A word written as an option: "--..." or "-c"; and one written as a Windows option. *)
Definition optionlike (a : bytes) : Prop := starts [45; 45] a \/ exists c, a = [45; c].
Definition barlike (a : bytes) : Prop := exists c d r, a = 47 :: c :: d :: r /\ ~ In 47 (c :: d :: r).

(** What the user writes. *)
Inductive item := GFlag (long : bool) (i : nat) | GVal (long : bool) (i : nat) (v : bytes) | GFree (a : bytes).
Definition item_opt (it : item) : list nat := match it with GFlag _ i | GVal _ i _ => [i] | GFree _ => [] end.
Definition item_free (it : item) : list bytes := match it with GFree a => [a] | _ => [] end.
(** [w] is how option [o] is written. *)
Definition spelled (long : bool) (o : opt) (w : bytes) : Prop :=
  if long then w = [45; 45] ++ o_name o /\ ~ reserved (o_name o)
  else exists c, o_short o = Some [c] /\ w = [45; c] /\ c <> 45 /\ ~ reserved [c].
Inductive written (l : list opt) : item -> list bytes -> Prop :=
| w_flag long i o w : nth_error l i = Some o -> o_type o = ANone -> spelled long o w -> written l (GFlag long i) [w]
| w_val long i o w v : nth_error l i = Some o -> o_type o <> ANone -> spelled long o w -> ~ optionlike v -> written l (GVal long i v) [w; v]
| w_free a : ~ optionlike a -> ~ barlike a -> written l (GFree a) [a].
Inductive line (l : list opt) : list item -> list bytes -> Prop :=
| l_nil : line l [] []
| l_cons it its w ws : written l it w -> line l its ws -> line l (it :: its) (w ++ ws).

Definition mentions (its : list item) (i : nat) : Prop := In i (flat_map item_opt its).
(** What does not change of an option. *)
Definition same_decl (o o' : opt) : Prop :=
  o_name o' = o_name o /\ o_short o' = o_short o /\ o_type o' = o_type o /\ o_optional o' = o_optional o /\ o_deps o' = o_deps o /\ o_excl o' = o_excl o.
(** The options after the line: those mentioned are defined, with their value; the others are as they were. *)
Definition holds (atoi : bytes -> Z) (its : list item) (l l' : list opt) : Prop :=
  length l' = length l /\
  forall i o o', nth_error l i = Some o -> nth_error l' i = Some o' ->
    same_decl o o' /\
    (mentions its i -> o_def o' = true) /\
    (~ mentions its i -> o' = o) /\
    (forall b v, In (GVal b i v) its -> (o_type o = AInt -> o_int o' = atoi v) /\ (o_type o = AString -> o_str o' = Some v)).
(** What the program asks of the options that are given: [g i] tells that option [i] is. *)
Definition needs (g : nat -> Prop) (l : list opt) : Prop :=
  forall i o, nth_error l i = Some o ->
    (o_optional o = false -> g i) /\ (g i -> forall j, In j (o_deps o) -> g j) /\ (g i -> forall j, In j (o_excl o) -> ~ g j).
(** Ready to parse: no option given yet, free words allowed, Windows options not in use. *)
Definition ready (x : ax) : Prop := Forall (fun o => o_def o = false) (x_opts x) /\ x_nofree x = false /\ x_mode x <> MWin /\ x_params x = [].
