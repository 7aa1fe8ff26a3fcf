(** Theorems about the command line of xml-rpc-gen (C301-C308). *)
From Coq Require Import String.
From Verif Require Import Base GreetModel ArgModel ArgSpec ArgProofs.
Open Scope list_scope.

(** The options of the tool, and small programs. *)
Definition of (p : pres) : ax := match p with PGo x => x | _ => ax0 end.
Definition gen : ax := of (install_all ax0 gen_options).
Example gen_installed : install_all ax0 gen_options = PGo gen /\ List.length (x_opts gen) = 12%nat.
Proof. vm_compute. auto. Qed.
(** atoi of an optional sign and digits. *)
Definition atoi_ex (b : bytes) : Z :=
  let num := fold_left (fun n d => n * 10 + (d - 48)) in match b with 45 :: r => - num r 0 | _ => num b 0 end.

(** * C301 *)
Theorem C301_accepted : forall atoi x its ws,
  ready x -> names_apart (x_opts x) -> line (x_opts x) its ws -> NoDup (flat_map item_opt its) -> needs (mentions its) (x_opts x) ->
  exists x', parse atoi x ws = PGo x' /\ holds atoi its (x_opts x) (x_opts x') /\ x_params x' = flat_map item_free its /\ x_said x' = x_said x.
Proof. exact accepted. Qed.
Print Assumptions C301_accepted.
Definition gen_its : list item := [GFree (asc "a.idl"); GVal false 1 (asc "/tmp"); GFlag true 3; GFree (asc "-15"); GFlag false 0].
Definition gen_line : list bytes := [asc "a.idl"; asc "-o"; asc "/tmp"; asc "--only-client"; asc "-15"; asc "-v"].
Ltac no_opt := let H := fresh in let r := fresh in let E := fresh in
  intros H; try (destruct H as [H|H]); try (destruct H as [r E]; vm_compute in E; discriminate).
Ltac not_reserved := let H := fresh in let r := fresh in let E := fresh in
  intros H; destruct H as [H|[H|H]]; destruct H as [r E]; vm_compute in E; discriminate.
Example C301_ex : ready gen /\ names_apart (x_opts gen) /\ line (x_opts gen) gen_its gen_line /\ NoDup (flat_map item_opt gen_its) /\
  needs (mentions gen_its) (x_opts gen) /\
  (let x' := of (parse atoi_ex gen gen_line) in
   x_params x' = [asc "a.idl"; asc "-15"] /\ map o_def (firstn 5 (x_opts x')) = [true; true; false; true; false] /\ option_map o_str (nth_error (x_opts x') 1) = Some (Some (asc "/tmp"))).
Proof.
  repeat match goal with |- _ /\ _ => split end; try (vm_compute; reflexivity).
  - repeat split; try discriminate. vm_compute. repeat constructor.
  - apply apartb_ok. vm_compute. reflexivity.
  - change gen_line with ([asc "a.idl"] ++ [asc "-o"; asc "/tmp"] ++ [asc "--only-client"] ++ [asc "-15"] ++ [asc "-v"] ++ []).
    constructor; [constructor; [no_opt|intros (c & d & r & E & _); vm_compute in E; discriminate]|].
    constructor; [eapply w_val; [vm_compute; reflexivity|discriminate|exists 111; vm_compute; repeat split; try discriminate; not_reserved|no_opt]|].
    constructor; [eapply w_flag; [vm_compute; reflexivity|reflexivity|split; [reflexivity|not_reserved]]|].
    constructor; [constructor; [no_opt|intros (c & d & r & E & _); vm_compute in E; discriminate]|].
    constructor; [eapply w_flag; [vm_compute; reflexivity|reflexivity|exists 118; vm_compute; repeat split; try discriminate; not_reserved]|constructor].
  - vm_compute. repeat constructor; cbn; intuition discriminate.
  - intros i o N. unfold gen in N. vm_compute in N. do 12 (destruct i as [|i]; [injection N as <-; cbn; repeat split; intros; try discriminate; contradiction|cbn in N]).
    destruct i; discriminate.
  - vm_compute. auto.
Qed.

(** * C302 *)
Theorem C302_unknown : forall atoi x its ws w n r,
  ready x -> names_apart (x_opts x) -> line (x_opts x) its ws -> NoDup (flat_map item_opt its) ->
  (w = [45; 45] ++ n \/ exists c, n = [c] /\ w = [45; c] /\ c <> 45) -> ~ reserved n -> (forall o, In o (x_opts x) -> ~ named o n) ->
  parse atoi x (ws ++ w :: r) = PExit (EUnknown w).
Proof. exact unknown. Qed.
Print Assumptions C302_unknown.
Theorem C302_twice : forall atoi x its ws w long i o r,
  ready x -> names_apart (x_opts x) -> line (x_opts x) its ws -> NoDup (flat_map item_opt its) ->
  mentions its i -> nth_error (x_opts x) i = Some o -> spelled long o w -> parse atoi x (ws ++ w :: r) = PExit (ETwice w).
Proof. exact twice. Qed.
Print Assumptions C302_twice.
Theorem C302_no_value : forall atoi x its ws w long i o r,
  ready x -> names_apart (x_opts x) -> line (x_opts x) its ws -> NoDup (flat_map item_opt its) ->
  ~ mentions its i -> nth_error (x_opts x) i = Some o -> o_type o <> ANone -> spelled long o w -> (r = [] \/ exists v r', r = v :: r' /\ optionlike v) ->
  parse atoi x (ws ++ w :: r) = PExit (ENoValue w).
Proof. exact no_value. Qed.
Print Assumptions C302_no_value.
Theorem C302_free : forall atoi x a r, x_nofree x = true -> x_mode x <> MWin -> ~ optionlike a -> ~ barlike a -> parse atoi x (a :: r) = PExit (EFree a).
Proof. exact free_refused. Qed.
Print Assumptions C302_free.
(** After the line of C301, which meets the first hypotheses. *)
Example C302_ex :
  parse atoi_ex gen (gen_line ++ [asc "--only-servers"]) = PExit (EUnknown (asc "--only-servers")) /\
  parse atoi_ex gen (gen_line ++ [asc "--version"; asc "b"]) = PExit (ETwice (asc "--version")) /\
  parse atoi_ex gen (gen_line ++ [asc "--out-stub-dir"]) = PExit (ENoValue (asc "--out-stub-dir")) /\
  parse atoi_ex gen (gen_line ++ [asc "--out-stub-dir"; asc "-i"; asc "d"]) = PExit (ENoValue (asc "--out-stub-dir")) /\
  parse atoi_ex (mkX (x_opts gen) [] MNone true false false) [asc "b"] = PExit (EFree (asc "b")).
Proof. vm_compute. auto 10. Qed.

(** * C303 *)
Theorem C303_obligatory : forall atoi x args x', parse atoi x args = PGo x' -> forall o, In o (x_opts x') -> o_optional o = false -> o_def o = true.
Proof. exact obligations. Qed.
Print Assumptions C303_obligatory.
Theorem C303_depends_partial : forall atoi x args x', parse atoi x args = PGo x' -> args <> [] ->
  (forall o j, In o (x_opts x') -> o_def o = true -> In j (o_excl o) -> defined (x_opts x') j = false) ->
  forall o j, In o (x_opts x') -> o_def o = true -> In j (o_deps o) -> defined (x_opts x') j = true.
Proof. exact depends. Qed.
Print Assumptions C303_depends_partial.
(** What a dependency, an exclusion and an obligatory argument are, once asked for. *)
Theorem C303_related : forall excl x a b x', relate excl x a b = PGo x' ->
  a <> b /\ exists i j o p o', nth_error (x_opts x) i = Some o /\ named o a /\ nth_error (x_opts x) j = Some p /\ named p b /\
    nth_error (x_opts x') i = Some o' /\ (forall k, k <> i -> nth_error (x_opts x') k = nth_error (x_opts x) k) /\
    o_deps o' = (if excl then [] else [j]) ++ o_deps o /\ o_excl o' = (if excl then [j] else []) ++ o_excl o /\
    o_name o' = o_name o /\ o_short o' = o_short o /\ o_type o' = o_type o /\ o_optional o' = o_optional o /\ o_def o' = o_def o.
Proof. exact related. Qed.
Print Assumptions C303_related.
Theorem C303_relate_refused : forall excl x a b w, relate excl x a b = PExit w ->
  a = b \/ (forall o, In o (x_opts x) -> ~ named o a) \/ (forall o, In o (x_opts x) -> ~ named o b).
Proof. exact relate_refused. Qed.
Print Assumptions C303_relate_refused.
Theorem C303_made_obligatory : forall x a, names_apart (x_opts x) -> forall i o, nth_error (x_opts x) i = Some o ->
  exists o', nth_error (x_opts (obligatory x a)) i = Some o' /\ (named o a -> o_optional o' = false) /\ (~ named o a -> o' = o) /\
    o_name o' = o_name o /\ o_short o' = o_short o /\ o_type o' = o_type o /\ o_def o' = o_def o /\ o_deps o' = o_deps o /\ o_excl o' = o_excl o.
Proof. exact made_obligatory. Qed.
Print Assumptions C303_made_obligatory.
(** With an exclusion that is not kept, the dependencies of the options after it are not looked at. *)
Definition dep_prog : ax :=
  of (then_ (then_ (install_all ax0 [(asc "quiet", Some (asc "q"), ANone); (asc "debug", Some (asc "d"), ANone); (asc "user", Some (asc "u"), AString); (asc "pass", Some (asc "p"), AString)])
     (fun x => relate true x (asc "quiet") (asc "debug"))) (fun x => relate false x (asc "user") (asc "pass"))).
Theorem C303_depends_refuted : exists x args x' o j, parse atoi_ex x args = PGo x' /\ args <> [] /\ ready x /\
  In o (x_opts x') /\ o_def o = true /\ In j (o_deps o) /\ defined (x_opts x') j = false.
Proof.
  exists dep_prog, [asc "-q"; asc "-d"; asc "-u"; asc "bob"]. eexists _, (nth 2 (x_opts (of (parse atoi_ex dep_prog [asc "-q"; asc "-d"; asc "-u"; asc "bob"]))) (mkO [] None ANone None 0 false true [] [])), 3%nat.
  split; [vm_compute; reflexivity|]. split; [discriminate|]. split; [repeat split; try discriminate; vm_compute; repeat constructor|]. vm_compute. auto 10.
Qed.
Print Assumptions C303_depends_refuted.
Example C303_ex_relate : names_apart (x_opts gen) /\ relate false gen (asc "v") (asc "v") = PExit EItself /\ relate true gen (asc "v") (asc "w") = PExit (ENotThere (asc "w")) /\
  (exists x', relate true gen (asc "x") (asc "idl-format") = PGo x' /\ map o_excl (x_opts x') = [[]; []; []; []; []; [6%nat]; []; []; []; []; []; []]).
Proof. split; [apply apartb_ok; vm_compute; reflexivity|]. split; [reflexivity|]. split; [reflexivity|]. eexists. split; vm_compute; reflexivity. Qed.
Example C303_ex :
  parse atoi_ex dep_prog [asc "-u"; asc "bob"] = PExit (EDepends (asc "pass") (asc "user")) /\
  (exists x', parse atoi_ex dep_prog [asc "-u"; asc "bob"; asc "--pass"; asc "x"; asc "-q"] = PGo x' /\ x_said x' = false) /\
  parse atoi_ex (obligatory gen (asc "out-dir")) [asc "a.idl"] = PExit (EMissing (asc "out-dir")) /\
  parse atoi_ex (obligatory gen (asc "out-dir")) [] = PExit (EMissing (asc "out-dir")) /\
  exists x', parse atoi_ex (obligatory gen (asc "out-dir")) [asc "-o"; asc "d"] = PGo x'.
Proof. repeat match goal with |- _ /\ _ => split end; try (vm_compute; reflexivity); eexists; [split|]; vm_compute; reflexivity. Qed.

(** * C304 *)
Theorem C304_said : forall atoi x args x', parse atoi x args = PGo x' -> args <> [] ->
  forall o j, In o (x_opts x') -> o_def o = true -> In j (o_excl o) -> defined (x_opts x') j = true -> x_said x' = true.
Proof. exact excluded_said. Qed.
Print Assumptions C304_said.
Theorem C304_refuted : exists x args x' o j, parse atoi_ex x args = PGo x' /\ ready x /\
  In o (x_opts x') /\ o_def o = true /\ In j (o_excl o) /\ defined (x_opts x') j = true.
Proof.
  exists dep_prog, [asc "-q"; asc "-d"]. eexists _, (nth 0 (x_opts (of (parse atoi_ex dep_prog [asc "-q"; asc "-d"]))) (mkO [] None ANone None 0 false true [] [])), 1%nat.
  split; [vm_compute; reflexivity|]. split; [repeat split; try discriminate; vm_compute; repeat constructor|]. vm_compute. auto 10.
Qed.
Print Assumptions C304_refuted.

(** * C305 *)
(** The values: a number of one digit below zero is taken as an option. *)
Definition level : ax := of (install_all ax0 [(asc "level", Some (asc "l"), AInt); (asc "helper", None, ANone)]).
Theorem C305_value_refuted : exists x w v, ready x /\ (exists o, nth_error (x_opts x) 0 = Some o /\ o_type o = AInt /\ spelled true o w) /\
  atoi_ex v = -5 /\ parse atoi_ex x [w; v] = PExit (ENoValue w).
Proof.
  exists level, (asc "--level"), (asc "-5"). split; [repeat split; try discriminate; vm_compute; repeat constructor|].
  split; [eexists; split; [vm_compute; reflexivity|]; split; [reflexivity|split; [reflexivity|not_reserved]]|]. vm_compute. auto.
Qed.
Print Assumptions C305_value_refuted.
Example C305_ex : exists x', parse atoi_ex level [asc "-l"; asc "-15"] = PGo x' /\ option_map o_int (nth_error (x_opts x') 0) = Some (-15).
Proof. eexists. split; vm_compute; reflexivity. Qed.
(** The names: an option whose name begins as that of help cannot be given. *)
Theorem C305_name_refuted : exists x o, ready x /\ names_apart (x_opts x) /\ In o (x_opts x) /\ forall atoi r, parse atoi x (([45; 45] ++ o_name o) :: r) = PExit EHelp.
Proof.
  exists level, (nth 1 (x_opts level) (mkO [] None ANone None 0 false true [] [])). split; [repeat split; try discriminate; vm_compute; repeat constructor|].
  split; [apply apartb_ok; vm_compute; reflexivity|]. split; [vm_compute; auto|]. intros atoi r. destruct r; reflexivity.
Qed.
Print Assumptions C305_name_refuted.

(** * C306 *)
(** A file of the root directory is taken as an option of Windows. *)
Theorem C306_refuted : exists a, ready gen /\ ~ optionlike a /\ (forall o n, In o (x_opts gen) -> named o n -> a <> 47 :: n) /\
  parse atoi_ex gen [a] = PExit (EUnknown a) /\ exists x', parse atoi_ex gen [asc "-c"; a] = PGo x' /\ x_params x' = [a].
Proof.
  exists (asc "/a.idl"). split; [repeat split; try discriminate; vm_compute; repeat constructor|]. split; [no_opt|]. split.
  - intros o n I M E. apply keys_named in M. vm_compute in I.
    repeat (destruct I as [<-|I]; [vm_compute in M; repeat (destruct M as [<-|M]; [vm_compute in E; discriminate|]); contradiction|]). contradiction.
  - split; [vm_compute; reflexivity|]. eexists. split; vm_compute; reflexivity.
Qed.
Print Assumptions C306_refuted.
(** Once an option of Windows has been given those of Unix are free words. *)
Example C306_ex : exists x', parse atoi_ex gen [asc "/version"; asc "--only-client"; asc "-s"] = PGo x' /\ x_params x' = [asc "--only-client"; asc "-s"] /\
  is_defined x' (asc "version") = true /\ is_defined x' (asc "only-client") = false.
Proof. eexists. split; [vm_compute; reflexivity|]. vm_compute. auto. Qed.

(** * C307 *)
Theorem C307_installed : forall x name short ty x', install x name short ty = PGo x' ->
  x_opts x' = x_opts x ++ [mkO name short ty None 0 false true [] []] /\ (forall o, In o (x_opts x) -> ~ named o name) /\
  (forall s o, short = Some s -> In o (x_opts x) -> o_short o <> Some s).
Proof. exact installed. Qed.
Print Assumptions C307_installed.
Theorem C307_refused : forall x name short ty w, install x name short ty = PExit w ->
  (exists o, In o (x_opts x) /\ named o name) \/ (exists o s s', In o (x_opts x) /\ short = Some s /\ o_short o = Some s' /\ starts s s').
Proof. exact install_refused. Qed.
Print Assumptions C307_refused.
Theorem C307_apart_partial : forall x name short ty x', names_apart (x_opts x) -> install x name short ty = PGo x' ->
  (forall s o, short = Some s -> In o (x_opts x) -> o_name o <> s) -> names_apart (x_opts x').
Proof. exact install_apart. Qed.
Print Assumptions C307_apart_partial.
(** A short name may be the long name of another: it then stands for the other. *)
Theorem C307_refuted : exists x name short x', names_apart (x_opts x) /\ install x name (Some short) ANone = PGo x' /\ ~ names_apart (x_opts x') /\
  exists x'', parse atoi_ex x' [45 :: short] = PGo x'' /\ is_defined x'' name = false.
Proof.
  exists (of (install ax0 (asc "v") None ANone)), (asc "version"), (asc "v"). eexists. split; [apply apartb_ok; vm_compute; reflexivity|].
  split; [vm_compute; reflexivity|]. split.
  - intros A. specialize (A 0%nat 1%nat _ _ (asc "v") eq_refl eq_refl). cbn in A. discriminate A; [left|right]; reflexivity.
  - eexists. split; [vm_compute; reflexivity|vm_compute; reflexivity].
Qed.
Print Assumptions C307_refuted.
Example C307_ex :
  install gen (asc "to-xml") None ANone = PExit (EInstalled (asc "to-xml")) /\ install gen (asc "x") None ANone = PExit (EInstalled (asc "x")) /\
  install gen (asc "extra") (Some (asc "x")) ANone = PExit (EShort (asc "x")) /\
  install (of (install ax0 (asc "very") (Some (asc "vv")) ANone)) (asc "version") (Some (asc "v")) ANone = PExit (EShort (asc "v")).
Proof. vm_compute. auto. Qed.

(** * C308 *)
Theorem C308_null : forall atoi x args, parse atoi x args <> PUB.
Proof. exact no_ub. Qed.
Print Assumptions C308_null.
Theorem C308_over_partial : forall atoi x args x', (forall a, In a args -> 1 <= zlen a /\ (optionlike a \/ starts [47] a -> 6 <= zlen a)) ->
  parse atoi x args = PGo x' -> x_over x' = x_over x.
Proof. exact no_over. Qed.
Print Assumptions C308_over_partial.
(** "-v" is enough: its name is compared with four bytes. *)
Theorem C308_refuted : exists args x', parse atoi_ex gen args = PGo x' /\ x_over gen = false /\ x_over x' = true.
Proof. exists [asc "-v"]. eexists. split; [vm_compute; reflexivity|]. vm_compute. auto. Qed.
Print Assumptions C308_refuted.
Example C308_ex : exists x', parse atoi_ex gen [asc "--version"; asc "a"; asc "--out-dir"; asc "d"] = PGo x' /\ x_over x' = false /\ is_defined x' (asc "version") = true.
Proof. eexists. split; [vm_compute; reflexivity|]. vm_compute. auto. Qed.
