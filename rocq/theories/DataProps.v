(** Theorems about the data attached to contexts, connections and channels (C295-C300). *)
From Coq Require Import Lia Permutation.
From Coq Require Import String.
From Verif Require Import Base GreetModel DataModel DataSpec DataProofs.
Open Scope list_scope.

(** 1, 2 and 3 are constants; 11, 12, 13 are copies of strings; 21, 22, 23 are values. *)
Definition words (p : Z) : bytes :=
  if (p =? 1) || (p =? 11) || (p =? 12) then asc "user" else if (p =? 2) || (p =? 13) then asc "quota" else if p =? 3 then asc "being_closed" else [].
Definition consts (p : Z) : bool := (0 <? p) && (p <? 10).

(** * C295 *)
Theorem C295_values : forall str lasting os, fits_all str lasting dst0 os -> exists st, drun str dst0 os = Ok (st, arun str nothing 0 os).
Proof. exact values. Qed.
Print Assumptions C295_values.
(** Data stored in a connection, changed, removed, and kept by the connection that takes its place. *)
Definition story : list dop :=
  [ONew; OSet 0 11 21 true true; OGet 0 1; OSet 0 12 22 true true; OGet 0 1; OSet 0 2 99 false false; OSet 0 3 7 false false; OMove 0; OGet 1 1; OGet 1 2; OGet 1 3; OGet 0 1; OSet 1 2 0 false false; OGet 1 2;
   ORelease 0; OGet 1 1; ORelease 1].
Example C295_ex : fits_all words consts dst0 story /\ arun words nothing 0 story = [0; 0; 21; 0; 22; 0; 0; 0; 22; 99; 0; 0; 0; 0; 0; 22; 0].
Proof. split; [apply fitsb_all_ok; vm_compute; reflexivity|vm_compute; reflexivity]. Qed.

(** * C296 *)
Theorem C296_once : forall str lasting os st zs, fits_all str lasting dst0 os -> drun str dst0 os = Ok (st, zs) ->
  NoDup (d_freed st) /\ (forall p, owned st p -> ~ gone st p).
Proof. exact once. Qed.
Print Assumptions C296_once.
Theorem C296_accounted : forall str lasting os st zs, fits_all str lasting dst0 os -> Forall keeps os -> drun str dst0 os = Ok (st, zs) ->
  forall p, In p (concat (map given os)) <-> gone st p \/ owned st p.
Proof. exact accounted. Qed.
Print Assumptions C296_accounted.
Theorem C296_released : forall str lasting os st zs, fits_all str lasting dst0 os -> Forall keeps os -> drun str dst0 os = Ok (st, zs) ->
  (forall h, ~ usable st h) -> Permutation (d_freed st) (concat (map given os)).
Proof. exact released. Qed.
Print Assumptions C296_released.
Example C296_ex : fits_all words consts dst0 story /\ Forall keeps story /\
  exists st zs, drun words dst0 story = Ok (st, zs) /\ d_freed st = [11; 21; 12; 22] /\ d_tabs st = [None; None].
Proof. split; [apply fitsb_all_ok; vm_compute; reflexivity|]. split; [repeat constructor|]. eexists _, _. split; [vm_compute; reflexivity|split; reflexivity]. Qed.
(** What is taken back with delete_key_data is not freed: the application does it. *)
Example C296_ex_taken : fits_all words consts dst0 [ONew; OSet 0 1 21 false true; ODel false 0 1; OUse 21; OFree 21; ORelease 0] /\
  exists st zs, drun words dst0 [ONew; OSet 0 1 21 false true; ODel false 0 1; OUse 21; OFree 21; ORelease 0] = Ok (st, zs) /\ d_freed st = [21].
Proof. split; [apply fitsb_all_ok; vm_compute; reflexivity|]. eexists _, _. split; [vm_compute; reflexivity|reflexivity]. Qed.

(** * C297 *)
(** Removing with a NULL value: the key given is neither freed nor kept, whatever its destroy function. *)
Theorem C297_null : forall str st h k kd vd st' z, dstep str st (OSet h k 0 kd vd) = Ok (st', z) ->
  dstep str st (OSet h k 0 false false) = Ok (st', z) /\ (~ owned st k -> ~ gone st k -> ~ owned st' k /\ ~ gone st' k).
Proof. exact null_key. Qed.
Print Assumptions C297_null.
Theorem C297_leak_refuted : exists str lasting os st zs, fits_all str lasting dst0 os /\ os = [ONew; OSet 0 11 21 true true; OSet 0 12 0 true true; ORelease 0] /\
  drun str dst0 os = Ok (st, zs) /\ (forall h, ~ usable st h) /\ gone st 11 /\ gone st 21 /\ ~ gone st 12.
Proof.
  exists words, consts. eexists. eexists _, _. split; [apply fitsb_all_ok|split; [reflexivity|split; [vm_compute; reflexivity|]]]; [vm_compute; reflexivity|].
  split; [intros [|[|h]] [t H]; discriminate|]. unfold gone. cbn. intuition discriminate.
Qed.
Print Assumptions C297_leak_refuted.
Example C297_ex : exists st, dstep words (mkD [Some [mkE 11 true 21 true]] []) (OSet 0 12 0 true true) = Ok (st, 0) /\ d_freed st = [11; 21].
Proof. eexists. split; [vm_compute; reflexivity|reflexivity]. Qed.

(** * C298 *)
(** The value stored is stored again: it is freed, it stays in the table, and it is freed again with its holder. *)
Theorem C298_again : forall str lasting os h t k e st zs, fits_all str lasting dst0 os -> drun str dst0 os = Ok (st, zs) ->
  nth_error (d_tabs st) h = Some (Some t) -> In e t -> e_vd e = true -> e_val e <> 0 -> k <> 0 -> str k = str (e_key e) ->
  forall st' z, dstep str st (OSet h k (e_val e) false true) = Ok (st', z) -> gone st' (e_val e) /\ owned st' (e_val e) /\ dstep str st' (ORelease h) = UB.
Proof. exact again. Qed.
Print Assumptions C298_again.
Theorem C298_refuted : exists str st st', drun str dst0 [ONew; OSet 0 1 21 false true; OSet 0 1 21 false true; OGet 0 1] = Ok (st, [0; 0; 0; 21]) /\ gone st 21 /\
  dstep str st (OUse 21) = UB /\ dstep str st (ORelease 0) = UB /\
  drun str dst0 [ONew; OSet 0 1 21 false true; OSet 0 1 22 false true; OGet 0 1; OUse 22; ORelease 0] = Ok (st', [0; 0; 0; 22; 0; 0]).
Proof.
  exists words. eexists _, _. split; [vm_compute; reflexivity|]. split; [left; reflexivity|]. split; [reflexivity|]. split; [reflexivity|]. vm_compute. reflexivity.
Qed.
Print Assumptions C298_refuted.
Example C298_ex : fits_all words consts dst0 [ONew; OSet 0 1 21 false true] /\ exists zs, drun words dst0 [ONew; OSet 0 1 21 false true] = Ok (mkD [Some [mkE 1 false 21 true]] [], zs).
Proof. split; [apply fitsb_all_ok; vm_compute; reflexivity|]. eexists. vm_compute. reflexivity. Qed.

(** * C299 *)
Theorem C299_valid : forall str lasting os1 h k v kd vd os2, k <> 0 -> v <> 0 ->
  fits_all str lasting dst0 (os1 ++ OSet h k v kd vd :: os2) -> Forall (apart str h (str k)) os2 ->
  exists st zs, drun str dst0 (os1 ++ OSet h k v kd vd :: os2) = Ok (st, zs) /\ (vd = true -> ~ gone st v) /\
    forall k2, k2 <> 0 -> ~ gone st k2 -> str k2 = str k -> dstep str st (OGet h k2) = Ok (st, v).
Proof. exact valid_until. Qed.
Print Assumptions C299_valid.
Definition others : list dop := [OSet 0 13 22 true true; ONew; OSet 1 1 23 false true; OSet 0 2 0 false false; ORelease 1].
Example C299_ex : fits_all words consts dst0 ([ONew] ++ OSet 0 1 21 false true :: others) /\ Forall (apart words 0 (words 1)) others /\
  exists st zs, drun words dst0 ([ONew] ++ OSet 0 1 21 false true :: others) = Ok (st, zs) /\ d_freed st = [13; 22; 23].
Proof.
  split; [apply fitsb_all_ok; vm_compute; reflexivity|]. split.
  - unfold others. repeat constructor; cbn [apart]; try (right; vm_compute; discriminate); try (left; discriminate); discriminate.
  - eexists _, _. split; [vm_compute; reflexivity|reflexivity].
Qed.

(** * C300 *)
(** A thread gets the value, another stores a new one: what the first has is freed. *)
Theorem C300_refuted : exists str lasting os st zs, fits_all str lasting dst0 os /\ os = [ONew; OSet 0 1 21 false true; OGet 0 1; OSet 0 1 22 false true] /\
  drun str dst0 os = Ok (st, zs) /\ nth 2 zs 0 = 21 /\ dstep str st (OUse 21) = UB /\
  drun str dst0 [ONew; OSet 0 1 21 false true; OGet 0 1; OUse 21; OSet 0 1 22 false true] <> UB.
Proof.
  exists words, consts. eexists. eexists _, _. split; [apply fitsb_all_ok|split; [reflexivity|split; [vm_compute; reflexivity|]]]; [vm_compute; reflexivity|].
  split; [reflexivity|]. split; [reflexivity|]. vm_compute. discriminate.
Qed.
Print Assumptions C300_refuted.
