(** The properties of the memory of XML-RPC values. *)
From Coq Require Import String.
From Verif Require Import Base CodecModel GreetModel HdrModel MsgModel ValModel ValSpec ValProofs2 ValProofs3.
Open Scope list_scope.
Open Scope Z_scope.

(** C280: a program that uses what it owns, or what lives inside something, never touches released memory. *)
Theorem C280_safe : forall os last, careful v0 [] os last -> exists s, vrun v0 os = Ok s /\
  (forall r, In r last -> exists c, look (s_heap s) r = Ok c) /\
  (forall p c r, cell_at (s_heap s) p = Some c -> In r (kids c) -> exists d, look (s_heap s) r = Ok d).
Proof. exact never_astray. Qed.
Print Assumptions C280_safe.
Definition tale1 : list op := [OStructNew 1; OText false (Some [65]); OMemNew [110] (Some 2%nat); OAddMem 0 3; OStructV (Some 0%nat); OCopy 4; OResp 4; OShow 6; ORespFree 6; OValFree 5].
Ltac next := eexists; split; [|let E := fresh in intros ? ? E; vm_compute in E; injection E as <- <-].
Ltac use := right; vm_compute; tauto.
Example C280_ex : careful v0 [] tale1 [].
Proof.
  unfold tale1. cbn [careful].
  next; [apply F_struct|]. next; [apply F_text|]. next; [apply (F_mem _ _ _ _ [(TStruct, 0%nat)]); apply Permutation_refl|].
  next; [apply (F_add_mem _ _ 0 3 [(TStruct, 0%nat)] 1 1 []); [left; vm_compute; tauto|reflexivity|apply Permutation_refl]|].
  next; [apply (F_struct_v _ _ _ []); apply Permutation_refl|]. next; [apply F_copy; left; vm_compute; tauto|].
  next; [apply (F_resp _ _ _ [(TVal, 5%nat)]); apply perm_swap|]. next; [apply F_show; left; vm_compute; tauto|].
  next; [apply (F_free _ _ TResp 6 [(TVal, 5%nat)]); [apply Permutation_refl|reflexivity]|].
  next; [apply (F_free _ _ TVal 5 []); [apply Permutation_refl|reflexivity]|]. reflexivity.
Qed.

(** C281: once all is released nothing is left, unless something contains itself. *)
Theorem C281_no_leak_partial : forall os s, careful v0 [] os [] -> vrun v0 os = Ok s -> s_chan s = [] -> acyclic (s_heap s) -> in_use (s_heap s) = [].
Proof. exact nothing_left. Qed.
Print Assumptions C281_no_leak_partial.
Example C281_ex : exists s, vrun v0 tale1 = Ok s /\ s_chan s = [] /\ length (s_heap s) = 7%nat /\ acyclic (s_heap s) /\ in_use (s_heap s) = [].
Proof.
  eexists. split; [vm_compute; reflexivity|]. split; [reflexivity|]. split; [reflexivity|]. split; [|reflexivity].
  exists (fun _ => 0%nat). intros p c r C. exfalso. do 7 (destruct p as [|p]; [discriminate|]). destruct p; discriminate.
Qed.
(** An array added to itself is never released. *)
Theorem C281_refuted : exists os, careful v0 [] os [] /\ exists s, vrun v0 os = Ok s /\ s_chan s = [] /\ in_use (s_heap s) = [0%nat; 1%nat].
Proof.
  exists [OArrNew 1; OArrRef 0; OArrV (Some 0%nat); OArrAdd 0 (Some 1%nat); OArrFree 0]. split; [|eexists; vm_compute; auto].
  cbn [careful]. next; [apply F_arr|]. next; [apply F_arr_ref; left; vm_compute; tauto|]. next; [apply (F_arr_v _ _ _ [(TArr, 0%nat)]); apply Permutation_refl|].
  next; [apply (F_arr_add _ _ 0 (Some 1%nat) [(TArr, 0%nat)] 2 0 [None]); [left; vm_compute; tauto|reflexivity|apply Permutation_refl]|].
  next; [apply (F_free _ _ TArr 0 []); [apply Permutation_refl|reflexivity]|]. reflexivity.
Qed.
Print Assumptions C281_refuted.

(** C282: what is added to an array, or set, is what is read there. *)
Theorem C282_added : forall h a refs n vs v, cell_at h a = Some (CArr refs n vs) -> (n < length vs)%nat ->
  exists h', arr_add h a v = Ok h' /\ arr_get h' a (Z.of_nat n) = Ok v /\ (forall i, 0 <= i < Z.of_nat n -> arr_get h' a i = arr_get h a i) /\
  (forall i, Z.of_nat n < i -> arr_get h' a i = Ok None).
Proof. exact array_added. Qed.
Print Assumptions C282_added.
Theorem C282_set : forall h a refs n vs i v, cell_at h a = Some (CArr refs n vs) -> 0 <= i < Z.of_nat n -> (n <= length vs)%nat ->
  exists h', arr_set h a i v = Ok h' /\ arr_get h' a i = Ok v /\ forall j, j <> i -> arr_get h' a j = arr_get h a j.
Proof. exact array_set. Qed.
Print Assumptions C282_set.
Example C282_ex : exists h, arr_set [Some (CArr 1 2 [Some 1%nat; Some 2%nat; None]); Some (CVal (KInt 1)); Some (CVal (KInt 2)); Some (CVal (KInt 3))] 0 1 (Some 3%nat) = Ok h /\
  map (arr_get h 0) [0; 1; 2] = [Ok (Some 1%nat); Ok (Some 3%nat); Ok None].
Proof. eexists. vm_compute. auto. Qed.
(** The value an array_set replaces is not released, as its documentation says: with the array released it is
    still there, and the program that released it itself does not leak. *)
Theorem C282_refuted : exists os s s', vrun v0 os = Ok s /\ in_use (s_heap s) = [1%nat] /\ cell_at (s_heap s) 1 = Some (CVal (KInt 1)) /\
  step s (OValFree 1) = Ok (s', RNone) /\ in_use (s_heap s') = [].
Proof. exists [OArrNew 1; OInt 1; OArrAdd 0 (Some 1%nat); OInt 2; OArrSet 0 0 (Some 2%nat); OArrFree 0]. do 2 eexists. vm_compute. auto. Qed.
Print Assumptions C282_refuted.
(** A call whose values are all set by position releases none of them, and one created for a call that is
    full is lost, without a pointer to it given to anyone. *)
Theorem C282_set_refuted : exists os s, vrun v0 os = Ok s /\ in_use (s_heap s) = [1%nat].
Proof. exists [OCallNew 1; OInt 7; OCallSet 0 0 1; OCallFree 0]. eexists. vm_compute. auto. Qed.
Print Assumptions C282_set_refuted.
Theorem C282_full_refuted : exists os s, vrun v0 os = Ok s /\ length (in_use (s_heap s)) = 2%nat.
Proof. exists [OCallNew 0; OCallCreate 0 [65]; OCallFree 0]. eexists. vm_compute. auto. Qed.
Print Assumptions C282_full_refuted.
(** A value set in an array beyond those added is not read there. *)
Theorem C282_get_refuted : exists h a i v h', 0 <= i /\ arr_set h a i (Some v) = Ok h' /\ (exists n vs, cell_at h' a = Some (CArr 1 n vs) /\ nth_error vs (Z.to_nat i) = Some (Some v)) /\
  arr_get h' a i = Ok None.
Proof. exists [Some (CArr 1 0 [None]); Some (CVal (KInt 1))], 0%nat, 0, 1%nat. eexists. vm_compute. split; [discriminate|]. split; [reflexivity|]. split; [|reflexivity]. do 2 eexists. split; reflexivity. Qed.
Print Assumptions C282_get_refuted.

(** C283: a copy holds what the original holds, with a text of its own, and keeps it when something else is
    released. *)
Theorem C283_copy : forall s own v s' x, reached s own -> usable s own (TVal, v) -> step s (OCopy v) = Ok (s', x) ->
  exists k, cell_at (s_heap s) v = Some (CVal k) /\ cell_at (s_heap s') v = Some (CVal k) /\ (x = RPtr None <-> k = KDate) /\
  (forall w, x = RPtr (Some w) -> exists k', cell_at (s_heap s') w = Some (CVal k') /\ cell_at (s_heap s) w = None /\
     holding (s_heap s') k' = holding (s_heap s) k /\ forall p, In (TStr, p) (kids_of k') -> ~ In (TStr, p) (own ++ all_kids (s_heap s))).
Proof. exact copied_r. Qed.
Print Assumptions C283_copy.
Theorem C283_kept : forall s own w rest v k s' x, reached s own -> Permutation own (w :: rest) -> dropped s [w] = Ok (s', x) ->
  In (TVal, v) rest -> cell_at (s_heap s) v = Some (CVal k) -> cell_at (s_heap s') v = Some (CVal k) /\ holding (s_heap s') k = holding (s_heap s) k.
Proof. exact kept_r. Qed.
Print Assumptions C283_kept.
Example C283_ex : exists s s' s2, vrun v0 [OText false (Some [65; 66])] = Ok s /\ reached s [(TVal, 1%nat)] /\ step s (OCopy 1) = Ok (s', RPtr (Some 3%nat)) /\
  dropped s' [(TVal, 1%nat)] = Ok (s2, RNone) /\ cell_at (s_heap s2) 3 = Some (CVal (KStr (Some 2%nat))) /\ holding (s_heap s2) (KStr (Some 2%nat)) = HStr [65; 66].
Proof.
  do 3 eexists. split; [vm_compute; reflexivity|]. split; [|vm_compute; auto].
  exists [OText false (Some [65; 66])]. split; [|reflexivity]. cbn [careful]. next; [apply F_text|]. reflexivity.
Qed.
(** A date is not copied. *)
Theorem C283_refuted : exists s v k, vrun v0 [ODate true] = Ok s /\ cell_at (s_heap s) v = Some (CVal k) /\ step s (OCopy v) = Ok (s, RPtr None).
Proof. do 3 eexists. split; [vm_compute; reflexivity|]. split; [instantiate (2 := 0%nat); reflexivity|reflexivity]. Qed.
Print Assumptions C283_refuted.

(** C284: with all its members added, a struct has the names given exactly if they are its names, in order,
    and the types given exactly if they are its types, in order. *)
Theorem C284_names_partial : forall h s count refs ms es l, cell_at h s = Some (CStruct count refs ms) -> members h ms es -> zlen ms = count ->
  exists b, check_names h s l = Ok b /\ (b = true <-> l = map fst es).
Proof. exact names_checked. Qed.
Print Assumptions C284_names_partial.
Theorem C284_types_partial : forall h s count refs ms es l, cell_at h s = Some (CStruct count refs ms) -> members h ms es -> zlen ms = count ->
  (forall t, In t l -> In t type_names) ->
  exists b, check_types h s l = Ok b /\ (b = true <-> Forall2 (fun t e => In t (names_of (snd e))) l es).
Proof. exact types_checked. Qed.
Print Assumptions C284_types_partial.
Definition pair_heap : heap := [Some (CStruct 2 1 [1%nat; 3%nat]); Some (CMem [97] 2); Some (CVal (KInt 5)); Some (CMem [98] 4); Some (CVal KNone)].
Example C284_ex : members pair_heap [1%nat; 3%nat] [([97], KInt 5); ([98], KNone)] /\ check_names pair_heap 0 [[97]; [98]] = Ok true /\
  check_names pair_heap 0 [[98]; [97]] = Ok false /\ check_types pair_heap 0 [asc "int"; asc "array"] = Ok true /\ check_types pair_heap 0 [asc "string"; asc "array"] = Ok false.
Proof. split; [|vm_compute; auto]. repeat constructor; cbn; eexists; split; reflexivity. Qed.
(** A name of a type that is not known is taken as any type. *)
Theorem C284_refuted : exists h s t, ~ In t type_names /\ cell_at h s = Some (CStruct 1 1 [1%nat]) /\ members h [1%nat] [([97], KStr None)] /\ check_types h s [t] = Ok true.
Proof.
  exists [Some (CStruct 1 1 [1%nat]); Some (CMem [97] 2); Some (CVal (KStr None))], 0%nat, (asc "i4"). repeat match goal with |- _ /\ _ => split end.
  - vm_compute. intros H. repeat destruct H as [H|H]; try discriminate; auto.
  - reflexivity.
  - repeat constructor. eexists. split; reflexivity.
  - reflexivity.
Qed.
Print Assumptions C284_refuted.
(** Checking a struct before its members are added reads a NULL pointer. *)
Theorem C284_part_refuted : exists s t, vrun v0 [OStructNew 1] = Ok s /\ check_names (s_heap s) 0 [t] = UB /\ check_types (s_heap s) 0 [t] = UB.
Proof. eexists. exists (asc "int"). split; vm_compute; auto. Qed.
Print Assumptions C284_part_refuted.

(** C285: the string of a response is given to the program with the response released; the text of a fault is
    given with its code, and kept while the channel has no equal one. *)
Theorem C285_text : forall s own r rest v t p b, reached s own -> Permutation own ((TResp, r) :: rest) ->
  cell_at (s_heap s) r = Some (CResp (Some v) t None) -> cell_at (s_heap s) v = Some (CVal (KStr (Some p))) -> cell_at (s_heap s) p = Some (CStr b) ->
  exists s', step s (OStrSync r) = Ok (s', RSync (Some p) (-1) None) /\ cell_at (s_heap s') p = Some (CStr b) /\ forall q, In q rest -> exists c, look (s_heap s') q = Ok c.
Proof. exact text_taken_r. Qed.
Print Assumptions C285_text.
Theorem C285_fault : forall s own r rest v t code q b get num clear, reached s own -> Permutation own ((TResp, r) :: rest) ->
  cell_at (s_heap s) r = Some (CResp v t (Some (code, q))) -> cell_at (s_heap s) q = Some (CStr b) ->
  exists s' p, sync s r get num clear = Ok (s', RSync None code (Some p)) /\ cell_at (s_heap s') p = Some (CStr b) /\ (forall q, In q rest -> exists c, look (s_heap s') q = Ok c) /\
    (forall e, In e (s_chan s) -> fst e <> b -> In e (s_chan s') /\ exists c, look (s_heap s') (TStr, snd e) = Ok c).
Proof. exact fault_told_r. Qed.
Print Assumptions C285_fault.
Example C285_ex : exists s s', vrun v0 [OText false (Some [65]); OResp 1] = Ok s /\ reached s [(TResp, 2%nat)] /\ step s (OStrSync 2) = Ok (s', RSync (Some 0%nat) (-1) None) /\
  in_use (s_heap s') = [0%nat].
Proof.
  do 2 eexists. split; [vm_compute; reflexivity|]. split; [|vm_compute; auto].
  exists [OText false (Some [65]); OResp 1]. split; [|reflexivity]. cbn [careful]. next; [apply F_text|]. next; [apply (F_resp _ _ _ []); apply Permutation_refl|]. reflexivity.
Qed.
Example C285_fault_ex : exists s s', vrun v0 [OFault 5 [66]] = Ok s /\ step s (OIntSync 1) = Ok (s', RSync None 5 (Some 2%nat)) /\ in_use (s_heap s') = [2%nat] /\ s_chan s' = [([66], 2%nat)].
Proof. do 2 eexists. vm_compute. auto. Qed.
(** Asked for a string, a response with another value gives NULL. *)
Theorem C285_other : forall s r v t k s' x, cell_at (s_heap s) r = Some (CResp (Some v) t None) -> cell_at (s_heap s) v = Some (CVal k) -> (forall q, k <> KStr q) ->
  step s (OStrSync r) = Ok (s', x) -> x = RSync None (-1) None.
Proof. exact other_taken. Qed.
Print Assumptions C285_other.
Example C285_other_ex : exists s s', vrun v0 [OText true (Some [65]); OResp 1] = Ok s /\ step s (OStrSync 2) = Ok (s', RSync None (-1) None).
Proof. do 2 eexists. split; vm_compute; reflexivity. Qed.
(** The text of a response is that of its value, made once and kept by the response. *)
Theorem C285_shown : forall s r v k b, cell_at (s_heap s) r = Some (CResp (Some v) None None) -> cell_at (s_heap s) v = Some (CVal k) -> shows (s_heap s) k b ->
  exists s' p, step s (OShow r) = Ok (s', RPtr (Some p)) /\ cell_at (s_heap s) p = None /\ cell_at (s_heap s') p = Some (CStr b) /\
  cell_at (s_heap s') r = Some (CResp (Some v) (Some p) None) /\ step s' (OShow r) = Ok (s', RPtr (Some p)).
Proof. exact shown. Qed.
Print Assumptions C285_shown.
Example C285_shown_ex : exists s s', vrun v0 [OInt (-12); OResp 0] = Ok s /\ step s (OShow 1) = Ok (s', RPtr (Some 2%nat)) /\ cell_at (s_heap s') 2 = Some (CStr (asc "-12")) /\ shows (s_heap s) (KInt (-12)) (asc "-12").
Proof. do 2 eexists. split; [vm_compute; reflexivity|]. split; [vm_compute; reflexivity|]. split; [vm_compute; reflexivity|]. apply (Sh_int _ (-12)). Qed.
(** The struct and the array given without an unmarshaller were released with the response. *)
Theorem C285_struct_refuted : exists os r s s' p, vrun v0 os = Ok s /\ step s (OStructSync r) = Ok (s', RSync (Some p) (-1) None) /\ look (s_heap s') (TStruct, p) = UB.
Proof. exists [OStructNew 1; OStructV (Some 0%nat); OResp 1], 2%nat. do 3 eexists. vm_compute. auto. Qed.
Print Assumptions C285_struct_refuted.
Theorem C285_array_refuted : exists os r s s' p, vrun v0 os = Ok s /\ step s (OArrSync r) = Ok (s', RSync (Some p) (-1) None) /\ look (s_heap s') (TArr, p) = UB.
Proof. exists [OArrNew 1; OArrV (Some 0%nat); OResp 1], 2%nat. do 3 eexists. vm_compute. auto. Qed.
Print Assumptions C285_array_refuted.
(** Asked for a string, a response with a struct gives NULL and the struct is never released. *)
Theorem C285_leak_refuted : exists os r s s', vrun v0 os = Ok s /\ step s (OStrSync r) = Ok (s', RSync None (-1) None) /\ in_use (s_heap s') = [0%nat].
Proof. exists [OStructNew 1; OStructV (Some 0%nat); OResp 1], 2%nat. do 2 eexists. vm_compute. auto. Qed.
Print Assumptions C285_leak_refuted.
(** The text of a fault, released by the program as documented, is released again when the channel ends. *)
Theorem C285_twice_refuted : exists os r s s' s2 p, vrun v0 os = Ok s /\ step s (OStrSync r) = Ok (s', RSync None 5 (Some p)) /\ step s' (OStrFree p) = Ok (s2, RNone) /\ step s2 OChanClose = UB.
Proof. exists [OFault 5 [66]], 1%nat. do 4 eexists. split; [reflexivity|]. split; [vm_compute; reflexivity|]. split; [vm_compute; reflexivity|reflexivity]. Qed.
Print Assumptions C285_twice_refuted.
(** A second fault with the same text releases the text given for the first. *)
Theorem C285_gone_refuted : exists os s s' s2 p q, vrun v0 os = Ok s /\ step s (OStrSync 1) = Ok (s', RSync None 5 (Some p)) /\ step s' (OStrSync 3) = Ok (s2, RSync None 5 (Some q)) /\
  look (s_heap s2) (TStr, p) = UB.
Proof. exists [OFault 5 [66]; OFault 5 [66]]. do 5 eexists. split; [reflexivity|]. split; [vm_compute; reflexivity|]. split; [vm_compute; reflexivity|reflexivity]. Qed.
Print Assumptions C285_gone_refuted.
