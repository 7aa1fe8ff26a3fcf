(** Theorems about the services of a connection (C37, C38, C47, C51, C52, C70). *)
From Verif Require Import Base ConnModel ConnSpec ConnProofs ConnProofs2.

(** ** C37: connection identifiers *)
Theorem C37_unique : forall n l next i j x, take_ids first_id n = Ok (l, next) ->
  nth_error l i = Some x -> nth_error l j = Some x -> i = j.
Proof. exact ids_unique. Qed.
Print Assumptions C37_unique.
Theorem C37_increase : forall n l next i j x y, take_ids first_id n = Ok (l, next) ->
  nth_error l i = Some x -> nth_error l j = Some y -> (i < j)%nat -> x < y.
Proof. exact ids_increase. Qed.
Print Assumptions C37_increase.
(** Up to 2^31 - 2 connections; the counter overflows with the next. *)
Theorem C37_defined_partial : forall n next, next + Z.of_nat n < two31 -> exists r, take_ids next n = Ok r.
Proof. exact ids_defined. Qed.
Print Assumptions C37_defined_partial.
Theorem C37_defined_refuted : exists n, Z.of_nat n = 2147483647 /\ take_ids first_id n = UB.
Proof. exact ids_too_many. Qed.
Print Assumptions C37_defined_refuted.
Example C37_case : take_ids first_id 4 = Ok ([1; 2; 3; 4], 5) /\ take_ids 2147483646 2 = UB.
Proof. split; reflexivity. Qed.

(** ** C38: the errors of channels are a stack *)
Theorem C38_lifo : forall es, lifo (x_log (xrun (mkX [] []) es)).
Proof. exact err_run. Qed.
Print Assumptions C38_lifo.
Example C38_case : x_log (xrun (mkX [] []) [XPop true; XPush 554 (Some 1) true; XPush 421 (Some 2) true; XPush 1 None true;
    XPush 1 (Some 9) false; XPop false; XPop true; XPush 500 (Some 3) true; XPop true; XPop true; XPop true]) =
  [XNothing; XPushed (554, 1); XPushed (421, 2); XBadCall; XPopped (421, 2); XPushed (500, 3); XPopped (500, 3);
   XPopped (554, 1); XNothing].
Proof. reflexivity. Qed.
(** What [lifo] rejects. *)
Example C38_not_fifo : ~ lifo [XPushed (1, 1); XPushed (2, 2); XPopped (1, 1)].
Proof.
  intros (P & _). destruct (P [XPushed (1, 1); XPushed (2, 2)] (1, 1) [] eq_refl) as (a1 & b & E & M).
  destruct a1 as [|o [|o' [|o'' a1]]]; cbn in E; try discriminate. injection E as <-.
  remember [XPushed (2, 2)] as l eqn:El. induction M as [| |a b A IHA B IHB|e b B IHB]; try discriminate.
  - destruct a as [|x a]; cbn in El; [auto|]. injection El as -> El. destruct a; [|discriminate]. apply IHA. reflexivity.
  - injection El as E2 El. destruct b; discriminate.
Qed.

(** ** C47: the server name is fixed once *)

(** If calls do not overlap: no name, then always the first one, without port. *)
Theorem C47_once_partial : forall es, Forall c_name es -> quiet (mkN None [] []) es -> exists s k m, nrun (mkN None [] []) es = Ok s /\
  n_seen s = repeat None k ++ match first_name es with Some v => repeat (Some (host v)) m | None => [] end.
Proof. exact name_spec. Qed.
Print Assumptions C47_once_partial.
(** There is no mutex: the name can change, *)
Theorem C47_once_refuted : exists es s a b, Forall c_name es /\ nrun (mkN None [] []) es = Ok s /\ n_seen s = [Some a; Some b] /\ a <> b.
Proof. exact name_changes. Qed.
Print Assumptions C47_once_refuted.
(** be seen with the port, *)
Theorem C47_port_refuted : exists es s a, Forall c_name es /\ nrun (mkN None [] []) es = Ok s /\ n_seen s = [Some a] /\ In 58 a.
Proof. exact name_port. Qed.
Print Assumptions C47_port_refuted.
(** and memory past the end of the name be read. *)
Theorem C47_defined_refuted : exists es, Forall c_name es /\ nrun (mkN None [] []) es = UB.
Proof. exact name_ub. Qed.
Print Assumptions C47_defined_refuted.
(** "a:1" is set, then "b" is ignored. *)
Definition naming : list nev := [NGet; NSet 1 None; NSet 1 (Some [97; 58; 49]); NGo 1; NGo 1; NGo 1; NGo 1; NGo 1; NGet; NSet 2 (Some [98]); NGo 2; NGet].
Ltac step_quiet := split; [first [exact Logic.I|reflexivity]|let s := fresh in let H := fresh in intros s H; vm_compute in H; apply ok_inj in H; subst s].
Example C47_case : Forall c_name naming /\ quiet (mkN None [] []) naming /\ exists s, nrun (mkN None [] []) naming = Ok s /\
  n_seen s = [None; Some [97]; Some [97]].
Proof.
  split; [repeat constructor; cbn; lia|]. split; [do 12 step_quiet; exact Logic.I|].
  eexists. split; [vm_compute; reflexivity|reflexivity].
Qed.

(** ** C51: a profile is filtered if a mask filters it *)

(** [final] are the masks installed when the call ends; they are called in
    order, until one of them filters the profile. *)
Theorem C51_filtered : forall verdict installed fuel masks res msg called final,
  is_filtered verdict installed fuel masks = Some (res, msg, called, final) ->
  res = existsb (fun m => fst (verdict m)) final /\ (exists r, final = called ++ r) /\ (exists g, final = masks ++ g) /\
  (res = false -> called = final) /\ (forall m a b, called = a ++ m :: b -> b <> [] -> fst (verdict m) = false).
Proof. exact mask_spec. Qed.
Print Assumptions C51_filtered.
(** The message is the one of the mask that filters, if only such masks set one. *)
Theorem C51_message_partial : forall verdict installed fuel masks res msg called final,
  (forall m, fst (verdict m) = false -> snd (verdict m) = None) -> is_filtered verdict installed fuel masks = Some (res, msg, called, final) ->
  (res = false /\ msg = None) \/ (exists a m, res = true /\ called = a ++ [m] /\ fst (verdict m) = true /\ msg = snd (verdict m)).
Proof. exact mask_message. Qed.
Print Assumptions C51_message_partial.
Theorem C51_message_refuted : exists verdict fuel masks m1 m2 final x,
  is_filtered verdict (fun _ => []) fuel masks = Some (true, Some x, [m1; m2], final) /\
  fst (verdict m1) = false /\ snd (verdict m1) = Some x /\ fst (verdict m2) = true /\ snd (verdict m2) = None.
Proof. exact mask_wrong_msg. Qed.
Print Assumptions C51_message_refuted.
(** It ends if no mask is installed meanwhile, *)
Theorem C51_ends_partial : forall verdict masks, exists fuel r, is_filtered verdict (fun _ => []) fuel masks = Some r.
Proof. exact mask_terminates. Qed.
Print Assumptions C51_ends_partial.
(** but not if every call installs another. *)
Theorem C51_ends_refuted : exists verdict installed masks, forall fuel, is_filtered verdict installed fuel masks = None.
Proof. exact mask_forever. Qed.
Print Assumptions C51_ends_refuted.
Example C51_case : is_filtered (fun m => if m =? 3 then (true, Some 30) else (false, None)) (fun i => if (i =? 0)%nat then [3; 4] else []) 9 [1; 2] =
  Some (true, Some 30, [1; 2; 3], [1; 2; 3; 4]) /\
  is_filtered (fun m => if m =? 3 then (true, Some 30) else (false, None)) (fun _ => []) 9 [1; 2; 4] = Some (false, None, [1; 2; 4], [1; 2; 4]).
Proof. split; reflexivity. Qed.

(** ** C52: connection actions *)

(** The actions of the stage are called in the order of the list, each with the
    connection left by the ones before, until one fails (-1) or ends the
    process (0); the result is false only if one has failed.  The list may
    grow, at the end, during the calls. *)
Theorem C52_in_order : forall stage answer actions fuel conn res conn' calls,
  (forall k, exists g, actions (Datatypes.S k) = actions k ++ g) ->
  actions_notify stage answer actions fuel true conn = Some (res, conn', calls) ->
  let wanted := map a_id (filter (fun a => a_stage a =? stage) (actions (length calls))) in
  chained (Some conn) calls /\ conn' = conn_after (Some conn) calls /\ (exists r, wanted = map ac_id calls ++ r) /\
  (res = false <-> exists a c, calls = a ++ [c] /\ ac_code c = -1) /\
  (map ac_id calls = wanted \/ exists a c, calls = a ++ [c] /\ stops c).
Proof. exact actions_spec. Qed.
Print Assumptions C52_in_order.
(** A connection that does not work gets none. *)
Theorem C52_closed : forall stage answer actions fuel conn, actions_notify stage answer actions fuel false conn = Some (false, Some conn, []).
Proof. exact actions_closed. Qed.
Print Assumptions C52_closed.
(** Action 11 replaces the connection, 13 ends the process. *)
Definition answers (k : nat) (id : Z) (conn : option Z) : Z * option Z :=
  if id =? 11 then (2, Some 8) else if id =? 13 then (0, None) else if id =? 15 then (-1, None) else (1, None).
Example C52_case : actions_notify 1 answers (fun _ => [mkA 1 10; mkA 2 20; mkA 1 11; mkA 1 12; mkA 1 13; mkA 1 14]) 20 true 7 =
    Some (true, Some 8, [mkAC 10 (Some 7) 1 None; mkAC 11 (Some 7) 2 (Some 8); mkAC 12 (Some 8) 1 None; mkAC 13 (Some 8) 0 None]) /\
  actions_notify 1 answers (fun _ => [mkA 1 15; mkA 1 10]) 20 true 7 = Some (false, Some 7, [mkAC 15 (Some 7) (-1) None]) /\
  actions_notify 2 answers (fun _ => [mkA 1 15; mkA 2 10]) 20 true 7 = Some (true, Some 7, [mkAC 10 (Some 7) 1 None]).
Proof. repeat split. Qed.

(** ** C70: changing the handler that chooses the size of frames *)

(** The handler of a channel or of a connection replaced is returned, *)
Theorem C70_previous_partial : forall s f d, snd (set_size_handler s f d) = h_fun s.
Proof. exact set_previous. Qed.
Print Assumptions C70_previous_partial.
(** but not the one of the context. *)
Theorem C70_previous_refuted : exists s f d, snd (set_default_size_handler s f d) <> h_fun s.
Proof. exact default_wrong. Qed.
Print Assumptions C70_previous_refuted.
(** A handler is called with the data given with it, if no frame is sent in the
    middle of a change, *)
Theorem C70_data_partial : forall es f d, paired es -> In (f, d) (hs_calls (hrun (mkHS (mkH 0 0) []) es)) -> In (f, d) (given es).
Proof. exact handler_given. Qed.
Print Assumptions C70_data_partial.
(** otherwise the old handler can get the data of the new one. *)
Theorem C70_data_refuted : exists es, hs_calls (hrun (mkHS (mkH 0 0) []) es) = [(1, 20)] /\ es = [HData 10; HFun 1; HData 20; HCall; HFun 2].
Proof. exact handler_mixed. Qed.
Print Assumptions C70_data_refuted.
Example C70_case : paired [HCall; HData 10; HFun 1; HCall; HData 20; HFun 2; HCall] /\
  hs_calls (hrun (mkHS (mkH 0 0) []) [HCall; HData 10; HFun 1; HCall; HData 20; HFun 2; HCall]) = [(1, 10); (2, 20)].
Proof. split; [exact Logic.I|reflexivity]. Qed.
