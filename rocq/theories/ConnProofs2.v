From Verif Require Import Base ConnModel ConnSpec.
Ltac conj := repeat match goal with |- _ /\ _ => split end.

Lemma firstn_mid {A : Type} (l1 : list A) m l2 : firstn (Datatypes.S (length l1)) (l1 ++ m :: l2) = l1 ++ [m].
Proof. induction l1 as [|x l1 IH]; [reflexivity|]. cbn [length app]. rewrite firstn_cons, IH. reflexivity. Qed.

(** * Masks *)
Section M.
Variable verdict : Z -> bool * option Z.
Variable installed : nat -> list Z.
Definition filters (m : Z) : bool := fst (verdict m).
Lemma existsb_app_first (l : list Z) m r : existsb filters (l ++ m :: r) = existsb filters l || (filters m || existsb filters r).
Proof. rewrite existsb_app. reflexivity. Qed.
Lemma mask_loop fuel : forall masks i msg called res msg' called' masks',
  filter_loop verdict installed fuel masks i msg called = Some (res, msg', called', masks') ->
  called = firstn i masks -> (i <= length masks)%nat -> existsb filters called = false ->
  res = existsb filters masks' /\ (exists r, masks' = called' ++ r) /\ (exists g, masks' = masks ++ g) /\
  (res = false -> called' = masks') /\
  (forall m a b, called' = a ++ m :: b -> b <> [] -> filters m = false).
Proof.
  induction fuel as [|fuel IH]; cbn [filter_loop]; intros masks i msg called res msg' called' masks' H C L E; [discriminate|].
  assert (NF : forall m a b, called = a ++ m :: b -> filters m = false).
  { intros m a b X. rewrite X, existsb_app in E. cbn in E. destruct (filters m); [|reflexivity]. rewrite orb_true_r in E. discriminate. }
  destruct (nth_error masks i) as [m|] eqn:N.
  - destruct (nth_error_split _ _ N) as (l1 & l2 & EM & LL).
    assert (C1 : called = l1) by (rewrite C, EM, <- LL, firstn_app, Nat.sub_diag, firstn_all, app_nil_r; reflexivity).
    destruct (fst (verdict m)) eqn:V.
    + injection H as <- <- <- <-. conj.
      * rewrite EM, <- app_assoc. cbn. rewrite existsb_app_first. unfold filters at 2. rewrite V. rewrite orb_true_r. reflexivity.
      * exists (l2 ++ installed i). rewrite EM, C1, <- !app_assoc. reflexivity.
      * eauto.
      * discriminate.
      * intros m0 a b X B. destruct b as [|y b _] using rev_ind; [congruence|].
        rewrite app_comm_cons, app_assoc in X. apply app_inj_tail in X. destruct X as (X & _). eapply NF. exact X.
    + apply IH in H.
      * destruct H as (A & (r & B) & (g & G) & D & F). conj; eauto. exists (installed i ++ g). rewrite G, <- app_assoc. reflexivity.
      * rewrite C1, EM, <- app_assoc, <- LL. cbn [app]. rewrite firstn_mid. reflexivity.
      * rewrite EM, !app_length. cbn. lia.
      * rewrite existsb_app, E. cbn. unfold filters. rewrite V. reflexivity.
  - injection H as <- <- <- <-. apply nth_error_None in N.
    assert (C1 : called = masks) by (rewrite C; apply firstn_all2; lia). conj.
    + rewrite <- C1. auto.
    + exists []. rewrite app_nil_r. auto.
    + exists []. rewrite app_nil_r. auto.
    + auto.
    + intros m a b X _. eapply NF. exact X.
Qed.
Lemma mask_spec fuel masks res msg called final : is_filtered verdict installed fuel masks = Some (res, msg, called, final) ->
  res = existsb (fun m => fst (verdict m)) final /\ (exists r, final = called ++ r) /\ (exists g, final = masks ++ g) /\
  (res = false -> called = final) /\ (forall m a b, called = a ++ m :: b -> b <> [] -> fst (verdict m) = false).
Proof. intros H. apply mask_loop in H; auto. apply Nat.le_0_l. Qed.
(** The message. *)
Lemma mask_msg_loop fuel : (forall m, fst (verdict m) = false -> snd (verdict m) = None) ->
  forall masks i called res msg' called' masks',
  filter_loop verdict installed fuel masks i None called = Some (res, msg', called', masks') ->
  (res = false /\ msg' = None) \/ (exists a m, res = true /\ called' = a ++ [m] /\ fst (verdict m) = true /\ msg' = snd (verdict m)).
Proof.
  intros Q. induction fuel as [|fuel IH]; cbn [filter_loop]; intros masks i called res msg' called' masks' H; [discriminate|].
  destruct (nth_error masks i) as [m|] eqn:N.
  - destruct (fst (verdict m)) eqn:V.
    + injection H as <- <- <- <-. right. exists called, m. conj; auto. destruct (snd (verdict m)); reflexivity.
    + rewrite (Q m V) in H. eapply IH. exact H.
  - injection H as <- <- <- <-. left. auto.
Qed.
Lemma mask_ends masks : (forall i, installed i = []) -> forall msg i called, (i <= length masks)%nat ->
  exists r, filter_loop verdict installed (Datatypes.S (length masks - i)) masks i msg called = Some r.
Proof.
  intros G. assert (K : forall k msg i called, (length masks - i <= k)%nat ->
    exists r, filter_loop verdict installed (Datatypes.S k) masks i msg called = Some r).
  { induction k as [|k IH]; intros msg i called L; cbn [filter_loop].
    - rewrite (proj2 (nth_error_None masks i)) by lia. eauto.
    - destruct (nth_error masks i) as [m|] eqn:N; [|eauto]. destruct (fst (verdict m)); [eauto|]. rewrite G, app_nil_r. apply IH. lia. }
  intros msg i called _. apply K. lia.
Qed.
End M.
Lemma mask_message verdict installed fuel masks res msg called final :
  (forall m, fst (verdict m) = false -> snd (verdict m) = None) -> is_filtered verdict installed fuel masks = Some (res, msg, called, final) ->
  (res = false /\ msg = None) \/ (exists a m, res = true /\ called = a ++ [m] /\ fst (verdict m) = true /\ msg = snd (verdict m)).
Proof. intros Q H. unfold is_filtered in H. eapply (mask_msg_loop verdict installed fuel Q). exact H. Qed.
Lemma mask_terminates verdict masks : exists fuel r, is_filtered verdict (fun _ => []) fuel masks = Some r.
Proof.
  destruct (mask_ends verdict (fun _ => []) masks (fun _ => eq_refl) None 0%nat []) as (r & H); [lia|]. eexists. exists r. exact H.
Qed.
Lemma mask_wrong_msg : exists verdict fuel masks m1 m2 final x, is_filtered verdict (fun _ => []) fuel masks = Some (true, Some x, [m1; m2], final) /\
  fst (verdict m1) = false /\ snd (verdict m1) = Some x /\ fst (verdict m2) = true /\ snd (verdict m2) = None.
Proof.
  exists (fun m => if m =? 1 then (false, Some 7) else (true, None)), 5%nat, [1; 2], 1, 2, [1; 2], 7. repeat split.
Qed.
Lemma mask_forever : exists verdict installed masks, forall fuel, is_filtered verdict installed fuel masks = None.
Proof.
  exists (fun _ => (false, None)), (fun _ => [1]), [1]. intros fuel. unfold is_filtered.
  assert (K : forall fuel masks i called, (i < length masks)%nat -> filter_loop (fun _ => (false, None)) (fun _ => [1]) fuel masks i None called = None).
  { induction fuel0 as [|f IH]; intros masks i called L; [reflexivity|]. cbn [filter_loop].
    destruct (nth_error masks i) eqn:N; [|apply nth_error_None in N; lia]. cbn [fst snd]. apply IH. rewrite app_length. cbn. lia. }
  apply K. cbn. lia.
Qed.

(** * Actions *)
Section A.
Variable stage : Z.
Variable answer : nat -> Z -> option Z -> Z * option Z.
Variable actions : nat -> list action.
(** The list only grows, at the end. *)
Hypothesis grows : forall k, exists g, actions (Datatypes.S k) = actions k ++ g.
Lemma grows_from k j : exists g, actions (k + j)%nat = actions k ++ g.
Proof.
  induction j as [|j (g & IH)]; [exists []; rewrite Nat.add_0_r, app_nil_r; reflexivity|].
  destruct (grows (k + j)) as (g' & E). exists (g ++ g'). rewrite Nat.add_succ_r, E, IH, <- app_assoc. reflexivity.
Qed.
Definition sel (l : list action) : list Z := map a_id (filter (fun a => a_stage a =? stage) l).
Lemma sel_app a b : sel (a ++ b) = sel a ++ sel b.
Proof. unfold sel. rewrite filter_app, map_app. reflexivity. Qed.
Lemma chained_snoc calls : forall conn c, chained conn calls -> Forall (fun c => ac_code c <> -1 /\ ac_code c <> 0) calls ->
  ac_conn c = conn_after conn calls -> chained conn (calls ++ [c]).
Proof.
  induction calls as [|d calls IH]; cbn [app chained conn_after]; intros conn c H F E.
  - conj; auto.
  - inversion_clear F as [|x y F1 F2]. destruct H as (A & _ & H). conj; auto; tauto.
Qed.
Lemma conn_after_snoc calls : forall conn c, conn_after conn (calls ++ [c]) = if ac_code c =? 2 then ac_new c else conn_after conn calls.
Proof. induction calls as [|d calls IH]; cbn; intros; auto. Qed.
Definition going (l : list acall) : Prop := Forall (fun c => ac_code c <> -1 /\ ac_code c <> 0) l.
Lemma notify_spec c0 fuel : forall i k conn calls res conn' calls',
  notify_loop stage answer actions fuel i k conn calls = Some (res, conn', calls') ->
  (i <= length (actions k))%nat -> k = length calls ->
  map ac_id calls = sel (firstn i (actions k)) -> chained c0 calls -> going calls -> conn = conn_after c0 calls ->
  let final := actions (length calls') in
  chained c0 calls' /\ conn' = conn_after c0 calls' /\ (exists r, sel final = map ac_id calls' ++ r) /\
  ((res = true /\ going calls' /\ map ac_id calls' = sel (actions (length calls'))) \/
   (exists a c, calls' = a ++ [c] /\ going a /\ (ac_code c = 0 /\ res = true \/ ac_code c = -1 /\ res = false))).
Proof.
  induction fuel as [|fuel IH]; cbn [notify_loop]; intros i k conn calls res conn' calls' H L K M CH G CN; [discriminate|].
  destruct (nth_error (actions k) i) as [a|] eqn:N.
  - destruct (nth_error_split _ _ N) as (l1 & l2 & EM & LL).
    assert (F1 : firstn i (actions k) = l1) by (rewrite EM, <- LL, firstn_app, Nat.sub_diag, firstn_all, app_nil_r; reflexivity).
    assert (F2 : firstn (Datatypes.S i) (actions k) = l1 ++ [a]).
    { rewrite EM, <- LL. apply firstn_mid. }
    assert (LI : (Datatypes.S i <= length (actions k))%nat) by (rewrite EM, app_length; cbn; lia).
    destruct (a_stage a =? stage) eqn:ST.
    + destruct (answer k (a_id a) conn) as (code, new).
      set (c := mkAC (a_id a) conn code new) in *.
      assert (CH' : chained c0 (calls ++ [c])) by (apply chained_snoc; auto).
      assert (M' : map ac_id (calls ++ [c]) = sel (l1 ++ [a])).
      { rewrite map_app, M, F1, sel_app. unfold sel at 3. cbn. rewrite ST. reflexivity. }
      destruct (grows_from k 1) as (g & EG). replace (k + 1)%nat with (Datatypes.S k) in EG by lia.
      assert (LEN : length (calls ++ [c]) = Datatypes.S k) by (rewrite app_length; cbn; lia).
      assert (PRE : exists r, sel (actions (length (calls ++ [c]))) = map ac_id (calls ++ [c]) ++ r).
      { rewrite LEN, EG, EM, M'. exists (sel (l2 ++ g)). change (l1 ++ a :: l2) with (l1 ++ [a] ++ l2).
        rewrite !sel_app, <- !app_assoc. reflexivity. }
      destruct (code =? -1) eqn:C1.
      { injection H as <- <- <-. cbv zeta. conj; auto.
        - rewrite conn_after_snoc. replace (ac_code c =? 2) with false by (cbn; lia). exact CN.
        - right. exists calls, c. conj; auto. right. split; [cbn; lia|reflexivity]. }
      destruct (code =? 0) eqn:C2.
      { injection H as <- <- <-. cbv zeta. conj; auto.
        - rewrite conn_after_snoc. replace (ac_code c =? 2) with false by (cbn; lia). exact CN.
        - right. exists calls, c. conj; auto. left. split; [cbn; lia|reflexivity]. }
      assert (G' : going (calls ++ [c])) by (apply Forall_app; split; [exact G|repeat constructor; cbn; lia]).
      assert (F3 : firstn (Datatypes.S i) (actions (Datatypes.S k)) = l1 ++ [a]).
      { rewrite EG, firstn_app. replace (Datatypes.S i - length (actions k))%nat with 0%nat by lia. cbn [firstn]. rewrite app_nil_r. exact F2. }
      assert (LI' : (Datatypes.S i <= length (actions (Datatypes.S k)))%nat) by (rewrite EG, app_length; lia).
      assert (CN' : (if code =? 2 then new else conn) = conn_after c0 (calls ++ [c])) by (rewrite conn_after_snoc, CN; reflexivity).
      destruct (code =? 2); apply IH in H; auto; rewrite F3; exact M'.
    + apply IH in H; auto. rewrite F2, sel_app, <- F1, <- M. unfold sel. cbn. rewrite ST. cbn. rewrite app_nil_r. reflexivity.
  - injection H as <- <- <-. apply nth_error_None in N. assert (FA : firstn i (actions k) = actions k) by (apply firstn_all2; lia).
    rewrite FA in M. subst k. cbv zeta. conj; auto.
    + exists []. rewrite M, app_nil_r. reflexivity.
Qed.
End A.
Lemma actions_spec stage answer actions fuel conn res conn' calls :
  (forall k, exists g, actions (Datatypes.S k) = actions k ++ g) ->
  actions_notify stage answer actions fuel true conn = Some (res, conn', calls) ->
  let wanted := map a_id (filter (fun a => a_stage a =? stage) (actions (length calls))) in
  chained (Some conn) calls /\ conn' = conn_after (Some conn) calls /\ (exists r, wanted = map ac_id calls ++ r) /\
  (res = false <-> exists a c, calls = a ++ [c] /\ ac_code c = -1) /\
  (map ac_id calls = wanted \/ exists a c, calls = a ++ [c] /\ stops c).
Proof.
  intros G H. unfold actions_notify in H.
  apply (notify_spec stage answer actions G (Some conn)) in H; auto; try (cbn; lia); [|constructor].
  cbv zeta in H. destruct H as (A & B & C & D). cbv zeta. conj; auto.
  - split.
    { intros ->. destruct D as [(X & _)|(a & c & E & _ & [(_ & X)|(X & _)])]; [discriminate|discriminate|]. eauto. }
    intros (a & c & E & X). destruct D as [(-> & GO & _)|(a' & c' & E' & _ & [(Y & _)|(_ & Y)])]; [| |exact Y].
    + exfalso. unfold going in GO. rewrite E in GO. apply Forall_app in GO. destruct GO as (_ & GO). inversion_clear GO as [|x y K _]. tauto.
    + exfalso. rewrite E' in E. apply app_inj_tail in E. destruct E as (_ & ->). lia.
  - destruct D as [(_ & _ & X)|(a & c & E & _ & Y)]; [left; exact X|right]. exists a, c. split; [exact E|]. unfold stops. tauto.
Qed.
Lemma actions_closed stage answer actions fuel conn : actions_notify stage answer actions fuel false conn = Some (false, Some conn, []).
Proof. reflexivity. Qed.

(** * Size handlers *)
Lemma set_previous s f d : snd (set_size_handler s f d) = h_fun s. Proof. reflexivity. Qed.
Lemma default_wrong : exists s f d, snd (set_default_size_handler s f d) <> h_fun s.
Proof. exists (mkH 1 0), 2, 0. discriminate. Qed.
Lemma paired_ind (P : list hev -> Prop) : P [] -> (forall d f r, paired r -> P r -> P (HData d :: HFun f :: r)) ->
  (forall r, paired r -> P r -> P (HCall :: r)) -> forall es, paired es -> P es.
Proof.
  intros A B C es. enough (H : paired es -> P es) by exact H.
  assert (K : forall n es, (length es <= n)%nat -> paired es -> P es).
  { induction n as [|n IH]; intros [|e l] L Q; auto; cbn in L; [lia|].
    destruct e as [d|f|]; cbn in Q; try contradiction.
    - destruct l as [|[d'|f|] r]; try contradiction. apply B; auto. apply IH; auto. cbn in L. lia.
    - apply C; auto. apply IH; auto. lia. }
  apply (K (length es)). lia.
Qed.
Lemma handler_data es : paired es -> forall s f d,
  In (f, d) (hs_calls (hrun s es)) -> In (f, d) (hs_calls s) \/ In (f, d) ((h_fun (hs_slot s), h_data (hs_slot s)) :: given es).
Proof.
  intros Q. induction Q using paired_ind; intros s f' d' H.
  - left. exact H.
  - cbn [hrun fold_left hstep] in H. apply IHQ in H. cbn [hs_slot hs_calls h_fun h_data] in H. destruct H as [H|H]; [left; exact H|].
    right. cbn [given]. right. exact H.
  - change (hrun s (HCall :: r)) with (hrun (hstep s HCall) r) in H. apply IHQ in H. cbn [hstep given] in *.
    destruct (h_fun (hs_slot s) =? 0); [exact H|]. cbn [hs_slot hs_calls] in H.
    destruct H as [H|H]; [|right; exact H]. apply in_app_or in H. destruct H as [H|[H|[]]]; [left; exact H|right; left; exact H].
Qed.
Lemma calls_nonzero es : forall s, (forall f d, In (f, d) (hs_calls s) -> f <> 0) -> forall f d, In (f, d) (hs_calls (hrun s es)) -> f <> 0.
Proof.
  induction es as [|e es IH]; intros s H; [exact H|]. change (hrun s (e :: es)) with (hrun (hstep s e) es). apply IH.
  intros f d. destruct e as [x|x|]; cbn [hstep hs_calls]; [apply H|apply H|].
  destruct (h_fun (hs_slot s) =? 0) eqn:Z0; [apply H|]. cbn [hs_calls]. intros X. apply in_app_or in X.
  destruct X as [X|[X|[]]]; [eapply H; exact X|]. injection X as <- _. lia.
Qed.
Lemma handler_given es f d : paired es -> In (f, d) (hs_calls (hrun (mkHS (mkH 0 0) []) es)) -> In (f, d) (given es).
Proof.
  intros Q H. pose proof H as N. apply calls_nonzero in N; [|intros f0 d0 []]. apply handler_data in H; auto.
  destruct H as [[]|[H|H]]; [|exact H]. injection H as <- _. congruence.
Qed.
Lemma handler_mixed : exists es, hs_calls (hrun (mkHS (mkH 0 0) []) es) = [(1, 20)] /\
  es = [HData 10; HFun 1; HData 20; HCall; HFun 2].
Proof. eexists. split; [|reflexivity]. reflexivity. Qed.
