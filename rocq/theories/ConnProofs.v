From Verif Require Import Base ConnModel ConnSpec.
Ltac conj := repeat match goal with |- _ /\ _ => split end.
Lemma ok_inj {A : Type} (a b : A) : Ok a = Ok b -> a = b. Proof. congruence. Qed.

(** * Identifiers *)
Lemma ids_spec n : forall k l m, take_ids k n = Ok (l, m) -> l = map (fun i => k + Z.of_nat i) (seq 0 n) /\ m = k + Z.of_nat n.
Proof.
  induction n as [|n IH]; intros k l m H; cbn [take_ids] in H.
  - injection H as <- <-. split; [reflexivity|lia].
  - destruct (k + 1 <? two31); [|discriminate]. destruct (take_ids (k + 1) n) as [[l' m']|] eqn:E; [|discriminate].
    cbn [obind fst snd] in H. injection H as <- <-. apply IH in E. destruct E as (-> & ->).
    split; [|lia]. cbn [seq map]. f_equal; [lia|]. rewrite <- seq_shift, map_map. apply map_ext. intros i. lia.
Qed.
Lemma ids_defined n : forall k, k + Z.of_nat n < two31 -> exists r, take_ids k n = Ok r.
Proof.
  induction n as [|n IH]; intros k H; cbn [take_ids]; [eauto|].
  replace (k + 1 <? two31) with true by lia. destruct (IH (k + 1)) as (r & E); [lia|]. rewrite E. cbn [obind]. eauto.
Qed.
Lemma ids_overflow n : forall k, two31 <= k + Z.of_nat n -> k < two31 -> take_ids k n = UB.
Proof.
  induction n as [|n IH]; intros k H L; cbn [take_ids]; [lia|].
  destruct (k + 1 <? two31) eqn:E; [|reflexivity]. rewrite IH by lia. reflexivity.
Qed.
Lemma ids_too_many : exists n, Z.of_nat n = 2147483647 /\ take_ids first_id n = UB.
Proof.
  assert (X : exists n : nat, Z.of_nat n = 2147483647) by (exists (Z.to_nat 2147483647); apply Z2Nat.id; lia).
  destruct X as (n & E). exists n. split; [exact E|]. apply ids_overflow; unfold first_id, two31; lia.
Qed.
Lemma ids_unique n l m i j x : take_ids first_id n = Ok (l, m) -> nth_error l i = Some x -> nth_error l j = Some x -> i = j.
Proof.
  intros H. apply ids_spec in H. destruct H as (-> & _). rewrite !nth_error_map. intros A B.
  destruct (nth_error (seq 0 n) i) as [u|] eqn:U; [|discriminate]. destruct (nth_error (seq 0 n) j) as [v|] eqn:V; [|discriminate].
  cbn [option_map] in A, B. assert (u = v).
  { assert (first_id + Z.of_nat u = first_id + Z.of_nat v) by congruence. lia. }
  subst v. apply (proj1 (NoDup_nth_error (seq 0 n)) (seq_NoDup n 0)); [|congruence].
  apply nth_error_Some. congruence.
Qed.
Lemma ids_increase n l m i j x y : take_ids first_id n = Ok (l, m) -> nth_error l i = Some x -> nth_error l j = Some y -> (i < j)%nat -> x < y.
Proof.
  intros H. apply ids_spec in H. destruct H as (-> & _). intros A B L.
  assert (J : (j < n)%nat). { assert (nth_error (map (fun i => first_id + Z.of_nat i) (seq 0 n)) j <> None) as K by congruence. apply nth_error_Some in K. rewrite map_length, seq_length in K. exact K. }
  rewrite nth_error_map in A, B. rewrite (nth_error_nth' _ 0%nat) in A by (rewrite seq_length; lia).
  rewrite (nth_error_nth' _ 0%nat) in B by (rewrite seq_length; lia). rewrite seq_nth in A by lia. rewrite seq_nth in B by lia.
  cbn [option_map] in A, B. assert (X : x = first_id + Z.of_nat (0 + i)) by congruence. assert (Y : y = first_id + Z.of_nat (0 + j)) by congruence. lia.
Qed.

(** * Errors *)
Fixpoint shape (st : list (Z * Z)) (log : list xobs) : Prop :=
  match st with
  | [] => settled log
  | e :: r => exists l b, log = l ++ XPushed e :: b /\ matched b /\ shape r l
  end.
Lemma shape_more st log b : shape st log -> matched b -> shape st (log ++ b).
Proof.
  destruct st as [|e st]; cbn; intros H M.
  - apply S_more; auto.
  - destruct H as (l & c & -> & M' & Sh). exists l, (c ++ b). conj; auto.
    + rewrite <- app_assoc. reflexivity.
    + apply M_app; auto.
Qed.
Definition lifo_at (a : list xobs) (o : xobs) : Prop :=
  match o with
  | XPopped e => exists a1 b, a = a1 ++ XPushed e :: b /\ matched b
  | XNothing => settled a
  | _ => True
  end.
Lemma lifo_snoc l o : lifo l -> lifo_at l o -> lifo (l ++ [o]).
Proof.
  intros (P & N) A. split.
  - intros a e c E. destruct c as [|y c _] using rev_ind.
    + apply app_inj_tail in E. destruct E as (-> & ->). exact A.
    + rewrite app_comm_cons, app_assoc in E. apply app_inj_tail in E. destruct E as (E & _). eapply P. exact E.
  - intros a c E. destruct c as [|y c _] using rev_ind.
    + apply app_inj_tail in E. destruct E as (-> & ->). exact A.
    + rewrite app_comm_cons, app_assoc in E. apply app_inj_tail in E. destruct E as (E & _). eapply N. exact E.
Qed.
Lemma err_step s e : shape (x_stack s) (x_log s) /\ lifo (x_log s) ->
  shape (x_stack (xstep s e)) (x_log (xstep s e)) /\ lifo (x_log (xstep s e)).
Proof.
  intros (Sh & L). destruct e as [code [m|] [|]|[|]]; cbn [xstep]; auto.
  - cbn [x_stack x_log]. split.
    + cbn. exists (x_log s), []. conj; auto. constructor.
    + apply lifo_snoc; cbn; auto.
  - destruct (x_stack s) as [|e st] eqn:E; cbn [x_stack x_log].
    + split; [apply S_none; exact Sh|]. apply lifo_snoc; auto.
    + cbn in Sh. destruct Sh as (l & b & EL & M & Sh). split.
      * rewrite EL. rewrite <- app_assoc. apply shape_more; auto. cbn. apply M_pair. exact M.
      * apply lifo_snoc; auto. cbn. eauto.
  - cbn [x_stack x_log]. split; [apply shape_more; auto; constructor|]. apply lifo_snoc; cbn; auto.
Qed.
Lemma err_run es : lifo (x_log (xrun (mkX [] []) es)).
Proof.
  assert (K : forall es s, shape (x_stack s) (x_log s) /\ lifo (x_log s) ->
     shape (x_stack (xrun s es)) (x_log (xrun s es)) /\ lifo (x_log (xrun s es))).
  { induction es0 as [|e es0 IH]; intros s H; [exact H|]. apply IH. apply err_step. exact H. }
  apply K. split; [constructor|]. split; intros a; intros; destruct a; discriminate.
Qed.
Definition xpops (l : list xobs) : Z := zlen (filter (fun o => match o with XPopped _ => true | _ => false end) l).
Definition xpushes (l : list xobs) : Z := zlen (filter (fun o => match o with XPushed _ => true | _ => false end) l).

(** * Server name *)
Definition blank (x : Z) : Z := if x =? COLON then 0 else x.
Definition cut_to (i : nat) (v : bytes) : bytes := map blank (firstn i v) ++ skipn i v.
Lemma cut_all v : ~ In 0 v -> c_string (map blank v) = host v.
Proof.
  induction v as [|x v IH]; intros N; [reflexivity|]. cbn [map c_string host]. unfold blank, COLON.
  assert (x <> 0) by (intros ->; apply N; left; reflexivity). destruct (x =? 58); [reflexivity|].
  replace (x =? 0) with false by lia. f_equal. apply IH. intros Y. apply N. right. exact Y.
Qed.
Lemma cut_len i v : length (cut_to i v) = length v.
Proof. unfold cut_to. rewrite app_length, map_length, <- app_length, firstn_skipn. reflexivity. Qed.
Lemma cut_nth i v : nth_error (cut_to i v) i = nth_error v i.
Proof.
  unfold cut_to. destruct (le_lt_dec (length v) i) as [G|G].
  - rewrite firstn_all2, skipn_all2, app_nil_r by lia. rewrite !(proj2 (nth_error_None _ _)); rewrite ?map_length; auto.
  - rewrite nth_error_app2 by (rewrite map_length, firstn_length; lia). rewrite map_length, firstn_length, Nat.min_l, Nat.sub_diag by lia.
    rewrite <- (firstn_skipn i v) at 2. rewrite nth_error_app2 by (rewrite firstn_length; lia).
    rewrite firstn_length, Nat.min_l, Nat.sub_diag by lia. reflexivity.
Qed.
Lemma cut_cons i y v : cut_to (Datatypes.S i) (y :: v) = blank y :: cut_to i v. Proof. reflexivity. Qed.
Lemma put_cut i v x : nth_error v i = Some x -> (if x =? COLON then put (cut_to i v) i 0 else cut_to i v) = cut_to (Datatypes.S i) v.
Proof.
  revert v. induction i as [|i IH]; intros [|y v] H; try discriminate; cbn in H.
  - injection H as ->. unfold cut_to. cbn. unfold blank. destruct (x =? COLON); reflexivity.
  - rewrite !cut_cons, <- (IH v H). destruct (x =? COLON); reflexivity.
Qed.
(** State when calls do not overlap: [w] is the first name. *)
Inductive nshape (w : option bytes) : nst -> Prop :=
| NS_empty k : w = None -> nshape w (mkN None [] (repeat None k))
| NS_check k t v : w = Some v -> nshape w (mkN None [(t, NChecked v)] (repeat None k))
| NS_cut k t v i : w = Some v -> (i <= length v)%nat -> nshape w (mkN (Some (cut_to i v)) [(t, NCutting i)] (repeat None k))
| NS_done k m v : w = Some v -> nshape w (mkN (Some (map blank v)) [] (repeat None k ++ repeat (Some (host v)) m)).
Definition next_name (w : option bytes) (e : nev) : option bytes :=
  match w with
  | Some v => Some v
  | None => match e with NSet _ (Some v) => Some v | _ => None end
  end.
Lemma repeat_snoc {A : Type} (x : A) k : repeat x k ++ [x] = repeat x (Datatypes.S k).
Proof. induction k as [|k IH]; [reflexivity|]. cbn. rewrite IH. reflexivity. Qed.
Lemma name_step w s e : (forall v, w = Some v -> ~ In 0 v) -> c_name e -> nshape w s ->
  match e with NGo _ => True | _ => n_thr s = [] end ->
  exists s', nstep s e = Ok s' /\ nshape (next_name w e) s'.
Proof.
  intros NZ CN Sh Q. destruct Sh as [k ->|k t v ->|k t v i -> L|k m v ->].
  - destruct e as [t [v|]|t|]; cbn.
    + eexists. split; [reflexivity|]. apply (NS_check (Some v) k t v). reflexivity.
    + eexists. split; [reflexivity|]. constructor. reflexivity.
    + eexists. split; [reflexivity|]. constructor. reflexivity.
    + eexists. split; [reflexivity|]. rewrite (repeat_snoc None k). constructor. reflexivity.
  - destruct e as [u n|u|]; try discriminate Q. cbn [nstep next_name]. unfold nthr_of. cbn [n_thr find fst].
    destruct (t =? u) eqn:E; cbn [option_map snd].
    + eexists. split; [reflexivity|]. cbn [n_thr n_seen nend filter fst]. rewrite E. cbn [negb].
      replace u with t by lia. apply (NS_cut (Some v) k t v 0); [reflexivity|lia].
    + eexists. split; [reflexivity|]. constructor. reflexivity.
  - destruct e as [u n|u|]; try discriminate Q. cbn [nstep next_name]. unfold nthr_of. cbn [n_thr find fst].
    destruct (t =? u) eqn:E; cbn [option_map snd].
    + cbn [n_name n_thr n_seen nend filter fst]. rewrite E. cbn [negb]. replace u with t by lia. rewrite cut_len, cut_nth.
      replace (length v <? i)%nat with false by (symmetry; apply Nat.ltb_ge; lia).
      destruct (nth_error v i) as [x|] eqn:X.
      * assert (x <> 0). { intros ->. apply (NZ v eq_refl). eapply nth_error_In. exact X. }
        replace (x =? 0) with false by lia. eexists. split; [reflexivity|]. rewrite (put_cut _ _ _ X).
        apply NS_cut; [reflexivity|]. assert (nth_error v i <> None) as K by congruence. apply nth_error_Some in K. lia.
      * apply nth_error_None in X. eexists. split; [reflexivity|]. replace (cut_to i v) with (map blank v).
        -- pose proof (NS_done (Some v) k 0 v eq_refl) as Y. cbn in Y. rewrite app_nil_r in Y. exact Y.
        -- unfold cut_to. rewrite firstn_all2, skipn_all2, app_nil_r by lia. reflexivity.
    + eexists. split; [reflexivity|]. apply NS_cut; auto.
  - destruct e as [u [n|]|u|]; cbn [nstep next_name nthr_of n_thr find option_map n_name]; try (eexists; split; [reflexivity|]; apply NS_done; reflexivity).
    eexists. split; [reflexivity|]. cbn [n_seen]. rewrite cut_all by (apply NZ; reflexivity).
    rewrite <- app_assoc, (repeat_snoc (Some (host v)) m). apply NS_done. reflexivity.
Qed.
Lemma name_run es : forall w s, (forall v, w = Some v -> ~ In 0 v) -> Forall c_name es -> nshape w s -> quiet s es ->
  exists s', nrun s es = Ok s' /\ nshape (match w with Some v => Some v | None => first_name es end) s'.
Proof.
  induction es as [|e es IH]; intros w s NZ C Sh Q.
  - exists s. split; [reflexivity|]. destruct w; exact Sh.
  - inversion_clear C as [|x y C1 C2]. destruct Q as (Q1 & Q2).
    destruct (name_step w s e NZ C1 Sh Q1) as (s1 & E & Sh1). cbn [nrun]. rewrite E. cbn [obind].
    destruct (IH (next_name w e) s1) as (s2 & E2 & Sh2); auto.
    { intros v X. destruct w as [v'|]; cbn in X; [apply NZ; exact X|]. destruct e as [t [n|]|t|]; try discriminate. injection X as ->. exact C1. }
    exists s2. split; [exact E2|]. destruct w as [v'|]; cbn [next_name] in Sh2; [exact Sh2|].
    destruct e as [t [n|]|t|]; exact Sh2.
Qed.
Lemma name_spec es : Forall c_name es -> quiet (mkN None [] []) es -> exists s k m, nrun (mkN None [] []) es = Ok s /\
  n_seen s = repeat None k ++ match first_name es with Some v => repeat (Some (host v)) m | None => [] end.
Proof.
  intros C Q. destruct (name_run es None (mkN None [] [])) as (s & E & Sh); auto; [discriminate|apply (NS_empty None 0); reflexivity|].
  cbv beta iota in Sh. exists s. destruct Sh as [k W|k t v W|k t v i W L|k m v W]; rewrite W.
  - exists k, 0%nat. rewrite app_nil_r. auto.
  - exists k, 0%nat. cbn. rewrite app_nil_r. auto.
  - exists k, 0%nat. cbn. rewrite app_nil_r. auto.
  - exists k, m. auto.
Qed.
Lemma name_changes : exists es s a b, Forall c_name es /\ nrun (mkN None [] []) es = Ok s /\ n_seen s = [Some a; Some b] /\ a <> b.
Proof.
  exists [NSet 1 (Some [97]); NSet 2 (Some [98]); NGo 1; NGo 1; NGo 1; NGet; NGo 2; NGo 2; NGo 2; NGet].
  eexists. exists [97], [98]. split; [repeat constructor; cbn; lia|]. split; [vm_compute; reflexivity|]. split; [reflexivity|discriminate].
Qed.
Lemma name_port : exists es s a, Forall c_name es /\ nrun (mkN None [] []) es = Ok s /\ n_seen s = [Some a] /\ In 58 a.
Proof.
  exists [NSet 1 (Some [97; 58; 49]); NGo 1; NGet]. eexists. exists [97; 58; 49].
  split; [repeat constructor; cbn; lia|]. split; [vm_compute; reflexivity|]. split; [reflexivity|cbn; auto].
Qed.
Lemma name_ub : exists es, Forall c_name es /\ nrun (mkN None [] []) es = UB.
Proof.
  exists [NSet 1 (Some [97; 98; 99]); NSet 2 (Some [97]); NGo 1; NGo 1; NGo 1; NGo 2; NGo 1].
  split; [repeat constructor; cbn; lia|]. vm_compute. reflexivity.
Qed.
