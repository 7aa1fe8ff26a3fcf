(** Proofs about the handlers called when a connection is closed. *)
From Verif Require Import Base OnCloseModel OnCloseSpec.
From Coq Require Import Permutation Sorting.Sorted.

Ltac conj := repeat match goal with |- _ /\ _ => split end.

Lemma ok_inj {A} (a b : A) : Ok a = Ok b -> a = b.
Proof. congruence. Qed.
Lemma crun_app s a b : crun s (a ++ b) = match crun s a with Ok s' => crun s' b | UB => UB end.
Proof.
  revert s. induction a as [|e a IH]; intros s; [reflexivity|].
  cbn [crun app]. destruct (cstep s e) as [s'|]; cbn [obind]; [apply IH|reflexivity].
Qed.
Lemma snoc_cases {A} (l : list A) x a o b : l ++ [x] = a ++ o :: b -> (a = l /\ o = x /\ b = []) \/ exists b', l = a ++ o :: b' /\ b = b' ++ [x].
Proof.
  destruct b as [|y b _] using rev_ind; intros H.
  - left. apply app_inj_tail in H. destruct H; subst; auto.
  - right. exists b. change (a ++ o :: b ++ [y]) with (a ++ (o :: b) ++ [y]) in H. rewrite app_assoc in H.
    apply app_inj_tail in H. destruct H; subst; auto.
Qed.

Lemma NoDup_app_remove_l {A} (a b : list A) : NoDup (a ++ b) -> NoDup b.
Proof. induction a as [|x a IH]; [auto|]. intros N. inversion N; auto. Qed.
Lemma NoDup_app_remove_r {A} (a b : list A) : NoDup (a ++ b) -> NoDup a.
Proof. intros N. apply (Permutation_NoDup (Permutation_app_comm a b)) in N. apply NoDup_app_remove_l in N. exact N. Qed.
Lemma NoDup_app_disj {A} (a b : list A) x : NoDup (a ++ b) -> In x a -> In x b -> False.
Proof.
  induction a as [|y a IH]; [intros _ []|]. intros N [->|I] J; inversion N; subst; [|eauto].
  match goal with H : ~ In x (a ++ b) |- _ => apply H end. apply in_app_iff. auto.
Qed.

(** Projections of logs *)
Lemma installed_app a b : installed (a ++ b) = installed a ++ installed b.
Proof. unfold installed. apply flat_map_app. Qed.
Lemma calls_app a b : calls (a ++ b) = calls a ++ calls b.
Proof. unfold calls. apply flat_map_app. Qed.
Lemma ends_app a b : ends (a ++ b) = ends a ++ ends b.
Proof. unfold ends. apply flat_map_app. Qed.
Lemma removed_app a b : removed (a ++ b) = removed a ++ removed b.
Proof. unfold removed. apply flat_map_app. Qed.
Lemma taken_app a b : taken (a ++ b) = taken a ++ taken b.
Proof. unfold taken. apply flat_map_app. Qed.
Definition losts (l : list cobs) : list Z := flat_map (fun o => match o with OLost h => [i_id h] | _ => [] end) l.
Lemma losts_app a b : losts (a ++ b) = losts a ++ losts b.
Proof. unfold losts. apply flat_map_app. Qed.

Definition ids (l : list inst) : list Z := map i_id l.
Definition olist (o : option (list inst)) : list inst := match o with Some l => l | None => [] end.
Definition gots (c : list (Z * phase)) : list Z := flat_map (fun e : Z * phase => match snd e with PGot h => [i_id h] | _ => [] end) c.
Definition waiting (n : list (inst * bool)) : list Z := flat_map (fun e : inst * bool => if snd e then [] else [i_id (fst e)]) n.
Definition running (n : list (inst * bool)) : list Z := flat_map (fun e : inst * bool => if snd e then [i_id (fst e)] else []) n.

(** What is kept. *)
Record inv (s : ocs) : Prop := mkInv {
  v_lt : forall h, In h (installed (oc_log s)) -> i_id h < oc_next s;
  v_nd : NoDup (ids (installed (oc_log s)));
  v_plain : forall h, In h (olist (oc_plain s)) -> In h (installed (oc_log s)) /\ i_full h = false;
  v_full : forall h, In h (olist (oc_full s)) -> In h (installed (oc_log s)) /\ i_full h = true;
  v_taken : forall h, In h (taken (oc_log s)) -> In h (installed (oc_log s));
  v_got : forall t h, In (t, PGot h) (oc_closers s) -> In h (taken (oc_log s));
  v_thr : NoDup (map fst (oc_closers s));
  v_part : Permutation (ids (installed (oc_log s)))
             (ids (olist (oc_plain s)) ++ ids (olist (oc_full s)) ++ ids (taken (oc_log s)) ++ removed (oc_log s));
  v_tkn : Permutation (ids (taken (oc_log s))) (gots (oc_closers s) ++ waiting (oc_notes s) ++ calls (oc_log s) ++ losts (oc_log s));
  v_run : Permutation (calls (oc_log s)) (running (oc_notes s) ++ ends (oc_log s))
}.

Lemma inv0 : inv oc0.
Proof. constructor; cbn; try contradiction; try constructor. Qed.

(** Threads *)
Lemma find_split {B} (l : list (Z * B)) t p : find (fun e => fst e =? t) l = Some p -> NoDup (map fst l) ->
  exists a b, l = a ++ p :: b /\ fst p = t /\ (forall e, In e a -> fst e <> t) /\ (forall e, In e b -> fst e <> t).
Proof.
  induction l as [|x l IH]; [discriminate|]. cbn. intros H N. inversion N as [|? ? N1 N2]; subst.
  destruct (fst x =? t) eqn:E.
  - apply Z.eqb_eq in E. injection H as <-. exists [], l. conj; auto.
    intros e He Q. apply N1. rewrite E, <- Q. apply in_map, He.
  - apply Z.eqb_neq in E. destruct (IH H N2) as (a & b & Q1 & Q2 & Q3 & Q4). subst l. exists (x :: a), b. conj; auto.
    intros e [<-|He]; auto.
Qed.
Lemma closer_to_split (a b : list (Z * phase)) t p0 p : (forall e, In e a -> fst e <> t) -> (forall e, In e b -> fst e <> t) ->
  closer_to (a ++ (t, p0) :: b) t p = a ++ (t, p) :: b.
Proof.
  intros A B. unfold closer_to. rewrite map_app. cbn [map]. rewrite Z.eqb_refl. f_equal; [|f_equal].
  - rewrite <- (map_id a) at 2. apply map_ext_in. intros e He. pose proof (A e He) as Q. apply Z.eqb_neq in Q. cbn [fst]. rewrite Q. reflexivity.
  - rewrite <- (map_id b) at 2. apply map_ext_in. intros e He. pose proof (B e He) as Q. apply Z.eqb_neq in Q. cbn [fst]. rewrite Q. reflexivity.
Qed.
Lemma filter_all {A} (f : A -> bool) l : (forall e, In e l -> f e = true) -> filter f l = l.
Proof. induction l as [|x l IH]; [reflexivity|]. intros H. cbn. rewrite (H x) by (left; reflexivity). f_equal. apply IH. intros e He. apply H. right. exact He. Qed.
Lemma end_closer_split (a b : list (Z * phase)) t p0 : (forall e, In e a -> fst e <> t) -> (forall e, In e b -> fst e <> t) ->
  end_closer (a ++ (t, p0) :: b) t = a ++ b.
Proof.
  intros A B. unfold end_closer. rewrite filter_app. cbn [filter fst]. rewrite Z.eqb_refl. cbn [negb]. f_equal; apply filter_all.
  - intros e He. pose proof (A e He) as Q. apply Z.eqb_neq in Q. rewrite Q. reflexivity.
  - intros e He. pose proof (B e He) as Q. apply Z.eqb_neq in Q. rewrite Q. reflexivity.
Qed.
Lemma phase_split s t p : inv s -> phase_of s t = Some p ->
  exists a b, oc_closers s = a ++ (t, p) :: b /\ (forall e, In e a -> fst e <> t) /\ (forall e, In e b -> fst e <> t).
Proof.
  intros V H. unfold phase_of in H. destruct (find _ _) as [[u q]|] eqn:E; [|discriminate]. cbn in H. injection H as <-.
  destruct (find_split _ _ _ E (v_thr _ V)) as (a & b & Q1 & Q2 & Q3 & Q4). cbn in Q2. subst u. exists a, b. auto.
Qed.
Lemma phase_none s t : phase_of s t = None -> ~ In t (map fst (oc_closers s)).
Proof.
  unfold phase_of. destruct (find _ _) as [p|] eqn:E; [discriminate|]. intros _ H. apply in_map_iff in H. destruct H as (e & H1 & H2).
  pose proof (find_none _ _ E e H2) as Q. cbn in Q. apply Z.eqb_neq in Q. auto.
Qed.
Lemma gots_app a b : gots (a ++ b) = gots a ++ gots b.
Proof. unfold gots. apply flat_map_app. Qed.
Lemma waiting_app a b : waiting (a ++ b) = waiting a ++ waiting b.
Proof. unfold waiting. apply flat_map_app. Qed.
Lemma running_app a b : running (a ++ b) = running a ++ running b.
Proof. unfold running. apply flat_map_app. Qed.
Lemma ids_app a b : ids (a ++ b) = ids a ++ ids b.
Proof. unfold ids. apply map_app. Qed.

(** Notifications *)
Lemma notes_nodup s : inv s -> NoDup (map (fun e : inst * bool => i_id (fst e)) (oc_notes s)).
Proof.
  intros V.
  assert (N : NoDup (ids (taken (oc_log s)))).
  { pose proof (Permutation_NoDup (v_part _ V) (v_nd _ V)) as N. apply NoDup_app_remove_l in N. apply NoDup_app_remove_l in N. apply NoDup_app_remove_r in N. exact N. }
  pose proof (Permutation_NoDup (v_tkn _ V) N) as M. apply NoDup_app_remove_l in M. rewrite app_assoc in M. apply NoDup_app_remove_r in M.
  assert (P : Permutation (map (fun e : inst * bool => i_id (fst e)) (oc_notes s)) (waiting (oc_notes s) ++ running (oc_notes s))).
  { clear. induction (oc_notes s) as [|[h r] l IH]; [constructor|]. cbn. destruct r; cbn.
    - etransitivity; [apply perm_skip, IH|]. apply Permutation_middle.
    - apply perm_skip, IH. }
  apply (Permutation_NoDup (Permutation_sym P)).
  assert (R : Permutation (waiting (oc_notes s) ++ calls (oc_log s)) ((waiting (oc_notes s) ++ running (oc_notes s)) ++ ends (oc_log s))).
  { rewrite <- app_assoc. apply Permutation_app_head, (v_run _ V). }
  apply (Permutation_NoDup R) in M. apply NoDup_app_remove_r in M. exact M.
Qed.
Lemma note_split s id r : inv s -> note_of s id = Some r ->
  exists a h b, oc_notes s = a ++ (h, r) :: b /\ i_id h = id /\ (forall e, In e a -> i_id (fst e) <> id) /\ (forall e, In e b -> i_id (fst e) <> id).
Proof.
  intros V H. pose proof (notes_nodup s V) as N. unfold note_of in H. revert H N. induction (oc_notes s) as [|[h q] l IH]; [discriminate|].
  cbn. intros H N. inversion N as [|? ? N1 N2]; subst. destruct (i_id h =? id) eqn:E.
  - apply Z.eqb_eq in E. cbn in H. injection H as <-. exists [], h, l. conj; auto.
    intros e He Q. apply N1. rewrite E, <- Q. apply (in_map (fun e => i_id (fst e)) _ _ He).
  - apply Z.eqb_neq in E. destruct (IH H N2) as (a & h' & b & Q1 & Q2 & Q3 & Q4). subst l. exists ((h, q) :: a), h', b. conj; auto.
    intros e [<-|He]; auto.
Qed.
Lemma note_map a h r b id : i_id h = id -> (forall e, In e a -> i_id (fst e) <> id) -> (forall e, In e b -> i_id (fst e) <> id) ->
  map (fun e : inst * bool => if i_id (fst e) =? id then (fst e, true) else e) (a ++ (h, r) :: b) = a ++ (h, true) :: b.
Proof.
  intros Q A B. rewrite map_app. cbn [map fst]. rewrite Q, Z.eqb_refl. f_equal; [|f_equal].
  - rewrite <- (map_id a) at 2. apply map_ext_in. intros e He. pose proof (A e He) as R. apply Z.eqb_neq in R. cbn [fst]. rewrite R. reflexivity.
  - rewrite <- (map_id b) at 2. apply map_ext_in. intros e He. pose proof (B e He) as R. apply Z.eqb_neq in R. cbn [fst]. rewrite R. reflexivity.
Qed.
Lemma note_filter a h r b id : i_id h = id -> (forall e, In e a -> i_id (fst e) <> id) -> (forall e, In e b -> i_id (fst e) <> id) ->
  filter (fun e : inst * bool => negb (i_id (fst e) =? id)) (a ++ (h, r) :: b) = a ++ b.
Proof.
  intros Q A B. rewrite filter_app. cbn [filter fst]. rewrite Q, Z.eqb_refl. cbn [negb]. f_equal; apply filter_all.
  - intros e He. pose proof (A e He) as R. apply Z.eqb_neq in R. rewrite R. reflexivity.
  - intros e He. pose proof (B e He) as R. apply Z.eqb_neq in R. rewrite R. reflexivity.
Qed.

Lemma take_match_spec fn d l : match take_match fn d l with
  | Some (id, r) => exists a h b, l = a ++ h :: b /\ r = a ++ b /\ i_id h = id /\ i_fn h = fn /\ i_data h = d
  | None => forall h, In h l -> ~ (i_fn h = fn /\ i_data h = d)
  end.
Proof.
  induction l as [|h l IH]; [intros h []|]. cbn [take_match]. destruct ((fn =? i_fn h) && (d =? i_data h)) eqn:E.
  - apply andb_true_iff in E. destruct E as [E1 E2]. apply Z.eqb_eq in E1, E2. exists [], h, l. auto.
  - assert (N : ~ (i_fn h = fn /\ i_data h = d)).
    { intros [H1 H2]. rewrite H1, H2, !Z.eqb_refl in E. discriminate. }
    destruct (take_match fn d l) as [[id r]|].
    + destruct IH as (a & h' & b & Q1 & Q2 & Q3). exists (h :: a), h', b. rewrite Q1, Q2. auto.
    + intros x [<-|Hx]; auto.
Qed.

Lemma nodup_snoc {A} (l : list A) x : NoDup l -> ~ In x l -> NoDup (l ++ [x]).
Proof. intros N H. apply (Permutation_NoDup (Permutation_cons_append l x)). constructor; auto. Qed.

(** The steps that only touch a few fields *)
Lemma inv_frame s s' : inv s -> oc_plain s' = oc_plain s -> oc_full s' = oc_full s -> oc_closers s' = oc_closers s -> oc_notes s' = oc_notes s ->
  oc_next s' = oc_next s -> oc_log s' = oc_log s -> inv s'.
Proof. intros V A B C D E F. destruct V. constructor; rewrite ?A, ?B, ?C, ?D, ?E, ?F; auto. Qed.
Lemma inv_log s o : inv s -> installed [o] = [] -> taken [o] = [] -> removed [o] = [] -> calls [o] = [] -> ends [o] = [] -> losts [o] = [] ->
  inv (with_log s [o]).
Proof.
  intros V A B C D E F. destruct V. constructor; unfold with_log; cbn [oc_plain oc_full oc_closers oc_notes oc_next oc_log];
  rewrite ?installed_app, ?taken_app, ?removed_app, ?calls_app, ?ends_app, ?losts_app, ?A, ?B, ?C, ?D, ?E, ?F, ?app_nil_r; auto.
Qed.
Lemma inv_unref s k : inv s -> inv (unref_conn s k).
Proof.
  intros V. unfold unref_conn. destruct (_ =? 0).
  - apply (inv_frame (with_log s [OFree])); auto. apply inv_log; auto.
  - apply (inv_frame s); auto.
Qed.
Lemma inv_go s t p p' : inv s -> phase_of s t = Some p -> (forall h, p <> PGot h) -> (forall h, p' <> PGot h) ->
  inv (with_closers s (closer_to (oc_closers s) t p')).
Proof.
  intros V H N N'. destruct (phase_split s t p V H) as (a & b & Q & A & B). rewrite Q, closer_to_split by assumption.
  destruct V. unfold with_closers. constructor; cbn [oc_plain oc_full oc_closers oc_notes oc_next oc_log]; auto.
  - intros u h I. apply (v_got0 u h). rewrite Q. apply in_app_iff in I. apply in_app_iff. destruct I as [I|[I|I]]; [left; auto| |right; right; auto].
    injection I as _ I. exfalso. exact (N' h I).
  - rewrite Q, map_app in v_thr0. rewrite map_app. exact v_thr0.
  - rewrite Q in v_tkn0. rewrite gots_app in *. cbn in *.
    destruct p; try (exfalso; eapply N; reflexivity); destruct p'; try (exfalso; eapply N'; reflexivity); exact v_tkn0.
Qed.

Lemma inv_install s full last fn d : inv s -> inv (install s full last fn d).
Proof.
  intros V. unfold install. set (h := mkI _ _ _ _).
  assert (F : ~ In (i_id h) (ids (installed (oc_log s)))).
  { intros I. apply in_map_iff in I. destruct I as (x & E & I). apply (v_lt _ V) in I. cbn in E. lia. }
  destruct V. destruct full; unfold with_list, list_of;
  constructor; cbn [oc_plain oc_full oc_closers oc_notes oc_next oc_log olist];
  rewrite ?installed_app, ?taken_app, ?removed_app, ?calls_app, ?ends_app, ?losts_app; cbn [installed taken removed calls ends losts flat_map app];
  rewrite ?app_nil_r, ?ids_app; auto.
  all: try (intros x I; apply in_app_iff in I; destruct I as [I|[<-|[]]]; [apply v_lt0 in I; lia|cbn; lia]).
  all: try (apply nodup_snoc; auto; fail).
  all: try (intros x I; rewrite in_app_iff; auto; fail).
  - intros x I. apply v_plain0 in I. rewrite in_app_iff. tauto.
  - intros x I. rewrite in_app_iff. destruct last; cbn [andb negb] in I.
    + apply in_app_iff in I. destruct I as [I|[<-|[]]]; [apply v_full0 in I; tauto|]. split; [right; left; reflexivity|reflexivity].
    + destruct I as [<-|I]; [split; [right; left; reflexivity|reflexivity]|]. apply v_full0 in I. tauto.
  - etransitivity; [apply Permutation_app_tail, v_part0|]. cbn [ids map].
    change (match oc_full s with Some l => l | None => [] end) with (olist (oc_full s)).
    rewrite <- !app_assoc. apply Permutation_app_head.
    destruct last; cbn [andb negb]; unfold ids; rewrite ?map_app; cbn [map].
    + rewrite <- !app_assoc. apply Permutation_app_head. rewrite app_assoc. apply Permutation_app_comm.
    + rewrite !app_assoc. etransitivity; [apply Permutation_app_comm|]. cbn [app]. rewrite <- !app_assoc. reflexivity.
  - intros x I. rewrite in_app_iff. cbn [andb] in I. apply in_app_iff in I. destruct I as [I|[<-|[]]]; [apply v_plain0 in I; tauto|].
    split; [right; left; reflexivity|reflexivity].
  - intros x I. apply v_full0 in I. rewrite in_app_iff. tauto.
  - etransitivity; [apply Permutation_app_tail, v_part0|]. cbn [ids map andb].
    change (match oc_plain s with Some l => l | None => [] end) with (olist (oc_plain s)).
    unfold ids. rewrite map_app. cbn [map]. rewrite <- !app_assoc. apply Permutation_app_head.
    etransitivity; [|apply Permutation_app_comm]. rewrite <- !app_assoc. reflexivity.
Qed.

Lemma inv_remove s fn d : inv s -> inv (remove s fn d).
Proof.
  intros V. unfold remove. destruct (oc_full s) as [l|] eqn:L; [|apply inv_log; auto].
  pose proof (take_match_spec fn d l) as T. destruct (take_match fn d l) as [[id r]|]; [|apply inv_log; auto].
  destruct T as (a & h & b & -> & -> & E & _). destruct V. rewrite L in *.
  unfold with_log, with_list. constructor; cbn [oc_plain oc_full oc_closers oc_notes oc_next oc_log olist] in *;
  rewrite ?installed_app, ?taken_app, ?removed_app, ?calls_app, ?ends_app, ?losts_app; cbn [installed taken removed calls ends losts flat_map app];
  rewrite ?app_nil_r; auto.
  - intros x I. apply v_full0. apply in_app_iff in I. apply in_app_iff. cbn. tauto.
  - etransitivity; [exact v_part0|]. apply Permutation_app_head. rewrite !ids_app. cbn [ids map]. rewrite E.
    rewrite <- !app_assoc. apply Permutation_app_head. cbn [app]. rewrite !app_assoc. apply Permutation_cons_append.
Qed.

Lemma inv_close s t : inv s -> inv (close_conn s t).
Proof.
  intros V. unfold close_conn. destruct (phase_of s t) eqn:P; [exact V|]. destruct (oc_conn s); [|exact V].
  apply phase_none in P. destruct V. unfold ref_conn. constructor; cbn [oc_plain oc_full oc_closers oc_notes oc_next oc_log];
  rewrite ?installed_app, ?taken_app, ?removed_app, ?calls_app, ?ends_app, ?losts_app; cbn [installed taken removed calls ends losts flat_map app];
  rewrite ?app_nil_r; auto.
  - intros u h I. apply in_app_iff in I. destruct I as [I|[I|[]]]; [eauto|discriminate].
  - rewrite map_app. cbn. apply nodup_snoc; auto.
  - rewrite gots_app. cbn. rewrite app_nil_r. exact v_tkn0.
Qed.

Lemma inv_take s t full h r : inv s -> phase_of s t = Some (PLoop full) -> list_of s full = Some (h :: r) ->
  inv (with_log (with_list (with_closers s (closer_to (oc_closers s) t (PGot h))) full r) [OTake h]).
Proof.
  intros V H L. destruct (phase_split s t _ V H) as (a & b & Q & A & B). rewrite Q, closer_to_split by assumption.
  assert (I0 : In h (installed (oc_log s)) /\ i_full h = full).
  { destruct full; cbn in L; [apply (v_full _ V)|apply (v_plain _ V)]; rewrite L; left; reflexivity. }
  destruct V. unfold with_log, with_list, with_closers. destruct full; cbn [list_of] in L; rewrite L in *;
  constructor; cbn [oc_plain oc_full oc_closers oc_notes oc_next oc_log olist] in *;
  rewrite ?installed_app, ?taken_app, ?removed_app, ?calls_app, ?ends_app, ?losts_app; cbn [installed taken removed calls ends losts flat_map app];
  rewrite ?app_nil_r; auto.
  all: try (intros x I; apply in_app_iff in I; destruct I as [I|[<-|[]]]; [auto|tauto]).
  all: try (intros u x I; rewrite in_app_iff; apply in_app_iff in I; destruct I as [I|[I|I]];
            [left; apply (v_got0 u); rewrite Q, in_app_iff; auto
            |injection I as _ <-; right; left; reflexivity
            |left; apply (v_got0 u); rewrite Q, in_app_iff; right; right; exact I]).
  all: try (rewrite Q, map_app in v_thr0; rewrite map_app; exact v_thr0).
  all: try (rewrite Q, gots_app in v_tkn0; rewrite gots_app, ids_app; cbn in *;
            etransitivity; [apply Permutation_app_tail, v_tkn0|]; rewrite <- !app_assoc; apply Permutation_app_head; cbn [app];
            rewrite app_assoc; rewrite app_assoc; rewrite app_assoc; etransitivity; [apply Permutation_app_comm|]; cbn [app]; rewrite <- !app_assoc; reflexivity).
  - intros x I. apply v_full0. right. exact I.
  - etransitivity; [exact v_part0|]. apply Permutation_app_head. rewrite ids_app. cbn [ids map app].
    etransitivity; [apply Permutation_middle|]. apply Permutation_app_head. rewrite <- app_assoc. cbn [app]. apply Permutation_middle.
  - intros x I. apply v_plain0. right. exact I.
  - etransitivity; [exact v_part0|]. rewrite ids_app. cbn [ids map app].
    etransitivity; [apply Permutation_middle|]. apply Permutation_app_head.
    etransitivity; [apply Permutation_middle|]. apply Permutation_app_head. rewrite <- app_assoc. cbn [app]. apply Permutation_middle.
Qed.

Lemma inv_got s t h (ok : bool) : inv s -> phase_of s t = Some (PGot h) ->
  inv (if ok then with_notes (ref_conn (with_closers s (closer_to (oc_closers s) t (PLoop (i_full h)))) 0) (oc_notes s ++ [(h, false)])
       else with_log (with_closers s (closer_to (oc_closers s) t (PLoop (i_full h)))) [OLost h]).
Proof.
  intros V H. destruct (phase_split s t _ V H) as (a & b & Q & A & B). rewrite Q, closer_to_split by assumption.
  destruct V. unfold with_log, with_notes, ref_conn, with_closers. destruct ok;
  constructor; cbn [oc_plain oc_full oc_closers oc_notes oc_next oc_log olist] in *;
  rewrite ?installed_app, ?taken_app, ?removed_app, ?calls_app, ?ends_app, ?losts_app; cbn [installed taken removed calls ends losts flat_map app];
  rewrite ?app_nil_r; auto.
  all: try (intros u x I; apply (v_got0 u); rewrite Q; rewrite in_app_iff in *; cbn in *; destruct I as [I|[I|I]]; [auto|discriminate|auto]).
  all: try (rewrite Q, map_app in v_thr0; rewrite map_app; exact v_thr0).
  - rewrite Q, gots_app in v_tkn0. rewrite gots_app, waiting_app. cbn in *. etransitivity; [exact v_tkn0|].
    rewrite <- !app_assoc. apply Permutation_app_head. cbn [app].
    etransitivity; [apply Permutation_middle|]. apply Permutation_app_head. apply Permutation_middle.
  - rewrite running_app. cbn. rewrite app_nil_r. exact v_run0.
  - rewrite Q, gots_app in v_tkn0. rewrite gots_app. cbn in *. etransitivity; [exact v_tkn0|].
    rewrite <- !app_assoc. apply Permutation_app_head. cbn [app]. rewrite !app_assoc. apply Permutation_cons_append.
Qed.

Lemma inv_closer s t ok : inv s -> inv (closer_step s t ok).
Proof.
  intros V. unfold closer_step. destruct (phase_of s t) as [[full|full|full|h| |]|] eqn:P; [| | | | | |exact V].
  - destruct (list_of s full); eapply inv_go; eauto; try discriminate. destruct full; discriminate.
  - destruct (oc_exit s); eapply inv_go; eauto; try discriminate. destruct full; discriminate.
  - destruct (list_of s full) as [[|h r]|] eqn:L.
    + eapply inv_go; eauto; try discriminate. destruct full; discriminate.
    + apply inv_take; auto.
    + eapply inv_go; eauto; try discriminate. destruct full; discriminate.
  - apply inv_got; auto.
  - apply inv_log; auto. eapply inv_go; eauto; discriminate.
  - apply inv_unref. destruct (phase_split s t _ V P) as (a & b & Q & A & B). rewrite Q, end_closer_split by assumption.
    destruct V. unfold with_closers. constructor; cbn [oc_plain oc_full oc_closers oc_notes oc_next oc_log olist] in *; auto.
    + intros u x I. apply (v_got0 u). rewrite Q. rewrite in_app_iff in *. cbn. tauto.
    + rewrite Q, map_app in v_thr0. cbn in v_thr0. rewrite map_app. apply NoDup_remove_1 in v_thr0. exact v_thr0.
    + rewrite Q, gots_app in v_tkn0. rewrite gots_app. cbn in *. exact v_tkn0.
Qed.

Lemma inv_note s id : inv s -> inv (note_step s id).
Proof.
  intros V. unfold note_step. destruct (note_of s id) as [[]|] eqn:E; [| |exact V].
  - apply inv_unref. destruct (note_split s id true V E) as (a & h & b & Q & I & A & B). rewrite Q, note_filter by assumption.
    destruct V. unfold with_log, with_notes. constructor; cbn [oc_plain oc_full oc_closers oc_notes oc_next oc_log olist] in *;
    rewrite ?installed_app, ?taken_app, ?removed_app, ?calls_app, ?ends_app, ?losts_app; cbn [installed taken removed calls ends losts flat_map app];
    rewrite ?app_nil_r; auto.
    + rewrite Q, waiting_app in v_tkn0. rewrite waiting_app. exact v_tkn0.
    + rewrite Q, running_app in v_run0. rewrite running_app. cbn in v_run0. rewrite I in v_run0. etransitivity; [exact v_run0|].
      rewrite <- !app_assoc. apply Permutation_app_head. cbn [app]. rewrite app_assoc. apply Permutation_cons_append.
  - destruct (note_split s id false V E) as (a & h & b & Q & I & A & B). rewrite Q, note_map by assumption.
    destruct V. unfold with_log, with_notes. constructor; cbn [oc_plain oc_full oc_closers oc_notes oc_next oc_log olist] in *;
    rewrite ?installed_app, ?taken_app, ?removed_app, ?calls_app, ?ends_app, ?losts_app; cbn [installed taken removed calls ends losts flat_map app];
    rewrite ?app_nil_r; auto.
    + rewrite Q, waiting_app in v_tkn0. rewrite waiting_app. cbn in *. rewrite I in v_tkn0. etransitivity; [exact v_tkn0|].
      apply Permutation_app_head. rewrite <- !app_assoc. apply Permutation_app_head. cbn [app].
      etransitivity; [apply Permutation_middle|]. apply Permutation_app_head. apply Permutation_middle.
    + rewrite Q, running_app in v_run0. rewrite running_app. cbn in *. rewrite I. etransitivity; [apply Permutation_app_comm|]. cbn [app].
      etransitivity; [apply perm_skip, v_run0|]. rewrite <- !app_assoc. apply Permutation_middle.
Qed.

Lemma inv_step s e s' : inv s -> cstep s e = Ok s' -> inv s'.
Proof.
  intros V H. unfold cstep in H. destruct (oc_freed s && active s e); [discriminate|]. apply ok_inj in H. subst s'. destruct e.
  - apply inv_install, V.
  - apply inv_remove, V.
  - apply inv_close, V.
  - apply inv_closer, V.
  - apply inv_note, V.
  - apply (inv_frame s); auto.
  - apply inv_unref, V.
  - apply (inv_frame s); auto.
  - apply (inv_frame s); auto.
Qed.
Lemma inv_run es s s' : inv s -> crun s es = Ok s' -> inv s'.
Proof.
  revert s. induction es as [|e es IH]; intros s V H; cbn in H; [apply ok_inj in H; subst; exact V|].
  destruct (cstep s e) as [r|] eqn:E; [|discriminate]. cbn in H. apply (IH r); [|exact H]. eapply inv_step; eauto.
Qed.
