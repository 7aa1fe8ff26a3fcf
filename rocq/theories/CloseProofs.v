(** Proofs about the close of a channel: each request is answered once. *)
From Verif Require Import Base CloseModel CloseSpec.
Ltac conj := repeat match goal with |- _ /\ _ => split end.
Lemma ok_inj {A} (a b : A) : Ok a = Ok b -> a = b.
Proof. congruence. Qed.
Lemma find_less {A} (l : list (Z * A)) m x : find (fun e => fst e =? x) (less l m) = if x =? m then None else find (fun e => fst e =? x) l.
Proof.
  unfold less. induction l as [|[a p] l IH]; cbn; [destruct (x =? m); reflexivity|].
  destruct (a =? m) eqn:E; cbn.
  - rewrite IH. apply Z.eqb_eq in E. subst a. destruct (x =? m) eqn:X; [reflexivity|]. rewrite Z.eqb_sym, X. reflexivity.
  - destruct (a =? x) eqn:X; [|exact IH]. apply Z.eqb_eq in X. subst a. rewrite E. reflexivity.
Qed.
Definition look {A} (l : list (Z * A)) (x : Z) : option A := option_map snd (find (fun e => fst e =? x) l).
Lemma look_less {A} (l : list (Z * A)) m x : look (less l m) x = if x =? m then None else look l x.
Proof. unfold look. rewrite find_less. destruct (x =? m); reflexivity. Qed.
Lemma look_put {A} (l : list (Z * A)) m p x : look ((m, p) :: less l m) x = if x =? m then Some p else look l x.
Proof. unfold look. cbn. rewrite (Z.eqb_sym m x). destruct (x =? m) eqn:E; [reflexivity|]. rewrite find_less, E. reflexivity. Qed.
Lemma look_in {A} (l : list (Z * A)) x p : look l x = Some p -> exists y, In (y, p) l /\ y = x.
Proof.
  unfold look. destruct (find (fun e => fst e =? x) l) as [[a q]|] eqn:F; [|discriminate]. cbn. intros E. apply find_some in F. destruct F as [F1 F2].
  apply Z.eqb_eq in F2. cbn in F2. subst a. assert (q = p) by congruence. subst q. eauto.
Qed.
Lemma at_r_look s m : at_r s m = look (k_resp s) m.
Proof. reflexivity. Qed.
Lemma at_c_look s t : at_c s t = look (k_clo s) t.
Proof. reflexivity. Qed.
Lemma answers_app m a b : answers m (a ++ b) = answers m a ++ answers m b.
Proof. unfold answers. apply flat_map_app. Qed.
Lemma answers_nil m : answers m [] = [].
Proof. reflexivity. Qed.
Lemma answers_cons m o l : answers m (o :: l) = match o with OAnswer m' a => if m' =? m then [a] else [] | _ => [] end ++ answers m l.
Proof. reflexivity. Qed.
Arguments answers : simpl never.
Arguments look : simpl never.

(** What a request needs from what is shared. *)
Definition rown (p : rphase) : bool := match p with RWait | RFinish _ => true | _ => false end.
Definition cown (p : cphase) : bool := match p with CSet | CReplies | CSend | CPend | CEnd _ => true | _ => false end.
Definition chold (p : cphase) : bool := match p with CReplies | CSend | CPend => true | _ => false end.
Definition early (p : cphase) : bool := match p with CReplies | CSend => true | _ => false end.
Definition silent (p : rphase) : bool := match p with RFake | RFakeRef => false | _ => true end.

(** The invariant; the log is not involved. *)
Record inv (s : kst) : Prop := mkInv {
  i_reqs : 0 <= k_reqs s;
  i_valid : forall m p, at_r s m = Some p -> 0 <= m < k_reqs s;
  i_mutex : forall m b, at_r s m = Some (RHandler b) -> k_mutex s = Some m;
  i_held : forall m, k_mutex s = Some m -> k_being s = false;
  i_fresh : k_being s = false -> k_in s = true /\ k_wait s = false;
  i_touch : forall m p, at_r s m = Some p -> touching p -> k_in s = true;
  i_clock : forall t, at_c s t = Some CLock -> k_in s = true;
  i_rown : forall m p, at_r s m = Some p -> rown p = true -> k_being s = true /\ k_in s = true;
  i_one : forall m p m' p', at_r s m = Some p -> rown p = true -> at_r s m' = Some p' -> rown p' = true -> m = m';
  i_apart : forall m p t p', at_r s m = Some p -> rown p = true -> at_c s t = Some p' -> cown p' = true -> False;
  i_cown : forall t p, at_c s t = Some p -> cown p = true -> k_being s = true /\ k_in s = true;
  i_only : forall t p t' p', at_c s t = Some p -> cown p = true -> at_c s t' = Some p' -> cown p' = true -> t = t';
  i_refs : forall t p, at_c s t = Some p -> chold p = true -> k_wrefs s = 1 + (if k_sent s then 1 else 0) /\ k_wait s = true;
  i_fake : k_wait s = true -> forall m p, at_r s m = Some p -> touching p -> 1 <= k_wrefs s;
  i_set : k_wait s = true -> k_in s = true -> k_up s = true -> exists t q, at_c s t = Some q /\ (chold q = true \/ exists r, q = CEnd r);
  i_ref : forall m, at_r s m = Some RFakeRef -> k_wait s = true;
  i_early : forall t p, at_c s t = Some p -> early p = true -> k_sent s = false;
  i_endf : forall t, at_c s t = Some (CEnd false) -> k_wait s = false \/ k_up s = false;
  i_endt : forall t r m p, at_c s t = Some (CEnd r) -> at_r s m = Some p -> touching p -> k_up s = false
}.
Lemma inv_log s o : inv s -> inv (with_log s o).
Proof. intros []. constructor; auto. Qed.
Lemma inv_reply s m a : inv s -> inv (reply s m a).
Proof. unfold reply. destruct (k_up s); auto. apply inv_log. Qed.
Ltac fields := cbn [go_r end_r go_c end_c with_log with_resp with_clo with_being with_mutex with_out with_wait removed
                    k_up k_in k_being k_mutex k_out k_wait k_queue k_wrefs k_sent k_resp k_reqs k_clo k_log] in *.
Ltac lk1 := match goal with
  | H : context [look (_ :: less _ _) _] |- _ => rewrite look_put in H
  | H : context [look (less _ _) _] |- _ => rewrite look_less in H
  | |- context [look (_ :: less _ _) _] => rewrite look_put
  | |- context [look (less _ _) _] => rewrite look_less
  | H : context [if ?x =? ?m then _ else _] |- _ => let E := fresh "E" in destruct (x =? m) eqn:E; [apply Z.eqb_eq in E; subst|apply Z.eqb_neq in E]
  | H : Some _ = Some _ |- _ => injection H; clear H; intros; subst
  | H : None = Some _ |- _ => discriminate H
  | H : False |- _ => destruct H
  end.
Ltac lk := rewrite ?at_r_look, ?at_c_look in *; fields; repeat lk1.

Ltac fin := first [eassumption | discriminate | (eauto 3; fail) | congruence | lia | (exfalso; eauto 3; fail) | tauto | (eauto; fail) | (exfalso; eauto; fail)].
Ltac crush := match goal with I : inv _ |- _ => destruct I end; constructor; intros; lk; subst; cbn [rown cown chold early touching] in *; try fin.
(** The owner is still there. *)
Ltac keep t := match goal with H : forall _ : k_wait ?s = true, _ |- _ =>
  let t0 := fresh in let q0 := fresh in let E1 := fresh in let E2 := fresh in
  destruct H as (t0 & q0 & E1 & E2); auto; exists t0, q0; rewrite at_c_look in *; fields; rewrite ?look_put, ?look_less;
  let E := fresh in destruct (t0 =? t) eqn:E; [apply Z.eqb_eq in E; subst t0; exfalso|auto] end.
Lemma j_exists s m : inv s -> at_r s m = Some RCheck -> k_in s = true -> k_up s = true -> (forall t r, at_c s t <> Some (CEnd r)) -> inv (go_r s m RGet).
Proof.
  intros I P A B C. crush.
  - destruct (i_set0 H A B) as (t & q & E1 & [E2|[r E2]]).
    + destruct (i_refs0 t q E1 E2) as [X _]. rewrite X. destruct (k_sent s); lia.
    + subst q. exfalso. apply (C t r E1).
  - exfalso. apply (C t r). assumption.
Qed.
Lemma j_get s m : inv s -> at_r s m = Some RGet -> inv (go_r s m RLock).
Proof.
  intros I P. crush. 
Qed.
Lemma j_fake s m : inv s -> at_r s m = Some RLock -> inv (go_r s m RFake).
Proof.
  intros I P. crush. 
Qed.
Lemma j_fakeref s m : inv s -> at_r s m = Some RFake -> k_wait s = true -> inv (go_r s m RFakeRef).
Proof.
  intros I P. crush. 
Qed.
Lemma j_end s m : inv s -> inv (end_r s m).
Proof.
  intros I. crush. 
Qed.
Lemma j_drop s m : inv s -> inv (with_resp s (less (k_resp s) m)).
Proof.
  intros I. crush. 
Qed.
Lemma j_handler s m b : inv s -> at_r s m = Some RLock -> k_mutex s = None -> k_being s = false -> inv (with_mutex (go_r s m (RHandler b)) (Some m)).
Proof.
  intros I P A B. crush. exfalso. erewrite i_mutex0 in A by eassumption. discriminate.
Qed.
Lemma j_wait s m : inv s -> k_mutex s = None -> k_being s = false -> 0 <= m < k_reqs s -> inv (go_r (with_being s true) m RWait).
Proof.
  intros I A B C. crush. Qed.
Lemma j_decide s m b : inv s -> at_r s m = Some (RHandler b) -> inv (with_mutex (with_resp s (less (k_resp s) m)) None).
Proof.
  intros I A. pose proof (i_mutex s I m b A) as M. crush. exfalso. erewrite i_mutex0 in M by eassumption. congruence.
Qed.
Lemma j_fakepush s m : inv s -> at_r s m = Some RFakeRef -> inv (end_r (with_wait s (k_wait s) (k_queue s ++ [FFake]) (k_wrefs s) (k_sent s)) m).
Proof.
  intros I A. crush. 
Qed.
Lemma j_replies s m ok : inv s -> at_r s m = Some RWait -> inv (go_r (with_being s true) m (RFinish ok)).
Proof.
  intros I A. destruct (i_rown s I m RWait A eq_refl) as [B1 B2]. crush. 
Qed.
Lemma j_finish s m ok : inv s -> at_r s m = Some (RFinish ok) -> untouched s -> (forall t, at_c s t <> Some CLock) -> inv (end_r (removed s) m).
Proof.
  intros I A U C. destruct (i_rown s I m _ A eq_refl) as [B1 B2]. crush. 
  - exfalso. match goal with H : look (k_resp s) ?x = Some ?p, T : touching ?p |- _ => apply (U x p H T) end.
  - exfalso. match goal with H : look (k_clo s) ?x = Some CLock |- _ => apply (C x H) end.
Qed.
Lemma j_clock s t : inv s -> k_in s = true -> at_c s t = None -> inv (go_c s t CLock).
Proof.
  intros I A C. crush. keep t. congruence.
Qed.
Lemma j_cloop s t : inv s -> at_c s t = Some CLock -> inv (go_c s t CLoop).
Proof.
  intros I A. crush. keep t. match goal with E : look (k_clo s) t = Some _, F : chold _ = true \/ _ |- _ => rewrite A in E; injection E as <-; destruct F as [F|[? F]]; discriminate end.
Qed.
Lemma j_cset s t : inv s -> at_c s t = Some CLock -> k_mutex s = None -> k_being s = false -> inv (go_c (with_being s true) t CSet).
Proof.
  intros I A B C. crush. Qed.
Lemma j_cloopend s t r : inv s -> at_c s t = Some CLoop -> inv (end_c s t r).
Proof.
  intros I A. crush. keep t. match goal with E : look (k_clo s) t = Some _, F : chold _ = true \/ _ |- _ => rewrite A in E; injection E as <-; destruct F as [F|[? F]]; discriminate end.
Qed.
Lemma j_creplies s t : inv s -> at_c s t = Some CSet -> inv (go_c (with_wait s true [] 1 false) t CReplies).
Proof.
  intros I A. destruct (i_cown s I t CSet A eq_refl) as [B1 B2]. crush. 
  exists t, CReplies. rewrite at_c_look. fields. rewrite look_put, Z.eqb_refl. auto.
Qed.
Lemma j_cdown s t : inv s -> at_c s t = Some CReplies -> k_up s = false -> inv (go_c s t (CEnd true)).
Proof.
  intros I A B. crush. 
Qed.
Lemma j_csend s t : inv s -> at_c s t = Some CReplies -> inv (go_c s t CSend).
Proof.
  intros I A. crush. exists t, CSend. rewrite at_c_look. fields. rewrite look_put, Z.eqb_refl. auto.
Qed.
Lemma j_cskip s t : inv s -> at_c s t = Some CSend -> inv (go_c s t CPend).
Proof.
  intros I A. crush. exists t, CPend. rewrite at_c_look. fields. rewrite look_put, Z.eqb_refl. auto.
Qed.
Lemma j_csent s t : inv s -> at_c s t = Some CSend -> inv (go_c (with_wait s (k_wait s) (k_queue s) (k_wrefs s + 1) true) t CPend).
Proof.
  intros I A. destruct (i_refs s I t _ A eq_refl) as [B1 B2]. pose proof (i_early s I t _ A eq_refl) as B3. rewrite B3 in B1.
  assert (Only : forall t' p, look (k_clo s) t' = Some p -> chold p = true -> t' = t) by (intros t' p H1 H2; eapply (i_only s I t' p t CSend); eauto; destruct p; auto; discriminate).
  assert (Only2 : forall t' p, look (k_clo s) t' = Some p -> early p = true -> t' = t) by (intros t' p H1 H2; eapply (i_only s I t' p t CSend); eauto; destruct p; auto; discriminate).
  crush.
  exists t, CPend. rewrite at_c_look. fields. rewrite look_put, Z.eqb_refl. auto.
Qed.
Lemma j_cfail s t q : inv s -> at_c s t = Some CSend -> k_up s = false -> untouched s -> inv (go_c (with_wait s (k_wait s) q (k_wrefs s - 1) (k_sent s)) t (CEnd false)).
Proof.
  intros I A B U.
  assert (Only : forall t' p, look (k_clo s) t' = Some p -> chold p = true -> t' = t) by (intros t' p H1 H2; eapply (i_only s I t' p t CSend); eauto; destruct p; auto; discriminate).
  assert (U' : forall m p, look (k_resp s) m = Some p -> touching p -> False) by (intros m p H1 H2; apply (U m p H1 H2)).
  crush. Qed.
Lemma j_ctake s t q b r : inv s -> at_c s t = Some CPend -> untouched s -> (b = true -> k_wait s = true /\ r = true) -> inv (go_c (with_wait s b q (k_wrefs s - 1) (k_sent s)) t (CEnd r)).
Proof.
  intros I A U B.
  assert (Only : forall t' p, look (k_clo s) t' = Some p -> chold p = true -> t' = t) by (intros t' p H1 H2; eapply (i_only s I t' p t CPend); eauto; destruct p; auto; discriminate).
  assert (U' : forall m p, look (k_resp s) m = Some p -> touching p -> False) by (intros m p H1 H2; apply (U m p H1 H2)).
  assert (Only2 : forall t' p, look (k_clo s) t' = Some p -> early p = true -> t' = t) by (intros t' p H1 H2; eapply (i_only s I t' p t CPend); eauto; destruct p; auto; discriminate).
  destruct (i_cown s I t _ A eq_refl) as [B1 B2].
  crush. 
  - exists t, (CEnd r). rewrite at_c_look. fields. rewrite look_put, Z.eqb_refl. eauto.
  - exfalso. match goal with H : look (k_resp s) ?x = Some RFakeRef |- _ => apply (U' x _ H Logic.I) end.
Qed.
Lemma j_cend s t : inv s -> at_c s t = Some (CEnd true) -> untouched s -> (forall t, at_c s t <> Some CLock) -> inv (end_c (removed s) t true).
Proof.
  intros I A U C.
  assert (U' : forall m p, look (k_resp s) m = Some p -> touching p -> False) by (intros m p H1 H2; apply (U m p H1 H2)).
  destruct (i_cown s I t _ A eq_refl) as [B1 B2].
  crush. exfalso. match goal with H : look (k_clo s) ?x = Some CLock |- _ => apply (C x H) end.
Qed.
Lemma j_cend2 s t : inv s -> at_c s t = Some (CEnd false) -> inv (end_c s t false).
Proof.
  intros I A. destruct (i_endf s I t A) as [B|B].
  all: crush. Qed.
Lemma j_req s l : inv s -> inv (mkK (k_up s) (k_in s) (k_being s) (k_mutex s) (k_out s) (k_wait s) (k_queue s) (k_wrefs s) (k_sent s) ((k_reqs s, RCheck) :: less (k_resp s) (k_reqs s)) (k_reqs s + 1) (k_clo s) l).
Proof.
  intros I.
  crush. Qed.
Lemma j_req2 s l : inv s -> inv (mkK (k_up s) (k_in s) (k_being s) (k_mutex s) (k_out s) (k_wait s) (k_queue s) (k_wrefs s) (k_sent s) (k_resp s) (k_reqs s + 1) (k_clo s) l).
Proof.
  intros I.
  crush. Qed.
Lemma j_reply s q : inv s -> k_up s = true -> k_sent s = true -> inv (with_wait s (k_wait s) q (k_wrefs s - 1) false).
Proof.
  intros I A B.
  crush. match goal with H : look (k_resp s) ?x = Some ?p, T : touching ?p, W : k_wait s = true |- _ =>
    pose proof (i_touch0 x p H T) as Hin; destruct (i_set0 W Hin A) as (t & q' & E1 & [E2|[r E2]]) end.
  - destruct (i_refs0 t q' E1 E2) as [X _]. rewrite B in X. lia.
  - subst q'. exfalso. match goal with H : look (k_resp s) ?x = Some ?p, T : touching ?p |- _ => pose proof (i_endt0 t r x p E1 H T) end. congruence.
Qed.
Lemma j_out s n : inv s -> inv (with_out s n).
Proof. intros []. constructor; auto. Qed.
Lemma j_down s : inv s -> inv (mkK false (k_in s) (k_being s) (k_mutex s) (k_out s) (k_wait s) (k_queue s) (k_wrefs s) (k_sent s) (k_resp s) (k_reqs s) (k_clo s) (k_log s)).
Proof.
  intros I.
  crush. Qed.
