(** Proofs about the reader loop: the references, the requests and foreach. *)
From Verif Require Import Base LoopModel LoopSpec.
Ltac conj := repeat match goal with |- _ /\ _ => split end.
Ltac st := cbn [with_phase with_tries with_queue with_list with_flags the_list l_queue l_left l_con l_srv l_up l_unwatch l_blocked l_tries l_phase l_log fst snd].
Ltac sti H := cbn [with_phase with_tries with_queue with_list with_flags the_list l_queue l_left l_con l_srv l_up l_unwatch l_blocked l_tries l_phase l_log fst snd] in H.

Lemma cnt_app : forall A (f : A -> bool) l m, cnt f (l ++ m) = cnt f l + cnt f m.
Proof. intros A f l m. induction l as [|x l IH]; cbn [app cnt]; lia. Qed.
Lemma cnt_pos : forall A (f : A -> bool) l, 0 <= cnt f l.
Proof. intros A f l. induction l as [|x l IH]; cbn [cnt]; [lia|]. destruct (f x); lia. Qed.
Lemma cnt_map : forall A B (f : B -> bool) (g : A -> B) l, cnt f (map g l) = cnt (fun x => f (g x)) l.
Proof. intros A B f g l. induction l as [|x l IH]; cbn [map cnt]; [reflexivity|]. rewrite IH. reflexivity. Qed.
Lemma cnt_ext : forall A (f g : A -> bool) l, (forall x, f x = g x) -> cnt f l = cnt g l.
Proof. intros A f g l H. induction l as [|x l IH]; cbn [cnt]; [reflexivity|]. rewrite IH, H. reflexivity. Qed.
Lemma cnt_none : forall A (f : A -> bool) l, (forall x, f x = false) -> cnt f l = 0.
Proof. intros A f l H. induction l as [|x l IH]; cbn [cnt]; [reflexivity|]. rewrite IH, H. reflexivity. Qed.
Lemma cnt_remove : forall (f : nat -> bool) l i c, nth_error l i = Some c -> cnt f l = cnt f (remove_at l i) + if f c then 1 else 0.
Proof.
  intros f l. unfold remove_at. induction l as [|x l IH]; intros i c E; [destruct i; discriminate|]. destruct i as [|i].
  - injection E as <-. cbn [firstn skipn app cnt]. lia.
  - cbn [nth_error] in E. specialize (IH i c E). cbn [firstn app cnt]. change (skipn (S (S i)) (x :: l)) with (skipn (S i) l). lia.
Qed.
Lemma clean_cnt : forall (f : nat -> bool) bad l up k g up', clean bad up l = (k, g, up') -> cnt f l = cnt f k + cnt f g.
Proof.
  intros f bad. induction l as [|c l IH]; intros up k g up' E; cbn [clean] in E; [injection E as <- <- <-; reflexivity|].
  destruct (up c && bad c).
  - destruct (clean bad (upd up c false) l) as [[k1 g1] u1] eqn:C. injection E as <- <- <-. apply IH in C. cbn [cnt]. lia.
  - destruct (clean bad up l) as [[k1 g1] u1] eqn:C. injection E as <- <- <-. apply IH in C. cbn [cnt]. lia.
Qed.

(** * References *)
Definition bal (c : nat) (s : lst) : Z :=
  taken c (l_log s) - dropped c (l_log s) - requested c (l_queue s) - requested c (l_left s) - listed c s.
Lemma eqb_swap : forall c x, Nat.eqb c x = Nat.eqb x c.
Proof. intros. apply Nat.eqb_sym. Qed.
Ltac balance := unfold bal, listed in *; st; unfold taken, dropped, requested in *; rewrite ?cnt_app; cbn [cnt].

Lemma bal_phase : forall c s p o, (forall x, ~ In (LTake x) o) -> (forall x, ~ In (LDrop x) o) -> bal c (with_phase s p o) = bal c s.
Proof.
  intros c s p o T D. balance. assert (A : cnt (fun o => match o with LTake x => Nat.eqb x c | _ => false end) o = 0 /\ cnt (fun o => match o with LDrop x => Nat.eqb x c | _ => false end) o = 0).
  { induction o as [|x o IH]; [split; reflexivity|]. destruct IH as [I1 I2].
    - intros y I. apply (T y). right. exact I.
    - intros y I. apply (D y). right. exact I.
    - cbn [cnt]. rewrite I1, I2. destruct x as [y|y| | | | | | | | | |]; try (split; reflexivity); exfalso; [apply (T y)|apply (D y)]; left; reflexivity. }
  lia.
Qed.
Lemma bal_register : forall c s i, bal c (fst (register s i)) = bal c s - requested c [i].
Proof.
  intros c s i. unfold register. destruct i as [x|x| | | |k f]; [destruct (l_up s x)| | | | |]; balance; rewrite ?(eqb_swap c x); try lia; destruct (Nat.eqb x c); lia.
Qed.
Lemma bal_queue : forall c s i q, l_queue s = i :: q -> bal c (with_queue s q) = bal c s + requested c [i].
Proof. intros c s i q Q. balance. rewrite Q. cbn [cnt]. lia. Qed.
Lemma no_foreach : forall s k f x, ~ In (LTake x) (foreach s k f) /\ ~ In (LDrop x) (foreach s k f).
Proof.
  intros s k f x. unfold foreach. split; intros I; apply in_app_or in I; destruct I as [I|[I|[]]]; try discriminate; destruct f; try (destruct I; fail);
    apply in_map_iff in I; destruct I as [y [A _]]; discriminate.
Qed.
Lemma bal_foreach : forall c s p t k f, bal c (with_phase s p (foreach t k f)) = bal c s.
Proof. intros. apply bal_phase; intros x; apply no_foreach. Qed.
Ltac quiet := intros ? II; cbn [In] in II; repeat (destruct II as [II|II]; [discriminate|]); destruct II.
Lemma bal_stop : forall c s, bal c (stop s) = bal c s.
Proof.
  intros c s. unfold stop. balance. rewrite !map_app, !cnt_app, !cnt_map. cbn [cnt].
  rewrite !(cnt_none _ (fun _ => false)) by reflexivity.
  rewrite !(cnt_ext _ (Nat.eqb c) (fun x => Nat.eqb x c)) by (intros; apply eqb_swap). lia.
Qed.
Lemma bal_unlink : forall c s srv i x p, nth_error (the_list s srv) i = Some x -> bal c (unlink s srv i x p) = bal c s.
Proof.
  intros c s srv i x p N. unfold unlink. balance. destruct srv; sti N; st; rewrite (cnt_remove _ _ _ _ N), (eqb_swap c x); lia.
Qed.
Lemma bal_flags : forall c s u w b, bal c (with_flags s u w b) = bal c s.
Proof. intros. reflexivity. Qed.
Lemma bal_tries : forall c s n p, bal c (with_tries s n p) = bal c s.
Proof. intros. reflexivity. Qed.
Lemma bal_pending : forall c s n, bal c (pending s n) = bal c s.
Proof.
  intros c s n. unfold pending. destruct (l_queue s) as [|i q] eqn:Q; [reflexivity|]. pose proof (bal_queue c s i q Q) as B.
  destruct i as [x|x| | | |k f]; rewrite ?bal_foreach, ?bal_phase by quiet; rewrite ?bal_register, B; cbn [requested cnt]; unfold requested; cbn [cnt]; lia.
Qed.
Lemma bal_reg2 : forall c s i t b, register s i = (t, b) -> bal c t = bal c s - requested c [i].
Proof. intros c s i t b E. pose proof (bal_register c s i) as B. rewrite E in B. exact B. Qed.
Lemma bal_first : forall c s, bal c (first s) = bal c s.
Proof.
  intros c s. unfold first. destruct (l_queue s) as [|i q] eqn:Q; [reflexivity|]. pose proof (bal_queue c s i q Q) as B.
  destruct (register (with_queue s q) i) as [t b] eqn:R. pose proof (bal_reg2 c _ _ _ _ R) as B2.
  destruct i as [x|x| | | |k f]; rewrite ?bal_foreach, ?bal_stop, ?bal_phase by quiet; unfold requested in *; cbn [cnt] in *; lia.
Qed.
Lemma bal_changed : forall c s back, bal c (changed_io s back) = bal c s.
Proof.
  intros c s back. unfold changed_io. destruct (l_queue s) as [|i q] eqn:Q; [reflexivity|].
  destruct (register _ i) as [t b] eqn:R. pose proof (bal_reg2 c _ _ _ _ R) as B2. rewrite bal_phase in B2 by quiet. rewrite (bal_queue c s i q Q) in B2.
  rewrite bal_phase by quiet. lia.
Qed.
Lemma bal_tick : forall c s add r, bal c (tick s add r) = bal c s.
Proof.
  intros c s add r. unfold tick. destruct (l_phase s) as [| |srv i set|set|l|srv i k n ready|n go|back| |]; try reflexivity.
  - apply bal_first.
  - destruct (l_con s), (l_srv s); apply bal_phase; quiet.
  - destruct (nth_error (the_list s srv) i) as [x|] eqn:N; [|apply bal_phase; quiet].
    destruct (negb (l_up s x)); [apply bal_unlink; exact N|]. destruct (l_unwatch s x); [rewrite bal_unlink; [reflexivity|exact N]|].
    destruct (l_blocked s x); [apply bal_phase; quiet|]. destruct add; [apply bal_phase; quiet|]. rewrite bal_unlink; [reflexivity|exact N].
  - destruct r; try reflexivity; try (apply bal_phase; quiet); [destruct (Nat.eqb _ 2); reflexivity|apply bal_stop].
  - destruct l; [reflexivity|apply bal_phase; quiet].
  - destruct srv.
    + destruct (nth_error (l_srv s) i) as [x|] eqn:N; [|apply bal_phase; quiet]. destruct (negb (l_up s x)); [apply bal_unlink; exact N|].
      destruct (existsb (Nat.eqb x) ready); match goal with |- context [?a =? ?b] => destruct (a =? b) end; apply bal_phase; quiet.
    + destruct (nth_error (l_con s) i) as [x|] eqn:N; [|reflexivity]. destruct (n =? k); [reflexivity|]. destruct (negb (l_up s x)); [apply bal_unlink; exact N|].
      destruct (existsb (Nat.eqb x) ready); apply bal_phase; quiet.
  - destruct n as [|n]; [destruct go; [apply bal_phase; quiet|apply bal_stop]|apply bal_pending].
  - apply bal_changed.
Qed.
Lemma bal_cleanup : forall c s bad, bal c (cleanup s bad) = bal c s.
Proof.
  intros c s bad. unfold cleanup. destruct (clean bad (l_up s) (l_con s)) as [[k g] u] eqn:C1. destruct (clean bad u (l_srv s)) as [[k2 g2] u2] eqn:C2.
  balance. rewrite map_app, !cnt_app, !cnt_map, (clean_cnt _ _ _ _ _ _ _ C1), (clean_cnt _ _ _ _ _ _ _ C2), !(cnt_none _ (fun _ => false)) by reflexivity.
  rewrite !(cnt_ext _ (fun x => Nat.eqb x c) (Nat.eqb c)) by (intros; apply eqb_swap). lia.
Qed.
Lemma push_ok : forall s i o s', push s i o = Ok s' -> l_phase s <> PStopped /\ s' = with_phase (with_queue s (l_queue s ++ [i])) (l_phase s) o.
Proof. intros s i o s' E. unfold push in E. destruct (l_phase s); try discriminate; injection E as <-; (split; [discriminate|reflexivity]). Qed.
Lemma obind_ok : forall A B (m : outcome A) (k : A -> outcome B) b, obind m k = Ok b -> exists a, m = Ok a /\ k a = Ok b.
Proof. intros A B m k b E. destruct m as [a|]; [exists a; auto|discriminate]. Qed.

Lemma run_inv : forall (I : list lev -> lst -> Prop), I [] l0 ->
  (forall l s e s', lrun l0 l = Ok s -> I l s -> lstep s e = Ok s' -> I (l ++ [e]) s') -> forall l s, lrun l0 l = Ok s -> I l s.
Proof.
  intros I I0 IS. assert (APP : forall l m s, lrun s (l ++ m) = let! s := lrun s l in lrun s m).
  { induction l as [|e l IH]; intros m s; [reflexivity|]. cbn [app lrun]. destruct (lstep s e); cbn [obind]; auto. }
  induction l as [|e l IH] using rev_ind; intros s R; [injection R as <-; exact I0|].
  rewrite APP in R. apply obind_ok in R. destruct R as [s1 [R1 R2]]. cbn [lrun] in R2. apply obind_ok in R2. destruct R2 as [s2 [R2 R3]]. injection R3 as <-.
  eapply IS; eauto.
Qed.
Theorem refs_thm : forall l s c, lrun l0 l = Ok s ->
  taken c (l_log s) = dropped c (l_log s) + requested c (l_queue s) + requested c (l_left s) + listed c s.
Proof.
  intros l s c R. assert (B : bal c s = 0); [|unfold bal in B; lia]. revert l s R. apply (run_inv (fun _ s => bal c s = 0)); [reflexivity|].
  intros l s e s' _ B E. destruct e as [x ok|x| |k f| | |x|x|x b|add r|bad]; cbn [lstep] in E.
  - destruct (l_up s x && ok); [|congruence]. apply push_ok in E. destruct E as [_ ->]. revert B. balance. destruct (Nat.eqb x c); lia.
  - apply push_ok in E. destruct E as [_ ->]. revert B. balance. destruct (Nat.eqb x c); lia.
  - apply push_ok in E. destruct E as [_ ->]. revert B. balance. lia.
  - apply push_ok in E. destruct E as [_ ->]. revert B. balance. lia.
  - apply push_ok in E. destruct E as [_ ->]. revert B. balance. lia.
  - apply push_ok in E. destruct E as [_ ->]. revert B. balance. lia.
  - injection E as <-. exact B.
  - injection E as <-. exact B.
  - injection E as <-. exact B.
  - injection E as <-. rewrite bal_tick. exact B.
  - destruct (l_phase s); injection E as <-; rewrite ?bal_cleanup; exact B.
Qed.
Theorem step_thm : forall s e, lstep s e = UB <-> l_phase s = PStopped /\ is_push e = true /\ (forall c ok, e = Watch c ok -> l_up s c && ok = true).
Proof.
  intros s e. assert (P : forall i o, push s i o = UB <-> l_phase s = PStopped).
  { intros i o. unfold push. destruct (l_phase s); split; intros; try discriminate; reflexivity. }
  destruct e as [x ok|x| |k f| | |x|x|x b|add r|bad]; cbn [lstep is_push]; rewrite ?P; try (split; [intros H; conj; auto; discriminate|intros [H _]; exact H]);
    try (split; [discriminate|intros [_ [H _]]; discriminate]).
  - destruct (l_up s x && ok) eqn:U.
    + rewrite P. split; [intros H; conj; auto; intros c o E; injection E as <- <-; exact U|intros [H _]; exact H].
    + split; [discriminate|]. intros [_ [_ H]]. specialize (H x ok eq_refl). congruence.
  - split; [destruct (l_phase s); discriminate|intros [_ [H _]]; discriminate].
Qed.

