(** The counts of references of the profiles. *)
From Verif Require Import Base HdrModel HdrProofs ProfModel ProfSpec.

Definition idx (p : ph) : option nat :=
  match p with
  | RUpd i _ _ | XSet i _ _ | XSetD i _ | VSet i _ _ | VSetD i _ | UDrop i
  | S1 i | S2 i _ | S3 i _ _ | S4 i _ _ _ | SRun i | K1 i | K2 i _ | KRun i | F1 i | F2 i | F3 i _ | FRun i
  | D1 i | DC i | DR i | GRead _ i => Some i
  | GNext _ => None
  end.
Definition holds (p : ph) : option nat :=
  match p with
  | UDrop i | S1 i | S2 i _ | S3 i _ _ | S4 i _ _ _ | SRun i | K1 i | K2 i _ | KRun i | F1 i | F2 i | F3 i _ | FRun i | DR i => Some i
  | _ => None
  end.
Definition isn (o : option nat) (i : nat) : nat := match o with Some j => if Nat.eqb j i then 1 else 0 | None => 0 end%nat.
Fixpoint thrc (l : list (Z * ph)) (i : nat) : nat := match l with [] => 0 | (_, p) :: r => isn (holds p) i + thrc r i end%nat.
Fixpoint tabc (l : list (Z * nat)) (i : nat) : nat := match l with [] => 0 | (_, j) :: r => isn (Some j) i + tabc r i end%nat.
Definition others (l : list (Z * ph)) (t : Z) := filter (fun e => negb (fst e =? t)) l.

Lemma others_in : forall l t x, In x (others l t) <-> In x l /\ fst x <> t.
Proof. intros l t x. unfold others. rewrite filter_In. split; intros (A & B); split; auto; destruct (Z.eqb_spec (fst x) t); cbn in *; congruence. Qed.
Lemma others_nodup : forall l t, NoDup (map fst l) -> NoDup (map fst (others l t)).
Proof.
  induction l as [|(a, p) l IH]; intros t H; cbn; auto. inversion H; subst. fold (others l t). destruct (negb (a =? t)); cbn; [|apply IH; auto].
  constructor; [|apply IH; auto]. intros K. apply H2. apply in_map_iff in K. destruct K as (x & <- & Kx). apply others_in in Kx. apply in_map. tauto.
Qed.
Lemma others_notin : forall l t, ~ In t (map fst (others l t)).
Proof. intros l t H. apply in_map_iff in H. destruct H as (x & Hx & K). apply others_in in K. tauto. Qed.
Lemma others_none : forall l t, ~ In t (map fst l) -> others l t = l.
Proof.
  induction l as [|(a, p) l IH]; intros t H; cbn; auto. destruct (Z.eqb_spec a t); cbn.
  - exfalso. apply H. left. auto.
  - f_equal. apply IH. intros K. apply H. right. auto.
Qed.
Lemma phase_none : forall s t, phase_of s t = None -> ~ In t (map fst (s_thr s)).
Proof.
  intros s t. unfold phase_of. induction (s_thr s) as [|(a, p) l IH]; cbn; auto. destruct (Z.eqb_spec a t); cbn; [discriminate|].
  intros H [K|K]; [congruence|]. apply IH; auto.
Qed.
Lemma phase_in : forall s t p, phase_of s t = Some p -> In (t, p) (s_thr s).
Proof.
  intros s t p. unfold phase_of. induction (s_thr s) as [|(a, q) l IH]; cbn; [discriminate|]. destruct (Z.eqb_spec a t); cbn.
  - intros [= ->]. left. congruence.
  - intros H. right. auto.
Qed.
Lemma thrc_phase : forall s t p i, NoDup (map fst (s_thr s)) -> phase_of s t = Some p ->
  thrc (s_thr s) i = (isn (holds p) i + thrc (others (s_thr s) t) i)%nat.
Proof.
  intros s t p i. unfold phase_of. induction (s_thr s) as [|(a, q) l IH]; cbn -[isn]; [discriminate|]. intros N H. inversion N; subst.
  destruct (Z.eqb_spec a t); cbn -[isn] in *.
  - injection H as ->. subst a. fold (others l t). rewrite others_none by auto. reflexivity.
  - fold (others l t). rewrite (IH H3 H). lia.
Qed.
Lemma thrc_in : forall l t p i, In (t, p) l -> holds p = Some i -> (0 < thrc l i)%nat.
Proof.
  induction l as [|(a, q) l IH]; intros t p i H K; [destruct H|]; destruct H as [H|H]; cbn -[isn].
  - injection H as -> ->. rewrite K. cbn. rewrite Nat.eqb_refl. lia.
  - specialize (IH _ _ _ H K). lia.
Qed.

Definition heapok (h : list (option prof)) (c : nat -> nat) : Prop :=
  forall i, match nth_error h i with Some (Some p) => p_ref p = Z.of_nat (c i) /\ (0 < c i)%nat | _ => c i = 0%nat end.
Definition count (s : pst) (i : nat) : nat := (tabc (s_tab s) i + thrc (s_thr s) i)%nat.
Definition refs (s : pst) : Prop :=
  NoDup (map fst (s_thr s)) /\ NoDup (map fst (s_tab s)) /\ NoDup (map snd (s_tab s)) /\ heapok (s_heap s) (count s).

Lemma heapok_ext : forall h c d, heapok h c -> (forall i, c i = d i) -> heapok h d.
Proof. intros h c d H E i. specialize (H i). rewrite <- E. exact H. Qed.
Lemma deref_nth : forall s i p, deref s i = Ok p -> nth_error (s_heap s) i = Some (Some p).
Proof. intros s i p. unfold deref. destruct (nth_error (s_heap s) i) as [[q|]|]; try discriminate. intros [= ->]. auto. Qed.
Lemma nth_deref : forall s i p, nth_error (s_heap s) i = Some (Some p) -> deref s i = Ok p.
Proof. intros s i p H. unfold deref. rewrite H. auto. Qed.
Lemma heapok_put : forall h c i p q, heapok h c -> nth_error h i = Some (Some p) -> p_ref q = p_ref p -> heapok (upd_nth h i (Some q)) c.
Proof.
  intros h c i p q H N R j. destruct (Nat.eq_dec i j) as [<-|D].
  - rewrite nth_upd_same by (apply nth_lt in N; auto). specialize (H i). rewrite N in H. rewrite R. exact H.
  - rewrite nth_upd_other by auto. apply H.
Qed.
Lemma heapok_more : forall h c d i p q, heapok h c -> nth_error h i = Some (Some p) -> p_ref q = p_ref p + 1 ->
  (forall j, d j = (isn (Some i) j + c j)%nat) -> heapok (upd_nth h i (Some q)) d.
Proof.
  intros h c d i p q H N R E j. rewrite E. destruct (Nat.eq_dec i j) as [<-|D].
  - rewrite nth_upd_same by (apply nth_lt in N; auto). specialize (H i). rewrite N in H. cbn. rewrite Nat.eqb_refl. rewrite R. lia.
  - rewrite nth_upd_other by auto. cbn. destruct (Nat.eqb_spec i j); [contradiction|]. apply H.
Qed.
Lemma write_is : forall s i f s', write s i f = Ok s' -> exists p, nth_error (s_heap s) i = Some (Some p) /\ s' = put_heap s (upd_nth (s_heap s) i (Some (f p))).
Proof.
  intros s i f s'. unfold write. destruct (deref s i) as [p|] eqn:D; [|discriminate]. cbn. intros [= <-]. exists p. split; [apply deref_nth|]; auto.
Qed.
Lemma unref_is : forall s i s', unref s i = Ok s' -> exists p, nth_error (s_heap s) i = Some (Some p) /\
  s' = put_heap s (upd_nth (s_heap s) i (if p_ref p - 1 =? 0 then None else Some (set_ref (p_ref p - 1) p))).
Proof.
  intros s i s'. unfold unref, write. destruct (deref s i) as [p|] eqn:D; [|discriminate]. cbn. intros H. exists p. split; [apply deref_nth; auto|].
  destruct (p_ref p - 1 =? 0); congruence.
Qed.
Lemma heapok_less : forall h c d i p, heapok h c -> nth_error h i = Some (Some p) ->
  (forall j, c j = (isn (Some i) j + d j)%nat) ->
  heapok (upd_nth h i (if p_ref p - 1 =? 0 then None else Some (set_ref (p_ref p - 1) p))) d.
Proof.
  intros h c d i p H N E j. destruct (Nat.eq_dec i j) as [<-|D].
  - rewrite nth_upd_same by (apply nth_lt in N; auto). specialize (H i). rewrite N, E in H. cbn in H. rewrite Nat.eqb_refl in H.
    destruct (Z.eqb_spec (p_ref p - 1) 0); cbn; lia.
  - rewrite nth_upd_other by auto. specialize (H j). rewrite E in H. cbn in H. destruct (Nat.eqb_spec i j); [contradiction|]. exact H.
Qed.

(** ** Tables *)
Lemma lookup_in : forall s u i, lookup s u = Some i -> In (u, i) (s_tab s).
Proof.
  intros s u i. unfold lookup. induction (s_tab s) as [|(v, j) l IH]; cbn; [discriminate|]. destruct (Z.eqb_spec v u); cbn.
  - intros [= ->]. left. congruence.
  - intros H. right. auto.
Qed.
Lemma lookup_none : forall s u, lookup s u = None -> ~ In u (map fst (s_tab s)).
Proof.
  intros s u. unfold lookup. induction (s_tab s) as [|(v, j) l IH]; cbn; auto. destruct (Z.eqb_spec v u); cbn; [discriminate|].
  intros H [K|K]; [congruence|]. apply IH; auto.
Qed.
Lemma tabc_in : forall l i, In i (map snd l) -> (0 < tabc l i)%nat.
Proof.
  induction l as [|(v, j) l IH]; intros i; cbn; [contradiction|]. intros [->|H]; [rewrite Nat.eqb_refl; lia|]. specialize (IH i H). lia.
Qed.
Lemma tabc_notin : forall l i, ~ In i (map snd l) -> tabc l i = 0%nat.
Proof.
  induction l as [|(v, j) l IH]; intros i; cbn; auto. intros H. destruct (Nat.eqb_spec j i); [exfalso; apply H; left; auto|]. rewrite IH; auto.
Qed.
Lemma tabc_one : forall l i, NoDup (map snd l) -> (tabc l i <= 1)%nat.
Proof.
  induction l as [|(v, j) l IH]; intros i N; cbn; auto. inversion N; subst. destruct (Nat.eqb_spec j i).
  - subst. rewrite tabc_notin by auto. lia.
  - apply (IH i) in H2. lia.
Qed.
Lemma tabc_app : forall a b i, tabc (a ++ b) i = (tabc a i + tabc b i)%nat.
Proof. induction a as [|(v, j) a IH]; intros b i; cbn -[isn]; auto. rewrite IH. lia. Qed.
Definition without (l : list (Z * nat)) (u : Z) := filter (fun e => negb (fst e =? u)) l.
Lemma without_none : forall l u, ~ In u (map fst l) -> without l u = l.
Proof.
  induction l as [|(a, p) l IH]; intros t H; cbn; auto. destruct (Z.eqb_spec a t); cbn.
  - exfalso. apply H. left. auto.
  - f_equal. apply IH. intros K. apply H. right. auto.
Qed.
Lemma without_in : forall l u x, In x (without l u) <-> In x l /\ fst x <> u.
Proof. intros l t x. unfold without. rewrite filter_In. split; intros (A & B); split; auto; destruct (Z.eqb_spec (fst x) t); cbn in *; congruence. Qed.
Lemma tabc_without : forall l u i j, NoDup (map fst l) -> In (u, i) l -> tabc l j = (isn (Some i) j + tabc (without l u) j)%nat.
Proof.
  induction l as [|(a, q) l IH]; intros u i j N H; cbn -[isn] in *; [contradiction|]. inversion N; subst. destruct H as [[= -> ->]|H].
  - rewrite Z.eqb_refl. cbn -[isn]. fold (without l u). rewrite without_none by auto. reflexivity.
  - destruct (Z.eqb_spec a u) as [->|D]; cbn -[isn].
    + exfalso. apply H2. apply in_map_iff. exists (u, i). auto.
    + fold (without l u). rewrite (IH u i j H3 H). lia.
Qed.
Lemma nodup_filter_map : forall A B (g : A -> B) f l, NoDup (map g l) -> NoDup (map g (filter f l)).
Proof.
  induction l as [|a l IH]; intros N; cbn; auto. inversion N; subst. destruct (f a); cbn; auto. constructor; auto.
  intros K. apply H1. apply in_map_iff in K. destruct K as (x & <- & Kx). apply filter_In in Kx. apply in_map. tauto.
Qed.
Lemma nodup_end : forall A (l : list A) x, NoDup l -> ~ In x l -> NoDup (l ++ [x]).
Proof.
  induction l as [|a l IH]; intros x N H; cbn; [constructor; auto|]. inversion N; subst. constructor.
  - intros K. apply in_app_or in K. destruct K as [K|[K|[]]]; [auto|]. subst. apply H. left. auto.
  - apply IH; auto. intros K. apply H. right. auto.
Qed.

(** ** One step *)
Lemma refs_goes_new : forall s t p h, NoDup (map fst (s_tab s)) -> NoDup (map snd (s_tab s)) -> NoDup (map fst (s_thr s)) -> phase_of s t = None ->
  heapok h (fun i => (isn (holds p) i + count s i)%nat) -> refs (goes (put_heap s h) t p).
Proof.
  intros s t p h N1 N2 N3 P H. unfold refs, goes; cbn. fold (others (s_thr s) t). split; [|split; [|split]]; auto.
  - constructor; [apply others_notin|apply others_nodup; auto].
  - eapply heapok_ext; [exact H|]. intros i. unfold count. cbn -[isn]. fold (others (s_thr s) t). rewrite others_none by (apply phase_none; auto). lia.
Qed.
Lemma refs_goes : forall s t p q h, refs s -> phase_of s t = Some p -> holds q = holds p -> heapok h (count s) -> refs (goes (put_heap s h) t q).
Proof.
  intros s t p q h (N3 & N1 & N2 & _) P E H. unfold refs, goes; cbn. fold (others (s_thr s) t). split; [|split; [|split]]; auto.
  - constructor; [apply others_notin|apply others_nodup; auto].
  - eapply heapok_ext; [exact H|]. intros i. unfold count. cbn -[isn]. fold (others (s_thr s) t). rewrite E, (thrc_phase s t p i); auto.
Qed.
Lemma refs_ends : forall s t p h, refs s -> phase_of s t = Some p ->
  heapok h (fun i => (tabc (s_tab s) i + thrc (others (s_thr s) t) i)%nat) -> refs (ends (put_heap s h) t).
Proof.
  intros s t p h (N3 & N1 & N2 & _) P H. unfold refs, ends; cbn. fold (others (s_thr s) t). split; [|split; [|split]]; auto.
  apply others_nodup; auto.
Qed.
Lemma refs_same : forall s s', refs s -> s_heap s' = s_heap s -> s_tab s' = s_tab s -> s_thr s' = s_thr s -> refs s'.
Proof. intros s s' (A & B & C & D) H T R. unfold refs. rewrite T, R, H. repeat split; auto. eapply heapok_ext; [exact D|]. intros i. unfold count. rewrite T, R. auto. Qed.
Lemma put_heap_id : forall s, put_heap s (s_heap s) = s.
Proof. destruct s; auto. Qed.
(* the state after a step of a thread that keeps what it holds *)
Lemma refs_move : forall s t p q, refs s -> phase_of s t = Some p -> holds q = holds p -> refs (goes s t q).
Proof. intros. rewrite <- (put_heap_id s) at 1. eapply refs_goes; eauto. apply H. Qed.
Lemma refs_write : forall s t p q i f w, refs s -> phase_of s t = Some p -> holds q = holds p -> nth_error (s_heap s) i = Some (Some w) ->
  p_ref (f w) = p_ref w -> refs (goes (put_heap s (upd_nth (s_heap s) i (Some (f w)))) t q).
Proof. intros. eapply refs_goes; eauto. eapply heapok_put; eauto. apply H. Qed.
Lemma refs_write_end : forall s t p i f w, refs s -> phase_of s t = Some p -> holds p = None -> nth_error (s_heap s) i = Some (Some w) ->
  p_ref (f w) = p_ref w -> refs (ends (put_heap s (upd_nth (s_heap s) i (Some (f w)))) t).
Proof.
  intros. eapply refs_ends; eauto. eapply heapok_ext; [eapply heapok_put; eauto; apply H|]. intros j. unfold count.
  rewrite (thrc_phase s t p j); auto; [rewrite H1; auto|apply H].
Qed.
Lemma refs_drop : forall s t p i w, refs s -> phase_of s t = Some p -> holds p = Some i -> nth_error (s_heap s) i = Some (Some w) ->
  refs (ends (put_heap s (upd_nth (s_heap s) i (if p_ref w - 1 =? 0 then None else Some (set_ref (p_ref w - 1) w)))) t).
Proof.
  intros. eapply refs_ends; eauto. eapply heapok_less; eauto; [apply H|]. intros j. unfold count. rewrite (thrc_phase s t p j); auto; [rewrite H1; cbn -[isn]; lia|apply H].
Qed.
Lemma refs_end : forall s t p, refs s -> phase_of s t = Some p -> holds p = None -> refs (ends s t).
Proof.
  intros. rewrite <- (put_heap_id s). eapply refs_ends; eauto. eapply heapok_ext; [apply H|]. intros j. unfold count.
  rewrite (thrc_phase s t p j); auto; [rewrite H1; auto|apply H].
Qed.
Ltac mon := repeat match goal with
  | H : (let! _ := deref ?s ?i in _) = Ok _ |- _ => let D := fresh "D" in let w := fresh "w" in
      destruct (deref s i) as [w|] eqn:D; [apply deref_nth in D; cbn [obind] in H|discriminate]
  | H : (let! _ := write ?s ?i ?f in _) = Ok _ |- _ => let D := fresh "D" in let w := fresh "w" in
      destruct (write s i f) as [?|] eqn:D; [apply write_is in D; destruct D as (w & D & ->); cbn [obind] in H|discriminate]
  | H : (let! _ := unref ?s ?i in _) = Ok _ |- _ => let D := fresh "U" in let w := fresh "w" in
      destruct (unref s i) as [?|] eqn:D; [apply unref_is in D; destruct D as (w & D & ->); cbn [obind] in H|discriminate]
  end.
Lemma refs_see : forall s o, refs s -> refs (see s o).
Proof. intros. eapply refs_same; eauto. Qed.
Lemma refs_lock : forall s l, refs s -> refs (put_lock s l).
Proof. intros. eapply refs_same; eauto. Qed.

Lemma adv_refs : forall s t p r s', refs s -> phase_of s t = Some p -> adv s t p r = Ok s' -> refs s'.
Proof.
  intros s t p r s' R P H. destruct p; cbn -[write unref goes ends see put_lock] in H.
  - repeat (destruct k as [|k]; [mon; injection H as <-; eapply refs_write; eauto; reflexivity|]).
    mon. injection H as <-. apply refs_see. eapply refs_write_end; eauto.
  - mon. injection H as <-. eapply refs_write; eauto; reflexivity.
  - mon. injection H as <-. apply refs_see. eapply refs_same; [eapply (refs_write_end s t _ i (set_ext_d d)); eauto|..]; reflexivity.
  - mon. injection H as <-. eapply refs_write; eauto; reflexivity.
  - mon. injection H as <-. apply refs_see. eapply refs_same; [eapply (refs_write_end s t _ i (set_recv_d d)); eauto|..]; reflexivity.
  - mon. injection H as <-. apply refs_see. eapply refs_same; [eapply (refs_drop s t _ i); eauto; reflexivity|..]; reflexivity.
  - mon. injection H as <-. eapply refs_move; eauto; reflexivity.
  - mon. injection H as <-. eapply refs_move; eauto; reflexivity.
  - mon. injection H as <-. eapply refs_move; eauto; reflexivity.
  - assert (G : refs (goes s t (SRun i))) by (eapply refs_move; eauto; reflexivity).
    destruct e; [|destruct st; [destruct (s_glob s) as [(?, ?)|]|]]; mon; injection H as <-; apply refs_see; exact G.
  - mon. injection H as <-. apply refs_see. eapply refs_drop; eauto; reflexivity.
  - mon. injection H as <-. eapply refs_move; eauto; reflexivity.
  - mon. injection H as <-. apply refs_see. eapply refs_move; eauto; reflexivity.
  - mon. injection H as <-. apply refs_see. eapply refs_drop; eauto; reflexivity.
  - mon. destruct (p_recv w); mon; injection H as <-; apply refs_see; [eapply refs_move; eauto; reflexivity|eapply refs_drop; eauto; reflexivity].
  - mon. destruct (p_recv w); mon; injection H as <-; [eapply refs_move; eauto; reflexivity|apply refs_see; eapply refs_drop; eauto; reflexivity].
  - mon. injection H as <-. apply refs_see. eapply refs_move; eauto; reflexivity.
  - mon. injection H as <-. eapply refs_drop; eauto; reflexivity.
  - mon. injection H as <-. apply refs_see. eapply refs_end; eauto; reflexivity.
  - mon. injection H as <-. apply refs_see. eapply refs_end; eauto; reflexivity.
  - mon. injection H as <-. apply refs_see. eapply refs_drop; eauto; reflexivity.
  - destruct (nth_error (s_list s) k); injection H as <-; [eapply refs_move; eauto; reflexivity|apply refs_see; eapply refs_end; eauto; reflexivity].
  - mon. injection H as <-. apply refs_see. eapply refs_move; eauto; reflexivity.
Qed.

Lemma enlist_refs : forall s u p, refs s -> lookup s u = None -> p_ref p = 1 -> refs (enlist s u p).
Proof.
  intros s u p (N3 & N1 & N2 & H) L E. unfold refs, enlist; cbn. rewrite !map_app. cbn. pose proof (H (length (s_heap s))) as F.
  rewrite (proj2 (nth_error_None _ _)) in F by lia. unfold count in F. split; [|split; [|split]]; auto.
  - apply nodup_end; auto. apply lookup_none; auto.
  - apply nodup_end; auto. intros K. apply tabc_in in K. lia.
  - intros i. unfold count. cbn -[isn]. rewrite tabc_app. cbn. destruct (Nat.eqb_spec (length (s_heap s)) i) as [<-|D].
    + rewrite nth_error_app2, Nat.sub_diag by lia. cbn. lia.
    + specialize (H i). unfold count in H. destruct (Nat.lt_ge_cases i (length (s_heap s))).
      * rewrite nth_error_app1 by lia. destruct (nth_error (s_heap s) i) as [[q|]|]; lia.
      * rewrite (proj2 (nth_error_None (s_heap s ++ [Some p]) i)) by (rewrite app_length; cbn; lia).
        rewrite (proj2 (nth_error_None (s_heap s) i)) in H by lia. lia.
Qed.
Lemma get_and_ref_is : forall s u r s', refs s -> get_and_ref s u = Ok (r, s') ->
  (r = None /\ lookup s u = None /\ s' = s) \/
  (exists i w, r = Some i /\ lookup s u = Some i /\ nth_error (s_heap s) i = Some (Some w) /\ 0 < p_ref w /\
     s' = put_heap s (upd_nth (s_heap s) i (Some (set_ref (p_ref w + 1) w)))).
Proof.
  intros s u r s' R. unfold get_and_ref. destruct (lookup s u) as [i|] eqn:L; [|intros [= <- <-]; auto].
  intros H. mon. rewrite D in D0. injection D0 as <-. destruct R as (_ & _ & _ & K). specialize (K i). rewrite D in K.
  destruct (Z.ltb_spec 0 (p_ref w + 1)); [|lia]. injection H as <- <-. right. exists i, w. repeat split; auto. lia.
Qed.
Lemma refs_take : forall s t i w p, refs s -> phase_of s t = None -> nth_error (s_heap s) i = Some (Some w) -> holds p = Some i ->
  refs (goes (put_heap s (upd_nth (s_heap s) i (Some (set_ref (p_ref w + 1) w)))) t p).
Proof.
  intros s t i w p (N3 & N1 & N2 & H) P D E. apply refs_goes_new; auto. rewrite E. eapply heapok_more; eauto.
Qed.
Lemma refs_new : forall s t p, refs s -> phase_of s t = None -> holds p = None -> refs (goes s t p).
Proof. intros s t p (N3 & N1 & N2 & H) P E. rewrite <- (put_heap_id s). apply refs_goes_new; auto. rewrite E. exact H. Qed.

Lemma begin_refs : forall s t c s', refs s -> phase_of s t = None -> begin s t c = Ok s' -> refs s'.
Proof.
  intros s t c s' R P H. destruct c; cbn -[goes see enlist get_and_ref put_lock] in H;
    try (destruct (free_lock s); [|congruence]);
    try (match type of H with (let! _ := get_and_ref s ?u in _) = _ =>
           destruct (get_and_ref s u) as [(o, s1)|] eqn:G; [|discriminate]; cbn -[goes see] in H;
           destruct (get_and_ref_is s u o s1 R G) as [(-> & _ & ->)|(i & w & -> & _ & D & _ & ->)]; injection H as <-;
           [apply refs_see; auto|eapply refs_take; eauto] end).
  - destruct (lookup s u) as [i|] eqn:L; injection H as <-; [apply refs_new; auto|apply refs_see; apply enlist_refs; auto].
  - destruct (lookup s u) as [i|] eqn:L; injection H as <-; [apply refs_new; auto; apply refs_lock; auto|apply refs_see; apply enlist_refs; auto].
  - destruct (lookup s u) as [i|] eqn:L; injection H as <-; [apply refs_new; auto; apply refs_lock; auto|apply refs_see; auto].
  - destruct (lookup s u) as [i|] eqn:L; [|injection H as <-; apply refs_see; auto].
    mon. injection H as <-. pose proof R as (N3 & N1 & N2 & K). apply lookup_in in L. unfold refs, goes; cbn. fold (others (s_thr s) t). fold (without (s_tab s) u).
    split; [|split; [|split]].
    + constructor; [apply others_notin|apply others_nodup; auto].
    + apply nodup_filter_map; auto.
    + apply nodup_filter_map; auto.
    + eapply heapok_ext; [exact K|]. intros j. unfold count. cbn -[isn]. fold (others (s_thr s) t). fold (without (s_tab s) u).
      rewrite others_none by (apply phase_none; auto). rewrite (tabc_without _ u i j); auto. cbn -[isn]. lia.
  - injection H as <-. apply refs_see; auto.
  - destruct (lookup s u) as [i|] eqn:L; injection H as <-; [apply refs_new; auto|apply refs_see; auto].
  - destruct (lookup s u) as [i|] eqn:L; injection H as <-; [apply refs_new; auto|apply refs_see; auto].
  - injection H as <-. apply refs_new; auto.
Qed.
Lemma step_refs : forall s e s', refs s -> pstep s e = Ok s' -> refs s'.
Proof.
  intros s e s' R H. destruct e as [t c|t r|g]; cbn in H.
  - destruct (phase_of s t) eqn:P; [congruence|]. eapply begin_refs; eauto.
  - destruct (phase_of s t) eqn:P; [|congruence]. eapply adv_refs; eauto.
  - injection H as <-. eapply refs_same; eauto.
Qed.
Lemma refs0 : refs pst0.
Proof. repeat split; try constructor. intros [|i]; reflexivity. Qed.
Lemma run_refs : forall es s s', refs s -> prun s es = Ok s' -> refs s'.
Proof.
  induction es as [|e es IH]; intros s s' R H; cbn in H; [congruence|]. destruct (pstep s e) as [s1|] eqn:E; [|discriminate]. cbn in H.
  apply (IH s1 s'); auto. eapply step_refs; eauto.
Qed.
